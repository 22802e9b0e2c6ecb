(** Model of the parallel loop that stores the offsets of new clusters
    (src/hdbscan.c:669-679).  The variable newCluster is declared before the loop, so all
    threads share it.  Simplification: the statements of an iteration are atomic steps that
    interleave; in C the unsynchronised accesses are a data race and already undefined. *)
From Verif Require Import Base ModelCluster.
Local Open Scope nat_scope.

(** hdbscan.c:677 [newCluster = newClusters->data[i]] and 678 [newCluster->offset =
    lineCount]. *)
Inductive step := Fetch (i : nat) | Store.
Definition do_step (new : list nat) (line : nat) (st : step) (s : option nat * clusters) : res (option nat * clusters) :=
  match st with
  | Fetch i => let! p := aget new i in Ok (Some p, snd s)
  | Store =>
      match fst s with
      | None => UB
      | Some p => let! c := cget (snd s) p in let! cs := cset (snd s) p (set_offset c line) in Ok (Some p, cs)
      end
  end.
Fixpoint do_steps (new : list nat) (line : nat) (l : list step) (s : option nat * clusters) : res (option nat * clusters) :=
  match l with [] => Ok s | st :: l' => let! s := do_step new line st s in do_steps new line l' s end.

(** hdbscan.c:675: a thread runs its iterations in order. *)
Definition thread (iterations : list nat) : list step := flat_map (fun i => [Fetch i; Store]) iterations.
(** Interleavings of the steps of the threads. *)
Inductive interleave : list (list step) -> list step -> Prop :=
| done ts : Forall (fun t => t = []) ts -> interleave ts []
| turn a x t b l : interleave (a ++ t :: b) l -> interleave (a ++ (x :: t) :: b) (x :: l).
(** hdbscan.c:672-679 with the iterations distributed over threads in any way and the steps
    scheduled as [l]; newCluster is NULL before. *)
Definition store_offsets (new : list nat) (line : nat) (l : list step) (cs : clusters) : res clusters :=
  let! s := do_steps new line l (None, cs) in Ok (snd s).
Definition schedule_of (new : list nat) (chunks : list (list nat)) (l : list step) : Prop :=
  concat chunks = seq 0 (length new) /\ interleave (map thread chunks) l.
