(** Specification of the life cycle of an object. *)
From Verif Require Import Base ModelLife.
Local Open Scope nat_scope.

(** What has happened to the object: initialised only; run at least once since it was
    initialised or cleaned; run and then emptied by hdbscan_minimal_clean; cleaned. *)
Inductive phase := Initialised | HasResults | Emptied | Cleaned.

(** The calls that are allowed in each phase. *)
Definition next (p : phase) (c : call) : option phase :=
  match p, c with
  | Initialised, Run _ => Some HasResults
  | Cleaned, Run _ => Some HasResults
  | HasResults, Rerun _ => Some HasResults
  | Emptied, Rerun _ => Some HasResults
  | HasResults, MinimalClean => Some Emptied
  | Emptied, MinimalClean => Some Emptied
  | Cleaned, MinimalClean => Some Cleaned
  | HasResults, Clean => Some Cleaned
  | Emptied, Clean => Some Cleaned
  | Cleaned, Clean => Some Cleaned
  | _, _ => None
  end.
Fixpoint nexts (p : phase) (cs : list call) : option phase :=
  match cs with [] => Some p | c :: cs' => match next p c with Some q => nexts q cs' | None => None end end.

(** An empty heap. *)
Definition empty_heap : heap := mk_heap 0 [].
(** No block is listed twice and fresh blocks are fresh. *)
Definition wf (h : heap) : Prop := NoDup (hp_live h) /\ forall x, In x (hp_live h) -> x < hp_next h.
