(** Model of the parallel loops that fill arrays (src/hdbscan.c, src/undirected_graph.c,
    modules/java/src/Hdbscan.cpp), as the loads and stores of their iterations.  OpenMP gives no
    order between the steps of different iterations that run on different threads; here the
    steps of different iterations may interleave in any way, whatever the threads.
    Simplification: only the loads and stores of shared memory are steps; the loop counter and
    the variables a pragma or a declaration in the body makes private are values the iteration
    keeps; loads that go through a container that the loop does not change are single loads of
    the element they find. *)
From Verif Require Import Base F64.
Local Open Scope nat_scope.

(** The shared arrays of the loops. *)
Inductive array := Points | ClusterLabels | Previous | Current | NoiseLevels | LastClusters | EntryLabels | Attached | Distances | Neighbours | Others | Core
  | Added | DeathLevels | ScoreId | Scores | ScoreCore | MaxCr | MinCr | MaxDr | MinDr | Cr | Dr | Edges | JavaLabels | NewClusters | NewCluster | Offsets.
Definition cell : Type := array * nat.
Inductive value := VI (z : Z) | VF (x : f64).
Definition int_of (v : value) : Z := match v with VI z => z | VF _ => 0%Z end.
Definition real_of (v : value) : f64 := match v with VF x => x | VI _ => fzero end.
Definition memory : Type := cell -> value.

(** A load from a place, or a store; both may depend on the values loaded before, the latest
    first. *)
Inductive step := Load (from : list value -> cell) | Store (to : list value -> cell) (what : list value -> value).
Definition iteration : Type := list step.

(** Shared memory, what each iteration has loaded, and how many steps it has made. *)
Record state := mk_state { mem : memory; loaded : nat -> list value; made : nat -> nat }.
Definition cell_eq_dec (a b : cell) : {a = b} + {a <> b}.
Proof. repeat decide equality. Defined.
Definition poke (m : memory) (c : cell) (v : value) : memory := fun d => if cell_eq_dec d c then v else m d.
Definition do_step (s : step) (m : memory) (r : list value) : memory * list value :=
  match s with Load from => (m, m (from r) :: r) | Store to what => (poke m (to r) (what r), r) end.
Definition at_i {A} (f : nat -> A) (i : nat) (x : A) : nat -> A := fun j => if j =? i then x else f j.
(** Iteration [i] makes its next step, if it has one. *)
Definition advance (its : list iteration) (i : nat) (st : state) : state :=
  match nth_error (nth i its []) (made st i) with
  | None => st
  | Some s => let (m, r) := do_step s (mem st) (loaded st i) in mk_state m (at_i (loaded st) i r) (at_i (made st) i (S (made st i)))
  end.
Definition run (its : list iteration) (order : list nat) (m : memory) : state := fold_left (fun st i => advance its i st) order (mk_state m (fun _ => []) (fun _ => 0)).
(** An order in which every iteration makes all its steps. *)
Definition complete (its : list iteration) (order : list nat) : Prop := forall i, count_occ Nat.eq_dec order i = length (nth i its []).
(** The order of a program compiled without OpenMP. *)
Definition in_order (its : list iteration) : list nat := flat_map (fun i => repeat i (length (nth i its []))) (seq 0 (length its)).

(** ** The loops.  [n] is the number of iterations. *)
Definition loop (n : nat) (body : nat -> iteration) : list iteration := map body (seq 0 n).
Definition put (a : array) (i : nat) (v : value) : step := Store (fun _ => (a, i)) (fun _ => v).
Definition copied (a : array) (i : nat) : step := Store (fun _ => (a, i)) (hd (VI 0)).
Definition fetch (a : array) (i : nat) : step := Load (fun _ => (a, i)).
Definition nat_of (v : value) : nat := Z.to_nat (int_of v).

(** hdbscan.c:82-89: the labels of the points of a new cluster. *)
Definition label_loop (n : nat) (label : Z) := loop n (fun i => [fetch Points i; Store (fun r => (ClusterLabels, nat_of (hd (VI 0) r))) (fun _ => VI label)]).
(** hdbscan.c:371-377. *)
Definition start_loop (n : nat) := loop n (fun i => [put Previous i (VI 1); put Current i (VI 1)]).
(** hdbscan.c:593-602: the points that become noise. *)
Definition noise_loop (n : nat) (level : f64) (label : Z) :=
  loop n (fun i => [fetch Points i; Store (fun r => (NoiseLevels, nat_of (hd (VI 0) r))) (fun _ => VF level); Store (fun r => (LastClusters, nat_of (hd (VI 0) r))) (fun _ => VI label)]).
(** hdbscan.c:658-664: a level of the hierarchy. *)
Definition entry_loop (n : nat) := loop n (fun i => [fetch Previous i; copied EntryLabels i]).
(** hdbscan.c:681-686. *)
Definition previous_loop (n : nat) := loop n (fun i => [fetch Current i; copied Previous i]).
(** hdbscan.c:702-708: the last level. *)
Definition last_loop (n : nat) := loop n (fun i => [put EntryLabels i (VI 0)]).
(** hdbscan.c:821-826; [n] is the number of points. *)
Definition attached_loop (n : nat) := loop (n - 1) (fun i => [put Attached i (VI 0)]).
(** hdbscan.c:883-891. *)
Definition mst_loop (n : nat) := loop n (fun i => [put Distances i (VF D_MAX); put Neighbours i (VI 0); put Others i (VI 0)]).
(** hdbscan.c:952-964: the self edges of [n] points. *)
Definition self_loop (n : nat) :=
  loop n (fun v => [put Neighbours (n - 1 + v) (VI (Z.of_nat v)); put Others (n - 1 + v) (VI (Z.of_nat v)); fetch Core v; copied Distances (n - 1 + v)]).
(** hdbscan.c:1004-1009. *)
Definition added_loop (n : nat) := loop n (fun i => [put Added i (VI 0)]).
(** hdbscan.c:1180-1184. *)
Definition score (eps_max eps : f64) : f64 := if feq eps fzero then fzero else fsub fone (fdiv eps_max eps).
(** hdbscan.c:1172-1189; the death levels are those of the clusters the labels stand for. *)
Definition score_loop (n : nat) :=
  loop n (fun i => [fetch LastClusters i; Load (fun r => (DeathLevels, nat_of (hd (VI 0) r))); fetch NoiseLevels i; put ScoreId i (VI (Z.of_nat i));
                    Store (fun _ => (Scores, i)) (fun r => VF (score (real_of (nth 1 r (VI 0))) (real_of (nth 0 r (VI 0))))); fetch Core i; copied ScoreCore i]).
(** hdbscan.c:1484-1493; the members of the record of the i-th key. *)
Definition ratio_loop (n : nat) :=
  loop n (fun i => [fetch MaxCr i; fetch MinCr i; Store (fun _ => (Cr, i)) (fun r => VF (fdiv (real_of (nth 1 r (VI 0))) (real_of (nth 0 r (VI 0)))));
                    fetch MaxDr i; fetch MinDr i; Store (fun _ => (Dr, i)) (fun r => VF (fdiv (real_of (nth 1 r (VI 0))) (real_of (nth 0 r (VI 0)))))]).
(** undirected_graph.c:75-87: the lists of the vertices; the i-th list is created at the address
    the allocation of the i-th iteration gives. *)
Definition edges_loop (n : nat) (address : nat -> Z) := loop n (fun i => [put Edges i (VI (address i))]).
(** Hdbscan.cpp:55-60: the labels for Java. *)
Definition java_loop (n : nat) := loop n (fun i => [fetch ClusterLabels i; copied JavaLabels i]).
(** hdbscan.c:670-679: newCluster is declared before the loop and no pragma makes it private. *)
Definition offset_loop (n : nat) (line : Z) := loop n (fun i => [fetch NewClusters i; copied NewCluster 0; fetch NewCluster 0; Store (fun r => (Offsets, nat_of (hd (VI 0) r))) (fun _ => VI line)]).
(** hdbscan.c:1343-1354: every thread of a team of [n] runs the body of hdbscan_skew_kurt_1 and
    stores the four members (taken as elements of [Scores] here); [v] are the values. *)
Definition region_loop (n : nat) (v : nat -> f64) := loop n (fun _ => [put Scores 0 (VF (v 0)); put Scores 1 (VF (v 1)); put Scores 2 (VF (v 2)); put Scores 3 (VF (v 3))]).
