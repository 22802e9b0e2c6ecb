(** Vocabulary for the theorems about the selection of clusters. *)
From Coq Require Import Sorted Reals.
From Flocq Require Import IEEE754.BinarySingleNaN.
From Verif Require Import Base F64 ModelCluster.
Local Open Scope nat_scope.

Definition cluster_in (cs : clusters) (k : nat) (c : cluster) : Prop := nth_error cs k = Some (Some c).
Definition child_in (cs : clusters) (k p : nat) : Prop := exists c, cluster_in cs k c /\ c_parent c = Some p.

(** A cluster tree with clusters 1..K: cluster k stands at position k, the root is 1, a
    parent has a smaller label, hasChildren is set on the clusters that have children. *)
Definition tree (cs : clusters) (K : nat) : Prop :=
  length cs = S K /\ 1 <= K /\ nth_error cs 0 = Some None /\
  forall k, 1 <= k <= K -> exists c, cluster_in cs k c /\ c_label c = k /\
    (k = 1 -> c_parent c = None) /\ (2 <= k -> exists p, c_parent c = Some p /\ 1 <= p < k) /\
    (c_kids c = true <-> exists j, child_in cs j k).

(** Nothing has been propagated yet (cluster.c:54-90). *)
Definition fresh (cs : clusters) : Prop := forall k c, cluster_in cs k c -> c_plow c = D_MAX /\ c_pstab c = fzero /\ c_desc c = [].
(** No constraints, the only case the library produces. *)
Definition no_constraints (cs : clusters) : Prop := forall k c, cluster_in cs k c -> c_nc c = 0%Z /\ c_pnc c = 0%Z.

Definition leaf (cs : clusters) (k : nat) : Prop := (exists c, cluster_in cs k c) /\ forall j, ~ child_in cs j k.

(** [k] is [a] or one of its descendants. *)
Inductive under (cs : clusters) : nat -> nat -> Prop :=
| under_self k c : cluster_in cs k c -> under cs k k
| under_step k p a : child_in cs k p -> under cs p a -> under cs k a.

(** No two elements are nested. *)
Definition antichain (cs : clusters) (l : list nat) : Prop :=
  NoDup l /\ forall j k, In j l -> In k l -> under cs j k -> j = k.

(** The children of [k], the youngest (largest label) first: the order in which they are
    propagated. *)
Definition children (cs : clusters) (k : nat) (l : list nat) : Prop :=
  (forall x, In x l <-> child_in cs x k) /\ StronglySorted gt l.

(** The total stability of the clusters of [T] that lie in the subtree of [k], summed in
    double arithmetic along the tree: a chosen cluster counts for its own stability, any
    other for the sum over its children. *)
Inductive machine_total (cs : clusters) (T : list nat) : nat -> f64 -> Prop :=
| mt_chosen k c : cluster_in cs k c -> In k T -> machine_total cs T k (c_stab c)
| mt_sum k l vs : ~ In k T -> children cs k l -> Forall2 (machine_total cs T) l vs ->
    machine_total cs T k (fold_left fadd vs fzero).

(** Sums of integers over a list of clusters, and exact sums of stabilities. *)
Definition sumz (m : nat -> Z) (l : list nat) : Z := fold_right (fun k s => (m k + s)%Z) 0%Z l.
Definition real_stab (cs : clusters) (k : nat) : R :=
  match nth_error cs k with Some (Some c) => B2R (c_stab c) | _ => 0%R end.
Definition real_total (cs : clusters) (l : list nat) : R := fold_right (fun k s => (real_stab cs k + s)%R) 0%R l.

(** What a cluster contributes to its parent: itself when it has no children or is at least
    as stable as what its children handed up; otherwise what they handed up. *)
Inductive hands (cs : clusters) : nat -> f64 -> list nat -> Prop :=
| hands_self k c : cluster_in cs k c -> (leaf cs k \/ fle (c_pstab c) (c_stab c) = true) -> hands cs k (c_stab c) [k]
| hands_up k c : cluster_in cs k c -> ~ leaf cs k -> fle (c_pstab c) (c_stab c) = false -> hands cs k (c_pstab c) (c_desc c).

(** Only the propagated fields may differ. *)
Definition same_clusters (cs cs' : clusters) : Prop :=
  length cs' = length cs /\ forall k c, cluster_in cs k c -> exists c', cluster_in cs' k c' /\
    (c_label c', c_birth c', c_death c', c_num c', c_offset c', c_stab c', c_parent c', c_kids c') =
    (c_label c, c_birth c, c_death c, c_num c, c_offset c, c_stab c, c_parent c, c_kids c).
