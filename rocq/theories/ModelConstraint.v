(** Model of the functions that tell the selection about constraints:
    cluster_add_constraints_satisfied and cluster_add_virtual_child_constraints_satisfied
    (src/cluster.c:220-228).  The selection itself is in ModelSelect.v. *)
From Verif Require Import Base F64 ModelCluster.
Local Open Scope nat_scope.

(** cluster.c:225-228 cluster_add_constraints_satisfied on one cluster: index_t is 32 bit
    unsigned. *)
Definition add_own (c : cluster) (n : Z) : cluster :=
  mk_cluster (c_label c) (c_birth c) (c_death c) (c_num c) (c_offset c) (c_stab c) (c_pstab c) (c_plow c)
    (u32 (c_nc c + n)) (c_pnc c) (c_virtual c) (c_parent c) (c_desc c) (c_kids c).
(** cluster.c:220-223 cluster_add_virtual_child_constraints_satisfied. *)
Definition add_left (c : cluster) (n : Z) : cluster :=
  mk_cluster (c_label c) (c_birth c) (c_death c) (c_num c) (c_offset c) (c_stab c) (c_pstab c) (c_plow c)
    (c_nc c) (u32 (c_pnc c + n)) (c_virtual c) (c_parent c) (c_desc c) (c_kids c).

(** A call of one of the two functions with the cluster at a position of sc->clusters. *)
Inductive ccall := Satisfied (k : nat) (n : Z) | VirtualSatisfied (k : nat) (n : Z).
Definition constrain (cs : clusters) (c : ccall) : res clusters :=
  match c with
  | Satisfied k n => let! x := cget cs k in cset cs k (add_own x n)
  | VirtualSatisfied k n => let! x := cget cs k in cset cs k (add_left x n)
  end.
Fixpoint constrain_all (cs : clusters) (l : list ccall) : res clusters :=
  match l with [] => Ok cs | c :: l' => let! cs := constrain cs c in constrain_all cs l' end.
