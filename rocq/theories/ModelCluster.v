(** Model of src/cluster.c and of the ordered sets used by the hierarchy code. *)
From Verif Require Import Base F64.

(** set_t of indices or labels through its abstract value (C03): the increasing list of its
    elements.  set.c:59-83 set_insert: 1 and the new set, or 0 and the same set. *)
Fixpoint set_insert (x : nat) (l : list nat) : bool * list nat :=
  match l with
  | [] => (true, [x])
  | y :: l' =>
      if x <? y then (true, x :: l)
      else if x =? y then (false, l)
      else let (b, r) := set_insert x l' in (b, y :: r)
  end.
(** set.c:85-94 set_remove; set.c:96-99 set_find (as a test for membership). *)
Fixpoint set_remove (x : nat) (l : list nat) : list nat :=
  match l with
  | [] => []
  | y :: l' => if x =? y then l' else y :: set_remove x l'
  end.
Definition set_mem (x : nat) (l : list nat) : bool := existsb (Nat.eqb x) l.
(** set_remove_at(set, size-1) and array_list_pop: the last element and the rest. *)
Definition list_pop (l : list nat) : res (nat * list nat) :=
  match rev l with [] => UB | x :: r => Ok (x, rev r) end.
(** Inserting the elements of a list one by one. *)
Definition set_insert_all (l s : list nat) : list nat :=
  fold_left (fun s x => snd (set_insert x s)) l s.

(** cluster.h:54-70 struct Cluster.  A pointer to a cluster is its position in sc->clusters
    (every cluster that is kept is appended there).  numPoints is index_t (32 bit unsigned). *)
Record cluster := mk_cluster {
  c_label : nat; c_birth : f64; c_death : f64; c_num : Z; c_offset : nat;
  c_stab : f64; c_pstab : f64; c_plow : f64; c_nc : Z; c_pnc : Z;
  c_virtual : list nat; c_parent : option nat; c_desc : list nat; c_kids : bool }.

(** sc->clusters: [None] is a NULL pointer. *)
Definition clusters := list (option cluster).
Definition cget (cs : clusters) (p : nat) : res cluster :=
  let! o := aget cs p in match o with Some c => Ok c | None => UB end.
Definition cset (cs : clusters) (p : nat) (c : cluster) : res clusters := aset cs p (Some c).

(** cluster.c:54-90 cluster_init: the new object, and the parent with hasChildren set. *)
Definition cluster_new (label : nat) (parent : option nat) (birth : f64) (num : nat) : cluster :=
  mk_cluster label birth fzero (Z.of_nat num) 0 fzero fzero D_MAX 0 0 [] parent [] false.
Definition set_kids (c : cluster) : cluster :=
  mk_cluster (c_label c) (c_birth c) (c_death c) (c_num c) (c_offset c) (c_stab c) (c_pstab c) (c_plow c)
    (c_nc c) (c_pnc c) (c_virtual c) (c_parent c) (c_desc c) true.
Definition cluster_init (cs : clusters) (label : nat) (parent : option nat) (birth : f64) (num : nat)
  : res (clusters * cluster) :=
  match parent with
  | None => Ok (cs, cluster_new label parent birth num)
  | Some p =>
      let! c := cget cs p in
      let! cs := cset cs p (set_kids c) in
      Ok (cs, cluster_new label parent birth num)
  end.

(** cluster.c:122-138 cluster_detach_points: [numPoints * (1/level - 1/birthLevel)] is
    computed in double; numPoints < 0 is never true of an unsigned value. *)
Definition stability_gain (k : nat) (level birth : f64) : f64 :=
  fmul (f_of_Z (Z.of_nat k)) (fsub (fdiv fone level) (fdiv fone birth)).
Definition cluster_detach_points (c : cluster) (k : nat) (level : f64) : cluster :=
  let num := u32 (c_num c - Z.of_nat k) in
  mk_cluster (c_label c) (c_birth c) (if (num =? 0)%Z then level else c_death c) num (c_offset c)
    (fadd (c_stab c) (stability_gain k level (c_birth c))) (c_pstab c) (c_plow c)
    (c_nc c) (c_pnc c) (c_virtual c) (c_parent c) (c_desc c) (c_kids c).

(** cluster.c:202-211 cluster_add_points_to_virtual_child_cluster. *)
Definition cluster_add_virtual (c : cluster) (points : list nat) : cluster :=
  mk_cluster (c_label c) (c_birth c) (c_death c) (c_num c) (c_offset c) (c_stab c) (c_pstab c) (c_plow c)
    (c_nc c) (c_pnc c) (set_insert_all points (c_virtual c)) (c_parent c) (c_desc c) (c_kids c).

(** hdbscan.c:677-678: [newCluster->offset = lineCount]. *)
Definition set_offset (c : cluster) (o : nat) : cluster :=
  mk_cluster (c_label c) (c_birth c) (c_death c) (c_num c) o (c_stab c) (c_pstab c) (c_plow c)
    (c_nc c) (c_pnc c) (c_virtual c) (c_parent c) (c_desc c) (c_kids c).
