(** Model of cluster objects by the calls of src/cluster.c that make, fill, ask and destroy
    them: cluster_init (54-90), cluster_destroy (97-110),
    cluster_add_points_to_virtual_child_cluster (202-211),
    cluster_virtual_child_contains_point (213-218), cluster_release_virtual_child (230-235).
    The heap is that of ModelLife.v, a list with its blocks that of ModelGraphLife.v.
    Simplifications: allocation succeeds, a grown block is a fresh one; set_insert puts a
    point at its place in the ordered list (proved of the code in C06). *)
From Verif Require Import Base ModelCluster ModelLife ModelGraphLife.
From Verif Require ModelArrayList.
Local Open Scope nat_scope.

(** cluster.h:54-69 struct Cluster: the members that point to something.  A pointer to a
    cluster is the number of the call of cluster_init that made it. *)
Record cobj := mk_cobj { o_blk : nat; o_set : vlist nat; o_desc : vlist nat; o_parent : option nat; o_kids : bool }.
Definition world : Type := heap * list cobj.

(** cl->... : the struct must be allocated. *)
Definition at_cluster (w : world) (c : nat) : res cobj :=
  let! o := aget (snd w) c in if alive (o_blk o) (fst w) then Ok o else UB.

(** cluster.c:54-90 cluster_init(NULL, label, parent, birthLevel, numPoints); set.c:44-47
    set_init makes room for two, list.c:84-87 ptr_array_list_init(1) for one. *)
Definition life_cluster_init (w : world) (parent : option nat) : res world :=
  let (h, os) := w in
  let (b, h) := alloc 1 h in
  let! os := match parent with
             | None => Ok os
             | Some p => let! o := at_cluster (h, os) p in aset os p (mk_cobj (o_blk o) (o_set o) (o_desc o) (o_parent o) true)
             end in
  let (s, h) := list_new nat 2 h in
  let (d, h) := list_new nat 1 h in
  Ok (h, os ++ [mk_cobj (hd 0 b) s d parent false]).

(** cluster.c:97-110 cluster_destroy of a pointer that is not NULL; set.c:49-52. *)
Definition life_cluster_destroy (w : world) (c : nat) : res world :=
  let! o := at_cluster w c in
  let! h := list_delete (o_set o) (fst w) in
  let! h := list_delete (o_desc o) h in
  let! h := free1 (o_blk o) h in
  Ok (h, snd w).

(** set.c:59-83 set_insert with list.c array_list_insert_at. *)
Definition life_set_insert (v : vlist nat) (x : nat) (h : heap) : res (vlist nat * heap) :=
  let! _ := touch v h in
  let (new, l) := set_insert x (v_vals v) in
  if new then
    let! r := (if length (v_vals v) =? v_max v then
                 let! h := free1 (v_blk v) h in
                 let (b, h) := alloc 1 h in
                 Ok (hd 0 b, ModelArrayList.highestPowerof2 (v_max v * 2), h)
               else Ok (v_blk v, v_max v, h)) in
    let '(b, m, h) := r in
    if length (v_vals v) <? m then Ok (mk_vlist (v_hdr v) b l m, h) else UB
  else Ok (v, h).
Fixpoint life_set_insert_all (v : vlist nat) (xs : list nat) (h : heap) : res (vlist nat * heap) :=
  match xs with [] => Ok (v, h) | x :: xs' => let! r := life_set_insert v x h in life_set_insert_all (fst r) xs' (snd r) end.
(** cluster.c:202-211. *)
Definition life_add_points (w : world) (c : nat) (points : list nat) : res world :=
  let! o := at_cluster w c in
  let! r := life_set_insert_all (o_set o) points (fst w) in
  let! os := aset (snd w) c (mk_cobj (o_blk o) (fst r) (o_desc o) (o_parent o) (o_kids o)) in
  Ok (snd r, os).
(** cluster.c:213-218. *)
Definition life_contains (w : world) (c x : nat) : res bool :=
  let! o := at_cluster w c in
  let! _ := touch (o_set o) (fst w) in
  Ok (existsb (Nat.eqb x) (v_vals (o_set o))).
(** cluster.c:230-235 cluster_release_virtual_child. *)
Definition life_release (w : world) (c : nat) : res world :=
  let! o := at_cluster w c in
  match o_parent o with None => Ok w | Some p => life_cluster_destroy w p end.

(** The calls of a program, and what they answer. *)
Inductive kcall := KNew (parent : option nat) | KAdd (c : nat) (points : list nat) | KHas (c x : nat) | KRelease (c : nat) | KDestroy (c : nat).
Definition kperform (w : world) (k : kcall) : res (world * option bool) :=
  match k with
  | KNew p => let! w := life_cluster_init w p in Ok (w, None)
  | KAdd c l => let! w := life_add_points w c l in Ok (w, None)
  | KHas c x => let! b := life_contains w c x in Ok (w, Some b)
  | KRelease c => let! w := life_release w c in Ok (w, None)
  | KDestroy c => let! w := life_cluster_destroy w c in Ok (w, None)
  end.
Fixpoint kperform_all (w : world) (ks : list kcall) : res (world * list (option bool)) :=
  match ks with
  | [] => Ok (w, [])
  | k :: ks' => let! r := kperform w k in let! q := kperform_all (fst r) ks' in Ok (fst q, snd r :: snd q)
  end.

(** cluster.c:122-138 cluster_detach_points: the code returned (CLUSTER_SUCCESS 1,
    CLUSTER_ERROR 0); numPoints is unsigned.  The new values are in ModelCluster.v. *)
Definition detach_code (c : cluster) (k : nat) : Z :=
  let num := u32 (c_num c - Z.of_nat k) in if (num =? 0)%Z then 1%Z else if (num <? 0)%Z then 0%Z else 1%Z.
