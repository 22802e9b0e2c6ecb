(** Model of the memory owned by an hdbscan object: hdbscan_init, hdbscan_run,
    hdbscan_rerun, hdbscan_minimal_clean, hdbscan_clean, hdbscan_destroy
    (src/hdbscan.c:109-330), distance_init, distance_clean, distance_compute
    (src/distance.c:59-102, 137-144) and the C++ members that call them
    (src/hdbscan.cpp:45-87).

    Only pointers and blocks are modelled here; the values computed by a run are in
    ModelRun.v.  Allocation never fails and the runs considered are those that return.
    Simplification: blocks that are allocated and freed inside one call are left out; a
    structure made of several blocks (a graph with its lists, a hash table with its entries,
    a cluster with its set and list) is the list of its blocks, of any length. *)
From Verif Require Import Base.
Local Open Scope nat_scope.

(** The heap: the next fresh block and the blocks that are allocated. *)
Record heap := mk_heap { hp_next : nat; hp_live : list nat }.

(** malloc and calloc, for a structure of [n] blocks. *)
Definition alloc (n : nat) (h : heap) : list nat * heap :=
  (seq (hp_next h) n, mk_heap (hp_next h + n) (seq (hp_next h) n ++ hp_live h)).
(** free, of one block and of a structure.  Freeing a block that is not allocated is
    undefined. *)
Definition free1 (b : nat) (h : heap) : res heap :=
  if existsb (Nat.eqb b) (hp_live h) then Ok (mk_heap (hp_next h) (filter (fun x => negb (x =? b)) (hp_live h))) else UB.
Fixpoint free_all (bs : list nat) (h : heap) : res heap :=
  match bs with [] => Ok h | b :: bs' => let! h := free1 b h in free_all bs' h end.
Fixpoint free_each (es : list (list nat)) (h : heap) : res heap :=
  match es with [] => Ok h | e :: es' => let! h := free_all e h in free_each es' h end.

(** A pointer field: not initialised, NULL, or pointing to a structure. *)
Inductive ptr := Unset | Null | Ptr (bs : list nat).

(** [if(p != NULL) { free(p); p = NULL; }]. *)
Definition drop (p : ptr) (h : heap) : res heap :=
  match p with Unset => UB | Null => Ok h | Ptr bs => free_all bs h end.
(** Dereferencing. *)
Definition deref (p : ptr) (h : heap) : res unit :=
  match p with
  | Ptr bs => if forallb (fun b => existsb (Nat.eqb b) (hp_live h)) bs then Ok tt else UB
  | _ => UB
  end.

(** Where the struct itself lives: in a block from malloc in hdbscan_init, or in memory of
    the caller (a local variable, a C++ object). *)
Inductive store := Malloced (b : nat) | Foreign.

(** hdbscan.h:128-139 struct hdbscan and distance.h struct distance; [f_elems] are the
    clusters stored in the list [f_clusters]. *)
Record obj := mk_obj {
  f_store : store;
  f_labels : ptr; f_scores : ptr; f_mst : ptr; f_constraints : ptr; f_hier : ptr;
  f_clusters : ptr; f_elems : list (list nat); f_stab : ptr;
  f_dist : ptr; f_core : ptr }.

(** Numbers of blocks (less one) of the structures a run builds, and of each cluster. *)
Record sizes := mk_sizes { z_graph : nat; z_hier : nat; z_list : nat; z_stab : nat; z_each : list nat }.

(** hdbscan.c:109-133 hdbscan_init: sc->mst and sc->distanceFunction are not set.  [zeroed]
    tells that the caller's struct was cleared before; malloc does not clear. *)
Definition life_init (foreign zeroed : bool) (h : heap) : heap * obj :=
  let raw := if foreign && zeroed then Null else Unset in
  if foreign then (h, mk_obj Foreign Null Null raw Null Null Null [] Null raw raw)
  else let (b, h) := alloc 1 h in (h, mk_obj (Malloced (hd 0 b)) Null Null raw Null Null Null [] Null raw raw).

(** hdbscan.c:140-191 hdbscan_minimal_clean; the NULL entries of the list of clusters are
    empty structures. *)
Definition life_minimal_clean (h : heap) (o : obj) : res (heap * obj) :=
  let! h := drop (f_labels o) h in
  let! h := drop (f_scores o) h in
  let! h := drop (f_mst o) h in
  let! h := drop (f_constraints o) h in
  let! h := drop (f_hier o) h in
  let! h := match f_clusters o with
            | Null => Ok h
            | p => let! _ := deref p h in free_each (f_elems o) h
            end in
  let! _ := match f_stab o with Null => Ok tt | p => deref p h end in
  Ok (h, mk_obj (f_store o) Null Null Null Null Null (f_clusters o) [] (f_stab o) (f_dist o) (f_core o)).

(** distance.c:92-102 distance_clean and hdbscan.c:198-214 hdbscan_clean. *)
Definition life_clean (h : heap) (o : obj) : res (heap * obj) :=
  let! h := drop (f_dist o) h in
  let! h := drop (f_core o) h in
  let o := mk_obj (f_store o) (f_labels o) (f_scores o) (f_mst o) (f_constraints o) (f_hier o) (f_clusters o) (f_elems o) (f_stab o) Null Null in
  let! r := life_minimal_clean h o in
  let (h, o) := r in
  let! h := drop (f_clusters o) h in
  let! h := drop (f_stab o) h in
  Ok (h, mk_obj (f_store o) (f_labels o) (f_scores o) (f_mst o) (f_constraints o) (f_hier o) Null [] Null (f_dist o) (f_core o)).

(** hdbscan.c:221-228 hdbscan_destroy; afterwards there is no object.  free() of memory that
    does not come from malloc is undefined. *)
Definition life_destroy (h : heap) (o : obj) : res heap :=
  let! r := life_clean h o in
  match f_store (snd r) with Malloced b => free1 b (fst r) | Foreign => UB end.

(** The clusters appended to sc->clusters by hdbscan.c:379-384 and 586-645. *)
Fixpoint alloc_each (ns : list nat) (h : heap) : list (list nat) * heap :=
  match ns with [] => ([], h) | n :: ns' => let (b, h) := alloc n h in let (bs, h) := alloc_each ns' h in (b :: bs, h) end.

(** hdbscan.c:236-268 hdbscan_do_run: the hierarchy (243), the tree (967), the clusters, the
    labels (1119) and the scores (1159).  Old values of the fields are overwritten. *)
Definition life_do_run (z : sizes) (h : heap) (o : obj) : res (heap * obj) :=
  let (hier, h) := alloc (S (z_hier z)) h in
  let! _ := deref (f_core o) h in
  let! _ := deref (f_dist o) h in
  let (mst, h) := alloc (S (z_graph z)) h in
  let! _ := deref (f_clusters o) h in
  let (new, h) := alloc_each (z_each z) h in
  let (labels, h) := alloc 1 h in
  let (scores, h) := alloc 1 h in
  Ok (h, mk_obj (f_store o) (Ptr labels) (Ptr scores) (Ptr mst) (f_constraints o) (Ptr hier) (f_clusters o) (f_elems o ++ new) (f_stab o) (f_dist o) (f_core o)).

(** hdbscan.c:304-330 hdbscan_run, with distance_init (distance.c:68-69) and
    distance_compute (distance.c:143-144). *)
Definition life_run (z : sizes) (h : heap) (o : obj) : res (heap * obj) :=
  let (dist, h) := alloc 1 h in
  let (core, h) := alloc 1 h in
  let (cl, h) := alloc (S (z_list z)) h in
  let (st, h) := alloc (S (z_stab z)) h in
  life_do_run z h (mk_obj (f_store o) (f_labels o) (f_scores o) (f_mst o) (f_constraints o) (f_hier o) (Ptr cl) [] (Ptr st) (Ptr dist) (Ptr core)).

(** hdbscan.c:277-291 hdbscan_rerun. *)
Definition life_rerun (z : sizes) (h : heap) (o : obj) : res (heap * obj) :=
  let! r := life_minimal_clean h o in
  let (h, o) := r in
  let o := mk_obj (f_store o) Null Null (f_mst o) Null (f_hier o) (f_clusters o) (f_elems o) (f_stab o) (f_dist o) (f_core o) in
  let! _ := deref (f_core o) h in
  let! _ := deref (f_dist o) h in
  life_do_run z h o.

(** The calls a user can make on an object, in C or through the C++ members run, reRun and
    the destructor (hdbscan_clean). *)
Inductive call := Run (z : sizes) | Rerun (z : sizes) | MinimalClean | Clean.
Definition perform (c : call) (s : heap * obj) : res (heap * obj) :=
  match c with
  | Run z => life_run z (fst s) (snd s)
  | Rerun z => life_rerun z (fst s) (snd s)
  | MinimalClean => life_minimal_clean (fst s) (snd s)
  | Clean => life_clean (fst s) (snd s)
  end.
Fixpoint perform_all (cs : list call) (s : heap * obj) : res (heap * obj) :=
  match cs with [] => Ok s | c :: cs' => let! s := perform c s in perform_all cs' s end.

(** hdbscan.cpp:45-53: the constructors call hdbscan_init on the new object, hdbscan.cpp:55
    the destructor calls hdbscan_clean, hdbscan.cpp:85 clean() calls hdbscan_destroy. *)
Definition cpp_scope (cs : list call) (h : heap) : res heap :=
  let (h, o) := life_init true false h in
  let! s := perform_all cs (h, o) in
  let! s := life_clean (fst s) (snd s) in
  Ok (fst s).
Definition cpp_clean (h : heap) (o : obj) : res heap := life_destroy h o.
