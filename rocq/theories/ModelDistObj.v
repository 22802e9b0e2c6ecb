(** A distance object over its life (src/distance.c:59-144, 216; src/distance.cpp:46-70): which
    fields are set, what the two blocks hold, and which blocks were never freed.

    Simplifications: malloc never fails; the data handed to distance_compute have the element
    type the object was created for. *)
From Verif Require Import Base F64 ModelDistance.
Local Open Scope Z_scope.

(** distance.h:67-78 struct Distance.  [None]: the field is not initialised ([ob_rows]) or NULL
    (the blocks).  [ob_live] counts the blocks this object got from malloc that are not freed. *)
Record dobj := mk_dobj {
  ob_rows : option Z; ob_cols : Z; ob_k : Z;
  ob_dist : option (list (option f64)); ob_core : option (list (option f64)); ob_live : nat }.

(** distance.c:59-74 distance_init and distance.cpp:46-56: rows and cols are not set. *)
Definition distance_init : dobj := mk_dobj None 0 2 None None 0.

(** Accesses through a block pointer that may be NULL. *)
Definition block (b : option (list (option f64))) : list (option f64) := match b with Some l => l | None => [] end.
Definition as_distance (o : dobj) (rows : Z) : distance := mk_distance rows (ob_cols o) (ob_k o) (block (ob_dist o)) (block (ob_core o)).

(** distance.c:137-200 distance_compute and distance.cpp:67-70 computeDistance (which ignores its
    first argument): the two fields are overwritten without being freed. *)
Definition object_compute (o : dobj) (ds : dataset) (rows cols : nat) (k : Z) : res dobj :=
  let! d := distance_compute ds rows cols k in
  Ok (mk_dobj (Some (d_rows d)) (d_cols d) (d_k d) (Some (d_dist d)) (Some (d_core d)) (ob_live o + 2)).

(** distance.cpp:62-65 getCoreDistances; in C, numNeighbors is set and distance_get_core_distances
    (distance.c:216-270) called.  Writing through NULL is undefined. *)
Definition object_core (o : dobj) (k : Z) : res dobj :=
  match ob_rows o with
  | None => UB
  | Some rows =>
      let! d := distance_get_core_distances (mk_distance rows (ob_cols o) k (block (ob_dist o)) (block (ob_core o))) in
      Ok (mk_dobj (ob_rows o) (ob_cols o) k (ob_dist o) (match ob_core o with Some _ => Some (d_core d) | None => None end) (ob_live o))
  end.

(** distance.c:114-125 distance_get: rows is only read for two different numbers. *)
Definition object_get (o : dobj) (row col : Z) : res f64 :=
  if row =? col then Ok fzero
  else match ob_rows o with None => UB | Some rows => distance_get (as_distance o rows) row col end.

(** distance.c:92-102 distance_clean, also distance_destroy (81-85) and the destructor
    (distance.cpp:58-60). *)
Definition freed (b : option (list (option f64))) : nat := match b with Some _ => 1 | None => 0 end.
Definition object_clean (o : dobj) : dobj :=
  mk_dobj (ob_rows o) (ob_cols o) (ob_k o) None None (ob_live o - freed (ob_dist o) - freed (ob_core o)).

Inductive oop :=
| OCompute (ds : dataset) (rows cols : nat) (k : Z) | OCore (k : Z) | OGet (row col : Z) | OReadCore (i : Z) | OClean.

(** One operation; the answer is the double a getter returns. *)
Definition ostep (o : dobj) (op : oop) : res (dobj * option f64) :=
  match op with
  | OCompute ds rows cols k => let! o := object_compute o ds rows cols k in Ok (o, None)
  | OCore k => let! o := object_core o k in Ok (o, None)
  | OGet row col => let! x := object_get o row col in Ok (o, Some x)
  | OReadCore i => let! x := zget (block (ob_core o)) i in Ok (o, Some x)
  | OClean => Ok (object_clean o, None)
  end.
Fixpoint orun (o : dobj) (ops : list oop) : res (dobj * list (option f64)) :=
  match ops with
  | [] => Ok (o, [])
  | op :: ops' =>
      let! r := ostep o op in
      let! r' := orun (fst r) ops' in
      Ok (fst r', snd r :: snd r')
  end.
