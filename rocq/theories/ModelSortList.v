(** Sorting and searching a list: modules/collections/src/list.c, set.c. *)
From Verif Require Import Base ModelArrayList.
Local Open Scope nat_scope.

Section SortList.
Context {A : Type}.
Variable compare : A -> A -> Z.
(** qsort of the C library on an array of elements, with the comparison of the list. *)
Variable qsort : list A -> list A.

(** The first [n] elements of the block; UB if one of them was never written. *)
Fixpoint elements (d : list (option A)) (n : nat) : res (list A) :=
  match n with
  | O => Ok []
  | S m => let! a := slot d 0 in let! r := elements (tl d) m in Ok (a :: r)
  end.
(** list.c:348-351 array_list_sort; set.c:120-123 set_sort is the same call. *)
Definition array_list_sort (l : alist A) : res (alist A) :=
  let! xs := elements (al_data l) (al_size l) in
  Ok (AL (map Some (qsort xs) ++ skipn (al_size l) (al_data l)) (al_size l) (al_max l)).
Definition set_sort : alist A -> res (alist A) := array_list_sort.

(** A history on a list with sorts and with searches that take the list to be sorted
    (list.c:270-277 array_list_find with sorted = 1). *)
Inductive xop := XOp (o : lop A) | XSort | XFindSorted (x : A).
Definition xstep (l : alist A) (o : xop) : res (alist A * (Z * option A)) :=
  match o with
  | XOp o => lstep compare l o
  | XSort => let! l := array_list_sort l in Ok (l, (0%Z, None))
  | XFindSorted x => let! r := array_list_find compare l x 1 in Ok (l, (r, None))
  end.
Fixpoint xrun (l : alist A) (ops : list xop) : res (alist A * list (Z * option A)) :=
  match ops with
  | [] => Ok (l, [])
  | o :: ops' => let! r := xstep l o in let! r' := xrun (fst r) ops' in Ok (fst r', snd r :: snd r')
  end.
End SortList.
Arguments xop : clear implicits.
