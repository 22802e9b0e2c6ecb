(** Specification of lists that are sorted and searched. *)
From Coq Require Import Sorted Permutation.
From Verif Require Import Base ModelArrayList SpecSeq ModelSortList.
Local Open Scope nat_scope.

Section Spec.
Context {A : Type}.
Variable compare : A -> A -> Z.

(** The comparison orders the elements; different elements may compare as equal. *)
Definition weak_order : Prop :=
  (forall a b, (compare a b < 0)%Z <-> (compare b a > 0)%Z) /\
  (forall a b c, (compare a b <= 0)%Z -> (compare b c <= 0)%Z -> (compare a c <= 0)%Z).
(** [l'] has the elements of [l], none after a larger one. *)
Definition arranged (l l' : list A) : Prop := Permutation l l' /\ StronglySorted (fun a b => (compare a b <= 0)%Z) l'.
(** A qsort that keeps its promise. *)
Definition sorting (q : list A -> list A) : Prop := forall l, arranged l (q l).
Notation same := (fun y x => (compare y x =? 0)%Z).

(** What a search that takes the list to be sorted may answer: the place of an element equal to
    the one looked for; or -1, but when the list is sorted only if there is none. *)
Definition search_answer (l : list A) (x : A) (r : Z) : Prop :=
  (exists i a, nth_error l i = Some a /\ compare a x = 0%Z /\ r = Z.of_nat i) \/
  (r = (-1)%Z /\ (StronglySorted (fun a b => (compare a b <= 0)%Z) l -> forall a, In a l -> compare a x <> 0%Z)).

(** A history: the ordinary operations as on a sequence. *)
Inductive sort_history : list A -> list (xop A) -> list (Z * option A) -> list A -> Prop :=
| xh_nil l : sort_history l [] [] l
| xh_op l o ops outs l2 : sort_history (fst (seq_step same l o)) ops outs l2 -> sort_history l (XOp o :: ops) (snd (seq_step same l o) :: outs) l2
| xh_sort l l1 ops outs l2 : arranged l l1 -> sort_history l1 ops outs l2 -> sort_history l (XSort :: ops) ((0%Z, None) :: outs) l2
| xh_find l x r ops outs l2 : search_answer l x r -> sort_history l ops outs l2 -> sort_history l (XFindSorted x :: ops) ((r, None) :: outs) l2.
(** The histories considered: insertions inside the list, clears that keep the block. *)
Fixpoint sort_ok (l : list A) (ops : list (xop A)) : Prop :=
  match ops with
  | [] => True
  | XOp o :: r => seq_ok l o /\ sort_ok (fst (seq_step same l o)) r
  | XSort :: r => forall l', arranged l l' -> sort_ok l' r
  | XFindSorted _ :: r => sort_ok l r
  end.
End Spec.
