(** Specification of sequences and ordered finite sets, independent of the array
    implementation.  Operations are named by the constructors of the model's
    operation types; everything else is stdlib list vocabulary. *)
From Coq Require Import Sorted.
From Verif Require Import Base ModelArrayList.

Section Seq.
Context {A : Type}.
Variable eqv : A -> A -> bool.        (* "x matches y" for find/remove *)

Fixpoint index_of (l : list A) (x : A) : option nat :=
  match l with
  | [] => None
  | y :: l' => if eqv y x then Some 0
               else match index_of l' x with Some i => Some (S i) | None => None end
  end.

(** One operation on a mathematical sequence: new sequence, return code, element
    handed out. *)
Definition seq_step (l : list A) (o : lop A) : list A * (Z * option A) :=
  match o with
  | LAppend x => (l ++ [x], (1%Z, None))
  | LInsertAt x p => (firstn p l ++ x :: skipn p l, (1%Z, None))
  | LReplaceAt x i =>
      if i <? length l then (firstn i l ++ x :: skipn (S i) l, (1%Z, None)) else (l, (0%Z, None))
  | LRemoveAt i =>
      match nth_error l i with
      | Some a => (firstn i l ++ skipn (S i) l, (1%Z, Some a))
      | None => (l, (0%Z, None))
      end
  | LRemove x =>
      match index_of l x with
      | Some i => (firstn i l ++ skipn (S i) l, (1%Z, nth_error l i))
      | None => (l, ((-1)%Z, None))
      end
  | LPop => match rev l with
            | [] => ([], ((-1)%Z, None))
            | a :: r => (rev r, (1%Z, Some a))
            end
  | LValueAt i => (l, match nth_error l i with Some a => (1%Z, Some a) | None => (0%Z, None) end)
  | LFind x => (l, (match index_of l x with Some i => Z.of_nat i | None => (-1)%Z end, None))
  | LSize => (l, (Z.of_nat (length l), None))
  | LEmpty => (l, (match l with [] => 1%Z | _ => 0%Z end, None))
  | LClear _ => ([], (0%Z, None))
  end.

(** The histories C01/C02 speak about: insertions inside the sequence, clears that
    keep the block. *)
Definition seq_ok (l : list A) (o : lop A) : Prop :=
  match o with
  | LInsertAt _ p => p <= length l
  | LClear resize => resize = false
  | _ => True
  end.

Fixpoint seq_run (l : list A) (ops : list (lop A)) : list A * list (Z * option A) :=
  match ops with
  | [] => (l, [])
  | o :: ops' =>
      let r := seq_step l o in
      let r' := seq_run (fst r) ops' in
      (fst r', snd r :: snd r')
  end.

Fixpoint hist_ok (l : list A) (ops : list (lop A)) : Prop :=
  match ops with
  | [] => True
  | o :: ops' => seq_ok l o /\ hist_ok (fst (seq_step l o)) ops'
  end.
End Seq.

Section Set_.
Context {A : Type}.
Variable compare : A -> A -> Z.

(** The comparison callback is a strict total order whose zero is equality. *)
Definition total_order : Prop :=
  (forall a b, compare a b = 0%Z <-> a = b) /\
  (forall a b, (compare a b < 0)%Z <-> (compare b a > 0)%Z) /\
  (forall a b c, (compare a b < 0)%Z -> (compare b c < 0)%Z -> (compare a c < 0)%Z).

Definition before (a b : A) : Prop := (compare a b < 0)%Z.

(** [l] is the increasing enumeration of the finite set [P]. *)
Definition enumerates (l : list A) (P : A -> Prop) : Prop :=
  StronglySorted before l /\ (forall x, In x l <-> P x).

(** One operation on a mathematical finite set [P] with increasing enumeration [l]:
    the resulting set and the answer. *)
Definition set_step (l : list A) (P : A -> Prop) (o : sop A)
                    (P' : A -> Prop) (out : Z * option A) : Prop :=
  match o with
  | SInsert x =>
      (forall y, P' y <-> P y \/ y = x) /\
      ((~ P x /\ out = (1%Z, None)) \/ (P x /\ out = (0%Z, None)))
  | SRemove x =>
      (forall y, P' y <-> P y /\ y <> x) /\
      ((P x /\ out = (1%Z, Some x)) \/ (~ P x /\ out = ((-1)%Z, None)))
  | SRemoveAt i =>
      match nth_error l i with
      | Some a => (forall y, P' y <-> P y /\ y <> a) /\ out = (1%Z, Some a)
      | None => (forall y, P' y <-> P y) /\ out = (0%Z, None)
      end
  | SFind x =>
      (forall y, P' y <-> P y) /\
      ((exists i, nth_error l i = Some x /\ out = (Z.of_nat i, None)) \/
       (~ P x /\ out = ((-1)%Z, None)))
  | SValueAt i =>
      (forall y, P' y <-> P y) /\
      out = match nth_error l i with Some a => (1%Z, Some a) | None => (0%Z, None) end
  | SSize => (forall y, P' y <-> P y) /\ out = (Z.of_nat (length l), None)
  | SEmpty => (forall y, P' y <-> P y) /\
              ((forall y, ~ P y) /\ out = (1%Z, None) \/ (exists y, P y) /\ out = (0%Z, None))
  end.

(** A whole history: each step meets [set_step] for the enumerations in between. *)
Inductive set_history : list A -> list (sop A) -> list (Z * option A) -> list A -> Prop :=
| sh_nil l : set_history l [] [] l
| sh_cons l o ops P' out outs l1 l2 :
    set_step l (fun x => In x l) o P' out ->
    enumerates l1 P' ->
    set_history l1 ops outs l2 ->
    set_history l (o :: ops) (out :: outs) l2.
End Set_.
