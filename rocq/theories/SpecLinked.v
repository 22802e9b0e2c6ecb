(** Specification of the doubly linked list as a sequence. *)
From Verif Require Import Base ModelLinked SpecSeq.

Section Spec.
Context {A : Type}.
Variable eqv : A -> A -> bool.

Definition delete_at (l : list A) (i : nat) : list A := firstn i l ++ skipn (S i) l.

Definition dspec_step (l : list A) (o : dop A) : list A * (Z * option A) :=
  match o with
  | DFront x => (x :: l, (1%Z, None))
  | DTail x => (l ++ [x], (1%Z, None))
  | DLookup x =>
      (l, match index_of eqv l x with Some i => (1%Z, nth_error l i) | None => (0%Z, None) end)
  | DTake x =>
      match index_of eqv l x with
      | Some i => (delete_at l i, (1%Z, nth_error l i))
      | None => (l, (0%Z, None))
      end
  | DRemove x =>
      match index_of eqv l x with
      | Some i => (delete_at l i, (1%Z, None))
      | None => (l, (0%Z, None))
      end
  | DHead => (l, match l with a :: _ => (1%Z, Some a) | [] => (0%Z, None) end)
  | DLast => (l, match rev l with a :: _ => (1%Z, Some a) | [] => (0%Z, None) end)
  | DValueAt p =>
      (l, if (0 <=? p)%Z && (p <? Z.of_nat (length l))%Z
          then (p, nth_error l (Z.to_nat p)) else ((-1)%Z, None))
  | DNonEmpty => (l, (match l with [] => 0%Z | _ => 1%Z end, None))
  | DClear => ([], (0%Z, None))
  end.

(** Removals are only allowed when the first match is the front element (or there is
    no match). *)
Definition front_removal (l : list A) (o : dop A) : Prop :=
  match o with
  | DTake x | DRemove x => index_of eqv l x = None \/ index_of eqv l x = Some 0
  | _ => True
  end.

Fixpoint dspec_run (l : list A) (ops : list (dop A)) : list A * list (Z * option A) :=
  match ops with
  | [] => (l, [])
  | o :: ops' =>
      let r := dspec_step l o in
      let r' := dspec_run (fst r) ops' in
      (fst r', snd r :: snd r')
  end.

Fixpoint dhist_ok (l : list A) (ops : list (dop A)) : Prop :=
  match ops with
  | [] => True
  | o :: ops' => front_removal l o /\ dhist_ok (fst (dspec_step l o)) ops'
  end.
End Spec.
