(** Specification of the linked list under every history, removals included.

    The list is a chain of elements, each of which may or may not know its predecessor.
    Removing an element makes its successor forget its predecessor.  Removing an element that
    does not know its predecessor takes everything in front of it along (these elements are
    lost: no longer reachable, still counted).  Removing the last element makes the list
    forget its tail. *)
From Verif Require Import Base ModelLinked SpecSeq.
Local Open Scope nat_scope.

Section Spec.
Context {A : Type}.
Variable eqv : A -> A -> bool.

Record chain := Chain {
  items : list (A * bool);  (* the reachable elements; [true]: knows its predecessor *)
  tail_known : bool;
  lost : nat;               (* elements that can no longer be reached *)
  taken : nat               (* elements removed with linkedlist_lookup, whose nodes stay allocated *)
}.
Definition empty_chain : chain := Chain [] false 0 0.

Definition values (s : chain) : list A := map fst (items s).
Definition count (s : chain) : nat := length (items s) + lost s.

Definition forget_prev (l : list (A * bool)) : list (A * bool) :=
  match l with [] => [] | (x, _) :: t => (x, false) :: t end.
Definition know_prev (l : list (A * bool)) : list (A * bool) :=
  match l with [] => [] | (x, _) :: t => (x, true) :: t end.

(** Removing the element at position [i]. *)
Definition unchain (s : chain) (i : nat) (n : nat) : chain :=
  let behind := skipn (S i) (items s) in
  let known := match behind with [] => false | _ => tail_known s end in
  match nth_error (items s) i with
  | Some (_, true) => Chain (firstn i (items s) ++ forget_prev behind) known (lost s) (taken s + n)
  | _ => Chain (forget_prev behind) known (lost s + i) (taken s + n)
  end.

(** One operation; [None] is undefined behaviour. *)
Definition chain_step (s : chain) (o : dop A) : option (chain * (Z * option A)) :=
  match o with
  | DFront x =>
      match items s, lost s with
      | [], O => Some (Chain [(x, false)] true 0 (taken s), (1%Z, None))
      | [], _ => None
      | l, n => Some (Chain ((x, false) :: know_prev l) (tail_known s) n (taken s), (1%Z, None))
      end
  | DTail x =>
      match items s, lost s with
      | [], O => Some (Chain [(x, false)] true 0 (taken s), (1%Z, None))
      | [], _ => None
      | l, n => if tail_known s then Some (Chain (l ++ [(x, true)]) true n (taken s), (1%Z, None)) else None
      end
  | DLookup x =>
      Some (s, match index_of eqv (values s) x with Some i => (1%Z, nth_error (values s) i) | None => (0%Z, None) end)
  | DTake x =>
      match index_of eqv (values s) x with
      | Some i => Some (unchain s i 1, (1%Z, nth_error (values s) i))
      | None => Some (s, (0%Z, None))
      end
  | DRemove x =>
      match index_of eqv (values s) x with
      | Some i => Some (unchain s i 0, (1%Z, None))
      | None => Some (s, (0%Z, None))
      end
  | DHead => Some (s, match values s with a :: _ => (1%Z, Some a) | [] => (0%Z, None) end)
  | DLast => Some (s, if tail_known s then match rev (values s) with a :: _ => (1%Z, Some a) | [] => (0%Z, None) end else (0%Z, None))
  | DValueAt p =>
      Some (s, if (0 <=? p)%Z && (p <? Z.of_nat (length (items s)))%Z
               then (p, nth_error (values s) (Z.to_nat p)) else ((-1)%Z, None))
  | DNonEmpty => Some (s, (if count s =? 0 then 0%Z else 1%Z, None))
  | DClear => Some (Chain [] false (lost s) (taken s), (0%Z, None))
  end.

Fixpoint chain_run (s : chain) (ops : list (dop A)) : option (chain * list (Z * option A)) :=
  match ops with
  | [] => Some (s, [])
  | o :: ops' =>
      match chain_step s o with
      | None => None
      | Some (s', out) =>
          match chain_run s' ops' with
          | None => None
          | Some (s'', outs) => Some (s'', out :: outs)
          end
      end
  end.
End Spec.
Arguments chain : clear implicits.

(** [l] is [l'] with some elements left out. *)
Inductive part_of {A} : list A -> list A -> Prop :=
| part_nil : part_of [] []
| part_keep x l l' : part_of l l' -> part_of (x :: l) (x :: l')
| part_skip x l l' : part_of l l' -> part_of l (x :: l').

(** Allocated nodes of a heap. *)
Definition nodes {B} (h : list (option B)) : nat := length (filter (fun o => match o with Some _ => true | None => false end) h).
