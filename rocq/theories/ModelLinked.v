(** Model of modules/collections/src/linkedlist.c.

    Simplifications: elements are abstract values; [size] is an unbounded integer
    (int32_t in C); the comparison callback is a parameter; malloc never fails. *)
From Verif Require Import Base ModelCells.

Section Linked.
Context {A : Type}.
Variable compare : A -> A -> Z.

(** linkedlist.h struct LINKEDLIST, together with the heap of its nodes. *)
Record llist := LL { ll_heap : heap A; ll_size : Z; ll_head : option nat; ll_tail : option nat }.

(** linkedlist.c:56-71 linkedlist_init. *)
Definition linkedlist_init : llist := LL [] 0 None None.

(** linkedlist.c:134-156 linkedlist_node_front_add (node_creator, 95-110, inlined)
    and 189-200 linkedlist_front_add. *)
Definition linkedlist_front_add (l : llist) (data : A) : res (llist * Z) :=
  let (h, nd) := halloc (ll_heap l) (Cell data None None) in
  if (ll_size l >? 0)%Z then
    let! h := set_prev h (ll_head l) (Some nd) in
    let! h := set_next h (Some nd) (ll_head l) in
    Ok (LL h (ll_size l + 1) (Some nd) (ll_tail l), 1%Z)
  else
    Ok (LL h (ll_size l + 1) (Some nd) (Some nd), 1%Z).

(** linkedlist.c:161-184 linkedlist_node_tail_add and 206-216 linkedlist_tail_add. *)
Definition linkedlist_tail_add (l : llist) (data : A) : res (llist * Z) :=
  let (h, nd) := halloc (ll_heap l) (Cell data None None) in
  if (ll_size l >? 0)%Z then
    let! h := set_next h (ll_tail l) (Some nd) in
    let! h := set_prev h (Some nd) (ll_tail l) in
    Ok (LL h (ll_size l + 1) (ll_head l) (Some nd), 1%Z)
  else
    Ok (LL h (ll_size l + 1) (Some nd) (Some nd), 1%Z).

(** linkedlist.c:226-241 linkedlist_lookup_helper. *)
Definition linkedlist_lookup_helper (l : llist) (data : A) : res (option nat) :=
  find_cell (fun v => (compare v data =? 0)%Z) (S (length (ll_heap l))) (ll_heap l) (ll_head l).

(** linkedlist.c:246-283 linkedlist_node_unhook. *)
Definition linkedlist_node_unhook (l : llist) (nd : option nat) : res llist :=
  if is_null nd || (ll_size l =? 0)%Z then Ok l
  else
    let! c := hload (ll_heap l) nd in
    let! l1 :=
      (if negb (is_null (c_prev c)) then
         let! h := set_next (ll_heap l) (c_prev c) (c_next c) in
         let! h := set_prev h nd None in
         Ok (LL h (ll_size l) (ll_head l) (ll_tail l))
       else
         let head := c_next c in
         let! h := (if is_null head then Ok (ll_heap l) else set_prev (ll_heap l) head None) in
         Ok (LL h (ll_size l) head (ll_tail l))) in
    let! c1 := hload (ll_heap l1) nd in
    let! l2 :=
      (if negb (is_null (c_next c1)) then
         let! h := set_prev (ll_heap l1) (c_next c1) (c_prev c1) in
         let! h := set_next h nd None in
         Ok (LL h (ll_size l1) (ll_head l1) (ll_tail l1))
       else
         let tail := c_prev c1 in
         let! h := (if is_null tail then Ok (ll_heap l1) else set_next (ll_heap l1) tail None) in
         Ok (LL h (ll_size l1) (ll_head l1) tail)) in
    Ok (LL (ll_heap l2) (ll_size l2 - 1) (ll_head l2) (ll_tail l2)).

(** linkedlist.c:288-299 linkedlist_lookup: 1 and the data, or 0 for NULL. *)
Definition linkedlist_lookup (l : llist) (data : A) (remove : Z) : res (llist * (Z * option A)) :=
  let! tmp := linkedlist_lookup_helper l data in
  let! l' := (if (remove =? 1)%Z then linkedlist_node_unhook l tmp else Ok l) in
  match tmp with
  | None => Ok (l', (0%Z, None))
  | Some _ => let! c := hload (ll_heap l') tmp in Ok (l', (1%Z, Some (c_val c)))
  end.

(** linkedlist.c:305-327 linkedlist_remove. *)
Definition linkedlist_remove (l : llist) (data : A) : res (llist * Z) :=
  let! tmp := linkedlist_lookup_helper l data in
  match tmp with
  | None => Ok (l, 0%Z)
  | Some _ =>
      let! l' := linkedlist_node_unhook l tmp in
      let! h := hfree (ll_heap l') tmp in
      Ok (LL h (ll_size l') (ll_head l') (ll_tail l'), 1%Z)
  end.

(** linkedlist.c:349-366 linkedlist_clear. *)
Fixpoint linkedlist_clear_loop (fuel : nat) (l : llist) (nd : option nat) : res llist :=
  match fuel with
  | O => Fuel
  | S f =>
      match nd with
      | None => Ok (LL (ll_heap l) (ll_size l) None None)
      | Some _ =>
          let! c := hload (ll_heap l) nd in
          let! l1 := linkedlist_node_unhook l nd in
          let! h := hfree (ll_heap l1) nd in
          linkedlist_clear_loop f (LL h (ll_size l1) (ll_head l1) (ll_tail l1)) (c_next c)
      end
  end.
Definition linkedlist_clear (l : llist) : res llist :=
  linkedlist_clear_loop (S (length (ll_heap l))) l (ll_head l).

(** linkedlist.c:334-341 linkedlist_delete: the nodes left behind (the list itself is freed). *)
Definition linkedlist_delete (l : llist) : res (heap A) :=
  let! l' := linkedlist_clear l in Ok (ll_heap l').

(** linkedlist.c:413-421 linkedlist_empty: 1 when the list is NOT empty. *)
Definition linkedlist_empty (l : llist) : Z := if (ll_size l <=? 0)%Z then 0%Z else 1%Z.

(** linkedlist.c:375-388 linkedlist_tail and 397-405 linkedlist_head (the argument
    [remove] is ignored by the code): 1 and the data, 0 for NULL. *)
Definition linkedlist_tail (l : llist) : res (Z * option A) :=
  if (linkedlist_empty l =? 0)%Z || is_null (ll_tail l) then Ok (0%Z, None)
  else let! c := hload (ll_heap l) (ll_tail l) in Ok (1%Z, Some (c_val c)).
Definition linkedlist_head (l : llist) : res (Z * option A) :=
  if (linkedlist_empty l =? 0)%Z || is_null (ll_head l) then Ok (0%Z, None)
  else let! c := hload (ll_heap l) (ll_head l) in Ok (1%Z, Some (c_val c)).

(** linkedlist.c:432-454 linkedlist_value_at. *)
Fixpoint linkedlist_value_loop (fuel : nat) (h : heap A) (tmp : option nat) (i pos : Z)
  : res (Z * option A) :=
  match fuel with
  | O => Fuel
  | S f =>
      match tmp with
      | None => Ok ((-1)%Z, None)
      | Some _ =>
          let! c := hload h tmp in
          if (i =? pos)%Z then Ok (i, Some (c_val c))
          else linkedlist_value_loop f h (c_next c) (i + 1) pos
      end
  end.
Definition linkedlist_value_at (l : llist) (pos : Z) : res (Z * option A) :=
  if (pos >=? ll_size l)%Z then Ok ((-1)%Z, None)
  else linkedlist_value_loop (S (length (ll_heap l))) (ll_heap l) (ll_head l) 0 pos.

(** The operations of a caller. *)
Inductive dop :=
| DFront (x : A) | DTail (x : A) | DLookup (x : A) | DTake (x : A) | DRemove (x : A)
| DHead | DLast | DValueAt (pos : Z) | DNonEmpty | DClear.

Definition dstep (l : llist) (o : dop) : res (llist * (Z * option A)) :=
  match o with
  | DFront x => let! r := linkedlist_front_add l x in Ok (fst r, (snd r, None))
  | DTail x => let! r := linkedlist_tail_add l x in Ok (fst r, (snd r, None))
  | DLookup x => linkedlist_lookup l x 0
  | DTake x => linkedlist_lookup l x 1
  | DRemove x => let! r := linkedlist_remove l x in Ok (fst r, (snd r, None))
  | DHead => let! r := linkedlist_head l in Ok (l, r)
  | DLast => let! r := linkedlist_tail l in Ok (l, r)
  | DValueAt p => let! r := linkedlist_value_at l p in Ok (l, r)
  | DNonEmpty => Ok (l, (linkedlist_empty l, None))
  | DClear => let! l' := linkedlist_clear l in Ok (l', (0%Z, None))
  end.

Fixpoint drun (l : llist) (ops : list dop) : res (llist * list (Z * option A)) :=
  match ops with
  | [] => Ok (l, [])
  | o :: ops' =>
      let! r := dstep l o in
      let! r' := drun (fst r) ops' in
      Ok (fst r', snd r :: snd r')
  end.
End Linked.
Arguments llist : clear implicits.
Arguments dop : clear implicits.
