(** A heap of doubly linked cells, shared by the linked list and hashtable models.

    Simplifications: an address is an index into the list of cells ever allocated, a
    freed cell is [None], fresh cells get a new address, malloc never fails.  Loading
    or storing through NULL or a freed address is [UB]. *)
From Verif Require Import Base.

Section Cells.
Context {A : Type}.

(** linkedlist.h struct NODE / hashtable.h struct HTBL_ENTRY: payload and links. *)
Record cell := Cell { c_val : A; c_next : option nat; c_prev : option nat }.
Definition heap := list (option cell).

Definition hload (h : heap) (p : option nat) : res cell :=
  match p with
  | None => UB
  | Some a => match nth_error h a with Some (Some c) => Ok c | _ => UB end
  end.

Definition hstore (h : heap) (p : option nat) (c : cell) : res heap :=
  match p with
  | None => UB
  | Some a => match nth_error h a with Some (Some _) => Ok (upd h a (Some c)) | _ => UB end
  end.

Definition set_next (h : heap) (p q : option nat) : res heap :=
  let! c := hload h p in hstore h p (Cell (c_val c) q (c_prev c)).
Definition set_prev (h : heap) (p q : option nat) : res heap :=
  let! c := hload h p in hstore h p (Cell (c_val c) (c_next c) q).
Definition set_val (h : heap) (p : option nat) (v : A) : res heap :=
  let! c := hload h p in hstore h p (Cell v (c_next c) (c_prev c)).

(** malloc of a cell. *)
Definition halloc (h : heap) (c : cell) : heap * nat := (h ++ [Some c], length h).

(** free of a cell (a second free of the same cell is UB). *)
Definition hfree (h : heap) (p : option nat) : res heap :=
  match p with
  | None => UB
  | Some a => match nth_error h a with Some (Some _) => Ok (upd h a None) | _ => UB end
  end.

Definition is_null (p : option nat) : bool := match p with None => true | _ => false end.

(** The search loop shared by linkedlist.c:226-241 and hashtable.c:228-245: walk along
    [next] until [test] holds or NULL is reached. *)
Fixpoint find_cell (test : A -> bool) (fuel : nat) (h : heap) (p : option nat) : res (option nat) :=
  match fuel with
  | O => Fuel
  | S f =>
      match p with
      | None => Ok None
      | Some _ =>
          let! c := hload h p in
          if test (c_val c) then Ok p else find_cell test f h (c_next c)
      end
  end.
End Cells.
Arguments cell : clear implicits.
Arguments heap : clear implicits.
