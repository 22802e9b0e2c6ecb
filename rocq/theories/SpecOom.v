(** Vocabulary for the properties about running out of memory (C103). *)
From Verif Require Import Base ModelHash ModelLife ModelOom.
Local Open Scope nat_scope.

(** A state of the memory: every allocated block is listed once, and numbers of later requests
    are not in use. *)
Definition orderly (h : heap) : Prop := NoDup (hp_live h) /\ forall b, In b (hp_live h) -> b < hp_next h.
(** From now on no request is refused. *)
Definition plenty (grants : nat -> bool) (h : heap) : Prop := forall n, hp_next h <= n -> grants n = true.
(** The next [n] requests are not refused. *)
Definition lasts (grants : nat -> bool) (n : nat) (h : heap) : Prop := forall i, hp_next h <= i < hp_next h + n -> grants i = true.
(** The next request is refused. *)
Definition refused (grants : nat -> bool) (h : heap) : Prop := grants (hp_next h) = false.

(** The calls of a history as calls of SpecMap.v, and the number of insertions that answered 1. *)
Definition as_hop {K} (o : hcall K) : hop K := match o with CInsert k v => HInsert k v | CLookup k b => HLookup k b | CSize => HSize end.
Fixpoint new_keys {K} (ops : list (hcall K)) (outs : list (Z * bytes)) : nat :=
  match ops, outs with
  | CInsert _ _ :: ops', o :: outs' => (if (fst o =? 1)%Z then 1 else 0) + new_keys ops' outs'
  | _ :: ops', _ :: outs' => new_keys ops' outs'
  | _, _ => 0
  end.
