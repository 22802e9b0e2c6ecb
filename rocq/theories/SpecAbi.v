(** What it means to read from C++ what C stored in records. *)
From Verif Require Import Base ModelAbi.
Local Open Scope nat_scope.

(** An array of records: the bytes of each member of each record. *)
Definition typed (d : decl) (rows : list (list (list Z))) : Prop :=
  Forall (Forall2 (fun s v => length v = s) (d_sizes d)) rows.
(** Member [f] of record [i] holds [v]. *)
Definition holds_value (rows : list (list (list Z))) (i f : nat) (v : list Z) : Prop :=
  exists vs, nth_error rows i = Some vs /\ nth_error vs f = Some v.
(** A read that gives the bytes [v]. *)
Definition gives (r : res (list (option Z))) (v : list Z) : Prop := r = Ok (map Some v).
