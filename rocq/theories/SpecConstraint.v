(** What it means to prefer satisfied constraints over stability. *)
From Verif Require Import Base F64 ModelCluster SpecTree ModelConstraint.
Local Open Scope nat_scope.

(** The constraints reported for cluster [k] itself and for its virtual child. *)
Fixpoint own (l : list ccall) (k : nat) : Z :=
  match l with [] => 0 | Satisfied j n :: l' => (if Nat.eqb j k then n else 0) + own l' k | VirtualSatisfied _ _ :: l' => own l' k end%Z.
Fixpoint virtual (l : list ccall) (k : nat) : Z :=
  match l with [] => 0 | VirtualSatisfied j n :: l' => (if Nat.eqb j k then n else 0) + virtual l' k | Satisfied _ _ :: l' => virtual l' k end%Z.
Definition reported (c : ccall) : Z := match c with Satisfied _ n => n | VirtualSatisfied _ n => n end.
Definition about (c : ccall) : nat := match c with Satisfied k _ => k | VirtualSatisfied k _ => k end.
(** Everything that was reported. *)
Definition all_reported (l : list ccall) : Z := fold_right (fun c s => reported c + s)%Z 0%Z l.

Definition zsum (l : list Z) : Z := fold_right Z.add 0%Z l.

(** The constraints satisfied and the stability obtained in the subtree of [k] when the
    clusters of [T] are chosen: a chosen cluster counts for itself; any other for the sum
    over its children, and the constraints of its virtual child when it has children.
    Stabilities are added in double arithmetic. *)
Inductive score (cs : clusters) (w v : nat -> Z) (T : list nat) : nat -> Z -> f64 -> Prop :=
| sc_chosen k c : cluster_in cs k c -> In k T -> score cs w v T k (w k) (c_stab c)
| sc_leaf k : leaf cs k -> ~ In k T -> score cs w v T k 0%Z fzero
| sc_inner k l ns vs : ~ leaf cs k -> ~ In k T -> children cs k l -> length ns = length l -> length vs = length l ->
    (forall i x n s, nth_error l i = Some x -> nth_error ns i = Some n -> nth_error vs i = Some s -> score cs w v T x n s) ->
    score cs w v T k (v k + zsum ns)%Z (fold_left fadd vs fzero).

(** More constraints, or as many with at least the stability. *)
Definition at_most (n : Z) (s : f64) (n' : Z) (s' : f64) : Prop := (n < n')%Z \/ (n = n' /\ fle s s' = true).
