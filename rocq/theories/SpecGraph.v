(** Specification vocabulary for weighted graphs, independent of the models. *)
From Coq Require Import Relations.
From Verif Require Import Base F64.

(** [joined R u v]: a chain of [R]-related points, in either direction, leads from [u] to [v]. *)
Definition joined (R : nat -> nat -> Prop) : nat -> nat -> Prop := clos_refl_sym_trans nat R.

(** Two points are linked at scale [eps] by the edges of [es]. *)
Definition edge_upto (es : list (nat * nat * f64)) (eps : f64) (u v : nat) : Prop :=
  exists w, In (u, v, w) es /\ fle w eps = true.
