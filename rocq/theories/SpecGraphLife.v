(** Specification of the life of a graph object. *)
From Verif Require Import Base F64 ModelLife ModelGraphLife.
Local Open Scope nat_scope.

(** The blocks of a list. *)
Definition blocks_of {A} (v : vlist A) : list nat := [v_hdr v; v_blk v].
(** The blocks of the three lists given to a graph. *)
Definition given_blocks (a b : vlist nat) (w : vlist f64) : list nat := blocks_of a ++ blocks_of b ++ blocks_of w.
(** Three different lists, all still allocated. *)
Definition separate (h : heap) (a b : vlist nat) (w : vlist f64) : Prop :=
  NoDup (given_blocks a b w) /\ incl (given_blocks a b w) (hp_live h).

(** How often [u] is in the adjacency list of [v]. *)
Definition listed (g : graph) (v u : nat) : nat :=
  match q_edges g with Some (_, vs) => match nth_error vs v with Some l => count_occ Nat.eq_dec (v_vals l) u | None => 0 end | None => 0 end.
(** How often the edges join [v] and [u]; a self loop counts once. *)
Definition joined (es : list (nat * nat)) (v u : nat) : nat :=
  length (filter (fun x => ((fst x =? v) && (snd x =? u)) || ((fst x =? u) && (snd x =? v))) es).
(** How often [u] is to be taken out of the list of [v]: once for every removal of v-u or
    u-v, twice for the removal of a self loop. *)
Fixpoint taken (cs : list gcall) (v u : nat) : nat :=
  match cs with
  | [] => 0
  | GSort :: cs' => taken cs' v u
  | GRemove a b :: cs' => (if (a =? v) && (b =? u) then 1 else 0) + (if (b =? v) && (a =? u) then 1 else 0) + taken cs' v u
  end.
(** Only vertices of the graph are named. *)
Definition names_vertices (n : nat) (c : gcall) : Prop := match c with GRemove a b => a < n /\ b < n | GSort => True end.
(** The edges held by the graph. *)
Definition edge_list (g : graph) : list (nat * nat * f64) :=
  match q_a g, q_b g, q_w g with Some a, Some b, Some w => combine (combine (v_vals a) (v_vals b)) (v_vals w) | _, _, _ => [] end.
(** The ends of the edges when the second list may be shorter than the first: its last
    vertex is taken again. *)
Definition ends_repeating (a b : list nat) : list (nat * nat) :=
  map (fun i => (nth i a 0, nth i b (last b 0))) (seq 0 (length a)).
