(** Vocabulary for the theorems about hdbscan_compute_hierarchy_and_cluster_tree. *)
From Coq Require Import Permutation.
From Verif Require Import Base F64 ModelMst ModelGraph ModelCluster ModelHier SpecGraph PropMst PropGraph.
Local Open Scope nat_scope.

(** The graph handed to the function: the adjacency lists [adj] were built by graph_init
    from the edge arrays [e0], whose entries were then rearranged together (sorted) to [e]. *)
Definition graph_input (n : nat) (e0 e : edges) (adj : list (list nat)) : Prop :=
  (1 <= n)%nat /\ (Z.of_nat n < M32)%Z /\ aligned e0 /\ vertices_below n e0 /\ graph_init n e0 = Ok adj
  /\ aligned e /\ Permutation (triples e0) (triples e).

(** Every vertex is an end of some edge (in hdbscan_run: of its self edge). *)
Definition covers (n : nat) (e : edges) : Prop :=
  forall v, v < n -> exists a b w, In (a, b, w) (triples e) /\ (a = v \/ b = v).

(** The edges connect all vertices. *)
Definition connects (n : nat) (e : edges) : Prop :=
  forall u v, u < n -> v < n -> joined (fun a b => exists w, In (a, b, w) (triples e)) u v.

Definition no_nan (e : edges) : Prop := Forall (fun w => fisnan w = false) (e_w e).

(** [x] leads to [y] by whole iterations of the outer loop; a state is paired with the
    number of edges not yet removed. *)
Inductive levels (e : edges) (minPts n : nat) (compact : bool) : nat * hstate -> nat * hstate -> Prop :=
| levels_refl x : levels e minPts n compact x x
| levels_next x y z : levels e minPts n compact x y -> 0 < fst y -> hier_level e minPts n compact (fst y) (snd y) = Ok z ->
    levels e minPts n compact x z.

(** The states through which a call passes. *)
Definition moment (e : edges) (adj : list (list nat)) (minPts n : nat) (compact : bool) (k : nat) (h : hstate) : Prop :=
  levels e minPts n compact (length (e_w e), hier_start n adj) (k, h).

(** Observables: sc->clusters[k], the current label, noise level and last cluster of a
    point, an entry of sc->hierarchy. *)
Definition cluster_at (h : hstate) (k : nat) (c : cluster) : Prop := nth_error (l_cs (h_l h)) k = Some (Some c).
Definition labelled (h : hstate) (v k : nat) : Prop := nth_error (l_cur (h_l h)) v = Some k.
Definition noise_level (h : hstate) (v : nat) (w : f64) : Prop := nth_error (l_noise (h_l h)) v = Some (Some w).
Definition last_cluster (h : hstate) (v k : nat) : Prop := nth_error (l_last (h_l h)) v = Some (Some k).
Definition entry (h : hstate) (i : nat) (w : f64) (ls : list nat) : Prop := hget (h_hier h) i = Some (w, ls).
Definition child (h : hstate) (k p : nat) (c : cluster) : Prop := cluster_at h k c /\ c_parent c = Some p.

(** The points of cluster [k]: those that carry its label in the entry hierarchy[offset+1],
    the one that hdbscan_find_prominent_clusters reads. *)
Definition member (h : hstate) (k v : nat) : Prop :=
  exists c w ls, cluster_at h k c /\ entry h (S (c_offset c)) w ls /\ nth_error ls v = Some k.

(** [ls] is the partition of [0..n-1] into the components of [R] with at least [minPts]
    points, label 0 standing for all other points. *)
Definition many (R : nat -> nat -> Prop) (minPts u : nat) : Prop :=
  exists l, NoDup l /\ minPts <= length l /\ forall x, In x l -> joined R u x.
Definition components (R : nat -> nat -> Prop) (minPts n : nat) (ls : list nat) : Prop :=
  length ls = n
  /\ (forall u, u < n -> nth u ls 0 <> 0 <-> many R minPts u)
  /\ (forall u v, u < n -> v < n -> nth u ls 0 <> 0 -> (nth u ls 0 = nth v ls 0 <-> joined R u v)).

(** Two points are linked by an edge of weight below [w]. *)
Definition edge_below (es : list (nat * nat * f64)) (w : f64) (u v : nat) : Prop :=
  exists x, In (u, v, x) es /\ flt x w = true.

(** Below level [w] the component of [u] is dense (it has [minPts] points), and the component
    of [u] up to level [w] contains another dense one: at [w] it splits. *)
Definition splits_off (upto below : f64 -> nat -> nat -> Prop) (minPts : nat) (w : f64) (u : nat) : Prop :=
  many (below w) minPts u /\
  exists u', joined (upto w) u u' /\ ~ joined (below w) u u' /\ many (below w) minPts u'.
