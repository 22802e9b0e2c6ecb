(** What the results of hdbscan_run mean, in terms of distances and core distances only. *)
From Coq Require Import Sorted.
From Verif Require Import Base F64 ModelDistance ModelCluster ModelHier ModelRun SpecGraph SpecHier SpecTree PropMst.
Local Open Scope nat_scope.

(** Like [close] of PropMst.v, but strictly below [eps]. *)
Definition closer (d : distance) (n : nat) (eps : f64) (u v : nat) : Prop :=
  u < n /\ v < n /\ u <> v /\
  exists x cu cv,
    distance_get d (Z.of_nat u) (Z.of_nat v) = Ok x /\
    nth_error (d_core d) u = Some (Some cu) /\ nth_error (d_core d) v = Some (Some cv) /\
    flt x eps = true /\ flt cu eps = true /\ flt cv eps = true.

(** Point [v] belongs to cluster [k] of the results: it carries the label [k] in the entry
    offset + 1 of the hierarchy. *)
Definition point_of (r : results) (k v : nat) : Prop :=
  exists c w ls, cluster_in (r_clusters r) k c /\ hget (r_hier r) (S (c_offset c)) = Some (w, ls) /\ nth_error ls v = Some k.

(** The clusters: entry 0 of the vector is unused, all other entries are clusters; the root
    (label 1) holds all points; the others are exactly the dense components that split off from
    a larger one, recorded with the level of the split. *)
Definition condensed_tree (d : distance) (n minPts : nat) (r : results) : Prop :=
  nth_error (r_clusters r) 0 = Some None /\ (forall l, 1 <= l < length (r_clusters r) -> exists c, cluster_in (r_clusters r) l c) /\
  (forall v, point_of r 1 v <-> v < n) /\
  (forall l c, 2 <= l -> cluster_in (r_clusters r) l c ->
     exists u, u < n /\ splits_off (close d n) (closer d n) minPts (c_birth c) u /\
       forall v, point_of r l v <-> joined (closer d n (c_birth c)) u v) /\
  (forall w u, u < n -> fisnan w = false -> splits_off (close d n) (closer d n) minPts w u ->
     exists l c, 2 <= l /\ cluster_in (r_clusters r) l c /\ feq (c_birth c) w = true /\
       forall v, point_of r l v <-> joined (closer d n w) u v) /\
  (forall l l' c c', 2 <= l -> 2 <= l' -> cluster_in (r_clusters r) l c -> cluster_in (r_clusters r) l' c' ->
     (forall v, point_of r l v <-> point_of r l' v) -> l = l') /\
  (forall k p, child_in (r_clusters r) k p -> p < k /\ forall v, point_of r k v -> point_of r p v).

(** The points of [group] leave cluster [l] at level [w]: at this level their component stops
    being dense, or they are the points of a child born at this level. *)
Definition leave_together (d : distance) (n minPts : nat) (r : results) (l : nat) (group : list nat) (w : f64) : Prop :=
  (forall v, In v group -> many (close d n w) minPts v /\ ~ many (closer d n w) minPts v) \/
  (exists k c, cluster_in (r_clusters r) k c /\ c_parent c = Some l /\ c_birth c = w /\ forall v, In v group <-> point_of r k v).

(** The stability of a cluster: the sum, in double arithmetic and in the order of falling
    levels, of |group| * (1/level - 1/birth) over the groups that leave it. *)
Definition stability (d : distance) (n minPts : nat) (r : results) : Prop :=
  forall l c, cluster_in (r_clusters r) l c -> exists groups : list (list nat * f64),
    c_stab c = fold_left (fun sum g => fadd sum (fmul (f_of_Z (Z.of_nat (length (fst g)))) (fsub (fdiv fone (snd g)) (fdiv fone (c_birth c))))) groups fzero /\
    NoDup (concat (map fst groups)) /\
    (forall v, In v (concat (map fst groups)) <-> point_of r l v) /\
    (forall group w, In (group, w) groups -> group <> [] /\ leave_together d n minPts r l group w /\ (2 <= l -> flt w (c_birth c) = true)) /\
    StronglySorted (fun a b => fle (snd b) (snd a) = true) groups.

(** The labels: those of a set of clusters, none inside another and none the root, whose
    total stability is the largest. *)
Definition flat_clustering (n : nat) (r : results) (chosen : list nat) (best : f64) : Prop :=
  length (r_labels r) = n /\
  (forall v k, v < n -> k <> 0 -> nth_error (r_labels r) v = Some k <-> In k chosen /\ point_of r k v) /\
  (forall k, In k chosen -> 2 <= k /\ exists c, cluster_in (r_clusters r) k c) /\
  antichain (r_clusters r) chosen /\
  machine_total (r_clusters r) chosen 1 best /\
  forall T v, ~ In 1 T -> machine_total (r_clusters r) T 1 v -> fle v best = true.

(** Point [v] becomes noise at level [w]: its component is dense up to [w], but not below. *)
Definition dense_from (d : distance) (n minPts v : nat) (w : f64) : Prop :=
  many (close d n w) minPts v /\ ~ many (closer d n w) minPts v.

(** Cluster [k] is the smallest cluster that contains [v]. *)
Definition smallest_cluster (r : results) (v k : nat) : Prop :=
  point_of r k v /\ forall j, point_of r j v -> forall u, point_of r k u -> point_of r j u.

(** [low] is the smallest level at which a point of cluster [k] becomes noise. *)
Definition lowest_level (d : distance) (n minPts : nat) (r : results) (k : nat) (low : f64) : Prop :=
  (exists u, point_of r k u /\ dense_from d n minPts u low) /\
  forall u x, point_of r k u -> dense_from d n minPts u x -> fle low x = true.

(** The score of [v]: 1 - low / w, where w is the level at which [v] becomes noise and low the
    lowest such level in the smallest cluster of [v].  When the root is the only cluster (entry
    0 of the vector is unused), low is D_MAX instead. *)
Definition glosh_score (d : distance) (n minPts : nat) (r : results) (v : nat) (score : f64) : Prop :=
  exists k w low, smallest_cluster r v k /\ dense_from d n minPts v w /\
    (3 <= length (r_clusters r) -> lowest_level d n minPts r k low) /\
    (length (r_clusters r) <= 2 -> low = D_MAX) /\
    score = if feq w fzero then fzero else fsub fone (fdiv low w).
