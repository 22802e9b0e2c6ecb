(** Model of hdbscan_init and hdbscan_run (src/hdbscan.c:109-133, 304-330, 236-268) when the
    memory for the object, the distances, the list of clusters, the hierarchy or the results is
    refused; the other requests are granted (ModelOom.v has the collections). *)
From Verif Require Import Base F64 ModelUtils ModelDistance ModelMst ModelGraph ModelCluster ModelHier ModelSelect ModelRun.
Local Open Scope nat_scope.

(** The requests: hdbscan.c:114 (the object), distance.c:143 and 144 (distances and core
    distances), hdbscan.c:326 (the list of clusters), 243 (the hierarchy) and 656, 700, 727 (its
    entries and their labels, which are written without a test: [no_hierarchy] stands for the
    refusal of any of these), 1119 (the labels) and 1159 (the scores). *)
Record refusals := mk_refusals {
  no_object : bool; no_distances : bool; no_core : bool; no_clusters : bool; no_hierarchy : bool; no_labels : bool; no_scores : bool }.

(** hdbscan.h:49-50. *)
Definition HDBSCAN_SUCCESS : Z := 0.
Definition HDBSCAN_ERROR : Z := 1.
(** What the caller of hdbscan_run gets: the code, and clusterLabels and outlierScores, [None]
    when they are NULL. *)
Record report := mk_report { rp_code : Z; rp_labels : option (list nat); rp_scores : option (list outlier) }.

(** An array, or NULL: then no index can be read or written. *)
Definition array_or_null {A} (refused : bool) (l : list A) : list A := if refused then [] else l.

(** distance.c:137-200 distance_compute: the answers of malloc are not tested. *)
Definition refused_distances (rf : refusals) (ds : dataset) (rows cols : nat) (k : Z) : res distance :=
  let! m := fill_matrix ds rows cols (array_or_null (no_distances rf) (repeat None (Z.to_nat (alloc_size (Z.of_nat rows))))) in
  distance_get_core_distances (mk_distance (Z.of_nat rows) (Z.of_nat cols) k m (array_or_null (no_core rf) (repeat None rows))).

(** hdbscan.c:1119-1141: the labels, in an array that may be NULL. *)
Definition refused_labels (rf : refusals) (n : nat) (hier : entries) (m : list (nat * list nat)) (acts : list (nat * nat)) : res (option (list nat)) :=
  let! labels := label_points hier m (array_or_null (no_labels rf) (repeat 0 n)) acts in
  Ok (if no_labels rf then None else Some labels).
(** hdbscan.c:1155-1195: the scores; after a refusal HDBSCAN_ERROR is returned, which
    hdbscan_do_run does not look at (hdbscan.c:265). *)
Definition refused_scores (rf : refusals) (qsort : list outlier -> list outlier) (cs : clusters) (noise : list (option f64)) (last : list (option nat))
  (core : list (option f64)) (n : nat) : res (Z * option (list outlier)) :=
  if no_scores rf then Ok (HDBSCAN_ERROR, None)
  else let! l := outlier_scores qsort cs noise last core n in Ok (1%Z, Some l).   (* hdbscan.c:1194: return 1 *)

(** hdbscan.c:236-268 hdbscan_do_run.  hdbscan.c:381 appends to the list of clusters, 712 (at the
    latest) inserts into the hierarchy, both without a test.  Simplified: the undefined write into a
    refused hierarchy comes after the loop over the levels rather than inside it. *)
Definition refused_do_run (rf : refusals) (fuel : nat) (s : schedule) (qsort : list outlier -> list outlier) (m : Z) (n : nat) (d : distance) : res report :=
  let! e0 := construct_mst d n true in
  let! adj := graph_init n e0 in
  let! e := graph_quicksort_by_edge_weight e0 in
  if no_clusters rf then UB
  else
    let! h := compute_hierarchy_from [] fuel e n adj (Z.to_nat m) false in
    if no_hierarchy rf then UB
    else
      let cs := l_cs (h_l h) in
      let! r := propagate_tree (length cs) cs (s_leaves s (length cs)) in
      let '(_, cs, _) := r in
      let! root := cget cs 1 in
      let! groups := group_solution cs (c_desc root) (s_select s (length (c_desc root))) [] in
      let! labels := refused_labels rf n (h_hier h) groups (s_points s (length groups) n) in
      let! scores := refused_scores rf qsort cs (l_noise (h_l h)) (l_last (h_l h)) (d_core d) n in
      Ok (mk_report HDBSCAN_SUCCESS labels (snd scores)).

(** hdbscan_init(NULL, minPts), then hdbscan_run on what it answers. *)
Definition refused_run (rf : refusals) (fuel : nat) (s : schedule) (qsort : list outlier -> list outlier) (minPts : Z) (ds : dataset)
  (rows cols : nat) (rowwise : bool) : res report :=
  if (1 <? minPts)%Z then
    if no_object rf then Ok (mk_report HDBSCAN_ERROR None None)
    else
      let n := dataset_size rows cols rowwise in
      let! d := refused_distances rf ds rows cols (u32 (minPts - 1)) in
      if cluster_capacity n =? 0 then Abort else refused_do_run rf fuel s qsort minPts n d
  else Abort.
