(** Model of hdbscan_init, hdbscan_run, hdbscan_rerun and hdbscan_do_run
    (src/hdbscan.c:109-133, 236-330).  Assertions are enabled (NDEBUG unset) and allocation
    never fails; the pointers of the object and their deallocation are modelled in
    ModelLife.v. *)
From Verif Require Import Base F64 ModelUtils ModelDistance ModelMst ModelGraph ModelCluster ModelHier ModelSelect.

(** What is not fixed by the code: the order in which the threads act in the loop over the
    clusters (hdbscan.c:1013), over the selected clusters (1084) and over pairs (offset,
    point) (1122-1140), given the number of clusters, of selected clusters, and of offsets
    and points. *)
Record schedule := mk_schedule {
  s_leaves : nat -> list nat; s_select : nat -> list nat; s_points : nat -> nat -> list (nat * nat) }.

(** The results a caller reads: sc->clusterLabels, sc->outlierScores, sc->hierarchy,
    sc->clusters. *)
Record results := mk_results {
  r_labels : list nat; r_outliers : list outlier; r_hier : entries; r_clusters : clusters }.

(** hdbscan.h:128-139 struct hdbscan.  Pointers that are NULL or unset are [None]. *)
Record hdb := mk_hdb {
  o_min : Z;                           (* minPoints *)
  o_n : nat;                           (* numPoints *)
  o_self : bool;                       (* selfEdges *)
  o_dist : option distance;            (* distanceFunction *)
  o_clusters : option clusters;        (* clusters *)
  o_res : option results }.

(** hdbscan.c:109-133 hdbscan_init. *)
Definition hdbscan_init (minPoints : Z) : res hdb :=
  if (1 <? minPoints)%Z then Ok (mk_hdb minPoints 0 true None None None) else Abort.

(** hdbscan.c:60-66 hdbscan_get_dataset_size (index_t arithmetic). *)
Definition dataset_size (rows cols : nat) (rowwise : bool) : nat :=
  if rowwise then rows else Z.to_nat (u32 (Z.of_nat rows * Z.of_nat cols)).

(** hdbscan.c:356-409 on a list of clusters that may already hold some: two are appended
    ([hier_start] is the case of an empty list). *)
Definition hier_start_from (cs0 : clusters) (n : nat) (adj : list (list nat)) : hstate :=
  mk_h adj
    (mk_l (repeat 1 n) (cs0 ++ [None; Some (cluster_new 1 None fnan n)]) 2 (repeat None n) (repeat None n) [])
    (repeat 1 n) 0 [] true [] [].
Definition compute_hierarchy_from (cs0 : clusters) (fuel : nat) (e : edges) (n : nat) (adj : list (list nat)) (minPts : nat)
  (compact : bool) : res hstate :=
  let! h := hier_loop fuel e minPts n compact (length (e_w e)) (hier_start_from cs0 n adj) in
  Ok (hier_finish n h).

(** hdbscan.c:236-268 hdbscan_do_run. *)
Definition do_run (fuel : nat) (s : schedule) (qsort : list outlier -> list outlier) (o : hdb) : res hdb :=
  match o_dist o, o_clusters o with
  | Some d, Some cs0 =>
      let n := o_n o in
      let! e0 := construct_mst d n (o_self o) in
      let! adj := graph_init n e0 in
      let! e := graph_quicksort_by_edge_weight e0 in
      let! h := compute_hierarchy_from cs0 fuel e n adj (Z.to_nat (o_min o)) false in
      let cs := l_cs (h_l h) in
      let! r := propagate_tree (length cs) cs (s_leaves s (length cs)) in
      let '(inf, cs, _) := r in
      let! root := cget cs 1 in
      let! labels := find_prominent n cs (h_hier h) (s_select s (length (c_desc root))) (fun keys => s_points s keys n) in
      let! outliers := outlier_scores qsort cs (l_noise (h_l h)) (l_last (h_l h)) (d_core d) n in
      Ok (mk_hdb (o_min o) n (o_self o) (Some d) (Some cs) (Some (mk_results labels outliers (h_hier h) cs)))
  | _, _ => UB
  end.

(** hdbscan.c:319-323: the initial capacity of the cluster list; list.c array_list_init
    asserts that it is positive. *)
Definition cluster_capacity (n : nat) : nat := let c := n / 5 in if c <? 4 then c * 4 else c.

(** hdbscan.c:304-330 hdbscan_run. *)
Definition hdbscan_run (fuel : nat) (s : schedule) (qsort : list outlier -> list outlier) (ds : dataset)
  (rows cols : nat) (rowwise : bool) (o : hdb) : res hdb :=
  let n := dataset_size rows cols rowwise in
  let! d := distance_compute ds rows cols (u32 (o_min o - 1)) in
  if cluster_capacity n =? 0 then Abort
  else do_run fuel s qsort (mk_hdb (o_min o) n (o_self o) (Some d) (Some []) (o_res o)).

(** hdbscan.c:277-291 hdbscan_rerun: hdbscan_minimal_clean empties the list of clusters and
    drops the results.  Before a run sc->mst is read uninitialised. *)
Definition hdbscan_rerun (fuel : nat) (s : schedule) (qsort : list outlier -> list outlier) (minPts : Z) (o : hdb) : res hdb :=
  match o_dist o, o_clusters o with
  | Some d, Some _ =>
      let! d := distance_get_core_distances (mk_distance (d_rows d) (d_cols d) (u32 (minPts - 1)) (d_dist d) (d_core d)) in
      do_run fuel s qsort (mk_hdb minPts (o_n o) true (Some d) (Some []) None)
  | _, _ => UB
  end.

(** A fresh object, and a history of reruns, each with its own schedule. *)
Definition fresh_run (fuel : nat) (s : schedule) (qsort : list outlier -> list outlier) (minPts : Z) (ds : dataset)
  (rows cols : nat) (rowwise : bool) : res hdb :=
  let! o := hdbscan_init minPts in hdbscan_run fuel s qsort ds rows cols rowwise o.
Fixpoint reruns (fuel : nat) (qsort : list outlier -> list outlier) (ms : list (Z * schedule)) (o : hdb) : res hdb :=
  match ms with
  | [] => Ok o
  | (m, s) :: ms' => let! o := hdbscan_rerun fuel s qsort m o in reruns fuel qsort ms' o
  end.
