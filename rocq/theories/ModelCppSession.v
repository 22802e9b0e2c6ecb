(** Model of what the C++ sample program does with a finished run (sample/tester.cpp:44-72).
    Printing is left out; the reads it makes are kept.  The loop around it (37-87) is left by
    the [break] at its end.  The maps release themselves. *)
From Verif Require Import Base F64 ModelArrayList ModelDistance ModelMap ModelRun ModelCpp.
Local Open Scope nat_scope.

(** The variables clusterTable, dMap, stats and sorted (tester.cpp:44-56). *)
Record cpp_prepared := mk_cpp_prepared {
  cp_clusters : smap (list Z);
  cp_distances : smap dvals;
  cp_stats : cstats;
  cp_sorted : list Z
}.
(** tester.cpp:60-63 and 68-71: find every listed label and read what it points to. *)
Definition cpp_read_all {V} (m : smap V) (l : list Z) : res unit :=
  for_up 0 (length l) (fun i _ => let! k := aget l i in let! v := sm_deref m k in Ok tt) tt.
(** tester.cpp:44-64.  [stats] is what the variable stats contains before the call; [sorted] is
    an empty vector, which sortByLength fills. *)
Definition cpp_prepare (fuel : nat) (pow : f64 -> f64 -> f64) (stats : cstats) (o : hdb) : res cpp_prepared :=
  match o_res o, o_dist o with
  | Some r, Some d =>
      let! ct := cpp_create_cluster_map (map Z.of_nat (r_labels r)) 0 (Z.of_nat (o_n o)) in
      let! dm := cpp_get_min_max_distances d ct in
      let! ds := cpp_calculate_stats pow dm stats in
      let! l := cpp_sort_by_length fuel ct [] in
      let! _ := cpp_read_all ct l in
      Ok (mk_cpp_prepared ct (fst ds) (snd ds) l)
  | _, _ => UB
  end.
(** tester.cpp:53 and 66-72: the sorted labels and the score. *)
Definition cpp_finish (fuel : nat) (p : cpp_prepared) : res (list Z * Z) :=
  let! l := cpp_sort_by_similarity fuel (cp_distances p) (cp_sorted p) false in
  let! _ := cpp_read_all (cp_distances p) l in
  Ok (l, cpp_analyse_stats (cp_stats p)).
(** tester.cpp:44-72. *)
Definition cpp_session (fuel : nat) (pow : f64 -> f64 -> f64) (stats : cstats) (o : hdb) : res (list Z * Z) :=
  let! p := cpp_prepare fuel pow stats o in cpp_finish fuel p.
