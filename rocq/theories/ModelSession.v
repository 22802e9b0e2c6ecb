(** Model of what the sample program does with a finished run (sample/tester.c:138-203): it
    groups the labels, describes the clusters, sorts them twice and prints the result.  Printing
    is left out; the reads it makes are kept.  The loop around it (tester.c:112-208) is left
    by the [break] at its end, so this happens once. *)
From Verif Require Import Base F64 ModelArrayList ModelDistance ModelMap ModelRun.
Local Open Scope nat_scope.

(** The variables clusterTable, dMap, stats and sorted (tester.c:138-163). *)
Record prepared := mk_prepared {
  pr_clusters : ptable (alist Z);
  pr_distances : ptable dvals;
  pr_stats : cstats;
  pr_sorted : alist Z
}.

(** tester.c:147-161: the keys of the table, in the order of its set of keys.  set_size of the
    keys and hashtable_size are both the number of entries. *)
Definition key_list (ct : ptable (alist Z)) : res (alist Z) :=
  let! l := array_list_init (pt_size ct) in
  for_up 0 (pt_size ct) (fun i l => let! k := pt_key ct i in
                                    let! a := array_list_append l k in Ok (fst a)) l.

(** tester.c:167-171 and 179-182: look up every listed label and read what it points to. *)
Definition read_all {V} (t : ptable V) (l : alist Z) : res unit :=
  for_up 0 (al_size l) (fun i _ => let! k := slot (al_data l) i in let! v := pt_deref t k in Ok tt) tt.

(** tester.c:138-173.  [stats] is what the variable stats contains before the call: the program
    does not initialise it. *)
Definition prepare (fuel : nat) (pow : f64 -> f64 -> f64) (stats : cstats) (o : hdb) : res prepared :=
  match o_res o, o_dist o with
  | Some r, Some d =>
      let! ct := create_cluster_map (map Z.of_nat (r_labels r)) 0 (Z.of_nat (o_n o)) in
      let! t := get_min_max_distances d ct in
      let! ts := calculate_stats pow t stats in
      let! l := key_list ct in
      let! l := sort_by_length fuel ct (Some l) in
      let! _ := read_all ct l in
      Ok (mk_prepared ct (fst ts) (snd ts) l)
  | _, _ => UB
  end.

(** tester.c:175-203: the sort by similarity, the validity score and the release of both
    tables.  The result is the sorted list, the score and the two lists of released blocks. *)
Definition finish (fuel : nat) (p : prepared) : res (alist Z * Z * (list (option nat) * list (option nat))) :=
  let! l := sort_by_similarity fuel (pr_distances p) (Some (pr_sorted p)) false in
  let! _ := read_all (pr_distances p) l in
  let! a := destroy_map (pr_distances p) in
  let! b := destroy_map (pr_clusters p) in
  Ok (l, analyse_stats (pr_stats p), (a, b)).

(** tester.c:138-203. *)
Definition session (fuel : nat) (pow : f64 -> f64 -> f64) (stats : cstats) (o : hdb) :=
  let! p := prepare fuel pow stats o in finish fuel p.
