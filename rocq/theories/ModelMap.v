(** Model of src/hdbscan.c:1205-1776: the cluster map, the distance map, the statistics and
    the sorting of clusters, on top of the hashtable of ModelHash.v and the ArrayList of
    ModelArrayList.v.  label_t and index_t are unsigned int: labels and indices are [Z]
    between 0 and 2^32 - 1.  malloc never fails. *)
From Verif Require Import Base F64 ModelArrayList ModelCells ModelHash ModelPrimes ModelUtils ModelDistance.
Local Open Scope nat_scope.

(** A label_t as the int32_t that int_compare and int_hash load from it. *)
Definition lkey (label : Z) : Z := i32_of_u32 label.

(** utils.c:316-321 int_hash with a positive number of buckets. *)
Definition lhash (k : Z) (buckets : nat) : nat := Z.to_nat (u64 k mod Z.of_nat buckets).

(** An 8-byte pointer value: NULL or the address of a block.  Simplification: the number in
    the first position stands for the whole address. *)
Definition ptr_bytes (p : option nat) : bytes :=
  match p with None => 0%Z | Some a => Z.of_nat (S a) end :: repeat 0%Z 7.
Definition ptr_of (b : bytes) : option nat :=
  match b with
  | x :: _ => if (x <=? 0)%Z then None else Some (Z.to_nat x - 1)
  | [] => None
  end.

(** A hashtable from labels to pointers and the blocks pointed to. *)
Record ptable (V : Type) := mk_ptable { pt_tab : htable Z; pt_mem : list V }.
Arguments mk_ptable {V}. Arguments pt_tab {V}. Arguments pt_mem {V}.

Section Ptable.
Context {V : Type}.
(** hashtable_lookup(table, &label, &p) with p = NULL before the call. *)
Definition pt_find (t : ptable V) (label : Z) : res (option nat) :=
  let! r := hashtable_lookup int_compare lhash (pt_tab t) (lkey label) (ptr_bytes None) in
  Ok (ptr_of (snd r)).
(** p = malloc(...), *p = v. *)
Definition pt_new (t : ptable V) (v : V) : ptable V * nat :=
  (mk_ptable (pt_tab t) (pt_mem t ++ [v]), length (pt_mem t)).
(** hashtable_insert(table, &label, &p). *)
Definition pt_insert (t : ptable V) (label : Z) (p : nat) : res (ptable V) :=
  let! r := hashtable_insert int_compare lhash (pt_tab t) (lkey label) (ptr_bytes (Some p)) in
  Ok (mk_ptable (fst r) (pt_mem t)).
(** *p, and *p = v. *)
Definition pt_load (t : ptable V) (p : nat) : res V := aget (pt_mem t) p.
Definition pt_store (t : ptable V) (p : nat) (v : V) : res (ptable V) :=
  let! m := aset (pt_mem t) p v in Ok (mk_ptable (pt_tab t) m).
(** ((label_t * )table->keys->data)[i].  The keys are held as int32_t values. *)
Definition pt_key (t : ptable V) (i : nat) : res Z :=
  let! k := slot (al_data (ht_keys (pt_tab t))) i in Ok (u32 k).
(** hashtable_size(table). *)
Definition pt_size (t : ptable V) : nat := hashtable_size (pt_tab t).
(** The block a label is mapped to; a NULL pointer is dereferenced otherwise. *)
Definition pt_deref (t : ptable V) (label : Z) : res V :=
  let! p := pt_find t label in
  match p with Some a => pt_load t a | None => UB end.
End Ptable.

(** ** The cluster map *)

(** hdbscan.c:1220-1237: one round of the loop. *)
Definition map_step (labels : list Z) (size : Z) (i : nat) (t : ptable (alist Z)) : res (ptable (alist Z)) :=
  let! lb := aget labels i in
  let! p := pt_find t lb in
  let! tp :=
    match p with
    | Some a => Ok (t, a)
    | None =>
        let! l := array_list_init (Z.to_nat (size / 3)) in
        let (t, a) := pt_new t l in
        let! t := pt_insert t lb a in
        Ok (t, a)
    end in
  let (t, a) := tp in
  let! l := pt_load t a in
  let! r := array_list_append l (Z.of_nat i) in
  pt_store t a (fst r).

(** hdbscan.c:1205-1240 hdbscan_create_cluster_map. *)
Definition create_cluster_map (labels : list Z) (first last : Z) : res (ptable (alist Z)) :=
  let size := u32 (last - first) in
  let! b := hashtable_init_buckets (size / 4) in
  let! tab := hashtable_init_size (Z.to_nat b) 4 8 in
  for_up (Z.to_nat first) (Z.to_nat (last - first)) (map_step labels size) (mk_ptable tab []).

(** hdbscan.c:1783-1788 hdbscan_destroy_cluster_map and 1324-1328
    hdbscan_destroy_distance_map: hashtable_destroy clears the table, handing each value to
    the destroy function.  The answer lists the blocks freed. *)
Definition destroy_map {V} (t : ptable V) : res (list (option nat)) :=
  let! r := hashtable_clear lhash (pt_tab t) in
  Ok (map ptr_of (snd (snd r))).

(** ** The distance map *)

(** hdbscan.h:79-87 struct distance_values. *)
Record dvals := mk_dvals {
  v_min_cr : f64; v_max_cr : f64; v_cr_conf : f64;
  v_max_dr : f64; v_min_dr : f64; v_dr_conf : f64 }.

(** x < zero || x > zero. *)
Definition nonzero (x : f64) : bool := flt x fzero || fgt x fzero.

(** hdbscan.c:1279-1287: the struct of a new cluster. *)
Definition new_dvals (core : f64) : dvals := mk_dvals core core fzero D_MIN D_MAX fzero.
(** hdbscan.c:1290-1297. *)
Definition add_core (core : f64) (v : dvals) : dvals :=
  let mn := if fgt (v_min_cr v) core && nonzero core then core else v_min_cr v in
  let mx := if flt (v_max_cr v) core then core else v_max_cr v in
  mk_dvals mn mx (v_cr_conf v) (v_max_dr v) (v_min_dr v) (v_dr_conf v).
(** hdbscan.c:1304-1311. *)
Definition add_pair (x : f64) (v : dvals) : dvals :=
  let mn := if fgt (v_min_dr v) x && nonzero x then x else v_min_dr v in
  let mx := if flt (v_max_dr v) x then x else v_max_dr v in
  mk_dvals (v_min_cr v) (v_max_cr v) (v_cr_conf v) mx mn (v_dr_conf v).

(** hdbscan.c:1301-1312: the loop over the later members.  The struct is read once and
    written back once (nothing else points to it). *)
Definition pair_loop (d : distance) (l : alist Z) (index : Z) (j : nat) (v : dvals) : res dvals :=
  for_up (S j) (al_size l - S j)
    (fun k v => let! x := slot (al_data l) k in
                let! dd := distance_get d index x in
                Ok (add_pair dd v)) v.

(** hdbscan.c:1275-1313: one member of a cluster; [dl] is the pointer. *)
Definition member_step (d : distance) (key : Z) (l : alist Z) (j : nat) (s : ptable dvals * option nat) : res (ptable dvals * option nat) :=
  let (t, dl) := s in
  let! index := slot (al_data l) j in
  let! core := zget (d_core d) index in
  let! ta :=
    match dl with
    | None =>
        let (t, a) := pt_new t (new_dvals core) in
        let! t := pt_insert t key a in
        Ok (t, a)
    | Some a =>
        let! v := pt_load t a in
        let! t := pt_store t a (add_core core v) in
        Ok (t, a)
    end in
  let (t, a) := ta in
  let! v := pt_load t a in
  let! v := pair_loop d l index j v in
  let! t := pt_store t a v in
  Ok (t, Some a).

(** hdbscan.c:1265-1314: one cluster. *)
Definition cluster_step (d : distance) (ct : ptable (alist Z)) (i : nat) (t : ptable dvals) : res (ptable dvals) :=
  let! key := pt_key ct i in
  let! l := pt_deref ct key in
  let! dl := pt_find t key in
  let! s := for_up 0 (al_size l) (member_step d key l) (t, dl) in
  Ok (fst s).

(** hdbscan.c:1249-1317 hdbscan_get_min_max_distances. *)
Definition get_min_max_distances (d : distance) (ct : ptable (alist Z)) : res (ptable dvals) :=
  let! tab := hashtable_init_size (Z.to_nat (ht_size (pt_tab ct))) 4 8 in
  for_up 0 (pt_size ct) (cluster_step d ct) (mk_ptable tab []).

(** ** Statistics *)

(** hdbscan.h:93-100 struct stats_values, 107-111 struct clustering_stats. *)
Record svals := mk_svals { sv_mean : f64; sv_sd : f64; sv_var : f64; sv_max : f64; sv_kurt : f64; sv_skew : f64 }.
Record cstats := mk_cstats { st_count : Z; st_core : svals; st_intra : svals }.

Section Stats.
(** The C library's pow. *)
Variable pow : f64 -> f64 -> f64.

(** hdbscan.c:1412-1469 hdbscan_calculate_stats_helper for one of its two series, together
    with its half of 1340-1355 hdbscan_skew_kurt_1.  The code advances both series in the
    same loops; they do not interact.  In the parallel region of hdbscan_skew_kurt_1 every
    thread computes and stores the same values. *)
Definition series_stats (xs : list f64) (count : Z) (s : svals) : res svals :=
  let n := Z.to_nat count in
  let! x0 := aget xs 0 in
  let! mm := for_up 1 (n - 1)
    (fun i mm => let! x := aget xs i in
                 Ok (fadd (fst mm) x, if fgt x (snd mm) then x else snd mm)) (x0, x0) in
  let mean := fdiv (fst mm) (f_of_Z count) in
  let! vs := for_up 0 n
    (fun i vs => let '(var, s3, s4) := vs in
       let! x := aget xs i in
       let tmp := fsub x mean in
       Ok (fadd var (fmul tmp tmp), fadd s3 (pow tmp (f_of_Z 3)), fadd s4 (pow tmp (f_of_Z 4))))
    (sv_var s, fzero, fzero) in
  let '(var, s3, s4) := vs in
  let var := fdiv var (f_of_Z (u32 (count - 1))) in
  let sd := fsqrt var in
  let skew := fdiv s3 (fmul (f_of_Z count) (pow sd (f_of_Z 3))) in
  let kurt := fsub (fdiv s4 (fmul (f_of_Z count) (pow sd (f_of_Z 4)))) (f_of_Z 3) in
  Ok (mk_svals mean sd var (snd mm) kurt skew).

(** hdbscan.c:1489-1495, the loop filling [cr] and [dr].  Simplification: the iterations of
    the parallel loop write distinct elements and only read the table; they are run in
    order. *)
Definition ratios (t : ptable dvals) (n : nat) : res (list f64 * list f64) :=
  for_up 0 n
    (fun i cd => let! key := pt_key t i in
                 let! v := pt_deref t key in
                 Ok (fst cd ++ [fdiv (v_max_cr v) (v_min_cr v)], snd cd ++ [fdiv (v_max_dr v) (v_min_dr v)])) ([], []).

(** hdbscan.c:1505-1506. *)
Definition confidence (mx r : f64) : f64 := fmul (fdiv (fsub mx r) mx) (f_of_Z 100).

(** hdbscan.c:1498-1507. *)
Definition confidence_step (crs drs : list f64) (mc md : f64) (i : nat) (t : ptable dvals) : res (ptable dvals) :=
  let! key := pt_key t i in
  let! p := pt_find t key in
  match p with
  | None => UB
  | Some a =>
      let! v := pt_load t a in
      let! rc := aget crs i in
      let! rd := aget drs i in
      pt_store t a (mk_dvals (v_min_cr v) (v_max_cr v) (confidence mc rc) (v_max_dr v) (v_min_dr v) (confidence md rd))
  end.

(** hdbscan.c:1477-1508 hdbscan_calculate_stats. *)
Definition calculate_stats (t : ptable dvals) (s : cstats) : res (ptable dvals * cstats) :=
  let n := pt_size t in
  let! cd := ratios t n in
  let count := u32 (Z.of_nat n) in
  let! c := series_stats (fst cd) count (st_core s) in
  let! i := series_stats (snd cd) count (st_intra s) in
  let! t := for_up 0 n (confidence_step (fst cd) (snd cd) (sv_max c) (sv_max i)) t in
  Ok (t, mk_cstats count c i).
End Stats.

(** hdbscan.c:1524-1532 and 1534-1542. *)
Definition score_of (skew kurt : f64) : Z :=
  if fgt skew fzero && fgt kurt fzero then 2
  else if flt skew fzero && fgt kurt fzero then 1
  else if fgt skew fzero && flt kurt fzero then 0
  else -1.
(** hdbscan.c:1516-1545 hdbscan_analyse_stats. *)
Definition analyse_stats (s : cstats) : Z :=
  (score_of (sv_skew (st_intra s)) (sv_kurt (st_intra s)) + score_of (sv_skew (st_core s)) (sv_kurt (st_core s)))%Z.

(** ** Sorting labels with their keys *)
Section Tandem.
Context {C : Type}.

(** hdbscan.c:1564-1566 and 1568-1570: the two inner loops; [n] is down - up. *)
Fixpoint scan_up (d : list f64) (x : f64) (up n : nat) : res nat :=
  match n with
  | O => Ok up
  | S n' => let! y := aget d up in if fle y x then scan_up d x (S up) n' else Ok up
  end.
Fixpoint scan_down (d : list f64) (x : f64) (down n : nat) : res nat :=
  match n with
  | O => Ok down
  | S n' => let! y := aget d down in if fgt y x then scan_down d x (down - 1) n' else Ok down
  end.

Definition swap {T} (l : list T) (i j : nat) : res (list T) :=
  let! a := aget l i in
  let! b := aget l j in
  let! l := aset l i b in
  aset l j a.

(** hdbscan.c:1563-1584: the outer loop. *)
Fixpoint part_loop (fuel : nat) (c : list C) (d : list f64) (x : f64) (up down : nat) : res (list C * list f64 * nat) :=
  if up <? down then
    match fuel with
    | O => Fuel
    | S f =>
        let! up := scan_up d x up (down - up) in
        let! down := scan_down d x down (down - up) in
        if up =? down then Ok (c, d, up)
        else
          let! d := swap d up down in
          let! c := swap c up down in
          part_loop f c d x up down
    end
  else Ok (c, d, up).

(** hdbscan.c:1556-1596 partition, called with lower < upper. *)
Definition tandem_partition (fuel : nat) (c : list C) (d : list f64) (lower upper : nat) : res (list C * list f64 * nat) :=
  let! x := aget d lower in
  let! x2 := aget c lower in
  let! r := part_loop fuel c d x (S lower) upper in
  let '(c, d, up) := r in
  let! y := aget d up in
  let up := if fgt y x then up - 1 else up in
  let! y := aget d up in
  let! d := aset d lower y in
  let! d := aset d up x in
  let! y2 := aget c up in
  let! c := aset c lower y2 in
  let! c := aset c up x2 in
  Ok (c, d, up).

(** hdbscan.c:1606-1616 hdbscan_quicksort.  The fuel bounds the recursion depth and the
    number of rounds of each partition. *)
Fixpoint tandem_quicksort (fuel : nat) (c : list C) (d : list f64) (left right : Z) : res (list C * list f64) :=
  if (left <? right)%Z then
    match fuel with
    | O => Fuel
    | S f =>
        if (left <? 0)%Z then UB else
        let! r := tandem_partition fuel c d (Z.to_nat left) (Z.to_nat right) in
        let '(c, d, p) := r in
        let! r := tandem_quicksort f c d left (Z.of_nat p - 1) in
        tandem_quicksort f (fst r) (snd r) (Z.of_nat p + 1) right
    end
  else Ok (c, d).
End Tandem.

(** hdbscan.c:1771 and 1704: sort the labels of a list by the keys. *)
Definition sort_list (fuel : nat) (clusters : alist Z) (keys : list f64) : res (alist Z) :=
  let! r := tandem_quicksort fuel (al_data clusters) keys 0 (i32_of_u32 (u32 (Z.of_nat (al_size clusters) - 1))) in
  Ok (AL (fst r) (al_size clusters) (al_max clusters)).

(** hdbscan.c:1717-1776 hdbscan_sort_by_length; [None] is a NULL list.  For an empty list
    array_list_init is called with size 0, so the branch 1747-1756 is never reached.  The
    parallel loop is run in order (it writes distinct elements). *)
Definition sort_by_length (fuel : nat) (ct : ptable (alist Z)) (clusters : option (alist Z)) : res (alist Z) :=
  match clusters with
  | None => Abort
  | Some l =>
      let! lengths := array_list_init (A := f64) (al_size l) in
      let! keys := for_up 0 (al_size l)
        (fun i ks => let! key := slot (al_data l) i in
                     let! m := pt_deref ct key in
                     Ok (ks ++ [f_of_Z (Z.of_nat (al_size m))])) [] in
      sort_list fuel l keys
  end.

(** hdbscan.c:1628-1708 hdbscan_sort_by_similarity; [core] is distanceType ==
    CORE_DISTANCE_TYPE.  For an empty list array_list_init aborts. *)
Definition sort_by_similarity (fuel : nat) (t : ptable dvals) (clusters : option (alist Z)) (core : bool) : res (alist Z) :=
  let conf v := if core then v_cr_conf v else v_dr_conf v in
  match clusters with
  | None =>
      let! l := array_list_init (pt_size t) in
      let! distances := array_list_init (A := f64) (pt_size t) in
      let! r := for_up 0 (pt_size t)
        (fun i r => let! key := pt_key t i in
                    let! v := pt_deref t key in
                    let! a := array_list_append (fst r) key in
                    Ok (fst a, snd r ++ [conf v])) (l, []) in
      sort_list fuel (fst r) (snd r)
  | Some l =>
      let! distances := array_list_init (A := f64) (al_size l) in
      let! keys := for_up 0 (al_size l)
        (fun i ks => let! key := pt_key t i in
                     let! v := pt_deref t key in
                     Ok (ks ++ [conf v])) [] in
      sort_list fuel l keys
  end.
