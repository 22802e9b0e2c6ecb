(** Model of src/hdbscan.cpp:91-188 and 236-358: the C++ versions of the cluster map, the distance map,
    the statistics and the sorting of clusters.  They use std::map and std::vector instead of
    hashtable and ArrayList.  A std::vector is a sequence. *)
From Verif Require Import Base F64 ModelArrayList ModelUtils ModelDistance ModelMap.
Local Open Scope nat_scope.

(** std::map<label_t, V>: the pairs in increasing order of the (unsigned) keys, which is the
    order of its iterators. *)
Definition smap (V : Type) := list (Z * V).
Section Smap.
Context {V : Type}.
(** map::find; [None] is end(). *)
Fixpoint sm_find (m : smap V) (k : Z) : option V :=
  match m with
  | [] => None
  | (k', v) :: r => if (k =? k')%Z then Some v else sm_find r k
  end.
(** map[k] = v. *)
Fixpoint sm_put (m : smap V) (k : Z) (v : V) : smap V :=
  match m with
  | [] => [(k, v)]
  | (k', v') :: r =>
      if (k <? k')%Z then (k, v) :: m
      else if (k =? k')%Z then (k, v) :: r
      else (k', v') :: sm_put r k v
  end.
(** it->second for it = map.find(k): end() is dereferenced if the key is missing. *)
Definition sm_deref (m : smap V) (k : Z) : res V :=
  match sm_find m k with Some v => Ok v | None => UB end.
End Smap.

(** hdbscan.cpp:95-98: clusterTable[label].push_back(i); operator[] creates an empty vector. *)
Definition cpp_map_step (labels : list Z) (i : nat) (m : smap (list Z)) : res (smap (list Z)) :=
  let! label := aget labels i in
  let old := match sm_find m label with Some l => l | None => [] end in
  Ok (sm_put m label (old ++ [Z.of_nat i])).
(** hdbscan.cpp:91-101 createClusterMap. *)
Definition cpp_create_cluster_map (labels : list Z) (first last : Z) : res (smap (list Z)) :=
  for_up (Z.to_nat first) (Z.to_nat (last - first)) (cpp_map_step labels) [].

(** hdbscan.cpp:138-151: the loop over the later members.  The struct is read once and
    written back once. *)
Definition cpp_pair_loop (d : distance) (l : list Z) (index : Z) (i : nat) (v : dvals) : res dvals :=
  for_up (S i) (length l - S i)
    (fun j v => let! x := aget l j in
                let! dd := distance_get d index x in
                Ok (add_pair dd v)) v.
(** hdbscan.cpp:110-152: one member of a cluster. *)
Definition cpp_member_step (d : distance) (key : Z) (l : list Z) (i : nat) (pm : smap dvals) : res (smap dvals) :=
  let! index := aget l i in
  let! core := zget (d_core d) index in
  let v := match sm_find pm key with None => new_dvals core | Some v => add_core core v end in
  let! v := cpp_pair_loop d l index i v in
  Ok (sm_put pm key v).
(** hdbscan.cpp:103-155 getMinMaxDistances. *)
Definition cpp_get_min_max_distances (d : distance) (ct : smap (list Z)) : res (smap dvals) :=
  for_up 0 (length ct)
    (fun i pm => let! e := aget ct i in
                 for_up 0 (length (snd e)) (cpp_member_step d (fst e) (snd e)) pm) [].

(** hdbscan.cpp:157-182 calculateStats.  An empty map reads element 0 of an array without
    elements. *)
Definition cpp_calculate_stats (pow : f64 -> f64 -> f64) (dm : smap dvals) (s : cstats) : res (smap dvals * cstats) :=
  let crs := map (fun e => fdiv (v_max_cr (snd e)) (v_min_cr (snd e))) dm in
  let drs := map (fun e => fdiv (v_max_dr (snd e)) (v_min_dr (snd e))) dm in
  let count := u32 (Z.of_nat (length dm)) in
  let! c := series_stats pow crs count (st_core s) in
  let! i := series_stats pow drs count (st_intra s) in
  let! dm := for_up 0 (length dm)
    (fun k dm => let! e := aget dm k in
                 let! rc := aget crs k in
                 let! rd := aget drs k in
                 let v := snd e in
                 aset dm k (fst e, mk_dvals (v_min_cr v) (v_max_cr v) (confidence (sv_max c) rc) (v_max_dr v) (v_min_dr v) (confidence (sv_max i) rd))) dm in
  Ok (dm, mk_cstats count c i).
(** hdbscan.cpp:185-188 analyseStats. *)
Definition cpp_analyse_stats (s : cstats) : Z := analyse_stats s.

(** hdbscan.cpp:318-358 quickSort.  The two ArrayLists have the capacity of the vector (0
    aborts), are filled with copies of the elements and copied back: they are the sequences
    themselves. *)
Definition cpp_quick_sort (fuel : nat) (clusters : list Z) (data : list f64) (left right : Z) : res (list Z * list f64) :=
  let! d0 := array_list_init (A := f64) (length clusters) in
  let! c0 := array_list_init (A := Z) (length clusters) in
  let! ks := for_up 0 (length clusters) (fun i ks => let! x := aget data i in Ok (ks ++ [x])) [] in
  tandem_quicksort fuel clusters ks (i32_of_u32 left) (i32_of_u32 right).

(** hdbscan.cpp:258-274 and 298-309: the keys of a vector that is not empty.  The parallel loop writes distinct elements; it is run in order. *)
Definition cpp_keys {V} (m : smap V) (key_of : V -> f64) (clusters : list Z) : res (list f64) :=
  for_up 0 (length clusters)
    (fun i ks => let! key := aget clusters i in
                 let! v := sm_deref m key in
                 Ok (ks ++ [key_of v])) [].
(** The common part of hdbscan.cpp:239-279 and 287-313, with the key of an entry as a parameter:
    an empty vector is filled with all keys of the map. *)
Definition cpp_sort_by {V} (fuel : nat) (m : smap V) (key_of : V -> f64) (clusters : list Z) : res (list Z) :=
  let! ck :=
    match clusters with
    | [] => Ok (map fst m, map (fun e => key_of (snd e)) m)
    | _ => let! ks := cpp_keys m key_of clusters in Ok (clusters, ks)
    end in
  let! r := cpp_quick_sort fuel (fst ck) (snd ck) 0 (u32 (Z.of_nat (length (fst ck)) - 1)) in
  Ok (fst r).
(** hdbscan.cpp:239-279 sortBySimilarity; [core] is distanceType == CORE_DISTANCE_TYPE. *)
Definition cpp_sort_by_similarity (fuel : nat) (dm : smap dvals) (clusters : list Z) (core : bool) : res (list Z) :=
  cpp_sort_by fuel dm (fun v => if core then v_cr_conf v else v_dr_conf v) clusters.
(** hdbscan.cpp:287-313 sortByLength.  The cast to index_t in line 296 keeps the size of a
    vector of fewer than 2^32 elements. *)
Definition cpp_sort_by_length (fuel : nat) (ct : smap (list Z)) (clusters : list Z) : res (list Z) :=
  cpp_sort_by fuel ct (fun l => f_of_Z (Z.of_nat (length l))) clusters.
