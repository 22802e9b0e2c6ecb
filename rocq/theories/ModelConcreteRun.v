(** The rest of a run on the containers of the library, after ModelConcrete.v: cluster_propagate
    (src/cluster.c:149-199), hdbscan_propagate_tree, hdbscan_find_prominent_clusters and
    hdbscsan_calculate_outlier_scores (src/hdbscan.c:988-1195), hdbscan_do_run, hdbscan_run
    and hdbscan_rerun (src/hdbscan.c:236-330).  As in ModelSelect.v the order in which the
    threads act is a parameter. *)
From Verif Require Import Base F64 ModelArrayList ModelUtils ModelDistance ModelMst ModelGraph ModelConcrete.
From Verif Require ModelHash ModelMap.
From Verif Require Import ModelCluster ModelHier ModelSelect ModelRun.
Local Open Scope nat_scope.

(** [((cluster** )sc->clusters->data)[i]], to be dereferenced, and the block. *)
Definition block_at (ptrs : alist (option nat)) (cs : objects) (i : nat) : res (nat * object) :=
  let! p := slot (al_data ptrs) i in
  let! x := got p in
  let! o := oget cs x in
  Ok (x, o).

(** cluster.c:165, 182: [array_list_append(cl->parent->propagatedDescendants, &c)]. *)
Definition append_ptr (x : nat) (l : vec) : res vec := let! r := array_list_append l x in Ok (fst r).
(** cluster.c:173-178, 188-193: the list of [cl] is appended to the parent's.  Simplification:
    a cluster is not its own parent, so the list that is read does not grow. *)
Definition append_all (from to : vec) : res vec :=
  for_up 0 (al_size from) (fun i l =>
    let! r := array_list_value_at from i in
    let! c := got (snd r) in
    append_ptr c l) to.

(** cluster.c:149-199 cluster_propagate, [x] being the pointer; the fields of the parent are
    written at the end. *)
Definition c_cluster_propagate (cs : objects) (x : nat) : res objects :=
  let! o := oget cs x in
  match c_parent (o_cl o) with
  | None => Ok cs
  | Some p =>
      let c := if feq (c_plow (o_cl o)) D_MAX then set_plow (o_cl o) (c_death (o_cl o)) else o_cl o in
      let! cs := oset cs x (with_cl o c) in
      let! q := oget cs p in
      let cq := if flt (c_plow c) (c_plow (o_cl q)) then set_plow (o_cl q) (c_plow c) else o_cl q in
      let itself :=
        let! d := append_ptr x (o_desc q) in
        oset cs p (mk_obj (add_prop cq (c_nc c) (c_stab c) []) (o_virt q) d) in
      let descendants :=
        let! d := append_all (o_desc o) (o_desc q) in
        oset cs p (mk_obj (add_prop cq (c_pnc c) (c_pstab c) []) (o_virt q) d) in
      if negb (c_kids c) || (c_pnc c <? c_nc c)%Z then itself
      else if (c_nc c <? c_pnc c)%Z then descendants
      else if fge (c_stab c) (c_pstab c) then itself
      else descendants
  end.

(** hdbscan.c:1013-1027. *)
Fixpoint c_collect_leaves (ptrs : alist (option nat)) (cs : objects) (order : list nat) (s : vec) (added : list bool) : res (vec * list bool) :=
  match order with
  | [] => Ok (s, added)
  | i :: order' =>
      let! p := slot (al_data ptrs) i in
      match p with
      | None => c_collect_leaves ptrs cs order' s added
      | Some x =>
          let! o := oget cs x in
          if c_kids (o_cl o) then c_collect_leaves ptrs cs order' s added
          else
            let! s := insert_into (c_label (o_cl o)) s in
            let! added := aset added (c_label (o_cl o)) true in
            c_collect_leaves ptrs cs order' s added
      end
  end.

(** hdbscan.c:1029-1047. *)
Fixpoint c_propagate_loop (fuel : nat) (ptrs : alist (option nat)) (cs : objects) (s : vec) (added : list bool) (inf : bool) : res (bool * objects) :=
  if (set_empty s =? 1)%Z then Ok (inf, cs)
  else
    match fuel with
    | O => Fuel
    | S f =>
        let! r := set_remove_at s (al_size s - 1) in
        let! l := got (snd (snd r)) in
        let! b := block_at ptrs cs l in
        let! cs := c_cluster_propagate cs (fst b) in
        let! o := oget cs (fst b) in
        let inf := inf || feq (c_stab (o_cl o)) D_MAX in
        match c_parent (o_cl o) with
        | None => c_propagate_loop f ptrs cs (fst r) added inf
        | Some p =>
            let! q := oget cs p in
            let! a := aget added (c_label (o_cl q)) in
            if a then c_propagate_loop f ptrs cs (fst r) added inf
            else
              let! s := insert_into (c_label (o_cl q)) (fst r) in
              let! added := aset added (c_label (o_cl q)) true in
              c_propagate_loop f ptrs cs s added inf
        end
    end.

(** hdbscan.c:988-1069 hdbscan_propagate_tree. *)
Definition c_propagate_tree (fuel : nat) (ptrs : alist (option nat)) (cs : objects) (order : list nat) : res (bool * objects) :=
  let! s := set_init in
  let! r := c_collect_leaves ptrs cs order s (repeat false (al_size ptrs)) in
  c_propagate_loop fuel ptrs cs (fst r) (snd r) false.

(** hdbscan.c:1084-1114, one iteration: the list of the offset, created with room for 16
    labels when there is none. *)
Definition c_group_step (cs : objects) (solution : vec) (i : nat) (t : ltable vec) : res (ltable vec) :=
  let! r := array_list_value_at solution i in
  if (fst r =? 0)%Z then Ok t
  else
    let! x := got (snd r) in
    let! o := oget cs x in
    let! p := lt_find t (c_offset (o_cl o)) in
    let! ta :=
      match p with
      | Some a => Ok (t, a)
      | None =>
          let! l := array_list_init 16 in
          let! t' := lt_insert t (c_offset (o_cl o)) l in
          Ok (t', length (ModelMap.pt_mem t))
      end in
    let! l := ModelMap.pt_load (fst ta) (snd ta) in
    let! r := array_list_append l (c_label (o_cl o)) in
    ModelMap.pt_store (fst ta) (snd ta) (fst r).
Fixpoint c_group (cs : objects) (solution : vec) (order : list nat) (t : ltable vec) : res (ltable vec) :=
  match order with
  | [] => Ok t
  | i :: order' => let! t := c_group_step cs solution i t in c_group cs solution order' t
  end.

(** hdbscan.c:1122-1140, key number [i] and point [j]. *)
Definition c_label_point (hier : ltable (f64 * list nat)) (t : ltable vec) (labels : list nat) (i j : nat) : res (list nat) :=
  let! key := lt_key t i in
  let! p := lt_find t key in
  let! a := got p in
  let! l := ModelMap.pt_load t a in
  let! p := lt_find hier (S key) in
  let! a := got p in
  let! en := ModelMap.pt_load hier a in
  let! label := aget (snd en) j in
  let! it := array_list_find vcmp l label 0 in
  if (it =? -1)%Z then Ok labels else aset labels j label.
Fixpoint c_label_points (hier : ltable (f64 * list nat)) (t : ltable vec) (labels : list nat) (acts : list (nat * nat)) : res (list nat) :=
  match acts with
  | [] => Ok labels
  | (i, j) :: acts' => let! labels := c_label_point hier t labels i j in c_label_points hier t labels acts'
  end.

(** hdbscan.c:1077-1144 hdbscan_find_prominent_clusters. *)
Definition c_find_prominent (n : nat) (ptrs : alist (option nat)) (cs : objects) (hier : ltable (f64 * list nat))
  (order : nat -> list nat) (acts : nat -> list (nat * nat)) : res (list nat) :=
  let! b := block_at ptrs cs 1 in
  let solution := o_desc (snd b) in
  let! t := lt_init (Z.of_nat (al_size solution)) in
  let! t := c_group cs solution (order (al_size solution)) t in
  c_label_points hier t (repeat 0 n) (acts (al_size (ModelHash.ht_keys (ModelMap.pt_tab t)))).

(** hdbscan.c:1155-1195 hdbscsan_calculate_outlier_scores. *)
Definition c_outlier_of (ptrs : alist (option nat)) (cs : objects) (noise : list (option f64)) (last : list (option nat))
  (core : list (option f64)) (i : nat) : res outlier :=
  let! t := aget last i in
  let! t := got t in
  let! b := block_at ptrs cs t in
  let! eps := aget noise i in
  let! eps := got eps in
  let! cd := aget core i in
  let! cd := got cd in
  Ok (mk_outlier (score_of (c_plow (o_cl (snd b))) eps) cd (Z.of_nat i)).
Definition c_outlier_scores (qsort : list outlier -> list outlier) (ptrs : alist (option nat)) (cs : objects)
  (noise : list (option f64)) (last : list (option nat)) (core : list (option f64)) (n : nat) : res (list outlier) :=
  let! l := for_up 0 n (fun i acc => let! o := c_outlier_of ptrs cs noise last core i in Ok (acc ++ [o])) [] in
  Ok (qsort l).

(** sc->clusterLabels, outlierScores, hierarchy, and the blocks of the clusters. *)
Record cresults := mk_cresults {
  z_labels : list nat; z_outliers : list outlier; z_hier : ltable (f64 * list nat); z_blocks : objects }.
(** hdbscan.h:128-139 struct hdbscan: minPoints, numPoints, selfEdges, distanceFunction,
    clusters, results. *)
Record chdb := mk_chdb {
  z_min : Z; z_n : nat; z_self : bool; z_dist : option distance; z_list : option (alist (option nat)); z_res : option cresults }.

(** hdbscan.c:236-268 hdbscan_do_run. *)
Definition c_do_run (fuel : nat) (s : schedule) (qsort : list outlier -> list outlier) (o : chdb) : res chdb :=
  match z_dist o, z_list o with
  | Some d, Some list0 =>
      let n := z_n o in
      let! tab0 := lt_init (Z.of_nat (cluster_capacity n)) in
      let! e0 := construct_mst d n (z_self o) in
      let! lists := c_graph_init n e0 in
      let! e := graph_quicksort_by_edge_weight e0 in
      let! g := c_compute_hierarchy list0 tab0 fuel e n lists (Z.to_nat (z_min o)) false in
      let ptrs := k_ptrs (g_s g) in
      let! r := c_propagate_tree (al_size ptrs) ptrs (k_cs (g_s g)) (s_leaves s (al_size ptrs)) in
      let cs := snd r in
      let! labels := c_find_prominent n ptrs cs (g_hier g) (s_select s) (fun keys => s_points s keys n) in
      let! outliers := c_outlier_scores qsort ptrs cs (k_noise (g_s g)) (k_last (g_s g)) (d_core d) n in
      Ok (mk_chdb (z_min o) n (z_self o) (Some d) (Some ptrs) (Some (mk_cresults labels outliers (g_hier g) cs)))
  | _, _ => UB
  end.

(** hdbscan.c:304-330 hdbscan_run on a new object (hdbscan_init, 109-133): the list of
    clusters is created with the capacity of lines 319-323. *)
Definition c_fresh_run (fuel : nat) (s : schedule) (qsort : list outlier -> list outlier) (minPts : Z) (ds : dataset)
  (rows cols : nat) (rowwise : bool) : res chdb :=
  if (1 <? minPts)%Z then
    let n := dataset_size rows cols rowwise in
    let! d := distance_compute ds rows cols (u32 (minPts - 1)) in
    let! list0 := array_list_init (cluster_capacity n) in
    c_do_run fuel s qsort (mk_chdb minPts n true (Some d) (Some list0) None)
  else Abort.

(** hdbscan.c:277-291 hdbscan_rerun after a run: hdbscan_minimal_clean (140-191) clears the
    list of clusters and keeps its block. *)
Definition c_rerun (fuel : nat) (s : schedule) (qsort : list outlier -> list outlier) (minPts : Z) (o : chdb) : res chdb :=
  match z_dist o, z_list o with
  | Some d, Some l =>
      let! d := distance_get_core_distances (mk_distance (d_rows d) (d_cols d) (u32 (minPts - 1)) (d_dist d) (d_core d)) in
      c_do_run fuel s qsort (mk_chdb minPts (z_n o) true (Some d) (Some (array_list_clear l false)) None)
  | _, _ => UB
  end.
Fixpoint c_reruns (fuel : nat) (qsort : list outlier -> list outlier) (ms : list (Z * schedule)) (o : chdb) : res chdb :=
  match ms with
  | [] => Ok o
  | (m, s) :: ms' => let! o := c_rerun fuel s qsort m o in c_reruns fuel qsort ms' o
  end.
