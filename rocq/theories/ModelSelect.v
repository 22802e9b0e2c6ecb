(** Model of the selection of clusters: cluster_propagate (src/cluster.c:149-199),
    hdbscan_propagate_tree (src/hdbscan.c:988-1069), hdbscan_find_prominent_clusters
    (src/hdbscan.c:1077-1144) and hdbscsan_calculate_outlier_scores (src/hdbscan.c:1155-1195).
    The order in which the threads of a parallel loop act is a parameter. *)
From Verif Require Import Base F64 ModelUtils ModelDistance ModelMst ModelGraph ModelCluster ModelHier.

(** The assignments to the four propagated fields. *)
Definition set_plow (c : cluster) (x : f64) : cluster :=
  mk_cluster (c_label c) (c_birth c) (c_death c) (c_num c) (c_offset c) (c_stab c) (c_pstab c) x
    (c_nc c) (c_pnc c) (c_virtual c) (c_parent c) (c_desc c) (c_kids c).
Definition add_prop (c : cluster) (nc : Z) (stab : f64) (ds : list nat) : cluster :=
  mk_cluster (c_label c) (c_birth c) (c_death c) (c_num c) (c_offset c) (c_stab c) (fadd (c_pstab c) stab) (c_plow c)
    (c_nc c) (u32 (c_pnc c + nc)) (c_virtual c) (c_parent c) (c_desc c ++ ds) (c_kids c).

(** cluster.c:161-197: what a cluster hands to its parent: constraints, stability and the
    descendants appended to the parent's list.  [x] is the pointer to the cluster itself. *)
Definition handed (x : nat) (c : cluster) : Z * f64 * list nat :=
  if negb (c_kids c) || (c_pnc c <? c_nc c)%Z then (c_nc c, c_stab c, [x])
  else if (c_nc c <? c_pnc c)%Z then (c_pnc c, c_pstab c, c_desc c)
  else if fge (c_stab c) (c_pstab c) then (c_nc c, c_stab c, [x])
  else (c_pnc c, c_pstab c, c_desc c).

(** cluster.c:149-199 cluster_propagate(cl) with cl at position [x] of sc->clusters. *)
Definition cluster_propagate (cs : clusters) (x : nat) : res clusters :=
  let! c := cget cs x in
  match c_parent c with
  | None => Ok cs
  | Some p =>
      let c := if feq (c_plow c) D_MAX then set_plow c (c_death c) else c in
      let! cs := cset cs x c in
      let! q := cget cs p in
      let q := if flt (c_plow c) (c_plow q) then set_plow q (c_plow c) else q in
      let '(nc, stab, ds) := handed x c in
      cset cs p (add_prop q nc stab ds)
  end.

(** hdbscan.c:1013-1027: the loop that collects the leaves, its iterations in the order
    [order]; the body is a critical section. *)
Fixpoint collect_leaves (cs : clusters) (order : list nat) (s : list nat) (added : list bool)
  : res (list nat * list bool) :=
  match order with
  | [] => Ok (s, added)
  | i :: order' =>
      let! o := aget cs i in
      match o with
      | Some c =>
          if c_kids c then collect_leaves cs order' s added
          else
            let! added := aset added (c_label c) true in
            collect_leaves cs order' (snd (set_insert (c_label c) s)) added
      | None => collect_leaves cs order' s added
      end
  end.

(** hdbscan.c:1029-1047: the loop over the clusters to examine.  The list of the clusters
    taken from the set, in order, is a ghost result. *)
Fixpoint propagate_loop (fuel : nat) (cs : clusters) (s : list nat) (added : list bool) (inf : bool)
  : res (bool * clusters * list nat) :=
  match s with
  | [] => Ok (inf, cs, [])
  | _ :: _ =>
      match fuel with
      | O => Fuel
      | S f =>
          let! r := list_pop s in
          let (x, s) := r in
          let! cs := cluster_propagate cs x in
          let! c := cget cs x in
          let inf := inf || feq (c_stab c) D_MAX in
          let! r :=
            match c_parent c with
            | None => Ok (s, added)
            | Some p =>
                let! q := cget cs p in
                let! a := aget added (c_label q) in
                if a then Ok (s, added)
                else
                  let! added := aset added (c_label q) true in
                  Ok (snd (set_insert (c_label q) s), added)
            end in
          let! t := propagate_loop f cs (fst r) (snd r) inf in
          let '(inf, cs, trace) := t in
          Ok (inf, cs, x :: trace)
      end
  end.

(** hdbscan.c:988-1069 hdbscan_propagate_tree. *)
Definition propagate_tree (fuel : nat) (cs : clusters) (order : list nat) : res (bool * clusters * list nat) :=
  let! r := collect_leaves cs order [] (repeat false (length cs)) in
  propagate_loop fuel cs (fst r) (snd r) false.

(** The table [significant] through its abstract value: lists of labels by offset. *)
Fixpoint sig_add (o label : nat) (m : list (nat * list nat)) : list (nat * list nat) :=
  match m with
  | [] => [(o, [label])]
  | (k, l) :: m' => if k =? o then (k, l ++ [label]) :: m' else (k, l) :: sig_add o label m'
  end.

(** hdbscan.c:1084-1114: grouping the solution; [order] lists the iterations (each body is
    a critical section). *)
Fixpoint group_solution (cs : clusters) (solution order : list nat) (m : list (nat * list nat))
  : res (list (nat * list nat)) :=
  match order with
  | [] => Ok m
  | i :: order' =>
      let! x := aget solution i in
      let! c := cget cs x in
      group_solution cs solution order' (sig_add (c_offset c) (c_label c) m)
  end.

(** hdbscan.c:1122-1140: the body of the inner loop for key number [i] and point [j].  A
    lookup that fails would leave hpSecond uninitialised. *)
Definition label_point (hier : entries) (m : list (nat * list nat)) (labels : list nat) (i j : nat) : res (list nat) :=
  let! kl := aget m i in
  match hget hier (S (fst kl)) with
  | None => UB
  | Some en =>
      let! label := aget (snd en) j in
      if set_mem label (snd kl) then aset labels j label else Ok labels
  end.
Fixpoint label_points (hier : entries) (m : list (nat * list nat)) (labels : list nat) (acts : list (nat * nat))
  : res (list nat) :=
  match acts with
  | [] => Ok labels
  | (i, j) :: acts' => let! labels := label_point hier m labels i j in label_points hier m labels acts'
  end.

(** hdbscan.c:1077-1144 hdbscan_find_prominent_clusters.  [order] is the order of the
    iterations of the first parallel loop, [acts] gives for a number of keys the order of
    the (key, point) steps of the second. *)
Definition find_prominent (n : nat) (cs : clusters) (hier : entries) (order : list nat) (acts : nat -> list (nat * nat))
  : res (list nat) :=
  let! root := cget cs 1 in
  let! m := group_solution cs (c_desc root) order [] in
  label_points hier m (repeat 0 n) (acts (length m)).

(** hdbscan.c:1166-1186: score, id and core distance of point [i].  pointNoiseLevels and
    pointLastClusters may be uninitialised. *)
Definition score_of (low eps : f64) : f64 :=
  if fne eps fzero then fsub fone (fdiv low eps) else fzero.
Definition outlier_of (cs : clusters) (noise : list (option f64)) (last : list (option nat)) (core : list (option f64))
  (i : nat) : res outlier :=
  let! t := aget last i in
  match t with
  | None => UB
  | Some t =>
      let! c := cget cs t in
      let! eps := aget noise i in
      match eps with
      | None => UB
      | Some eps =>
          let! cd := aget core i in
          match cd with
          | None => UB
          | Some cd => Ok (mk_outlier (score_of (c_plow c) eps) cd (Z.of_nat i))
          end
      end
  end.

(** hdbscan.c:1155-1195 hdbscsan_calculate_outlier_scores; the iterations write different
    elements.  [qsort] is the C library's. *)
Definition collect_outliers (cs : clusters) (noise : list (option f64)) (last : list (option nat)) (core : list (option f64))
  (n : nat) : res (list outlier) :=
  for_up 0 n (fun i acc => let! o := outlier_of cs noise last core i in Ok (acc ++ [o])) [].
Definition outlier_scores (qsort : list outlier -> list outlier) (cs : clusters) (noise : list (option f64))
  (last : list (option nat)) (core : list (option f64)) (n : nat) : res (list outlier) :=
  let! l := collect_outliers cs noise last core n in Ok (qsort l).
