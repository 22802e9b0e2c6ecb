(** hdbscan_compute_hierarchy_and_cluster_tree (src/hdbscan.c:356-719), graph_init and
    graph_remove_edge (src/undirected_graph.c:46-101, 253-264) again, this time on the
    containers the code uses: the sets and array lists of ModelArrayList.v with their blocks,
    capacities and searches, where ModelHier.v and ModelGraph.v use sequences.

    index_t and label_t are unsigned int; the values are [nat] here.  A pointer to a cluster
    is the number of its block (block 0 stands for NULL).  sc->hierarchy is a hashtable of
    ModelHash.v. *)
From Verif Require Import Base F64 ModelArrayList ModelUtils ModelMst ModelGraph.
From Verif Require ModelPrimes ModelHash ModelTable ModelMap ModelCluster ModelHier.
Import ModelCluster.
Local Open Scope nat_scope.

Notation set_insert := ModelArrayList.set_insert.
Notation set_remove := ModelArrayList.set_remove.

(** utils.c:51-65 int_compare on two index_t or label_t. *)
Definition vcmp (a b : nat) : Z := int_compare_u32 (Z.of_nat a) (Z.of_nat b).
Definition vec := alist nat.
(** A value copied out by an operation; nothing is written when there is none, and the
    variable that would hold it is not initialised. *)
Definition got {A} (o : option A) : res A := match o with Some a => Ok a | None => UB end.
(** [s->size = 0]. *)
Definition reset (s : vec) : vec := AL (al_data s) 0 (al_max s).
(** [for(i = 0; i < s->size; i++) { d = ((index_t* )s->data)[i]; ... }] *)
Definition each {S} (s : vec) (body : nat -> S -> res S) (st : S) : res S :=
  for_up 0 (al_size s) (fun i st => let! d := slot (al_data s) i in body d st) st.

(** ** Tables *)

(** A hashtable with keys of type H_LONG and pointers as values, and the blocks pointed to.
    The keys used here are not negative. *)
Definition ltable (V : Type) := ModelMap.ptable V.
(** hashtable_init(buckets, H_LONG, H_PTR, long_compare), buckets being a size_t. *)
Definition lt_init {V} (buckets : Z) : res (ltable V) :=
  let! t := ModelTable.hashtable_init buckets H_LONG H_PTR in Ok (ModelMap.mk_ptable t []).
(** hashtable_lookup(t, &k, &p), where p is NULL or not set before the call. *)
Definition lt_find {V} (t : ltable V) (k : nat) : res (option nat) :=
  let! r := ModelHash.hashtable_lookup int_compare ModelMap.lhash (ModelMap.pt_tab t) (Z.of_nat k) (ModelMap.ptr_bytes None) in
  Ok (ModelMap.ptr_of (snd r)).
(** hashtable_insert(t, &k, &p), where p points to a new block with [v]. *)
Definition lt_insert {V} (t : ltable V) (k : nat) (v : V) : res (ltable V) :=
  let! r := ModelHash.hashtable_insert int_compare ModelMap.lhash (ModelMap.pt_tab t) (Z.of_nat k)
              (ModelMap.ptr_bytes (Some (length (ModelMap.pt_mem t)))) in
  Ok (ModelMap.mk_ptable (fst r) (ModelMap.pt_mem t ++ [v])).
(** [((int64_t* )t->keys->data)[i]]. *)
Definition lt_key {V} (t : ltable V) (i : nat) : res nat :=
  let! k := slot (al_data (ModelHash.ht_keys (ModelMap.pt_tab t))) i in Ok (Z.to_nat k).

(** ** The graph *)

(** undirected_graph.c:46-101 graph_init: g->edges[i] has room for 16 vertices. *)
Definition c_append_to (adj : list vec) (v x : nat) : res (list vec) :=
  let! l := aget adj v in
  let! r := array_list_append l x in
  aset adj v (fst r).
Definition c_graph_add (e : edges) (i : nat) (adj : list vec) : res (list vec) :=
  let! a := aget (e_a e) i in
  let! b := aget (e_b e) i in
  let! adj := c_append_to adj a b in
  if a =? b then Ok adj else c_append_to adj b a.
Definition c_graph_init (numVertices : nat) (e : edges) : res (list vec) :=
  let! l := array_list_init 16 in
  for_up 0 (length (e_a e)) (c_graph_add e) (repeat l numVertices).
(** undirected_graph.c:253-264 graph_remove_edge. *)
Definition c_graph_remove_edge (adj : list vec) (va vb : nat) : res (list vec) :=
  let! la := aget adj va in
  let! r := array_list_remove vcmp la vb in
  let! adj := aset adj va (fst r) in
  let! lb := aget adj vb in
  let! r := array_list_remove vcmp lb va in
  aset adj vb (fst r).

(** ** Clusters *)

(** cluster.h:54-70 struct Cluster: [o_cl] has the plain fields (its sequences stay empty),
    [o_virt] is virtualChildCluster and [o_desc] propagatedDescendants. *)
Record object := mk_obj { o_cl : cluster; o_virt : vec; o_desc : vec }.
Definition objects := list (option object).
Definition oget (cs : objects) (p : nat) : res object := let! o := aget cs p in got o.
Definition oset (cs : objects) (p : nat) (o : object) : res objects := aset cs p (Some o).
Definition with_cl (o : object) (c : cluster) : object := mk_obj c (o_virt o) (o_desc o).
Definition insert_into (d : nat) (s : vec) : res vec := let! r := set_insert vcmp s d in Ok (fst r).

(** cluster.c:54-90 cluster_init (cl = NULL, a parent is given): the new object. *)
Definition object_new (label : nat) (parent : option nat) (birth : f64) (num : nat) : res object :=
  let! virt := set_init in
  let! desc := array_list_init 1 in
  Ok (mk_obj (cluster_new label parent birth num) virt desc).

(** hdbscan.c:79-100 hdbscan_create_new_cluster, cluster.c:122-138, 202-211; the result is
    [None] for noise. *)
Definition c_create_new_cluster (cs : objects) (cur : list nat) (points : vec) (parent label : nat) (w : f64)
  : res (objects * list nat * option object) :=
  let! cur := each points (fun d cur => aset cur d label) cur in
  let! o := oget cs parent in
  let! cs := oset cs parent (with_cl o (cluster_detach_points (o_cl o) (al_size points) w)) in
  let! o := oget cs parent in
  if label =? 0 then
    let! virt := each points insert_into (o_virt o) in
    let! cs := oset cs parent (mk_obj (o_cl o) virt (o_desc o)) in
    Ok (cs, cur, None)
  else
    let! cs := oset cs parent (with_cl o (set_kids (o_cl o))) in
    let! new := object_new label (Some parent) w (al_size points) in
    Ok (cs, cur, Some new).

(** ** One level *)

(** currentClusterLabels, the blocks of the clusters, sc->clusters, nextClusterLabel,
    pointNoiseLevels, pointLastClusters, newClusters. *)
Record cstate := mk_cs {
  k_cur : list nat; k_cs : objects; k_ptrs : alist (option nat); k_next : nat;
  k_noise : list (option f64); k_last : list (option nat); k_new : vec }.

(** [((cluster** )sc->clusters->data)[label]], to be dereferenced. *)
Definition cluster_at (s : cstate) (label : nat) : res nat :=
  let! p := slot (al_data (k_ptrs s)) label in got p.

(** hdbscan.c:578-583 and 634-639. *)
Definition c_add_cluster (s : cstate) (points : vec) (label : nat) (w : f64) : res cstate :=
  let! parent := cluster_at s label in
  let! r := c_create_new_cluster (k_cs s) (k_cur s) points parent (k_next s) w in
  match r with (cs, cur, new) =>
    let! new := got new in
    let! rn := array_list_append (k_new s) (length cs) in
    let! rp := array_list_append (k_ptrs s) (Some (length cs)) in
    Ok (mk_cs cur (cs ++ [Some new]) (fst rp) (S (k_next s)) (k_noise s) (k_last s) (fst rn))
  end.
(** hdbscan.c:590-604. *)
Definition c_make_noise (s : cstate) (points : vec) (label : nat) (w : f64) : res cstate :=
  let! parent := cluster_at s label in
  let! r := c_create_new_cluster (k_cs s) (k_cur s) points parent 0 w in
  match r with (cs, cur, _) =>
    let! nl := each points (fun p nl =>
      let! noise := aset (fst nl) p (Some w) in
      let! last := aset (snd nl) p (Some label) in
      Ok (noise, last)) (k_noise s, k_last s) in
    Ok (mk_cs cur cs (k_ptrs s) (k_next s) (fst nl) (snd nl) (k_new s))
  end.

(** constructingSubCluster, unexploredSubClusterPoints, examinedVertices, anyEdges,
    incrementedChildCount, numChildClusters, firstChildCluster,
    unexploredFirstChildClusterPoints. *)
Record cexpl := mk_cx {
  y_con : vec; y_un : vec; y_exam : vec; y_any : bool; y_inc : bool; y_nch : nat; y_first : vec; y_unf : vec }.

(** hdbscan.c:531-540. *)
Definition c_explore_nbr (nb : nat) (y : cexpl) : res cexpl :=
  let! r := set_insert vcmp (y_con y) nb in
  if (snd r =? 0)%Z then Ok (mk_cx (fst r) (y_un y) (y_exam y) true (y_inc y) (y_nch y) (y_first y) (y_unf y))
  else
    let! u := array_list_append (y_un y) nb in
    let! e := set_remove vcmp (y_exam y) nb in
    Ok (mk_cx (fst r) (fst u) (fst e) true (y_inc y) (y_nch y) (y_first y) (y_unf y)).

Section Level.
Variable minPts : nat.
Variable adj : list vec.
Variable bound : nat.

(** hdbscan.c:523-562. *)
Fixpoint c_explore (fuel : nat) (y : cexpl) : res cexpl :=
  if 0 <? al_size (y_un y) then
    match fuel with
    | O => Fuel
    | S f =>
        let! r := array_list_pop (y_un y) in
        let! v := got (snd (snd r)) in
        let! l := aget adj v in
        let! y := each l c_explore_nbr (mk_cx (y_con y) (fst r) (y_exam y) (y_any y) (y_inc y) (y_nch y) (y_first y) (y_unf y)) in
        if negb (y_inc y) && (minPts <=? al_size (y_con y)) && y_any y then
          let y := mk_cx (y_con y) (y_un y) (y_exam y) (y_any y) true (S (y_nch y)) (y_first y) (y_unf y) in
          if al_size (y_first y) =? 0 then
            let! first := each (y_con y) insert_into (y_first y) in
            let! unf := each (y_un y) insert_into (y_unf y) in
            Ok (mk_cx (y_con y) (y_un y) (y_exam y) (y_any y) (y_inc y) (y_nch y) first unf)
          else c_explore f y
        else c_explore f y
    end
  else Ok y.

(** hdbscan.c:512-612. *)
Fixpoint c_examine (fuel : nat) (label : nat) (w : f64) (s : cstate) (y : cexpl) : res (cstate * cexpl) :=
  if 0 <? al_size (y_exam y) then
    match fuel with
    | O => Fuel
    | S f =>
        let! r := set_remove_at (y_exam y) (al_size (y_exam y) - 1) in
        let! root := got (snd (snd r)) in
        let! rc := set_insert vcmp (y_con y) root in
        let! ru := array_list_append (y_un y) root in
        let! y := c_explore bound (mk_cx (fst rc) (fst ru) (fst r) false false (y_nch y) (y_first y) (y_unf y)) in
        let! sn :=
          (if (2 <=? y_nch y) && (minPts <=? al_size (y_con y)) && y_any y then
             let! m := (if al_size (y_first y) =? 0 then UB else slot (al_data (y_first y)) (al_size (y_first y) - 1)) in
             let! p := set_find vcmp (y_con y) m in
             if (-1 <? p)%Z then Ok (s, y_nch y - 1)
             else let! s := c_add_cluster s (y_con y) label w in Ok (s, y_nch y)
           else if (al_size (y_con y) <? minPts) || negb (y_any y) then
             let! s := c_make_noise s (y_con y) label w in Ok (s, y_nch y)
           else Ok (s, y_nch y)) in
        let (s, nch) := sn in
        c_examine f label w s (mk_cx (reset (y_con y)) (array_list_clear (y_un y) false) (y_exam y) (y_any y) (y_inc y) nch (y_first y) (y_unf y))
    end
  else Ok (s, y).

(** hdbscan.c:620-631. *)
Definition c_finish_nbr (nb : nat) (st : vec * vec) : res (vec * vec) :=
  let! r := set_insert vcmp (fst st) nb in
  if (snd r =? 0)%Z then Ok (fst r, snd st)
  else let! u := set_insert vcmp (snd st) nb in Ok (fst r, fst u).
Fixpoint c_finish_first (fuel : nat) (first unf : vec) : res (vec * vec) :=
  if 0 <? al_size unf then
    match fuel with
    | O => Fuel
    | S f =>
        let! r := set_remove_at unf (al_size unf - 1) in
        let! v := got (snd (snd r)) in
        let! l := aget adj v in
        let! st := each l c_finish_nbr (first, fst r) in
        c_finish_first f (fst st) (snd st)
    end
  else Ok (first, unf).

(** hdbscan.c:489-501.  [n] counts the rounds: the loop has as many as there are elements. *)
Fixpoint c_take_label (n : nat) (cur : list nat) (label : nat) (it : nat) (av exam : vec) : res (vec * vec) :=
  if it <? al_size av then
    match n with
    | O => Fuel
    | S n' =>
        let! v := slot (al_data av) it in
        let! c := aget cur v in
        if c =? label then
          let! re := set_insert vcmp exam v in
          let! ra := set_remove vcmp av v in
          c_take_label n' cur label it (fst ra) (fst re)
        else c_take_label n' cur label (S it) av exam
    end
  else Ok (av, exam).

(** hdbscan.c:486-644.  The sets are kept from one label to the next (642-644); their order
    in [y] is that of [cexpl].  firstChildCluster->data[0] is read even when the set is empty,
    but then its value is not used. *)
Definition c_do_label (label : nat) (w : f64) (s : cstate) (av : vec) (y : cexpl) : res (cstate * vec * cexpl) :=
  let! r := c_take_label (al_size av) (k_cur s) label 0 av (y_exam y) in
  let (av, exam) := r in
  let! r := c_examine bound label w s (mk_cx (y_con y) (y_un y) exam (y_any y) (y_inc y) 0 (y_first y) (y_unf y)) in
  let (s, y) := r in
  let! r :=
    (if 2 <=? y_nch y then
       let! dd := slot (al_data (y_first y)) 0 in
       let! c := aget (k_cur s) dd in
       if c =? label then
         let! fu := c_finish_first bound (y_first y) (y_unf y) in
         let! s := c_add_cluster s (fst fu) label w in
         Ok (s, fu)
       else Ok (s, (y_first y, y_unf y))
     else Ok (s, (y_first y, y_unf y))) in
  let '(s, (first, unf)) := r in
  Ok (s, av, mk_cx (y_con y) (y_un y) (reset (y_exam y)) (y_any y) (y_inc y) (y_nch y) (reset first) (reset unf)).

(** hdbscan.c:484-645. *)
Fixpoint c_do_labels (w : f64) (s : cstate) (al av : vec) (y : cexpl) (count : nat) : res (cstate * vec * vec) :=
  if 0 <? al_size al then
    match count with
    | O => Fuel
    | S c =>
        let! r := set_remove_at al (al_size al - 1) in
        let! label := got (snd (snd r)) in
        let! t := c_do_label label w s av y in
        let '(s, av, y) := t in
        c_do_labels w s (fst r) av y c
    end
  else Ok (s, al, av).
End Level.

(** ** All levels *)

(** sc->mst->edges, the exploration state, previousClusterLabels, lineCount, hierarchy,
    nextLevelSignificant, affectedVertices, affectedClusterLabels. *)
Record cstates := mk_ch {
  g_adj : list vec; g_s : cstate; g_prev : list nat; g_line : nat; g_hier : ltable (f64 * list nat); g_sig : bool;
  g_av : vec; g_al : vec }.

(** hdbscan.c:420-446. *)
Fixpoint c_remove_ties (e : edges) (w : f64) (cur : list nat) (k : nat) (adj : list vec) (av al : vec)
  : res (list vec * vec * vec * nat) :=
  match k with
  | O => Ok (adj, av, al, O)
  | S j =>
      let! tmp := aget (e_w e) j in
      if feq tmp w then
        let! a := aget (e_a e) j in
        let! b := aget (e_b e) j in
        let! adj := c_graph_remove_edge adj a b in
        let! ca := aget cur a in
        if ca =? 0 then c_remove_ties e w cur j adj av al
        else
          let! av := insert_into a av in
          let! av := insert_into b av in
          let! al := insert_into ca al in
          c_remove_ties e w cur j adj av al
      else Ok (adj, av, al, k)
  end.

(** hdbscan.c:672-679, the iterations in order. *)
Definition c_write_offsets (line : nat) (new : vec) (cs : objects) : res objects :=
  each new (fun p cs => let! o := oget cs p in oset cs p (with_cl o (set_offset (o_cl o) line))) cs.

(** hdbscan.c:413-694: newClusters is cleared at both ends; the sets of a level are created
    (457-461) and deleted (646-650) in it. *)
Definition c_hier_level (e : edges) (minPts n : nat) (compact : bool) (k : nat) (h : cstates) : res (nat * cstates) :=
  let! w := aget (e_w e) (k - 1) in
  let s := g_s h in
  let s := if (array_list_empty (k_new s) =? 1)%Z then s
           else mk_cs (k_cur s) (k_cs s) (k_ptrs s) (k_next s) (k_noise s) (k_last s) (array_list_clear (k_new s) false) in
  let! r := c_remove_ties e w (k_cur s) k (g_adj h) (g_av h) (g_al h) in
  match r with (adj, av, al, k') =>
    if al_size al <? 1 then Ok (k', mk_ch adj s (g_prev h) (g_line h) (g_hier h) (g_sig h) av al)
    else
      let! exam := set_init in
      let! first := set_init in
      let! unf := set_init in
      let! con := set_init in
      let! un := array_list_init (al_max exam) in
      let! r := c_do_labels minPts adj (S n) w s al av (mk_cx con un exam false false 0 first unf) (al_size al) in
      let '(s, al, av) := r in
      let record := negb compact || g_sig h || (0 <? al_size (k_new s)) in
      let line := if record then S (g_line h) else g_line h in
      let! hier := if record then lt_insert (g_hier h) line (w, g_prev h) else Ok (g_hier h) in
      let! cs := c_write_offsets line (k_new s) (k_cs s) in
      let sig := negb (al_size (k_new s) =? 0) in
      let s := mk_cs (k_cur s) cs (k_ptrs s) (k_next s) (k_noise s) (k_last s) (array_list_clear (k_new s) false) in
      Ok (k', mk_ch adj s (k_cur s) line hier sig av al)
  end.

(** hdbscan.c:411-695. *)
Fixpoint c_hier_loop (fuel : nat) (e : edges) (minPts n : nat) (compact : bool) (k : nat) (h : cstates) : res cstates :=
  match k with
  | O => Ok h
  | S _ =>
      match fuel with
      | O => Fuel
      | S f => let! r := c_hier_level e minPts n compact k h in c_hier_loop f e minPts n compact (fst r) (snd r)
      end
  end.

(** hdbscan.c:356-409: sc->clusters is the list [list0] and sc->hierarchy the table [tab0],
    both empty on entry. *)
Definition c_hier_start (list0 : alist (option nat)) (tab0 : ltable (f64 * list nat)) (n : nat) (adj : list vec) : res cstates :=
  let! r := array_list_append list0 None in
  let! r := array_list_append (fst r) (Some 1) in
  let! al := set_init in
  let! av := set_init in
  let! new := array_list_init 2 in
  let! root := object_new 1 None fnan n in
  Ok (mk_ch adj (mk_cs (repeat 1 n) [None; Some root] (fst r) 2 (repeat None n) (repeat None n) new)
        (repeat 1 n) 0 tab0 true av al).

(** hdbscan.c:356-719. *)
Definition c_compute_hierarchy (list0 : alist (option nat)) (tab0 : ltable (f64 * list nat)) (fuel : nat) (e : edges) (n : nat) (adj : list vec) (minPts : nat) (compact : bool)
  : res cstates :=
  let! h := c_hier_start list0 tab0 n adj in
  let! h := c_hier_loop fuel e minPts n compact (length (e_w e)) h in
  let! hier := lt_insert (g_hier h) 0 (fzero, repeat 0 n) in
  Ok (mk_ch (g_adj h) (g_s h) (g_prev h) (S (g_line h)) hier (g_sig h) (g_av h) (g_al h)).
