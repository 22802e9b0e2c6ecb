(** Model of all memory of hdbscan_run and hdbscan_rerun, working memory included: every
    malloc, calloc, realloc and free of src/hdbscan.c:140-330 (life of the object), 356-719
    (hierarchy), 810-980 (tree), 988-1066 (propagation), 1076-1144 (labels), 1159 (scores),
    and of the lists, sets, tables, clusters and graphs they use.

    The heap is that of ModelLife.v: freeing or using a block that is not allocated is [UB].
    What the run decides from the data (which sets grow, how many levels, labels, components
    and clusters there are, which cluster splits) is not computed here but given by a record
    of decisions; the theorems hold for all of them, so also for those of every real run.
    Simplifications: allocation succeeds; a grown block is a fresh one; the insertions into
    one list within one step are done one after the other; a key is inserted once into a
    table (C29, C38); hashtable_clear visits the entries in the order of insertion (each
    once, C09); arrays on the stack are left out. *)
From Verif Require Import Base ModelLife.
Local Open Scope nat_scope.

Definition malloc (h : heap) : nat * heap := let (b, h) := alloc 1 h in (hd 0 b, h).
(** Reading or writing a block. *)
Definition touch1 (b : nat) (h : heap) : res unit := if existsb (Nat.eqb b) (hp_live h) then Ok tt else UB.

(** list.h struct ArrayList (set_t is the same): the struct and the elements. *)
Record alst := mk_alst { a_hdr : nat; a_blk : nat }.
(** list.c:54-75 array_list_init, set.c:44-47 set_init. *)
Definition l_init (h : heap) : alst * heap :=
  let (p, h) := malloc h in let (d, h) := malloc h in (mk_alst p d, h).
Definition l_use (l : alst) (h : heap) : res unit := let! _ := touch1 (a_hdr l) h in touch1 (a_blk l) h.
(** list.c:119-131 array_list_grow and 279-285 array_list_clear(list, 1): realloc. *)
Definition l_realloc (l : alst) (h : heap) : res (alst * heap) :=
  let! _ := touch1 (a_hdr l) h in
  let! h := free1 (a_blk l) h in
  let (d, h) := malloc h in Ok (mk_alst (a_hdr l) d, h).
(** One insertion: array_list_append, set_insert; [grow] tells whether the block is full. *)
Definition l_put (grow : bool) (l : alst) (h : heap) : res (alst * heap) :=
  let! _ := l_use l h in if grow then l_realloc l h else Ok (l, h).
Fixpoint l_puts (gs : list bool) (l : alst) (h : heap) : res (alst * heap) :=
  match gs with [] => Ok (l, h) | g :: gs' => let! r := l_put g l h in l_puts gs' (fst r) (snd r) end.
(** list.c:139-150 array_list_delete, set.c:49-52 set_delete. *)
Definition l_delete (l : alst) (h : heap) : res heap :=
  let! _ := touch1 (a_hdr l) h in let! h := free1 (a_blk l) h in free1 (a_hdr l) h.
Fixpoint l_deletes (ls : list alst) (h : heap) : res heap :=
  match ls with [] => Ok h | l :: ls' => let! h := l_delete l h in l_deletes ls' h end.

(** hashtable.h struct hashtable: the struct, the buckets, the keys, and for every entry its
    struct, data and key (hashtable.c:411-435) with the object its value points to: a list,
    or a hierarchy_entry with its labels, which has the same two blocks. *)
Record tent := mk_tent { n_entry : nat; n_data : nat; n_key : nat; n_val : alst }.
Record table := mk_table { t_blk : nat; t_arr : nat; t_keys : alst; t_ents : list tent }.
(** hashtable.c:116-178 hashtable_init_size. *)
Definition t_init (h : heap) : table * heap :=
  let (b, h) := malloc h in let (a, h) := malloc h in let (k, h) := l_init h in (mk_table b a k [], h).
(** hashtable.c:183-202 hashtable_insert of a new key. *)
Definition t_insert (grow : bool) (v : alst) (t : table) (h : heap) : res (table * heap) :=
  let! _ := touch1 (t_blk t) h in
  let! _ := touch1 (t_arr t) h in
  let (e, h) := malloc h in let (d, h) := malloc h in let (k, h) := malloc h in
  let! r := l_put grow (t_keys t) h in
  Ok (mk_table (t_blk t) (t_arr t) (fst r) (t_ents t ++ [mk_tent e d k v]), snd r).
(** hashtable.c:443-455 hashtable_entry_destroy, then the destructor of the value:
    array_list_delete (hdbscan.c:1143) or hdbscan_destroy_hierarchical_entry
    (hdbscan.c:1987-1993: the labels, then the struct). *)
Fixpoint t_free_ents (es : list tent) (h : heap) : res heap :=
  match es with
  | [] => Ok h
  | e :: es' =>
      let! _ := touch1 (n_entry e) h in
      let! h := free1 (n_key e) h in
      let! h := free1 (n_data e) h in
      let! h := free1 (n_entry e) h in
      let! h := l_delete (n_val e) h in
      t_free_ents es' h
  end.
(** hashtable.c:337-383 hashtable_clear. *)
Definition t_clear (t : table) (h : heap) : res (table * heap) :=
  let! _ := touch1 (t_blk t) h in
  let (k, h) := malloc h in let (d, h) := malloc h in
  let! _ := touch1 (t_arr t) h in
  let! h := t_free_ents (t_ents t) h in
  let! h := free1 k h in
  let! h := free1 d h in
  let! r := l_realloc (t_keys t) h in
  Ok (mk_table (t_blk t) (t_arr t) (fst r) [], snd r).
(** hashtable.c:390-402 hashtable_destroy. *)
Definition t_destroy (t : table) (h : heap) : res heap :=
  let! r := t_clear t h in
  let! h := l_delete (t_keys (fst r)) (snd r) in
  let! h := free1 (t_arr (fst r)) h in
  free1 (t_blk (fst r)) h.

(** cluster.h struct Cluster: the struct, virtualChildCluster, propagatedDescendants. *)
Record clu := mk_clu { k_blk : nat; k_set : alst; k_desc : alst }.
(** cluster.c:54-90 cluster_init. *)
Definition cl_init (parent : option clu) (h : heap) : res (clu * heap) :=
  let (b, h) := malloc h in
  let! _ := match parent with None => Ok tt | Some p => touch1 (k_blk p) h end in
  let (s, h) := l_init h in let (d, h) := l_init h in
  Ok (mk_clu b s d, h).
(** cluster.c:97-110 cluster_destroy. *)
Definition cl_destroy (c : clu) (h : heap) : res heap :=
  let! _ := touch1 (k_blk c) h in
  let! h := l_delete (k_set c) h in
  let! h := l_delete (k_desc c) h in
  free1 (k_blk c) h.
Fixpoint cl_destroys (cs : list clu) (h : heap) : res heap :=
  match cs with [] => Ok h | c :: cs' => let! h := cl_destroy c h in cl_destroys cs' h end.

(** undirected_graph.h struct UndirectedGraph: the struct, the array of lists, the three
    lists of edges and the lists of the vertices. *)
Record gra := mk_gra { g_blk : nat; g_arr : nat; g_a : alst; g_b : alst; g_w : alst; g_adj : list alst }.
(** undirected_graph.c:78-98: the list of a vertex is made and filled. *)
Fixpoint adj_lists (n : list (list bool)) (h : heap) : res (list alst * heap) :=
  match n with
  | [] => Ok ([], h)
  | gs :: n' =>
      let (l, h) := l_init h in
      let! r := l_puts gs l h in
      let! q := adj_lists n' (snd r) in
      Ok (fst r :: fst q, snd q)
  end.
(** hdbscan.c:834-870 and 967 with undirected_graph.c:46-101 graph_init. *)
Definition led_tree (n : list (list bool)) (h : heap) : res (gra * heap) :=
  let (a, h) := l_init h in let (b, h) := l_init h in let (w, h) := l_init h in
  let! _ := l_use w h in let! _ := l_use a h in let! _ := l_use b h in
  let (g, h) := malloc h in let (e, h) := malloc h in
  let! r := adj_lists n h in
  Ok (mk_gra g e a b w (fst r), snd r).
(** undirected_graph.c:103-136 graph_destroy and graph_clean. *)
Definition g_destroy (g : gra) (h : heap) : res heap :=
  let! _ := touch1 (g_blk g) h in
  let! h := l_delete (g_a g) h in
  let! h := l_delete (g_b g) h in
  let! h := l_delete (g_w g) h in
  let! _ := touch1 (g_arr g) h in
  let! h := l_deletes (g_adj g) h in
  let! h := free1 (g_arr g) h in
  free1 (g_blk g) h.

(** The decisions of a run.  A cluster that is examined is given by any number: the cluster
    taken is that one modulo the number of clusters. *)
Inductive kind :=
| KSplit (parent : nat) (g1 g2 : bool)         (* hdbscan.c:576-584 *)
| KNoise (parent : nat) (gs : list bool)       (* hdbscan.c:588-606 *)
| KOther.                                      (* hdbscan.c:571-573, or neither *)
Record comp := mk_comp { p_con : list bool; p_un : list bool; p_first : list bool; p_unf : list bool; p_kind : kind }.
Record labelw := mk_labelw { b_exam : list bool; b_comps : list comp; b_split : option (list bool * list bool * (nat * bool * bool)) }.
Record level := mk_level { v_aff : list bool; v_lab : list bool; v_work : option (list labelw * option bool) }.
Record decisions := mk_dec {
  z_adj : list (list bool);                    (* one list per point *)
  z_null : bool; z_root : bool; z_levels : list level; z_last : bool;
  z_exam : list bool; z_desc : list (nat * list bool);
  z_offsets : list (list bool * bool) }.

(** The state of the hierarchy loop: sc->clusters with the clusters (the NULL of label 0 is
    left out: cluster number i is the one of label i+1), newClusters with their numbers,
    sc->hierarchy. *)
Record led := mk_led { w_list : alst; w_cs : list clu; w_newl : alst; w_new : list nat; w_hier : table; w_heap : heap }.

(** hdbscan.c:578, 590, 634: the cluster of examinedClusterLabel, read from sc->clusters. *)
Definition examined (p : nat) (s : led) : res (nat * clu) :=
  let! _ := l_use (w_list s) (w_heap s) in
  let i := p mod length (w_cs s) in
  let! c := aget (w_cs s) i in Ok (i, c).
(** hdbscan.c:79-101 hdbscan_create_new_cluster with a label, and appending the cluster to
    newClusters and to sc->clusters (hdbscan.c:579-583, 636-640). *)
Definition new_cluster (p : nat) (g1 g2 : bool) (s : led) : res led :=
  let! e := examined p s in
  let! _ := touch1 (k_blk (snd e)) (w_heap s) in
  let! r := cl_init (Some (snd e)) (w_heap s) in
  let! n := l_put g1 (w_newl s) (snd r) in
  let! l := l_put g2 (w_list s) (snd n) in
  Ok (mk_led (fst l) (w_cs s ++ [fst r]) (fst n) (w_new s ++ [length (w_cs s)]) (w_hier s) (snd l)).
(** The same without a label: the points go to the virtual child, and the NULL returned is
    handed to cluster_destroy (hdbscan.c:592-604). *)
Definition noise_cluster (p : nat) (gs : list bool) (s : led) : res led :=
  let! e := examined p s in
  let! _ := touch1 (k_blk (snd e)) (w_heap s) in
  let! r := l_puts gs (k_set (snd e)) (w_heap s) in
  let! cs := aset (w_cs s) (fst e) (mk_clu (k_blk (snd e)) (fst r) (k_desc (snd e))) in
  Ok (mk_led (w_list s) cs (w_newl s) (w_new s) (w_hier s) (snd r)).

(** The five temporaries of a level. *)
Record temps := mk_temps { x_exam : alst; x_first : alst; x_unf : alst; x_con : alst; x_un : alst }.
Definition set_heap (s : led) (h : heap) : led := mk_led (w_list s) (w_cs s) (w_newl s) (w_new s) (w_hier s) h.
(** hdbscan.c:512-612: one potential child cluster. *)
Definition do_comp (c : comp) (x : temps * led) : res (temps * led) :=
  let (t, s) := x in
  let! _ := l_use (x_exam t) (w_heap s) in
  let! con := l_puts (p_con c) (x_con t) (w_heap s) in
  let! un := l_puts (p_un c) (x_un t) (snd con) in
  let! first := l_puts (p_first c) (x_first t) (snd un) in
  let! unf := l_puts (p_unf c) (x_unf t) (snd first) in
  let s := set_heap s (snd unf) in
  let t := mk_temps (x_exam t) (fst first) (fst unf) (fst con) (fst un) in
  let! s := match p_kind c with
            | KSplit p g1 g2 => new_cluster p g1 g2 s
            | KNoise p gs => noise_cluster p gs s
            | KOther => Ok s
            end in
  let! _ := touch1 (a_hdr (x_con t)) (w_heap s) in
  let! _ := touch1 (a_hdr (x_un t)) (w_heap s) in
  Ok (t, s).
Fixpoint do_comps (cs : list comp) (x : temps * led) : res (temps * led) :=
  match cs with [] => Ok x | c :: cs' => let! x := do_comp c x in do_comps cs' x end.
(** hdbscan.c:483-645: one affected cluster. *)
Definition do_label (aff lab : alst) (w : labelw) (x : temps * led) : res (temps * led) :=
  let (t, s) := x in
  let! _ := l_use lab (w_heap s) in
  let! _ := l_use aff (w_heap s) in
  let! exam := l_puts (b_exam w) (x_exam t) (w_heap s) in
  let! x := do_comps (b_comps w) (mk_temps (fst exam) (x_first t) (x_unf t) (x_con t) (x_un t), set_heap s (snd exam)) in
  let (t, s) := (x : temps * led) in
  let! _ := l_use (x_first t) (w_heap s) in
  match b_split w with
  | None => Ok (t, s)
  | Some (fs, us, (p, g1, g2)) =>
      let! first := l_puts fs (x_first t) (w_heap s) in
      let! unf := l_puts us (x_unf t) (snd first) in
      let! s := new_cluster p g1 g2 (set_heap s (snd unf)) in
      Ok (mk_temps (x_exam t) (fst first) (fst unf) (x_con t) (x_un t), s)
  end.
Fixpoint do_labels (aff lab : alst) (ws : list labelw) (x : temps * led) : res (temps * led) :=
  match ws with [] => Ok x | w :: ws' => let! x := do_label aff lab w x in do_labels aff lab ws' x end.
(** hdbscan.c:726-731 hdbscan_create_hierarchy_entry with the labels (654-668, 698-712). *)
Definition new_entry (grow : bool) (t : table) (h : heap) : res (table * heap) :=
  let (e, h) := malloc h in let (l, h) := malloc h in t_insert grow (mk_alst e l) t h.
(** hdbscan.c:671-679: newCluster->offset = lineCount. *)
Fixpoint touch_new (ns : list nat) (cs : list clu) (h : heap) : res unit :=
  match ns with [] => Ok tt | n :: ns' => let! c := aget cs n in let! _ := touch1 (k_blk c) h in touch_new ns' cs h end.

(** hdbscan.c:411-695: one round of the loop over the edges. *)
Definition do_level (v : level) (x : alst * alst * led) : res (alst * alst * led) :=
  let '(aff, lab, s) := x in
  let! _ := touch1 (a_hdr (w_newl s)) (w_heap s) in
  let! aff := l_puts (v_aff v) aff (w_heap s) in
  let! lab := l_puts (v_lab v) lab (snd aff) in
  let s := mk_led (w_list s) (w_cs s) (w_newl s) [] (w_hier s) (snd lab) in
  let aff := fst aff in let lab := fst lab in
  match v_work v with
  | None => Ok (aff, lab, s)                   (* 448-450 continue *)
  | Some (ws, entry) =>
      let (exam, h) := l_init (w_heap s) in
      let (first, h) := l_init h in
      let (unf, h) := l_init h in
      let (con, h) := l_init h in
      let (un, h) := l_init h in
      let! x := do_labels aff lab ws (mk_temps exam first unf con un, set_heap s h) in
      let (t, s) := (x : temps * led) in
      let! h := l_delete (x_con t) (w_heap s) in
      let! h := l_delete (x_un t) h in
      let! h := l_delete (x_exam t) h in
      let! h := l_delete (x_first t) h in
      let! h := l_delete (x_unf t) h in
      let! e := match entry with None => Ok (w_hier s, h) | Some g => new_entry g (w_hier s) h end in
      let! _ := touch_new (w_new s) (w_cs s) (snd e) in
      let! _ := touch1 (a_hdr (w_newl s)) (snd e) in
      Ok (aff, lab, mk_led (w_list s) (w_cs s) (w_newl s) [] (fst e) (snd e))
  end.
Fixpoint do_levels (vs : list level) (x : alst * alst * led) : res (alst * alst * led) :=
  match vs with [] => Ok x | v :: vs' => let! x := do_level v x in do_levels vs' x end.

(** hdbscan.c:356-719 hdbscan_compute_hierarchy_and_cluster_tree: the list of clusters with
    the clusters, and the hierarchy. *)
Definition led_hierarchy (z : decisions) (l : alst) (t : table) (h : heap) : res (alst * list clu * table * heap) :=
  let! l := l_put (z_null z) l h in
  let! c := cl_init None (snd l) in
  let! l := l_put (z_root z) (fst l) (snd c) in
  let (lab, h) := l_init (snd l) in
  let (aff, h) := l_init h in
  let (newl, h) := l_init h in
  let! x := do_levels (z_levels z) (aff, lab, mk_led (fst l) [fst c] newl [] t h) in
  let '(aff, lab, s) := x in
  let! h := l_delete (w_newl s) (w_heap s) in
  let! e := new_entry (z_last z) (w_hier s) h in
  let! h := l_delete lab (snd e) in
  let! h := l_delete aff h in
  Ok (w_list s, w_cs s, fst e, h).

(** hdbscan.c:988-1066 hdbscan_propagate_tree; cluster.c:149-197 appends to the list of the
    parent. *)
Fixpoint led_descs (ds : list (nat * list bool)) (cs : list clu) (h : heap) : res (list clu * heap) :=
  match ds with
  | [] => Ok (cs, h)
  | (p, gs) :: ds' =>
      let i := p mod length cs in
      let! c := aget cs i in
      let! _ := touch1 (k_blk c) h in
      let! r := l_puts gs (k_desc c) h in
      let! cs := aset cs i (mk_clu (k_blk c) (k_set c) (fst r)) in
      led_descs ds' cs (snd r)
  end.
Definition led_propagate (z : decisions) (cs : list clu) (h : heap) : res (list clu * heap) :=
  let (x, h) := l_init h in
  let! x := l_puts (z_exam z) x h in
  let! r := led_descs (z_desc z) cs (snd x) in
  let! h := l_delete (fst x) (snd r) in
  Ok (fst r, h).

(** hdbscan.c:1076-1144 hdbscan_find_prominent_clusters: the block of the labels. *)
Fixpoint led_offsets (os : list (list bool * bool)) (t : table) (h : heap) : res (table * heap) :=
  match os with
  | [] => Ok (t, h)
  | (gs, g) :: os' =>
      let (l, h) := l_init h in
      let! l := l_puts gs l h in
      let! r := t_insert g (fst l) t (snd l) in
      led_offsets os' (fst r) (snd r)
  end.
Definition led_prominent (z : decisions) (hier : table) (cs : list clu) (h : heap) : res (nat * heap) :=
  let! root := aget cs 0 in
  let! _ := l_use (k_desc root) h in
  let (t, h) := t_init h in
  let! r := led_offsets (z_offsets z) t h in
  let (labels, h) := malloc (snd r) in
  let! _ := touch1 (t_blk hier) h in
  let! h := t_destroy (fst r) h in
  Ok (labels, h).

(** The object (hdbscan.h; hdbscan.c:109-133 hdbscan_init); a pointer that is NULL is [None],
    and so is the tree pointer that hdbscan_init does not set. *)
Record dobj := mk_dobj {
  u_labels : option nat; u_scores : option nat; u_mst : option gra; u_hier : option table;
  u_clusters : option (alst * list clu); u_stab : option table; u_dist : option nat; u_core : option nat }.
Definition no_object : dobj := mk_dobj None None None None None None None None.

Definition when {A} (p : option A) (f : A -> heap -> res heap) (h : heap) : res heap := match p with None => Ok h | Some x => f x h end.
(** p->..., UB for NULL. *)
Definition deref1 {A} (p : option A) : res A := match p with Some x => Ok x | None => UB end.

(** hdbscan.c:140-191 hdbscan_minimal_clean (constraints are always NULL). *)
Definition led_minimal_clean (o : dobj) (h : heap) : res (dobj * heap) :=
  let! h := when (u_labels o) free1 h in
  let! h := when (u_scores o) free1 h in
  let! h := when (u_mst o) g_destroy h in
  let! h := when (u_hier o) t_destroy h in
  let! h := when (u_clusters o) (fun c h => let! _ := l_use (fst c) h in cl_destroys (snd c) h) h in
  let! st := match u_stab o with None => Ok (None, h) | Some t => let! r := t_clear t h in Ok (Some (fst r), snd r) end in
  Ok (mk_dobj None None None None (option_map (fun c => (fst c, [])) (u_clusters o)) (fst st) (u_dist o) (u_core o), snd st).
(** hdbscan.c:198-214 hdbscan_clean. *)
Definition led_clean (o : dobj) (h : heap) : res (dobj * heap) :=
  let! h := when (u_dist o) free1 h in
  let! h := when (u_core o) free1 h in
  let! r := led_minimal_clean o h in
  let! h := when (u_clusters (fst r)) (fun c h => l_delete (fst c) h) (snd r) in
  let! h := when (u_stab (fst r)) t_destroy h in
  Ok (no_object, h).

(** hdbscan.c:236-268 hdbscan_do_run: the fields are overwritten. *)
Definition led_do_run (z : decisions) (o : dobj) (h : heap) : res (dobj * heap) :=
  let (t, h) := t_init h in
  let! core := deref1 (u_core o) in
  let! dist := deref1 (u_dist o) in
  let! _ := touch1 core h in
  let! _ := touch1 dist h in
  let! g := led_tree (z_adj z) h in
  let! c := deref1 (u_clusters o) in
  let! r := led_hierarchy z (fst c) t (snd g) in
  let '(l, cs, t, h) := r in
  let! r := led_propagate z cs h in
  let! p := led_prominent z t (fst r) (snd r) in
  let (scores, h) := malloc (snd p) in
  Ok (mk_dobj (Some (fst p)) (Some scores) (Some (fst g)) (Some t) (Some (l, fst r)) (u_stab o) (u_dist o) (u_core o), h).
(** hdbscan.c:304-330 hdbscan_run with distance.c:137-144. *)
Definition led_run (z : decisions) (o : dobj) (h : heap) : res (dobj * heap) :=
  let (dist, h) := malloc h in
  let (core, h) := malloc h in
  let (l, h) := l_init h in
  let (st, h) := t_init h in
  led_do_run z (mk_dobj (u_labels o) (u_scores o) (u_mst o) (u_hier o) (Some (l, [])) (Some st) (Some dist) (Some core)) h.
(** hdbscan.c:277-291 hdbscan_rerun. *)
Definition led_rerun (z : decisions) (o : dobj) (h : heap) : res (dobj * heap) :=
  let! r := led_minimal_clean o h in
  let! core := deref1 (u_core (fst r)) in
  let! _ := touch1 core (snd r) in
  led_do_run z (fst r) (snd r).

Inductive lcall := LRun (z : decisions) | LRerun (z : decisions) | LMinimalClean | LClean.
Definition led_call (c : lcall) (s : dobj * heap) : res (dobj * heap) :=
  match c with
  | LRun z => led_run z (fst s) (snd s)
  | LRerun z => led_rerun z (fst s) (snd s)
  | LMinimalClean => led_minimal_clean (fst s) (snd s)
  | LClean => led_clean (fst s) (snd s)
  end.
Fixpoint led_calls (cs : list lcall) (s : dobj * heap) : res (dobj * heap) :=
  match cs with [] => Ok s | c :: cs' => let! s := led_call c s in led_calls cs' s end.
