(** Model of hdbscan_compute_hierarchy_and_cluster_tree (src/hdbscan.c:356-719) and of
    hdbscan_create_new_cluster (79-100).  The parallel loops of these functions have
    independent iterations and are run in order here; the one that has not (672-679) is
    treated separately for C39.  Labels and indices are [nat]. *)
From Verif Require Import Base F64 ModelDistance ModelMst ModelGraph ModelCluster.

(** What an exploration of one level changes: currentClusterLabels, sc->clusters,
    nextClusterLabel, pointNoiseLevels and pointLastClusters (uninitialised before),
    newClusters (pointers, that is positions in sc->clusters). *)
Record lstate := mk_l {
  l_cur : list nat; l_cs : clusters; l_next : nat;
  l_noise : list (option f64); l_last : list (option nat); l_new : list nat }.

(** hdbscan.c:84-89: the label of each point is overwritten. *)
Fixpoint write_labels (cur : list nat) (points : list nat) (label : nat) : res (list nat) :=
  match points with
  | [] => Ok cur
  | p :: r => let! cur := aset cur p label in write_labels cur r label
  end.

(** hdbscan.c:79-100 hdbscan_create_new_cluster; the result is [None] for noise. *)
Definition create_new_cluster (cs : clusters) (cur : list nat) (points : list nat) (parent label : nat) (w : f64)
  : res (clusters * list nat * option cluster) :=
  let! cur := write_labels cur points label in
  let! c := cget cs parent in
  let c := cluster_detach_points c (length points) w in
  let! cs := cset cs parent c in
  if label =? 0 then
    let! c := cget cs parent in
    let! cs := cset cs parent (cluster_add_virtual c points) in
    Ok (cs, cur, None)
  else
    let! r := cluster_init cs label (Some parent) w (length points) in
    let (cs, new) := r in
    Ok (cs, cur, Some new).

(** hdbscan.c:579-584 and 638-641: a new cluster is created, appended to newClusters and to
    sc->clusters. *)
Definition add_cluster (s : lstate) (points : list nat) (parent : nat) (w : f64) : res lstate :=
  let! r := create_new_cluster (l_cs s) (l_cur s) points parent (l_next s) w in
  match r with (cs, cur, new) =>
    Ok (mk_l cur (cs ++ [new]) (S (l_next s)) (l_noise s) (l_last s) (l_new s ++ [length cs]))
  end.

(** hdbscan.c:598-603. *)
Fixpoint write_noise (noise : list (option f64)) (last : list (option nat)) (points : list nat) (w : f64) (label : nat)
  : res (list (option f64) * list (option nat)) :=
  match points with
  | [] => Ok (noise, last)
  | p :: r =>
      let! noise := aset noise p (Some w) in
      let! last := aset last p (Some label) in
      write_noise noise last r w label
  end.

(** hdbscan.c:588-607: a component that is too small becomes noise; cluster_destroy(NULL)
    does nothing. *)
Definition make_noise (s : lstate) (points : list nat) (label : nat) (w : f64) : res lstate :=
  let! r := create_new_cluster (l_cs s) (l_cur s) points label 0 w in
  match r with (cs, cur, _) =>
    let! nl := write_noise (l_noise s) (l_last s) points w label in
    Ok (mk_l cur cs (l_next s) (fst nl) (snd nl) (l_new s))
  end.

(** State of the exploration of one affected cluster: constructingSubCluster,
    unexploredSubClusterPoints, examinedVertices, anyEdges, incrementedChildCount,
    numChildClusters, firstChildCluster, unexploredFirstChildClusterPoints. *)
Record expl := mk_x {
  x_con : list nat; x_un : list nat; x_exam : list nat; x_any : bool; x_inc : bool;
  x_nch : nat; x_first : list nat; x_unf : list nat }.

(** hdbscan.c:531-540: one neighbour. *)
Definition explore_nbr (x : expl) (nb : nat) : expl :=
  let (p, con) := set_insert nb (x_con x) in
  if p then mk_x con (x_un x ++ [nb]) (set_remove nb (x_exam x)) true (x_inc x) (x_nch x) (x_first x) (x_unf x)
  else mk_x con (x_un x) (x_exam x) true (x_inc x) (x_nch x) (x_first x) (x_unf x).

Section Level.
Variable minPts : nat.
Variable adj : list (list nat).
(** Fuel of each of the loops below; never exhausted when it exceeds the number of vertices (C25). *)
Variable bound : nat.

(** hdbscan.c:523-562: exploring one potential child cluster. *)
Fixpoint explore (fuel : nat) (x : expl) : res expl :=
  match x_un x with
  | [] => Ok x
  | _ :: _ =>
      match fuel with
      | O => Fuel
      | S f =>
          let! r := list_pop (x_un x) in
          let (v, un) := r in
          let! nbs := aget adj v in
          let x1 := fold_left explore_nbr nbs
            (mk_x (x_con x) un (x_exam x) (x_any x) (x_inc x) (x_nch x) (x_first x) (x_unf x)) in
          if negb (x_inc x1) && (minPts <=? length (x_con x1)) && x_any x1 then
            match x_first x1 with
            | [] => Ok (mk_x (x_con x1) (x_un x1) (x_exam x1) (x_any x1) true (S (x_nch x1))
                         (set_insert_all (x_con x1) []) (set_insert_all (x_un x1) (x_unf x1)))
            | _ :: _ => explore f (mk_x (x_con x1) (x_un x1) (x_exam x1) (x_any x1) true (S (x_nch x1)) (x_first x1) (x_unf x1))
            end
          else explore f x1
      end
  end.

(** hdbscan.c:512-613: the loop over examinedVertices for the affected cluster [label]. *)
Fixpoint examine (fuel : nat) (label : nat) (w : f64) (s : lstate) (x : expl) : res (lstate * expl) :=
  match x_exam x with
  | [] => Ok (s, x)
  | _ :: _ =>
      match fuel with
      | O => Fuel
      | S f =>
          let! r := list_pop (x_exam x) in
          let (root, exam) := r in
          let! x1 := explore bound
            (mk_x (snd (set_insert root (x_con x))) (x_un x ++ [root]) exam false false
                  (x_nch x) (x_first x) (x_unf x)) in
          let! r :=
            (if (2 <=? x_nch x1) && (minPts <=? length (x_con x1)) && x_any x1 then
               let! r := list_pop (x_first x1) in
               if set_mem (fst r) (x_con x1) then Ok (s, x_nch x1 - 1)
               else let! s' := add_cluster s (x_con x1) label w in Ok (s', x_nch x1)
             else if (length (x_con x1) <? minPts) || negb (x_any x1) then
               let! s' := make_noise s (x_con x1) label w in Ok (s', x_nch x1)
             else Ok (s, x_nch x1)) in
          let (s', nch) := r in
          examine f label w s' (mk_x [] [] (x_exam x1) (x_any x1) (x_inc x1) nch (x_first x1) (x_unf x1))
      end
  end.

(** hdbscan.c:621-632: completing the first child cluster. *)
Definition finish_nbr (st : list nat * list nat) (nb : nat) : list nat * list nat :=
  let (p, first) := set_insert nb (fst st) in
  (first, if p then snd (set_insert nb (snd st)) else snd st).
Fixpoint finish_first (fuel : nat) (first unf : list nat) : res (list nat) :=
  match unf with
  | [] => Ok first
  | _ :: _ =>
      match fuel with
      | O => Fuel
      | S f =>
          let! r := list_pop unf in
          let (v, unf) := r in
          let! nbs := aget adj v in
          let st := fold_left finish_nbr nbs (first, unf) in
          finish_first f (fst st) (snd st)
      end
  end.

(** hdbscan.c:492-503: the affected vertices of the examined cluster move to
    examinedVertices.  (Removing the element at position [it] brings the next one there, so
    the index loop visits every element once.) *)
Fixpoint take_label (cur : list nat) (label : nat) (av exam : list nat) : res (list nat * list nat) :=
  match av with
  | [] => Ok ([], exam)
  | v :: r =>
      let! c := aget cur v in
      if c =? label then take_label cur label r (snd (set_insert v exam))
      else let! res := take_label cur label r exam in Ok (v :: fst res, snd res)
  end.

(** hdbscan.c:486-647: one affected cluster.  [firstChildCluster->data[0]] is used only
    when numChildClusters >= 2. *)
Definition do_label (label : nat) (w : f64) (s : lstate) (av : list nat) : res (lstate * list nat) :=
  let! r := take_label (l_cur s) label av [] in
  let (av, exam) := r in
  let! r := examine bound label w s (mk_x [] [] exam false false 0 [] []) in
  let (s, x) := r in
  let! s :=
    (if 2 <=? x_nch x then
       match x_first x with
       | [] => UB
       | dd :: _ =>
           let! c := aget (l_cur s) dd in
           if c =? label then
             let! first := finish_first bound (x_first x) (x_unf x) in
             add_cluster s first label w
           else Ok s
       end
     else Ok s) in
  Ok (s, av).

(** hdbscan.c:484-648: the loop over affectedClusterLabels, largest label first. *)
Fixpoint do_labels (w : f64) (s : lstate) (al av : list nat) (count : nat) : res (lstate * list nat) :=
  match al with
  | [] => Ok (s, av)
  | _ :: _ =>
      match count with
      | O => Fuel
      | S c =>
          let! r := list_pop al in
          let (label, al) := r in
          let! r := do_label label w s av in
          let (s, av) := r in
          do_labels w s al av c
      end
  end.
End Level.

(** sc->hierarchy through its abstract value (C06): keys with weight and label table. *)
Definition entries := list (nat * (f64 * list nat)).
Definition hput (h : entries) (k : nat) (v : f64 * list nat) : entries :=
  (k, v) :: filter (fun p => negb (fst p =? k)) h.
Fixpoint hget (h : entries) (k : nat) : option (f64 * list nat) :=
  match h with
  | [] => None
  | (j, v) :: r => if k =? j then Some v else hget r k
  end.

(** State of the outer loop: adjacency lists, exploration state (newClusters is empty
    between iterations), previousClusterLabels, lineCount, hierarchy,
    nextLevelSignificant, affectedVertices, affectedClusterLabels. *)
Record hstate := mk_h {
  h_adj : list (list nat); h_l : lstate; h_prev : list nat;
  h_line : nat; h_hier : entries; h_sig : bool;
  h_av : list nat; h_al : list nat }.

(** hdbscan.c:421-447: removing the edges tied with weight [w]; [k] is currentEdgeIndex + 1.
    Returns the adjacency lists, affectedVertices, affectedClusterLabels and the new [k]. *)
Fixpoint remove_ties (e : edges) (w : f64) (cur : list nat) (k : nat) (adj : list (list nat)) (av al : list nat)
  : res (list (list nat) * list nat * list nat * nat) :=
  match k with
  | O => Ok (adj, av, al, O)
  | S j =>
      let! tmp := aget (e_w e) j in
      if feq tmp w then
        let! a := aget (e_a e) j in
        let! b := aget (e_b e) j in
        let! adj := graph_remove_edge adj a b in
        let! ca := aget cur a in
        if ca =? 0 then remove_ties e w cur j adj av al
        else remove_ties e w cur j adj (snd (set_insert b (snd (set_insert a av)))) (snd (set_insert ca al))
      else Ok (adj, av, al, k)
  end.

(** hdbscan.c:672-679. *)
Fixpoint write_offsets (cs : clusters) (new : list nat) (line : nat) : res clusters :=
  match new with
  | [] => Ok cs
  | p :: r =>
      let! c := cget cs p in
      let! cs := cset cs p (set_offset c line) in
      write_offsets cs r line
  end.

(** hdbscan.c:411-697: one iteration of the outer loop; [k] is currentEdgeIndex + 1 (not 0).
    Returns the new [k] and the new state. *)
Definition hier_level (e : edges) (minPts n : nat) (compact : bool) (k : nat) (h : hstate) : res (nat * hstate) :=
  let! w := aget (e_w e) (k - 1) in
  let l := h_l h in
  let! r := remove_ties e w (l_cur l) k (h_adj h) (h_av h) (h_al h) in
  match r with (adj, av, al, k') =>
    match al with
    | [] => Ok (k', mk_h adj l (h_prev h) (h_line h) (h_hier h) (h_sig h) av [])
    | _ :: _ =>
        let! r := do_labels minPts adj (S n) w l al av (length al) in
        let (l, av) := r in
        let record := negb compact || h_sig h || (0 <? length (l_new l)) in
        let line := if record then S (h_line h) else h_line h in
        let hier := if record then hput (h_hier h) line (w, h_prev h) else h_hier h in
        let! cs := write_offsets (l_cs l) (l_new l) line in
        let l' := mk_l (l_cur l) cs (l_next l) (l_noise l) (l_last l) [] in
        Ok (k', mk_h adj l' (l_cur l) line hier (0 <? length (l_new l)) av [])
    end
  end.

(** hdbscan.c:410-698: the outer loop. *)
Fixpoint hier_loop (fuel : nat) (e : edges) (minPts n : nat) (compact : bool) (k : nat) (h : hstate) : res hstate :=
  match k with
  | O => Ok h
  | S _ =>
      match fuel with
      | O => Fuel
      | S f => let! r := hier_level e minPts n compact k h in hier_loop f e minPts n compact (fst r) (snd r)
      end
  end.

(** hdbscan.c:356-409: the state before the loop; sc->clusters is empty on entry. *)
Definition hier_start (n : nat) (adj : list (list nat)) : hstate :=
  mk_h adj
    (mk_l (repeat 1 n) [None; Some (cluster_new 1 None fnan n)] 2 (repeat None n) (repeat None n) [])
    (repeat 1 n) 0 [] true [] [].

(** hdbscan.c:699-719: the entry of the all-noise level is stored under key 0 and lineCount
    is increased. *)
Definition hier_finish (n : nat) (h : hstate) : hstate :=
  mk_h (h_adj h) (h_l h) (h_prev h) (S (h_line h)) (hput (h_hier h) 0 (fzero, repeat 0 n)) (h_sig h) (h_av h) (h_al h).

(** hdbscan.c:356-719 hdbscan_compute_hierarchy_and_cluster_tree on the graph with [n]
    vertices, edge arrays [e] and adjacency lists [adj]. *)
Definition compute_hierarchy (fuel : nat) (e : edges) (n : nat) (adj : list (list nat)) (minPts : nat) (compact : bool)
  : res hstate :=
  let! h := hier_loop fuel e minPts n compact (length (e_w e)) (hier_start n adj) in
  Ok (hier_finish n h).

(** hdbscan.c:244-255 (hdbscan_do_run) up to the hierarchy: the spanning tree with self
    edges, whose graph_init (hdbscan.c:967) builds the adjacency lists before the edges are
    sorted, the sort, and the hierarchy.  Returns the sorted edges with the result. *)
Definition build_hierarchy (fuel : nat) (d : distance) (n minPts : nat) (compact : bool) : res (edges * hstate) :=
  let! e0 := construct_mst d n true in
  let! adj := graph_init n e0 in
  let! e := graph_quicksort_by_edge_weight e0 in
  let! h := compute_hierarchy fuel e n adj minPts compact in
  Ok (e, h).
