(** Model of hdbscan_construct_mst (src/hdbscan.c:810-980).  Indices are [nat]; index_t does
    not wrap for point counts whose matrix can be addressed (at most 65536, C14).
    Allocation failure is not modelled. *)
From Verif Require Import Base F64 ModelDistance.

(** hdbscan.c:924-931: the mutual reachability distance, from the distance of the pair and
    the core distances of the current point and of the neighbour, in this order. *)
Definition mutual_reach (dist cur_core nb_core : f64) : f64 :=
  let m := if fgt cur_core dist then cur_core else dist in
  if fgt nb_core m then nb_core else m.

(** State of the inner loop: distances, neighbours, nearestMRDPoint (-1 is [None]) and
    nearestMRDDistance. *)
Record scan := mk_scan {
  s_dist : list f64; s_nbr : list nat; s_point : option nat; s_best : f64 }.

Section Mst.
(** distance_get(&sc->distanceFunction, row, col) and coreDistances[i]. *)
Variable get : nat -> nat -> res f64.
Variable core : nat -> res f64.

(** hdbscan.c:914-945: one iteration of the inner loop. *)
Definition scan_step (attached : list bool) (cur nb : nat) (s : scan) : res scan :=
  if cur =? nb then Ok s
  else
    let! att := aget attached nb in
    if att : bool then Ok s
    else
      let! dist := get nb cur in
      let! cc := core cur in
      let! cn := core nb in
      let m := mutual_reach dist cc cn in
      let! d := aget (s_dist s) nb in
      let! s1 :=
        (if flt m d then
           let! dist' := aset (s_dist s) nb m in
           let! nbr' := aset (s_nbr s) nb cur in
           Ok (mk_scan dist' nbr' (s_point s) (s_best s))
         else Ok s) in
      let! d' := aget (s_dist s1) nb in
      if fle d' (s_best s1) then Ok (mk_scan (s_dist s1) (s_nbr s1) (Some nb) d')
      else Ok s1.

(** State of the outer loop: attachedPoints, distances, neighbours, others, currentPoint. *)
Record prim := mk_prim {
  p_att : list bool; p_dist : list f64; p_nbr : list nat; p_oth : list nat; p_cur : nat }.

(** hdbscan.c:909-951: one round of the outer loop; [t] is numAttachedPoints. *)
Definition prim_round (size : nat) (t : nat) (p : prim) : res prim :=
  let! s := for_up 0 size (scan_step (p_att p) (p_cur p))
              (mk_scan (p_dist p) (p_nbr p) None D_MAX) in
  match s_point s with
  | None => UB                                  (* attachedPoints[-1] *)
  | Some v =>
      let! att := aset (p_att p) v true in
      let! oth := aset (p_oth p) t t in
      Ok (mk_prim att (s_dist s) (s_nbr s) oth v)
  end.

(** The edge list handed to graph_init: verticesA, verticesB, edgeWeights. *)
Record edges := mk_edges { e_a : list nat; e_b : list nat; e_w : list f64 }.

(** hdbscan.c:959-963: one self edge; [vertex] = i - begin. *)
Definition self_edge (size : nat) (i : nat) (e : edges) : res edges :=
  let vertex := i - (size - 1) in
  let! a := aset (e_a e) i vertex in
  let! b := aset (e_b e) i vertex in
  let! c := core vertex in
  let! w := aset (e_w e) i c in
  Ok (mk_edges a b w).

(** hdbscan.c:810-967 up to the call of graph_init.  For size 0 the variable length array is
    empty and its last element is written; for ssize 0 array_list_init asserts. *)
Definition mst_edges (size : nat) (selfEdges : bool) : res edges :=
  if size =? 0 then UB
  else
    let ssize := size - 1 + (if selfEdges then size else 0) in
    if ssize =? 0 then Abort
    else
      let att := repeat false (size - 1) ++ [true] in
      let! p := for_up 1 (size - 1) (prim_round size)
                  (mk_prim att (repeat D_MAX ssize) (repeat 0 ssize) (repeat 0 ssize) (size - 1)) in
      let e := mk_edges (p_nbr p) (p_oth p) (p_dist p) in
      if selfEdges then for_up (size - 1) size (self_edge size) e else Ok e.
End Mst.

(** The same on the distance object of the run. *)
Definition dget (d : distance) (i j : nat) : res f64 := distance_get d (Z.of_nat i) (Z.of_nat j).
Definition dcore (d : distance) (i : nat) : res f64 := zget (d_core d) (Z.of_nat i).
Definition construct_mst (d : distance) (size : nat) (selfEdges : bool) : res edges :=
  mst_edges (dget d) (dcore d) size selfEdges.
