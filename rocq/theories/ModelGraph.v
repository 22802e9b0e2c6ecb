(** Model of src/undirected_graph.c.  The graph holds three parallel arrays (record [edges]
    of ModelMst.v) and one adjacency list per vertex.  Adjacency lists are ArrayLists, used
    here through their abstract value, a sequence (C01).  Indices are [nat] or [Z]; the int
    and int32_t conversions of the code are exact for fewer than 2^31 edges. *)
From Verif Require Import Base F64 ModelMst.

(** undirected_graph.c:46-101 graph_init.  [array_list_append] adds at the end. *)
Definition append_to (adj : list (list nat)) (v x : nat) : res (list (list nat)) :=
  let! l := aget adj v in aset adj v (l ++ [x]).
Definition graph_add (e : edges) (i : nat) (adj : list (list nat)) : res (list (list nat)) :=
  let! a := aget (e_a e) i in
  let! b := aget (e_b e) i in
  let! adj := append_to adj a b in
  if a =? b then Ok adj else append_to adj b a.
Definition graph_init (numVertices : nat) (e : edges) : res (list (list nat)) :=
  for_up 0 (length (e_a e)) (graph_add e) (repeat [] numVertices).

(** list.c:309-319 array_list_remove with int_compare: removes the first match, if any. *)
Fixpoint remove_first (x : nat) (l : list nat) : list nat :=
  match l with
  | [] => []
  | y :: l' => if x =? y then l' else y :: remove_first x l'
  end.

(** undirected_graph.c:253-264 graph_remove_edge. *)
Definition graph_remove_edge (adj : list (list nat)) (va vb : nat) : res (list (list nat)) :=
  let! la := aget adj va in
  let! adj := aset adj va (remove_first vb la) in
  let! lb := aget adj vb in
  aset adj vb (remove_first va lb).

(** undirected_graph.c:174-198 graph_select_pivot_index; the test in the first line compares
    start - end, so for start <= end + 1 it always returns the start. *)
Definition graph_select_pivot_index (e : edges) (s t : Z) : res Z :=
  if (s - t <=? 1)%Z then Ok s
  else
    let mid := (s + Z.quot (t - s) 2)%Z in
    let! first := aget (e_w e) (Z.to_nat s) in
    let! middle := aget (e_w e) (Z.to_nat mid) in
    let! last := aget (e_w e) (Z.to_nat t) in
    if fle first middle then
      (if fle middle last then Ok mid else if fge last first then Ok t else Ok s)
    else
      (if fle first last then Ok s else if fge last middle then Ok t else Ok mid).

(** undirected_graph.c:200-222 graph_swap_edges. *)
Definition graph_swap_edges (e : edges) (i j : nat) : res edges :=
  if i =? j then Ok e
  else
    let! ta := aget (e_a e) i in
    let! tb := aget (e_b e) i in
    let! tw := aget (e_w e) i in
    let! aj := aget (e_a e) j in
    let! a1 := aset (e_a e) i aj in
    let! bj := aget (e_b e) j in
    let! b1 := aset (e_b e) i bj in
    let! wj := aget (e_w e) j in
    let! w1 := aset (e_w e) i wj in
    let! a2 := aset a1 j ta in
    let! b2 := aset b1 j tb in
    let! w2 := aset w1 j tw in
    Ok (mk_edges a2 b2 w2).

(** undirected_graph.c:232-238: the scan of graph_partition. *)
Definition partition_step (pivotValue : f64) (i : nat) (st : edges * nat) : res (edges * nat) :=
  let (e, low) := st in
  let! c := aget (e_w e) i in
  if flt c pivotValue then
    let! e' := graph_swap_edges e i low in Ok (e', S low)
  else Ok (e, low).

(** undirected_graph.c:224-242 graph_partition (start <= end). *)
Definition graph_partition (e : edges) (s t p : nat) : res (edges * nat) :=
  let! pivotValue := aget (e_w e) p in
  let! e1 := graph_swap_edges e p t in
  let! st := for_up s (t - s) (partition_step pivotValue) (e1, s) in
  let (e2, low) := st in
  let! e3 := graph_swap_edges e2 low t in
  Ok (e3, low).

(** The two index stacks (variable length arrays of esize/2 elements, uninitialised) as one
    array of pairs; [top] is stackTop + 1. *)
Definition stack := list (option (nat * nat)).
Definition push (st : stack) (top : nat) (p : nat * nat) : res stack := aset st top (Some p).
Definition peek (st : stack) (i : nat) : res (nat * nat) :=
  let! x := aget st i in match x with Some p => Ok p | None => UB end.

(** undirected_graph.c:152-171: the while loop. *)
Fixpoint sort_loop (fuel : nat) (e : edges) (st : stack) (top : nat) : res edges :=
  match top with
  | O => Ok e
  | S top' =>
      match fuel with
      | O => Fuel
      | S f =>
          let! seg := peek st top' in
          let (s, t) := seg in
          let! p0 := graph_select_pivot_index e (Z.of_nat s) (Z.of_nat t) in
          let! r := graph_partition e s t (Z.to_nat p0) in
          let (e', p) := r in
          let! r1 :=
            (if S s <? p then let! st1 := push st top' (s, p - 1) in Ok (st1, S top')
             else Ok (st, top')) in
          let (st1, top1) := r1 in
          let! r2 :=
            (if S p <? t then let! st2 := push st1 top1 (S p, t) in Ok (st2, S top1)
             else Ok (st1, top1)) in
          let (st2, top2) := r2 in
          sort_loop f e' st2 top2
      end
  end.

(** undirected_graph.c:140-172 graph_quicksort_by_edge_weight. *)
Definition graph_quicksort_by_edge_weight (e : edges) : res edges :=
  let esize := length (e_w e) in
  if esize <=? 1 then Ok e
  else
    let! st := push (repeat None (esize / 2)) 0 (0, esize - 1) in
    sort_loop esize e st 1.

(** undirected_graph.c:244-251 graph_quicksort. *)
Fixpoint graph_quicksort (fuel : nat) (e : edges) (s t : Z) : res edges :=
  if (s <? t)%Z then
    match fuel with
    | O => Fuel
    | S f =>
        let! p0 := graph_select_pivot_index e s t in
        let! r := graph_partition e (Z.to_nat s) (Z.to_nat t) (Z.to_nat p0) in
        let (e1, p) := r in
        let! e2 := graph_quicksort f e1 s (Z.of_nat p - 1) in
        graph_quicksort f e2 (Z.of_nat p + 1) t
    end
  else Ok e.
