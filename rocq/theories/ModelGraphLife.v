(** Model of the memory of a graph object: graph_init, graph_clean, graph_destroy,
    graph_remove_edge and graph_quicksort_by_edge_weight (src/undirected_graph.c:46-172,
    253-264) and the C++ constructor and destructor (src/undirected_graph.cpp:42-48).  The
    heap is that of ModelLife.v.  Allocation of a positive size never fails.
    Simplification: a block grown by realloc is a fresh block; fewer than 2^32 edges. *)
From Verif Require Import Base F64 ModelMst ModelGraph ModelLife.
From Verif Require ModelArrayList.
Local Open Scope nat_scope.

(** list.h struct ArrayList: the block of the struct, the block of the elements, the
    elements, max_size. *)
Record vlist (A : Type) := mk_vlist { v_hdr : nat; v_blk : nat; v_vals : list A; v_max : nat }.
Arguments mk_vlist {A}. Arguments v_hdr {A}. Arguments v_blk {A}. Arguments v_vals {A}. Arguments v_max {A}.

Definition alive (b : nat) (h : heap) : bool := existsb (Nat.eqb b) (hp_live h).
(** Reading or writing a list. *)
Definition touch {A} (v : vlist A) (h : heap) : res unit := if alive (v_hdr v) h && alive (v_blk v) h then Ok tt else UB.

(** list.c:54-75 array_list_init. *)
Definition list_new (A : Type) (max : nat) (h : heap) : vlist A * heap :=
  let (b, h) := alloc 2 h in (mk_vlist (nth 0 b 0) (nth 1 b 0) [] max, h).
(** list.c:165-178 array_list_insertion_helper at the end. *)
Definition list_put {A} (v : vlist A) (x : A) (h : heap) : res (vlist A * heap) :=
  if length (v_vals v) <? v_max v then Ok (mk_vlist (v_hdr v) (v_blk v) (v_vals v ++ [x]) (v_max v), h) else UB.
(** list.c:189-206 array_list_append with array_list_grow (119-131); writing beyond the
    block is UB. *)
Definition list_append {A} (v : vlist A) (x : A) (h : heap) : res (vlist A * heap) :=
  let! _ := touch v h in
  if length (v_vals v) =? v_max v then
    let! h := free1 (v_blk v) h in
    let (b, h) := alloc 1 h in
    list_put (mk_vlist (v_hdr v) (hd 0 b) (v_vals v) (ModelArrayList.highestPowerof2 (v_max v * 2))) x h
  else list_put v x h.
(** list.c:99-111 array_list_value_at into a variable that held [old]: left alone beyond
    the end. *)
Definition list_at {A} (v : vlist A) (i : nat) (old : option A) (h : heap) : res (option A) :=
  let! _ := touch v h in Ok (match nth_error (v_vals v) i with Some x => Some x | None => old end).
(** list.c:139-150 array_list_delete. *)
Definition list_delete {A} (v : vlist A) (h : heap) : res heap := let! h := free1 (v_blk v) h in free1 (v_hdr v) h.
Definition list_drop {A} (p : option (vlist A)) (h : heap) : res heap := match p with None => Ok h | Some v => list_delete v h end.

(** undirected_graph.h:49-55 struct UndirectedGraph; [q_edges] is the block of the array of
    lists with the lists. *)
Record graph := mk_graph {
  q_num : nat; q_a : option (vlist nat); q_b : option (vlist nat); q_w : option (vlist f64); q_edges : option (nat * list (vlist nat)) }.

Definition the {A} (p : option A) : res A := match p with Some x => Ok x | None => UB end.

(** undirected_graph.c:78-88. *)
Fixpoint new_lists (n : nat) (h : heap) : list (vlist nat) * heap :=
  match n with O => ([], h) | S n' => let (v, h) := list_new nat 16 h in let (vs, h) := new_lists n' h in (v :: vs, h) end.
(** array_list_append(g->edges[v], &x). *)
Definition edge_append (t : nat) (vs : list (vlist nat)) (v x : nat) (h : heap) : res (list (vlist nat) * heap) :=
  if alive t h then
    let! l := aget vs v in
    let! r := list_append l x h in
    let! vs := aset vs v (fst r) in
    Ok (vs, snd r)
  else UB.
(** undirected_graph.c:89-98: one round; vertexOne and vertexTwo keep their values from the
    round before when a list has no element at [i]. *)
Definition init_round (t : nat) (a : vlist nat) (b : option (vlist nat)) (i : nat) (s : option nat * option nat * list (vlist nat) * heap)
  : res (option nat * option nat * list (vlist nat) * heap) :=
  let '(one, two, vs, h) := s in
  let! one := list_at a i one h in
  let! b := the b in
  let! two := list_at b i two h in
  let! x := the one in
  let! y := the two in
  let! r := edge_append t vs x y h in
  if x =? y then Ok (one, two, fst r, snd r)
  else let! r := edge_append t (fst r) y x (snd r) in Ok (one, two, fst r, snd r).

(** undirected_graph.c:46-101 graph_init: heap, block of the struct if it was allocated here,
    the struct, and whether the result is not NULL.  [given]: the caller passed a struct.
    [zero]: malloc(0) gives a block, not NULL. *)
Definition life_graph_init (given zero : bool) (n : nat) (a b : option (vlist nat)) (w : option (vlist f64)) (h : heap)
  : res (heap * option nat * graph * bool) :=
  let (s, h) := if given then (None, h) else let (s, h) := alloc 1 h in (Some (hd 0 s), h) in
  if (n =? 0) && negb zero then Ok (h, s, mk_graph n a b w None, false)
  else
    let (t, h) := alloc 1 h in
    let t := hd 0 t in
    let (vs, h) := new_lists n h in
    let! la := the a in
    let! _ := touch la h in
    let! r := for_up 0 (length (v_vals la)) (init_round t la b) (None, None, vs, h) in
    let '(_, _, vs, h) := r in
    Ok (h, s, mk_graph n a b w (Some (t, vs)), true).

(** undirected_graph.c:130-133. *)
Fixpoint delete_lists (n : nat) (vs : list (vlist nat)) (i : nat) (h : heap) : res heap :=
  match n with O => Ok h | S n' => let! v := aget vs i in let! h := list_delete v h in delete_lists n' vs (S i) h end.
(** undirected_graph.c:110-138 graph_clean. *)
Definition life_graph_clean (h : heap) (g : graph) : res (heap * graph) :=
  let! h := list_drop (q_a g) h in
  let! h := list_drop (q_b g) h in
  let! h := list_drop (q_w g) h in
  let! h := match q_edges g with
            | None => Ok h
            | Some (t, vs) => if alive t h then let! h := delete_lists (q_num g) vs 0 h in free1 t h else UB
            end in
  Ok (h, mk_graph (q_num g) None None None None).
(** undirected_graph.c:103-109 graph_destroy of a struct from graph_init. *)
Definition life_graph_destroy (h : heap) (s : nat) (g : graph) : res heap :=
  let! r := life_graph_clean h g in free1 s (fst r).

(** undirected_graph.c:253-264 graph_remove_edge; array_list_remove does not allocate. *)
Definition edge_remove (t : nat) (vs : list (vlist nat)) (v x : nat) (h : heap) : res (list (vlist nat)) :=
  if alive t h then
    let! l := aget vs v in
    let! _ := touch l h in
    aset vs v (mk_vlist (v_hdr l) (v_blk l) (remove_first x (v_vals l)) (v_max l))
  else UB.
Definition life_remove_edge (h : heap) (g : graph) (va vb : nat) : res graph :=
  let! e := the (q_edges g) in
  let! vs := edge_remove (fst e) (snd e) va vb h in
  let! vs := edge_remove (fst e) vs vb va h in
  Ok (mk_graph (q_num g) (q_a g) (q_b g) (q_w g) (Some (fst e, vs))).
(** undirected_graph.c:140-172 graph_quicksort_by_edge_weight. *)
Definition with_vals {A} (v : vlist A) (l : list A) : vlist A := mk_vlist (v_hdr v) (v_blk v) l (v_max v).
Definition life_sort (h : heap) (g : graph) : res graph :=
  let! w := the (q_w g) in
  let! _ := touch w h in
  if length (v_vals w) <=? 1 then Ok g
  else
    let! a := the (q_a g) in
    let! b := the (q_b g) in
    let! _ := touch a h in
    let! _ := touch b h in
    let! e := graph_quicksort_by_edge_weight (mk_edges (v_vals a) (v_vals b) (v_vals w)) in
    Ok (mk_graph (q_num g) (Some (with_vals a (e_a e))) (Some (with_vals b (e_b e))) (Some (with_vals w (e_w e))) (q_edges g)).

(** Calls between creation and destruction. *)
Inductive gcall := GRemove (va vb : nat) | GSort.
Definition gperform (h : heap) (c : gcall) (g : graph) : res graph :=
  match c with GRemove va vb => life_remove_edge h g va vb | GSort => life_sort h g end.
Fixpoint gperform_all (h : heap) (cs : list gcall) (g : graph) : res graph :=
  match cs with [] => Ok g | c :: cs' => let! g := gperform h c g in gperform_all h cs' g end.

(** undirected_graph.cpp:42-44 and 46-48: an object made by the default constructor and
    destroyed. *)
Definition cpp_graph (zero : bool) (h : heap) : res heap :=
  let! r := life_graph_init true zero 0 None None None h in
  let '(h, _, g, _) := r in
  let! r := life_graph_clean h g in
  Ok (fst r).
