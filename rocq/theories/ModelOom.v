(** The library when memory can run out: every malloc, calloc and realloc may be refused.

    The requests of a program are numbered, and [grants n] tells whether the n-th one gets its
    block; the blocks are named by the numbers of the requests.  A refused request answers NULL
    and changes nothing.  NULL as the data of a list is modelled by an empty block, so that every
    access through it is undefined. *)
From Verif Require Import Base F64 ModelUtils ModelArrayList ModelHash ModelLife ModelLedger.
From Verif Require ModelLinked.
Local Open Scope nat_scope.

Section Oom.
Variable grants : nat -> bool.

(** malloc and calloc. *)
Definition ask (h : heap) : option nat * heap :=
  let n := hp_next h in
  if grants n then (Some n, mk_heap (S n) (n :: hp_live h)) else (None, mk_heap (S n) (hp_live h)).

(** realloc: a new block instead of the old one; the old one stays when it is refused. *)
Definition ask_again (b : option nat) (h : heap) : res (option nat * heap) :=
  let! _ := match b with Some p => touch1 p h | None => Ok tt end in
  let (q, h) := ask h in
  match b, q with
  | Some p, Some _ => let! h := free1 p h in Ok (q, h)
  | _, _ => Ok (q, h)
  end.

(** *** list.c *)
Section Lists.
Context {A : Type}.
Variable compare : A -> A -> Z.
(** A list: its struct, its block (None: NULL) and what is in it. *)
Record olist := mk_olist { ol_hdr : nat; ol_blk : option nat; ol_val : alist A }.

(** list.c:54-75 array_list_init; NULL is [None]. *)
Definition oom_list_init (initial_size : nat) (h : heap) : res (option olist * heap) :=
  if 0 <? initial_size then
    match ask h with
    | (None, h) => Ok (None, h)
    | (Some p, h) =>
        match ask h with
        | (None, h) => let! h := free1 p h in Ok (None, h)
        | (Some d, h) => Ok (Some (mk_olist p (Some d) (AL (repeat None initial_size) 0 initial_size)), h)
        end
    end
  else Abort.

(** list.c:119-131 array_list_grow: the block, or NULL, is stored before the test. *)
Definition oom_grow (l : olist) (h : heap) : res (olist * Z * heap) :=
  let a := ol_val l in
  let! r := ask_again (ol_blk l) h in
  match fst r with
  | None => Ok (mk_olist (ol_hdr l) None (AL [] (al_size a) (al_max a)), (-1)%Z, snd r)
  | Some d => Ok (mk_olist (ol_hdr l) (Some d) (array_list_grow a), 1%Z, snd r)
  end.
Definition oom_room (l : olist) (h : heap) : res (olist * Z * heap) :=
  if al_size (ol_val l) =? al_max (ol_val l) then oom_grow l h else Ok (l, 1%Z, h).
Definition with_val (l : olist) (a : alist A) : olist := mk_olist (ol_hdr l) (ol_blk l) a.

(** list.c:189-206 array_list_append. *)
Definition oom_append (l : olist) (x : A) (h : heap) : res (olist * Z * heap) :=
  let! r := oom_room l h in
  let '(l, c, h) := r in
  if (c <? 0)%Z then Ok (l, 0%Z, h)
  else
    let! a := array_list_insertion_helper (ol_val l) x (al_size (ol_val l)) in
    Ok (with_val l (AL (al_data a) (S (al_size a)) (al_max a)), 1%Z, h).

(** list.c:208-223 array_list_insert_at: what array_list_grow answers is not looked at. *)
Definition oom_insert_at (l : olist) (x : A) (pos : nat) (h : heap) : res (olist * Z * heap) :=
  let! r := oom_room l h in
  let '(l, _, h) := r in
  let a := ol_val l in
  if al_size a <? pos then UB
  else
    let! d := memmove (al_data a) (pos + 1) pos (al_size a - pos) in
    let! a := array_list_insertion_helper (AL d (S (al_size a)) (al_max a)) x pos in
    Ok (with_val l a, 1%Z, h).

(** list.c:279-285 array_list_clear. *)
Definition oom_clear (l : olist) (resize : bool) (h : heap) : res (olist * heap) :=
  let a := ol_val l in
  if resize then
    let! r := ask_again (ol_blk l) h in
    match fst r with
    | None => Ok (mk_olist (ol_hdr l) None (AL [] 0 (al_max a)), snd r)
    | Some d => Ok (mk_olist (ol_hdr l) (Some d) (array_list_clear a true), snd r)
    end
  else Ok (with_val l (array_list_clear a false), h).

(** list.c:139-150 array_list_delete. *)
Definition oom_delete (l : olist) (h : heap) : res heap :=
  let! h := match ol_blk l with Some d => free1 d h | None => Ok h end in
  free1 (ol_hdr l) h.

(** One call on a list; the other functions ask for no memory. *)
Definition oom_lstep (l : olist) (h : heap) (o : lop A) : res (olist * heap * (Z * option A)) :=
  match o with
  | LAppend x => let! r := oom_append l x h in let '(l, c, h) := r in Ok (l, h, (c, None))
  | LInsertAt x pos => let! r := oom_insert_at l x pos h in let '(l, c, h) := r in Ok (l, h, (c, None))
  | LClear b => let! r := oom_clear l b h in Ok (fst r, snd r, (0%Z, None))
  | _ => let! r := lstep compare (ol_val l) o in Ok (with_val l (fst r), h, snd r)
  end.
Fixpoint oom_lrun (l : olist) (h : heap) (ops : list (lop A)) : res (olist * heap * list (Z * option A)) :=
  match ops with
  | [] => Ok (l, h, [])
  | o :: ops' =>
      let! r := oom_lstep l h o in
      let! r' := oom_lrun (fst (fst r)) (snd (fst r)) ops' in
      Ok (fst (fst r'), snd (fst r'), snd r :: snd r')
  end.

(** set.c:59-83 set_insert, and one call on a set; set.c:44-47 set_init is array_list_init(2),
    set.c:54-57 set_clear is array_list_clear(1). *)
Definition oom_set_insert (l : olist) (x : A) (h : heap) : res (olist * Z * heap) :=
  let s := ol_val l in
  if 0 <? al_size s then
    let! r := set_search compare (S (al_size s)) (al_data s) 0 (al_size s) x in
    match r with
    | inr _ => Ok (l, 0%Z, h)
    | inl low => oom_insert_at l x low h
    end
  else oom_insert_at l x 0 h.
Definition oom_sstep (l : olist) (h : heap) (o : sop A) : res (olist * heap * (Z * option A)) :=
  match o with
  | SInsert x => let! r := oom_set_insert l x h in let '(l, c, h) := r in Ok (l, h, (c, None))
  | _ => let! r := sstep compare (ol_val l) o in Ok (with_val l (fst r), h, snd r)
  end.
Fixpoint oom_srun (l : olist) (h : heap) (ops : list (sop A)) : res (olist * heap * list (Z * option A)) :=
  match ops with
  | [] => Ok (l, h, [])
  | o :: ops' =>
      let! r := oom_sstep l h o in
      let! r' := oom_srun (fst (fst r)) (snd (fst r)) ops' in
      Ok (fst (fst r'), snd (fst r'), snd r :: snd r')
  end.
End Lists.
Arguments olist : clear implicits.

(** *** linkedlist.c *)
Section Linked.
Context {A : Type}.
(** linkedlist.c:93-108 node_creator with 80-84 node_set_data: the node, then its data, which is
    written without a test.  [Ok None]: the node is NULL. *)
Definition oom_node (h : heap) : res (option (nat * nat) * heap) :=
  match ask h with
  | (None, h) => Ok (None, h)
  | (Some p, h) => match ask h with (None, _) => UB | (Some d, h) => Ok (Some (p, d), h) end
  end.
(** linkedlist.c:56-71 linkedlist_init: the list or NULL. *)
Definition oom_linked_init (h : heap) : option nat * heap := ask h.
(** linkedlist.c:134-156, 189-200 linkedlist_front_add and 161-184, 206-216
    linkedlist_tail_add. *)
Definition oom_linked_add (front : bool) (l : ModelLinked.llist A) (x : A) (h : heap) : res (ModelLinked.llist A * Z * heap) :=
  let! r := oom_node h in
  match fst r with
  | None => Ok (l, 0%Z, snd r)
  | Some _ =>
      let! q := (if front then ModelLinked.linkedlist_front_add l x else ModelLinked.linkedlist_tail_add l x) in
      Ok (fst q, snd q, snd r)
  end.
Fixpoint oom_linked_adds (l : ModelLinked.llist A) (h : heap) (ops : list (bool * A)) : res (ModelLinked.llist A * heap * list Z) :=
  match ops with
  | [] => Ok (l, h, [])
  | (front, x) :: ops' =>
      let! r := oom_linked_add front l x h in
      let '(l, c, h) := r in
      let! r' := oom_linked_adds l h ops' in
      Ok (fst (fst r'), snd (fst r'), c :: snd r')
  end.
End Linked.

(** *** hashtable.c *)
Section Tables.
Context {K : Type}.
Variable compare : K -> K -> Z.
Variable hash : K -> nat -> nat.
(** A table: its struct, its array of buckets, the struct and the block of its set of keys (None:
    the set is NULL), the blocks of its entries, and what is in it. *)
Record otable := mk_otable { ot_hdr : nat; ot_arr : nat; ot_keys : option (nat * option nat); ot_ents : list nat; ot_val : htable K }.

(** hashtable.c:116-178 hashtable_init_size: whether the set of keys was created is not tested. *)
Definition oom_table_init (buckets ksize dsize : nat) (h : heap) : res (option otable * heap) :=
  match ask h with
  | (None, h) => Ok (None, h)
  | (Some p, h) =>
      match ask h with
      | (None, h) => let! h := free1 p h in Ok (None, h)
      | (Some d, h) =>
          let! t := hashtable_init_size buckets ksize dsize in
          let! s := oom_list_init (A := K) 2 h in
          let keys := match fst s with Some l => Some (ol_hdr l, ol_blk l) | None => None end in
          Ok (Some (mk_otable p d keys [] t), snd s)
      end
  end.

(** hashtable.c:183-219 hashtable_insert with 411-435 hashtable_set_entry: the entry, its data
    and its key, or the temporary block of a replacement, all written without a test. *)
Definition oom_insert (t : otable) (key : K) (value : bytes) (h : heap) : res (otable * (Z * bytes) * heap) :=
  let! e := hashtable_lookup_entry compare hash (ot_val t) key in
  match e with
  | None =>
      let (a, h) := ask h in
      let (b, h) := ask h in
      let (c, h) := ask h in
      match a, b, c, ot_keys t with
      | Some a, Some b, Some c, Some k =>
          let! s := oom_set_insert compare (mk_olist (fst k) (snd k) (ht_keys (ot_val t))) key h in
          let '(s, _, h) := s in
          let! r := hashtable_insert compare hash (ot_val t) key value in
          Ok (mk_otable (ot_hdr t) (ot_arr t) (Some (ol_hdr s, ol_blk s)) (a :: b :: c :: ot_ents t) (fst r), snd r, h)
      | _, _, _, _ => UB
      end
  | Some _ =>
      match ask h with
      | (None, _) => UB
      | (Some p, h) =>
          let! r := hashtable_insert compare hash (ot_val t) key value in
          let! h := free1 p h in
          Ok (mk_otable (ot_hdr t) (ot_arr t) (ot_keys t) (ot_ents t) (fst r), snd r, h)
      end
  end.

(** hashtable.c:457-462 hashtable_size and 260-271 hashtable_lookup, which does not use the
    keys. *)
Definition oom_size (t : otable) : res Z := match ot_keys t with None => UB | Some _ => Ok (Z.of_nat (hashtable_size (ot_val t))) end.
Definition oom_lookup (t : otable) (key : K) (data : bytes) : res (Z * bytes) := hashtable_lookup compare hash (ot_val t) key data.

(** Histories of insertions and lookups. *)
Inductive hcall := CInsert (k : K) (v : bytes) | CLookup (k : K) (buf : bytes) | CSize.
Definition oom_hstep (t : otable) (h : heap) (o : hcall) : res (otable * heap * (Z * bytes)) :=
  match o with
  | CInsert k v => let! r := oom_insert t k v h in let '(t, out, h) := r in Ok (t, h, out)
  | CLookup k buf => let! r := oom_lookup t k buf in Ok (t, h, r)
  | CSize => let! r := oom_size t in Ok (t, h, (r, []))
  end.
Fixpoint oom_hrun (t : otable) (h : heap) (ops : list hcall) : res (otable * heap * list (Z * bytes)) :=
  match ops with
  | [] => Ok (t, h, [])
  | o :: ops' =>
      let! r := oom_hstep t h o in
      let! r' := oom_hrun (fst (fst r)) (snd (fst r)) ops' in
      Ok (fst (fst r'), snd (fst r'), snd r :: snd r')
  end.
End Tables.
Arguments otable : clear implicits.
Arguments hcall : clear implicits.

(** *** The structs of the library *)
(** Whether an object was given to an init function or comes from malloc; NULL is [None] in the
    results below. *)
Inductive place := Given | Block (b : nat).
Definition oom_struct (given : bool) (h : heap) : option place * heap :=
  if given then (Some Given, h) else let (b, h) := ask h in (match b with Some p => Some (Block p) | None => None end, h).
(** free, of a pointer that may be NULL; memory of the caller does not come from malloc. *)
Definition oom_free (p : option place) (h : heap) : res heap :=
  match p with None => Ok h | Some Given => UB | Some (Block b) => free1 b h end.

(** outlier_score.c:42-59 create_outlier_score and 60-62 destroy_outlier_score. *)
Record score_obj := mk_score_obj { so_score : f64; so_core : f64; so_id : Z }.
Definition oom_score (given : bool) (score core : f64) (id : Z) (h : heap) : option (place * score_obj) * heap :=
  let (p, h) := oom_struct given h in
  (match p with Some p => Some (p, mk_score_obj score core id) | None => None end, h).
(** constraint.c:44-61 constraint_create and 63-66 constraint_destroy. *)
Inductive ctype := NullLink | MustLink | CannotLink.
Record con_obj := mk_con_obj { co_a : Z; co_b : Z; co_type : ctype }.
Definition oom_constraint (given : bool) (a b : Z) (t : ctype) (h : heap) : option (place * con_obj) * heap :=
  let (p, h) := oom_struct given h in
  (match p with Some p => Some (p, mk_con_obj a b t) | None => None end, h).

(** cluster.c:54-90 cluster_init (cl is NULL): the comparison of the set is stored without a
    test, the list of descendants may be NULL.  cluster.c:97-110 cluster_destroy. *)
Record oclus := mk_oclus { oc_blk : nat; oc_set : olist nat; oc_desc : option (olist nat) }.
Definition oom_cluster_init (h : heap) : res (option oclus * heap) :=
  match ask h with
  | (None, h) => Ok (None, h)
  | (Some p, h) =>
      let! s := oom_list_init (A := nat) 2 h in
      match fst s with
      | None => UB
      | Some set => let! d := oom_list_init (A := nat) 1 (snd s) in Ok (Some (mk_oclus p set (fst d)), snd d)
      end
  end.
Definition oom_cluster_destroy (c : oclus) (h : heap) : res heap :=
  let! h := oom_delete (oc_set c) h in
  let! h := match oc_desc c with Some d => oom_delete d h | None => Ok h end in
  free1 (oc_blk c) h.

(** undirected_graph.c:46-101 graph_init: the struct, the array of lists (after a refusal the
    struct is not freed), the lists (written without a test), then the edges; what
    array_list_append answers is not looked at. *)
Record ograph := mk_ograph { og_place : place; og_arr : nat; og_lists : list (olist nat) }.
Fixpoint oom_lists (n : nat) (h : heap) : res (list (olist nat) * heap) :=
  match n with
  | 0 => Ok ([], h)
  | S n' =>
      let! l := oom_list_init (A := nat) 16 h in
      match fst l with
      | None => UB
      | Some l1 => let! r := oom_lists n' (snd l) in Ok (l1 :: fst r, snd r)
      end
  end.
Definition oom_at (ls : list (olist nat)) (v x : nat) (h : heap) : res (list (olist nat) * heap) :=
  let! l := aget ls v in
  let! r := oom_append l x h in
  let '(l, _, h) := r in
  let! ls := aset ls v l in
  Ok (ls, h).
Fixpoint oom_edges (es : list (nat * nat)) (ls : list (olist nat)) (h : heap) : res (list (olist nat) * heap) :=
  match es with
  | [] => Ok (ls, h)
  | (a, b) :: es' =>
      let! r := oom_at ls a b h in
      let! r := if a =? b then Ok r else oom_at (fst r) b a (snd r) in
      oom_edges es' (fst r) (snd r)
  end.
Definition oom_graph_init (given : bool) (n : nat) (es : list (nat * nat)) (h : heap) : res (option ograph * heap) :=
  match oom_struct given h with
  | (None, h) => Ok (None, h)
  | (Some p, h) =>
      match ask h with
      | (None, h) => Ok (None, h)
      | (Some arr, h) =>
          let! r := oom_lists n h in
          let! r := oom_edges es (fst r) (snd r) in
          Ok (Some (mk_ograph p arr (fst r)), snd r)
      end
  end.
(** The neighbours of a vertex, read with array_list_value_at from the first to the last
    (list.c:99-111). *)
Fixpoint oom_read (a : alist nat) (i n : nat) : res (list nat) :=
  match n with
  | 0 => Ok []
  | S n' => let! x := slot (al_data a) i in let! r := oom_read a (S i) n' in Ok (x :: r)
  end.
Definition oom_neighbours (g : ograph) (v : nat) : res (list nat) :=
  let! l := aget (og_lists g) v in oom_read (ol_val l) 0 (al_size (ol_val l)).
End Oom.
Arguments olist : clear implicits.
Arguments otable : clear implicits.
Arguments hcall : clear implicits.
