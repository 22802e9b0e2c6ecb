(** Model of modules/collections/src/hashtable.c.

    Values are byte strings, so the sizes passed to memcpy are visible; keys are
    abstract values with the comparison callback and hash function as parameters
    (ModelUtils.v models the concrete hash functions).  The key set is the set_t of
    ModelArrayList.v.  Simplifications: malloc never fails; the [collisions] counter
    and [size] are unbounded. *)
From Verif Require Import Base ModelArrayList ModelCells.

Definition bytes := list Z.

(** memcpy(dst, src, n) on whole buffers. *)
Definition memcpy (dst src : bytes) (n : nat) : res bytes :=
  if (n <=? length src) && (n <=? length dst) then Ok (firstn n src ++ skipn n dst) else UB.

(** malloc(n): unspecified contents, modelled by zero bytes which every use below
    overwrites before reading. *)
Definition malloc_bytes (n : nat) : bytes := repeat 0%Z n.

Section Hash.
Context {K : Type}.
Variable compare : K -> K -> Z.
Variable hash : K -> nat -> nat.

(** hashtable.h struct HASHTABLE_ with the heap of its entries.  [ht_ksize] and
    [ht_dsize] are get_htype_size of the key and value types. *)
Record htable := HT {
  ht_heap : heap (K * bytes); ht_table : list (option nat);
  ht_size : Z; ht_collisions : Z; ht_keys : alist K;
  ht_ksize : nat; ht_dsize : nat }.

Definition ht_buckets (t : htable) : nat := length (ht_table t).

(** hashtable.c:116-178 hashtable_init_size. *)
Definition hashtable_init_size (buckets ksize dsize : nat) : res htable :=
  let b := if buckets <=? 0 then 37 else buckets in
  let! keys := set_init in
  Ok (HT [] (repeat None b) 0 0 keys ksize dsize).

(** hashtable.c:228-245 hashtable_lookup_entry. *)
Definition hashtable_lookup_entry (t : htable) (key : K) : res (option nat) :=
  let! e := aget (ht_table t) (hash key (ht_buckets t)) in
  find_cell (fun kv => (compare (fst kv) key =? 0)%Z) (S (length (ht_heap t))) (ht_heap t) e.

(** hashtable.c:183-219 hashtable_insert (hashtable_set_entry, 411-435, inlined).  The
    second component is the return code and the caller's value buffer afterwards. *)
Definition hashtable_insert (t : htable) (key : K) (value : bytes) : res (htable * (Z * bytes)) :=
  let bucket := hash key (ht_buckets t) in
  let! e := hashtable_lookup_entry t key in
  match e with
  | None =>
      let! data := memcpy (malloc_bytes (ht_dsize t)) value (ht_dsize t) in
      let (h, entry) := halloc (ht_heap t) (Cell (key, data) None None) in
      let! front := aget (ht_table t) bucket in
      let! h := (if is_null front then Ok h
                 else let! h := set_next h (Some entry) front in
                      set_prev h front (Some entry)) in
      let coll := if is_null front then ht_collisions t else (ht_collisions t + 1)%Z in
      let! table := aset (ht_table t) bucket (Some entry) in
      let! keys := set_insert compare (ht_keys t) key in
      Ok (HT h table (ht_size t + 1) coll (fst keys) (ht_ksize t) (ht_dsize t), (1%Z, value))
  | Some _ =>
      let! c := hload (ht_heap t) e in
      let! tmp := memcpy (malloc_bytes (ht_dsize t)) (snd (c_val c)) (ht_dsize t) in
      let! d := memcpy (snd (c_val c)) value (ht_dsize t) in
      let! h := set_val (ht_heap t) e (fst (c_val c), d) in
      let! v := memcpy value tmp (ht_dsize t) in
      Ok (HT h (ht_table t) (ht_size t) (ht_collisions t) (ht_keys t) (ht_ksize t) (ht_dsize t),
          ((-1)%Z, v))
  end.

(** hashtable.c:260-271 hashtable_lookup: return code and the caller's buffer. *)
Definition hashtable_lookup (t : htable) (key : K) (data : bytes) : res (Z * bytes) :=
  let! e := hashtable_lookup_entry t key in
  match e with
  | Some _ =>
      let! c := hload (ht_heap t) e in
      let! d := memcpy data (snd (c_val c)) (ht_dsize t) in
      Ok (1%Z, d)
  | None => Ok (0%Z, data)
  end.

(** hashtable.c:464-472 hashtable_empty (the table is not NULL here). *)
Definition hashtable_empty (t : htable) : bool := (ht_size t =? 0)%Z.

(** hashtable.c:281-326 hashtable_remove: note the size handed to
    hashtable_entry_destroy (445-455) is that of the KEY type. *)
Definition hashtable_remove (t : htable) (key : K) (data : bytes) : res (htable * (Z * bytes)) :=
  if hashtable_empty t then Ok (t, (0%Z, data)) else
  let bucket := hash key (ht_buckets t) in
  let! e := hashtable_lookup_entry t key in
  match e with
  | None => Ok (t, (0%Z, data))
  | Some _ =>
      let! c := hload (ht_heap t) e in
      let! p :=
        (if negb (is_null (c_prev c)) then
           let! h := set_next (ht_heap t) (c_prev c) (c_next c) in
           let! h := set_prev h e None in
           Ok (h, ht_table t)
         else
           let! table := aset (ht_table t) bucket (c_next c) in
           let! h := (if is_null (c_next c) then Ok (ht_heap t)
                      else set_prev (ht_heap t) (c_next c) None) in
           Ok (h, table)) in
      let! c1 := hload (fst p) e in
      let! h :=
        (if negb (is_null (c_next c1)) then
           let! h := set_prev (fst p) (c_next c1) (c_prev c1) in
           set_next h e None
         else if negb (is_null (c_prev c1)) then set_next (fst p) (c_prev c1) None
         else Ok (fst p)) in
      let! d := memcpy data (snd (c_val c)) (ht_ksize t) in
      let! h := hfree h e in
      let! keys := set_remove compare (ht_keys t) key in
      Ok (HT h (snd p) (ht_size t - 1) (ht_collisions t) (fst keys) (ht_ksize t) (ht_dsize t),
          (1%Z, d))
  end.

(** hashtable.c:457-462 hashtable_size. *)
Definition hashtable_size (t : htable) : nat := al_size (ht_keys t).

(** hashtable.c:359-374, the inner loop of hashtable_clear on one unhooked chain.
    The log records the arguments of key_destroy and value_destroy calls (both
    callbacks given).  Simplifications: the key pointer is taken as non-NULL; a value
    of which the first 8 bytes are zero is a NULL pointer and is not destroyed;
    reading those 8 bytes from a narrower buffer is UB. *)
Definition is_null_ptr (d : bytes) : res bool :=
  if length d <? 8 then UB else Ok (forallb (Z.eqb 0) (firstn 8 d)).

Fixpoint clear_chain (fuel : nat) (h : heap (K * bytes)) (entry : option nat) (key : K) (data : bytes)
         (dsize : nat) (klog : list K) (vlog : list bytes)
  : res (heap (K * bytes) * bytes * list K * list bytes) :=
  match fuel with
  | O => Fuel
  | S f =>
      match entry with
      | None => Ok (h, data, klog, vlog)
      | Some _ =>
          let! c := hload h entry in
          let! data := memcpy data (snd (c_val c)) dsize in
          let! h := hfree h entry in
          let! nul := is_null_ptr data in
          clear_chain f h (c_next c) key data dsize (klog ++ [key])
                      (if nul then vlog else vlog ++ [data])
      end
  end.

(** hashtable.c:337-383 hashtable_clear. *)
Definition hashtable_clear (t : htable) : res (htable * (list K * list bytes)) :=
  let! r := for_up 0 (al_size (ht_keys t))
    (fun i s =>
       let '(h, table, data, klog, vlog) := s in
       let! k := set_value_at (ht_keys t) i in
       match snd k with
       | None => UB
       | Some key =>
           let bucket := hash key (ht_buckets t) in
           let! entry := aget table bucket in
           let! table := aset table bucket None in
           match entry with
           | None => Ok (h, table, data, klog, vlog)
           | Some _ =>
               let! q := clear_chain (S (length (ht_heap t))) h entry key data (ht_dsize t) klog vlog in
               let '(h, data, klog, vlog) := q in
               Ok (h, table, data, klog, vlog)
           end
       end)
    (ht_heap t, ht_table t, malloc_bytes (ht_dsize t), [], []) in
  let '(h, table, _, klog, vlog) := r in
  Ok (HT h table 0 (ht_collisions t) (set_clear (ht_keys t)) (ht_ksize t) (ht_dsize t), (klog, vlog)).

(** The operations of a caller; lookups and removals are given the caller's buffer. *)
Inductive hop :=
| HInsert (k : K) (v : bytes) | HLookup (k : K) (buf : bytes) | HRemove (k : K) (buf : bytes) | HSize.

Definition hstep (t : htable) (o : hop) : res (htable * (Z * bytes)) :=
  match o with
  | HInsert k v => hashtable_insert t k v
  | HLookup k buf => let! r := hashtable_lookup t k buf in Ok (t, r)
  | HRemove k buf => hashtable_remove t k buf
  | HSize => Ok (t, (Z.of_nat (hashtable_size t), []))
  end.

Fixpoint hrun (t : htable) (ops : list hop) : res (htable * list (Z * bytes)) :=
  match ops with
  | [] => Ok (t, [])
  | o :: ops' =>
      let! r := hstep t o in
      let! r' := hrun (fst r) ops' in
      Ok (fst r', snd r :: snd r')
  end.
End Hash.
Arguments htable : clear implicits.
Arguments hop : clear implicits.
