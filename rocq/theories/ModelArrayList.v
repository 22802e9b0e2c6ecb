(** Model of modules/collections/src/list.c (ArrayList) and set.c (set_t).

    Simplifications: elements are abstract values of a type [A] instead of [step]
    bytes, a slot of the heap block is [Some a] (written) or [None] (not written
    since it was obtained from calloc/realloc), allocation never fails, and
    [size_t] arithmetic is on [nat] except where a C expression would wrap (then
    the outcome is [UB]). *)
From Verif Require Import Base.

Section ArrayList.
Context {A : Type}.
(** The comparison callback stored in the list. *)
Variable compare : A -> A -> Z.

(** list.h: struct ArrayList.  [al_data] is the heap block, so its length is the
    number of elements really allocated; [al_max] is the field [max_size]. *)
Record alist := AL { al_data : list (option A); al_size : nat; al_max : nat }.

(** utils.c:45-49 highestPowerof2: 2^(floor(log2 n)+1).  Simplification: exact
    integer logarithm (the C code goes through double, exact below 2^48). *)
Definition highestPowerof2 (n : nat) : nat := 2 ^ (Nat.log2 n + 1).

(** realloc: keeps the common prefix, the rest is unspecified. *)
Definition realloc (d : list (option A)) (n : nat) : list (option A) :=
  firstn n d ++ repeat None (n - length d).

(** list.c:54-75 array_list_init. *)
Definition array_list_init (initial_size : nat) : res alist :=
  if 0 <? initial_size
  then Ok (AL (repeat None initial_size) 0 initial_size)
  else Abort.

(** Read a written slot; an unwritten or out-of-block slot is UB. *)
Definition slot (d : list (option A)) (i : nat) : res A :=
  match nth_error d i with Some (Some a) => Ok a | _ => UB end.

(** list.c:99-111 array_list_value_at: return code and copied element. *)
Definition array_list_value_at (l : alist) (pos : nat) : res (Z * option A) :=
  if al_size l <=? pos then Ok (0%Z, None)
  else let! a := slot (al_data l) pos in Ok (1%Z, Some a).

(** list.c:119-131 array_list_grow. *)
Definition array_list_grow (l : alist) : alist :=
  let newmax := highestPowerof2 (al_max l * 2) in
  AL (realloc (al_data l) newmax) (al_size l) newmax.

(** list.c:165-178 array_list_insertion_helper: memcpy into slot [index]. *)
Definition array_list_insertion_helper (l : alist) (data : A) (index : nat) : res alist :=
  let! d := aset (al_data l) index (Some data) in Ok (AL d (al_size l) (al_max l)).

(** list.c:180-187 array_list_replace_at. *)
Definition array_list_replace_at (l : alist) (data : A) (index : nat) : res (alist * Z) :=
  if al_size l <=? index then Ok (l, 0%Z)
  else let! l' := array_list_insertion_helper l data index in Ok (l', 1%Z).

(** list.c:189-206 array_list_append. *)
Definition array_list_append (l : alist) (data : A) : res (alist * Z) :=
  let l := if al_size l =? al_max l then array_list_grow l else l in
  let! l' := array_list_insertion_helper l data (al_size l) in
  Ok (AL (al_data l') (S (al_size l')) (al_max l'), 1%Z).

(** memmove of [n] slots from [src] to [dst] inside the block. *)
Definition memmove (d : list (option A)) (dst src n : nat) : res (list (option A)) :=
  if (src + n <=? length d) && (dst + n <=? length d)
  then Ok (firstn dst d ++ firstn n (skipn src d) ++ skipn (dst + n) d)
  else UB.

(** list.c:208-223 array_list_insert_at.  [(size - pos)] wraps around for
    [pos > size], which makes memmove run over the whole address space: UB. *)
Definition array_list_insert_at (l : alist) (data : A) (pos : nat) : res (alist * Z) :=
  let l := if al_size l =? al_max l then array_list_grow l else l in
  if al_size l <? pos then UB
  else
    let! d := memmove (al_data l) (pos + 1) pos (al_size l - pos) in
    let! l' := array_list_insertion_helper (AL d (S (al_size l)) (al_max l)) data pos in
    Ok (l', 1%Z).

(** list.c:225-228 array_list_size. *)
Definition array_list_size (l : alist) : nat := al_size l.

(** list.c:230-245 unordered_search. *)
Fixpoint unordered_search_from (d : list (option A)) (x : A) (i n : nat) : res Z :=
  match n with
  | O => Ok (-1)%Z
  | S n' =>
      let! t := slot d i in
      if (compare t x =? 0)%Z then Ok (Z.of_nat i)
      else unordered_search_from d x (S i) n'
  end.
Definition unordered_search (l : alist) (x : A) : res Z :=
  unordered_search_from (al_data l) x 0 (al_size l).

(** list.c:247-268 binary_search on signed indices; recursion bounded by [fuel]. *)
Fixpoint binary_search (fuel : nat) (d : list (option A)) (lo hi : Z) (x : A) : res Z :=
  match fuel with
  | O => Fuel
  | S f =>
      if (lo <=? hi)%Z then
        let mid := (lo + Z.quot (hi - lo) 2)%Z in
        if (mid <? 0)%Z then UB else
        let! a := slot d (Z.to_nat mid) in
        let cmp := compare a x in
        if (cmp =? 0)%Z then Ok mid
        else if (cmp >? 0)%Z then binary_search f d lo (mid - 1) x
        else binary_search f d (mid + 1) hi x
      else Ok (-1)%Z
  end.

(** list.c:270-277 array_list_find. *)
Definition array_list_find (l : alist) (x : A) (sorted : Z) : res Z :=
  if (sorted =? 1)%Z
  then binary_search (S (al_size l)) (al_data l) 0 (Z.of_nat (al_size l) - 1) x
  else unordered_search l x.

(** list.c:279-285 array_list_clear: with [resize] the block shrinks to one
    element, [max_size] is left unchanged. *)
Definition array_list_clear (l : alist) (resize : bool) : alist :=
  if resize then AL (realloc (al_data l) 1) 0 (al_max l)
  else AL (al_data l) 0 (al_max l).

(** list.c:287-307 array_list_remove_at. *)
Definition array_list_remove_at (l : alist) (pos : nat) : res (alist * (Z * option A)) :=
  if al_size l <=? pos then Ok (l, (0%Z, None))
  else
    let! r := array_list_value_at l pos in
    let! d := memmove (al_data l) pos (pos + 1) (al_size l - pos - 1) in
    Ok (AL d (al_size l - 1) (al_max l), (1%Z, snd r)).

(** list.c:309-319 array_list_remove: the removed element is copied to the caller. *)
Definition array_list_remove (l : alist) (x : A) : res (alist * (Z * option A)) :=
  let! r := array_list_find l x 0 in
  if (r <? 0)%Z then Ok (l, ((-1)%Z, None))
  else array_list_remove_at l (Z.to_nat r).

(** list.c:333-341 array_list_empty (list and block are not NULL here). *)
Definition array_list_empty (l : alist) : Z := if al_size l =? 0 then 1 else 0.

(** list.c:321-331 array_list_pop. *)
Definition array_list_pop (l : alist) : res (alist * (Z * option A)) :=
  if (array_list_empty l =? 1)%Z then Ok (l, ((-1)%Z, None))
  else
    let! r := array_list_value_at l (al_size l - 1) in
    Ok (AL (al_data l) (al_size l - 1) (al_max l), (1%Z, snd r)).

(** The operations a caller can issue, and the step function used for histories.
    Every operation answers with its return code and the element it copied out. *)
Inductive lop :=
| LAppend (x : A) | LInsertAt (x : A) (pos : nat) | LReplaceAt (x : A) (i : nat)
| LRemoveAt (i : nat) | LRemove (x : A) | LPop | LValueAt (i : nat) | LFind (x : A)
| LSize | LEmpty | LClear (resize : bool).

Definition lstep (l : alist) (o : lop) : res (alist * (Z * option A)) :=
  match o with
  | LAppend x => let! r := array_list_append l x in Ok (fst r, (snd r, None))
  | LInsertAt x pos => let! r := array_list_insert_at l x pos in Ok (fst r, (snd r, None))
  | LReplaceAt x i => let! r := array_list_replace_at l x i in Ok (fst r, (snd r, None))
  | LRemoveAt i => array_list_remove_at l i
  | LRemove x => array_list_remove l x
  | LPop => array_list_pop l
  | LValueAt i => let! r := array_list_value_at l i in Ok (l, r)
  | LFind x => let! r := array_list_find l x 0 in Ok (l, (r, None))
  | LSize => Ok (l, (Z.of_nat (array_list_size l), None))
  | LEmpty => Ok (l, (array_list_empty l, None))
  | LClear b => Ok (array_list_clear l b, (0%Z, None))
  end.

Fixpoint lrun (l : alist) (ops : list lop) : res (alist * list (Z * option A)) :=
  match ops with
  | [] => Ok (l, [])
  | o :: ops' =>
      let! r := lstep l o in
      let! r' := lrun (fst r) ops' in
      Ok (fst r', snd r :: snd r')
  end.

(** *** set.c *)

(** set.c:44-47 set_init. *)
Definition set_init : res alist := array_list_init 2.

(** set.c:54-57 set_clear. *)
Definition set_clear (s : alist) : alist := array_list_clear s true.

(** set.c:66-79: the do-while binary search of set_insert.  [inl low]: not present,
    insert at [low]; [inr tt]: present. *)
Fixpoint set_search (fuel : nat) (d : list (option A)) (low high : nat) (x : A) : res (nat + unit) :=
  match fuel with
  | O => Fuel
  | S f =>
      let mid := low + (high - low) / 2 in
      let! a := slot d mid in
      let cmp := compare a x in
      if (cmp <? 0)%Z then
        (if mid + 1 <? high then set_search f d (mid + 1) high x else Ok (inl (mid + 1)))
      else if (cmp >? 0)%Z then
        (if low <? mid then set_search f d low mid x else Ok (inl low))
      else Ok (inr tt)
  end.

(** set.c:59-83 set_insert. *)
Definition set_insert (s : alist) (x : A) : res (alist * Z) :=
  if 0 <? al_size s then
    let! r := set_search (S (al_size s)) (al_data s) 0 (al_size s) x in
    match r with
    | inr _ => Ok (s, 0%Z)
    | inl low => array_list_insert_at s x low
    end
  else array_list_insert_at s x 0.

(** set.c:96-99 set_find. *)
Definition set_find (s : alist) (x : A) : res Z := array_list_find s x 1.

(** set.c:106-109 set_remove_at. *)
Definition set_remove_at (s : alist) (pos : nat) : res (alist * (Z * option A)) :=
  array_list_remove_at s pos.

(** set.c:85-94 set_remove. *)
Definition set_remove (s : alist) (x : A) : res (alist * (Z * option A)) :=
  let! d := set_find s x in
  if (d <? 0)%Z then Ok (s, ((-1)%Z, None))
  else set_remove_at s (Z.to_nat d).

(** set.c:101-104, 111-114, 125-127. *)
Definition set_value_at (s : alist) (i : nat) := array_list_value_at s i.
Definition set_size (s : alist) : nat := array_list_size s.
Definition set_empty (s : alist) : Z := array_list_empty s.

Inductive sop :=
| SInsert (x : A) | SRemove (x : A) | SRemoveAt (i : nat) | SFind (x : A)
| SValueAt (i : nat) | SSize | SEmpty.

Definition sstep (s : alist) (o : sop) : res (alist * (Z * option A)) :=
  match o with
  | SInsert x => let! r := set_insert s x in Ok (fst r, (snd r, None))
  | SRemove x => set_remove s x
  | SRemoveAt i => set_remove_at s i
  | SFind x => let! r := set_find s x in Ok (s, (r, None))
  | SValueAt i => let! r := set_value_at s i in Ok (s, r)
  | SSize => Ok (s, (Z.of_nat (set_size s), None))
  | SEmpty => Ok (s, (set_empty s, None))
  end.

Fixpoint srun (s : alist) (ops : list sop) : res (alist * list (Z * option A)) :=
  match ops with
  | [] => Ok (s, [])
  | o :: ops' =>
      let! r := sstep s o in
      let! r' := srun (fst r) ops' in
      Ok (fst r', snd r :: snd r')
  end.

(** set_insert repeated over a list of elements (propagate_tree's critical
    section executed in the order [xs], hdbscan.c:1016-1024). *)
Fixpoint set_insert_all (s : alist) (xs : list A) : res alist :=
  match xs with
  | [] => Ok s
  | x :: xs' => let! r := set_insert s x in set_insert_all (fst r) xs'
  end.

End ArrayList.
Arguments alist : clear implicits.
Arguments lop : clear implicits.
Arguments sop : clear implicits.
