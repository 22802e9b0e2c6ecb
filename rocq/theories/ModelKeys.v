(** Hash tables with floating point keys and with string keys, as hashtable_init sets them up
    (modules/collections/src/hashtable.c:116-178).

    The hash function is the first thing an insertion or a lookup calls (hashtable.c:185, 230),
    and a removal from a table that is not empty (283-288): a key it cannot hash is undefined
    behaviour there, before any comparison. *)
From Verif Require Import Base F64 ModelUtils ModelPrimes ModelHash ModelTable.
Local Open Scope nat_scope.

Definition keyed_step {K} (compare : K -> K -> Z) (hash : K -> Z -> res Z) (t : htable K) (o : hop K) : res (htable K * (Z * bytes)) :=
  let h k b := match hash k (Z.of_nat b) with Ok x => Z.to_nat x | _ => 0 end in
  let checked k r := let! _ := hash k (Z.of_nat (ht_buckets t)) in r in
  match o with
  | HInsert k _ | HLookup k _ => checked k (hstep compare h t o)
  | HRemove k _ => if hashtable_empty t then hstep compare h t o else checked k (hstep compare h t o)
  | HSize => hstep compare h t o
  end.

Fixpoint keyed_run {K} (compare : K -> K -> Z) (hash : K -> Z -> res Z) (t : htable K) (ops : list (hop K)) : res (htable K * list (Z * bytes)) :=
  match ops with
  | [] => Ok (t, [])
  | o :: ops' =>
      let! r := keyed_step compare hash t o in
      let! r' := keyed_run compare hash (fst r) ops' in
      Ok (fst r', snd r :: snd r')
  end.

(** hashtable.c:102-178: a new table for the key type [kt] and the value type [dt]. *)
Definition keyed_init {K} (buckets : Z) (kt dt : htype) : res (htable K) :=
  let! b := hashtable_init_buckets buckets in
  hashtable_init_size (Z.to_nat b) (Z.to_nat (get_htype_size kt)) (Z.to_nat (get_htype_size dt)).

(** A history on a table with H_DOUBLE or H_FLOAT keys (a float is modelled by the double of
    the same value), hashed by double_hash or float_hash (utils.c:344-356) and compared by
    double_compare or float_compare (90-105, 208-221). *)
Definition double_history (buckets : Z) (kt dt : htype) (ops : list (hop f64)) : res (htable f64 * list (Z * bytes)) :=
  let! t := keyed_init buckets kt dt in keyed_run double_compare double_hash t ops.

(** strcmp of the C library on two blocks of unsigned characters; only the sign of the answer
    is specified.  Running over the end of a block is undefined. *)
Fixpoint strcmp (a b : list Z) : res Z :=
  match a, b with
  | x :: a', y :: b' =>
      if (x <? y)%Z then Ok (-1)%Z else if (y <? x)%Z then Ok 1%Z
      else if (x =? 0)%Z then Ok 0%Z else strcmp a' b'
  | _, _ => UB
  end.
Definition strcmp_sign (a b : list Z) : Z := match strcmp a b with Ok c => c | _ => 0%Z end.

(** utils.c:358-380 str_hash on a block of bytes: [*cptr] is a (signed) char. *)
Definition signed_char (c : Z) : Z := if (c <? 128)%Z then c else (c - 256)%Z.
Definition block_hash (key : list Z) (buckets : Z) : res Z := str_hash (map signed_char key) buckets.

(** The 8 bytes of a pointer variable on a little endian LP64 machine. *)
Definition pointer_bytes (a : Z) : list Z := map (fun i => (a / 256 ^ Z.of_nat i) mod 256)%Z (seq 0 8).

(** The operations on a table with H_STRING keys: get_htype_size gives the key the size of a
    pointer, and the caller passes the address of a char pointer (tests/hashtabletests.c:246-248,
    266-270).  So the bytes that are hashed, compared and stored are those of the pointer. *)
Definition pointer_op (o : hop Z) : hop (list Z) :=
  match o with
  | HInsert a v => HInsert (pointer_bytes a) v
  | HLookup a buf => HLookup (pointer_bytes a) buf
  | HRemove a buf => HRemove (pointer_bytes a) buf
  | HSize => HSize
  end.

(** A history on a table with H_STRING keys; strings are given by their addresses. *)
Definition string_history (buckets : Z) (dt : htype) (ops : list (hop Z)) : res (htable (list Z) * list (Z * bytes)) :=
  let! t := keyed_init buckets H_STRING dt in keyed_run strcmp_sign block_hash t (map pointer_op ops).
