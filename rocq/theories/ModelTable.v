(** Hash tables as hashtable_init creates them: the key type chooses the hash function and the
    sizes (modules/collections/src/hashtable.c). *)
From Verif Require Import Base ModelUtils ModelPrimes ModelHash.
Local Open Scope nat_scope.

(** hashtable.c:153-164: int_hash, char_hash, short_hash, long_hash, all the same function of
    the key's value (utils.c:316-342). *)
Definition integer_hash (k : Z) (b : nat) : nat := match int_hash k (Z.of_nat b) with Ok h => Z.to_nat h | _ => 0 end.

(** hashtable.c:102-105 hashtable_init; keys and values have the sizes get_htype_size gives
    (147 and 413-414). *)
Definition hashtable_init (buckets : Z) (kt dt : htype) : res (htable Z) :=
  let! b := hashtable_init_buckets buckets in
  hashtable_init_size (Z.to_nat b) (Z.to_nat (get_htype_size kt)) (Z.to_nat (get_htype_size dt)).

(** A history on a new table whose key type is H_INT, H_CHAR, H_SHORT or H_LONG, with the
    comparison for that type (the same function of the values). *)
Definition typed_history (buckets : Z) (kt dt : htype) (ops : list (hop Z)) : res (htable Z * list (Z * bytes)) :=
  let! t := hashtable_init buckets kt dt in hrun int_compare integer_hash t ops.

(** hashtable.c:173-175: for H_PTR the hash function is NULL.  Insertion and lookup call it
    (185, 230), a removal only when the table is not empty (283-288). *)
Definition pointer_step (t : htable Z) (o : hop Z) : res (htable Z * (Z * bytes)) :=
  match o with
  | HInsert _ _ | HLookup _ _ => UB
  | HRemove _ buf => if hashtable_empty t then Ok (t, (0%Z, buf)) else UB
  | HSize => Ok (t, (Z.of_nat (hashtable_size t), []))
  end.
