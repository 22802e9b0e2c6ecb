(** Model of modules/utils/src/utils.c: comparison callbacks, type sizes and hash
    functions; of outlier_score.c:64-82 and cluster.c:237-260.

    A callback receives a pointer and loads one C value from it; the model receives the
    value loaded: an integer of the C type, a double, a pointer as its address.  The
    *_ptr_compare variants load through one more pointer and then do the same. *)
From Coq Require Import Floats.SpecFloat.
From Flocq Require Import IEEE754.BinarySingleNaN.
From Verif Require Import Base F64.
Local Open Scope Z_scope.

(** utils.c:51-65 int_compare, 67-81 int_ptr_compare, 131-145 short_compare, 147-162
    short_ptr_compare, 171-184 long_compare, 186-199 long_ptr_compare, 245-258
    char_compare, 260-273 char_ptr_compare, 282-294 ptr_compare: the same body. *)
Definition int_compare (a b : Z) : Z :=
  if a >? b then 1 else if a =? b then 0 else -1.

(** int_compare used on the unsigned labels and vertex numbers (label_t, index_t =
    unsigned int): the bytes are reloaded as int32_t. *)
Definition int_compare_u32 (a b : Z) : Z := int_compare (i32_of_u32 a) (i32_of_u32 b).

(** utils.c:90-105 double_compare, 107-122 double_ptr_compare; 208-221 float_compare and
    223-236 float_ptr_compare (a float is modelled by the double of the same value). *)
Definition double_compare (a b : f64) : Z :=
  if fgt a b then 1 else if feq a b then 0 else -1.

(** utils.h:61-71 enum HTYPES. *)
Inductive htype := H_INT | H_DOUBLE | H_FLOAT | H_LONG | H_SHORT | H_CHAR | H_STRING | H_PTR.

(** utils.c:297-314 get_htype_size on an LP64 machine. *)
Definition get_htype_size (t : htype) : Z :=
  match t with
  | H_DOUBLE => 8 | H_FLOAT => 4 | H_LONG => 8 | H_SHORT => 2 | H_INT => 4 | H_CHAR => 1 | H_STRING => 8 | H_PTR => 8
  end.

(** [tmp % buckets] on size_t. *)
Definition size_mod (tmp buckets : Z) : res Z := if buckets =? 0 then UB else Ok (tmp mod buckets).

(** utils.c:316-342 int_hash, long_hash, short_hash, char_hash: convert to size_t (modulo
    2^64), then reduce. *)
Definition int_hash (k buckets : Z) : res Z := size_mod (u64 k) buckets.

(** The integer part of a finite double. *)
Definition ftrunc (a : f64) : option Z :=
  match a with
  | B754_zero _ => Some 0
  | B754_finite s m e _ =>
      let v := if 0 <=? e then Zpos m * 2 ^ e else Zpos m / 2 ^ (- e) in
      Some (if s then - v else v)
  | _ => None
  end.
(** (size_t)x: undefined unless the integer part is representable. *)
Definition size_of_double (a : f64) : res Z :=
  match ftrunc a with
  | Some v => if (0 <=? v) && (v <? M64) then Ok v else UB
  | None => UB
  end.

(** utils.c:344-356 double_hash, float_hash. *)
Definition double_hash (k : f64) (buckets : Z) : res Z :=
  let! tmp := size_of_double k in size_mod tmp buckets.

(** utils.c:358-377: the loop of str_hash over the (signed) characters from [cptr] to the
    end of the memory block. *)
Definition str_step (val c : Z) : Z :=
  let val := u32 (u32 (val * 16) + u32 c) in
  let tmp := Z.land val 4026531840 in
  if tmp =? 0 then val else Z.lxor (Z.lxor val (tmp / 16777216)) tmp.
Fixpoint str_val (mem : list Z) (val : Z) : res Z :=
  match mem with
  | [] => UB
  | c :: m => if c =? 0 then Ok val else str_val m (str_step val c)
  end.
(** utils.c:358-380 str_hash. *)
Definition str_hash (mem : list Z) (buckets : Z) : res Z :=
  let! val := str_val mem 0 in size_mod val buckets.

(** outlier_score.h: struct OutlierScore. *)
Record outlier := mk_outlier { os_score : f64; os_core : f64; os_id : Z }.

(** outlier_score.c:64-82 outlier_score_compare; the ids are unsigned int. *)
Definition outlier_score_compare (a b : outlier) : Z :=
  if fgt (os_score a) (os_score b) then 1
  else if flt (os_score a) (os_score b) then -1
  else if fgt (os_core a) (os_core b) then 1
  else if flt (os_core a) (os_core b) then -1
  else i32_of_u32 (u32 (os_id a - os_id b)).

(** cluster.c:237-260 cluster_compare; a cluster pointer is modelled by NULL or the label
    of the cluster it points to. *)
Definition cluster_compare (a b : option Z) : Z :=
  match a, b with
  | None, _ => -1
  | _, None => 1
  | Some x, Some y => if x >? y then 1 else if x =? y then 0 else -1
  end.
