(** Model of src/distance.c: the condensed distance matrix and the core distances.
    Index arithmetic is modelled with its C types: index_t and uint are 32 bit unsigned,
    size_t is 64 bit unsigned. *)
From Coq Require Import Floats.SpecFloat.
From Flocq Require Import IEEE754.BinarySingleNaN.
From Verif Require Import Base F64.
Local Open Scope Z_scope.

(** distance.h:67-78 struct Distance, without [cal] (unused by the code modelled) and
    [datatype] (part of [dataset] below).  A malloc'ed slot that has not been written is
    [None]; reading it is undefined. *)
Record distance := mk_distance {
  d_rows : Z; d_cols : Z; d_k : Z;          (* rows, cols, numNeighbors *)
  d_dist : list (option f64);               (* distances *)
  d_core : list (option f64) }.             (* coreDistances *)

Definition zget {A} (l : list (option A)) (i : Z) : res A :=
  if i <? 0 then UB
  else match nth_error l (Z.to_nat i) with Some (Some v) => Ok v | _ => UB end.
Definition zset {A} (l : list (option A)) (i : Z) (v : A) : res (list (option A)) :=
  if (0 <=? i) && (i <? Z.of_nat (length l)) then Ok (upd l (Z.to_nat i) (Some v)) else UB.

(** utils.h:165-167 TRIANGULAR_H. *)
Definition TRIANGULAR_H (n : Z) : Z := u32 (n * n + n) / 2.

(** distance.c:117-118, 122-123: the slot read for row < col. *)
Definition get_index (rows row col : Z) : Z :=
  u64 (u32 (u32 (rows * row) + col) - TRIANGULAR_H (u32 (row + 1))).

(** distance.c:114-125 distance_get. *)
Definition distance_get (d : distance) (row col : Z) : res f64 :=
  if row <? col then zget (d_dist d) (get_index (d_rows d) row col)
  else if row =? col then Ok fzero
  else zget (d_dist d) (get_index (d_rows d) col row).

(** distance.c:194-195: the slot written for i < j (size_t arithmetic). *)
Definition set_index (rows i j : Z) : Z :=
  u64 (u64 (i * rows + j) - TRIANGULAR_H (u32 (u32 i + 1))).

(** distance.c:142: number of elements allocated. *)
Definition alloc_size (rows : Z) : Z := u32 (u32 (rows * rows) - rows) / 2.

(** The dataset argument together with the datatype field.  float is IEEE-754 binary32. *)
Definition f32 : Type := binary_float 24 128.
Definition Hprec32 : FLX.Prec_gt_0 24 := eq_refl.
Definition Hmax32 : Prec_lt_emax 24 128 := eq_refl.
Definition fsub32 (a b : f32) : f32 := @Bminus 24 128 Hprec32 Hmax32 mode_NE a b.
(** Conversion of a float to double (exact). *)
Definition f64_of_f32 (a : f32) : f64 :=
  match a with
  | B754_zero s => B754_zero s
  | B754_infinity s => B754_infinity s
  | B754_nan => B754_nan
  | B754_finite s m e _ =>
      binary_normalize 53 1024 Hprec Hmax mode_NE (if s then Zneg m else Zpos m) e s
  end.

Inductive dataset :=
| DDouble (l : list f64) | DFloat (l : list f32)
| DInt (l : list Z) | DLong (l : list Z) | DShort (l : list Z) | DChar (l : list Z).

(** distance.c:160-188: [(distance_t)(dt[a] - dt[b])].  The subtraction is done in the
    element type (float), in int (int, short, char: promoted) or in long; signed overflow
    is undefined. *)
Definition ddiff (ds : dataset) (a b : nat) : res f64 :=
  match ds with
  | DDouble l => let! x := aget l a in let! y := aget l b in Ok (fsub x y)
  | DFloat l => let! x := aget l a in let! y := aget l b in Ok (f64_of_f32 (fsub32 x y))
  | DInt l | DShort l | DChar l =>
      let! x := aget l a in let! y := aget l b in
      if in_i32 (x - y) then Ok (f_of_Z (x - y)) else UB
  | DLong l =>
      let! x := aget l a in let! y := aget l b in
      if in_i64 (x - y) then Ok (f_of_Z (x - y)) else UB
  end.

(** distance.c:152-191: the value computed for the pair (i,j). *)
Definition pair_value (ds : dataset) (cols i j : nat) : res f64 :=
  let! sum := for_up 0 cols (fun k sum =>
    let! diff := ddiff ds (i * cols + k) (j * cols + k) in
    Ok (fadd sum (fmul diff diff))) fzero in
  Ok (fsqrt sum).

(** distance.c:150-197: one iteration of the inner loop. *)
Definition pair_step (ds : dataset) (rows cols i j : nat) (m : list (option f64)) : res (list (option f64)) :=
  let! v := pair_value ds cols i j in
  zset m (set_index (Z.of_nat rows) (Z.of_nat i) (Z.of_nat j)) v.

(** distance.c:149-198: the double loop, sequentially. *)
Definition fill_matrix (ds : dataset) (rows cols : nat) (m : list (option f64)) : res (list (option f64)) :=
  for_up 0 rows (fun i m => for_up (S i) (rows - S i) (fun j m => pair_step ds rows cols i j m) m) m.

(** distance.c:236-248: the binary search for the entry position; [fuel] bounds the
    do-while loop.  index_t arithmetic does not wrap for a buffer below 2^32 elements. *)
Fixpoint find_pos (fuel : nat) (buf : list f64) (t : f64) (low high : nat) : res nat :=
  match fuel with
  | O => Fuel
  | S f =>
      let mid := (low + (high - low) / 2)%nat in
      let! x := aget buf mid in
      if fgt x t then (if (low <? mid)%nat then find_pos f buf t low mid else Ok low)
      else if feq x t then Ok low
      else if (S mid <? high)%nat then find_pos f buf t (S mid) high else Ok (S mid)
  end.

(** distance.c:224-262: processing one distance [t] with the buffer of [s] elements. *)
Definition buf_step (s : nat) (t : f64) (buf : list f64) : res (list f64) :=
  let! last := aget buf (s - 1) in
  if fgt t last then Ok buf
  else
    let! low := find_pos (S s) buf t 0 s in
    if (low <? s)%nat && fne last t then
      (* memmove of s-low-1 elements up by one, then the assignment *)
      Ok (firstn low buf ++ t :: firstn (s - low - 1) (skipn low buf))
    else Ok buf.

(** Buffer size [numNeighbors + 1], computed in index_t. *)
Definition buf_size (k : Z) : nat := Z.to_nat (u32 (k + 1)).

(** distance.c:218-265: the core distance of row [i].  A buffer of size 0 is undefined. *)
Definition core_of (d : distance) (i : nat) : res f64 :=
  let s := buf_size (d_k d) in
  if (s =? 0)%nat then UB
  else
    let! buf := for_up 0 (Z.to_nat (d_rows d)) (fun j buf =>
      let! t := distance_get d (Z.of_nat i) (Z.of_nat j) in buf_step s t buf)
      (repeat D_MAX s) in
    aget buf (s - 1).

(** distance.c:216-270 distance_get_core_distances. *)
Definition distance_get_core_distances (d : distance) : res distance :=
  let! core := for_up 0 (Z.to_nat (d_rows d)) (fun i core =>
    let! c := core_of d i in zset core (Z.of_nat i) c) (d_core d) in
  Ok (mk_distance (d_rows d) (d_cols d) (d_k d) (d_dist d) core).

(** distance.c:137-200 distance_compute. *)
Definition distance_compute (ds : dataset) (rows cols : nat) (k : Z) : res distance :=
  let! m := fill_matrix ds rows cols (repeat None (Z.to_nat (alloc_size (Z.of_nat rows)))) in
  distance_get_core_distances
    (mk_distance (Z.of_nat rows) (Z.of_nat cols) k m (repeat None rows)).
