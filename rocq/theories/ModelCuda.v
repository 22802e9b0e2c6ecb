(** Model of modules/cuda/src/cuda_distance.cu: the kernel that computes distances on a
    GPU.  uint is 32 bit unsigned; float is IEEE-754 binary32 with correctly rounded
    operations (nvcc's default for sqrtf and division). *)
From Flocq Require Import IEEE754.BinarySingleNaN.
From Verif Require Import Base F64 ModelDistance.
Local Open Scope Z_scope.

(** Conversion of a uint to float and of a double to float (round to nearest). *)
Definition single_of_Z (z : Z) : f32 := binary_normalize 24 128 Hprec32 Hmax32 mode_NE z 0 false.
Definition single (a : f64) : f32 :=
  match a with
  | B754_zero s => B754_zero s
  | B754_infinity s => B754_infinity s
  | B754_nan => B754_nan
  | B754_finite s m e _ =>
      binary_normalize 24 128 Hprec32 Hmax32 mode_NE (if s then Zneg m else Zpos m) e s
  end.
Definition sqrtf (a : f32) : f32 := @Bsqrt 24 128 Hprec32 Hmax32 mode_NE a.
Definition fdiv32 (a b : f32) : f32 := @Bdiv 24 128 Hprec32 Hmax32 mode_NE a b.
(** ceilf and the conversion of its result to uint; a value out of range is undefined. *)
Definition ceil_uint (a : f32) : res Z :=
  match a with
  | B754_zero _ => Ok 0
  | B754_finite s m e _ =>
      let z := if s then Zneg m else Zpos m in
      let c := if 0 <=? e then z * 2 ^ e else - (- z / 2 ^ (- e)) in
      if (0 <=? c) && (c <? M32) then Ok c else UB
  | _ => UB
  end.

(** cuda_distance.cu:28-31 TRIANGULAR_D. *)
Definition TRIANGULAR_D (n : Z) : Z := u32 (u32 (n * n) + n) / 2.

(** cuda_distance.cu:33-36 deviceFistTriangleNum. *)
Definition deviceFistTriangleNum (p : Z) : res Z :=
  ceil_uint (fdiv32 (fsub32 (sqrtf (single_of_Z (u32 (u32 (8 * p) + 1)))) (single_of_Z 1)) (single_of_Z 2)).

Section Kernel.
(** nvcc may contract [sum += (diff * diff)] into one fused operation (its default). *)
Variable fused : bool.
(** cuda_distance.cu:52. *)
Definition mac (sum diff : f64) : f64 :=
  if fused then Bfma mode_NE diff diff sum else fadd sum (fmul diff diff).

(** cuda_distance.cu:43-56: the value a thread computes for the cell [i].  [w] is the
    number of columns. *)
Definition cell_value (a_in : list f64) (w : nat) (i : Z) : res f64 :=
  let! r := deviceFistTriangleNum (u32 (i + 1)) in
  let tmp := TRIANGULAR_D r in
  let c := u32 (u32 (i + r) - tmp) in
  let! sum := for_up 0 w (fun k sum =>
    let! num1 := aget a_in (Z.to_nat (u32 (u32 (r * Z.of_nat w) + Z.of_nat k))) in
    let! num2 := aget a_in (Z.to_nat (u32 (u32 (c * Z.of_nat w) + Z.of_nat k))) in
    Ok (mac sum (fsub num1 num2))) fzero in
  Ok (f64_of_f32 (sqrtf (single sum))).

(** cuda_distance.cu:38-57 distance_compute_kernel, for one thread.  The parameter h is not
    used by the code. *)
Definition kernel_thread (a_in : list f64) (w : nat) (d : Z) (blockDim : Z) (out : list (option f64)) (bt : Z * Z) : res (list (option f64)) :=
  let i := u32 (u32 (blockDim * fst bt) + snd bt) in
  if i <? d then let! v := cell_value a_in w i in zset out i v else Ok out.
(** A launch: the threads (block, index in the block) in the order in which they write.  A
    thread reads only [a_in] and writes one cell, so only this order can matter. *)
Fixpoint launch (a_in : list f64) (w : nat) (d : Z) (blockDim : Z) (out : list (option f64)) (ts : list (Z * Z)) : res (list (option f64)) :=
  match ts with
  | [] => Ok out
  | t :: ts => let! out := kernel_thread a_in w d blockDim out t in launch a_in w d blockDim out ts
  end.
End Kernel.
