(** The C type [double] (the default [distance_t], CMakeLists.txt:31-34): IEEE-754
    binary64 as formalised and made executable by Flocq ([BinarySingleNaN]: all
    NaNs are identified; signs of zeros and infinities are kept).  Arithmetic
    rounds to nearest, ties to even. *)
From Coq Require Import ZArith Bool.
From Flocq Require Import Core.FLX IEEE754.BinarySingleNaN.
From Verif Require Import Base.

Definition f64 : Type := binary_float 53 1024.

Definition Hprec : Prec_gt_0 53 := eq_refl.
Definition Hmax : Prec_lt_emax 53 1024 := eq_refl.
#[export] Existing Instance Hprec.
#[export] Existing Instance Hmax.

(** C comparisons: false as soon as an operand is NaN (except [!=]). *)
Definition flt (a b : f64) : bool := Bltb a b.
Definition fle (a b : f64) : bool := Bleb a b.
Definition fgt (a b : f64) : bool := Bltb b a.
Definition fge (a b : f64) : bool := Bleb b a.
Definition feq (a b : f64) : bool := Beqb a b.
Definition fne (a b : f64) : bool := negb (Beqb a b).

Definition fadd (a b : f64) : f64 := Bplus mode_NE a b.
Definition fsub (a b : f64) : f64 := Bminus mode_NE a b.
Definition fmul (a b : f64) : f64 := Bmult mode_NE a b.
Definition fdiv (a b : f64) : f64 := Bdiv mode_NE a b.
Definition fsqrt (a : f64) : f64 := Bsqrt mode_NE a.
(** Integer to double conversion. *)
Definition f_of_Z (z : Z) : f64 := binary_normalize 53 1024 Hprec Hmax mode_NE z 0 false.

Definition fzero : f64 := B754_zero false.
Definition fnan : f64 := B754_nan.
Definition fone : f64 := @B754_finite 53 1024 false 4503599627370496 (-52) eq_refl.
(** DBL_MAX = (2^53-1) * 2^971 and DBL_MIN = 2^-1022: [D_MAX], [D_MIN]
    (CMakeLists.txt:36-38, config.h.in). *)
Definition D_MAX : f64 := @B754_finite 53 1024 false 9007199254740991 971 eq_refl.
Definition D_MIN : f64 := @B754_finite 53 1024 false 4503599627370496 (-1074) eq_refl.
Definition finf : f64 := B754_infinity false.

Definition fisnan (a : f64) : bool := is_nan a.

(** An order embedding of the non-NaN doubles into the integers: the value scaled
    by 2^1074, infinities beyond every finite value.  Used in specifications as
    "the numeric value of a double". *)
Definition fkey (a : f64) : Z :=
  match a with
  | B754_zero _ => 0
  | B754_infinity s => if s then - 2 ^ 2200 else 2 ^ 2200
  | B754_nan => 0
  | B754_finite s m e _ =>
      let v := (Zpos m * 2 ^ (e + 1074))%Z in if s then (- v)%Z else v
  end.
