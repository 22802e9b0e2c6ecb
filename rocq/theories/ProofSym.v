(** The computed Euclidean distance is symmetric. *)
From Coq Require Import ZArith Bool List Floats.SpecFloat.
From Flocq Require Import Core.Zaux Core.FLX IEEE754.BinarySingleNaN.
From Verif Require Import Base F64 ModelDistance PropDistance.
From Coq Require Import ZifyBool ZifyNat.

Section Sym.
Variables (p em : Z).
Context (Hp : Prec_gt_0 p) (Hx : Prec_lt_emax p em).

(** [x] is [-y], or both are zeros. *)
Definition negates (x y : binary_float p em) : Prop := x = Bopp y \/ exists s t, x = B754_zero s /\ y = B754_zero t.

Lemma round_aux_opp s m e l : binary_round_aux p em mode_NE (negb s) m e l = SFopp (binary_round_aux p em mode_NE s m e l).
Proof.
  unfold binary_round_aux. destruct (shr_fexp p em m e l) as [mrs e']. cbn [choice_mode].
  match goal with |- context [shr_fexp ?a ?b ?c ?d ?f] => destruct (shr_fexp a b c d f) as [mrs' e''] end.
  destruct (shr_m mrs') as [|q|q]; try reflexivity. unfold binary_fit_aux. destruct (e'' <=? em - p)%Z; [reflexivity|]. unfold binary_overflow. cbn [overflow_to_inf]. reflexivity.
Qed.
Lemma round_opp s m e : binary_round p em mode_NE (negb s) m e = SFopp (binary_round p em mode_NE s m e).
Proof. unfold binary_round. destruct (shl_align_fexp p em m e) as [mz ez]. apply round_aux_opp. Qed.

Lemma SF2B_opp x y Hx' Hy' : x = SFopp y -> SF2B (prec := p) (emax := em) x Hx' = Bopp (SF2B y Hy').
Proof.
  intros ->. apply B2SF_inj. rewrite B2SF_SF2B. destruct y; reflexivity.
Qed.

Lemma normalize_opp m e s s' : negates (binary_normalize p em Hp Hx mode_NE (- m) e s) (binary_normalize p em Hp Hx mode_NE m e s').
Proof.
  destruct m as [|m|m]; cbn [Z.opp binary_normalize].
  - right. exists s, s'. auto.
  - left. apply SF2B_opp. apply (round_opp false).
  - left. apply SF2B_opp. apply (round_opp true).
Qed.

Lemma minus_swap x y : negates (Bminus mode_NE x y) (Bminus mode_NE y x).
Proof.
  unfold Bminus. destruct x as [sx|sx| |sx mx ex Bx], y as [sy|sy| |sy my ey By]; try (left; destruct sx; reflexivity); try (left; destruct sy; reflexivity); try (left; destruct sx, sy; reflexivity); try (left; reflexivity).
  - right. destruct sx, sy; cbn; eauto.
  - cbn zeta. rewrite (Z.min_comm ey ex). unfold Fplus_naive.
    replace (cond_Zopp sx (Zpos (fst (shl_align mx ex (Z.min ex ey)))) + cond_Zopp (negb sy) (Zpos (fst (shl_align my ey (Z.min ex ey)))))%Z
      with (- (cond_Zopp sy (Zpos (fst (shl_align my ey (Z.min ex ey)))) + cond_Zopp (negb sx) (Zpos (fst (shl_align mx ex (Z.min ex ey))))))%Z by (destruct sx, sy; cbn [cond_Zopp negb]; lia).
    apply normalize_opp.
Qed.

Lemma square_swap x y : negates x y -> Bmult mode_NE x x = Bmult mode_NE y y.
Proof.
  intros [->|(s & t & -> & ->)]; [|destruct s, t; reflexivity].
  destruct y as [s|s| |s m e B]; [destruct s; reflexivity|destruct s; reflexivity|reflexivity|]. apply B2SF_inj. unfold Bmult, Bopp. cbv beta iota. rewrite !B2SF_SF2B. destruct s; reflexivity.
Qed.
End Sym.

Lemma to_double_swap x y : negates 24 128 x y -> negates 53 1024 (f64_of_f32 x) (f64_of_f32 y).
Proof.
  intros [->|(s & t & -> & ->)]; [|right; destruct s, t; cbn; eauto].
  destruct y as [s|s| |s m e B]; [left; destruct s; reflexivity|left; destruct s; reflexivity|left; reflexivity|]. cbn [Bopp f64_of_f32].
  replace (if negb s then Zneg m else Zpos m) with (- (if s then Zneg m else Zpos m))%Z by (destruct s; reflexivity). apply normalize_opp.
Qed.

Lemma coord_swap ds a b : fmul (coord_diff ds a b) (coord_diff ds a b) = fmul (coord_diff ds b a) (coord_diff ds b a).
Proof.
  unfold fmul. apply square_swap. destruct ds as [l|l|l|l|l|l]; cbn [coord_diff].
  1: apply minus_swap.
  1: apply to_double_swap, minus_swap.
  all: unfold f_of_Z; replace (nth a l 0 - nth b l 0)%Z with (- (nth b l 0 - nth a l 0))%Z by lia; apply normalize_opp.
Qed.

Lemma euclidean_sym ds cols i j : euclidean ds cols i j = euclidean ds cols j i.
Proof.
  unfold euclidean. f_equal. generalize fzero. induction (seq 0 cols) as [|k l IH]; intros a; cbn [fold_left]; [reflexivity|].
  cbn zeta. rewrite coord_swap. apply IH.
Qed.
