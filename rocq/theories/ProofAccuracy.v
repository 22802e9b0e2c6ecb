(** Rounding errors of the distance computation. *)
From Coq Require Import Reals Lra Lia.
From Flocq Require Import Core.Core IEEE754.BinarySingleNaN.
From Flocq Require Import Relative Plus_error.
From Verif Require Import Base F64 F64Facts F64Arith F64Scale ModelDistance PropDistance PropCuda SpecAccuracy.
Local Open Scope R_scope.

Lemma u53_eq : u53 = / 2 * bpow radix2 (- (53) + 1).
Proof. unfold u53. change (bpow radix2 (- (53) + 1)) with (/ IZR (2 ^ 52)). change (2 ^ 53)%Z with (2 * 2 ^ 52)%Z.
  rewrite mult_IZR. rewrite Rinv_mult. reflexivity. Qed.
Lemma u24_eq : / IZR (2 ^ 24) = / 2 * bpow radix2 (- (24) + 1).
Proof. change (bpow radix2 (- (24) + 1)) with (/ IZR (2 ^ 23)). change (2 ^ 24)%Z with (2 * 2 ^ 23)%Z.
  rewrite mult_IZR. rewrite Rinv_mult. reflexivity. Qed.
Lemma u53_pos : 0 < u53 < / 2.
Proof. unfold u53. split; [apply Rinv_0_lt_compat, IZR_lt; reflexivity|]. apply Rinv_lt_contravar; [|apply IZR_lt; reflexivity]. apply Rmult_lt_0_compat; apply IZR_lt; reflexivity. Qed.
Lemma u24_pos : 0 < / IZR (2 ^ 24) < / 2.
Proof. split; [apply Rinv_0_lt_compat, IZR_lt; reflexivity|]. apply Rinv_lt_contravar; [|apply IZR_lt; reflexivity]. apply Rmult_lt_0_compat; apply IZR_lt; reflexivity. Qed.
Lemma grain_pos ds : 0 < grain ds < / 2.
Proof. destruct ds; try exact u53_pos. exact u24_pos. Qed.

(** Within a relative error of [g]. *)
Definition near (g x y : R) : Prop := exists e, Rabs e <= g /\ y = x * (1 + e).

Lemma ro_bound beta prec : 0 <= u_ro beta prec -> u_ro beta prec / (1 + u_ro beta prec) <= u_ro beta prec.
Proof. intros H. apply (Rmult_le_reg_r (1 + u_ro beta prec)); [lra|]. unfold Rdiv. rewrite Rmult_assoc, Rinv_l by lra. nra. Qed.

Lemma plus_near prec emin (x y : R) : (0 < prec)%Z ->
  generic_format radix2 (FLT_exp emin prec) x -> generic_format radix2 (FLT_exp emin prec) y ->
  near (/ 2 * bpow radix2 (- prec + 1)) (x + y) (round radix2 (FLT_exp emin prec) ZnearestE (x + y)).
Proof.
  intros Hp Hx Hy. destruct (FLT_plus_error_N_ex radix2 emin prec (prec_gt_0_ := Hp) (fun x => negb (Z.even x)) x y Hx Hy) as (e & He & E).
  exists e. split; [|exact E]. apply Rle_trans with (1 := He). apply ro_bound. unfold u_ro. apply Rmult_le_pos; [lra|apply bpow_ge_0].
Qed.

Lemma rnd_near x : bpow radix2 (-1022) <= Rabs x -> near u53 x (rnd x).
Proof.
  intros H. rewrite u53_eq. destruct (relative_error_N_FLT_ex radix2 (-1074) 53 eq_refl (fun x => negb (Z.even x)) x H) as (e & He & E). exists e. split; [exact He|exact E].
Qed.
Lemma near_0 g : 0 <= g -> near g 0 0.
Proof. intros H. exists 0. rewrite Rabs_R0. split; [exact H|ring]. Qed.

(** Overflow is not finite. *)
Lemma overflow_nonfin prec emax m s (z : binary_float prec emax) : m = mode_NE -> B2SF z = binary_overflow prec emax m s -> is_finite z = false.
Proof. intros -> H. destruct z; try reflexivity; discriminate H. Qed.

Lemma sub_finite (a b : f64) : is_finite (fsub a b) = true -> is_finite a = true /\ is_finite b = true.
Proof. intros H. destruct (is_finite a) eqn:Ha, (is_finite b) eqn:Hb; try (split; reflexivity); rewrite sub_special in H; auto; discriminate. Qed.
Lemma add_finite (a b : f64) : is_finite (fadd a b) = true -> is_finite a = true /\ is_finite b = true.
Proof. intros H. destruct (is_finite a) eqn:Ha, (is_finite b) eqn:Hb; try (split; reflexivity); rewrite add_special in H; auto; discriminate. Qed.
Lemma mul_finite (a : f64) : is_finite (fmul a a) = true -> is_finite a = true.
Proof. intros H. destruct (is_finite a) eqn:Ha; [reflexivity|]. rewrite mul_special in H; auto. Qed.
Lemma sub32_finite (a b : f32) : is_finite (fsub32 a b) = true -> is_finite a = true /\ is_finite b = true.
Proof. destruct a as [s|s| |s m e B]; destruct b as [t|t| |t m1 e1 B1]; intros H; try discriminate H; try (split; reflexivity); cbn in H; destruct (Bool.eqb _ _) in H; discriminate H. Qed.
Lemma to_double_finite x : is_finite (f64_of_f32 x) = true -> is_finite x = true.
Proof. destruct x; intros H; try discriminate H; reflexivity. Qed.

Lemma fsub_near (a b : f64) : is_finite (fsub a b) = true -> near u53 (B2R a - B2R b) (B2R (fsub a b)).
Proof.
  intros H. destruct (sub_finite _ _ H) as [Ha Hb]. pose proof (Bminus_correct 53 1024 Hprec Hmax mode_NE a b Ha Hb) as C.
  destruct (Rlt_bool _ _) in C.
  - destruct C as (C & _). change (Bminus mode_NE a b) with (fsub a b) in C. rewrite C. unfold Rminus. rewrite u53_eq.
    apply (plus_near 53 (-1074)); [reflexivity|apply generic_format_B2R|apply generic_format_opp, generic_format_B2R].
  - destruct C as (C & _). apply overflow_nonfin in C; [|reflexivity]. unfold fsub in H. rewrite C in H. discriminate.
Qed.
Lemma fsub32_near (a b : f32) : is_finite (fsub32 a b) = true -> near (/ IZR (2 ^ 24)) (B2R a - B2R b) (B2R (fsub32 a b)).
Proof.
  intros H. destruct (sub32_finite _ _ H) as [Ha Hb]. pose proof (Bminus_correct 24 128 Hprec32 Hmax32 mode_NE a b Ha Hb) as C.
  destruct (Rlt_bool _ _) in C.
  - destruct C as (C & _). change (@Bminus 24 128 Hprec32 Hmax32 mode_NE a b) with (fsub32 a b) in C. rewrite C. unfold Rminus. rewrite u24_eq.
    apply (plus_near 24 (-149)); [reflexivity|apply generic_format_B2R|apply generic_format_opp, generic_format_B2R].
  - destruct C as (C & _). apply overflow_nonfin in C; [|reflexivity]. unfold fsub32 in H. rewrite C in H. discriminate.
Qed.
Lemma fint_near z : is_finite (f_of_Z z) = true -> near u53 (IZR z) (B2R (f_of_Z z)).
Proof.
  intros H. pose proof (binary_normalize_correct 53 1024 Hprec Hmax mode_NE z 0 false) as C. cbv zeta in C.
  assert (EF : F2R (Float radix2 z 0) = IZR z) by (unfold F2R; cbn; ring). rewrite EF in C.
  destruct (Rlt_bool _ _) in C.
  - destruct C as (C & _). unfold f_of_Z. rewrite C. destruct (Z.eq_dec z 0) as [->|N].
    + change (round radix2 (SpecFloat.fexp 53 1024) (round_mode mode_NE) 0) with (rnd 0). rewrite rnd_0. apply near_0. pose proof u53_pos; lra.
    + apply rnd_near. apply Rle_trans with 1; [change 1 with (bpow radix2 0); apply bpow_le; lia|]. rewrite <- abs_IZR. apply IZR_le. lia.
  - apply overflow_nonfin in C; [|reflexivity]. unfold f_of_Z in H. rewrite C in H. discriminate.
Qed.

Lemma diff_near ds a b : is_finite (coord_diff ds a b) = true -> near (grain ds) (coordinate ds a - coordinate ds b) (B2R (coord_diff ds a b)).
Proof.
  destruct ds; cbn [coord_diff coordinate grain]; intros H.
  - apply fsub_near. exact H.
  - pose proof (to_double_finite _ H) as F. destruct (to_double_val _ F) as [E _]. rewrite E. apply fsub32_near. exact F.
  - rewrite <- minus_IZR. apply fint_near. exact H.
  - rewrite <- minus_IZR. apply fint_near. exact H.
  - rewrite <- minus_IZR. apply fint_near. exact H.
  - rewrite <- minus_IZR. apply fint_near. exact H.
Qed.

Lemma near_zero g x y : near g x y -> x = 0 -> y = 0.
Proof. intros (e & _ & ->) ->. ring. Qed.
Lemma near_abs g x y : near g x y -> g < / 2 -> Rabs x / 2 <= Rabs y.
Proof.
  intros (e & He & ->) Hg. rewrite Rabs_mult. assert (/ 2 <= Rabs (1 + e)).
  { pose proof (Rle_abs (- e)). rewrite Rabs_Ropp in H. apply Rle_trans with (1 + e); [lra|apply Rle_abs]. }
  pose proof (Rabs_pos x). nra.
Qed.

Lemma square_near (d : f64) : is_finite (fmul d d) = true -> B2R d = 0 \/ bpow radix2 (-511) <= Rabs (B2R d) ->
  near u53 (Rsqr (B2R d)) (B2R (fmul d d)).
Proof.
  intros H Hd. pose proof (mul_finite _ H) as F. pose proof (Bmult_correct 53 1024 Hprec Hmax mode_NE d d) as C.
  destruct (Rlt_bool _ _) in C.
  - destruct C as (C & _). unfold fmul. rewrite C. unfold Rsqr. destruct Hd as [Z|Hd].
    + rewrite Z, Rmult_0_l. change (round radix2 (SpecFloat.fexp 53 1024) (round_mode mode_NE) 0) with (rnd 0). rewrite rnd_0. apply near_0. pose proof u53_pos; lra.
    + apply rnd_near. rewrite Rabs_mult. change (-1022)%Z with (-511 + -511)%Z. rewrite bpow_plus. apply Rmult_le_compat; auto using bpow_ge_0.
  - apply overflow_nonfin in C; [|reflexivity]. unfold fmul in H. rewrite C in H. discriminate.
Qed.
Lemma fadd_near (a b : f64) : is_finite (fadd a b) = true -> near u53 (B2R a + B2R b) (B2R (fadd a b)).
Proof.
  intros H. destruct (add_finite _ _ H) as [Ha Hb]. pose proof (Bplus_correct 53 1024 Hprec Hmax mode_NE a b Ha Hb) as C.
  destruct (Rlt_bool _ _) in C.
  - destruct C as (C & _). unfold fadd. rewrite C. rewrite u53_eq. apply (plus_near 53 (-1074)); [reflexivity|apply generic_format_B2R|apply generic_format_B2R].
  - destruct C as (C & _). apply overflow_nonfin in C; [|reflexivity]. unfold fadd in H. rewrite C in H. discriminate.
Qed.
Lemma fsqrt_near (a : f64) : is_finite (fsqrt a) = true -> 0 <= B2R a -> near u53 (sqrt (B2R a)) (B2R (fsqrt a)).
Proof.
  intros H H0. destruct (Bsqrt_correct 53 1024 Hprec Hmax mode_NE a) as (C & _). unfold fsqrt. rewrite C.
  destruct (Req_dec (B2R a) 0) as [Z|N].
  - rewrite Z, sqrt_0. change (round radix2 (SpecFloat.fexp 53 1024) (round_mode mode_NE) 0) with (rnd 0). rewrite rnd_0. apply near_0. pose proof u53_pos; lra.
  - apply rnd_near. rewrite Rabs_pos_eq by apply sqrt_pos.
    apply Rle_trans with (bpow radix2 (-537)); [apply bpow_le; lia|].
    rewrite <- (sqrt_Rsqr (bpow radix2 (-537))) by apply bpow_ge_0. apply sqrt_le_1_alt. unfold Rsqr. rewrite <- bpow_plus.
    change (-537 + -537)%Z with (-1074)%Z. 
    rewrite <- (Rabs_pos_eq (B2R a) H0). apply grid_low; [|exact N].
    rewrite (generic_format_B2R 53 1024 a). apply (grid_coarse _ (cexp radix2 (SpecFloat.fexp 53 1024) (B2R a))).
    + unfold F2R. cbn [Fnum Fexp]. eexists. reflexivity.
    + unfold cexp. rewrite fexp_eq. lia.
Qed.

Section Sum.
Variables (ds : dataset) (cols i j : nat).
Let diff k := coord_diff ds (i * cols + k) (j * cols + k).
Let add (s : f64) (k : nat) := fadd s (fmul (diff k) (diff k)).
Let part k := Rsqr (coordinate ds (i * cols + k) - coordinate ds (j * cols + k)).
Let lo (m : nat) := Rsqr (1 - grain ds) * (1 - u53) ^ (m + 1).
Let hi (m : nat) := Rsqr (1 + grain ds) * (1 + u53) ^ (m + 1).

Lemma sum_finite ks : forall s, is_finite (fold_left add ks s) = true -> is_finite s = true.
Proof. induction ks as [|k ks IH]; intros s H; [exact H|]. cbn [fold_left] in H. apply IH in H. apply add_finite in H. apply H. Qed.

Lemma near_bounds g x y : near g x y -> 0 <= x -> 0 <= g -> (1 - g) * x <= y <= (1 + g) * x.
Proof. intros (e & He & ->) Hx Hg. apply Rabs_le_inv in He. nra. Qed.
Lemma near_sqr g x y : near g x y -> 0 <= g < 1 -> Rsqr (1 - g) * Rsqr x <= Rsqr y <= Rsqr (1 + g) * Rsqr x.
Proof.
  intros (e & He & ->) Hg. apply Rabs_le_inv in He. rewrite Rsqr_mult. pose proof (Rle_0_sqr x).
  assert (Rsqr (1 - g) <= Rsqr (1 + e)) by (apply Rsqr_incr_1; lra). assert (Rsqr (1 + e) <= Rsqr (1 + g)) by (apply Rsqr_incr_1; lra). nra.
Qed.

Lemma part_bounds k : is_finite (fmul (diff k) (diff k)) = true ->
  coordinate ds (i * cols + k) = coordinate ds (j * cols + k) \/ / IZR (2 ^ 510) <= Rabs (coordinate ds (i * cols + k) - coordinate ds (j * cols + k)) ->
  lo 0 * part k <= B2R (fmul (diff k) (diff k)) <= hi 0 * part k.
Proof.
  intros H Hd. pose proof (mul_finite _ H) as F. pose proof (diff_near ds _ _ F) as Hn. fold (diff k) in Hn. pose proof (grain_pos ds) as Hg. pose proof u53_pos as Hu.
  assert (Hdd : B2R (diff k) = 0 \/ bpow radix2 (-511) <= Rabs (B2R (diff k))).
  { destruct Hd as [E|E]; [left; apply (near_zero _ _ _ Hn); lra|right]. apply near_abs in Hn; [|lra].
    apply Rle_trans with (2 := Hn). change (bpow radix2 (-511)) with (/ IZR (2 * 2 ^ 510)). rewrite mult_IZR, Rinv_mult. lra. }
  pose proof (square_near _ H Hdd) as Hq. apply near_bounds in Hq; [|apply Rle_0_sqr|lra]. apply near_sqr in Hn; [|lra].
  unfold lo, hi, part. cbn [Nat.add pow]. rewrite !Rmult_1_r. split; nra.
Qed.

Lemma pow_le_1 x m : 0 <= x <= 1 -> x ^ m <= 1.
Proof. intros H. induction m as [|m IH]; cbn [pow]; [lra|]. assert (0 <= x ^ m) by (apply pow_le; lra). nra. Qed.
Lemma pow_lo_le m : (1 - u53) ^ (m + 1) <= (1 - u53) ^ 1.
Proof. pose proof u53_pos. replace (m + 1)%nat with (S m) by lia. cbn [pow]. assert (0 <= (1 - u53) ^ m <= 1). { split; [apply pow_le; lra|]. apply pow_le_1. lra. } nra. Qed.
Lemma pow_hi_ge m : (1 + u53) ^ 1 <= (1 + u53) ^ (m + 1).
Proof. pose proof u53_pos. apply Rle_pow; [lra|lia]. Qed.

Lemma lo_pos m : 0 <= lo m.
Proof. pose proof u53_pos. unfold lo. apply Rmult_le_pos; [apply Rle_0_sqr|apply pow_le; lra]. Qed.
Lemma hi_pos m : 0 <= hi m.
Proof. pose proof u53_pos. unfold hi. apply Rmult_le_pos; [apply Rle_0_sqr|apply pow_le; lra]. Qed.
Lemma lo_S m : lo (S m) = lo m * (1 - u53).
Proof. unfold lo. cbn [Nat.add pow]. ring. Qed.
Lemma hi_S m : hi (S m) = hi m * (1 + u53).
Proof. unfold hi. cbn [Nat.add pow]. ring. Qed.
Lemma lo_le m : lo m <= lo 0.
Proof. unfold lo. apply Rmult_le_compat_l; [apply Rle_0_sqr|]. apply pow_lo_le. Qed.
Lemma hi_ge m : hi 0 <= hi m.
Proof. unfold hi. apply Rmult_le_compat_l; [apply Rle_0_sqr|]. apply pow_hi_ge. Qed.

Lemma sum_near ks : forall s S m,
  (forall k, In k ks -> coordinate ds (i * cols + k) = coordinate ds (j * cols + k) \/ / IZR (2 ^ 510) <= Rabs (coordinate ds (i * cols + k) - coordinate ds (j * cols + k))) ->
  is_finite (fold_left add ks s) = true -> 0 <= S -> lo m * S <= B2R s <= hi m * S ->
  lo (m + length ks) * (S + fold_right Rplus 0 (map part ks)) <= B2R (fold_left add ks s) <= hi (m + length ks) * (S + fold_right Rplus 0 (map part ks)).
Proof.
  induction ks as [|k ks IH]; intros s S m Hd F HS Hs; cbn [fold_left map fold_right length] in *.
  - rewrite Nat.add_0_r, Rplus_0_r. exact Hs.
  - pose proof (sum_finite _ _ F) as F1. destruct (add_finite _ _ F1) as [_ F2].
    pose proof (part_bounds k F2 (Hd k (or_introl eq_refl))) as Hp. pose proof (Rle_0_sqr (coordinate ds (i * cols + k) - coordinate ds (j * cols + k)) : 0 <= part k) as Hp0.
    replace (m + Datatypes.S (length ks))%nat with (Datatypes.S m + length ks)%nat by lia.
    rewrite <- Rplus_assoc. apply IH; [intros k' Hk; apply Hd; right; exact Hk|exact F|lra|].
    pose proof u53_pos as Hu. unfold add at 1 2.
    pose proof (fadd_near _ _ F1) as Hn. pose proof (lo_pos m) as L0. pose proof (lo_le m) as L1. pose proof (hi_ge m) as H1.
    assert (Hlow : lo m * (S + part k) <= B2R s + B2R (fmul (diff k) (diff k))) by nra.
    assert (Hhigh : B2R s + B2R (fmul (diff k) (diff k)) <= hi m * (S + part k)) by nra.
    apply near_bounds in Hn; [|nra|lra]. rewrite lo_S, hi_S. change (fadd s (fmul (diff k) (diff k))) with (add s k) in *. split; nra.
Qed.

Lemma distance_near : is_finite (euclidean ds cols i j) = true -> distinguishable ds cols i j ->
  low ds cols * true_distance ds cols i j <= B2R (euclidean ds cols i j) <= high ds cols * true_distance ds cols i j.
Proof.
  intros F Hd. pose proof u53_pos as Hu. pose proof (grain_pos ds) as Hg. unfold euclidean in *. change (is_finite (fsqrt (fold_left add (seq 0 cols) fzero)) = true) in F.
  change (fold_left _ (seq 0 cols) fzero) with (fold_left add (seq 0 cols) fzero).
  set (T := fold_left add (seq 0 cols) fzero) in *.
  assert (FT : is_finite T = true). { destruct (Bsqrt_correct 53 1024 Hprec Hmax mode_NE T) as (_ & C & _). unfold fsqrt in F. rewrite C in F. destruct T as [| | |[]]; try discriminate F; reflexivity. }
  assert (Hs : lo (0 + length (seq 0 cols)) * (0 + fold_right Rplus 0 (map part (seq 0 cols))) <= B2R T <= hi (0 + length (seq 0 cols)) * (0 + fold_right Rplus 0 (map part (seq 0 cols)))).
  { apply sum_near; [|exact FT|lra|]. - intros k Hk. apply in_seq in Hk. apply (Hd k). lia. - cbn [B2R fzero]. rewrite !Rmult_0_r. lra. }
  rewrite seq_length, Rplus_0_l in Hs. cbn [Nat.add] in Hs. unfold true_distance. change (fun k : nat => Rsqr _) with part. set (S := fold_right Rplus 0 (map part (seq 0 cols))) in *.
  assert (HS : 0 <= S).
  { unfold S. clear. induction (seq 0 cols) as [|k l IH]; cbn [map fold_right]; [lra|]. pose proof (Rle_0_sqr (coordinate ds (i * cols + k) - coordinate ds (j * cols + k)) : 0 <= part k). lra. }
  assert (HT : 0 <= B2R T) by (pose proof (lo_pos cols); nra).
  pose proof (fsqrt_near _ F HT) as Hq. apply near_bounds in Hq; [|apply sqrt_pos|lra].
  pose proof (sqrt_pos S) as HsS.
  assert (P0 : 0 < (1 - u53) ^ (cols + 1) <= 1). { split; [apply pow_lt; lra|]. apply pow_le_1. lra. }
  assert (P1 : 1 <= (1 + u53) ^ (cols + 1)) by (apply pow_R1_Rle; lra).
  assert (Hl : (1 - grain ds) * (1 - u53) ^ (cols + 1) * sqrt S <= sqrt (B2R T)).
  { apply Rle_trans with (sqrt (lo cols * S)); [|apply sqrt_le_1_alt; apply Hs]. unfold lo.
    rewrite sqrt_mult_alt by apply lo_pos. apply Rmult_le_compat_r; [exact HsS|]. rewrite sqrt_mult_alt by apply Rle_0_sqr. rewrite sqrt_Rsqr by lra.
    apply Rmult_le_compat_l; [lra|]. set (x := (1 - u53) ^ (cols + 1)) in *. rewrite <- (sqrt_Rsqr x) at 1 by lra. apply sqrt_le_1_alt. unfold Rsqr. nra. }
  assert (Hh : sqrt (B2R T) <= (1 + grain ds) * (1 + u53) ^ (cols + 1) * sqrt S).
  { apply Rle_trans with (sqrt (hi cols * S)); [apply sqrt_le_1_alt; apply Hs|]. unfold hi.
    rewrite sqrt_mult_alt by apply hi_pos. apply Rmult_le_compat_r; [exact HsS|]. rewrite sqrt_mult_alt by apply Rle_0_sqr. rewrite sqrt_Rsqr by lra.
    apply Rmult_le_compat_l; [lra|]. set (x := (1 + u53) ^ (cols + 1)) in *. rewrite <- (sqrt_Rsqr x) at 2 by lra. apply sqrt_le_1_alt. unfold Rsqr. nra. }
  unfold low, high. replace (cols + 2)%nat with (Datatypes.S (cols + 1)) by lia. cbn [pow].
  change (fsqrt T) with (fsqrt T) in *. split; nra.
Qed.
End Sum.
