(** Facts about double arithmetic, through Flocq's correctness theorems (these use the
    axioms of the standard library's real numbers). *)
From Coq Require Import Reals Lra.
From Flocq Require Import Core.Core IEEE754.BinarySingleNaN.
From Verif Require Import Base F64 F64Facts.
Local Open Scope R_scope.

Definition rnd (x : R) : R := round radix2 (SpecFloat.fexp 53 1024) (round_mode mode_NE) x.
#[local] Instance fexp_valid : Valid_exp (SpecFloat.fexp 53 1024) := fexp_correct 53 1024 Hprec.

Lemma rnd_le x y : x <= y -> rnd x <= rnd y.
Proof. apply round_le; typeclasses eauto. Qed.
Lemma rnd_0 : rnd 0 = 0.
Proof. apply round_0; typeclasses eauto. Qed.
Lemma rnd_id (a : f64) : rnd (B2R a) = B2R a.
Proof. apply round_generic; [typeclasses eauto|apply generic_format_B2R]. Qed.
Lemma rnd_nonneg x : 0 <= x -> 0 <= rnd x.
Proof. intros H. rewrite <- rnd_0. apply rnd_le. exact H. Qed.

Definition big : R := bpow radix2 1024.

Lemma fle_R a b : is_finite a = true -> is_finite b = true -> fle a b = true <-> B2R a <= B2R b.
Proof.
  intros Ha Hb. unfold fle. rewrite Bleb_correct by assumption. destruct (Rle_bool_spec (B2R a) (B2R b)) as [H|H]; split; intros; try assumption; try reflexivity; try discriminate; lra.
Qed.
Lemma flt_R a b : is_finite a = true -> is_finite b = true -> flt a b = true <-> B2R a < B2R b.
Proof.
  intros Ha Hb. unfold flt. rewrite Bltb_correct by assumption. destruct (Rlt_bool_spec (B2R a) (B2R b)) as [H|H]; split; intros; try assumption; try reflexivity; try discriminate; lra.
Qed.
Lemma fin_notnan (a : f64) : is_finite a = true -> notnan a.
Proof. destruct a; try discriminate; reflexivity. Qed.

Definition ge0 (a : f64) : Prop := fle fzero a = true.
Lemma ge0_cases a : ge0 a -> (is_finite a = true /\ 0 <= B2R a) \/ a = finf.
Proof.
  intros H. destruct (is_finite a) eqn:E.
  - left. split; [reflexivity|]. apply (fle_R fzero a) in H; [exact H|reflexivity|exact E].
  - right. destruct a as [s|s| |s m e B]; try discriminate. destruct s; [vm_compute in H; discriminate|reflexivity].
Qed.
Lemma ge0_fin a : is_finite a = true -> 0 <= B2R a -> ge0 a.
Proof. intros Ha H. apply (fle_R fzero a); [reflexivity|exact Ha|exact H]. Qed.
Lemma ge0_finf : ge0 finf. Proof. reflexivity. Qed.
Lemma ge0_zero : ge0 fzero. Proof. reflexivity. Qed.
Lemma fle_finf a : notnan a -> fle a finf = true.
Proof. intros H. destruct a as [s|s| |s m e B]; try discriminate H; try reflexivity; destruct s; reflexivity. Qed.
Lemma ge0_notnan a : ge0 a -> notnan a.
Proof. intros H. apply fle_true in H. apply H. Qed.
Lemma fle_refl a : notnan a -> fle a a = true.
Proof. intros H. apply fle_intro; [exact H|exact H|apply Z.le_refl]. Qed.
Lemma fle_trans a b c : fle a b = true -> fle b c = true -> fle a c = true.
Proof.
  intros H1 H2. apply fle_true in H1, H2. destruct H1 as (A & B & H1), H2 as (_ & C & H2). apply fle_intro; [exact A|exact C|]. eapply Z.le_trans; eassumption.
Qed.

Lemma overflow_pos (a : f64) : B2SF a = binary_overflow 53 1024 mode_NE false -> a = finf.
Proof. destruct a as [s|s| |s m e B]; cbn; intros H; try discriminate. injection H as ->. reflexivity. Qed.

Lemma sign_pos (a : f64) : 0 < B2R a -> Bsign a = false.
Proof.
  destruct a as [s|s| |s m e B]; cbn [B2R Bsign]; try lra. destruct s; [|reflexivity]. intros H. exfalso.
  apply (Rlt_not_le _ _ H). apply F2R_le_0. cbn. lia.
Qed.

Lemma fadd_cases a b : ge0 a -> ge0 b ->
  (is_finite a = true /\ is_finite b = true /\ is_finite (fadd a b) = true /\ B2R (fadd a b) = rnd (B2R a + B2R b)) \/
  (fadd a b = finf /\ (a = finf \/ b = finf \/ (is_finite a = true /\ is_finite b = true /\ big <= rnd (B2R a + B2R b)))).
Proof.
  intros Ha Hb. destruct (ge0_cases a Ha) as [[Fa Pa]| -> ].
  2:{ right. split; [|auto]. destruct (ge0_cases b Hb) as [[Fb Pb]| -> ]; [|reflexivity]. destruct b; try discriminate; reflexivity. }
  destruct (ge0_cases b Hb) as [[Fb Pb]| -> ].
  2:{ right. split; [|auto]. destruct a; try discriminate; reflexivity. }
  pose proof (Bplus_correct 53 1024 Hprec Hmax mode_NE a b Fa Fb) as H.
  fold (rnd (B2R a + B2R b)) in H. fold big in H. fold (fadd a b) in H.
  assert (P0 : 0 <= rnd (B2R a + B2R b)) by (apply rnd_nonneg; lra).
  rewrite Rabs_pos_eq in H by exact P0. destruct (Rlt_bool_spec (rnd (B2R a + B2R b)) big) as [Hlt|Hge].
  - left. destruct H as (H1 & H2 & _). auto.
  - right. destruct H as (H1 & H2). split; [|right; right; auto].
    apply overflow_pos. rewrite H1. f_equal. destruct (Rle_lt_or_eq_dec 0 (B2R a) Pa) as [Hp|Hz]; [apply sign_pos; exact Hp|].
    rewrite H2. apply sign_pos. rewrite <- Hz, Rplus_0_l, rnd_id in Hge. assert (0 < big) by apply bpow_gt_0. lra.
Qed.

Lemma fadd_ge0 a b : ge0 a -> ge0 b -> ge0 (fadd a b).
Proof.
  intros Ha Hb. destruct (fadd_cases a b Ha Hb) as [(Fa & Fb & Fs & E)|[-> _]]; [|apply ge0_finf].
  apply ge0_fin; [exact Fs|]. rewrite E. apply rnd_nonneg. destruct (ge0_cases a Ha) as [[_ P1]| -> ]; [|discriminate]. destruct (ge0_cases b Hb) as [[_ P2]| -> ]; [|discriminate]. lra.
Qed.

Lemma fle_fin_r a b : ge0 a -> fle a b = true -> is_finite b = true -> is_finite a = true.
Proof.
  intros Ha H Fb. destruct (ge0_cases a Ha) as [[Fa _]| -> ]; [exact Fa|]. exfalso.
  destruct b as [s|s| |s m e B]; try discriminate; destruct s; cbn in H; discriminate.
Qed.

Lemma fadd_mono a b a' b' : ge0 a -> ge0 b -> fle a a' = true -> fle b b' = true -> fle (fadd a b) (fadd a' b') = true.
Proof.
  intros Ha Hb H1 H2. pose proof (fle_trans _ _ _ Ha H1) as Ha'. pose proof (fle_trans _ _ _ Hb H2) as Hb'. fold (ge0 a') in Ha'. fold (ge0 b') in Hb'.
  destruct (fadd_cases a' b' Ha' Hb') as [(Fa' & Fb' & Fs' & E')|[-> _]]; [|apply fle_finf, ge0_notnan, fadd_ge0; assumption].
  pose proof (fle_fin_r _ _ Ha H1 Fa') as Fa. pose proof (fle_fin_r _ _ Hb H2 Fb') as Fb.
  apply fle_R in H1; [|assumption|assumption]. apply fle_R in H2; [|assumption|assumption].
  assert (Hle : rnd (B2R a + B2R b) <= rnd (B2R a' + B2R b')) by (apply rnd_le; lra).
  destruct (fadd_cases a b Ha Hb) as [(_ & _ & Fs & E)|[-> C]].
  - apply fle_R; [exact Fs|exact Fs'|]. rewrite E, E'. exact Hle.
  - exfalso. destruct C as [->|[->|(_ & _ & C)]]; try discriminate. rewrite <- E' in Hle. pose proof (abs_B2R_lt_emax 53 1024 (fadd a' b')) as HB.
    fold big in HB. apply Rabs_lt_inv in HB. lra.
Qed.

(** Sums of multiples of a power of two that stay small are exact. *)
Lemma grid_format m q : (0 <= m <= 2 ^ 53)%Z -> (-1074 <= q <= 900)%Z -> rnd (IZR m * bpow radix2 q) = IZR m * bpow radix2 q.
Proof.
  intros Hm Hq. apply round_generic; [typeclasses eauto|].
  assert (Hf : forall m0 : Z, (0 <= m0 < 2 ^ 53)%Z -> generic_format radix2 (SpecFloat.fexp 53 1024) (IZR m0 * bpow radix2 q)).
  { intros m0 H0. apply generic_format_FLT. exists (Float radix2 m0 q); cbn [Fnum Fexp]; [reflexivity| |].
    - apply (Z.le_lt_trans _ m0); [rewrite Z.abs_eq by apply H0; apply Z.le_refl|]. exact (proj2 H0).
    - exact (proj1 Hq). }
  destruct (Z.eq_dec m (2 ^ 53)) as [->|Hne]; [|apply Hf; split; [apply Hm|]; apply Z.le_neq; split; [apply Hm|exact Hne]].
  change (2 ^ 53)%Z with (radix2 ^ 53)%Z. rewrite (IZR_Zpower radix2 53) by discriminate. rewrite <- bpow_plus. apply generic_format_bpow. unfold SpecFloat.fexp, SpecFloat.emin. lia.
Qed.

Lemma grid_big m q : (0 <= m <= 2 ^ 53)%Z -> (-1074 <= q <= 900)%Z -> IZR m * bpow radix2 q < big.
Proof.
  intros Hm Hq. apply Rle_lt_trans with (bpow radix2 53 * bpow radix2 q).
  - apply Rmult_le_compat_r; [apply bpow_ge_0|]. rewrite <- (IZR_Zpower radix2 53) by discriminate. apply IZR_le. apply Hm.
  - rewrite <- bpow_plus. apply bpow_lt. lia.
Qed.

Lemma fadd_grid a b m1 m2 q : is_finite a = true -> is_finite b = true ->
  B2R a = IZR m1 * bpow radix2 q -> B2R b = IZR m2 * bpow radix2 q -> (0 <= m1)%Z -> (0 <= m2)%Z -> (m1 + m2 <= 2 ^ 53)%Z -> (-1074 <= q <= 900)%Z ->
  is_finite (fadd a b) = true /\ B2R (fadd a b) = IZR (m1 + m2) * bpow radix2 q.
Proof.
  intros Fa Fb Ea Eb H1 H2 H3 Hq.
  assert (P : forall m, (0 <= m)%Z -> 0 <= IZR m * bpow radix2 q) by (intros m Hm; apply Rmult_le_pos; [apply IZR_le; exact Hm|apply bpow_ge_0]).
  assert (Ga : ge0 a) by (apply ge0_fin; [exact Fa|rewrite Ea; apply P; exact H1]). assert (Gb : ge0 b) by (apply ge0_fin; [exact Fb|rewrite Eb; apply P; exact H2]).
  assert (Es : rnd (B2R a + B2R b) = IZR (m1 + m2) * bpow radix2 q).
  { rewrite Ea, Eb, <- Rmult_plus_distr_r, <- plus_IZR. apply grid_format; [lia|exact Hq]. }
  destruct (fadd_cases a b Ga Gb) as [(_ & _ & Fs & E)|[_ [->|[->|(_ & _ & C)]]]]; try discriminate.
  - split; [exact Fs|]. rewrite E. exact Es.
  - exfalso. rewrite Es in C. pose proof (grid_big (m1 + m2) q ltac:(lia) Hq). lra.
Qed.

(** The outlier score 1 - low/eps. *)
Lemma score_range low eps : ge0 low -> fle low eps = true -> is_finite eps = true -> 0 < B2R eps ->
  let s := fsub fone (fdiv low eps) in fle fzero s = true /\ fle s fone = true.
Proof.
  intros H0 H1 Fe Pe s. pose proof (fle_fin_r _ _ H0 H1 Fe) as Fl. destruct (ge0_cases low H0) as [[_ Pl]| -> ]; [|discriminate].
  apply fle_R in H1; [|assumption|assumption].
  assert (R1 : B2R fone = 1) by (cbn; unfold F2R; cbn; lra).
  assert (Hq : 0 <= rnd (B2R low / B2R eps) <= 1).
  { split; [apply rnd_nonneg; apply Rmult_le_pos; [exact Pl|left; apply Rinv_0_lt_compat; exact Pe]|].
    rewrite <- R1, <- (rnd_id fone), R1. apply rnd_le. apply (Rmult_le_reg_r (B2R eps)); [exact Pe|]. unfold Rdiv. rewrite Rmult_assoc, Rinv_l by lra. lra. }
  assert (B1 : 1 < big) by (change 1 with (bpow radix2 0); apply bpow_lt; lia).
  pose proof (Bdiv_correct 53 1024 Hprec Hmax mode_NE low eps ltac:(lra)) as HD. fold (rnd (B2R low / B2R eps)) in HD. fold big in HD. fold (fdiv low eps) in HD.
  rewrite Rlt_bool_true in HD by (rewrite Rabs_pos_eq; lra). destruct HD as (D1 & D2 & _). rewrite Fl in D2.
  assert (F1 : is_finite fone = true) by reflexivity.
  pose proof (Bminus_correct 53 1024 Hprec Hmax mode_NE fone (fdiv low eps) F1 D2) as HM.
  fold (rnd (B2R fone - B2R (fdiv low eps))) in HM. fold big in HM. fold (fsub fone (fdiv low eps)) in HM.
  assert (Hr : 0 <= rnd (B2R fone - B2R (fdiv low eps)) <= 1).
  { rewrite D1, R1. split; [apply rnd_nonneg; lra|]. rewrite <- R1 at 2. rewrite <- (rnd_id fone), R1. apply rnd_le. lra. }
  rewrite Rlt_bool_true in HM by (rewrite Rabs_pos_eq; lra). destruct HM as (M1 & M2 & _). fold s in M1, M2.
  rewrite R1 in Hr, M1. split; apply fle_R; try assumption; try reflexivity; rewrite M1; [exact (proj1 Hr)|rewrite R1; exact (proj2 Hr)].
Qed.

Lemma f_of_Z_small z : (0 <= z <= 2 ^ 53)%Z -> is_finite (f_of_Z z) = true /\ B2R (f_of_Z z) = IZR z.
Proof.
  intros Hz. pose proof (binary_normalize_correct 53 1024 Hprec Hmax mode_NE z 0 false) as H. cbn zeta in H.
  assert (Ef : F2R (Float radix2 z 0) = IZR z * bpow radix2 0) by reflexivity.
  rewrite Ef in H. fold (rnd (IZR z * bpow radix2 0)) in H. rewrite grid_format in H by (try exact Hz; lia).
  fold (f_of_Z z) in H. fold big in H.
  assert (H0 : 0 <= IZR z * bpow radix2 0) by (apply Rmult_le_pos; [apply IZR_le; apply Hz|apply bpow_ge_0]).
  rewrite Rlt_bool_true in H by (rewrite Rabs_pos_eq by exact H0; apply grid_big; [exact Hz|lia]).
  destruct H as (H1 & H2 & _). split; [exact H2|]. rewrite H1. cbn [bpow]. apply Rmult_1_r.
Qed.

Lemma minus_notnan a b : is_finite a = true -> notnan b -> notnan (fsub a b).
Proof.
  intros Fa Nb. destruct (is_finite b) eqn:Fb.
  - pose proof (Bminus_correct 53 1024 Hprec Hmax mode_NE a b Fa Fb) as H. fold (fsub a b) in H. destruct (Rlt_bool _ _).
    + apply fin_notnan. apply H.
    + destruct H as [H _]. destruct (fsub a b); try reflexivity. cbn in H. discriminate.
  - destruct b as [s|s| |s m e B]; try discriminate. destruct a as [s'|s'| |s' m' e' B']; try discriminate; reflexivity.
Qed.
Lemma div_notnan a b : is_finite a = true -> B2R b <> 0 -> notnan (fdiv a b).
Proof.
  intros Fa Nb. pose proof (Bdiv_correct 53 1024 Hprec Hmax mode_NE a b Nb) as H. fold (fdiv a b) in H. destruct (Rlt_bool _ _).
  - apply fin_notnan. destruct H as (_ & H & _). rewrite H. exact Fa.
  - destruct (fdiv a b); try reflexivity. cbn in H. discriminate.
Qed.
Lemma below_finite a : flt a D_MAX = true -> fle fzero a = true -> is_finite a = true.
Proof. intros H1 H2. destruct a as [s|s| |s m e B]; try reflexivity; try discriminate. destruct s; discriminate. Qed.
Lemma nonzero_R a : is_finite a = true -> fne a fzero = true -> B2R a <> 0.
Proof.
  intros Fa H E. unfold fne in H. rewrite Beqb_correct in H by (try exact Fa; reflexivity). rewrite E in H. cbn [B2R fzero] in H.
  rewrite Req_bool_true in H by reflexivity. discriminate.
Qed.

(** The score against the sentinel D_MAX is below -1 for all ordinary noise levels. *)
Definition two1000 : f64 := @B754_finite 53 1024 false 4503599627370496 948 eq_refl.
Definition minus_one : f64 := @B754_finite 53 1024 true 4503599627370496 (-52) eq_refl.
Lemma sentinel_score eps : flt fzero eps = true -> fle eps two1000 = true -> fle (fsub fone (fdiv D_MAX eps)) minus_one = true.
Proof.
  intros H1 H2.
  assert (Fe : is_finite eps = true).
  { destruct eps as [s|s| |s m e B]; try reflexivity; try discriminate. destruct s; discriminate. }
  apply flt_R in H1; [|reflexivity|exact Fe]. apply fle_R in H2; [|exact Fe|reflexivity]. change (B2R fzero) with 0 in H1.
  assert (E1000 : B2R two1000 = bpow radix2 1000).
  { unfold two1000, B2R, F2R. cbn [Fnum Fexp cond_Zopp]. change (IZR 4503599627370496) with (IZR (radix2 ^ 52)). rewrite (IZR_Zpower radix2 52) by discriminate. rewrite <- bpow_plus. reflexivity. }
  assert (EM : bpow radix2 1003 <= B2R D_MAX).
  { unfold D_MAX, B2R, F2R. cbn [Fnum Fexp cond_Zopp]. apply Rle_trans with (IZR (radix2 ^ 52) * bpow radix2 971).
    - rewrite (IZR_Zpower radix2 52) by discriminate. rewrite <- bpow_plus. apply bpow_le. lia.
    - apply Rmult_le_compat_r; [apply bpow_ge_0|]. apply IZR_le. cbn. lia. }
  assert (R2 : B2R (f_of_Z 2) = 2) by (apply f_of_Z_small; lia). assert (R1 : B2R fone = 1) by (cbn; unfold F2R; cbn; lra).
  assert (Hq : 2 <= rnd (B2R D_MAX / B2R eps)).
  { rewrite <- R2, <- (rnd_id (f_of_Z 2)), R2. apply rnd_le. apply (Rmult_le_reg_r (B2R eps)); [exact H1|]. unfold Rdiv. rewrite Rmult_assoc, Rinv_l by lra.
    rewrite Rmult_1_r. rewrite E1000 in H2. apply Rle_trans with (bpow radix2 1003); [|exact EM]. apply Rle_trans with (2 * bpow radix2 1000); [lra|].
    change 2 with (bpow radix2 1). rewrite <- bpow_plus. apply bpow_le. lia. }
  pose proof (Bdiv_correct 53 1024 Hprec Hmax mode_NE D_MAX eps ltac:(lra)) as HD. fold (rnd (B2R D_MAX / B2R eps)) in HD. fold (fdiv D_MAX eps) in HD.
  destruct (Rlt_bool _ _).
  - destruct HD as (D1 & D2 & _). pose proof D2 as FD. change (is_finite D_MAX) with true in FD.
    pose proof (Bminus_correct 53 1024 Hprec Hmax mode_NE fone (fdiv D_MAX eps) eq_refl FD) as HM. fold (fsub fone (fdiv D_MAX eps)) in HM. fold (rnd (B2R fone - B2R (fdiv D_MAX eps))) in HM.
    assert (Rm : B2R minus_one = -1) by (cbn; unfold F2R; cbn; lra).
    assert (Hr : rnd (B2R fone - B2R (fdiv D_MAX eps)) <= -1).
    { rewrite <- Rm, <- (rnd_id minus_one), Rm. apply rnd_le. rewrite R1, D1. lra. }
    destruct (Rlt_bool _ _).
    + destruct HM as (M1 & M2 & _). apply fle_R; [exact M2|reflexivity|]. rewrite M1, Rm. exact Hr.
    + destruct HM as (M1 & M2). cbn [Bsign fone] in M2.
      assert (P : 0 < B2R (fdiv D_MAX eps)) by (rewrite D1; lra). apply sign_pos in P. rewrite P in M2. discriminate.
  - assert (Hs : Bsign eps = false) by (apply sign_pos; exact H1). rewrite Hs in HD. cbn [Bsign D_MAX xorb] in HD. apply overflow_pos in HD. rewrite HD. reflexivity.
Qed.
