(** The sign of a cluster's stability in double arithmetic. *)
From Coq Require Import Reals Lra.
From Flocq Require Import Core.Core IEEE754.BinarySingleNaN.
From Verif Require Import Base F64 F64Facts F64Arith ModelCluster.
Local Open Scope R_scope.

(** A weight that is +0 or at least the smallest normal double (DBL_MIN). *)
Definition usual (w : f64) : Prop := w = fzero \/ fle D_MIN w = true.

Lemma R_one : B2R fone = 1.
Proof. cbn; unfold F2R; cbn; lra. Qed.
Lemma R_min : B2R D_MIN = bpow radix2 (-1022).
Proof.
  change (B2R D_MIN) with (IZR (2 ^ 52) * bpow radix2 (-1074)). change (2 ^ 52)%Z with (radix2 ^ 52)%Z.
  rewrite (IZR_Zpower radix2 52) by discriminate. rewrite <- bpow_plus. reflexivity.
Qed.

Lemma usual_cases w : usual w -> w = fzero \/ w = finf \/ (is_finite w = true /\ bpow radix2 (-1022) <= B2R w).
Proof.
  intros [->|H]; [auto|]. destruct (is_finite w) eqn:E.
  - right. right. split; [reflexivity|]. apply (fle_R D_MIN w) in H; [|reflexivity|exact E]. rewrite R_min in H. exact H.
  - right. left. destruct w as [s|s| |s m e B]; try discriminate. destruct s; [vm_compute in H; discriminate|reflexivity].
Qed.

Lemma recip_normal w : is_finite w = true -> bpow radix2 (-1022) <= B2R w ->
  is_finite (fdiv fone w) = true /\ B2R (fdiv fone w) = rnd (1 / B2R w).
Proof.
  intros F H. assert (P : 0 < B2R w) by (pose proof (bpow_gt_0 radix2 (-1022)); lra).
  pose proof (Bdiv_correct 53 1024 Hprec Hmax mode_NE fone w ltac:(lra)) as HD.
  fold (rnd (B2R fone / B2R w)) in HD. fold big in HD. fold (fdiv fone w) in HD. rewrite R_one in HD.
  assert (U : rnd (1 / B2R w) <= bpow radix2 1022).
  { assert (E : rnd (bpow radix2 1022) = bpow radix2 1022).
    { unfold rnd. apply round_generic; [typeclasses eauto|]. apply generic_format_bpow. unfold SpecFloat.fexp, SpecFloat.emin. lia. }
    rewrite <- E. apply rnd_le. apply (Rmult_le_reg_r (B2R w)); [exact P|]. unfold Rdiv. rewrite Rmult_assoc, Rinv_l by lra.
    apply Rle_trans with (bpow radix2 1022 * bpow radix2 (-1022)); [rewrite <- bpow_plus; cbn; lra|].
    apply Rmult_le_compat_l; [apply bpow_ge_0|exact H]. }
  assert (L : 0 <= rnd (1 / B2R w)).
  { apply rnd_nonneg. unfold Rdiv. rewrite Rmult_1_l. left. apply Rinv_0_lt_compat. exact P. }
  assert (B : bpow radix2 1022 < big) by (apply bpow_lt; lia).
  rewrite Rabs_pos_eq in HD by exact L. rewrite Rlt_bool_true in HD by lra. destruct HD as (H1 & H2 & _). auto.
Qed.

Lemma fsub_ge0 a b : is_finite a = true -> is_finite b = true -> 0 <= B2R b <= B2R a ->
  is_finite (fsub a b) = true /\ 0 <= B2R (fsub a b).
Proof.
  intros Fa Fb [P1 P2]. pose proof (Bminus_correct 53 1024 Hprec Hmax mode_NE a b Fa Fb) as H.
  fold (rnd (B2R a - B2R b)) in H. fold big in H. fold (fsub a b) in H.
  assert (L : 0 <= rnd (B2R a - B2R b)) by (apply rnd_nonneg; lra).
  assert (U : rnd (B2R a - B2R b) <= B2R a) by (rewrite <- (rnd_id a) at 2; apply rnd_le; lra).
  pose proof (abs_B2R_lt_emax 53 1024 a) as Hb. fold big in Hb. apply Rabs_lt_inv in Hb.
  rewrite Rabs_pos_eq in H by exact L. rewrite Rlt_bool_true in H by lra. destruct H as (H1 & H2 & _). rewrite H1. auto.
Qed.

Lemma fmul_ge0 a b : is_finite a = true -> 0 < B2R a -> ge0 b -> ge0 (fmul a b).
Proof.
  intros Fa Pa Hb. pose proof (sign_pos a Pa) as Sa. destruct (ge0_cases b Hb) as [[Fb Pb]| -> ].
  2:{ destruct a as [s|s| |s m e B]; try discriminate; cbn in Pa, Sa; [lra|]. subst s. reflexivity. }
  pose proof (Bmult_correct 53 1024 Hprec Hmax mode_NE a b) as H. fold (rnd (B2R a * B2R b)) in H. fold big in H. fold (fmul a b) in H.
  assert (L : 0 <= rnd (B2R a * B2R b)) by (apply rnd_nonneg; apply Rmult_le_pos; lra).
  rewrite Rabs_pos_eq in H by exact L. destruct (Rlt_bool_spec (rnd (B2R a * B2R b)) big) as [Hlt|Hge].
  - destruct H as (H1 & H2 & _). apply ge0_fin; [rewrite H2, Fa, Fb; reflexivity|rewrite H1; exact L].
  - destruct (Rle_lt_or_eq_dec 0 (B2R b) Pb) as [Hp|Hz].
    + rewrite Sa, (sign_pos b Hp) in H. cbn [xorb] in H. rewrite (overflow_pos _ H). apply ge0_finf.
    + exfalso. rewrite <- Hz, Rmult_0_r, rnd_0 in Hge. assert (0 < big) by apply bpow_gt_0. lra.
Qed.

Lemma gain_ge0 k w b : usual w -> usual b -> flt w b = true -> (1 <= k)%nat -> (Z.of_nat k <= 2 ^ 53)%Z -> ge0 (stability_gain k w b).
Proof.
  intros Hw Hb Hlt Hk Hk'. unfold stability_gain.
  destruct (f_of_Z_small (Z.of_nat k) ltac:(split; [apply Nat2Z.is_nonneg|exact Hk'])) as [Fk Rk].
  apply fmul_ge0; [exact Fk|rewrite Rk; apply IZR_lt; lia|].
  assert (Db : is_finite (fdiv fone b) = true /\ 0 <= B2R (fdiv fone b)
     /\ (is_finite b = true -> b <> fzero -> 0 < B2R b /\ B2R (fdiv fone b) = rnd (1 / B2R b)) /\ (b = finf -> B2R (fdiv fone b) = 0)).
  { destruct (usual_cases b Hb) as [->|[->|[Fb Pb]]].
    - exfalso. destruct (usual_cases w Hw) as [->|[->|[Fw Pw]]]; [vm_compute in Hlt; discriminate|vm_compute in Hlt; discriminate|].
      apply flt_R in Hlt; [|exact Fw|reflexivity]. change (B2R fzero) with 0 in Hlt. pose proof (bpow_gt_0 radix2 (-1022)). lra.
    - split; [reflexivity|]. split; [cbn; lra|]. split; [discriminate|reflexivity].
    - destruct (recip_normal b Fb Pb) as [F1 E1]. assert (P : 0 < B2R b) by (pose proof (bpow_gt_0 radix2 (-1022)); lra).
      split; [exact F1|]. split; [|split; [auto|]].
      + rewrite E1. apply rnd_nonneg. unfold Rdiv. rewrite Rmult_1_l. left. apply Rinv_0_lt_compat. exact P.
      + intros ->. discriminate. }
  destruct Db as (F1 & P1 & N1 & I1).
  destruct (usual_cases w Hw) as [->|[->|[Fw Pw]]].
  - change (fdiv fone fzero) with finf. destruct (fdiv fone b) as [s|s| |s m e B]; try discriminate; destruct s; reflexivity.
  - exfalso. destruct b as [s|s| |s m e B]; try discriminate; destruct s; vm_compute in Hlt; discriminate.
  - destruct (recip_normal w Fw Pw) as [F2 E2]. assert (Pw' : 0 < B2R w) by (pose proof (bpow_gt_0 radix2 (-1022)); lra).
    assert (P2 : 0 <= B2R (fdiv fone w)).
    { rewrite E2. apply rnd_nonneg. unfold Rdiv. rewrite Rmult_1_l. left. apply Rinv_0_lt_compat. exact Pw'. }
    assert (Hle : B2R (fdiv fone b) <= B2R (fdiv fone w)).
    { destruct (usual_cases b Hb) as [->|[->|[Fb Pb]]].
      - exfalso. apply flt_R in Hlt; [|exact Fw|reflexivity]. change (B2R fzero) with 0 in Hlt. lra.
      - rewrite (I1 eq_refl). exact P2.
      - assert (Nb : b <> fzero) by (intros ->; change (B2R fzero) with 0 in Pb; pose proof (bpow_gt_0 radix2 (-1022)); lra).
        destruct (N1 Fb Nb) as [P3 E1]. rewrite E1, E2. apply rnd_le. apply flt_R in Hlt; [|exact Fw|exact Fb].
        unfold Rdiv. rewrite !Rmult_1_l. left. apply Rinv_lt_contravar; [apply Rmult_lt_0_compat; assumption|exact Hlt]. }
    destruct (fsub_ge0 (fdiv fone w) (fdiv fone b) F2 F1 ltac:(lra)) as [F3 P3]. apply ge0_fin; assumption.
Qed.

(** Not-a-number is absorbing. *)
Lemma fadd_nan a b : fisnan b = true -> fisnan (fadd a b) = true.
Proof. destruct b as [s|s| |s m e B]; try discriminate. intros _. destruct a as [s|s| |s m e B]; reflexivity. Qed.
Lemma fadd_nan_l a b : fisnan a = true -> fisnan (fadd a b) = true.
Proof. destruct a as [s|s| |s m e B]; try discriminate. intros _. destruct b as [s|s| |s m e B]; reflexivity. Qed.
Lemma fmul_nan a b : fisnan b = true -> fisnan (fmul a b) = true.
Proof. destruct b as [s|s| |s m e B]; try discriminate. intros _. destruct a as [s|s| |s m e B]; reflexivity. Qed.

(** ** Euclidean distances are +0, NaN or at least DBL_MIN *)
(** Not a number or without a minus sign. *)
Definition unsigned (x : f64) : Prop := fisnan x = true \/ Bsign x = false.

Lemma fadd_unsigned a b : unsigned a -> unsigned b -> unsigned (fadd a b).
Proof.
  intros [Ha|Ha]; [left; apply fadd_nan_l; exact Ha|]. intros [Hb|Hb]; [left; apply fadd_nan; exact Hb|].
  destruct (is_finite a) eqn:Fa, (is_finite b) eqn:Fb.
  - pose proof (Bplus_correct 53 1024 Hprec Hmax mode_NE a b Fa Fb) as H. fold (fadd a b) in H.
    destruct (Rlt_bool _ _) eqn:El.
    + destruct H as (_ & _ & H). right. rewrite H, Ha, Hb.
      assert (P : 0 <= B2R a + B2R b).
      { assert (Q : forall x : f64, Bsign x = false -> 0 <= B2R x).
        { intros x Hx. destruct x as [s|s| |s m e B]; cbn [B2R Bsign] in *; try lra. subst s. apply F2R_ge_0. cbn. lia. }
        pose proof (Q a Ha). pose proof (Q b Hb). lra. }
      destruct (Rcompare_spec (B2R a + B2R b) 0); [lra|reflexivity|reflexivity].
    + destruct H as (H & _). rewrite Ha in H. right. rewrite (overflow_pos _ H). reflexivity.
  - destruct b as [s|s| |s m e B]; try discriminate; [|left; destruct a as [s'|s'| |s' m e B]; reflexivity].
    cbn in Hb. subst s. destruct a as [s|s| |s m e B]; try discriminate; right; reflexivity.
  - destruct a as [s|s| |s m e B]; try discriminate; [|left; destruct b as [s'|s'| |s' m e B]; reflexivity].
    cbn in Ha. subst s. destruct b as [s|s| |s m e B]; try discriminate; right; reflexivity.
  - destruct a as [s|s| |s m e B]; try discriminate; destruct b as [s'|s'| |s' m' e' B']; try discriminate; try (left; reflexivity).
    cbn in Ha, Hb. subst s s'. right. reflexivity.
Qed.

Lemma fsquare_unsigned a : unsigned (fmul a a).
Proof.
  destruct a as [s|s| |s m e B]; try (left; reflexivity); try (right; destruct s; reflexivity).
  set (a := B754_finite s m e B). pose proof (Bmult_correct 53 1024 Hprec Hmax mode_NE a a) as H. fold (fmul a a) in H.
  destruct (Rlt_bool _ _).
  - destruct H as (_ & _ & H). destruct (fisnan (fmul a a)) eqn:En; [left; exact En|]. right. rewrite (H En). destruct (Bsign a); reflexivity.
  - right. replace (xorb (Bsign a) (Bsign a)) with false in H by (destruct (Bsign a); reflexivity). rewrite (overflow_pos _ H). reflexivity.
Qed.

Lemma fsqrt_usual x : unsigned x -> fisnan (fsqrt x) = true \/ usual (fsqrt x).
Proof.
  intros [Hx|Hx].
  { left. destruct x; try discriminate. reflexivity. }
  destruct x as [s|s| |s m e B]; cbn [Bsign] in Hx; try subst s.
  - right. left. reflexivity.
  - right. right. reflexivity.
  - left. reflexivity.
  - right. right. set (x := B754_finite false m e B). destruct (Bsqrt_correct 53 1024 Hprec Hmax mode_NE x) as (H1 & H2 & _).
    fold (fsqrt x) in H1, H2. fold (rnd (sqrt (B2R x))) in H1. cbn in H2. apply fle_R; [reflexivity|exact H2|]. rewrite H1, <- (rnd_id D_MIN). apply rnd_le.
    rewrite R_min. rewrite <- (sqrt_Rsqr (bpow radix2 (-1022))) by apply bpow_ge_0. apply sqrt_le_1_alt. unfold Rsqr. rewrite <- bpow_plus.
    apply Rle_trans with (bpow radix2 (-1074)); [apply bpow_le; lia|].
    change (B2R x) with (IZR (Zpos m) * bpow radix2 e).
    assert (He : (-1074 <= e)%Z).
    { pose proof B as B'. unfold SpecFloat.bounded in B'. apply andb_prop in B'. destruct B' as [B' _]. unfold SpecFloat.canonical_mantissa in B'.
      apply Zeq_bool_eq in B'. unfold SpecFloat.fexp, SpecFloat.emin in B'. lia. }
    apply Rle_trans with (1 * bpow radix2 e); [rewrite Rmult_1_l; apply bpow_le; exact He|].
    apply Rmult_le_compat_r; [apply bpow_ge_0|]. apply IZR_le. lia.
Qed.
