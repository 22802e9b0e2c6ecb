(** Double arithmetic commutes with multiplication by a power of two while no exponent leaves
    its range (used for C75). *)
From Coq Require Import Reals Lra Floats.SpecFloat.
From Flocq Require Import Core.Core IEEE754.BinarySingleNaN.
From Verif Require Import Base F64 F64Facts F64Arith ModelCluster.
Local Open Scope R_scope.
#[local] Instance fexp_valid : Valid_exp (SpecFloat.fexp 53 1024) := fexp_correct 53 1024 Hprec.
Notation p2 := (bpow radix2).

(** Multiples of 2^F. *)
Definition grid (F : Z) (r : R) : Prop := exists z, r = IZR z * p2 F.
Lemma grid_0 F : grid F 0. Proof. exists 0%Z. ring. Qed.
Lemma grid_plus F a b : grid F a -> grid F b -> grid F (a + b).
Proof. intros [x ->] [y ->]. exists (x + y)%Z. rewrite plus_IZR. ring. Qed.
Lemma grid_minus F a b : grid F a -> grid F b -> grid F (a - b).
Proof. intros [x ->] [y ->]. exists (x - y)%Z. rewrite minus_IZR. ring. Qed.
Lemma grid_mult F G a b : grid F a -> grid G b -> grid (F + G) (a * b).
Proof. intros [x ->] [y ->]. exists (x * y)%Z. rewrite mult_IZR, bpow_plus. ring. Qed.
Lemma grid_coarse F E a : grid E a -> (F <= E)%Z -> grid F a.
Proof.
  intros [x ->] H. exists (x * 2 ^ (E - F))%Z. rewrite mult_IZR. change 2%Z with (radix_val radix2). rewrite IZR_Zpower by lia. rewrite Rmult_assoc, <- bpow_plus. f_equal. f_equal. lia.
Qed.
Lemma grid_low F r : grid F r -> r <> 0 -> p2 F <= Rabs r.
Proof.
  intros [z ->] H. assert (z <> 0%Z) by (intros ->; apply H; ring). rewrite Rabs_mult, (Rabs_pos_eq (p2 F)) by apply bpow_ge_0. rewrite <- abs_IZR.
  rewrite <- (Rmult_1_l (p2 F)) at 1. apply Rmult_le_compat_r; [apply bpow_ge_0|]. apply IZR_le. lia.
Qed.

Lemma fexp_eq e : SpecFloat.fexp 53 1024 e = Z.max (e - 53) (-1074).
Proof. reflexivity. Qed.
Lemma cexp_scale r k : (r = 0 \/ p2 (-1022) <= Rabs r /\ p2 (-1022) <= Rabs (r * p2 k)) -> r <> 0 ->
  cexp radix2 (SpecFloat.fexp 53 1024) (r * p2 k) = (cexp radix2 (SpecFloat.fexp 53 1024) r + k)%Z.
Proof.
  intros [->|[H1 H2]] Hr; [contradiction|]. unfold cexp. rewrite mag_mult_bpow by exact Hr. rewrite !fexp_eq.
  assert (A : (-1022 < Raux.mag radix2 r)%Z) by (apply mag_gt_bpow; exact H1).
  assert (B : (-1022 < Raux.mag radix2 r + k)%Z) by (rewrite <- mag_mult_bpow by exact Hr; apply mag_gt_bpow; exact H2). lia.
Qed.
Lemma rnd_scale r k : (r = 0 \/ p2 (-1022) <= Rabs r /\ p2 (-1022) <= Rabs (r * p2 k)) -> rnd (r * p2 k) = rnd r * p2 k.
Proof.
  intros H. destruct (Req_dec r 0) as [->|Hr]; [rewrite Rmult_0_l, rnd_0; ring|]. unfold rnd, round, scaled_mantissa. rewrite (cexp_scale r k H Hr). unfold F2R. cbn [Fnum Fexp].
  rewrite bpow_plus. rewrite <- Rmult_assoc. f_equal. f_equal. f_equal. f_equal. rewrite Rmult_assoc, <- bpow_plus. f_equal. f_equal. lia.
Qed.
Lemma rnd_scale_grid F r k : grid F r -> (-1022 <= F)%Z -> (-1022 <= F + k)%Z -> rnd (r * p2 k) = rnd r * p2 k.
Proof.
  intros HG H1 H2. apply rnd_scale. destruct (Req_dec r 0) as [->|Hr]; [left; reflexivity|right]. pose proof (grid_low F r HG Hr) as HL. split.
  - apply Rle_trans with (2 := HL). apply bpow_le. exact H1.
  - rewrite Rabs_mult, (Rabs_pos_eq (p2 k)) by apply bpow_ge_0. apply Rle_trans with (p2 F * p2 k); [|apply Rmult_le_compat_r; [apply bpow_ge_0|exact HL]]. rewrite <- bpow_plus. apply bpow_le. exact H2.
Qed.
Lemma format_p2 B : (-1074 <= B)%Z -> generic_format radix2 (SpecFloat.fexp 53 1024) (p2 B).
Proof. intros H. apply generic_format_bpow. rewrite fexp_eq. lia. Qed.
Lemma rnd_bound r B : (-1074 <= B)%Z -> Rabs r <= p2 B -> Rabs (rnd r) <= p2 B.
Proof. intros H1 H2. unfold rnd. apply abs_round_le_generic; [typeclasses eauto|typeclasses eauto|apply format_p2; exact H1|exact H2]. Qed.
Lemma rnd_grid F r : grid F r -> (-1074 <= F)%Z -> grid F (rnd r).
Proof.
  intros HG HF. set (e := cexp radix2 (SpecFloat.fexp 53 1024) r). destruct (Z_le_gt_dec e F) as [He|He].
  - unfold rnd. rewrite round_generic; [exact HG|typeclasses eauto|]. destruct HG as [z ->]. replace (IZR z * p2 F) with (F2R (Float radix2 z F)) by reflexivity. apply generic_format_F2R. intros _. exact He.
  - apply (grid_coarse F e); [|lia]. unfold rnd, round, F2R. cbn [Fnum Fexp]. fold e. eexists. reflexivity.
Qed.
Lemma format_grid y E : generic_format radix2 (SpecFloat.fexp 53 1024) y -> p2 E <= Rabs y -> grid (E - 52) y.
Proof.
  intros HF HE. assert (A : (E < Raux.mag radix2 y)%Z) by (apply mag_gt_bpow; exact HE). rewrite HF. apply (grid_coarse _ (cexp radix2 (SpecFloat.fexp 53 1024) y)).
  - unfold F2R. cbn [Fnum Fexp]. eexists. reflexivity.
  - unfold cexp. rewrite fexp_eq. lia.
Qed.
Lemma rnd_format r : generic_format radix2 (SpecFloat.fexp 53 1024) (rnd r).
Proof. apply generic_format_round; typeclasses eauto. Qed.
(** An accumulator never passes 2^55 times the bound of its summands. *)
Lemma rnd_absorb (a : f64) g B : (-1074 <= B)%Z -> Rabs (B2R a) <= p2 (B + 55) -> Rabs g <= p2 B -> Rabs (rnd (B2R a + g)) <= p2 (B + 55).
Proof.
  intros HB Ha Hg. destruct (Rle_or_lt (Rabs (rnd (B2R a + g))) (p2 (B + 55))) as [H|H]; [exact H|exfalso].
  pose proof (rnd_format (B2R a + g)) as HF. set (y := rnd (B2R a + g)) in *.
  assert (HN : Rabs (y - (B2R a + g)) <= Rabs g).
  { pose proof (round_N_pt radix2 (SpecFloat.fexp 53 1024) (fun x => negb (Z.even x)) (B2R a + g)) as [_ N]. specialize (N (B2R a) (generic_format_B2R _ _ a)).
    fold (round_mode mode_NE) in N. replace (Rabs g) with (Rabs (B2R a - (B2R a + g))); [exact N|]. rewrite <- Rabs_Ropp. f_equal. ring. }
  assert (HU : Rabs y <= p2 (B + 55) + 2 * p2 B).
  { replace y with (B2R a + (g + (y - (B2R a + g)))) by ring. eapply Rle_trans; [apply Rabs_triang|]. pose proof (Rabs_triang g (y - (B2R a + g))). lra. }
  assert (HG : grid (B + 3) (Rabs y - p2 (B + 55))).
  { replace (B + 3)%Z with (B + 55 - 52)%Z by lia. apply grid_minus; [|exists (2 ^ 52)%Z; change 2%Z with (radix_val radix2); rewrite IZR_Zpower by lia; rewrite <- bpow_plus; f_equal; lia].
    apply format_grid; [apply generic_format_abs; exact HF|]. rewrite Rabs_Rabsolu. lra. }
  assert (HL : p2 (B + 3) <= Rabs (Rabs y - p2 (B + 55))) by (apply grid_low; [exact HG|lra]). rewrite Rabs_pos_eq in HL by lra.
  assert (p2 (B + 3) = 8 * p2 B) by (rewrite Zplus_comm, bpow_plus; reflexivity). pose proof (bpow_gt_0 radix2 B). lra.
Qed.

(** [x'] is [x] times 2^k. *)
Definition times2 (k : Z) (x x' : f64) : Prop := is_finite x = true /\ is_finite x' = true /\ B2R x' = B2R x * p2 k /\ Bsign x' = Bsign x.
(** Finite, a multiple of 2^F, at most M. *)
Definition rng (F : Z) (M : R) (x : f64) : Prop := is_finite x = true /\ grid F (B2R x) /\ Rabs (B2R x) <= M.
Definition small (k : Z) : Prop := (-300 <= k <= 300)%Z.

Lemma under_big r k M : Rabs r <= M -> M <= p2 700 -> small k -> Rabs (r * p2 k) < big.
Proof.
  intros H1 H2 Hk. rewrite Rabs_mult, (Rabs_pos_eq (p2 k)) by apply bpow_ge_0. apply Rle_lt_trans with (p2 700 * p2 k); [apply Rmult_le_compat_r; [apply bpow_ge_0|lra]|].
  rewrite <- bpow_plus. apply bpow_lt. unfold small in Hk. lia.
Qed.
Lemma under_big0 r M : Rabs r <= M -> M <= p2 700 -> Rabs r < big.
Proof. intros H1 H2. apply Rle_lt_trans with (p2 700); [lra|]. apply bpow_lt. lia. Qed.
Lemma cmp_scale r k : Rcompare (r * p2 k) 0 = Rcompare r 0.
Proof. rewrite <- (Rmult_0_l (p2 k)) at 1. apply Rcompare_mult_r. apply bpow_gt_0. Qed.

Lemma add_times2 F M Ma Mb k a a' b b' : rng F Ma a -> rng F Mb b -> times2 k a a' -> times2 k b b' -> (-700 <= F)%Z -> small k -> M <= p2 700 -> Rabs (rnd (B2R a + B2R b)) <= M ->
  rng F M (fadd a b) /\ times2 k (fadd a b) (fadd a' b').
Proof.
  intros (Fa & Ga & _) (Fb & Gb & _) (_ & Fa' & Ea & Sa) (_ & Fb' & Eb & Sb) HF Hk HM HB. pose proof (grid_plus F _ _ Ga Gb) as HG. unfold small in Hk.
  pose proof (rnd_scale_grid F _ k HG ltac:(lia) ltac:(lia)) as HS.
  pose proof (Bplus_correct 53 1024 Hprec Hmax mode_NE a b Fa Fb) as H. pose proof (Bplus_correct 53 1024 Hprec Hmax mode_NE a' b' Fa' Fb') as H'.
  fold (fadd a b) in H. fold (fadd a' b') in H'. rewrite Ea, Eb, <- Rmult_plus_distr_r in H'. fold (rnd (B2R a + B2R b)) in H. fold (rnd ((B2R a + B2R b) * p2 k)) in H'. rewrite HS in H'.
  rewrite Rlt_bool_true in H by (apply (under_big0 _ M); assumption). rewrite Rlt_bool_true in H' by (apply (under_big _ _ M); assumption).
  destruct H as (H1 & H2 & H3), H' as (H1' & H2' & H3'). split; [split; [exact H2|split; [rewrite H1; apply rnd_grid; [exact HG|lia]|rewrite H1; exact HB]]|].
  split; [exact H2|]. split; [exact H2'|]. split; [rewrite H1', H1; reflexivity|]. rewrite H3, H3', cmp_scale, Sa, Sb. reflexivity.
Qed.
Lemma sub_times2 F B k a a' b b' : rng F (p2 B) a -> rng F (p2 B) b -> times2 k a a' -> times2 k b b' -> (-700 <= F)%Z -> (-700 <= B <= 699)%Z -> small k ->
  rng F (p2 (B + 1)) (fsub a b) /\ times2 k (fsub a b) (fsub a' b').
Proof.
  intros (Fa & Ga & Ba) (Fb & Gb & Bb) (_ & Fa' & Ea & Sa) (_ & Fb' & Eb & Sb) HF HB Hk. pose proof (grid_minus F _ _ Ga Gb) as HG. unfold small in Hk.
  pose proof (rnd_scale_grid F _ k HG ltac:(lia) ltac:(lia)) as HS.
  assert (HR : Rabs (rnd (B2R a - B2R b)) <= p2 (B + 1)).
  { apply rnd_bound; [lia|]. replace (p2 (B + 1)) with (p2 B + p2 B) by (rewrite bpow_plus; cbn; lra). unfold Rminus. eapply Rle_trans; [apply Rabs_triang|]. rewrite Rabs_Ropp. lra. }
  assert (HM : p2 (B + 1) <= p2 700) by (apply bpow_le; lia).
  pose proof (Bminus_correct 53 1024 Hprec Hmax mode_NE a b Fa Fb) as H. pose proof (Bminus_correct 53 1024 Hprec Hmax mode_NE a' b' Fa' Fb') as H'.
  fold (fsub a b) in H. fold (fsub a' b') in H'. rewrite Ea, Eb, <- Rmult_minus_distr_r in H'. fold (rnd (B2R a - B2R b)) in H. fold (rnd ((B2R a - B2R b) * p2 k)) in H'. rewrite HS in H'.
  rewrite Rlt_bool_true in H by (apply (under_big0 _ _ HR HM)). rewrite Rlt_bool_true in H' by (apply (under_big _ _ _ HR HM); exact Hk).
  destruct H as (H1 & H2 & H3), H' as (H1' & H2' & H3'). split; [split; [exact H2|split; [rewrite H1; apply rnd_grid; [exact HG|lia]|rewrite H1; exact HR]]|].
  split; [exact H2|]. split; [exact H2'|]. split; [rewrite H1', H1; reflexivity|]. rewrite H3, H3', cmp_scale, Sa, Sb. reflexivity.
Qed.
Lemma finite_nan (x : f64) : is_finite x = true -> is_nan x = false.
Proof. destruct x; auto; discriminate. Qed.
Lemma mul_times2 F1 F2 B1 B2 k1 k2 a a' b b' : rng F1 (p2 B1) a -> rng F2 (p2 B2) b -> times2 k1 a a' -> times2 k2 b b' ->
  (-700 <= F1 + F2)%Z -> (-700 <= B1 + B2 <= 700)%Z -> small (k1 + k2) -> rng (F1 + F2) (p2 (B1 + B2)) (fmul a b) /\ times2 (k1 + k2) (fmul a b) (fmul a' b').
Proof.
  intros (Fa & Ga & Ba) (Fb & Gb & Bb) (_ & Fa' & Ea & Sa) (_ & Fb' & Eb & Sb) HF HB Hk. pose proof (grid_mult F1 F2 _ _ Ga Gb) as HG. unfold small in Hk.
  pose proof (rnd_scale_grid (F1 + F2) _ (k1 + k2) HG ltac:(lia) ltac:(lia)) as HS.
  assert (HR : Rabs (rnd (B2R a * B2R b)) <= p2 (B1 + B2)).
  { apply rnd_bound; [lia|]. rewrite Rabs_mult, bpow_plus. apply Rmult_le_compat; auto using Rabs_pos. }
  assert (HM : p2 (B1 + B2) <= p2 700) by (apply bpow_le; lia).
  pose proof (Bmult_correct 53 1024 Hprec Hmax mode_NE a b) as H. pose proof (Bmult_correct 53 1024 Hprec Hmax mode_NE a' b') as H'.
  fold (fmul a b) in H. fold (fmul a' b') in H'. rewrite Ea, Eb in H'. replace (B2R a * p2 k1 * (B2R b * p2 k2)) with (B2R a * B2R b * p2 (k1 + k2)) in H' by (rewrite bpow_plus; ring).
  fold (rnd (B2R a * B2R b)) in H. fold (rnd (B2R a * B2R b * p2 (k1 + k2))) in H'. rewrite HS in H'.
  rewrite Rlt_bool_true in H by (apply (under_big0 _ _ HR HM)). rewrite Rlt_bool_true in H' by (apply (under_big _ _ _ HR HM); exact Hk).
  rewrite Fa, Fb in H. rewrite Fa', Fb' in H'. cbn [andb] in *. destruct H as (H1 & H2 & H3), H' as (H1' & H2' & H3').
  split; [split; [exact H2|split; [rewrite H1; apply rnd_grid; [exact HG|lia]|rewrite H1; exact HR]]|].
  split; [exact H2|]. split; [exact H2'|]. split; [rewrite H1', H1; reflexivity|]. rewrite H3 by (apply finite_nan; exact H2). rewrite H3' by (apply finite_nan; exact H2'). rewrite Sa, Sb. reflexivity.
Qed.

(** Levels: +0, or between 2^G and 2^C. *)
Definition lvl (G C : Z) (x : f64) : Prop := is_finite x = true /\ Bsign x = false /\ (B2R x = 0 \/ p2 G <= B2R x) /\ B2R x <= p2 C.
Lemma sqrt_times2 G C k a a' : rng (2 * G) (p2 (2 * C)) a -> 0 <= B2R a -> Bsign a = false -> times2 (2 * k) a a' -> (-350 <= G)%Z -> (-350 <= C <= 350)%Z -> (-150 <= k <= 150)%Z ->
  lvl G C (fsqrt a) /\ times2 k (fsqrt a) (fsqrt a').
Proof.
  intros (Fa & Ga & Ba) Pa Sa (_ & Fa' & Ea & Sa') HG HC Hk.
  destruct (Bsqrt_correct 53 1024 Hprec Hmax mode_NE a) as (H1 & H2 & H3). destruct (Bsqrt_correct 53 1024 Hprec Hmax mode_NE a') as (H1' & H2' & H3').
  fold (fsqrt a) in *. fold (fsqrt a') in *. fold (rnd (sqrt (B2R a))) in H1. fold (rnd (sqrt (B2R a'))) in H1'.
  assert (F1 : is_finite (fsqrt a) = true) by (rewrite H2; destruct a as [s|s| |s m e b]; try discriminate; [reflexivity|cbn in Sa; rewrite Sa; reflexivity]).
  assert (F1' : is_finite (fsqrt a') = true) by (rewrite H2'; destruct a' as [s|s| |s m e b]; try discriminate; [reflexivity|cbn in Sa'; rewrite Sa', Sa; reflexivity]).
  assert (Hsq : sqrt (B2R a') = sqrt (B2R a) * p2 k).
  { rewrite Ea. rewrite sqrt_mult by (auto using bpow_ge_0). f_equal. replace (2 * k)%Z with (k + k)%Z by lia. rewrite bpow_plus. apply sqrt_square. apply bpow_ge_0. }
  assert (HL : B2R a = 0 \/ p2 G <= sqrt (B2R a)).
  { destruct (Req_dec (B2R a) 0) as [Hz|Hz]; [left; exact Hz|right]. pose proof (grid_low _ _ Ga Hz) as HL. rewrite Rabs_pos_eq in HL by exact Pa.
    replace (p2 G) with (sqrt (p2 (2 * G))); [apply sqrt_le_1; auto using bpow_ge_0|]. replace (2 * G)%Z with (G + G)%Z by lia. rewrite bpow_plus. apply sqrt_square. apply bpow_ge_0. }
  assert (HU : sqrt (B2R a) <= p2 C).
  { rewrite Rabs_pos_eq in Ba by exact Pa. replace (p2 C) with (sqrt (p2 (2 * C))); [apply sqrt_le_1; auto using bpow_ge_0|]. replace (2 * C)%Z with (C + C)%Z by lia. rewrite bpow_plus. apply sqrt_square. apply bpow_ge_0. }
  assert (HS : rnd (sqrt (B2R a) * p2 k) = rnd (sqrt (B2R a)) * p2 k).
  { apply rnd_scale. destruct HL as [Hz|HL]; [left; rewrite Hz; apply sqrt_0|right]. rewrite Rabs_mult, (Rabs_pos_eq (p2 k)) by apply bpow_ge_0. rewrite (Rabs_pos_eq (sqrt (B2R a))) by apply sqrt_pos. split.
    - apply Rle_trans with (2 := HL). apply bpow_le. lia.
    - apply Rle_trans with (p2 G * p2 k); [rewrite <- bpow_plus; apply bpow_le; lia|]. apply Rmult_le_compat_r; [apply bpow_ge_0|exact HL]. }
  split.
  - split; [exact F1|]. split; [rewrite H3 by (apply finite_nan; exact F1); exact Sa|]. rewrite H1. split.
    + destruct HL as [Hz|HL]; [left; rewrite Hz, sqrt_0; apply rnd_0|right]. rewrite <- (round_generic radix2 (SpecFloat.fexp 53 1024) (round_mode mode_NE) (p2 G)) by (apply format_p2; lia). apply rnd_le. exact HL.
    + rewrite <- (round_generic radix2 (SpecFloat.fexp 53 1024) (round_mode mode_NE) (p2 C)) by (apply format_p2; lia). apply rnd_le. exact HU.
  - split; [exact F1|]. split; [exact F1'|]. split; [rewrite H1', Hsq, HS, H1; reflexivity|]. rewrite H3 by (apply finite_nan; exact F1). rewrite H3' by (apply finite_nan; exact F1'). exact Sa'.
Qed.
Lemma inv_times2 G C k x x' : lvl G C x -> B2R x <> 0 -> times2 k x x' -> (-350 <= G <= 350)%Z -> (-350 <= C <= 350)%Z -> small k ->
  rng (- C - 52) (p2 (- G)) (fdiv fone x) /\ times2 (- k) (fdiv fone x) (fdiv fone x').
Proof.
  intros (Fx & Sx & HLo & HUp) Hz (_ & Fx' & Ex & Sx') HG HC Hk. destruct HLo as [HLo|HLo]; [contradiction|]. unfold small in Hk.
  assert (Px : 0 < B2R x) by (apply Rlt_le_trans with (2 := HLo); apply bpow_gt_0).
  assert (Hz' : B2R x' <> 0) by (rewrite Ex; pose proof (bpow_gt_0 radix2 k); intros E; apply Rmult_integral in E; lra).
  assert (H1 : B2R fone = 1) by (cbn; unfold F2R; cbn; lra).
  assert (Hinv : B2R fone / B2R x' = (1 / B2R x) * p2 (- k)) by (rewrite H1, Ex, bpow_opp; field; split; [pose proof (bpow_gt_0 radix2 k); lra|exact Hz]).
  assert (HA : p2 (- C) <= 1 / B2R x) by (rewrite bpow_opp; unfold Rdiv; rewrite Rmult_1_l; apply Rinv_le; assumption).
  assert (HB : 1 / B2R x <= p2 (- G)) by (rewrite bpow_opp; unfold Rdiv; rewrite Rmult_1_l; apply Rinv_le; [apply bpow_gt_0|assumption]).
  assert (P1 : 0 <= 1 / B2R x) by (pose proof (bpow_ge_0 radix2 (- C)); lra).
  assert (HS : rnd (1 / B2R x * p2 (- k)) = rnd (1 / B2R x) * p2 (- k)).
  { apply rnd_scale. right. rewrite Rabs_mult, (Rabs_pos_eq (p2 (- k))) by apply bpow_ge_0. rewrite (Rabs_pos_eq (1 / B2R x)) by exact P1. split.
    - apply Rle_trans with (2 := HA). apply bpow_le. lia.
    - apply Rle_trans with (p2 (- C) * p2 (- k)); [rewrite <- bpow_plus; apply bpow_le; lia|]. apply Rmult_le_compat_r; [apply bpow_ge_0|exact HA]. }
  assert (HR : Rabs (rnd (1 / B2R x)) <= p2 (- G)) by (apply rnd_bound; [lia|rewrite Rabs_pos_eq by exact P1; exact HB]).
  assert (HM : p2 (- G) <= p2 700) by (apply bpow_le; lia).
  pose proof (Bdiv_correct 53 1024 Hprec Hmax mode_NE fone x Hz) as H. pose proof (Bdiv_correct 53 1024 Hprec Hmax mode_NE fone x' Hz') as H'.
  fold (fdiv fone x) in H. fold (fdiv fone x') in H'. rewrite Hinv in H'. rewrite H1 in H. fold (rnd (1 / B2R x)) in H. fold (rnd (1 / B2R x * p2 (- k))) in H'. rewrite HS in H'.
  rewrite Rlt_bool_true in H by (apply (under_big0 _ _ HR HM)). rewrite Rlt_bool_true in H' by (apply (under_big _ _ _ HR HM); unfold small; lia).
  destruct H as (H2 & H3 & H4), H' as (H2' & H3' & H4'). change (is_finite fone) with true in *. split.
  - split; [exact H3|]. rewrite H2. split; [|exact HR]. apply (format_grid _ (- C)); [apply rnd_format|]. rewrite Rabs_pos_eq by (apply rnd_nonneg; exact P1).
    rewrite <- (round_generic radix2 (SpecFloat.fexp 53 1024) (round_mode mode_NE) (p2 (- C))) by (apply format_p2; lia). apply rnd_le. exact HA.
  - split; [exact H3|]. split; [exact H3'|]. split; [rewrite H2', H2; reflexivity|]. rewrite H4 by (apply finite_nan; exact H3). rewrite H4' by (apply finite_nan; exact H3'). rewrite Sx, Sx'. f_equal. exact Sx.
Qed.

(** ** Values that scale, or are the same special value on both sides *)
Definition sim2 (k F : Z) (M : R) (a a' : f64) : Prop := (rng F M a /\ times2 k a a') \/ (a = a' /\ is_finite a = false).

Lemma rng_weaken F F' M M' x : rng F M x -> (F' <= F)%Z -> M <= M' -> rng F' M' x.
Proof. intros (H1 & H2 & H3) HF HM. split; [exact H1|]. split; [apply (grid_coarse _ F); assumption|lra]. Qed.
Lemma sim2_weaken k F M M' a a' : sim2 k F M a a' -> M <= M' -> sim2 k F M' a a'.
Proof. intros [[H1 H2]|H] HM; [left|right; exact H]. split; [|exact H2]. apply (rng_weaken F F M); [exact H1|lia|exact HM]. Qed.

Lemma finite_cmp k a a' b b' : times2 k a a' -> times2 k b b' -> SFcompare (B2SF a) (B2SF b) = SFcompare (B2SF a') (B2SF b').
Proof.
  intros (Fa & Fa' & Ea & _) (Fb & Fb' & Eb & _). change (Bcompare a b = Bcompare a' b'). rewrite !Bcompare_correct by assumption. f_equal. rewrite Ea, Eb. symmetry. apply Rcompare_mult_r. apply bpow_gt_0.
Qed.
Lemma special_cmp (a b b' : f64) : is_finite a = false -> is_finite b = true -> is_finite b' = true ->
  SFcompare (B2SF a) (B2SF b) = SFcompare (B2SF a) (B2SF b') /\ SFcompare (B2SF b) (B2SF a) = SFcompare (B2SF b') (B2SF a).
Proof.
  intros Ha Hb Hb'. destruct a as [s|s| |s m e B]; try discriminate Ha; destruct b as [t|t| |t m1 e1 B1]; try discriminate Hb; destruct b' as [t'|t'| |t' m2 e2 B2]; try discriminate Hb'; try destruct s; split; reflexivity.
Qed.
Lemma sim2_cmp k F F' M M' a a' b b' : sim2 k F M a a' -> sim2 k F' M' b b' -> flt a b = flt a' b' /\ fle a b = fle a' b' /\ feq a b = feq a' b'.
Proof.
  intros HA HB. assert (E : SFcompare (B2SF a) (B2SF b) = SFcompare (B2SF a') (B2SF b')).
  { destruct HA as [[_ HA]|[<- HA]], HB as [[_ HB]|[<- HB]].
    - apply (finite_cmp k); assumption.
    - apply special_cmp; [exact HB|apply HA|apply HA].
    - apply special_cmp; [exact HA|apply HB|apply HB].
    - reflexivity. }
  unfold flt, fle, feq, Bltb, Bleb, Beqb, SFltb, SFleb, SFeqb. rewrite E. auto.
Qed.

Lemma special_sub (a b b' : f64) : is_finite a = false -> is_finite b = true -> is_finite b' = true -> fsub a b = fsub a b' /\ fsub b a = fsub b' a.
Proof.
  intros Ha Hb Hb'. destruct a as [s|s| |s m e B]; try discriminate Ha; destruct b as [t|t| |t m1 e1 B1]; try discriminate Hb; destruct b' as [t'|t'| |t' m2 e2 B2]; try discriminate Hb'; split; reflexivity.
Qed.
Lemma special_add (a b b' : f64) : is_finite a = false -> is_finite b = true -> is_finite b' = true -> fadd a b = fadd a b' /\ fadd b a = fadd b' a.
Proof.
  intros Ha Hb Hb'. destruct a as [s|s| |s m e B]; try discriminate Ha; destruct b as [t|t| |t m1 e1 B1]; try discriminate Hb; destruct b' as [t'|t'| |t' m2 e2 B2]; try discriminate Hb'; split; reflexivity.
Qed.
Lemma sub_special (a b : f64) : is_finite a = false \/ is_finite b = false -> is_finite (fsub a b) = false.
Proof. destruct a as [s|s| |s m e B]; destruct b as [t|t| |t m1 e1 B1]; intros [H|H]; try discriminate H; try reflexivity; cbn; destruct (Bool.eqb _ _); reflexivity. Qed.
Lemma add_special (a b : f64) : is_finite a = false \/ is_finite b = false -> is_finite (fadd a b) = false.
Proof. destruct a as [s|s| |s m e B]; destruct b as [t|t| |t m1 e1 B1]; intros [H|H]; try discriminate H; try reflexivity; cbn; destruct (Bool.eqb _ _); reflexivity. Qed.
Lemma mul_special (a b : f64) : is_finite b = false -> is_finite (fmul a b) = false.
Proof. destruct a as [s|s| |s m e B]; destruct b as [t|t| |t m1 e1 B1]; intros H; try discriminate H; reflexivity. Qed.

Lemma sim2_sub F B k a a' b b' : sim2 k F (p2 B) a a' -> sim2 k F (p2 B) b b' -> (-700 <= F)%Z -> (-700 <= B <= 699)%Z -> small k -> sim2 k F (p2 (B + 1)) (fsub a b) (fsub a' b').
Proof.
  intros [[RA HA]|[<- HA]] [[RB HB]|[<- HB]] HF HBd Hk.
  - left. apply sub_times2; assumption.
  - right. split; [apply special_sub; [exact HB|apply HA|apply HA]|apply sub_special; auto].
  - right. split; [apply special_sub; [exact HA|apply HB|apply HB]|apply sub_special; auto].
  - right. split; [reflexivity|apply sub_special; auto].
Qed.
Lemma sim2_add F M Ma Mb k a a' b b' : sim2 k F Ma a a' -> sim2 k F Mb b b' -> (-700 <= F)%Z -> small k -> M <= p2 700 ->
  (rng F Ma a -> rng F Mb b -> Rabs (rnd (B2R a + B2R b)) <= M) -> sim2 k F M (fadd a b) (fadd a' b').
Proof.
  intros [[RA HA]|[<- HA]] [[RB HB]|[<- HB]] HF Hk HM H.
  - left. apply (add_times2 F M Ma Mb); auto.
  - right. split; [apply special_add; [exact HB|apply HA|apply HA]|apply add_special; auto].
  - right. split; [apply special_add; [exact HA|apply HB|apply HB]|apply add_special; auto].
  - right. split; [reflexivity|apply add_special; auto].
Qed.
Lemma sim2_scale F G B C k n a a' : rng G (p2 C) n -> sim2 k F (p2 B) a a' -> (-700 <= G + F)%Z -> (-700 <= C + B <= 700)%Z -> small k -> sim2 k (G + F) (p2 (C + B)) (fmul n a) (fmul n a').
Proof.
  intros Hn [[RA HA]|[<- HA]] HF HB Hk; [left|right; split; [reflexivity|apply mul_special; exact HA]].
  assert (HN : times2 0 n n) by (repeat split; [apply Hn|apply Hn|cbn; ring]). change k with (0 + k)%Z. apply mul_times2; auto.
Qed.

(** ** The constants of C75 *)
Definition dist2 (k : Z) (x x' : f64) : Prop := lvl (-252) 229 x /\ times2 k x x'.
Definition stab2 (k : Z) (s s' : f64) : Prop := sim2 (- k) (-281) (p2 324) s s'.
Definition pstab2 (k : Z) (L : nat) (s s' : f64) : Prop := sim2 (- k) (-281) (IZR (Z.of_nat L) * p2 324) s s'.

Lemma zero_of (x : f64) : is_finite x = true -> B2R x = 0 -> Bsign x = false -> x = fzero.
Proof. intros H1 H2 H3. apply B2R_Bsign_inj; [exact H1|reflexivity|exact H2|exact H3]. Qed.
Lemma inv_sim2 k x x' : dist2 k x x' -> small k -> sim2 (- k) (-281) (p2 252) (fdiv fone x) (fdiv fone x').
Proof.
  intros [HL HT] Hk. destruct (Req_dec (B2R x) 0) as [Hz|Hz].
  - right. destruct HL as (F1 & S1 & _). destruct HT as (_ & F2 & E & S2). rewrite (zero_of x F1 Hz S1). rewrite (zero_of x' F2); [split; reflexivity|rewrite E, Hz; ring|congruence].
  - left. apply (inv_times2 (-252) 229 k); auto; lia.
Qed.
Lemma gain_sim2 k n w w' b b' : (Z.of_nat n <= 65536)%Z -> small k -> dist2 k w w' -> (dist2 k b b' \/ b = fnan /\ b' = fnan) ->
  sim2 (- k) (-281) (p2 269) (stability_gain n w b) (stability_gain n w' b').
Proof.
  intros Hn Hk Hw Hb. assert (Hk' : small (- k)) by (unfold small in *; lia). unfold stability_gain.
  destruct (f_of_Z_small (Z.of_nat n) ltac:(lia)) as [F1 R1].
  change (-281)%Z with (0 + -281)%Z. change 269%Z with (16 + 253)%Z. apply sim2_scale; [|  |lia|lia|exact Hk'].
  - split; [exact F1|]. rewrite R1. split; [exists (Z.of_nat n); cbn; ring|]. rewrite Rabs_pos_eq by (apply IZR_le; lia). change (p2 16) with (IZR 65536). apply IZR_le. exact Hn.
  - change 253%Z with (252 + 1)%Z. apply sim2_sub; [apply inv_sim2; assumption| |lia|lia|exact Hk']. destruct Hb as [Hb|[-> ->]]; [apply inv_sim2; assumption|right; split; reflexivity].
Qed.
Lemma stab_step k n s s' w w' b b' : (Z.of_nat n <= 65536)%Z -> small k -> stab2 k s s' -> dist2 k w w' -> (dist2 k b b' \/ b = fnan /\ b' = fnan) ->
  stab2 k (fadd s (stability_gain n w b)) (fadd s' (stability_gain n w' b')).
Proof.
  intros Hn Hk Hs Hw Hb. assert (Hk' : small (- k)) by (unfold small in *; lia). apply (sim2_add _ _ (p2 324) (p2 269)); [exact Hs|apply gain_sim2; assumption|lia|exact Hk'|apply bpow_le; lia|].
  intros (_ & _ & A) (_ & _ & B). apply (rnd_absorb s _ 269); [lia|exact A|exact B].
Qed.
Lemma pstab_add k L1 L2 s s' t t' : (Z.of_nat (L1 + L2) <= 131072)%Z -> small k -> pstab2 k L1 s s' -> pstab2 k L2 t t' -> pstab2 k (L1 + L2) (fadd s t) (fadd s' t').
Proof.
  intros HL Hk Hs Ht. assert (Hk' : small (- k)) by (unfold small in *; lia).
  assert (HM : IZR (Z.of_nat (L1 + L2)) * p2 324 <= p2 700).
  { apply Rle_trans with (p2 17 * p2 324); [apply Rmult_le_compat_r; [apply bpow_ge_0|]; change (p2 17) with (IZR 131072); apply IZR_le; exact HL|]. rewrite <- bpow_plus. apply bpow_le. lia. }
  apply (sim2_add _ _ _ _ _ _ _ _ _ Hs Ht); [lia|exact Hk'|exact HM|]. intros (_ & _ & A) (_ & _ & B).
  apply abs_round_le_generic; [typeclasses eauto|typeclasses eauto| |].
  - change (IZR (Z.of_nat (L1 + L2)) * p2 324) with (F2R (Float radix2 (Z.of_nat (L1 + L2)) 324)). apply generic_format_F2R. intros Hz. unfold cexp. rewrite fexp_eq.
    rewrite mag_F2R by exact Hz. assert (Raux.mag radix2 (IZR (Z.of_nat (L1 + L2))) <= 18)%Z; [|lia]. apply mag_le_bpow; [apply IZR_neq; exact Hz|]. rewrite <- abs_IZR. change (p2 18) with (IZR 262144). apply IZR_lt. lia.
  - rewrite Nat2Z.inj_add, plus_IZR, Rmult_plus_distr_r. eapply Rle_trans; [apply Rabs_triang|]. lra.
Qed.
