(** Theorems C93 and C94: how far computed distances, core distances and clusters are from
    those of exact arithmetic.  Vocabulary: SpecAccuracy.v. *)
From Coq Require Import Reals Lra Lia Relations.
From Flocq Require Import Core.Core IEEE754.BinarySingleNaN.
From Verif Require Import Base F64 F64Facts F64Arith F64Scale ListFacts ModelDistance ModelUtils ModelMst ModelGraph ModelCluster ModelHier ModelSelect ModelRun
  PropDistance PropCuda PropMst SpecGraph SpecHier PropHier ProofCore PropSelect PropOutlier ProofRun PropRun PropEnd SpecAccuracy ProofAccuracy ProofAccuracyRun.
Local Open Scope R_scope.

Lemma euclid_finite ds cols i j : flt (euclidean ds cols i j) D_MAX = true -> is_finite (euclidean ds cols i j) = true.
Proof.
  intros H. apply below_finite; [exact H|]. pose proof (flt_true _ _ H) as (Hn & _ & _). destruct (C15_distance_not_negative ds cols i j) as [E|E].
  - unfold notnan in Hn. congruence.
  - apply fle_intro; [reflexivity|exact Hn|exact E].
Qed.

Lemma pair_accuracy ds cols i j v : v = (if (i =? j)%nat then fzero else euclidean ds cols (Nat.min i j) (Nat.max i j)) ->
  is_finite v = true -> distinguishable ds cols i j ->
  low ds cols * true_distance ds cols i j <= B2R v <= high ds cols * true_distance ds cols i j.
Proof.
  intros -> F Hd. destruct (Nat.eqb_spec i j) as [->|N].
  - rewrite true_self. cbn [B2R fzero]. lra.
  - destruct (Nat.lt_ge_cases i j) as [Hlt|Hge].
    + rewrite Nat.min_l, Nat.max_r in * by lia. apply distance_near; assumption.
    + rewrite Nat.min_r, Nat.max_l in * by lia. rewrite (true_sym ds cols i j). apply distance_near; [exact F|]. apply distinguishable_sym. exact Hd.
Qed.

(** ** C93: distances *)
Theorem C93_distance_accuracy :
  forall ds rows cols k d i j v,
  (1 <= rows)%nat -> (Z.of_nat rows <= 65536)%Z -> holds ds rows cols -> (0 <= k < M32 - 1)%Z ->
  distance_compute ds rows cols k = Ok d -> (i < rows)%nat -> (j < rows)%nat ->
  distance_get d (Z.of_nat i) (Z.of_nat j) = Ok v -> is_finite v = true -> distinguishable ds cols i j ->
  low ds cols * true_distance ds cols i j <= B2R v <= high ds cols * true_distance ds cols i j.
Proof.
  intros ds rows cols k d i j v H1 Hr HD Hk Ed Hi Hj Hv F Hd.
  destruct (C15_distance_get_euclidean ds rows cols k H1 Hr HD Hk) as (d' & Ed' & _ & _ & _ & Hget). rewrite Ed in Ed'. injection Ed' as <-.
  destruct (Hget i j Hi Hj) as [E _]. rewrite Hv in E. injection E as E. apply pair_accuracy; assumption.
Qed.
Print Assumptions C93_distance_accuracy.

(** The factors: 1 - low is at most grain + (cols + 2) 2^-53, and high is at most 1/low. *)
Theorem C93_factors :
  forall ds cols, 1 - grain ds - INR (cols + 2) * u53 <= low ds cols < 1 /\ 1 < high ds cols /\ high ds cols * low ds cols <= 1.
Proof.
  intros ds cols. pose proof (grain_pos ds) as Hg. pose proof u53_pos as Hu. pose proof (bernoulli u53 (cols + 2) ltac:(lra)) as HB.
  assert (P : 0 < (1 - u53) ^ (cols + 2) <= 1) by (split; [apply pow_lt; lra|apply pow_le_1; lra]).
  assert (Q : 1 <= (1 + u53) ^ (cols + 2)) by (apply pow_R1_Rle; lra). pose proof (pos_INR (cols + 2)).
  unfold low, high. split; [split; nra|]. split; [nra|].
  replace ((1 + grain ds) * (1 + u53) ^ (cols + 2) * ((1 - grain ds) * (1 - u53) ^ (cols + 2))) with
    ((1 - grain ds * grain ds) * ((1 + u53) ^ (cols + 2) * (1 - u53) ^ (cols + 2))) by ring.
  rewrite <- Rpow_mult_distr.
  assert (R1 : 0 <= ((1 + u53) * (1 - u53)) ^ (cols + 2) <= 1) by (split; [apply pow_le; nra|apply pow_le_1; nra]). nra.
Qed.
Print Assumptions C93_factors.

(** On data of ordinary size no distance overflows. *)
Theorem C93_moderate_distances_finite :
  forall ds rows cols i j, holds ds rows cols -> moderate ds -> (Z.of_nat cols <= 2 ^ 53)%Z -> (i < j)%nat -> (j < rows)%nat ->
  is_finite (euclidean ds cols i j) = true /\ flt (euclidean ds cols i j) D_MAX = true.
Proof. intros ds rows cols i j HD HM Hc Hij Hj. apply (moderate_finite ds rows); auto. Qed.
Print Assumptions C93_moderate_distances_finite.

(** Rows of integers are always distinguishable. *)
Theorem C93_integers_distinguishable :
  forall ds cols i j l, ints ds = Some l -> distinguishable ds cols i j.
Proof.
  intros ds cols i j l H k Hk. cbv zeta.
  assert (Q : forall x y : Z, IZR x = IZR y \/ / IZR (2 ^ 510) <= Rabs (IZR x - IZR y)).
  { intros x y. destruct (Z.eq_dec x y) as [->|N]; [left; reflexivity|right]. rewrite <- minus_IZR, <- abs_IZR. apply Rle_trans with 1; [|apply IZR_le; lia].
    rewrite <- Rinv_1. apply Rinv_le; [lra|apply IZR_le; lia]. }
  destruct ds; cbn [ints coordinate] in *; try discriminate; apply Q.
Qed.
Print Assumptions C93_integers_distinguishable.

(** The triangle inequality holds up to the factor high/low. *)
Theorem C93_triangle :
  forall ds rows cols k d i j m x y z,
  (1 <= rows)%nat -> (Z.of_nat rows <= 65536)%Z -> holds ds rows cols -> (0 <= k < M32 - 1)%Z ->
  distance_compute ds rows cols k = Ok d -> (i < rows)%nat -> (j < rows)%nat -> (m < rows)%nat ->
  distance_get d (Z.of_nat i) (Z.of_nat j) = Ok x -> distance_get d (Z.of_nat j) (Z.of_nat m) = Ok y -> distance_get d (Z.of_nat i) (Z.of_nat m) = Ok z ->
  is_finite x = true -> is_finite y = true -> is_finite z = true ->
  distinguishable ds cols i j -> distinguishable ds cols j m -> distinguishable ds cols i m ->
  B2R z <= high ds cols / low ds cols * (B2R x + B2R y).
Proof.
  intros ds rows cols k d i j m x y z H1 Hr HD Hk Ed Hi Hj Hm Hx Hy Hz Fx Fy Fz D1 D2 D3.
  pose proof (C93_distance_accuracy _ _ _ _ _ _ _ _ H1 Hr HD Hk Ed Hi Hj Hx Fx D1) as [A _].
  pose proof (C93_distance_accuracy _ _ _ _ _ _ _ _ H1 Hr HD Hk Ed Hj Hm Hy Fy D2) as [B _].
  pose proof (C93_distance_accuracy _ _ _ _ _ _ _ _ H1 Hr HD Hk Ed Hi Hm Hz Fz D3) as [_ C].
  pose proof (true_triangle ds cols i j m) as T. pose proof (low_pos ds cols) as Lp. pose proof (high_pos ds cols) as Hp.
  apply Rle_trans with (1 := C). unfold Rdiv. rewrite Rmult_assoc. apply Rmult_le_compat_l; [lra|].
  apply (Rmult_le_reg_l (low ds cols)); [exact Lp|]. rewrite <- Rmult_assoc, Rinv_r, Rmult_1_l by lra. nra.
Qed.
Print Assumptions C93_triangle.

(** Pairs whose true distances differ by more than the factor high/low are in the right order. *)
Theorem C93_order :
  forall ds rows cols k d i j i' j' x y,
  (1 <= rows)%nat -> (Z.of_nat rows <= 65536)%Z -> holds ds rows cols -> (0 <= k < M32 - 1)%Z ->
  distance_compute ds rows cols k = Ok d -> (i < rows)%nat -> (j < rows)%nat -> (i' < rows)%nat -> (j' < rows)%nat ->
  distance_get d (Z.of_nat i) (Z.of_nat j) = Ok x -> distance_get d (Z.of_nat i') (Z.of_nat j') = Ok y ->
  is_finite x = true -> is_finite y = true -> distinguishable ds cols i j -> distinguishable ds cols i' j' ->
  high ds cols * true_distance ds cols i j < low ds cols * true_distance ds cols i' j' -> flt x y = true.
Proof.
  intros ds rows cols k d i j i' j' x y H1 Hr HD Hk Ed Hi Hj Hi' Hj' Hx Hy Fx Fy D1 D2 H.
  pose proof (C93_distance_accuracy _ _ _ _ _ _ _ _ H1 Hr HD Hk Ed Hi Hj Hx Fx D1) as [_ A].
  pose proof (C93_distance_accuracy _ _ _ _ _ _ _ _ H1 Hr HD Hk Ed Hi' Hj' Hy Fy D2) as [B _].
  apply (flt_R _ _ Fx Fy). lra.
Qed.
Print Assumptions C93_order.

(** Two points on a line. *)
Lemma two_points x : coordinate (DDouble [fzero; x]) 0 = 0 /\ coordinate (DDouble [fzero; x]) 1 = B2R x.
Proof. split; reflexivity. Qed.
Lemma two_true x : true_distance (DDouble [fzero; x]) 1 0 1 = Rabs (B2R x).
Proof.
  unfold true_distance. cbn [seq map fold_right Nat.mul Nat.add]. destruct (two_points x) as [-> ->]. rewrite Rplus_0_r, Rminus_0_l, <- Rsqr_neg. apply sqrt_Rsqr_abs.
Qed.
Lemma zero_minus x : is_finite x = true -> is_finite (fsub fzero x) = true /\ B2R (fsub fzero x) = - B2R x.
Proof.
  intros F. pose proof (Bminus_correct 53 1024 Hprec Hmax mode_NE fzero x eq_refl F) as C. change (B2R fzero) with 0 in C. rewrite Rminus_0_l in C.
  assert (E : round radix2 (SpecFloat.fexp 53 1024) (round_mode mode_NE) (- B2R x) = - B2R x).
  { apply round_generic; [typeclasses eauto|]. apply generic_format_opp, generic_format_B2R. }
  rewrite E in C. rewrite Rabs_Ropp in C. rewrite Rlt_bool_true in C by apply abs_B2R_lt_emax. destruct C as (C1 & C2 & _). auto.
Qed.
Lemma two_get x k : (0 <= k < M32 - 1)%Z -> exists d, distance_compute (DDouble [fzero; x]) 2 1 k = Ok d /\
  distance_get d 0 1 = Ok (fsqrt (fadd fzero (fmul (fsub fzero x) (fsub fzero x)))).
Proof.
  intros Hk. destruct (C15_distance_get_euclidean (DDouble [fzero; x]) 2 1 k ltac:(lia) ltac:(lia) (holds_double [fzero; x] 2 1 eq_refl) Hk) as (d & Ed & _ & _ & _ & Hg).
  exists d. split; [exact Ed|]. destruct (Hg 0%nat 1%nat ltac:(lia) ltac:(lia)) as [E _]. exact E.
Qed.

(** Squares overflow: two points at a distance of 2^512 or more that a double can hold come
    out infinitely far apart. *)
Theorem C93_far_points_infinite_refuted :
  forall x k, is_finite x = true -> IZR (2 ^ 512) <= Rabs (B2R x) -> (0 <= k < M32 - 1)%Z ->
  exists d, distance_compute (DDouble [fzero; x]) 2 1 k = Ok d /\ distance_get d 0 1 = Ok finf /\
    true_distance (DDouble [fzero; x]) 1 0 1 = Rabs (B2R x) /\ Rabs (B2R x) < IZR (2 ^ 1024).
Proof.
  intros x k F H Hk. destruct (two_get x k Hk) as (d & Ed & Eg). exists d. split; [exact Ed|]. split; [|split; [apply two_true|]].
  2:{ change (IZR (2 ^ 1024)) with (bpow radix2 1024). apply abs_B2R_lt_emax. }
  rewrite Eg. destruct (zero_minus x F) as [Fm Em]. set (y := fsub fzero x) in *. clearbody y.
  assert (E : fmul y y = finf).
  { pose proof (Bmult_correct 53 1024 Hprec Hmax mode_NE y y) as C. rewrite Em in C.
    assert (Hb : bpow radix2 1024 <= - B2R x * - B2R x).
    { replace (- B2R x * - B2R x) with (Rabs (B2R x) * Rabs (B2R x)).
      - change 1024%Z with (512 + 512)%Z. rewrite bpow_plus. change (bpow radix2 512) with (IZR (2 ^ 512)). assert (0 <= IZR (2 ^ 512)) by (apply IZR_le; lia). apply Rmult_le_compat; assumption.
      - rewrite <- Rabs_mult, Rabs_pos_eq by apply Rle_0_sqr. ring. }
    rewrite Rlt_bool_false in C.
    - rewrite Bool.xorb_nilpotent in C. apply overflow_pos. exact C.
    - apply Rle_trans with (2 := Rle_abs _). apply round_ge_generic; [typeclasses eauto|typeclasses eauto| |exact Hb].
      apply generic_format_bpow. vm_compute. discriminate. }
  rewrite E. reflexivity.
Qed.
Print Assumptions C93_far_points_infinite_refuted.

(** Squares underflow: two different points at most 2^-538 apart come out at distance 0. *)
Theorem C93_near_points_coincide_refuted :
  forall x k, B2R x <> 0 -> Rabs (B2R x) <= / IZR (2 ^ 538) -> (0 <= k < M32 - 1)%Z ->
  exists d v, distance_compute (DDouble [fzero; x]) 2 1 k = Ok d /\ distance_get d 0 1 = Ok v /\ feq v fzero = true /\
    0 < true_distance (DDouble [fzero; x]) 1 0 1.
Proof.
  intros x k N H Hk. destruct (two_get x k Hk) as (d & Ed & Eg).
  assert (F : is_finite x = true) by (destruct x; try reflexivity; cbn [B2R] in N; lra).
  exists d. eexists. split; [exact Ed|]. split; [exact Eg|]. split; [|rewrite two_true; apply Rabs_pos_lt; exact N].
  destruct (zero_minus x F) as [Fm Em]. set (y := fsub fzero x) in *. clearbody y.
  assert (Hr : rnd (- B2R x * - B2R x) = 0).
  { assert (Hs : 0 <= - B2R x * - B2R x <= bpow radix2 (-1076)).
    { split; [apply Rle_0_sqr|]. replace (- B2R x * - B2R x) with (Rabs (B2R x) * Rabs (B2R x)).
      - change (-1076)%Z with (-538 + -538)%Z. rewrite bpow_plus. change (bpow radix2 (-538)) with (/ IZR (2 ^ 538)). pose proof (Rabs_pos (B2R x)). apply Rmult_le_compat; assumption.
      - rewrite <- Rabs_mult, Rabs_pos_eq by apply Rle_0_sqr. ring. }
    destruct (Req_dec (- B2R x * - B2R x) 0) as [Z|NZ]; [rewrite Z; apply rnd_0|].
    unfold rnd. change (round_mode mode_NE) with ZnearestE. apply (round_N_small_pos radix2 (SpecFloat.fexp 53 1024) _ _ (Raux.mag radix2 (- B2R x * - B2R x))).
    - pose proof (bpow_mag_le radix2 _ NZ) as M1. pose proof (bpow_mag_gt radix2 (- B2R x * - B2R x)) as M2. rewrite Rabs_pos_eq in M1, M2 by lra. auto.
    - assert (Hm : (Raux.mag radix2 (- B2R x * - B2R x) <= -1075)%Z) by (apply mag_le_bpow; [exact NZ|]; rewrite Rabs_pos_eq by lra; apply Rle_lt_trans with (1 := proj2 Hs); apply bpow_lt; lia).
      rewrite fexp_eq. lia. }
  pose proof (Bmult_correct 53 1024 Hprec Hmax mode_NE y y) as C. rewrite Em in C. change (round radix2 (SpecFloat.fexp 53 1024) (round_mode mode_NE) (- B2R x * - B2R x)) with (rnd (- B2R x * - B2R x)) in C.
  rewrite Hr, Rabs_R0, Rlt_bool_true in C by apply bpow_gt_0. destruct C as (C1 & C2 & _).
  assert (F2 : is_finite (fmul y y) = true) by (unfold fmul; rewrite C2, Fm; reflexivity). change (Bmult mode_NE y y) with (fmul y y) in C1. set (q := fmul y y) in *. clearbody q.
  destruct q as [[]| | |s m e B]; try discriminate F2; try reflexivity. exfalso. cbn [B2R] in C1. destruct s.
  - assert (F2R (Float radix2 (cond_Zopp true (Z.pos m)) e) < 0) by (apply F2R_lt_0; reflexivity). lra.
  - assert (0 < F2R (Float radix2 (cond_Zopp false (Z.pos m)) e)) by (apply F2R_gt_0; reflexivity). lra.
Qed.
Print Assumptions C93_near_points_coincide_refuted.

(** ** C94: core distances and clusters *)

(** The distances of a row. *)
Definition row_values (ds : dataset) (rows cols i : nat) : list f64 :=
  map (fun j => if (i =? j)%nat then fzero else euclidean ds cols (Nat.min i j) (Nat.max i j)) (seq 0 rows).

(** Data on which distances are accurate (C93) and core distances the k-th smallest (C17). *)
Definition accurate_data (ds : dataset) (rows cols minPts : nat) : Prop :=
  (2 <= minPts <= rows)%nat /\ (Z.of_nat rows <= 65536)%Z /\ holds ds rows cols /\
  (forall i j, (i < j)%nat -> (j < rows)%nat -> flt (euclidean ds cols i j) D_MAX = true /\ distinguishable ds cols i j) /\
  (minPts = 2%nat \/ forall i, (i < rows)%nat -> NoDup (map fkey (row_values ds rows cols i))).

Lemma accurate_rows ds rows cols minPts : accurate_data ds rows cols minPts -> exists d,
  distance_compute ds rows cols (Z.of_nat minPts - 1) = Ok d /\ readable d rows /\ below_max d rows /\
  (forall i j v, (i < rows)%nat -> (j < rows)%nat -> distance_get d (Z.of_nat i) (Z.of_nat j) = Ok v ->
     is_finite v = true /\ low ds cols * true_distance ds cols i j <= B2R v <= high ds cols * true_distance ds cols i j) /\
  (forall i, (i < rows)%nat -> exists c, nth_error (d_core d) i = Some (Some c) /\ is_finite c = true /\
     forall t, true_core ds rows cols minPts i t -> low ds cols * t <= B2R c <= high ds cols * t).
Proof.
  intros (Hm & Hr & HD & HF & HN).
  assert (HM : (M32 = 4294967296)%Z) by reflexivity.
  destruct (data_below ds rows cols minPts Hm Hr HD) as (d & Ed & HR & HB & _); [intros; apply HF; assumption|].
  destruct (C15_distance_get_euclidean ds rows cols (Z.of_nat minPts - 1) ltac:(lia) Hr HD ltac:(lia)) as (d' & Ed' & HC & Hrows & _ & Hget).
  rewrite Ed in Ed'. injection Ed' as <-.
  assert (HV : forall i j v, (i < rows)%nat -> (j < rows)%nat -> distance_get d (Z.of_nat i) (Z.of_nat j) = Ok v ->
     is_finite v = true /\ low ds cols * true_distance ds cols i j <= B2R v <= high ds cols * true_distance ds cols i j).
  { intros i j v Hi Hj Hv. destruct (Hget i j Hi Hj) as [E _]. rewrite Hv in E. injection E as E.
    assert (F : is_finite v = true). { rewrite E. destruct (Nat.eqb_spec i j); [reflexivity|]. apply euclid_finite. apply HF; lia. }
    split; [exact F|]. apply pair_accuracy; [exact E|exact F|].
    destruct (Nat.lt_total i j) as [L|[ -> |L]]; [apply HF; lia|intros k _; left; reflexivity|apply distinguishable_sym, HF; lia]. }
  exists d. split; [exact Ed|]. split; [exact HR|]. split; [exact HB|]. split; [exact HV|].
  intros i Hi. destruct (compute_split ds rows cols (Z.of_nat minPts - 1) d HC Hrows Ed ltac:(lia)) as (d1 & C1 & R1 & K1 & Hc1 & G1).
  assert (Hrow : row_of d1 i (row_values ds rows cols i)).
  { split; [unfold row_values; rewrite map_length, seq_length, R1; lia|]. intros j Hj. rewrite R1 in Hj. rewrite G1.
    destruct (Hget i j Hi ltac:(lia)) as [-> _]. unfold row_values.
    set (g := fun j => if (i =? j)%nat then fzero else euclidean ds cols (Nat.min i j) (Nat.max i j)).
    rewrite (nth_indep _ fzero (g 0%nat)) by (rewrite map_length, seq_length; lia). rewrite map_nth, seq_nth by lia. reflexivity. }
  assert (Hall : forall j, (j < rows)%nat -> distance_get d (Z.of_nat i) (Z.of_nat j) = Ok (nth j (row_values ds rows cols i) fzero)).
  { intros j Hj. rewrite <- G1. apply Hrow. rewrite R1. lia. }
  assert (Hlen : length (row_values ds rows cols i) = rows) by (unfold row_values; rewrite map_length, seq_length; reflexivity).
  assert (Hfv : finite_values (row_values ds rows cols i) = row_values ds rows cols i).
  { apply filter_all. intros x Hx. apply (In_nth _ _ fzero) in Hx. destruct Hx as (j & Hj & <-). rewrite Hlen in Hj. apply (proj1 HB i j); [exact Hi|exact Hj|]. apply Hall. exact Hj. }
  destruct (C17_core_distance_kth_smallest d1 i _ minPts C1 K1 ltac:(lia) ltac:(lia) ltac:(lia) Hrow) as (d2 & c & Ed2 & Hc & Hk & _).
  { rewrite Hfv. destruct HN as [->|HN]; [right; reflexivity|left; apply HN; exact Hi]. }
  rewrite Hc1 in Ed2. injection Ed2 as <-. rewrite Hfv, Hlen in Hk. destruct (Hk ltac:(lia)) as [Hkth _].
  exists c. split; [exact Hc|]. split.
  - destruct Hkth as [Hin _]. apply (In_nth _ _ fzero) in Hin. destruct Hin as (j & Hj & <-). rewrite Hlen in Hj. apply (HV i j); auto.
  - intros t Ht. apply (core_near ds rows cols minPts i (row_values ds rows cols i)); auto.
Qed.

(** The core distance is within the factors of the true k-th smallest distance, which
    exists and is unique. *)
Theorem C94_core_accuracy :
  forall ds rows cols minPts d i, accurate_data ds rows cols minPts ->
  distance_compute ds rows cols (Z.of_nat minPts - 1) = Ok d -> (i < rows)%nat ->
  exists c t, nth_error (d_core d) i = Some (Some c) /\ true_core ds rows cols minPts i t /\
    (forall t', true_core ds rows cols minPts i t' -> t' = t) /\
    low ds cols * t <= B2R c <= high ds cols * t.
Proof.
  intros ds rows cols m d i HA Ed Hi. destruct (accurate_rows ds rows cols m HA) as (d' & Ed' & _ & _ & _ & Hc). rewrite Ed in Ed'. injection Ed' as <-.
  destruct (Hc i Hi) as (c & Ec & _ & Hb). destruct HA as (Hm & _). destruct (true_core_exists ds rows cols m i ltac:(lia)) as (t & Ht).
  exists c, t. split; [exact Ec|]. split; [exact Ht|]. split; [intros t' Ht'; eapply true_core_unique; eassumption|]. apply Hb. exact Ht.
Qed.
Print Assumptions C94_core_accuracy.

Lemma joined_incl (R S : nat -> nat -> Prop) : (forall u v, R u v -> S u v) -> forall u v, joined R u v -> joined S u v.
Proof. intros H. apply joined_map. intros u v Huv. apply rst_step. apply H. exact Huv. Qed.

(** A level at which two points are close can be taken to be a finite number. *)
Lemma finite_level d n w u m : below_max d n -> (forall i j v, (i < n)%nat -> (j < n)%nat -> distance_get d (Z.of_nat i) (Z.of_nat j) = Ok v -> is_finite v = true) ->
  (2 <= m)%nat -> many (close d n w) m u -> exists w', is_finite w' = true /\ forall a b, close d n w a b <-> close d n w' a b.
Proof.
  intros HB HF Hm (l & N & L & Hl).
  assert (Hex : exists a b, close d n w a b).
  { destruct l as [|x [|y l]]; cbn [length] in L; try lia. assert (Hxy : joined (close d n w) x y).
    { apply rst_trans with u; [apply rst_sym; apply Hl; left; reflexivity|apply Hl; right; left; reflexivity]. }
    assert (Hne : x <> y) by (inversion N as [|? ? Hnot _]; intros ->; apply Hnot; left; reflexivity).
    clear - Hxy Hne. induction Hxy as [a b H|a|a b _ IH|a b c _ IH1 _ IH2]; [eauto|contradiction|apply IH; congruence|].
    destruct (Nat.eq_dec a b) as [->|Nab]; [apply IH2; exact Hne|apply IH1; exact Nab]. }
  destruct Hex as (a & b & Ha & Hb & _ & x & ca & cb & Hx & _ & _ & Hle & _). pose proof (HF a b x Ha Hb Hx) as Fx.
  destruct w as [s|s| |s mm e Bd].
  - exists (B754_zero s). split; [reflexivity|]. intros; split; auto.
  - destruct s.
    + exfalso. destruct x; try discriminate Fx; discriminate Hle.
    + exists D_MAX. split; [reflexivity|]. intros p q.
      assert (Q : forall y, flt y D_MAX = true -> fle y (B754_infinity false) = fle y D_MAX).
      { intros y Hy. pose proof (flt_true _ _ Hy) as (Hn & _ & Hk). transitivity true; [apply (fle_finf y Hn)|symmetry; apply fle_intro; [exact Hn|reflexivity|lia]]. }
      split; intros (Hp & Hq & Hne & y & cp & cq & Hy & Hcp & Hcq & L1 & L2 & L3); (split; [exact Hp|]; split; [exact Hq|]; split; [exact Hne|]; exists y, cp, cq; repeat (split; [assumption|])).
      * rewrite !Q in * by (first [apply (proj1 HB p q); assumption|apply (proj2 HB p); assumption|apply (proj2 HB q); assumption]). auto.
      * rewrite !Q by (first [apply (proj1 HB p q); assumption|apply (proj2 HB p); assumption|apply (proj2 HB q); assumption]). auto.
  - destruct x; discriminate Hle.
  - exists (B754_finite s mm e Bd). split; [reflexivity|]. intros; split; auto.
Qed.

(** The clusters of a run lie between two density levels of exact arithmetic: for the level
    [r] of a cluster, its points are joined by steps of true mutual reachability distance at
    most r / low, and every point joined to it by steps of at most r / high belongs to it. *)
Theorem C94_labels_accuracy :
  forall ds rows cols minPts fuel s qsort,
  (5 <= rows)%nat -> accurate_data ds rows cols minPts -> (2 * rows - 1 <= fuel)%nat -> valid s -> sorts qsort ->
  exists o r, fresh_run fuel s qsort (Z.of_nat minPts) ds rows cols true = Ok o /\ o_res o = Some r /\ length (r_labels r) = rows /\
    forall u c, (u < rows)%nat -> c <> 0%nat -> nth_error (r_labels r) u = Some c ->
      exists w : R,
        (forall v, (v < rows)%nat -> nth_error (r_labels r) v = Some c -> joined (truly_close ds rows cols minPts (w / low ds cols)) u v) /\
        (forall v, (v < rows)%nat -> joined (truly_close ds rows cols minPts (w / high ds cols)) u v -> nth_error (r_labels r) v = Some c).
Proof.
  intros ds rows cols m fuel s q H5 HA Hf Hs Hq. pose proof HA as (Hm & Hr & HD & HF & _).
  destruct (C57_labels_are_dense_components ds rows cols m fuel s q H5 Hr HD Hm) as (d & o & r & Ed & _ & Er & Eo & HL & Hlab); auto; [intros; apply HF; assumption|].
  destruct (accurate_rows ds rows cols m HA) as (d' & Ed' & HR & HB & HV & Hcore). rewrite Ed in Ed'. injection Ed' as <-.
  exists o, r. split; [exact Er|]. split; [exact Eo|]. split; [exact HL|]. intros u c Hu Hc Hn.
  destruct (Hlab u c Hu Hc Hn) as (w & Hmany & Hw).
  destruct (finite_level d rows w u m HB) as (w' & Fw & Hww); [intros i j v Hi Hj Hv; apply (HV i j v Hi Hj Hv)|lia|exact Hmany|].
  pose proof (low_pos ds cols) as Lp. pose proof (high_pos ds cols) as Hp.
  assert (DivL : forall a, low ds cols * a <= B2R w' -> a <= B2R w' / low ds cols).
  { intros a Ha. apply (Rmult_le_reg_l (low ds cols)); [exact Lp|]. unfold Rdiv. replace (low ds cols * (B2R w' * / low ds cols)) with (B2R w' * (low ds cols * / low ds cols)) by ring. rewrite Rinv_r by lra. lra. }
  assert (DivH : forall a, a <= B2R w' / high ds cols -> high ds cols * a <= B2R w').
  { intros a Ha. apply (Rmult_le_compat_l (high ds cols)) in Ha; [|lra]. unfold Rdiv in Ha. replace (high ds cols * (B2R w' * / high ds cols)) with (B2R w' * (high ds cols * / high ds cols)) in Ha by ring. rewrite Rinv_r in Ha by lra. lra. }
  exists (B2R w'). split.
  - intros v Hv Hl. apply (Hw v Hv) in Hl. revert Hl. apply joined_incl. intros a b Hab. apply Hww in Hab.
    destruct Hab as (Ha & Hb & Hne & x & ca & cb & Hx & Hca & Hcb & L1 & L2 & L3).
    split; [exact Ha|]. split; [exact Hb|]. split; [exact Hne|].
    destruct (HV a b x Ha Hb Hx) as [Fx [Bx _]]. apply (fle_R _ _ Fx Fw) in L1. split; [apply DivL; lra|].
    destruct (Hcore a Ha) as (ca' & E1 & F1 & B1). rewrite Hca in E1. injection E1 as <-.
    destruct (Hcore b Hb) as (cb' & E2 & F2 & B2). rewrite Hcb in E2. injection E2 as <-.
    apply (fle_R _ _ F1 Fw) in L2. apply (fle_R _ _ F2 Fw) in L3.
    destruct (true_core_exists ds rows cols m a ltac:(lia)) as (ta & Ta). destruct (true_core_exists ds rows cols m b ltac:(lia)) as (tb & Tb).
    exists ta, tb. split; [exact Ta|]. split; [exact Tb|]. specialize (B1 ta Ta). specialize (B2 tb Tb). split; apply DivL; lra.
  - intros v Hv Hj. apply (Hw v Hv). revert Hj. apply joined_incl. intros a b (Ha & Hb & Hne & Hd & ta & tb & Ta & Tb & La & Lb). apply Hww.
    destruct (proj1 HR a b Ha Hb) as (x & Hx). destruct (HV a b x Ha Hb Hx) as [Fx [_ Bx]].
    destruct (Hcore a Ha) as (ca & E1 & F1 & B1). destruct (Hcore b Hb) as (cb & E2 & F2 & B2). specialize (B1 ta Ta). specialize (B2 tb Tb).
    split; [exact Ha|]. split; [exact Hb|]. split; [exact Hne|]. exists x, ca, cb. split; [exact Hx|]. split; [exact E1|]. split; [exact E2|].
    apply DivH in Hd, La, Lb. split; [apply (fle_R _ _ Fx Fw); lra|]. split; [apply (fle_R _ _ F1 Fw); lra|apply (fle_R _ _ F2 Fw); lra].
Qed.
Print Assumptions C94_labels_accuracy.

(** ** Examples *)
Definition spread : dataset := DInt [0; 1; 3; 10; 14; 30]%Z.
Example C94_example : accurate_data spread 6 1 3 /\ moderate spread /\ valid in_turn /\ sorts insertion_sort /\ (5 <= 6)%nat /\ (2 * 6 - 1 <= 11)%nat.
Proof.
  assert (HD : holds spread 6 1).
  { split; [reflexivity|]. intros l E i j c Hij Hc. injection E as <-. cbn [diff_fits spread].
    assert (Q : forall a, (0 <= nth a [0; 1; 3; 10; 14; 30] 0 <= 30)%Z) by (intros a; do 6 (destruct a as [|a]; [cbn; lia|]); destruct a; cbn; lia).
    pose proof (Q (i * 1 + c)%nat). pose proof (Q (j * 1 + c)%nat). lia. }
  split; [|split; [exact I|split; [exact (proj1 schedules_valid)|split; [exact insertion_sort_sorts|lia]]]].
  split; [lia|]. split; [lia|]. split; [exact HD|]. split.
  - intros i j Hij Hj. split; [apply (C93_moderate_distances_finite spread 6 1 i j HD I ltac:(lia) Hij Hj)|]. apply (C93_integers_distinguishable spread _ _ _ _ eq_refl).
  - right. intros i Hi. apply (NoDup_count_occ' Z.eq_dec).
    assert (Q : forallb (fun i => forallb (fun x => (count_occ Z.eq_dec (map fkey (row_values spread 6 1 i)) x =? 1)%nat) (map fkey (row_values spread 6 1 i))) (seq 0 6) = true) by (vm_compute; reflexivity).
    rewrite forallb_forall in Q. specialize (Q i ltac:(apply in_seq; lia)). rewrite forallb_forall in Q.
    intros x Hx. apply Nat.eqb_eq. apply Q. exact Hx.
Qed.

(** Doubles 2^600 and 2^-600. *)
Definition huge : f64 := @B754_finite 53 1024 false 4503599627370496 548 eq_refl.
Definition tiny : f64 := @B754_finite 53 1024 false 4503599627370496 (-652) eq_refl.
Lemma huge_val : B2R huge = bpow radix2 600.
Proof. unfold huge. cbn [B2R]. unfold F2R. cbn [Fnum Fexp cond_Zopp]. change (IZR 4503599627370496) with (bpow radix2 52). rewrite <- bpow_plus. reflexivity. Qed.
Lemma tiny_val : B2R tiny = bpow radix2 (-600).
Proof. unfold tiny. cbn [B2R]. unfold F2R. cbn [Fnum Fexp cond_Zopp]. change (IZR 4503599627370496) with (bpow radix2 52). rewrite <- bpow_plus. reflexivity. Qed.
Example C93_example :
  (exists d v, distance_compute spread 6 1 2 = Ok d /\ distance_get d 5 1 = Ok v /\ low spread 1 * 29 <= B2R v <= high spread 1 * 29) /\
  (is_finite huge = true /\ IZR (2 ^ 512) <= Rabs (B2R huge)) /\ (B2R tiny <> 0 /\ Rabs (B2R tiny) <= / IZR (2 ^ 538)).
Proof.
  destruct C94_example as ((Hm & Hr & HD & HF & _) & _). split; [|split; [split; [reflexivity|]|split]].
  - destruct (C15_distance_get_euclidean spread 6 1 2 ltac:(lia) Hr HD ltac:(unfold M32; lia)) as (d & Ed & _ & _ & _ & Hg).
    destruct (Hg 5%nat 1%nat ltac:(lia) ltac:(lia)) as [E _]. exists d. eexists. split; [exact Ed|]. split; [exact E|].
    assert (T : true_distance spread 1 5 1 = 29).
    { unfold true_distance, spread. cbn [seq map fold_right Nat.mul Nat.add coordinate nth]. replace (Rsqr (30 - 1) + 0) with (Rsqr 29) by (unfold Rsqr; ring). apply sqrt_Rsqr. lra. }
    rewrite <- T. apply (C93_distance_accuracy spread 6 1 2 d 5 1 _ ltac:(lia) Hr HD ltac:(unfold M32; lia) Ed ltac:(lia) ltac:(lia) E).
    + change (is_finite (euclidean spread 1 1 5) = true). apply euclid_finite. apply HF; lia.
    + apply (C93_integers_distinguishable spread _ _ _ _ eq_refl).
  - rewrite huge_val, Rabs_pos_eq by apply bpow_ge_0. change (IZR (2 ^ 512)) with (bpow radix2 512). apply bpow_le. lia.
  - rewrite tiny_val. apply Rgt_not_eq. apply bpow_gt_0.
  - rewrite tiny_val, Rabs_pos_eq by apply bpow_ge_0. change (/ IZR (2 ^ 538)) with (bpow radix2 (-538)). apply bpow_le. lia.
Qed.
