(** Accuracy: when nothing overflows, the triangle inequality, order statistics. *)
From Coq Require Import Reals Lra Lia Permutation.
From Flocq Require Import Core.Core IEEE754.BinarySingleNaN.
From Verif Require Import Base F64 F64Facts F64Arith F64Scale ListFacts ModelDistance PropDistance PropCuda SpecAccuracy ProofAccuracy.
Local Open Scope R_scope.

(** ** The true distance *)
Lemma true_sym ds cols i j : true_distance ds cols i j = true_distance ds cols j i.
Proof. unfold true_distance. f_equal. f_equal. apply map_ext. intros k. rewrite Rsqr_neg. f_equal. ring. Qed.
Lemma true_self ds cols i : true_distance ds cols i i = 0.
Proof.
  unfold true_distance.
  match goal with |- sqrt ?x = 0 => assert (E : x = 0) end; [|rewrite E; apply sqrt_0].
  induction (seq 0 cols) as [|k l IH]; cbn [map fold_right]; [reflexivity|]. rewrite IH. unfold Rsqr. ring.
Qed.
Lemma true_pos ds cols i j : 0 <= true_distance ds cols i j.
Proof. apply sqrt_pos. Qed.
Lemma distinguishable_sym ds cols i j : distinguishable ds cols i j -> distinguishable ds cols j i.
Proof. intros H k Hk. cbv zeta. destruct (H k Hk) as [E|E]; [left; auto|right]. rewrite Rabs_minus_sym. exact E. Qed.

Definition sumsq (f : nat -> R) (l : list nat) : R := fold_right Rplus 0 (map (fun k => Rsqr (f k)) l).
Lemma sumsq_pos f l : 0 <= sumsq f l.
Proof. unfold sumsq. induction l as [|k l IH]; cbn [map fold_right]; [lra|]. pose proof (Rle_0_sqr (f k)). lra. Qed.

Lemma plane p q a b : 0 <= p -> 0 <= q -> sqrt (Rsqr (p + q) + Rsqr (a + b)) <= sqrt (Rsqr p + Rsqr a) + sqrt (Rsqr q + Rsqr b).
Proof.
  intros Hp Hq. set (x := sqrt (Rsqr p + Rsqr a)). set (y := sqrt (Rsqr q + Rsqr b)).
  assert (Hx : 0 <= x) by apply sqrt_pos. assert (Hy : 0 <= y) by apply sqrt_pos.
  assert (Ex : x * x = Rsqr p + Rsqr a). { apply sqrt_sqrt. pose proof (Rle_0_sqr p). pose proof (Rle_0_sqr a). lra. }
  assert (Ey : y * y = Rsqr q + Rsqr b). { apply sqrt_sqrt. pose proof (Rle_0_sqr q). pose proof (Rle_0_sqr b). lra. }
  rewrite <- (sqrt_Rsqr (x + y)) by lra. apply sqrt_le_1_alt.
  assert (H : p * q + a * b <= x * y).
  { destruct (Rle_or_lt (p * q + a * b) 0) as [Hn|Hn]; [nra|]. apply Rsqr_incr_0_var; [|nra].
    replace (Rsqr (x * y)) with ((x * x) * (y * y)) by (unfold Rsqr; ring). rewrite Ex, Ey. unfold Rsqr.
    assert (0 <= (p * b - a * q) * (p * b - a * q)) by (apply Rle_0_sqr). nra. }
  unfold Rsqr in *. nra.
Qed.

Lemma minkowski f g l : sqrt (sumsq (fun k => f k + g k) l) <= sqrt (sumsq f l) + sqrt (sumsq g l).
Proof.
  induction l as [|k l IH]; [unfold sumsq; cbn; rewrite sqrt_0; lra|].
  change (sumsq (fun k => f k + g k) (k :: l)) with (Rsqr (f k + g k) + sumsq (fun k => f k + g k) l).
  change (sumsq f (k :: l)) with (Rsqr (f k) + sumsq f l). change (sumsq g (k :: l)) with (Rsqr (g k) + sumsq g l).
  pose proof (sumsq_pos f l) as Pf. pose proof (sumsq_pos g l) as Pg. pose proof (sumsq_pos (fun k => f k + g k) l) as Ph.
  pose proof (plane (sqrt (sumsq f l)) (sqrt (sumsq g l)) (f k) (g k) (sqrt_pos _) (sqrt_pos _)) as H.
  rewrite !Rsqr_sqrt in H by assumption. rewrite (Rplus_comm (sumsq f l)), (Rplus_comm (sumsq g l)) in H. apply Rle_trans with (2 := H).
  apply sqrt_le_1_alt. apply Rsqr_incr_1 in IH; [|apply sqrt_pos|pose proof (sqrt_pos (sumsq f l)); pose proof (sqrt_pos (sumsq g l)); lra].
  rewrite Rsqr_sqrt in IH by assumption. lra.
Qed.

Lemma true_triangle ds cols i j k : true_distance ds cols i k <= true_distance ds cols i j + true_distance ds cols j k.
Proof.
  pose proof (minkowski (fun c => coordinate ds (i * cols + c) - coordinate ds (j * cols + c)) (fun c => coordinate ds (j * cols + c) - coordinate ds (k * cols + c)) (seq 0 cols)) as H.
  unfold true_distance. apply Rle_trans with (2 := H). apply Req_le. unfold sumsq. f_equal. f_equal. apply map_ext. intros c. f_equal. ring.
Qed.

(** ** Factors *)
Lemma low_pos ds cols : 0 < low ds cols.
Proof. pose proof (grain_pos ds). pose proof u53_pos. unfold low. apply Rmult_lt_0_compat; [lra|apply pow_lt; lra]. Qed.
Lemma high_pos ds cols : 0 < high ds cols.
Proof. pose proof (grain_pos ds). pose proof u53_pos. unfold high. apply Rmult_lt_0_compat; [lra|apply pow_lt; lra]. Qed.
Lemma bernoulli u n : 0 <= u <= 1 -> 1 - INR n * u <= (1 - u) ^ n.
Proof.
  intros Hu. induction n as [|n IH]; [cbn; lra|]. rewrite S_INR. cbn [pow].
  assert (0 <= (1 - u) ^ n <= 1) by (split; [apply pow_le; lra|apply pow_le_1; lra]). pose proof (pos_INR n). nra.
Qed.

(** ** Nothing overflows on ordinary data *)
Lemma format_pow e : (-1074 <= e <= 1023)%Z -> forall m, (0 <= m <= 2 ^ 53)%Z -> (e + 53 <= 1024)%Z -> rnd (IZR m * bpow radix2 e) = IZR m * bpow radix2 e.
Proof.
  intros He m Hm _. apply round_generic; [typeclasses eauto|].
  apply (generic_format_FLT radix2 (-1074) 53). destruct (Z.eq_dec m (2 ^ 53)) as [->|N].
  - apply (FLT_spec radix2 (-1074) 53 _ (Float radix2 1 (53 + e))); cbn [Fnum Fexp]; [|reflexivity|lia].
    unfold F2R. cbn [Fnum Fexp]. rewrite bpow_plus. change (bpow radix2 53) with (IZR (2 ^ 53)). ring.
  - apply (FLT_spec radix2 (-1074) 53 _ (Float radix2 m e)); cbn [Fnum Fexp]; [reflexivity| |lia]. change (radix2 ^ 53)%Z with (2 ^ 53)%Z. lia.
Qed.
Lemma rnd_bound x m e : Rabs x <= IZR m * bpow radix2 e -> (-1074 <= e <= 971)%Z -> (0 <= m <= 2 ^ 53)%Z -> Rabs (rnd x) <= IZR m * bpow radix2 e.
Proof.
  intros H He Hm. apply Rabs_le_inv in H. pose proof (format_pow e ltac:(lia) m Hm ltac:(lia)) as E.
  assert (E' : rnd (- (IZR m * bpow radix2 e)) = - (IZR m * bpow radix2 e)) by (unfold rnd; change (round_mode mode_NE) with ZnearestE; rewrite round_NE_opp; f_equal; exact E).
  apply Rabs_le. split; [rewrite <- E'|rewrite <- E]; apply rnd_le; lra.
Qed.
Lemma below_big m e : (-1074 <= e <= 900)%Z -> (0 <= m <= 2 ^ 53)%Z -> IZR m * bpow radix2 e < bpow radix2 1024.
Proof.
  intros He Hm. apply Rle_lt_trans with (bpow radix2 53 * bpow radix2 e).
  - apply Rmult_le_compat_r; [apply bpow_ge_0|]. change (bpow radix2 53) with (IZR (2 ^ 53)). apply IZR_le. lia.
  - rewrite <- bpow_plus. apply bpow_lt. lia.
Qed.

Lemma fadd_bound a b m e : is_finite a = true -> is_finite b = true -> Rabs (B2R a + B2R b) <= IZR m * bpow radix2 e -> (-1074 <= e <= 900)%Z -> (0 <= m <= 2 ^ 53)%Z ->
  is_finite (fadd a b) = true /\ Rabs (B2R (fadd a b)) <= IZR m * bpow radix2 e /\ B2R (fadd a b) = rnd (B2R a + B2R b).
Proof.
  intros Fa Fb H He Hm. pose proof (rnd_bound _ m e H ltac:(lia) Hm) as Hr. pose proof (below_big m e He Hm) as Hb.
  pose proof (Bplus_correct 53 1024 Hprec Hmax mode_NE a b Fa Fb) as C. rewrite Rlt_bool_true in C by (unfold rnd in Hr; lra).
  destruct C as (C1 & C2 & _). unfold fadd. rewrite C1. split; [exact C2|]. split; [exact Hr|reflexivity].
Qed.
Lemma fsub_bound a b m e : is_finite a = true -> is_finite b = true -> Rabs (B2R a - B2R b) <= IZR m * bpow radix2 e -> (-1074 <= e <= 900)%Z -> (0 <= m <= 2 ^ 53)%Z ->
  is_finite (fsub a b) = true /\ Rabs (B2R (fsub a b)) <= IZR m * bpow radix2 e.
Proof.
  intros Fa Fb H He Hm. pose proof (rnd_bound _ m e H ltac:(lia) Hm) as Hr. pose proof (below_big m e He Hm) as Hb.
  pose proof (Bminus_correct 53 1024 Hprec Hmax mode_NE a b Fa Fb) as C. rewrite Rlt_bool_true in C by (unfold rnd in Hr; lra).
  destruct C as (C1 & C2 & _). unfold fsub. rewrite C1. split; [exact C2|exact Hr].
Qed.
Lemma fmul_bound a m e : is_finite a = true -> Rabs (B2R a * B2R a) <= IZR m * bpow radix2 e -> (-1074 <= e <= 900)%Z -> (0 <= m <= 2 ^ 53)%Z ->
  is_finite (fmul a a) = true /\ Rabs (B2R (fmul a a)) <= IZR m * bpow radix2 e /\ 0 <= B2R (fmul a a).
Proof.
  intros Fa H He Hm. pose proof (rnd_bound _ m e H ltac:(lia) Hm) as Hr. pose proof (below_big m e He Hm) as Hb.
  pose proof (Bmult_correct 53 1024 Hprec Hmax mode_NE a a) as C. rewrite Rlt_bool_true in C by (unfold rnd in Hr; lra).
  destruct C as (C1 & C2 & _). unfold fmul. rewrite C1, C2, Fa. split; [reflexivity|]. split; [exact Hr|]. apply rnd_nonneg. apply Rle_0_sqr.
Qed.
Lemma fint_bound z : (Z.abs z <= 2 ^ 64)%Z -> is_finite (f_of_Z z) = true /\ Rabs (B2R (f_of_Z z)) <= bpow radix2 64.
Proof.
  intros Hz. pose proof (binary_normalize_correct 53 1024 Hprec Hmax mode_NE z 0 false) as C. cbv zeta in C.
  assert (EF : F2R (Float radix2 z 0) = IZR z) by (unfold F2R; cbn; ring). rewrite EF in C.
  assert (H : Rabs (rnd (IZR z)) <= IZR 1 * bpow radix2 64).
  { apply rnd_bound; [|lia|lia]. rewrite Rmult_1_l, <- abs_IZR. change (bpow radix2 64) with (IZR (2 ^ 64)). apply IZR_le. exact Hz. }
  rewrite Rmult_1_l in H. rewrite Rlt_bool_true in C.
  - destruct C as (C1 & C2 & _). unfold f_of_Z. rewrite C1. split; [exact C2|exact H].
  - unfold rnd in H. apply Rle_lt_trans with (1 := H). apply bpow_lt. lia.
Qed.
Lemma fsub32_bound (a b : f32) : is_finite a = true -> is_finite b = true -> Rabs (B2R a) <= IZR (2 ^ 126) -> Rabs (B2R b) <= IZR (2 ^ 126) ->
  is_finite (fsub32 a b) = true /\ Rabs (B2R (fsub32 a b)) <= bpow radix2 127.
Proof.
  intros Fa Fb Ha Hb. apply Rabs_le_inv in Ha, Hb.
  assert (E2 : bpow radix2 127 = 2 * IZR (2 ^ 126)) by (change (bpow radix2 127) with (IZR (2 * 2 ^ 126)); rewrite mult_IZR; reflexivity).
  pose proof (Bminus_correct 24 128 Hprec32 Hmax32 mode_NE a b Fa Fb) as C.
  set (r := round radix2 (SpecFloat.fexp 24 128) (round_mode mode_NE) (B2R a - B2R b)) in C.
  assert (V : Valid_exp (SpecFloat.fexp 24 128)) by (apply (fexp_correct 24 128 Hprec32)).
  assert (G : generic_format radix2 (SpecFloat.fexp 24 128) (bpow radix2 127)) by (apply generic_format_bpow; vm_compute; discriminate).
  assert (H : Rabs r <= bpow radix2 127).
  { apply Rabs_le. split.
    - unfold r. apply round_ge_generic; [exact V|typeclasses eauto|apply generic_format_opp; exact G|lra].
    - unfold r. apply round_le_generic; [exact V|typeclasses eauto|exact G|lra]. }
  rewrite Rlt_bool_true in C by (apply Rle_lt_trans with (1 := H); apply bpow_lt; lia).
  destruct C as (C1 & C2 & _). unfold fsub32. rewrite C1. split; [exact C2|exact H].
Qed.

Lemma nth_moderate {A} (P : A -> Prop) l d a : P d -> (forall x, In x l -> P x) -> P (nth a l d).
Proof. intros Hd H. destruct (nth_in_or_default a l d) as [Hin| ->]; auto. Qed.

Lemma diff_bound ds rows cols i j k : holds ds rows cols -> moderate ds -> (i < j < rows)%nat -> (k < cols)%nat ->
  is_finite (coord_diff ds (i * cols + k) (j * cols + k)) = true /\ Rabs (B2R (coord_diff ds (i * cols + k) (j * cols + k))) <= bpow radix2 401.
Proof.
  intros HD HM Hij Hk.
  assert (HZ : forall z, (Z.abs z <= 2 ^ 64)%Z -> is_finite (f_of_Z z) = true /\ Rabs (B2R (f_of_Z z)) <= bpow radix2 401).
  { intros z Hz. destruct (fint_bound z Hz) as [F B]. split; [exact F|]. apply Rle_trans with (1 := B). apply bpow_le. lia. }
  destruct HD as [HL HI].
  destruct ds as [l|l|l|l|l|l]; cbn [moderate coord_diff] in *;
    try (specialize (HI l eq_refl i j k Hij Hk); cbn [diff_fits] in HI; apply HZ; lia).
  - set (P := fun x : f64 => is_finite x = true /\ Rabs (B2R x) <= IZR (2 ^ 400)) in *.
    assert (P0 : P fzero) by (split; [reflexivity|]; cbn [B2R fzero]; rewrite Rabs_R0; apply IZR_le; lia).
    destruct (nth_moderate P l fzero (i * cols + k) P0 HM) as [F1 B1]. destruct (nth_moderate P l fzero (j * cols + k) P0 HM) as [F2 B2].
    assert (E : IZR 1 * bpow radix2 401 = 2 * IZR (2 ^ 400)) by (rewrite Rmult_1_l; change (bpow radix2 401) with (IZR (2 * 2 ^ 400)); rewrite mult_IZR; reflexivity).
    destruct (fsub_bound _ _ 1 401 F1 F2) as [F B]; [|lia|lia|].
    + rewrite E. apply Rabs_le_inv in B1, B2. apply Rabs_le. lra.
    + rewrite Rmult_1_l in B. auto.
  - set (P := fun x : f32 => is_finite x = true /\ Rabs (B2R x) <= IZR (2 ^ 126)) in *.
    assert (P0 : P (B754_zero false)) by (split; [reflexivity|]; cbn [B2R]; rewrite Rabs_R0; apply IZR_le; lia).
    destruct (nth_moderate P l (B754_zero false) (i * cols + k) P0 HM) as [F1 B1]. destruct (nth_moderate P l (B754_zero false) (j * cols + k) P0 HM) as [F2 B2].
    destruct (fsub32_bound _ _ F1 F2 B1 B2) as [F B]. destruct (to_double_val _ F) as [V1 V2]. split; [exact V2|]. rewrite V1.
    apply Rle_trans with (1 := B). apply bpow_le. lia.
Qed.

Lemma moderate_finite ds rows cols i j : holds ds rows cols -> moderate ds -> (Z.of_nat cols <= 2 ^ 53)%Z -> (i < j < rows)%nat ->
  is_finite (euclidean ds cols i j) = true /\ flt (euclidean ds cols i j) D_MAX = true.
Proof.
  intros HD HM Hc Hij. unfold euclidean.
  set (f := fun (sum : f64) k => let diff := coord_diff ds (i * cols + k) (j * cols + k) in fadd sum (fmul diff diff)).
  assert (H : forall ks n s, (forall k, In k ks -> (k < cols)%nat) -> (Z.of_nat n + Z.of_nat (length ks) <= 2 ^ 53)%Z ->
     is_finite s = true -> 0 <= B2R s <= IZR (Z.of_nat n) * bpow radix2 802 ->
     is_finite (fold_left f ks s) = true /\ 0 <= B2R (fold_left f ks s) <= IZR (Z.of_nat n + Z.of_nat (length ks)) * bpow radix2 802).
  { induction ks as [|k ks IH]; intros n s Hks Hn Fs Hs; cbn [fold_left length] in *.
    - rewrite Z.add_0_r. auto.
    - destruct (diff_bound ds rows cols i j k HD HM Hij (Hks k (or_introl eq_refl))) as [Fd Bd].
      set (dd := coord_diff ds (i * cols + k) (j * cols + k)) in *.
      assert (Bq : Rabs (B2R dd * B2R dd) <= IZR 1 * bpow radix2 802).
      { rewrite Rabs_mult, Rmult_1_l. change 802%Z with (401 + 401)%Z. rewrite bpow_plus. apply Rmult_le_compat; auto using Rabs_pos. }
      destruct (fmul_bound dd 1 802 Fd Bq ltac:(lia) ltac:(lia)) as (Fq & Rq & Pq). rewrite Rabs_pos_eq, Rmult_1_l in Rq by exact Pq.
      assert (Ba : Rabs (B2R s + B2R (fmul dd dd)) <= IZR (Z.of_nat (S n)) * bpow radix2 802).
      { rewrite Rabs_pos_eq by lra. rewrite Nat2Z.inj_succ, succ_IZR. lra. }
      destruct (fadd_bound s (fmul dd dd) (Z.of_nat (S n)) 802 Fs Fq Ba ltac:(lia) ltac:(lia)) as (Fa & Ra & Va).
      assert (Pa : 0 <= B2R (fadd s (fmul dd dd))) by (rewrite Va; apply rnd_nonneg; lra). rewrite Rabs_pos_eq in Ra by exact Pa.
      replace (Z.of_nat n + Z.of_nat (S (length ks)))%Z with (Z.of_nat (S n) + Z.of_nat (length ks))%Z by lia.
      apply IH; [intros; apply Hks; right; assumption|lia|exact Fa|split; [exact Pa|exact Ra]]. }
  destruct (H (seq 0 cols) 0%nat fzero) as [F B].
  { intros k Hk. apply in_seq in Hk. lia. } { rewrite seq_length. lia. } { reflexivity. } { cbn [B2R fzero]. rewrite Rmult_0_l. lra. }
  rewrite seq_length in B. cbn [Z.of_nat Z.add] in B. set (T := fold_left f (seq 0 cols) fzero) in *. clearbody T.
  destruct (Bsqrt_correct 53 1024 Hprec Hmax mode_NE T) as (C1 & C2 & _).
  assert (FT : is_finite (fsqrt T) = true).
  { unfold fsqrt. rewrite C2. destruct T as [| | |[] m e Hb]; try discriminate F; try reflexivity. exfalso. destruct B as [B _]. cbn [B2R] in B.
    refine (Rlt_not_le _ _ _ B). apply F2R_lt_0. reflexivity. }
  split; [exact FT|]. apply flt_R; [exact FT|reflexivity|]. unfold fsqrt. rewrite C1.
  assert (Hs : Rabs (sqrt (B2R T)) <= IZR 1 * bpow radix2 430).
  { rewrite Rabs_pos_eq by apply sqrt_pos. rewrite Rmult_1_l, <- (sqrt_Rsqr (bpow radix2 430)) by apply bpow_ge_0. apply sqrt_le_1_alt.
    apply Rle_trans with (1 := proj2 B). unfold Rsqr. rewrite <- bpow_plus. change (430 + 430)%Z with (53 + 807)%Z. rewrite bpow_plus.
    apply Rmult_le_compat; [apply IZR_le; lia|apply bpow_ge_0|change (bpow radix2 53) with (IZR (2 ^ 53)); apply IZR_le; lia|apply bpow_le; lia]. }
  apply (rnd_bound _ 1 430) in Hs; [|lia|lia]. rewrite Rmult_1_l in Hs. fold (rnd (sqrt (B2R T))).
  apply Rle_lt_trans with (bpow radix2 430); [apply Rle_trans with (2 := Hs); apply Rle_abs|].
  unfold D_MAX. cbn [B2R]. unfold F2R. cbn [Fnum Fexp cond_Zopp]. apply Rlt_le_trans with (bpow radix2 900); [apply bpow_lt; lia|].
  rewrite <- (Rmult_1_l (bpow radix2 900)). apply Rmult_le_compat; [lra|apply bpow_ge_0|apply IZR_le; lia|apply bpow_le; lia].
Qed.

(** ** The k-th smallest of finitely many reals *)
Lemma argmin {A} (f : A -> R) (l : list A) : l <> [] -> exists l1 m l2, l = l1 ++ m :: l2 /\ forall x, In x l -> f m <= f x.
Proof.
  induction l as [|a l IH]; intros H; [contradiction|]. destruct l as [|b l]; [exists [], a, []; split; [reflexivity|]; intros x [<-|[]]; lra|].
  destruct IH as (l1 & m & l2 & E & Hm); [discriminate|]. destruct (Rle_or_lt (f a) (f m)) as [Hle|Hlt].
  - exists [], a, (b :: l). split; [reflexivity|]. intros x [<-|Hx]; [lra|]. specialize (Hm x Hx). lra.
  - exists (a :: l1), m, l2. split; [rewrite E; reflexivity|]. intros x [<-|Hx]; [lra|]. apply Hm. exact Hx.
Qed.

Lemma kth_exists {A} (f : A -> R) : forall k (l : list A), NoDup l -> (1 <= k <= length l)%nat ->
  exists t s s', NoDup s /\ NoDup s' /\ length s = k /\ (length s' < k)%nat /\
    (forall x, In x s -> In x l /\ f x <= t) /\ (forall x, In x l -> f x < t -> In x s') /\ (exists x, In x l /\ f x = t) /\ incl s' l.
Proof.
  induction k as [|k IH]; intros l Hn Hk; [lia|].
  destruct (argmin f l) as (l1 & m & l2 & E & Hm); [intros ->; cbn in Hk; lia|]. destruct k as [|k].
  - exists (f m), [m], []. split; [constructor; [intros []|constructor]|]. split; [constructor|]. split; [reflexivity|]. split; [cbn; lia|]. split; [|split; [|split]].
    + intros x [<-|[]]. split; [rewrite E; apply in_elt|lra].
    + intros x Hx Hlt. specialize (Hm x Hx). lra.
    + exists m. split; [rewrite E; apply in_elt|reflexivity].
    + intros x [].
  - subst l. destruct (IH (l1 ++ l2) (NoDup_remove_1 _ _ _ Hn)) as (t & s & s' & N1 & N2 & L1 & L2 & H1 & H2 & (x0 & X1 & X2) & H3).
    { rewrite app_length in *. cbn [length] in Hk. lia. }
    pose proof (NoDup_remove_2 _ _ _ Hn) as Hnot.
    assert (Hsub : forall x, In x (l1 ++ l2) -> In x (l1 ++ m :: l2)) by (intros x Hx; apply in_or_app; cbn; apply in_app_or in Hx; tauto).
    assert (Hor : forall x, In x (l1 ++ m :: l2) -> x = m \/ In x (l1 ++ l2)) by (intros x Hx; apply in_app_or in Hx; cbn in Hx; rewrite in_app_iff; intuition auto).
    exists t, (m :: s), (m :: s'). split; [constructor; [intros Hin; apply Hnot, H1; exact Hin|exact N1]|]. split; [constructor; [intros Hin; apply Hnot, H3; exact Hin|exact N2]|].
    split; [cbn; lia|]. split; [cbn; lia|]. split; [|split; [|split]].
    + intros x [<-|Hx]; [|destruct (H1 x Hx); auto]. split; [apply in_elt|]. rewrite <- X2. apply Hm, Hsub, X1.
    + intros x Hx Hlt. destruct (Hor x Hx) as [->|Hx']; [left; reflexivity|right; apply H2; assumption].
    + exists x0. auto.
    + intros x [<-|Hx]; [apply in_elt|apply Hsub, H3, Hx].
Qed.

Lemma true_core_exists ds rows cols k i : (1 <= k <= rows)%nat -> exists c, true_core ds rows cols k i c.
Proof.
  intros Hk. destruct (kth_exists (true_distance ds cols i) k (seq 0 rows) (seq_NoDup _ _)) as (t & s & s' & N1 & N2 & L1 & L2 & H1 & H2 & _).
  { rewrite seq_length. exact Hk. }
  exists t, s, s'. repeat (split; [assumption|]). split.
  - intros j Hj. destruct (H1 j Hj) as [Q1 Q2]. apply in_seq in Q1. split; [lia|exact Q2].
  - intros j Hj Hlt. apply H2; [apply in_seq; lia|exact Hlt].
Qed.

Lemma true_core_unique ds rows cols k i c c' : true_core ds rows cols k i c -> true_core ds rows cols k i c' -> c = c'.
Proof.
  assert (Q : forall c c', true_core ds rows cols k i c -> true_core ds rows cols k i c' -> c' <= c).
  { clear c c'. intros c c' (l & _ & N & _ & L & _ & H & _) (_ & l' & _ & N' & _ & L' & _ & H'). destruct (Rle_or_lt c' c) as [Hle|Hlt]; [exact Hle|exfalso].
    assert (Hi : incl l l') by (intros j Hj; destruct (H j Hj) as [Q1 Q2]; apply H'; [exact Q1|lra]).
    pose proof (NoDup_incl_length N Hi). lia. }
  intros H1 H2. apply Rle_antisym; eapply Q; eassumption.
Qed.

(** The list [row] read by position. *)
Lemma filter_positions (p : f64 -> bool) row : length (filter p row) = length (filter (fun j => p (nth j row fzero)) (seq 0 (length row))).
Proof.
  assert (E : forall l a, length (filter p l) = length (filter (fun j => p (nth (j - a) l fzero)) (seq a (length l)))).
  { induction l as [|x l IH]; intros a; [reflexivity|]. cbn [length seq filter]. rewrite Nat.sub_diag. change (nth 0 (x :: l) fzero) with x.
    assert (Q : filter (fun j => p (nth (j - a) (x :: l) fzero)) (seq (S a) (length l)) = filter (fun j => p (nth (j - S a) l fzero)) (seq (S a) (length l))).
    { apply filter_ext_in. intros j Hj. apply in_seq in Hj. replace (j - a)%nat with (S (j - S a)) by lia. reflexivity. }
    rewrite Q. destruct (p x); cbn [length]; rewrite (IH (S a)); reflexivity. }
  rewrite (E row 0%nat). f_equal. apply filter_ext_in. intros j Hj. rewrite Nat.sub_0_r. reflexivity.
Qed.

(** The k-th smallest of values within the factors is within the factors. *)
Lemma core_near ds rows cols k i row c t :
  length row = rows -> (forall j, (j < rows)%nat -> is_finite (nth j row fzero) = true /\
     low ds cols * true_distance ds cols i j <= B2R (nth j row fzero) <= high ds cols * true_distance ds cols i j) ->
  kth_smallest k row c -> true_core ds rows cols k i t -> low ds cols * t <= B2R c <= high ds cols * t.
Proof.
  intros HL Hrow (Hin & K1 & K2) (l & l' & N & N' & L & L' & H & H'). pose proof (low_pos ds cols) as Lp. pose proof (high_pos ds cols) as Hp.
  assert (Fc : is_finite c = true). { apply (In_nth _ _ fzero) in Hin. destruct Hin as (j & Hj & <-). apply Hrow. lia. }
  rewrite filter_positions, HL in K1, K2. split.
  - destruct (Rle_or_lt (low ds cols * t) (B2R c)) as [Hle|Hlt]; [exact Hle|exfalso].
    assert (Hi : incl (filter (fun j => fle (nth j row fzero) c) (seq 0 rows)) l').
    { intros j Hj. apply filter_In in Hj. destruct Hj as [Hj Hf]. apply in_seq in Hj. destruct (Hrow j ltac:(lia)) as [Fj [B1 _]].
      apply (fle_R _ _ Fj Fc) in Hf. apply H'; [lia|]. apply (Rmult_lt_reg_l (low ds cols)); [exact Lp|lra]. }
    pose proof (NoDup_incl_length (NoDup_filter _ (seq_NoDup _ _)) Hi). lia.
  - destruct (Rle_or_lt (B2R c) (high ds cols * t)) as [Hle|Hlt]; [exact Hle|exfalso].
    assert (Hi : incl l (filter (fun j => flt (nth j row fzero) c) (seq 0 rows))).
    { intros j Hj. destruct (H j Hj) as [Q1 Q2]. apply filter_In. split; [apply in_seq; lia|]. destruct (Hrow j Q1) as [Fj [_ B2]].
      apply (flt_R _ _ Fj Fc). assert (high ds cols * true_distance ds cols i j <= high ds cols * t) by (apply Rmult_le_compat_l; lra). lra. }
    pose proof (NoDup_incl_length N Hi). lia.
Qed.
