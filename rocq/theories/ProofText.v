(** The lengths of printed numbers. *)
From Coq Require Import Reals Lra.
From Flocq Require Import Core.Core IEEE754.BinarySingleNaN.
From Verif Require Import Base F64 ModelText.
From Coq Require Import ZifyBool ZifyNat.
Local Open Scope nat_scope.
Notation slen := String.length.

Lemma slen_app a b : slen (a ++ b)%string = slen a + slen b.
Proof. induction a as [|c a IH]; cbn; [reflexivity|]. rewrite IH. reflexivity. Qed.
Lemma slen_fixed k : forall n, slen (fixed k n) = k.
Proof. induction k as [|k IH]; intros n; [reflexivity|]. cbn [fixed]. rewrite slen_app, IH. cbn. lia. Qed.

(** ** Digits *)
Lemma pow10 k : (10 ^ Z.of_nat (S k) = 10 * 10 ^ Z.of_nat k)%Z.
Proof. rewrite Nat2Z.inj_succ, Z.pow_succ_r by lia. reflexivity. Qed.
Lemma pow10_pos k : (0 < 10 ^ Z.of_nat k)%Z.
Proof. apply Z.pow_pos_nonneg; lia. Qed.
Lemma width_go_spec : forall fuel n, (0 <= n < 2 ^ Z.of_nat (S fuel))%Z ->
  1 <= width_go fuel n /\ (n < 10 ^ Z.of_nat (width_go fuel n))%Z /\ (2 <= width_go fuel n -> (10 ^ Z.of_nat (width_go fuel n - 1) <= n)%Z).
Proof.
  induction fuel as [|f IH]; intros n Hn; cbn [width_go].
  - split; [lia|]. split; [change (10 ^ Z.of_nat 1)%Z with 10%Z; change (2 ^ Z.of_nat 1)%Z with 2%Z in Hn; lia|lia].
  - destruct (Z.ltb_spec n 10) as [H|H]; [split; [lia|]; split; [change (10 ^ Z.of_nat 1)%Z with 10%Z; lia|lia]|].
    rewrite (Nat2Z.inj_succ (S f)), Z.pow_succ_r in Hn by lia. destruct (IH (n / 10)%Z) as (I1 & I2 & I3).
    { split; [apply Z.div_pos; lia|]. apply Z.div_lt_upper_bound; lia. }
    split; [lia|]. split; [rewrite pow10; apply Z.div_lt_upper_bound in I2 || idtac; nia|].
    intros _. destruct (Nat.eq_dec (width_go f (n / 10)) 1) as [E|E]; [rewrite E; change (10 ^ Z.of_nat (2 - 1))%Z with 10%Z; lia|].
    replace (S (width_go f (n / 10)) - 1) with (S (width_go f (n / 10) - 1)) by lia. rewrite pow10. specialize (I3 ltac:(lia)). pose proof (Z.mul_div_le n 10 ltac:(lia)). lia.
Qed.
Lemma width_spec n : (0 <= n)%Z -> 1 <= width n /\ (n < 10 ^ Z.of_nat (width n))%Z /\ (2 <= width n -> (10 ^ Z.of_nat (width n - 1) <= n)%Z).
Proof.
  intros H. apply width_go_spec. split; [exact H|]. destruct (Z.eq_dec n 0) as [->|Hz]; [reflexivity|]. pose proof (Z.log2_spec n ltac:(lia)) as [_ HL]. pose proof (Z.log2_nonneg n).
  rewrite Nat2Z.inj_succ, Z2Nat.id by lia. exact HL.
Qed.
Lemma width_le n k : (0 <= n < 10 ^ Z.of_nat k)%Z -> 1 <= k -> width n <= k.
Proof.
  intros [H0 H] Hk. destruct (width_spec n H0) as (W1 & _ & W3). destruct (Nat.le_gt_cases (width n) k) as [Q|Q]; [exact Q|exfalso].
  specialize (W3 ltac:(lia)). assert (10 ^ Z.of_nat k <= 10 ^ Z.of_nat (width n - 1))%Z by (apply Z.pow_le_mono_r; lia). lia.
Qed.
Lemma width_ge n k : (10 ^ Z.of_nat k <= n)%Z -> S k <= width n.
Proof.
  intros H. pose proof (pow10_pos k). destruct (width_spec n ltac:(lia)) as (_ & W2 & _). destruct (Nat.le_gt_cases (S k) (width n)) as [Q|Q]; [exact Q|exfalso].
  assert (10 ^ Z.of_nat (width n) <= 10 ^ Z.of_nat k)%Z by (apply Z.pow_le_mono_r; lia). lia.
Qed.
Lemma dec_le z k : (Z.abs z < 10 ^ Z.of_nat k)%Z -> 1 <= k -> slen (dec z) <= S k.
Proof.
  intros H Hk. unfold dec. destruct (Z.ltb_spec z 0); [cbn [String.length append]|]; unfold dec_nat; rewrite slen_fixed; [apply le_n_S|]; [apply width_le; lia|]. pose proof (width_le z k ltac:(lia) Hk). lia.
Qed.
Lemma dec_pos_le z k : (0 <= z < 10 ^ Z.of_nat k)%Z -> 1 <= k -> slen (dec z) <= k.
Proof. intros H Hk. unfold dec. destruct (Z.ltb_spec z 0); [lia|]. unfold dec_nat. rewrite slen_fixed. apply width_le; lia. Qed.
Lemma dec_pos z : 1 <= slen (dec z).
Proof.
  unfold dec. destruct (Z.ltb_spec z 0); [cbn [String.length append]; lia|]. unfold dec_nat. rewrite slen_fixed. apply width_spec. lia.
Qed.

(** ** Decimal fractions *)
Lemma div_even_near a b : (0 < b)%Z -> (2 * (div_even a b) * b - b <= 2 * a <= 2 * (div_even a b) * b + b)%Z.
Proof.
  intros Hb. unfold div_even. pose proof (Z.div_mod a b ltac:(lia)) as HD. pose proof (Z.mod_pos_bound a b Hb) as HM. set (q := (a / b)%Z) in *. set (r := (a mod b)%Z) in *.
  destruct (Z.ltb_spec (2 * r) b); [nia|]. destruct (Z.ltb_spec b (2 * r)); [nia|]. destruct (Z.even q); nia.
Qed.
Lemma IZR_pow10 p : IZR (10 ^ Z.of_nat p) = (10 ^ p)%R.
Proof. rewrite pow_IZR. reflexivity. Qed.
Lemma scaled_near p m e : (0 <= m)%Z -> (Rabs (IZR (scaled p m e) - IZR m * bpow radix2 e * 10 ^ p) <= / 2)%R.
Proof.
  intros Hm. unfold scaled. destruct (Z.leb_spec 0 e) as [He|He].
  - assert (E2 : IZR (2 ^ e) = bpow radix2 e) by (change 2%Z with (radix_val radix2); apply IZR_Zpower; lia). rewrite !mult_IZR, IZR_pow10, E2. unfold Rminus. rewrite Rplus_opp_r, Rabs_R0. lra.
  - set (b := (2 ^ (- e))%Z). assert (Hb : (0 < b)%Z) by (apply Z.pow_pos_nonneg; lia). pose proof (div_even_near (m * 10 ^ Z.of_nat p) b Hb) as [H1 H2].
    set (q := div_even _ b) in *. apply IZR_le in H1, H2. rewrite minus_IZR, !mult_IZR, IZR_pow10 in H1. rewrite plus_IZR, !mult_IZR, IZR_pow10 in H2.
    assert (Eb : IZR b = bpow radix2 (- e)) by (unfold b; change 2%Z with (radix_val radix2); apply IZR_Zpower; lia).
    assert (Ee : (bpow radix2 e * IZR b = 1)%R) by (rewrite Eb, <- bpow_plus; replace (e + - e)%Z with 0%Z by lia; reflexivity). assert (HbR : (0 < IZR b)%R) by (apply IZR_lt; exact Hb).
    apply Rabs_le. split; apply (Rmult_le_reg_r (IZR b) _ _ HbR).
    + replace ((IZR q - IZR m * bpow radix2 e * 10 ^ p) * IZR b)%R with (IZR q * IZR b - IZR m * 10 ^ p * (bpow radix2 e * IZR b))%R by ring. rewrite Ee. lra.
    + replace ((IZR q - IZR m * bpow radix2 e * 10 ^ p) * IZR b)%R with (IZR q * IZR b - IZR m * 10 ^ p * (bpow radix2 e * IZR b))%R by ring. rewrite Ee. lra.
Qed.
Definition units (p : nat) (x : f64) : Z := match x with B754_finite _ m e _ => scaled p (Zpos m) e | _ => 0%Z end.
Lemma units_near p x : (Rabs (IZR (units p x) - Rabs (B2R x) * 10 ^ p) <= / 2)%R.
Proof.
  destruct x as [s|s| |s m e B]; cbn [units B2R]; try (rewrite Rabs_R0, Rmult_0_l, Rminus_0_r, Rabs_R0; lra).
  pose proof (scaled_near p (Zpos m) e ltac:(lia)) as H. replace (Rabs (F2R (Float radix2 (cond_Zopp s (Zpos m)) e))) with (IZR (Zpos m) * bpow radix2 e)%R; [exact H|].
  rewrite <- F2R_Zabs, abs_cond_Zopp. reflexivity.
Qed.
(** A number half way between two decimal fractions is printed as the even one. *)
Lemma div_even_tie a b : (0 < b)%Z -> (2 * (div_even a b) * b - b = 2 * a \/ 2 * a = 2 * (div_even a b) * b + b)%Z -> Z.even (div_even a b) = true.
Proof.
  intros Hb. unfold div_even. pose proof (Z.div_mod a b ltac:(lia)) as HD. pose proof (Z.mod_pos_bound a b Hb) as HM. set (q := (a / b)%Z) in *. set (r := (a mod b)%Z) in *.
  destruct (Z.ltb_spec (2 * r) b); [nia|]. destruct (Z.ltb_spec b (2 * r)); [nia|]. destruct (Z.even q) eqn:E; [auto|]. intros _. rewrite Z.even_add, E. reflexivity.
Qed.
Lemma scaled_tie p m e : (0 <= m)%Z -> (Rabs (IZR (scaled p m e) - IZR m * bpow radix2 e * 10 ^ p) = / 2)%R -> Z.even (scaled p m e) = true.
Proof.
  intros Hm. unfold scaled. destruct (Z.leb_spec 0 e) as [He|He].
  - assert (E2 : IZR (2 ^ e) = bpow radix2 e) by (change 2%Z with (radix_val radix2); apply IZR_Zpower; lia). rewrite !mult_IZR, IZR_pow10, E2. unfold Rminus. rewrite Rplus_opp_r, Rabs_R0. lra.
  - set (b := (2 ^ (- e))%Z). assert (Hb : (0 < b)%Z) by (apply Z.pow_pos_nonneg; lia). intros H. apply (div_even_tie _ b Hb).
    set (q := div_even _ b) in *.
    assert (Eb : IZR b = bpow radix2 (- e)) by (unfold b; change 2%Z with (radix_val radix2); apply IZR_Zpower; lia).
    assert (Ee : (bpow radix2 e * IZR b = 1)%R) by (rewrite Eb, <- bpow_plus; replace (e + - e)%Z with 0%Z by lia; reflexivity).
    assert (X : ((IZR q - IZR m * bpow radix2 e * 10 ^ p) * IZR b = IZR q * IZR b - IZR m * 10 ^ p)%R).
    { replace ((IZR q - IZR m * bpow radix2 e * 10 ^ p) * IZR b)%R with (IZR q * IZR b - IZR m * 10 ^ p * (bpow radix2 e * IZR b))%R by ring. rewrite Ee. ring. }
    unfold Rabs in H. destruct (Rcase_abs _) in H; [right|left]; apply eq_IZR; rewrite ?plus_IZR, ?minus_IZR, !mult_IZR, IZR_pow10.
    + replace (IZR q - IZR m * bpow radix2 e * 10 ^ p)%R with (- / 2)%R in X by lra. lra.
    + rewrite H in X. lra.
Qed.
Lemma units_tie p x : (Rabs (IZR (units p x) - Rabs (B2R x) * 10 ^ p) = / 2)%R -> Z.even (units p x) = true.
Proof.
  destruct x as [s|s| |s m e B]; cbn [units B2R]; try (rewrite Rabs_R0, Rmult_0_l, Rminus_0_r, Rabs_R0; lra).
  intros H. apply (scaled_tie p (Zpos m) e ltac:(lia)). rewrite <- H. f_equal. f_equal. f_equal. rewrite <- F2R_Zabs, abs_cond_Zopp. reflexivity.
Qed.
Lemma units_nonneg p x : (0 <= units p x)%Z.
Proof.
  pose proof (units_near p x) as H. assert (0 <= Rabs (B2R x) * 10 ^ p)%R by (apply Rmult_le_pos; [apply Rabs_pos|apply pow_le; lra]). apply Rabs_le_inv in H.
  assert (-1 < units p x)%Z by (apply lt_IZR; lra). lia.
Qed.
Definition signed (x : f64) : bool := match x with B754_zero s | B754_infinity s | B754_finite s _ _ _ => s | B754_nan => false end.
Lemma slen_fmt nan p x : is_finite x = true -> slen (fmt nan p x) = (if signed x then 1 else 0) + width (units p x / 10 ^ Z.of_nat p) + 1 + p.
Proof.
  intros F. destruct x as [s|s| |s m e B]; try discriminate F; cbn [fmt units signed]; unfold point, dec_nat; rewrite !slen_app, !slen_fixed; destruct s; cbn [minus String.length]; rewrite ?Z.div_0_l by (pose proof (pow10_pos p); lia); lia.
Qed.
Lemma fmt_short nan p k x : is_finite x = true -> (Rabs (B2R x) <= 10 ^ k - 1)%R -> 1 <= k -> slen (fmt nan p x) <= (if signed x then 1 else 0) + k + 1 + p.
Proof.
  intros F H Hk. rewrite slen_fmt by exact F. assert (width (units p x / 10 ^ Z.of_nat p) <= k); [|lia]. pose proof (pow10_pos p) as HP. pose proof (units_nonneg p x) as HU. apply width_le; [|exact Hk].
  split; [apply Z.div_pos; lia|]. apply Z.div_lt_upper_bound; [exact HP|]. apply lt_IZR. rewrite mult_IZR, !IZR_pow10. pose proof (units_near p x) as HN. apply Rabs_le_inv in HN.
  assert (HT : (1 <= 10 ^ p)%R) by (apply pow_R1_Rle; lra). assert (Rabs (B2R x) * 10 ^ p <= (10 ^ k - 1) * 10 ^ p)%R by (apply Rmult_le_compat_r; lra). lra.
Qed.
Lemma fmt_long nan p k x : is_finite x = true -> (10 ^ k <= Rabs (B2R x))%R -> (if signed x then 1 else 0) + S k + 1 + p <= slen (fmt nan p x).
Proof.
  intros F H. rewrite slen_fmt by exact F. assert (S k <= width (units p x / 10 ^ Z.of_nat p)); [|lia]. pose proof (pow10_pos p) as HP. apply width_ge. apply Z.div_le_lower_bound; [exact HP|].
  pose proof (units_near p x) as HN. apply Rabs_le_inv in HN. assert (HT : (0 <= 10 ^ p)%R) by (apply pow_le; lra). assert (10 ^ k * 10 ^ p <= Rabs (B2R x) * 10 ^ p)%R by (apply Rmult_le_compat_r; assumption).
  assert (HR : (IZR (10 ^ Z.of_nat p * 10 ^ Z.of_nat k) < IZR (units p x + 1))%R) by (rewrite plus_IZR, mult_IZR, !IZR_pow10; lra). apply lt_IZR in HR. lia.
Qed.
Lemma fmt_special nan p x : is_finite x = false -> slen nan <= 4 -> slen (fmt nan p x) <= 4.
Proof. intros F H. destruct x as [s|s| |s m e B]; try discriminate F; cbn [fmt]; [destruct s; cbn; lia|exact H]. Qed.
Lemma fmt_any nan p x : slen nan <= 4 -> slen (fmt nan p x) <= 311 + p.
Proof.
  intros H. destruct (is_finite x) eqn:F; [|pose proof (fmt_special nan p x F H); lia].
  assert (HB : (Rabs (B2R x) <= 10 ^ 309 - 1)%R).
  { pose proof (abs_B2R_lt_emax 53 1024 x) as Q. apply Rlt_le in Q. apply (Rle_trans _ _ _ Q). replace (10 ^ 309)%R with (IZR (10 ^ 309)) by (change 309%Z with (Z.of_nat 309); apply IZR_pow10). replace (bpow radix2 1024) with (IZR (2 ^ 1024)) by (change 2%Z with (radix_val radix2); apply IZR_Zpower; lia).
    rewrite <- minus_IZR. apply IZR_le. vm_compute. discriminate. }
  pose proof (fmt_short nan p 309 x F HB ltac:(lia)). destruct (signed x); lia.
Qed.
