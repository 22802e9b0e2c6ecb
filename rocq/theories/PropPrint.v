(** C77-C80: printing. *)
From Coq Require Import Reals Lra Permutation Sorted.
From Flocq Require Import Core.Core IEEE754.BinarySingleNaN.
From Verif Require Import Base F64 F64Facts F64Arith ListFacts ModelText ProofText ModelUtils ModelArrayList ModelDistance ModelMst ModelGraph ModelCluster ModelHier ModelSelect ModelRun ModelMap ModelPrint
  SpecGraph SpecHier SpecTree SpecMain PropUtils ProofDistance PropDistance PropMst PropGraph PropHier ProofSelect ProofTreeSel PropSelect PropOutlier ProofRun PropRun PropSize ProofStab ProofSim ProofPair
  PropEnd PropStab PropInvariance F64Scale ProofScale PropScale.
From Coq Require Import ZifyBool ZifyNat.
Local Open Scope nat_scope.
Local Notation length := List.length.

(** ** Specification *)
(** One text after the other. *)
Definition cat (l : list string) : string := fold_right append ""%string l.
(** The text of a NaN is "nan" or "-nan". *)
Definition nan_text (nan : string) : Prop := nan = "nan"%string \/ nan = "-nan"%string.
(** Infinite, NaN, or at most [b] in magnitude. *)
Definition at_most (b : R) (x : f64) : Prop := is_finite x = true -> (Rabs (B2R x) <= b)%R.
(** Reading decimal digits. *)
Fixpoint all_digits (s : string) : Prop :=
  match s with EmptyString => True | String c r => 48 <= nat_of_ascii c <= 57 /\ all_digits r end.
Fixpoint read (acc : Z) (s : string) : Z :=
  match s with EmptyString => acc | String c r => read (10 * acc + (Z.of_nat (nat_of_ascii c) - 48)) r end.
(** No leading zeros. *)
Definition plain (s : string) : Prop := 1 <= slen s /\ (2 <= slen s -> (10 ^ Z.of_nat (slen s - 1) <= read 0 s)%Z).

(** ** Proofs *)
Lemma nan_len nan : nan_text nan -> slen nan <= 4.
Proof. intros [->| ->]; cbn; lia. Qed.
Lemma print_all_ok {T} (f : T -> res string) g l : (forall x, In x l -> f x = Ok (g x)) -> print_all f l = Ok (cat (map g l)).
Proof.
  induction l as [|x l IH]; intros H; [reflexivity|]. cbn [print_all map cat fold_right]. rewrite (H x (or_introl eq_refl)). cbn [bind]. rewrite IH by (intros; apply H; right; assumption). reflexivity.
Qed.
Definition ok_or_ub {T} (r : res T) : Prop := r = UB \/ exists x, r = Ok x.
Lemma print_all_or {T} (f : T -> res string) l : (forall x, In x l -> ok_or_ub (f x)) -> ok_or_ub (print_all f l).
Proof.
  induction l as [|x l IH]; intros H; [right; eexists; reflexivity|]. cbn [print_all]. destruct (H x (or_introl eq_refl)) as [E|(t & E)]; rewrite E; [left; reflexivity|]. cbn [bind].
  destruct IH as [E'|(t' & E')]; [intros; apply H; right; assumption| |]; rewrite E'; [left; reflexivity|right; eexists; reflexivity].
Qed.
Lemma print_all_ub {T} (f : T -> res string) l y : (forall x, In x l -> ok_or_ub (f x)) -> In y l -> f y = UB -> print_all f l = UB.
Proof.
  induction l as [|x l IH]; intros H Hy Ey; [destruct Hy|]. cbn [print_all]. destruct (H x (or_introl eq_refl)) as [E|(t & E)]; rewrite E; [reflexivity|]. cbn [bind].
  destruct Hy as [->|Hy]; [rewrite Ey in E; discriminate E|]. rewrite IH; [reflexivity|intros; apply H; right; assumption|exact Hy|exact Ey].
Qed.
Lemma sprintf_ok size old t : slen old + slen t < size -> sprintf size old t = Ok (old ++ t)%string.
Proof. intros H. unfold sprintf. apply Nat.ltb_lt in H. rewrite H. reflexivity. Qed.
Lemma sprintf_ub size old t : size <= slen old + slen t -> sprintf size old t = UB.
Proof. intros H. unfold sprintf. apply Nat.ltb_ge in H. rewrite H. reflexivity. Qed.
Lemma sprintf_or size old t : ok_or_ub (sprintf size old t).
Proof. unfold sprintf, ok_or_ub. destruct (_ <? _); [right; eexists; reflexivity|left; reflexivity]. Qed.
Lemma fmt_bounded nan p k x : nan_text nan -> at_most (10 ^ k - 1) x -> 2 <= k -> slen (fmt nan p x) <= k + p + 2.
Proof.
  intros HN HB Hk. destruct (is_finite x) eqn:F; [|pose proof (fmt_special nan p x F (nan_len nan HN)); lia]. pose proof (fmt_short nan p k x F (HB F) ltac:(lia)). destruct (signed x); lia.
Qed.
Lemma at_most_10 k x : at_most (10 ^ k) x -> at_most (10 ^ S k - 1) x.
Proof. intros H F. specialize (H F). cbn [pow]. assert (1 <= 10 ^ k)%R by (apply pow_R1_Rle; lra). lra. Qed.
Lemma pad_id k t : k <= slen t -> pad k t = t.
Proof. intros H. unfold pad. replace (k - slen t) with 0 by lia. reflexivity. Qed.
Lemma spaces_len k : slen (spaces k) = k.
Proof. induction k as [|k IH]; cbn; [reflexivity|]. rewrite IH. reflexivity. Qed.
Lemma pad_len k t : slen (pad k t) = Nat.max k (slen t).
Proof. unfold pad. rewrite slen_app, spaces_len. lia. Qed.
Ltac slen := rewrite ?slen_app; cbn [String.length newline tab].

(** The log never overruns its buffer. *)
Lemma logger_ok date t s : logger_write date t s = Ok match t with NONE => s | _ => (date ++ " " ++ type_text t ++ ": " ++ s)%string end.
Proof. destruct t; unfold logger_write; try reflexivity; rewrite sprintf_ok; try reflexivity; slen; cbn [type_text String.length]; lia. Qed.

Lemma euclid_sign ds cols i j : is_finite (euclidean ds cols i j) = true -> signed (euclidean ds cols i j) = false.
Proof.
  intros F. destruct (euclidean_usual ds cols i j) as [H|[H|H]]; [destruct (euclidean ds cols i j); discriminate|rewrite H; reflexivity|].
  destruct (euclidean ds cols i j) as [[|]|s| |[|] m e B]; try discriminate F; try reflexivity; discriminate H.
Qed.

(** ** C77: the text of the numbers *)
Lemma read_app a : forall acc b, read acc (a ++ b) = read (read acc a) b.
Proof. induction a as [|c a IH]; intros acc b; cbn [append read]; [reflexivity|apply IH]. Qed.
Lemma digits_app a b : all_digits a -> all_digits b -> all_digits (a ++ b).
Proof. induction a as [|c a IH]; intros Ha Hb; cbn [append all_digits]; [exact Hb|]. destruct Ha as [Hc Ha]. auto. Qed.
Lemma digit_code z : (0 <= z < 10)%Z -> nat_of_ascii (digit z) = 48 + Z.to_nat z.
Proof. intros H. unfold digit. apply nat_ascii_embedding. lia. Qed.
Lemma fixed_digits k : forall n, (0 <= n)%Z -> all_digits (fixed k n) /\ read 0 (fixed k n) = (n mod 10 ^ Z.of_nat k)%Z.
Proof.
  induction k as [|k IH]; intros n Hn; cbn [fixed]; [split; [exact I|]; rewrite Z.mod_1_r; reflexivity|].
  pose proof (Z.mod_pos_bound n 10 ltac:(lia)) as HM. destruct (IH (n / 10)%Z ltac:(apply Z.div_pos; lia)) as [H1 H2]. split.
  - apply digits_app; [exact H1|]. cbn [all_digits]. rewrite digit_code by exact HM. split; [lia|exact I].
  - rewrite read_app, H2. cbn [read]. rewrite digit_code by exact HM. rewrite pow10, Z.rem_mul_r by (pose proof (pow10_pos k); lia). lia.
Qed.
Lemma nat_plain n : (0 <= n)%Z -> all_digits (dec_nat n) /\ plain (dec_nat n) /\ read 0 (dec_nat n) = n.
Proof.
  intros Hn. unfold plain, dec_nat. rewrite slen_fixed. destruct (fixed_digits (width n) n Hn) as [H1 H2]. destruct (width_spec n Hn) as (W1 & W2 & W3).
  rewrite Z.mod_small in H2 by lia. rewrite H2. auto.
Qed.
Theorem C77_text_of_an_integer z :
  exists sign digits, dec z = (sign ++ digits)%string /\ sign = (if (z <? 0)%Z then "-" else "")%string /\
    all_digits digits /\ plain digits /\ read 0 digits = Z.abs z.
Proof.
  unfold dec. destruct (Z.ltb_spec z 0) as [H|H].
  - exists "-"%string, (dec_nat (- z)). destruct (nat_plain (- z) ltac:(lia)) as (H1 & H2 & H3). repeat split; try assumption; try apply H2. lia.
  - exists ""%string, (dec_nat z). destruct (nat_plain z H) as (H1 & H2 & H3). repeat split; try assumption; try apply H2. lia.
Qed.
Print Assumptions C77_text_of_an_integer.
Theorem C77_text_of_a_double nan p x :
  is_finite x = true ->
  exists sign whole fraction, fmt nan p x = (sign ++ whole ++ "." ++ fraction)%string /\ sign = (if Bsign x then "-" else "")%string /\
    all_digits whole /\ plain whole /\ all_digits fraction /\ slen fraction = p /\
    (Rabs (IZR (read 0 whole) + IZR (read 0 fraction) / 10 ^ p - Rabs (B2R x)) <= / 2 / 10 ^ p)%R /\
    ((Rabs (IZR (read 0 whole) + IZR (read 0 fraction) / 10 ^ p - Rabs (B2R x)) = / 2 / 10 ^ p)%R -> Z.even (read 0 whole * 10 ^ Z.of_nat p + read 0 fraction) = true).
Proof.
  intros F. set (u := units p x). pose proof (units_nonneg p x) as HU. fold u in HU. pose proof (pow10_pos p) as HP. pose proof (Z.mod_pos_bound u _ HP) as HM.
  destruct (nat_plain (u / 10 ^ Z.of_nat p) ltac:(apply Z.div_pos; lia)) as (A1 & A2 & A3). destruct (fixed_digits p (u mod 10 ^ Z.of_nat p) ltac:(lia)) as (B1 & B2). rewrite Zmod_mod in B2.
  exists (minus (Bsign x)), (dec_nat (u / 10 ^ Z.of_nat p)), (fixed p (u mod 10 ^ Z.of_nat p)). split; [destruct x as [s|s| |s m e B]; try discriminate F; reflexivity|].
  split; [reflexivity|]. split; [exact A1|]. split; [exact A2|]. split; [exact B1|]. split; [apply slen_fixed|]. rewrite A3, B2.
  assert (HT : (0 < 10 ^ p)%R) by (apply pow_lt; lra). pose proof (units_near p x) as HN. fold u in HN.
  assert (EQ : (Rabs (IZR (u / 10 ^ Z.of_nat p) + IZR (u mod 10 ^ Z.of_nat p) / 10 ^ p - Rabs (B2R x)) = Rabs (IZR u - Rabs (B2R x) * 10 ^ p) * / 10 ^ p)%R).
  { rewrite <- (Rabs_pos_eq (/ 10 ^ p)) by (apply Rlt_le, Rinv_0_lt_compat; exact HT). rewrite <- Rabs_mult. f_equal.
    rewrite (Z.div_mod u (10 ^ Z.of_nat p)) at 3 by lia. rewrite plus_IZR, mult_IZR, IZR_pow10. field. lra. }
  assert (HI : (0 < / 10 ^ p)%R) by (apply Rinv_0_lt_compat; exact HT). rewrite EQ. split.
  - apply Rmult_le_compat_r; [apply Rlt_le; exact HI|exact HN].
  - intros E. apply Rmult_eq_reg_r in E; [|lra]. replace (_ + _)%Z with u by (rewrite (Z.div_mod u (10 ^ Z.of_nat p)) at 1 by lia; ring). apply (units_tie p x E).
Qed.
Print Assumptions C77_text_of_a_double.

(** ** C77: the distances *)
Section Distances.
Variables (nan date : string) (ds : dataset) (rows cols : nat) (k : Z).
Hypothesis Hnan : nan_text nan.
Hypothesis H1 : 1 <= rows.
Hypothesis Hr : (Z.of_nat rows <= 65536)%Z.
Hypothesis HL : holds ds rows cols.
Hypothesis Hk : (0 <= k < M32 - 1)%Z.
Theorem C77_distances_print :
  (forall i j, i < j -> j < rows -> at_most (10 ^ 11 - 1) (euclidean ds cols i j)) ->
  exists d, distance_compute ds rows cols k = Ok d /\
    distances_print nan date d = Ok (cat (map (fun i =>
      "[" ++ cat (map (fun j => fmt nan 6 (euclidean ds cols i j) ++ " ") (seq (S i) (rows - S i))) ++ "]" ++ newline)%string (seq 0 rows))).
Proof.
  intros HB. destruct (C15_distance_get_euclidean ds rows cols k H1 Hr HL Hk) as (d & Ed & _ & Er & _ & HG). exists d. split; [exact Ed|]. unfold distances_print, log. rewrite Er, Nat2Z.id. cbn [logger_write bind].
  apply print_all_ok. intros i Hi. apply in_seq in Hi.
  rewrite (print_all_ok _ (fun j => fmt nan 6 (euclidean ds cols i j) ++ " ")%string); [cbn [bind]; reflexivity|].
  intros j Hj. apply in_seq in Hj. destruct (HG i j ltac:(lia) ltac:(lia)) as [-> _]. replace (i =? j) with false by lia. rewrite Nat.min_l, Nat.max_r by lia. cbn [bind].
  rewrite sprintf_ok; [reflexivity|]. slen. pose proof (euclid_sign ds cols i j) as HS.
  destruct (is_finite (euclidean ds cols i j)) eqn:F; [|pose proof (fmt_special nan 6 _ F (nan_len nan Hnan)); lia].
  pose proof (fmt_short nan 6 11 _ F (HB i j ltac:(lia) ltac:(lia) F) ltac:(lia)) as Q. rewrite HS in Q by reflexivity. lia.
Qed.
Theorem C77_far_points_overflow_refuted i j :
  i < j -> j < rows -> is_finite (euclidean ds cols i j) = true -> (10 ^ 11 <= B2R (euclidean ds cols i j))%R ->
  exists d, distance_compute ds rows cols k = Ok d /\ distances_print nan date d = UB.
Proof.
  intros Hij Hj F HB. destruct (C15_distance_get_euclidean ds rows cols k H1 Hr HL Hk) as (d & Ed & _ & Er & _ & HG). exists d. split; [exact Ed|]. unfold distances_print, log. rewrite Er, Nat2Z.id. cbn [logger_write bind].
  assert (Hrow : forall a, a < rows -> forall b, In b (seq (S a) (rows - S a)) -> ok_or_ub (let! v := distance_get d (Z.of_nat a) (Z.of_nat b) in let! s := sprintf 20 "" (fmt nan 6 v ++ " ")%string in Ok s)).
  { intros a Ha b Hb. apply in_seq in Hb. destruct (HG a b Ha ltac:(lia)) as [-> _]. cbn [bind]. generalize (if a =? b then fzero else euclidean ds cols (Nat.min a b) (Nat.max a b)). intros x. destruct (sprintf_or 20 "" (fmt nan 6 x ++ " ")%string) as [E|(t & E)]; rewrite E; [left; reflexivity|right; eexists; reflexivity]. }
  apply (print_all_ub _ _ i).
  - intros a Ha. apply in_seq in Ha. destruct (print_all_or _ _ (Hrow a ltac:(lia))) as [E|(t & E)]; rewrite E; [left; reflexivity|right; eexists; reflexivity].
  - apply in_seq. lia.
  - rewrite (print_all_ub _ _ j (Hrow i ltac:(lia))); [reflexivity|apply in_seq; lia|]. destruct (HG i j ltac:(lia) Hj) as [-> _]. replace (i =? j) with false by lia. rewrite Nat.min_l, Nat.max_r by lia. cbn [bind].
    rewrite sprintf_ub; [reflexivity|]. slen. pose proof (fmt_long nan 6 11 _ F) as Q. rewrite Rabs_pos_eq in Q by (assert (0 <= 10 ^ 11)%R by (apply pow_le; lra); lra). specialize (Q HB). lia.
Qed.
End Distances.
Print Assumptions C77_distances_print.
Print Assumptions C77_far_points_overflow_refuted.

(** ** C78: the outlier scores *)
Lemma run_within (good : f64 -> Prop) ds rows cols m fuel :
  good fzero -> 5 <= rows -> (Z.of_nat rows <= 65536)%Z -> holds ds rows cols -> 2 <= m <= rows ->
  (forall i j, i < j -> j < rows -> flt (euclidean ds cols i j) D_MAX = true /\ good (euclidean ds cols i j)) -> 2 * rows - 1 <= fuel ->
  exists d (P : parts d rows m fuel), distance_compute ds rows cols (Z.of_nat m - 1) = Ok d /\ readable d rows /\ below_max d rows /\
    (forall v c, v < rows -> nth_error (d_core d) v = Some (Some c) -> good c) /\ (forall v w, v < rows -> noise_level (p_h _ _ _ _ P) v w -> good w) /\
    (forall s q, valid s -> sorts q -> exists labels os,
      fresh_run fuel s q (Z.of_nat m) ds rows cols true = Ok (mk_hdb (Z.of_nat m) rows true (Some d) (Some (p_cs _ _ _ _ P)) (Some (mk_results labels os (h_hier (p_h _ _ _ _ P)) (p_cs _ _ _ _ P)))) /\
      outlier_scores q (p_cs _ _ _ _ P) (l_noise (h_l (p_h _ _ _ _ P))) (l_last (h_l (p_h _ _ _ _ P))) (d_core d) rows = Ok os).
Proof.
  intros G0 Hr1 Hr HL Hm HE Hf. set (W := fun x y : f64 => x = y /\ (x = D_MAX \/ good x)).
  destruct (paired_runs W ds ds rows cols cols m fuel) as (d & d' & P & P' & Ed & Ed' & HD & HB & HB' & HR & HR' & HH & H1 & _); try assumption.
  { intros x x' y y' [-> _] [-> _]. auto. } { split; [reflexivity|left; reflexivity]. } { split; [reflexivity|right; exact G0]. }
  { intros i j Hi Hj. apply HE; assumption. } { intros i j Hi Hj. apply HE; assumption. } { intros i j Hi Hj. split; [reflexivity|right; apply HE; assumption]. }
  assert (HLev : forall w w', Lev W w w' -> good w). { intros w w' ((_ & [->|H]) & Hlt & _); [discriminate Hlt|exact H]. }
  exists d, P. split; [exact Ed|]. split; [exact HR|]. split; [exact HB|]. split; [|split].
  - intros v c Hv Hc. destruct HD as (_ & _ & _ & HD). pose proof (F2_nth _ _ _ v HD) as X. rewrite Hc in X. destruct (nth_error (d_core d') v) as [[c'|]|]; try contradiction X. destruct X as (_ & [X|X]); [|exact X].
    pose proof (proj2 HB v c Hv Hc) as Y. rewrite X in Y. discriminate Y.
  - specialize (HH (fun _ _ => True) I (fun _ _ _ _ _ _ _ _ _ _ _ => I)). destruct HH as (_ & (_ & _ & _ & HNo & _) & _). intros v w Hv Hw. unfold noise_level in Hw. pose proof (F2_nth _ _ _ v HNo) as X. rewrite Hw in X.
    destruct (nth_error (l_noise (h_l (p_h _ _ _ _ P'))) v) as [[w'|]|]; try contradiction X. apply (HLev w w' X).
  - intros s q Hs Hq. destruct (H1 s q Hs Hq) as (labels & os & E & _ & _ & Eo). exists labels, os. auto.
Qed.
Lemma euclid_fin ds cols i j : flt (euclidean ds cols i j) D_MAX = true -> is_finite (euclidean ds cols i j) = true /\ fle fzero (euclidean ds cols i j) = true.
Proof.
  intros H. destruct (euclidean_usual ds cols i j) as [X|[X|X]]; [destruct (euclidean ds cols i j); discriminate|rewrite X; split; reflexivity|].
  assert (Y : fle fzero (euclidean ds cols i j) = true) by (destruct (euclidean ds cols i j) as [[|]|[|]| |[|] mm ee B]; try discriminate X; reflexivity).
  split; [|exact Y]. apply below_finite; assumption.
Qed.
Lemma fmt_min nan p x : is_finite x = true -> 2 + p <= slen (fmt nan p x).
Proof. intros F. rewrite slen_fmt by exact F. destruct (width_spec (units p x / 10 ^ Z.of_nat p)) as (H & _); [apply Z.div_pos; [apply units_nonneg|apply pow10_pos]|]. lia. Qed.
Lemma ge0_sign x : fle fzero x = true -> is_finite x = true -> (0 <= B2R x)%R.
Proof. intros H F. apply fle_R in H; [exact H|reflexivity|exact F]. Qed.
Lemma low_id v : (Z.of_nat v < 65536)%Z -> slen (dec (Z.of_nat v)) <= 5.
Proof. intros H. apply dec_pos_le; lia. Qed.
Lemma score_size w : is_finite w = true -> (1 <= B2R w)%R -> (B2R w <= bpow radix2 700)%R ->
  is_finite (fsub fone (fdiv D_MAX w)) = true /\ (10 ^ 90 <= Rabs (B2R (fsub fone (fdiv D_MAX w))))%R.
Proof.
  intros F H1 H2.
  assert (EM : (bpow radix2 1023 <= B2R D_MAX)%R).
  { unfold D_MAX, B2R, F2R. cbn [Fnum Fexp cond_Zopp]. apply Rle_trans with (IZR (radix2 ^ 52) * bpow radix2 971)%R.
    - rewrite (IZR_Zpower radix2 52) by discriminate. rewrite <- bpow_plus. apply bpow_le. lia.
    - apply Rmult_le_compat_r; [apply bpow_ge_0|]. apply IZR_le. cbn. lia. }
  assert (HM : (Rabs (B2R D_MAX) < bpow radix2 1024)%R) by apply abs_B2R_lt_emax.
  assert (HM0 : (0 <= B2R D_MAX)%R) by (apply Rle_trans with (bpow radix2 1023); [apply bpow_ge_0|exact EM]).
  rewrite Rabs_pos_eq in HM by exact HM0.
  assert (P300 : rnd (bpow radix2 300) = bpow radix2 300) by (replace (bpow radix2 300) with (IZR 1 * bpow radix2 300)%R by ring; apply grid_format; lia).
  assert (P299 : rnd (bpow radix2 299) = bpow radix2 299) by (replace (bpow radix2 299) with (IZR 1 * bpow radix2 299)%R by ring; apply grid_format; lia).
  assert (Q1 : (bpow radix2 300 <= rnd (B2R D_MAX / B2R w))%R).
  { rewrite <- P300. apply rnd_le. apply (Rmult_le_reg_r (B2R w)); [lra|]. unfold Rdiv. rewrite Rmult_assoc, Rinv_l, Rmult_1_r by lra.
    apply Rle_trans with (bpow radix2 1023); [|exact EM]. apply Rle_trans with (bpow radix2 300 * bpow radix2 700)%R; [apply Rmult_le_compat_l; [apply bpow_ge_0|exact H2]|]. rewrite <- bpow_plus. apply bpow_le. lia. }
  assert (Q2 : (rnd (B2R D_MAX / B2R w) <= B2R D_MAX)%R).
  { rewrite <- (rnd_id D_MAX) at 2. apply rnd_le. apply (Rmult_le_reg_r (B2R w)); [lra|]. unfold Rdiv. rewrite Rmult_assoc, Rinv_l, Rmult_1_r by lra. rewrite <- (Rmult_1_r (B2R D_MAX)) at 1. apply Rmult_le_compat_l; assumption. }
  assert (HB0 : (0 < bpow radix2 300)%R) by apply bpow_gt_0.
  pose proof (Bdiv_correct 53 1024 Hprec Hmax mode_NE D_MAX w ltac:(lra)) as HD. fold (rnd (B2R D_MAX / B2R w)) in HD. fold (fdiv D_MAX w) in HD.
  rewrite Rlt_bool_true in HD by (rewrite Rabs_pos_eq; lra). destruct HD as (D1 & D2 & _). change (is_finite D_MAX) with true in D2.
  pose proof (Bminus_correct 53 1024 Hprec Hmax mode_NE fone (fdiv D_MAX w) eq_refl D2) as HS. fold (fsub fone (fdiv D_MAX w)) in HS. fold (rnd (B2R fone - B2R (fdiv D_MAX w))) in HS.
  assert (R1 : B2R fone = 1%R) by (cbn; unfold F2R; cbn; lra). rewrite R1, D1 in HS. set (y := rnd (B2R D_MAX / B2R w)) in *.
  assert (E2 : bpow radix2 300 = (2 * bpow radix2 299)%R) by (change 2%R with (bpow radix2 1); rewrite <- bpow_plus; reflexivity).
  assert (HB1 : (1 <= bpow radix2 299)%R) by (change 1%R with (bpow radix2 0); apply bpow_le; lia).
  assert (L1 : (bpow radix2 299 <= - rnd (1 - y))%R).
  { replace (- rnd (1 - y))%R with (rnd (- (1 - y))) by apply round_NE_opp. rewrite <- P299. apply rnd_le. lra. }
  assert (L2 : (- rnd (1 - y) <= B2R D_MAX)%R).
  { replace (- rnd (1 - y))%R with (rnd (- (1 - y))) by apply round_NE_opp. rewrite <- (rnd_id D_MAX). apply rnd_le. lra. }
  rewrite Rlt_bool_true in HS by (rewrite <- Rabs_Ropp, Rabs_pos_eq; lra). destruct HS as (S1 & S2 & _). split; [exact S2|]. rewrite S1, <- Rabs_Ropp, Rabs_pos_eq by lra.
  apply Rle_trans with (bpow radix2 299); [|exact L1]. replace (10 ^ 90)%R with (IZR (10 ^ 90)) by (change 90%Z with (Z.of_nat 90); apply IZR_pow10).
  replace (bpow radix2 299) with (IZR (2 ^ 299)) by (apply (IZR_Zpower radix2 299); lia). apply IZR_le. vm_compute. discriminate.
Qed.
Section Scores.
Variables (nan date : string) (ds : dataset) (rows cols minPts fuel : nat) (s : schedule) (qsort : list outlier -> list outlier).
Hypothesis Hnan : nan_text nan.
Hypothesis Hr1 : 5 <= rows.
Hypothesis Hr : (Z.of_nat rows <= 65536)%Z.
Hypothesis HL : holds ds rows cols.
Hypothesis Hm : 2 <= minPts <= rows.
Hypothesis Hfuel : 2 * rows - 1 <= fuel.
Hypothesis Hs : valid s.
Hypothesis Hq : sorts qsort.
Definition score_header : string := (newline ++ slashes 54 ++ " Printing outlier Scores " ++ slashes 54 ++ newline)%string.
Definition score_line (o : outlier) : string := (dec (os_id o) ++ " : (" ++ fmt nan 6 (os_core o) ++ ", " ++ fmt nan 6 (os_score o) ++ ")" ++ newline)%string.
Theorem C78_outlier_scores_print :
  (forall i j, i < j -> j < rows -> is_finite (euclidean ds cols i j) = true /\ (B2R (euclidean ds cols i j) <= 10 ^ 68)%R) ->
  exists o r, fresh_run fuel s qsort (Z.of_nat minPts) ds rows cols true = Ok o /\ o_res o = Some r /\
    (3 <= length (r_clusters r) ->
     print_outlier_scores nan date (r_outliers r) = Ok (score_header ++ cat (map score_line (r_outliers r)) ++ slashes 134 ++ newline ++ newline)%string).
Proof.
  intros HE. assert (T68 : (10 ^ 68 < B2R D_MAX)%R).
  { replace (10 ^ 68)%R with (IZR (10 ^ 68)) by (change 68%Z with (Z.of_nat 68); apply IZR_pow10). apply Rlt_trans with (IZR (2 ^ 1000)); [apply IZR_lt; reflexivity|].
    unfold D_MAX, B2R, F2R. cbn [Fnum Fexp cond_Zopp]. replace (bpow radix2 971) with (IZR (2 ^ 971)) by (apply (IZR_Zpower radix2 971); lia). rewrite <- mult_IZR. apply IZR_lt. reflexivity. }
  assert (Hlt : forall i j, i < j -> j < rows -> flt (euclidean ds cols i j) D_MAX = true).
  { intros i j Hi Hj. destruct (HE i j Hi Hj) as [F B]. apply flt_R; [exact F|reflexivity|lra]. }
  destruct (run_within (fun x => is_finite x = true /\ (0 <= B2R x <= 10 ^ 68)%R) ds rows cols minPts fuel) as (d & P & Ed & HR & HB & HC & _ & H); try assumption.
  { split; [reflexivity|]. cbn [B2R fzero]. split; [lra|apply pow_le; lra]. }
  { intros i j Hi Hj. specialize (Hlt i j Hi Hj). split; [exact Hlt|]. destruct (HE i j Hi Hj) as [F B]. destruct (euclid_fin _ _ _ _ Hlt) as [_ G]. pose proof (ge0_sign _ G F). split; [exact F|]. lra. }
  destruct (C41_scores_of_a_run ds rows cols minPts fuel s qsort Hr1 Hr HL Hm Hlt Hfuel Hs Hq) as (o & r & E & Er & _ & HS).
  destruct (H s qsort Hs Hq) as (labels & os & E' & Eo). exists o, r. split; [exact E|]. split; [exact Er|]. intros H3. specialize (HS H3).
  rewrite E in E'. injection E' as ->. injection Er as <-. cbn [r_outliers] in *.
  destruct (part_scores d rows minPts fuel P qsort os (proj1 Hm) Hr HR HB Hq Eo) as (_ & _ & O3).
  unfold print_outlier_scores, log. cbn [logger_write bind]. rewrite (print_all_ok _ score_line); [cbn [bind]; reflexivity|].
  intros x Hx. destruct (O3 x Hx) as (v & _ & _ & _ & Hv & Hid & Hcore & _). destruct (HC v _ Hv Hcore) as [FC BC]. destruct (HS x Hx) as [S1 S2].
  assert (FS : is_finite (os_score x) = true). { destruct (os_score x) as [?|[|]| |? ? ? ?]; try reflexivity; discriminate. }
  pose proof (fmt_min nan 6 _ FC) as M1. pose proof (fmt_min nan 6 _ FS) as M2. rewrite !pad_id by lia. rewrite sprintf_ok; [reflexivity|]. slen.
  rewrite Hid. pose proof (low_id v ltac:(lia)). apply fle_R in S1, S2; try reflexivity; try exact FS. change (B2R fzero) with 0%R in S1. replace (B2R fone) with 1%R in S2 by (cbn; unfold F2R; cbn; lra).
  pose proof (fmt_bounded nan 6 69 (os_core x) Hnan) as X1. specialize (X1 ltac:(apply at_most_10; intros _; rewrite Rabs_pos_eq; lra) ltac:(lia)).
  pose proof (fmt_short nan 6 1 (os_score x) FS) as X2. specialize (X2 ltac:(rewrite Rabs_pos_eq; cbn; lra) (le_n _)). destruct (signed (os_score x)); lia.
Qed.
(** A single cluster: the scores are about -10^308 and the buffer of 100 chars overflows. *)
Theorem C78_single_cluster_overflow_refuted :
  (forall i j, i < j -> j < rows -> is_finite (euclidean ds cols i j) = true /\ (1 <= B2R (euclidean ds cols i j) <= bpow radix2 700)%R) ->
  exists o r, fresh_run fuel s qsort (Z.of_nat minPts) ds rows cols true = Ok o /\ o_res o = Some r /\
    (length (r_clusters r) = 2 -> (exists x, In x (r_outliers r) /\ feq (os_score x) fzero = false) ->
     print_outlier_scores nan date (r_outliers r) = UB).
Proof.
  intros HE. assert (T700 : (bpow radix2 700 < B2R D_MAX)%R).
  { apply Rlt_trans with (IZR (2 ^ 1000)); [replace (bpow radix2 700) with (IZR (2 ^ 700)) by (apply (IZR_Zpower radix2 700); lia); apply IZR_lt; reflexivity|].
    unfold D_MAX, B2R, F2R. cbn [Fnum Fexp cond_Zopp]. replace (bpow radix2 971) with (IZR (2 ^ 971)) by (apply (IZR_Zpower radix2 971); lia). rewrite <- mult_IZR. apply IZR_lt. reflexivity. }
  assert (Hlt : forall i j, i < j -> j < rows -> flt (euclidean ds cols i j) D_MAX = true).
  { intros i j Hi Hj. destruct (HE i j Hi Hj) as [F B]. apply flt_R; [exact F|reflexivity|lra]. }
  destruct (run_within (fun x => x = fzero \/ is_finite x = true /\ (1 <= B2R x <= bpow radix2 700)%R) ds rows cols minPts fuel) as (d & P & Ed & HR & HB & HC & HN & H); try assumption.
  { left; reflexivity. } { intros i j Hi Hj. split; [apply Hlt; assumption|right; apply HE; assumption]. }
  destruct (H s qsort Hs Hq) as (labels & os & E & Eo). do 2 eexists. split; [exact E|]. split; [reflexivity|]. cbn [r_clusters r_outliers]. intros H2 (x & Hx & Hnz).
  pose proof (parts_tree _ _ _ _ P (proj1 Hm)) as HT. cbn zeta in HT. destruct HT as (HT & _ & HSm & _). pose proof (cores_ok d rows HR HB) as Hcore. pose proof (part_scores d rows minPts fuel P qsort os (proj1 Hm) Hr HR HB Hq Eo) as (_ & _ & O3).
  destruct P as [e0 adj e h K inf cs tr root A1 A2 A3 A4 A5 A6 A7 A8 A9 A10 A11]. cbn [p_h p_cs p_K] in *.
  assert (HK : K = 1) by (destruct HSm as (X & _); lia). subst K.
  pose proof (C41_single_cluster_refuted rows e0 e adj minPts false fuel h A4 A5 A6 A7 (proj1 Hm) ltac:(lia) A8 A9 _ _ _ _ _ (Permutation_refl _) (le_n 1) (A10 _ _ (Permutation_refl _) (le_n 1)) (d_core d) qsort os Hcore Hq Eo x Hx) as (v & w & V1 & V2 & V3 & _).
  assert (Hv : v < rows) by (destruct (O3 x Hx) as (v' & _ & _ & _ & Hv' & Hid & _); lia).
  unfold print_outlier_scores, log. cbn [logger_write bind]. rewrite (print_all_ub _ _ x); [reflexivity| |exact Hx|].
  - intros y _. match goal with |- ok_or_ub (bind (sprintf ?a ?b ?c) _) => destruct (sprintf_or a b c) as [Z|(t & Z)]; rewrite Z; [left; reflexivity|right; eexists; reflexivity] end.
  - destruct (feq w fzero) eqn:Ew; [rewrite V3 in Hnz; discriminate Hnz|]. destruct (HN v w Hv V2) as [->|[Fw [B1 B2]]]; [discriminate Ew|]. destruct (score_size w Fw B1 B2) as [FS BS]. rewrite <- V3 in FS, BS.
    rewrite sprintf_ub; [reflexivity|]. slen. rewrite !pad_len. pose proof (dec_pos (os_id x)). pose proof (fmt_long nan 6 90 _ FS BS). lia.
Qed.
End Scores.
Print Assumptions C78_outlier_scores_print.
Print Assumptions C78_single_cluster_overflow_refuted.

(** ** Non-vacuity *)
Definition line_schedule : schedule := mk_schedule (fun k => seq 0 k) (fun k => seq 0 k) (fun k n => list_prod (seq 0 k) (seq 0 n)).
(** Three points on a line, and two that are far apart. *)
Example C77_example :
  match distance_compute (DInt [0; 3; 10]%Z) 3 1 1 with
  | Ok d => distances_print "nan" "" d = Ok ("[3.000000 10.000000 ]" ++ newline ++ "[7.000000 ]" ++ newline ++ "[]" ++ newline)%string
  | _ => False end /\
  match distance_compute (DDouble [fzero; f_of_Z 200000000000]) 2 1 1 with Ok d => distances_print "nan" "" d = UB | _ => False end /\
  is_finite (euclidean (DDouble [fzero; f_of_Z 200000000000]) 1 0 1) = true /\ (10 ^ 11 <= B2R (euclidean (DDouble [fzero; f_of_Z 200000000000]) 1 0 1))%R /\
  fmt "nan" 6 (fdiv (f_of_Z (-1)) (f_of_Z 3)) = "-0.333333"%string.
Proof.
  split; [vm_compute; reflexivity|]. split; [vm_compute; reflexivity|]. split; [vm_compute; reflexivity|]. split; [|vm_compute; reflexivity].
  assert (H : fle (f_of_Z 100000000000) (euclidean (DDouble [fzero; f_of_Z 200000000000]) 1 0 1) = true) by (vm_compute; reflexivity).
  destruct (f_of_Z_small 100000000000 ltac:(lia)) as [F V]. apply fle_R in H; [|exact F|vm_compute; reflexivity]. rewrite V in H. apply Rle_trans with (2 := H). rewrite pow_IZR. apply IZR_le. vm_compute. discriminate.
Qed.
(** Two clusters and an outlier; six evenly spaced points form a single cluster. *)
Definition shown (pts : list Z) (f : results -> Prop) : Prop :=
  match fresh_run 11 line_schedule (fun l => l) 2 (DInt pts) 6 1 true with Ok o => match o_res o with Some r => f r | None => False end | _ => False end.
Example C78_example :
  shown [0; 1; 2; 20; 21; 23]%Z (fun r => length (r_clusters r) = 4 /\
    print_outlier_scores "nan" "" (r_outliers r) = Ok (score_header ++ "0 : (1.000000, 0.000000)" ++ newline ++ "1 : (1.000000, 0.000000)" ++ newline ++ "2 : (1.000000, 0.000000)" ++ newline
      ++ "3 : (1.000000, 0.000000)" ++ newline ++ "4 : (1.000000, 0.000000)" ++ newline ++ "5 : (2.000000, 0.500000)" ++ newline ++ slashes 134 ++ newline ++ newline)%string) /\
  shown [0; 1; 2; 3; 4; 5]%Z (fun r => length (r_clusters r) = 2 /\ existsb (fun x => negb (feq (os_score x) fzero)) (r_outliers r) = true /\ print_outlier_scores "nan" "" (r_outliers r) = UB) /\
  forallb (fun p => (snd p <=? fst p) || fle fone (euclidean (DInt [0; 1; 2; 3; 4; 5]%Z) 1 (fst p) (snd p)) && fle (euclidean (DInt [0; 1; 2; 3; 4; 5]%Z) 1 (fst p) (snd p)) (f_of_Z 5)) (list_prod (seq 0 6) (seq 0 6)) = true.
Proof. split; [|split]; vm_compute; repeat split; reflexivity. Qed.
