(** C81: the GPU kernel. *)
From Coq Require Import Reals Lra Psatz.
From Flocq Require Import Relative.
From Flocq Require Import Core.Core IEEE754.BinarySingleNaN.
From Verif Require Import Base F64 F64Facts ListFacts ModelDistance PropDistance ModelCuda.
From Coq Require Import ZifyBool ZifyNat.
Local Open Scope Z_scope.

(** ** Single precision *)
Notation r32 := (round radix2 (SpecFloat.fexp 24 128) ZnearestE).
Lemma fexp32 : forall e, SpecFloat.fexp 24 128 e = FLT_exp (-149) 24 e.
Proof. intros e. reflexivity. Qed.
Lemma fmt32 (m e : Z) : (Z.abs m < 2 ^ 24) -> -149 <= e -> generic_format radix2 (SpecFloat.fexp 24 128) (F2R (Float radix2 m e)).
Proof.
  intros Hm He. apply (generic_format_FLT radix2 (-149) 24). exists (Float radix2 m e); [reflexivity|cbn [Fnum]; change (Zpower radix2 24) with (2 ^ 24); exact Hm|exact He].
Qed.
Lemma r32_id x : generic_format radix2 (SpecFloat.fexp 24 128) x -> r32 x = x.
Proof. intros H. apply round_generic; [apply valid_rnd_N|exact H]. Qed.
#[local] Instance vexp32 : Valid_exp (SpecFloat.fexp 24 128).
Proof. apply (fexp_correct 24 128 Hprec32). Qed.
Lemma r32_le x y : (x <= y)%R -> (r32 x <= r32 y)%R.
Proof. intros H. apply round_le; [apply vexp32|apply valid_rnd_N|exact H]. Qed.
Lemma r32_fmt x : generic_format radix2 (SpecFloat.fexp 24 128) (r32 x).
Proof. apply generic_format_round; [apply vexp32|apply valid_rnd_N]. Qed.
(** No representable number is nearer. *)
Lemma r32_near x g : generic_format radix2 (SpecFloat.fexp 24 128) g -> (Rabs (r32 x - x) <= Rabs (g - x))%R.
Proof. intros H. destruct (round_N_pt radix2 (SpecFloat.fexp 24 128) (fun x => negb (Z.even x)) x) as [_ HN]. apply HN, H. Qed.

Lemma single_of_Z_val z : 0 <= z < 2 ^ 100 -> B2R (single_of_Z z) = r32 (IZR z) /\ is_finite (single_of_Z z) = true.
Proof.
  intros Hz. unfold single_of_Z. pose proof (binary_normalize_correct 24 128 Hprec32 Hmax32 mode_NE z 0 false) as H. cbv zeta in H.
  assert (HF : F2R (Float radix2 z 0) = IZR z) by (unfold F2R; cbn [Fnum Fexp bpow]; lra). rewrite HF in H. cbn [round_mode] in H.
  rewrite Rlt_bool_true in H; [split; apply H|]. assert (0 <= r32 (IZR z))%R by (rewrite <- (round_0 radix2 (SpecFloat.fexp 24 128) ZnearestE); apply r32_le, IZR_le; lia).
  rewrite Rabs_pos_eq by assumption. apply Rle_lt_trans with (bpow radix2 100); [|apply bpow_lt; lia].
  rewrite <- (r32_id (bpow radix2 100)); [apply r32_le; rewrite <- (IZR_Zpower radix2 100) by lia; apply IZR_le; change (Zpower radix2 100) with (2 ^ 100); lia|].
  replace (bpow radix2 100) with (F2R (Float radix2 1 100)) by (unfold F2R; cbn [Fnum Fexp]; lra). apply fmt32; lia.
Qed.

(** A result in single precision, from the correctness of the operations of Flocq. *)
Lemma small_lt128 x : (Rabs x <= bpow radix2 100)%R -> (Rabs (r32 x) < bpow radix2 128)%R.
Proof.
  intros H. apply Rle_lt_trans with (bpow radix2 100); [|apply bpow_lt; lia].
  assert (G : generic_format radix2 (SpecFloat.fexp 24 128) (bpow radix2 100)).
  { replace (bpow radix2 100) with (F2R (Float radix2 1 100)) by (unfold F2R; cbn [Fnum Fexp]; lra). apply fmt32; lia. }
  apply abs_round_le_generic; [apply vexp32|apply valid_rnd_N|exact G|exact H].
Qed.
Lemma fsub32_val a b : is_finite a = true -> is_finite b = true -> (Rabs (B2R a - B2R b) <= bpow radix2 100)%R ->
  B2R (fsub32 a b) = r32 (B2R a - B2R b) /\ is_finite (fsub32 a b) = true.
Proof.
  intros Fa Fb H. pose proof (Bminus_correct 24 128 Hprec32 Hmax32 mode_NE a b Fa Fb) as Q. cbn [round_mode] in Q. rewrite Rlt_bool_true in Q by (apply small_lt128, H). split; apply Q.
Qed.
Lemma fdiv32_val a b : is_finite a = true -> B2R b <> 0%R -> (Rabs (B2R a / B2R b) <= bpow radix2 100)%R ->
  B2R (fdiv32 a b) = r32 (B2R a / B2R b) /\ is_finite (fdiv32 a b) = true.
Proof.
  intros Fa Hb H. pose proof (Bdiv_correct 24 128 Hprec32 Hmax32 mode_NE a b Hb) as Q. cbn [round_mode] in Q. rewrite Rlt_bool_true in Q by (apply small_lt128, H). destruct Q as (Q1 & Q2 & _). split; [exact Q1|]. unfold fdiv32. rewrite Q2. exact Fa.
Qed.
Lemma ceil_uint_val y r : is_finite y = true -> 0 <= r < M32 -> (IZR r - 1 < B2R y <= IZR r)%R -> ceil_uint y = Ok r.
Proof.
  intros F Hr [H1 H2]. destruct y as [s|s| |s m e Hb]; try discriminate F; cbn [ceil_uint].
  - cbn [B2R] in H1, H2. assert (r = 0); [|subst; reflexivity]. assert (IZR r < 1)%R by lra. assert (r < 1) by (apply lt_IZR; exact H). assert (-1 < r); [|lia]. apply lt_IZR. lra.
  - cbn [B2R] in H1, H2. set (z := cond_Zopp s (Zpos m)) in *. change (if s then Zneg m else Zpos m) with z. unfold F2R in H1, H2. cbn [Fnum Fexp] in H1, H2.
    assert (E : (if 0 <=? e then z * 2 ^ e else - (- z / 2 ^ (- e))) = r).
    { destruct (Z.leb_spec 0 e) as [He|He].
      - rewrite <- (IZR_Zpower radix2 e He), <- mult_IZR in H1, H2. change (Zpower radix2 e) with (2 ^ e) in *. apply le_IZR in H2. rewrite <- minus_IZR in H1. apply lt_IZR in H1. lia.
      - set (P := 2 ^ (- e)). assert (HP : 0 < P) by (apply Z.pow_pos_nonneg; lia). assert (EP : (bpow radix2 e * IZR P = 1)%R).
        { unfold P. change 2 with (radix_val radix2). rewrite (IZR_Zpower radix2 (- e)) by lia. rewrite <- bpow_plus. replace (e + - e) with 0 by lia. reflexivity. }
        assert (K1 : (r - 1) * P < z). { apply lt_IZR. rewrite mult_IZR, minus_IZR. apply Rmult_lt_compat_r with (r := IZR P) in H1; [|apply IZR_lt; exact HP]. rewrite Rmult_assoc, EP, Rmult_1_r in H1. exact H1. }
        assert (K2 : z <= r * P). { apply le_IZR. rewrite mult_IZR. apply Rmult_le_compat_r with (r := IZR P) in H2; [|apply IZR_le; lia]. rewrite Rmult_assoc, EP, Rmult_1_r in H2. exact H2. }
        assert (D : - r = - z / P) by (apply Z.div_unique with (r * P - z); [left; nia|ring]). lia. }
    rewrite E. replace ((0 <=? r) && (r <? M32)) with true by lia. reflexivity.
Qed.

(** The cells in the order of the kernel: the rows below the diagonal of a square, one after
    the other. *)
Definition cell (r c : Z) : Z := r * (r - 1) / 2 + c.
Lemma twice_tri r : 2 * (r * (r - 1) / 2) = r * (r - 1).
Proof.
  assert (E : (r * (r - 1)) mod 2 = 0); [|apply Z_div_exact_full_2 in E; lia].
  rewrite Z.mul_mod by lia. destruct (Z.mod_pos_bound r 2 ltac:(lia)) as [A B]. rewrite (Zminus_mod r 1). assert (C : r mod 2 = 0 \/ r mod 2 = 1) by lia. destruct C as [-> | ->]; reflexivity.
Qed.
Lemma near_8p p : 0 <= p < 2 ^ 24 -> (IZR (8 * p) <= r32 (IZR (8 * p + 1)) <= IZR (8 * p + 2))%R /\ (8 * p + 1 < 2 ^ 24 -> r32 (IZR (8 * p + 1)) = IZR (8 * p + 1)).
Proof.
  intros Hp. split.
  - assert (G : generic_format radix2 (SpecFloat.fexp 24 128) (IZR (8 * p))).
    { replace (IZR (8 * p)) with (F2R (Float radix2 p 3)) by (unfold F2R; cbn [Fnum Fexp bpow]; rewrite mult_IZR; change (Z.pow_pos radix2 3) with 8; lra). apply fmt32; lia. }
    pose proof (r32_near (IZR (8 * p + 1)) _ G) as H. replace (IZR (8 * p) - IZR (8 * p + 1))%R with (-1)%R in H by (rewrite plus_IZR; lra). rewrite (Rabs_left (-1)) in H by lra.
    rewrite plus_IZR in *. rewrite (plus_IZR _ 2). revert H. unfold Rabs. destruct (Rcase_abs _); intros; lra.
  - intros Hs. apply r32_id. replace (IZR (8 * p + 1)) with (F2R (Float radix2 (8 * p + 1) 0)) by (unfold F2R; cbn [Fnum Fexp bpow]; lra). apply fmt32; lia.
Qed.
(** Representable numbers from 2^k on are multiples of 2^(k-23). *)
Lemma grid32 k y : -126 <= k -> (bpow radix2 k <= y)%R -> generic_format radix2 (SpecFloat.fexp 24 128) y -> exists m, y = (IZR m * bpow radix2 (k - 23))%R.
Proof.
  intros Hk Hy G. unfold generic_format in G. set (m := Ztrunc _) in G. set (e := cexp radix2 (SpecFloat.fexp 24 128) y) in G.
  assert (He : k - 23 <= e). { unfold e, cexp. rewrite fexp32. unfold FLT_exp. assert (k + 1 <= Raux.mag radix2 y); [|lia]. apply mag_ge_bpow. replace (k + 1 - 1) with k by lia. rewrite Rabs_pos_eq; [exact Hy|]. pose proof (bpow_ge_0 radix2 k). lra. }
  exists (m * 2 ^ (e - (k - 23))). rewrite G at 1. unfold F2R. cbn [Fnum Fexp]. rewrite mult_IZR. change (2 ^ (e - (k - 23))) with (Zpower radix2 (e - (k - 23))). rewrite IZR_Zpower by lia. rewrite Rmult_assoc, <- bpow_plus. f_equal. f_equal. lia.
Qed.
(** One can be subtracted from a number between 1 and 2^23, and a number of at least 2^-100 halved, without rounding. *)
Lemma minus_one32 y : (1 <= y < bpow radix2 23)%R -> generic_format radix2 (SpecFloat.fexp 24 128) y -> generic_format radix2 (SpecFloat.fexp 24 128) (y - 1)%R.
Proof.
  intros [H1 H2] G. apply FLT_format_generic in G; [|reflexivity]. destruct G as [[m e] E B1 B2]. cbn [Fnum Fexp] in *. assert (B3 : Z.abs m < 2 ^ 24) by exact B1. clear B1. unfold F2R in E. cbn [Fnum Fexp] in E.
  destruct (Z_le_gt_dec 0 e) as [He|He].
  - rewrite <- (IZR_Zpower radix2 e He), <- mult_IZR in E. set (z := m * Zpower radix2 e) in E. change (bpow radix2 23) with (IZR (2 ^ 23)) in H2. rewrite E in H1, H2. apply le_IZR in H1. apply lt_IZR in H2.
    replace (y - 1)%R with (F2R (Float radix2 (z - 1) 0)); [apply fmt32; lia|]. unfold F2R. cbn [Fnum Fexp bpow]. rewrite minus_IZR, E. lra.
  - assert (EP : (IZR (Zpower radix2 (- e)) * bpow radix2 e = 1)%R) by (rewrite IZR_Zpower by lia; rewrite <- bpow_plus; replace (- e + e) with 0 by lia; reflexivity). set (P := Zpower radix2 (- e)) in *.
    assert (HP : 0 < P) by (apply (Zpower_gt_0 radix2); lia). pose proof (bpow_gt_0 radix2 e) as HB.
    assert (P <= m). { apply le_IZR. apply Rmult_le_reg_r with (bpow radix2 e); [exact HB|]. rewrite EP, <- E. exact H1. }
    replace (y - 1)%R with (F2R (Float radix2 (m - P) e)); [apply fmt32; [clear -B3 H HP; clearbody P; lia|exact B2]|]. unfold F2R. cbn [Fnum Fexp]. rewrite minus_IZR, Rmult_minus_distr_r, EP, E. reflexivity.
Qed.
Lemma half32 y : (y = 0 \/ bpow radix2 (-100) <= y)%R -> generic_format radix2 (SpecFloat.fexp 24 128) y -> generic_format radix2 (SpecFloat.fexp 24 128) (y / 2)%R.
Proof.
  intros [->|Hy] G; [replace (0 / 2)%R with 0%R by lra; apply generic_format_0|]. pose proof (bpow_gt_0 radix2 (-100)). unfold generic_format in G. set (m := Ztrunc _) in G. set (e := cexp radix2 (SpecFloat.fexp 24 128) y) in G.
  assert (He : -123 <= e). { unfold e, cexp. rewrite fexp32. unfold FLT_exp. assert (-99 <= Raux.mag radix2 y); [|lia]. apply mag_ge_bpow. rewrite Rabs_pos_eq by lra. exact Hy. }
  assert (Hm : Z.abs m < 2 ^ 24).
  { apply lt_IZR. rewrite abs_IZR. apply Rmult_lt_reg_r with (bpow radix2 e); [apply bpow_gt_0|]. rewrite <- (Rabs_pos_eq (bpow radix2 e)) at 1 by apply bpow_ge_0. rewrite <- Rabs_mult.
    replace (IZR m * bpow radix2 e)%R with y by exact G. change (IZR (2 ^ 24)) with (bpow radix2 24). rewrite <- bpow_plus. apply Rlt_le_trans with (1 := bpow_mag_gt radix2 y). apply bpow_le. unfold e, cexp. rewrite fexp32. unfold FLT_exp. lia. }
  replace (y / 2)%R with (F2R (Float radix2 m (e - 1))); [apply fmt32; lia|]. rewrite G at 1. unfold F2R. cbn [Fnum Fexp]. replace (e - 1) with (e + -1) by lia. rewrite bpow_plus. change (bpow radix2 (-1)) with (/ 2)%R. unfold Rdiv. ring.
Qed.
Lemma first_triangle_ok r c : 1 <= r <= 4096 -> 0 <= c < r -> deviceFistTriangleNum (cell r c + 1) = Ok r.
Proof.
  intros Hr Hc. set (p := cell r c + 1). pose proof (twice_tri r) as HT. unfold cell in p. assert (Hp : 2 * p = r * (r - 1) + 2 * c + 2) by (unfold p; lia). clearbody p. clear HT.
  assert (B1 : (2 * r - 1) * (2 * r - 1) + 8 <= 8 * p + 1) by nia. assert (B2 : 8 * p + 1 <= (2 * r + 1) * (2 * r + 1)) by nia. assert (Bp : 0 <= p < 2 ^ 24) by nia.
  unfold deviceFistTriangleNum. replace (u32 (u32 (8 * p) + 1)) with (8 * p + 1) by (unfold u32, M32; rewrite !Z.mod_small; [reflexivity|nia|rewrite Z.mod_small; nia]).
  destruct (single_of_Z_val (8 * p + 1) ltac:(nia)) as [V F]. destruct (near_8p p Bp) as [N1 N2]. set (M := r32 (IZR (8 * p + 1))) in *.
  assert (EX : 8 * p + 1 < 2 ^ 24 \/ 4096 <= 2 * r + 1) by nia.
  set (R := IZR r). assert (HR : (1 <= R <= 4096)%R) by (unfold R; split; apply IZR_le; lia).
  assert (M1 : ((2 * R - 1) * (2 * R - 1) + 7 <= M)%R). { apply Rle_trans with (2 := proj1 N1). replace ((2 * R - 1) * (2 * R - 1) + 7)%R with (IZR ((2 * r - 1) * (2 * r - 1) + 7)) by (unfold R; rewrite plus_IZR, mult_IZR, minus_IZR, mult_IZR; reflexivity). apply IZR_le. lia. }
  assert (MU : (M <= (2 * R + 1) * (2 * R + 1) + 1)%R). { apply Rle_trans with (1 := proj2 N1). replace ((2 * R + 1) * (2 * R + 1) + 1)%R with (IZR ((2 * r + 1) * (2 * r + 1) + 1)) by (unfold R; rewrite plus_IZR, mult_IZR, plus_IZR, mult_IZR; reflexivity). apply IZR_le. lia. }
  assert (MX : 8 * p + 1 < 2 ^ 24 -> (M <= (2 * R + 1) * (2 * R + 1))%R). { intros Hs. rewrite (N2 Hs). replace ((2 * R + 1) * (2 * R + 1))%R with (IZR ((2 * r + 1) * (2 * r + 1))) by (unfold R; rewrite mult_IZR, plus_IZR, mult_IZR; reflexivity). apply IZR_le. lia. }
  (* the square root *)
  destruct (Bsqrt_correct 24 128 Hprec32 Hmax32 mode_NE (single_of_Z (8 * p + 1))) as (S1 & S2 & _). cbn [round_mode] in S1. rewrite V in S1. fold M in S1. fold (sqrtf (single_of_Z (8 * p + 1))) in S1, S2. set (s := sqrtf (single_of_Z (8 * p + 1))) in *.
  assert (Fs : is_finite s = true). { rewrite S2. destruct (single_of_Z (8 * p + 1)) as [g|g| |[|] m e Hb] eqn:E; try reflexivity; try discriminate F. exfalso. rewrite <- V in M1. cbn [B2R] in M1. pose proof (F2R_lt_0 radix2 (Float radix2 (Zneg m) e) ltac:(cbn; lia)). change (cond_Zopp true (Z.pos m)) with (Zneg m) in M1. nra. }
  clear S2. set (x := sqrt M) in *. assert (Mpos : (0 <= M)%R) by nra. assert (Xsq : (x * x = M)%R) by (apply sqrt_sqrt; exact Mpos). assert (X0 : (0 <= x)%R) by apply sqrt_pos.
  assert (XL : (2 * R - 1 + / 4096 < x)%R) by nra.
  assert (FR : generic_format radix2 (SpecFloat.fexp 24 128) (2 * R + 1)%R). { replace (2 * R + 1)%R with (F2R (Float radix2 (2 * r + 1) 0)) by (unfold F2R, R; cbn [Fnum Fexp bpow]; rewrite plus_IZR, mult_IZR; lra). apply fmt32; lia. }
  assert (SU : (B2R s <= 2 * R + 1)%R).
  { rewrite S1. destruct EX as [EX|EX].
    - specialize (MX EX). rewrite <- (r32_id _ FR). apply r32_le. nra.
    - assert (XU : (x < 2 * R + 1 + / 4096)%R). { assert (4096 <= 2 * R + 1)%R by (replace (2 * R + 1)%R with (IZR (2 * r + 1)) by (unfold R; rewrite plus_IZR, mult_IZR; reflexivity); apply IZR_le; exact EX). nra. }
      destruct (Rle_or_lt (r32 x) (2 * R + 1)) as [|HC]; [assumption|]. exfalso.
      destruct (grid32 12 (r32 x) ltac:(lia)) as (k & Ek); [|apply r32_fmt|]. { change (bpow radix2 12) with 4096%R. assert (4096 <= 2 * R + 1)%R by (replace (2 * R + 1)%R with (IZR (2 * r + 1)) by (unfold R; rewrite plus_IZR, mult_IZR; reflexivity); apply IZR_le; exact EX). lra. }
      change (bpow radix2 (12 - 23)) with (/ 2048)%R in Ek. pose proof (r32_near x _ FR) as NR.
      assert (XG : (2 * R + 1 < x)%R). { destruct (Rle_or_lt x (2 * R + 1)) as [XG|]; [|assumption]. apply r32_le in XG. rewrite (r32_id _ FR) in XG. lra. }
      rewrite (Rabs_left (2 * R + 1 - x)) in NR by lra. assert (KU : (r32 x < 2 * R + 1 + / 2048)%R) by (revert NR; unfold Rabs; destruct (Rcase_abs _); intros; lra).
      rewrite Ek in HC, KU. assert (A1 : 2048 * (2 * r + 1) < k) by (apply lt_IZR; rewrite mult_IZR, plus_IZR, mult_IZR; fold R; lra).
      assert (A2 : k < 2048 * (2 * r + 1) + 1) by (apply lt_IZR; rewrite plus_IZR, mult_IZR, plus_IZR, mult_IZR; fold R; lra). lia. }
  assert (SL : (2 * R - 1 < B2R s)%R).
  { rewrite S1. assert (G : generic_format radix2 (SpecFloat.fexp 24 128) (2 * R - 1 + / 2048)%R).
    { replace (2 * R - 1 + / 2048)%R with (F2R (Float radix2 ((2 * r - 1) * 2048 + 1) (-11))); [apply fmt32; lia|]. unfold F2R, R. cbn [Fnum Fexp]. rewrite plus_IZR, mult_IZR, minus_IZR, mult_IZR. change (bpow radix2 (-11)) with (/ 2048)%R. field. }
    destruct (Rle_or_lt (2 * R - 1 + / 2048) x) as [HG|HG]; [apply r32_le in HG; rewrite (r32_id _ G) in HG; lra|].
    pose proof (r32_near x _ G) as NR. rewrite (Rabs_pos_eq (2 * R - 1 + / 2048 - x)) in NR by lra. revert NR. unfold Rabs. destruct (Rcase_abs _); intros; lra. }
  assert (GS : generic_format radix2 (SpecFloat.fexp 24 128) (B2R s)) by (rewrite S1; apply r32_fmt).
  assert (B100 : (16384 <= bpow radix2 100)%R) by (apply Rle_trans with (bpow radix2 14); [apply Req_le; reflexivity|apply bpow_le; lia]).
  destruct (single_of_Z_val 1 ltac:(lia)) as [V1 F1]. destruct (single_of_Z_val 2 ltac:(lia)) as [V2 F2].
  rewrite r32_id in V1 by (replace 1%R with (F2R (Float radix2 1 0)) by (unfold F2R; cbn; lra); apply fmt32; lia). rewrite r32_id in V2 by (replace 2%R with (F2R (Float radix2 2 0)) by (unfold F2R; cbn; lra); apply fmt32; lia).
  assert (G1 : generic_format radix2 (SpecFloat.fexp 24 128) (B2R s - 1)%R). { apply minus_one32; [|exact GS]. split; [lra|]. change (bpow radix2 23) with 8388608%R. lra. }
  destruct (fsub32_val s (single_of_Z 1) Fs F1) as [D1 D2]; [rewrite V1, Rabs_pos_eq by lra; lra|]. rewrite V1, (r32_id _ G1) in D1.
  assert (G2 : generic_format radix2 (SpecFloat.fexp 24 128) ((B2R s - 1) / 2)%R).
  { apply half32; [|exact G1]. right. destruct (grid32 0 (B2R s) ltac:(lia)) as (k & Ek); [cbn [bpow]; lra|exact GS|]. change (bpow radix2 (0 - 23)) with (/ 8388608)%R in Ek.
    apply Rle_trans with (bpow radix2 (-23)); [apply bpow_le; lia|]. change (bpow radix2 (-23)) with (/ 8388608)%R. rewrite Ek in SL |- *. assert (8388608 * (2 * r - 1) + 1 <= k).
    { apply Z.le_succ_l. fold (Z.succ (8388608 * (2 * r - 1))). apply lt_IZR. rewrite mult_IZR, minus_IZR, mult_IZR. fold R. lra. }
    assert (8388609 <= k) by lia. apply IZR_le in H0. lra. }
  destruct (fdiv32_val (fsub32 s (single_of_Z 1)) (single_of_Z 2) D2) as [Q1 Q2]; [rewrite V2; lra|rewrite V2, D1, Rabs_pos_eq by lra; lra|]. rewrite V2, D1, (r32_id _ G2) in Q1.
  apply ceil_uint_val; [exact Q2|unfold M32; lia|]. rewrite Q1. fold R. lra.
Qed.

(** ** C81: what the kernel computes *)
(** The sum of the squares of the differences of two rows, rounded as the kernel does (with
    or without fused operations), and its root in single precision. *)
Definition square_sum (fused : bool) (a : list f64) (w r c : nat) : f64 :=
  fold_left (fun sum k => let diff := fsub (nth (r * w + k) a fzero) (nth (c * w + k) a fzero) in
                          if fused then Bfma mode_NE diff diff sum else fadd sum (fmul diff diff)) (seq 0 w) fzero.
Definition gpu_distance (fused : bool) (a : list f64) (w r c : nat) : f64 := f64_of_f32 (sqrtf (single (square_sum fused a w r c))).
(** The threads of a grid, in any order. *)
Definition grid (blocks blockDim : Z) (ts : list (Z * Z)) : Prop := forall b t, In (b, t) ts <-> 0 <= b < blocks /\ 0 <= t < blockDim.

Lemma launch_ok fused a w d bd blocks V : 0 < bd -> blocks * bd <= M32 -> d <= M32 ->
  forall ts out, (forall b t, In (b, t) ts -> 0 <= b < blocks /\ 0 <= t < bd) -> d <= Z.of_nat (length out) ->
  (forall i, 0 <= i < d -> cell_value fused a w i = Ok (V i)) ->
  exists out', launch fused a w d bd out ts = Ok out' /\ length out' = length out /\
    forall i, 0 <= i -> nth_error out' (Z.to_nat i) = if (i <? d) && existsb (fun bt => bd * fst bt + snd bt =? i) ts then Some (Some (V i)) else nth_error out (Z.to_nat i).
Proof.
  intros Hbd Hg Hd. induction ts as [|[b t] ts IH]; intros out Hts Hl HV.
  - exists out. repeat split. intros i _. cbn [existsb]. rewrite andb_false_r. reflexivity.
  - destruct (Hts b t (or_introl eq_refl)) as [Hb Ht]. cbn [launch]. unfold kernel_thread. cbn [fst snd].
    assert (E : u32 (u32 (bd * b) + t) = bd * b + t) by (unfold u32; rewrite (Z.mod_small (bd * b)) by nia; apply Z.mod_small; nia). rewrite E. set (i0 := bd * b + t) in *. assert (H0 : 0 <= i0) by nia.
    destruct (Z.ltb_spec i0 d) as [Hi|Hi].
    + rewrite HV by lia. cbn [bind]. unfold zset. replace ((0 <=? i0) && (i0 <? Z.of_nat (length out))) with true by lia. cbn [bind].
      destruct (IH (upd out (Z.to_nat i0) (Some (V i0)))) as (out' & E1 & E2 & E3); [intros; apply Hts; right; assumption|rewrite upd_length; exact Hl|exact HV|]. exists out'. split; [exact E1|]. split; [rewrite E2; apply upd_length|].
      intros i Hi0. rewrite E3 by exact Hi0. cbn [existsb fst snd]. fold i0. destruct (Z.ltb_spec i d) as [Hid|Hid]; cbn [andb]; [|rewrite nth_error_upd_neq by lia; reflexivity].
      destruct (existsb _ ts); [rewrite orb_true_r; reflexivity|]. rewrite orb_false_r. destruct (Z.eqb_spec i0 i) as [<-|Hne]; [apply nth_error_upd_eq; lia|apply nth_error_upd_neq; lia].
    + cbn [bind]. destruct (IH out) as (out' & E1 & E2 & E3); [intros; apply Hts; right; assumption|exact Hl|exact HV|]. exists out'. split; [exact E1|]. split; [exact E2|].
      intros i Hi0. rewrite E3 by exact Hi0. cbn [existsb fst snd]. fold i0. destruct (Z.ltb_spec i d) as [Hid|Hid]; cbn [andb]; [|reflexivity]. replace (i0 =? i) with false by lia. reflexivity.
Qed.
Lemma cell_mono r c r' : 1 <= r -> 0 <= c -> cell r' 0 > cell r c -> 0 <= r' -> r < r'.
Proof. intros H1 H2 H3 H4. unfold cell in H3. pose proof (twice_tri r). pose proof (twice_tri r'). nia. Qed.
Lemma cell_inv i : 0 <= i -> exists r c, 1 <= r /\ 0 <= c < r /\ i = cell r c.
Proof.
  intros Hi. pattern i. apply natlike_ind; [exists 1, 0; repeat split; lia| |exact Hi]. intros j Hj (r & c & H1 & H2 & ->). destruct (Z_lt_le_dec (c + 1) r) as [Hc|Hc].
  - exists r, (c + 1). repeat split; try lia. unfold cell. lia.
  - exists (r + 1), 0. repeat split; try lia. unfold cell. pose proof (twice_tri r). pose proof (twice_tri (r + 1)). nia.
Qed.
Lemma cell_inj r c r' c' : 0 <= c < r -> 0 <= c' < r' -> cell r c = cell r' c' -> r = r' /\ c = c'.
Proof. unfold cell. intros. pose proof (twice_tri r). pose proof (twice_tri r'). assert (r = r') by nia. subst. lia. Qed.
Lemma aget_nth (a : list f64) i : (i < length a)%nat -> aget a i = Ok (nth i a fzero).
Proof. intros H. unfold aget. rewrite (nth_error_nth' a fzero H). reflexivity. Qed.
Lemma sums_ok fused a w (r c : nat) (h : nat) : (r < h)%nat -> (c < h)%nat -> length a = (h * w)%nat -> Z.of_nat (h * w) < M32 ->
  for_up 0 w (fun k sum =>
    let! num1 := aget a (Z.to_nat (u32 (u32 (Z.of_nat r * Z.of_nat w) + Z.of_nat k))) in
    let! num2 := aget a (Z.to_nat (u32 (u32 (Z.of_nat c * Z.of_nat w) + Z.of_nat k))) in
    Ok (mac fused sum (fsub num1 num2))) fzero = Ok (square_sum fused a w r c).
Proof.
  intros Hr Hc Hl HM. rewrite (for_up_fold (fun sum k => let diff := fsub (nth (r * w + k) a fzero) (nth (c * w + k) a fzero) in
                          if fused then Bfma mode_NE diff diff sum else fadd sum (fmul diff diff))); [reflexivity|].
  intros k sum Hk. assert (IX : forall x, (x < h)%nat -> Z.to_nat (u32 (u32 (Z.of_nat x * Z.of_nat w) + Z.of_nat k)) = (x * w + k)%nat /\ (x * w + k < length a)%nat).
  { intros x Hx. assert (x * w + k < h * w)%nat by nia. split; [|lia]. unfold u32. rewrite (Z.mod_small (_ * _)) by nia. rewrite Z.mod_small by nia. nia. }
  destruct (IX r Hr) as [-> L1]. destruct (IX c Hc) as [-> L2]. rewrite !aget_nth by assumption. reflexivity.
Qed.
Lemma cell_value_ok fused a w (r c h : nat) : (c < r)%nat -> (r < h)%nat -> (r <= 4096)%nat -> length a = (h * w)%nat -> Z.of_nat (h * w) < M32 ->
  cell_value fused a w (cell (Z.of_nat r) (Z.of_nat c)) = Ok (gpu_distance fused a w r c).
Proof.
  intros Hc Hr Hh Hl HM. set (R := Z.of_nat r). set (C := Z.of_nat c). assert (HR : 1 <= R <= 4096) by lia. assert (HC : 0 <= C < R) by lia. unfold cell_value.
  pose proof (twice_tri R) as TT. assert (B : 0 <= cell R C < 2 ^ 24) by (unfold cell; nia). replace (u32 (cell R C + 1)) with (cell R C + 1) by (unfold u32; rewrite Z.mod_small; unfold M32; lia).
  rewrite (first_triangle_ok R C HR HC). cbn [bind]. replace (u32 (u32 (cell R C + R) - TRIANGULAR_D R)) with C.
  - unfold R, C. rewrite (sums_ok fused a w r c h) by (try assumption; lia). reflexivity.
  - assert (T : TRIANGULAR_D R = R * (R - 1) / 2 + R). { unfold TRIANGULAR_D, u32. rewrite (Z.mod_small (R * R)) by (unfold M32; nia). rewrite Z.mod_small by (unfold M32; nia). symmetry. apply Z.div_unique with 0; [left; lia|]. nia. }
    rewrite T. unfold cell. unfold u32 at 2. rewrite (Z.mod_small (_ + _ + _)) by (unfold M32; unfold cell in B; lia). replace (R * (R - 1) / 2 + C + R - (R * (R - 1) / 2 + R)) with C by lia. symmetry. apply Z.mod_small. unfold M32. lia.
Qed.

(** Up to 4097 rows every thread order gives the same table: the distance of rows r and c is
    in cell r(r-1)/2 + c. *)
Theorem C81_kernel : forall fused a h w d blocks blockDim ts out,
  (h <= 4097)%nat -> length a = (h * w)%nat -> Z.of_nat (h * w) < M32 ->
  2 * d <= Z.of_nat h * (Z.of_nat h - 1) -> d <= Z.of_nat (length out) ->
  0 < blockDim -> d <= blocks * blockDim <= M32 -> grid blocks blockDim ts ->
  exists out', launch fused a w d blockDim out ts = Ok out' /\ length out' = length out /\
    (forall r c, (c < r)%nat -> cell (Z.of_nat r) (Z.of_nat c) < d ->
       nth_error out' (Z.to_nat (cell (Z.of_nat r) (Z.of_nat c))) = Some (Some (gpu_distance fused a w r c))) /\
    (forall i, d <= i -> 0 <= i -> nth_error out' (Z.to_nat i) = nth_error out (Z.to_nat i)).
Proof.
  intros fused a h w d blocks bd ts out Hh Hl HM Hd Ho Hbd Hg HG.
  assert (HV : forall i, 0 <= i < d -> exists v, cell_value fused a w i = Ok v).
  { intros i Hi. destruct (cell_inv i ltac:(lia)) as (r & c & H1 & H2 & ->). exists (gpu_distance fused a w (Z.to_nat r) (Z.to_nat c)). replace (cell r c) with (cell (Z.of_nat (Z.to_nat r)) (Z.of_nat (Z.to_nat c))) by (rewrite !Z2Nat.id by lia; reflexivity). assert (r < Z.of_nat h) by (unfold cell in Hi; pose proof (twice_tri r); nia).
    apply (cell_value_ok fused a w _ _ h); try assumption; lia. }
  set (V := fun i => match cell_value fused a w i with Ok v => v | _ => fzero end).
  destruct (launch_ok fused a w d bd blocks V Hbd ltac:(lia) ltac:(lia) ts out) as (out' & E1 & E2 & E3); [intros b t Hin; apply HG, Hin|exact Ho|intros i Hi; destruct (HV i Hi) as (v & Ev); unfold V; rewrite Ev; reflexivity|].
  exists out'. split; [exact E1|]. split; [exact E2|]. split.
  - intros r c Hc Hi. assert (P : 0 <= cell (Z.of_nat r) (Z.of_nat c)) by (unfold cell; pose proof (twice_tri (Z.of_nat r)); nia). rewrite E3 by exact P.
    assert (Hr : (r < h)%nat). { assert (Z.of_nat r < Z.of_nat h); [|lia]. unfold cell in Hi. pose proof (twice_tri (Z.of_nat r)). nia. }
    set (i := cell (Z.of_nat r) (Z.of_nat c)) in *. replace (existsb _ ts) with true.
    + replace (i <? d) with true by lia. cbn [andb]. unfold V, i. rewrite (cell_value_ok fused a w r c h) by (try assumption; lia). reflexivity.
    + symmetry. apply existsb_exists. exists (i / bd, i mod bd). split; [|cbn [fst snd]; pose proof (Z.div_mod i bd); lia].
      apply HG. pose proof (Z.mod_pos_bound i bd Hbd). split; [|lia]. split; [apply Z.div_pos; lia|]. apply Z.div_lt_upper_bound; [exact Hbd|]. lia.
  - intros i Hi P. rewrite E3 by exact P. replace (i <? d) with false by lia. reflexivity.
Qed.
Print Assumptions C81_kernel.

(** ** C81: the precision of a distance *)
Notation r53 := (round radix2 (SpecFloat.fexp 53 1024) ZnearestE).
Lemma to_double_val x : is_finite x = true -> B2R (f64_of_f32 x) = B2R x /\ is_finite (f64_of_f32 x) = true.
Proof.
  intros F. assert (G : r53 (B2R x) = B2R x).
  { apply round_generic; [apply valid_rnd_N|]. pose proof (generic_format_B2R 24 128 x) as G. apply (@FLT_format_generic radix2 (-149) 24 Hprec32) in G. destruct G as [f E B1 B2].
    apply (generic_format_FLT radix2 (-1074) 53). exists f; [exact E| |cbn; lia]. assert (B3 : Z.abs (Fnum f) < 2 ^ 24) by exact B1. change (Zpower radix2 53) with (2 ^ 53). lia. }
  assert (L : (Rabs (B2R x) < bpow radix2 1024)%R) by (apply Rlt_trans with (1 := abs_B2R_lt_emax 24 128 x); apply bpow_lt; lia).
  destruct x as [s|s| |s m e Hb]; try discriminate F; cbn [f64_of_f32]; [split; reflexivity|].
  pose proof (binary_normalize_correct 53 1024 Hprec Hmax mode_NE (if s then Zneg m else Zpos m) e s) as H. cbv zeta in H. cbn [round_mode] in H. change (if s then Zneg m else Zpos m) with (cond_Zopp s (Zpos m)) in *.
  change (F2R (Float radix2 (cond_Zopp s (Zpos m)) e)) with (B2R (B754_finite s m e Hb)) in H. rewrite G, Rlt_bool_true in H by exact L. split; apply H.
Qed.
Lemma single_val x : is_finite x = true -> (Rabs (r32 (B2R x)) < bpow radix2 128)%R -> B2R (single x) = r32 (B2R x) /\ is_finite (single x) = true /\ (0 < B2R x -> Bsign (single x) = false)%R.
Proof.
  intros F L. destruct x as [s|s| |s m e Hb]; try discriminate F; cbn [single].
  - cbn [B2R]. rewrite round_0 by apply valid_rnd_N. repeat split. intros HC. cbn [B2R] in HC. lra.
  - pose proof (binary_normalize_correct 24 128 Hprec32 Hmax32 mode_NE (if s then Zneg m else Zpos m) e s) as H. cbv zeta in H. cbn [round_mode] in H. change (if s then Zneg m else Zpos m) with (cond_Zopp s (Zpos m)) in *.
    change (F2R (Float radix2 (cond_Zopp s (Zpos m)) e)) with (B2R (B754_finite s m e Hb)) in H. rewrite Rlt_bool_true in H by exact L. destruct H as (H1 & H2 & H3). split; [exact H1|]. split; [exact H2|].
    intros HP. rewrite H3, Rcompare_Gt by exact HP. reflexivity.
Qed.
Lemma r32_rel x : (bpow radix2 (-126) <= x)%R -> (Rabs (r32 x - x) <= bpow radix2 (-24) * x)%R.
Proof.
  intros H. pose proof (bpow_gt_0 radix2 (-126)). pose proof (relative_error_N_FLT radix2 (-149) 24 ltac:(reflexivity) (fun x => negb (Z.even x)) x) as Q. rewrite (Rabs_pos_eq x) in Q by lra. specialize (Q H).
  assert (K : (/ 2 * bpow radix2 (- (24) + 1) = bpow radix2 (-24))%R) by (change (- (24) + 1) with (-24 + 1); rewrite bpow_plus; change (bpow radix2 1) with 2%R; lra). rewrite K in Q. exact Q.
Qed.
(** The result is within 2^-23 (relative) of the root of the sum, whose root in double
    precision is the distance that the CPU computes (without fused operations). *)
Theorem C81_precision : forall fused a w r c, let S := square_sum fused a w r c in
  (fused = false -> fsqrt S = euclidean (DDouble a) w r c) /\
  (is_finite S = true -> (bpow radix2 (-126) <= B2R S <= bpow radix2 127)%R ->
   is_finite (gpu_distance fused a w r c) = true /\
   (Rabs (B2R (gpu_distance fused a w r c) - sqrt (B2R S)) <= bpow radix2 (-23) * sqrt (B2R S))%R).
Proof.
  intros fused a w r c S. split; [intros ->; reflexivity|]. intros F [L U]. unfold gpu_distance. fold S.
  set (u := bpow radix2 (-24)). assert (Hu : u = (/ 16777216)%R) by reflexivity. pose proof (bpow_gt_0 radix2 (-126)) as P126.
  pose proof (r32_rel (B2R S) L) as E1. fold u in E1. set (T := r32 (B2R S)) in *.
  assert (G126 : generic_format radix2 (SpecFloat.fexp 24 128) (bpow radix2 (-126))) by (replace (bpow radix2 (-126)) with (F2R (Float radix2 1 (-126))) by (unfold F2R; cbn [Fnum Fexp]; lra); apply fmt32; lia).
  assert (G127 : generic_format radix2 (SpecFloat.fexp 24 128) (bpow radix2 127)) by (replace (bpow radix2 127) with (F2R (Float radix2 1 127)) by (unfold F2R; cbn [Fnum Fexp]; lra); apply fmt32; lia).
  assert (T1 : (bpow radix2 (-126) <= T)%R) by (rewrite <- (r32_id _ G126); apply r32_le; exact L). assert (T2 : (T <= bpow radix2 127)%R) by (rewrite <- (r32_id _ G127); apply r32_le; exact U).
  destruct (single_val S F) as (V1 & V2 & V3); [fold T; rewrite Rabs_pos_eq by lra; apply Rle_lt_trans with (1 := T2); apply bpow_lt; lia|]. fold T in V1. specialize (V3 ltac:(lra)).
  destruct (Bsqrt_correct 24 128 Hprec32 Hmax32 mode_NE (single S)) as (Q1 & Q2 & _). cbn [round_mode] in Q1. rewrite V1 in Q1. fold (sqrtf (single S)) in Q1, Q2.
  assert (Fq : is_finite (sqrtf (single S)) = true) by (rewrite Q2; destruct (single S) as [g|g| |g m e Hb]; try discriminate V2; cbn [Bsign] in V3; try subst g; reflexivity).
  destruct (to_double_val _ Fq) as [D1 D2]. split; [exact D2|]. rewrite D1, Q1.
  set (s := sqrt (B2R S)). set (t := sqrt T). assert (Hs : (s * s = B2R S)%R) by (apply sqrt_sqrt; lra). assert (Ht : (t * t = T)%R) by (apply sqrt_sqrt; lra). assert (s0 : (0 <= s)%R) by apply sqrt_pos. assert (t0 : (0 <= t)%R) by apply sqrt_pos.
  assert (TL : (bpow radix2 (-63) <= t)%R). { unfold t. replace (bpow radix2 (-63)) with (sqrt (bpow radix2 (-126))); [apply sqrt_le_1_alt; exact T1|]. replace (bpow radix2 (-126)) with (bpow radix2 (-63) * bpow radix2 (-63))%R by (rewrite <- bpow_plus; reflexivity). apply sqrt_square, bpow_ge_0. }
  pose proof (r32_rel t) as E2. specialize (E2 ltac:(apply Rle_trans with (2 := TL); apply bpow_le; lia)). fold u in E2. set (q := r32 t) in *.
  change (bpow radix2 (-23)) with (/ 8388608)%R. rewrite <- Hs in E1. rewrite <- Ht in E1. rewrite Hu in E1, E2. clearbody s t q. clear -E1 E2 s0 t0.
  assert (A1 : (t * t - s * s <= / 16777216 * (s * s))%R) by (apply Rle_trans with (2 := E1); apply Rle_abs). assert (A2 : (s * s - t * t <= / 16777216 * (s * s))%R) by (apply Rle_trans with (2 := E1); rewrite <- Rabs_Ropp; replace (- (t * t - s * s))%R with (s * s - t * t)%R by ring; apply Rle_abs).
  assert (C1 : (t <= s * (1 + / 33554432))%R). { apply Rsqr_incr_0_var; [unfold Rsqr; nra|nra]. }
  assert (C2 : (s * (1 - / 16777216) <= t)%R). { apply Rsqr_incr_0_var; [unfold Rsqr; nra|exact t0]. }
  revert E2. unfold Rabs. destruct (Rcase_abs (q - t)), (Rcase_abs (q - s)); intros; lra.
Qed.
Print Assumptions C81_precision.
(** Distances from 2^64 on come out infinite. *)
Theorem C81_far_rows_refuted : forall fused a w r c,
  is_finite (square_sum fused a w r c) = true -> (bpow radix2 128 <= B2R (square_sum fused a w r c))%R -> gpu_distance fused a w r c = finf.
Proof.
  intros fused a w r c. unfold gpu_distance. generalize (square_sum fused a w r c). intros S F L. replace (single S) with (@B754_infinity 24 128 false); [reflexivity|]. symmetry.
  pose proof (bpow_gt_0 radix2 128) as P. destruct S as [g|g| |g m e Hb]; try discriminate F; [cbn [B2R] in L; lra|]. cbn [single].
  pose proof (binary_normalize_correct 24 128 Hprec32 Hmax32 mode_NE (if g then Zneg m else Zpos m) e g) as H. cbv zeta in H. cbn [round_mode] in H. change (if g then Zneg m else Zpos m) with (cond_Zopp g (Zpos m)) in *.
  change (F2R (Float radix2 (cond_Zopp g (Zpos m)) e)) with (B2R (B754_finite g m e Hb)) in H.
  assert (G : (bpow radix2 128 <= r32 (B2R (B754_finite g m e Hb)))%R).
  { rewrite <- (r32_id (bpow radix2 128)); [apply r32_le; exact L|]. replace (bpow radix2 128) with (F2R (Float radix2 1 128)) by (unfold F2R; cbn [Fnum Fexp]; lra). apply fmt32; lia. }
  rewrite Rlt_bool_false in H by (rewrite Rabs_pos_eq by lra; exact G). rewrite Rlt_bool_false in H by lra. apply B2SF_inj. rewrite H. reflexivity.
Qed.
Print Assumptions C81_far_rows_refuted.

(** ** C81: limits *)
Lemma launch_cell fused a w d bd ts out out' V i : launch fused a w d bd out ts = Ok out' ->
  0 <= i < d -> d <= M32 -> 0 < bd -> (forall b t, In (b, t) ts -> 0 <= b /\ 0 <= t /\ bd * b + t < M32) -> (exists b t, In (b, t) ts /\ bd * b + t = i) ->
  cell_value fused a w i = Ok V -> nth_error out' (Z.to_nat i) = Some (Some V).
Proof.
  intros E Hi Hd Hbd Hts Hin HV. revert out E.
  assert (HW : forall ts out, (forall b t, In (b, t) ts -> 0 <= b /\ 0 <= t /\ bd * b + t < M32) -> launch fused a w d bd out ts = Ok out' -> nth_error out (Z.to_nat i) = Some (Some V) -> nth_error out' (Z.to_nat i) = Some (Some V)).
  { clear ts Hts Hin. induction ts as [|[b t] ts IH]; intros out Hts E H; cbn [launch] in E; [injection E as <-; exact H|].
    destruct (Hts b t (or_introl eq_refl)) as (H1 & H2 & H3). unfold kernel_thread in E. cbn [fst snd] in E.
    assert (EI : u32 (u32 (bd * b) + t) = bd * b + t) by (unfold u32; rewrite (Z.mod_small (bd * b)) by nia; apply Z.mod_small; nia). rewrite EI in E. set (i0 := bd * b + t) in *. assert (H0 : 0 <= i0) by nia.
    assert (Hts' : forall b t, In (b, t) ts -> 0 <= b /\ 0 <= t /\ bd * b + t < M32) by (intros; apply Hts; right; assumption).
    destruct (Z.ltb_spec i0 d) as [Hi0|Hi0]; [|cbn [bind] in E; apply (IH out Hts' E H)].
    destruct (cell_value fused a w i0) as [v| | |] eqn:Ev; cbn [bind] in E; try discriminate E. unfold zset in E. destruct ((0 <=? i0) && (i0 <? Z.of_nat (length out))) eqn:Eb; cbn [bind] in E; [|discriminate E].
    apply (IH _ Hts' E). destruct (Z.eq_dec i0 i) as [Heq|Hne]; [|rewrite nth_error_upd_neq by lia; exact H]. rewrite Heq in *. rewrite HV in Ev. injection Ev as <-. apply nth_error_upd_eq. lia. }
  induction ts as [|[b t] ts IH]; [destruct Hin as (b & t & [] & _)|]. intros out E. cbn [launch] in E.
  destruct (Hts b t (or_introl eq_refl)) as (H1 & H2 & H3). unfold kernel_thread in E. cbn [fst snd] in E.
  assert (EI : u32 (u32 (bd * b) + t) = bd * b + t) by (unfold u32; rewrite (Z.mod_small (bd * b)) by nia; apply Z.mod_small; nia). rewrite EI in E.
  assert (Hts' : forall b t, In (b, t) ts -> 0 <= b /\ 0 <= t /\ bd * b + t < M32) by (intros; apply Hts; right; assumption).
  destruct (Z.eq_dec (bd * b + t) i) as [Heq|Hne].
  - rewrite Heq in E. replace (i <? d) with true in E by lia. rewrite HV in E. cbn [bind] in E. unfold zset in E. destruct ((0 <=? i) && (i <? Z.of_nat (length out))) eqn:Eb; cbn [bind] in E; [|discriminate E].
    apply (HW ts _ Hts' E). apply nth_error_upd_eq. lia.
  - assert (Hin' : exists b t, In (b, t) ts /\ bd * b + t = i) by (destruct Hin as (b' & t' & [HE|HI] & Ei); [injection HE as -> ->; contradiction|exists b', t'; split; assumption]).
    destruct (if bd * b + t <? d then _ else _) as [o| | |]; cbn [bind] in E; try discriminate E. apply (IH Hts' Hin' o E).
Qed.
Lemma self_sum fused a w r : Forall (fun x => is_finite x = true) a -> square_sum fused a w r r = fzero.
Proof.
  intros HF. unfold square_sum. assert (HN : forall i, is_finite (nth i a fzero) = true).
  { intros i. destruct (Nat.lt_ge_cases i (length a)) as [H|H]; [rewrite Forall_forall in HF; apply HF, nth_In, H|rewrite nth_overflow by exact H; reflexivity]. }
  assert (HD : forall x, is_finite x = true -> fsub x x = fzero).
  { intros x Fx. pose proof (Bminus_correct 53 1024 Hprec Hmax mode_NE x x Fx Fx) as Q. rewrite Rminus_diag_eq in Q by reflexivity. rewrite round_0 in Q by apply valid_rnd_N. rewrite Rabs_R0, Rlt_bool_true in Q by apply bpow_gt_0. destruct Q as (Q1 & Q2 & Q3). rewrite Rcompare_Eq in Q3 by reflexivity.
    fold (fsub x x) in Q1, Q2, Q3. destruct (fsub x x) as [g|g| |g m e Hb]; try discriminate Q2; [|cbn [B2R] in Q1; pose proof (F2R_neq_0 radix2 (Float radix2 (cond_Zopp g (Zpos m)) e)) as K; exfalso; apply K; [destruct g; discriminate|exact Q1]].
    cbn [Bsign] in Q3. subst g. destruct (Bsign x); reflexivity. }
  generalize (seq 0 w). intros l. assert (H0 : forall l, fold_left (fun sum k => let diff := fsub (nth (r * w + k) a fzero) (nth (r * w + k) a fzero) in if fused then Bfma mode_NE diff diff sum else fadd sum (fmul diff diff)) l fzero = fzero).
  { induction l0 as [|k l0 IH]; [reflexivity|]. cbn [fold_left]. rewrite HD by apply HN. cbv zeta. replace (if fused then Bfma mode_NE fzero fzero fzero else fadd fzero (fmul fzero fzero)) with fzero by (destruct fused; reflexivity). exact IH. }
  apply H0.
Qed.
(** From 4098 rows on the kernel puts 0 where the distance of rows 4097 and 0 belongs: the
    square root in single precision is rounded down to the root of the previous row. *)
Theorem C81_many_rows_refuted : forall fused a h w d blocks blockDim ts out,
  (4098 <= Z.of_nat h) -> length a = (h * w)%nat -> Z.of_nat (h * w) < M32 -> Forall (fun x => is_finite x = true) a ->
  cell 4097 0 < d <= M32 -> d <= Z.of_nat (length out) -> 0 < blockDim -> d <= blocks * blockDim <= M32 -> grid blocks blockDim ts ->
  (forall out', launch fused a w d blockDim out ts = Ok out' -> nth_error out' (Z.to_nat (cell 4097 0)) = Some (Some fzero)) /\
  (d = cell 4097 0 + 1 -> exists out', launch fused a w d blockDim out ts = Ok out').
Proof.
  intros fused a h w d blocks bd ts out Hh Hl HM HF Hd Ho Hbd Hg HG.
  assert (HC : cell_value fused a w (cell 4097 0) = Ok fzero).
  { unfold cell_value. replace (deviceFistTriangleNum (u32 (cell 4097 0 + 1))) with (Ok 4096) by (vm_compute; reflexivity). cbn [bind]. cbv zeta.
    replace (u32 (u32 (cell 4097 0 + 4096) - TRIANGULAR_D 4096)) with 4096 by (vm_compute; reflexivity).
    set (q := Z.to_nat 4096). assert (Hq : 4096 = Z.of_nat q) by reflexivity. assert (Hqh : (q < h)%nat) by lia. clearbody q. rewrite Hq. rewrite (sums_ok fused a w q q h Hqh Hqh Hl HM). cbn [bind]. rewrite self_sum by exact HF. reflexivity. }
  split.
  - intros out' E. apply (launch_cell fused a w d bd ts out out' fzero (cell 4097 0) E); [|lia|exact Hbd| | |exact HC].
    + split; [vm_compute; discriminate|lia].
    + intros b t Hin. apply HG in Hin. nia.
    + clear HC. set (i := cell 4097 0) in *. assert (P : 0 <= i) by (vm_compute; discriminate). clearbody i. exists (i / bd), (i mod bd). split; [|pose proof (Z.div_mod i bd); lia].
      apply HG. pose proof (Z.mod_pos_bound i bd Hbd). split; [|lia]. split; [apply Z.div_pos; lia|]. apply Z.div_lt_upper_bound; [exact Hbd|lia].
  - intros Ed. assert (HV : forall i, 0 <= i < d -> exists v, cell_value fused a w i = Ok v).
    { intros i Hi. destruct (Z.eq_dec i (cell 4097 0)) as [->|Hne]; [exists fzero; exact HC|]. destruct (cell_inv i ltac:(lia)) as (r & c & H1 & H2 & Ei).
      exists (gpu_distance fused a w (Z.to_nat r) (Z.to_nat c)). rewrite Ei. replace (cell r c) with (cell (Z.of_nat (Z.to_nat r)) (Z.of_nat (Z.to_nat c))) by (rewrite !Z2Nat.id by lia; reflexivity).
      assert (r < 4097) by (apply (cell_mono r c); lia). apply (cell_value_ok fused a w _ _ h); try assumption; lia. }
    destruct (launch_ok fused a w d bd blocks (fun i => match cell_value fused a w i with Ok v => v | _ => fzero end) Hbd ltac:(lia) ltac:(lia) ts out) as (out' & E1 & _); [intros b t Hin; apply HG, Hin|exact Ho|intros i Hi; destruct (HV i Hi) as (v & Ev); rewrite Ev; reflexivity|].
    exists out'. exact E1.
Qed.
Print Assumptions C81_many_rows_refuted.

(** The CPU keeps the rows above the diagonal: with the table of the kernel, distance_get
    returns the distance of rows 1 and 2 when asked for rows 0 and 3. *)
Theorem C81_layout_refuted : forall fused a h w d blocks blockDim ts out cols k core,
  (4 <= h <= 4097)%nat -> length a = (h * w)%nat -> Z.of_nat (h * w) < M32 ->
  2 * d = Z.of_nat h * (Z.of_nat h - 1) -> Z.of_nat (length out) = d ->
  0 < blockDim -> d <= blocks * blockDim <= M32 -> grid blocks blockDim ts ->
  exists out', launch fused a w d blockDim out ts = Ok out' /\
    distance_get (mk_distance (Z.of_nat h) cols k out' core) 0 3 = Ok (gpu_distance fused a w 2 1).
Proof.
  intros fused a h w d blocks bd ts out cols k core Hh Hl HM Hd Ho Hbd Hg HG.
  destruct (C81_kernel fused a h w d blocks bd ts out) as (out' & E1 & E2 & E3 & _); try assumption; try lia. exists out'. split; [exact E1|].
  unfold distance_get. change (0 <? 3) with true. cbn [d_dist d_rows]. replace (get_index (Z.of_nat h) 0 3) with 2.
  - specialize (E3 2%nat 1%nat ltac:(lia)). change (cell (Z.of_nat 2) (Z.of_nat 1)) with 2 in E3. unfold zget. change (2 <? 0) with false. rewrite (E3 ltac:(nia)). reflexivity.
  - unfold get_index. rewrite Z.mul_0_r. reflexivity.
Qed.
Print Assumptions C81_layout_refuted.

(** ** Non-vacuity: four rows of one column, in blocks of four threads. *)
Definition shows (l : list (option f64)) (zs : list Z) : Prop := map (option_map B2SF) l = map (fun z => Some (B2SF (f_of_Z z))) zs.
Example C81_example :
  let a := map f_of_Z [0; 1; 3; 7] in
  let ts := rev (list_prod [0; 1] [0; 1; 2; 3]) in
  grid 2 4 ts /\ match launch true a 1 6 4 (repeat None 6) ts with Ok out => shows out [1; 3; 2; 7; 6; 4] | _ => False end /\
  feq (square_sum true a 1 3 0) (f_of_Z 49) = true /\
  match distance_compute (DDouble a) 4 1 1 with Ok d => shows (d_dist d) [1; 3; 7; 2; 6; 4] | _ => False end.
Proof.
  split; [|split; [vm_compute; reflexivity|split; vm_compute; reflexivity]]. intros b t. rewrite <- in_rev, in_prod_iff. cbn [In]. lia.
Qed.
(** A grid for the pairs of 4098 rows in blocks of 1024 threads. *)
Example C81_large : cell 4097 0 < 4098 * 4097 / 2 <= M32 /\ 4098 * 4097 / 2 <= 8199 * 1024 <= M32 /\ cell 4097 0 = 8390656.
Proof. split; [|split]; [split; vm_compute; [reflexivity|discriminate]|split; vm_compute; discriminate|reflexivity]. Qed.
