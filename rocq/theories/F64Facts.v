(** Order facts about doubles: C comparisons agree with integer comparison of
    [fkey] on non-NaN values and are false on NaN.  No axioms. *)
From Coq Require Import ZArith Bool Lia Floats.SpecFloat.
From Flocq Require Import IEEE754.BinarySingleNaN.
From Verif Require Import Base F64.
Open Scope Z_scope.

Definition notnan (a : f64) : Prop := fisnan a = false.

Lemma digits2_pos_bound p :
  2 ^ (Zpos (digits2_pos p) - 1) <= Zpos p < 2 ^ Zpos (digits2_pos p).
Proof.
  induction p as [p IH|p IH|]; cbn [digits2_pos].
  - rewrite Pos2Z.inj_succ.
    replace (Z.succ (Zpos (digits2_pos p)) - 1) with (Z.succ (Zpos (digits2_pos p) - 1)) by lia.
    rewrite !Z.pow_succ_r by lia. lia.
  - rewrite Pos2Z.inj_succ.
    replace (Z.succ (Zpos (digits2_pos p)) - 1) with (Z.succ (Zpos (digits2_pos p) - 1)) by lia.
    rewrite !Z.pow_succ_r by lia. lia.
  - cbn. lia.
Qed.

Lemma bounded_facts m e :
  bounded 53 1024 m e = true ->
  -1074 <= e <= 971 /\ Zpos m < 2 ^ 53 /\ (-1074 < e -> 2 ^ 52 <= Zpos m).
Proof.
  unfold bounded, canonical_mantissa, fexp, emin.
  rewrite andb_true_iff. intros [Hc Hb].
  apply Zeq_bool_eq in Hc. apply Zle_bool_imp_le in Hb.
  pose proof (digits2_pos_bound m) as Hd.
  set (d := Zpos (digits2_pos m)) in *.
  assert (Hd53 : d <= 53) by lia.
  repeat split; try lia.
  - assert (2 ^ d <= 2 ^ 53) by (apply Z.pow_le_mono_r; lia). lia.
  - intros He. assert (d = 53) by lia.
    replace (d - 1) with 52 in Hd by lia. lia.
Qed.

(** Value of a finite positive significand/exponent pair. *)
Definition mag (m : positive) (e : Z) : Z := Zpos m * 2 ^ (e + 1074).

Lemma mag_pos m e : -1074 <= e -> 0 < mag m e.
Proof. intros; unfold mag. apply Z.mul_pos_pos; [lia|]. apply Z.pow_pos_nonneg; lia. Qed.

Lemma mag_lt_inf m e : bounded 53 1024 m e = true -> mag m e < 2 ^ 2200.
Proof.
  intros H; apply bounded_facts in H. destruct H as [He [Hm _]].
  unfold mag.
  assert (2 ^ (e + 1074) <= 2 ^ 2045) by (apply Z.pow_le_mono_r; lia).
  assert (0 < 2 ^ (e + 1074)) by (apply Z.pow_pos_nonneg; lia).
  assert (Zpos m * 2 ^ (e + 1074) <= 2 ^ 53 * 2 ^ 2045) by nia.
  rewrite <- Z.pow_add_r in H1 by lia.
  assert (2 ^ (53 + 2045) < 2 ^ 2200) by (apply Z.pow_lt_mono_r; lia).
  lia.
Qed.

Lemma mag_lt_exp m1 e1 m2 e2 :
  bounded 53 1024 m1 e1 = true -> bounded 53 1024 m2 e2 = true ->
  e1 < e2 -> mag m1 e1 < mag m2 e2.
Proof.
  intros H1 H2 Hlt; apply bounded_facts in H1; apply bounded_facts in H2.
  destruct H1 as [He1 [Hm1 _]], H2 as [He2 [_ Hm2]].
  specialize (Hm2 ltac:(lia)). unfold mag.
  replace (e2 + 1074) with ((e1 + 1074) + (e2 - e1)) by lia.
  rewrite (Z.pow_add_r 2 (e1 + 1074) (e2 - e1)) by lia.
  assert (0 < 2 ^ (e1 + 1074)) by (apply Z.pow_pos_nonneg; lia).
  assert (2 ^ 1 <= 2 ^ (e2 - e1)) by (apply Z.pow_le_mono_r; lia).
  change (2 ^ 1) with 2 in *. change (2 ^ 53) with (2 * 2 ^ 52) in *.
  set (P := 2 ^ (e1 + 1074)) in *. set (Q := 2 ^ (e2 - e1)) in *.
  set (W := 2 ^ 52) in *.
  assert (Zpos m1 < Zpos m2 * Q) by nia.
  replace (Zpos m2 * (P * Q)) with ((Zpos m2 * Q) * P) by ring.
  nia.
Qed.

Lemma mag_cmp m1 e1 m2 e2 :
  bounded 53 1024 m1 e1 = true -> bounded 53 1024 m2 e2 = true ->
  (mag m1 e1 ?= mag m2 e2) =
  match Z.compare e1 e2 with Lt => Lt | Gt => Gt | Eq => Pcompare m1 m2 Eq end.
Proof.
  intros H1 H2. destruct (Z.compare_spec e1 e2) as [He|He|He].
  - subst e2. unfold mag.
    apply bounded_facts in H1. destruct H1 as [H1 _].
    assert (0 < 2 ^ (e1 + 1074)) by (apply Z.pow_pos_nonneg; lia).
    rewrite !(Z.mul_comm _ (2 ^ (e1 + 1074))).
    rewrite <- (Zmult_compare_compat_l (Zpos m1) (Zpos m2)) by lia. reflexivity.
  - apply Z.compare_lt_iff. now apply mag_lt_exp.
  - apply Z.compare_gt_iff. now apply mag_lt_exp.
Qed.

Lemma Bcompare_key a b :
  notnan a -> notnan b -> Bcompare a b = Some (fkey a ?= fkey b).
Proof.
  unfold notnan, fisnan, Bcompare.
  assert (Hi : 0 < 2 ^ 2200) by (apply Z.pow_pos_nonneg; lia).
  set (I := 2 ^ 2200) in *.
  destruct a as [sa|sa| |sa ma ea Ha]; destruct b as [sb|sb| |sb mb eb Hb];
    cbn [is_nan B2SF SFcompare fkey]; try discriminate; intros _ _; fold I;
    repeat match goal with
    | |- context [Zpos ?m * 2 ^ (?e + 1074)] => fold (mag m e)
    end;
    repeat match goal with
    | H : bounded 53 1024 ?m ?e = true |- _ =>
        let H1 := fresh "P" in let H2 := fresh "Q" in
        pose proof (mag_lt_inf m e H) as H1;
        pose proof (mag_pos m e (proj1 (proj1 (bounded_facts m e H)))) as H2; fold I in H1;
        revert H
    end; intros;
    try (destruct sa); try (destruct sb); f_equal; symmetry;
    try (apply Z.compare_eq_iff; reflexivity);
    try (apply Z.compare_lt_iff; lia);
    try (apply Z.compare_gt_iff; lia).
  - rewrite <- Z.compare_opp, !Z.opp_involutive. rewrite mag_cmp by assumption.
    rewrite (Z.compare_antisym ea eb).
    destruct (ea ?= eb); cbn [CompOpp]; try reflexivity.
    change (Pos.compare_cont Eq mb ma) with (mb ?= ma)%positive.
    change (Pos.compare_cont Eq ma mb) with (ma ?= mb)%positive.
    now rewrite (Pos.compare_antisym ma mb).
  - rewrite mag_cmp by assumption. destruct (ea ?= eb); reflexivity.
Qed.

Lemma flt_nan_l a b : fisnan a = true -> flt a b = false.
Proof. unfold fisnan, flt, Bltb; destruct a; cbn; intros; try discriminate; reflexivity. Qed.
Lemma flt_nan_r a b : fisnan b = true -> flt a b = false.
Proof. unfold fisnan, flt, Bltb, SFltb; destruct b; cbn; intros; try discriminate; destruct a as [|[]| |[] ]; reflexivity. Qed.
Lemma fle_nan_l a b : fisnan a = true -> fle a b = false.
Proof. unfold fisnan, fle, Bleb; destruct a; cbn; intros; try discriminate; reflexivity. Qed.
Lemma fle_nan_r a b : fisnan b = true -> fle a b = false.
Proof. unfold fisnan, fle, Bleb, SFleb; destruct b; cbn; intros; try discriminate; destruct a as [|[]| |[] ]; reflexivity. Qed.
Lemma feq_nan_l a b : fisnan a = true -> feq a b = false.
Proof. unfold fisnan, feq, Beqb; destruct a; cbn; intros; try discriminate; reflexivity. Qed.
Lemma feq_nan_r a b : fisnan b = true -> feq a b = false.
Proof. unfold fisnan, feq, Beqb, SFeqb; destruct b; cbn; intros; try discriminate; destruct a as [|[]| |[] ]; reflexivity. Qed.

Lemma flt_key a b : notnan a -> notnan b -> flt a b = (fkey a <? fkey b).
Proof.
  intros Ha Hb. pose proof (Bcompare_key a b Ha Hb) as H.
  unfold flt, Bltb, SFltb, Z.ltb. unfold Bcompare in H. rewrite H. now destruct (_ ?= _).
Qed.
Lemma fle_key a b : notnan a -> notnan b -> fle a b = (fkey a <=? fkey b).
Proof.
  intros Ha Hb. pose proof (Bcompare_key a b Ha Hb) as H.
  unfold fle, Bleb, SFleb, Z.leb. unfold Bcompare in H. rewrite H. now destruct (_ ?= _).
Qed.
Lemma feq_key a b : notnan a -> notnan b -> feq a b = (fkey a =? fkey b).
Proof.
  intros Ha Hb. pose proof (Bcompare_key a b Ha Hb) as H.
  unfold feq, Beqb, SFeqb. unfold Bcompare in H. rewrite H.
  rewrite Z.eqb_compare. now destruct (_ ?= _).
Qed.

Lemma flt_true a b : flt a b = true -> notnan a /\ notnan b /\ fkey a < fkey b.
Proof.
  intros H. unfold notnan.
  destruct (fisnan a) eqn:Ea; [rewrite flt_nan_l in H by assumption; discriminate|].
  destruct (fisnan b) eqn:Eb; [rewrite flt_nan_r in H by assumption; discriminate|].
  rewrite flt_key in H by assumption. repeat split; lia.
Qed.
Lemma fle_true a b : fle a b = true -> notnan a /\ notnan b /\ fkey a <= fkey b.
Proof.
  intros H. unfold notnan.
  destruct (fisnan a) eqn:Ea; [rewrite fle_nan_l in H by assumption; discriminate|].
  destruct (fisnan b) eqn:Eb; [rewrite fle_nan_r in H by assumption; discriminate|].
  rewrite fle_key in H by assumption. repeat split; lia.
Qed.
Lemma feq_true a b : feq a b = true -> notnan a /\ notnan b /\ fkey a = fkey b.
Proof.
  intros H. unfold notnan.
  destruct (fisnan a) eqn:Ea; [rewrite feq_nan_l in H by assumption; discriminate|].
  destruct (fisnan b) eqn:Eb; [rewrite feq_nan_r in H by assumption; discriminate|].
  rewrite feq_key in H by assumption. repeat split; lia.
Qed.

Lemma D_MAX_notnan : notnan D_MAX.
Proof. reflexivity. Qed.
Lemma fzero_notnan : notnan fzero.
Proof. reflexivity. Qed.

(** Distinct non-NaN, non-zero doubles have distinct keys. *)
Lemma fkey_inj a b : notnan a -> notnan b -> fkey a = fkey b ->
  a = b \/ (fkey a = 0 /\ exists s t, a = B754_zero s /\ b = B754_zero t).
Proof.
  intros Ha Hb Hk.
  pose proof (Bcompare_key a b Ha Hb) as H. rewrite Hk, Z.compare_refl in H.
  unfold Bcompare in H.
  destruct a as [sa|sa| |sa ma ea Ba]; destruct b as [sb|sb| |sb mb eb Bb];
    cbn [B2SF SFcompare] in H; try discriminate.
  - right. split; [reflexivity|eauto].
  - destruct sb; discriminate.
  - destruct sb; discriminate.
  - destruct sa; discriminate.
  - left. destruct sa, sb; try discriminate; reflexivity.
  - destruct sa; discriminate.
  - destruct sa; discriminate.
  - destruct sa, sb; discriminate.
  - left. destruct sa, sb; try discriminate;
    (destruct (ea ?= eb) eqn:E; try discriminate);
    apply Z.compare_eq in E; subst eb.
    + destruct (Pcompare ma mb Eq) eqn:E2; try discriminate.
      apply Pcompare_Eq_eq in E2. subst mb.
      f_equal. apply Eqdep_dec.UIP_dec, bool_dec.
    + destruct (Pcompare ma mb Eq) eqn:E2; try discriminate.
      apply Pcompare_Eq_eq in E2. subst mb.
      f_equal. apply Eqdep_dec.UIP_dec, bool_dec.
Qed.

Lemma flt_intro a b : notnan a -> notnan b -> fkey a < fkey b -> flt a b = true.
Proof. intros Ha Hb H. rewrite flt_key by assumption. now apply Z.ltb_lt. Qed.
Lemma flt_false a b : notnan a -> notnan b -> fkey b <= fkey a -> flt a b = false.
Proof. intros Ha Hb H. rewrite flt_key by assumption. now apply Z.ltb_ge. Qed.
Lemma fle_intro a b : notnan a -> notnan b -> fkey a <= fkey b -> fle a b = true.
Proof. intros Ha Hb H. rewrite fle_key by assumption. now apply Z.leb_le. Qed.
Lemma fle_false a b : notnan a -> notnan b -> fkey b < fkey a -> fle a b = false.
Proof. intros Ha Hb H. rewrite fle_key by assumption. now apply Z.leb_gt. Qed.
Lemma feq_intro a b : notnan a -> notnan b -> fkey a = fkey b -> feq a b = true.
Proof. intros Ha Hb H. rewrite feq_key by assumption. now apply Z.eqb_eq. Qed.
Lemma feq_false a b : notnan a -> notnan b -> fkey a <> fkey b -> feq a b = false.
Proof. intros Ha Hb H. rewrite feq_key by assumption. now apply Z.eqb_neq. Qed.
