(** Two runs on data that differ by a power of two (C75). *)
From Coq Require Import Reals Lra Permutation Sorted.
From Flocq Require Import Core.Core IEEE754.BinarySingleNaN.
From Verif Require Import Base F64 F64Facts F64Arith ListFacts ModelUtils ModelDistance ModelMst ModelGraph ModelCluster ModelHier ModelSelect ModelRun SpecGraph SpecHier SpecTree SpecMain
  PropUtils ProofDistance PropDistance PropMst PropGraph PropHier ProofSelect ProofTreeSel PropSelect PropOutlier ProofRun PropRun PropSize ProofStab ProofSim ProofPair PropInvariance F64Scale.
From Coq Require Import ZifyBool ZifyNat.
Local Open Scope nat_scope.

(** ** Distances *)
Definition val2 (k : Z) (x x' : f64) : Prop := is_finite x = true /\ is_finite x' = true /\ B2R x' = (B2R x * p2 k)%R.
Lemma zero_sq (a : f64) : is_finite a = true -> B2R a = 0%R -> fmul a a = fzero.
Proof.
  intros F E. destruct a as [s|s| |s m e B]; try discriminate F; [destruct s; reflexivity|]. exfalso. cbn in E. unfold F2R in E. cbn in E.
  apply Rmult_integral in E. destruct E as [E|E]; [apply eq_IZR in E; destruct s; discriminate E|]. pose proof (bpow_gt_0 radix2 e). lra.
Qed.
Lemma sign_val k a a' : val2 k a a' -> B2R a <> 0%R -> times2 k a a'.
Proof.
  intros (F & F' & E) Hz. split; [exact F|]. split; [exact F'|]. split; [exact E|].
  assert (Q : forall x : f64, is_finite x = true -> B2R x <> 0%R -> Bsign x = Rlt_bool (B2R x) 0).
  { intros x Fx Hx. destruct x as [s|s| |s m e B]; try discriminate Fx; [exfalso; apply Hx; reflexivity|]. cbn [Bsign B2R]. destruct s; symmetry.
    - apply Rlt_bool_true. apply F2R_lt_0. reflexivity.
    - apply Rlt_bool_false. apply F2R_ge_0. cbn. lia. }
  pose proof (bpow_gt_0 radix2 k) as Hp. rewrite (Q a F Hz), (Q a' F'); [|rewrite E; intros C; apply Rmult_integral in C; lra]. rewrite E.
  unfold Rlt_bool. rewrite cmp_scale. reflexivity.
Qed.
Lemma square_times2 k a a' : rng (-252) (p2 201) a -> val2 k a a' -> (-100 <= k <= 100)%Z -> rng (-504) (p2 402) (fmul a a) /\ times2 (2 * k) (fmul a a) (fmul a' a').
Proof.
  intros HR HV Hk. destruct (Req_dec (B2R a) 0) as [Hz|Hz].
  - destruct HV as (F & F' & E). rewrite (zero_sq a F Hz), (zero_sq a' F') by (rewrite E, Hz; ring). split; [|repeat split; cbn; ring].
    split; [reflexivity|]. split; [apply grid_0|]. cbn [B2R fzero]. rewrite Rabs_R0. apply bpow_ge_0.
  - pose proof (sign_val k a a' HV Hz) as HT. replace (2 * k)%Z with (k + k)%Z by lia. change (-504)%Z with (-252 + -252)%Z. change 402%Z with (201 + 201)%Z. apply mul_times2; auto; unfold small; lia.
Qed.
Lemma sub_val2 k a a' b b' : rng (-252) (p2 200) a -> rng (-252) (p2 200) b -> val2 k a a' -> val2 k b b' -> (-100 <= k <= 100)%Z ->
  rng (-252) (p2 201) (fsub a b) /\ val2 k (fsub a b) (fsub a' b').
Proof.
  intros (Fa & Ga & Ba) (Fb & Gb & Bb) (_ & Fa' & Ea) (_ & Fb' & Eb) Hk. pose proof (grid_minus _ _ _ Ga Gb) as HG.
  pose proof (rnd_scale_grid _ _ k HG ltac:(lia) ltac:(lia)) as HS.
  assert (HR : (Rabs (rnd (B2R a - B2R b)) <= p2 201)%R).
  { apply rnd_bound; [lia|]. replace (p2 201) with (p2 200 + p2 200)%R by (replace 201%Z with (200 + 1)%Z by lia; rewrite (bpow_plus radix2 200 1); change (p2 1) with 2%R; ring). unfold Rminus. eapply Rle_trans; [apply Rabs_triang|]. rewrite Rabs_Ropp. lra. }
  assert (HM : (p2 201 <= p2 700)%R) by (apply bpow_le; lia).
  pose proof (Bminus_correct 53 1024 Hprec Hmax mode_NE a b Fa Fb) as H. pose proof (Bminus_correct 53 1024 Hprec Hmax mode_NE a' b' Fa' Fb') as H'.
  fold (fsub a b) in H. fold (fsub a' b') in H'. rewrite Ea, Eb, <- Rmult_minus_distr_r in H'. fold (rnd (B2R a - B2R b)) in H. fold (rnd ((B2R a - B2R b) * p2 k)) in H'. rewrite HS in H'.
  rewrite Rlt_bool_true in H by (apply (under_big0 _ _ HR HM)). rewrite Rlt_bool_true in H' by (apply (under_big _ _ _ HR HM); unfold small; lia).
  destruct H as (H1 & H2 & _), H' as (H1' & H2' & _). split; [split; [exact H2|split; [rewrite H1; apply rnd_grid; [exact HG|lia]|rewrite H1; exact HR]]|].
  split; [exact H2|]. split; [exact H2'|]. rewrite H1', H1. reflexivity.
Qed.
(** The data of the second run: every coordinate difference is scaled. *)
Definition diffs2 (k : Z) (ds ds' : dataset) (rows cols : nat) : Prop :=
  forall i j c, i < j -> j < rows -> c < cols ->
    let a := coord_diff ds (i * cols + c) (j * cols + c) in let a' := coord_diff ds' (i * cols + c) (j * cols + c) in rng (-252) (p2 201) a /\ val2 k a a'.
Lemma nonneg_of_sign (x : f64) : Bsign x = false -> (0 <= B2R x)%R.
Proof. intros Hx. destruct x as [s|s| |s m e B]; cbn [B2R Bsign] in *; try lra. subst s. apply F2R_ge_0. cbn. lia. Qed.
Lemma euclid2 k ds ds' rows cols i j : diffs2 k ds ds' rows cols -> (-100 <= k <= 100)%Z -> i < j -> j < rows -> dist2 k (euclidean ds cols i j) (euclidean ds' cols i j).
Proof.
  intros HD Hk Hi Hj. unfold euclidean. specialize (HD i j). cbn zeta in HD. unfold dist2.
  assert (H : forall l a a', (forall c, In c l -> c < cols) -> rng (-504) (p2 457) a /\ times2 (2 * k) a a' /\ Bsign a = false ->
    let f := fun ds s c => let diff := coord_diff ds (i * cols + c) (j * cols + c) in fadd s (fmul diff diff) in
    rng (-504) (p2 457) (fold_left (f ds) l a) /\ times2 (2 * k) (fold_left (f ds) l a) (fold_left (f ds') l a') /\ Bsign (fold_left (f ds) l a) = false).
  { induction l as [|c l IH]; intros a a' Hc Ha; cbn zeta; cbn [fold_left]; [exact Ha|]. apply IH; [intros; apply Hc; right; assumption|].
    destruct Ha as (R1 & T1 & S1). destruct (HD c Hi Hj (Hc c (or_introl eq_refl))) as [RD VD]. destruct (square_times2 k _ _ RD VD Hk) as [R2 T2].
    set (x := fmul (coord_diff ds (i * cols + c) (j * cols + c)) (coord_diff ds (i * cols + c) (j * cols + c))) in *.
    assert (B : (Rabs (rnd (B2R a + B2R x)) <= p2 457)%R) by (apply (rnd_absorb a _ 402); [lia|apply R1|apply R2]).
    destruct (add_times2 (-504) (p2 457) _ _ (2 * k) a a' _ _ R1 R2 T1 T2 ltac:(lia) ltac:(unfold small; lia) ltac:(apply bpow_le; lia) B) as [R3 T3].
    split; [exact R3|]. split; [exact T3|]. destruct (fadd_unsigned a x (or_intror S1) (fsquare_unsigned _)) as [HN|HS]; [|exact HS]. destruct R3 as [F _]. apply finite_nan in F. unfold fisnan in HN. congruence. }
  destruct (H (seq 0 cols) fzero fzero) as (R & T & Sg); clear H.
  { intros c Hc. apply in_seq in Hc. lia. }
  { split; [|split; [repeat split; cbn; ring|reflexivity]]. split; [reflexivity|]. split; [apply grid_0|]. cbn [B2R fzero]. rewrite Rabs_R0. apply bpow_ge_0. }
  apply sqrt_times2; try assumption; try lia; [|apply nonneg_of_sign; exact Sg]. apply (rng_weaken (-504) _ (p2 457)); [exact R|lia|apply bpow_le; lia].
Qed.

(** ** The relation of the two runs *)
Definition W2 (k : Z) (x x' : f64) : Prop := dist2 k x x' \/ x = D_MAX /\ x' = D_MAX.
Lemma R_max : (p2 700 < B2R D_MAX)%R.
Proof. change (B2R D_MAX) with (IZR 9007199254740991 * p2 971)%R. rewrite <- (Rmult_1_l (p2 700)). apply Rmult_lt_compat; [lra|apply bpow_ge_0|apply IZR_lt; lia|apply bpow_lt; lia]. Qed.
Lemma dist2_max k x x' : dist2 k x x' -> (-100 <= k <= 100)%Z -> flt x D_MAX = true /\ flt x' D_MAX = true.
Proof.
  intros [(F & S1 & _ & U) (_ & F' & E & _)] Hk. pose proof R_max as HM. split; (apply flt_R; [assumption|reflexivity|]).
  - apply Rle_lt_trans with (1 := U). apply Rlt_trans with (2 := HM). apply bpow_lt. lia.
  - rewrite E. apply Rle_lt_trans with (p2 229 * p2 k)%R; [apply Rmult_le_compat_r; [apply bpow_ge_0|exact U]|]. rewrite <- bpow_plus. apply Rlt_trans with (2 := HM). apply bpow_lt. lia.
Qed.
Lemma W2_cmp k : (-100 <= k <= 100)%Z -> same_cmp (W2 k).
Proof.
  intros Hk.
  assert (A : forall x x', W2 k x x' -> notnan x /\ notnan x').
  { intros x x' [H|[-> ->]]; [|split; reflexivity]. destruct (dist2_max k x x' H Hk) as [A B]. apply flt_true in A, B. tauto. }
  assert (B : forall x x' y y', W2 k x x' -> W2 k y y' -> flt x y = flt x' y').
  { intros x x' y y' [Hx|[-> ->]] [Hy|[-> ->]]; [| | |reflexivity].
    - unfold flt, Bltb, SpecFloat.SFltb. rewrite (finite_cmp k x x' y y' (proj2 Hx) (proj2 Hy)). reflexivity.
    - destruct (dist2_max k x x' Hx Hk) as [-> ->]. reflexivity.
    - destruct (dist2_max k y y' Hy Hk) as [G1 G2]. apply flt_true in G1, G2. rewrite !flt_key by tauto. clear -G1 G2. lia. }
  intros x x' y y' Hx Hy. split; [apply B; assumption|]. destruct (A x x' Hx) as [Nx Nx'], (A y y' Hy) as [Ny Ny']. destruct (by_lt x y Nx Ny) as [-> ->], (by_lt x' y' Nx' Ny') as [-> ->].
  rewrite (B x x' y y' Hx Hy), (B y y' x x' Hy Hx). split; reflexivity.
Qed.
Lemma W2_zero k : W2 k fzero fzero.
Proof.
  left. split; [|repeat split; cbn; ring]. split; [reflexivity|]. split; [reflexivity|]. split; [left; reflexivity|]. cbn [B2R fzero]. apply bpow_ge_0.
Qed.
Lemma lev2 k x x' : Lev (W2 k) x x' -> dist2 k x x'.
Proof. intros [[H|[-> _]] [H0 _]]; [exact H|discriminate H0]. Qed.
Lemma birth2 k b b' : birth_rel (Lev (W2 k)) b b' -> dist2 k b b' \/ b = fnan /\ b' = fnan.
Proof. intros [H|H]; [left; apply lev2; exact H|right; exact H]. Qed.
Lemma stab2_zero k : stab2 k fzero fzero.
Proof. left. split; [|repeat split; cbn; ring]. split; [reflexivity|]. split; [apply grid_0|]. cbn [B2R fzero]. rewrite Rabs_R0. apply bpow_ge_0. Qed.

(** ** The selection *)
Section Select.
Variables (cs cs' : clusters) (K : nat) (q : Z).
Hypothesis HT : tree cs K.
Hypothesis HT' : tree cs' K.
Hypothesis HN : no_constraints cs.
Hypothesis HN' : no_constraints cs'.
Hypothesis HRc : forall k, 1 <= k <= K -> Rc (Lev (W2 q)) (stab2 q) (g0 cs k) (g0 cs' k).
Hypothesis HK : (Z.of_nat K <= 65536)%Z.
Hypothesis Hq : (-100 <= q <= 100)%Z.
Variables g g' : nat -> cluster.
Hypothesis HS : Stage K (g0 cs) 0 g.
Hypothesis HS' : Stage K (g0 cs') 0 g'.

Lemma kl_same p : kl cs' K p = kl cs K p.
Proof.
  unfold kl, kidsl. apply filter_ext_in. intros x Hx. rewrite <- in_rev, in_seq in Hx. unfold is_kid.
  pose proof (HRc x ltac:(lia)) as H. destruct H. reflexivity.
Qed.
Lemma small_q : small q. Proof. unfold small. lia. Qed.
Lemma fold_pair l : forall L a a', pstab2 q L a a' -> (forall c, In c l -> dsc g c = dsc g' c /\ pstab2 q (length (dsc g c)) (hst g c) (hst g' c)) ->
  (Z.of_nat (L + length (flat_map (dsc g) l)) <= 131072)%Z ->
  pstab2 q (L + length (flat_map (dsc g) l)) (fold_left fadd (map (hst g) l) a) (fold_left fadd (map (hst g') l) a').
Proof.
  induction l as [|c l IH]; intros L a a' Ha Hc HL; cbn [flat_map map fold_left] in *; [rewrite Nat.add_0_r; exact Ha|]. rewrite app_length in *.
  rewrite Nat.add_assoc. apply IH; [|intros x Hx; apply Hc; right; exact Hx|lia]. apply pstab_add; [lia|exact small_q|exact Ha|]. apply Hc. left. reflexivity.
Qed.
Lemma pair_desc : forall m k, K - k <= m -> 1 <= k <= K ->
  c_desc (g k) = c_desc (g' k) /\ pstab2 q (length (c_desc (g k))) (c_pstab (g k)) (c_pstab (g' k)) /\ W2 q (lowmin g (kl cs K k) D_MAX) (lowmin g' (kl cs K k) D_MAX).
Proof.
  assert (Hlen : forall k, 1 <= k <= K -> length (c_desc (g k)) <= K).
  { intros k Hk. destruct (good_desc cs K HT g HS k Hk) as ((N & _) & R & _). replace K with (length (seq 1 K)) by apply seq_length. apply NoDup_incl_length; [exact N|]. intros y Hy. apply R in Hy. destruct Hy as [Hy _]. apply (under_le cs K HT) in Hy. apply in_seq. lia. }
  assert (Hstep : forall k, 1 <= k <= K -> c_desc (g k) = c_desc (g' k) -> pstab2 q (length (c_desc (g k))) (c_pstab (g k)) (c_pstab (g' k)) ->
    dsc g k = dsc g' k /\ pstab2 q (length (dsc g k)) (hst g k) (hst g' k)).
  { intros k Hk Ed Hp. pose proof (HRc k Hk) as HR. destruct (pnc_zero cs K HT g HN HS k Hk) as [N1 N2]. destruct (pnc_zero cs' K HT' g' HN' HS' k Hk) as [N1' N2'].
    destruct (g_stat cs K g HS k Hk) as (_ & _ & E1 & _ & E2 & E3 & _). destruct (g_stat cs' K g' HS' k Hk) as (_ & _ & E1' & _ & E2' & E3' & _).
    assert (Hkids : c_kids (g0 cs' k) = c_kids (g0 cs k)) by (destruct HR; reflexivity). assert (Hst : stab2 q (c_stab (g0 cs k)) (c_stab (g0 cs' k))) by (destruct HR; assumption).
    assert (Hone : pstab2 q 1 (c_stab (g0 cs k)) (c_stab (g0 cs' k))) by (apply (sim2_weaken _ _ (p2 324)); [exact Hst|change (IZR (Z.of_nat 1)) with 1%R; lra]).
    pose proof (sim2_cmp _ _ _ _ _ _ _ _ _ Hp Hst) as (_ & Hc & _).
    unfold dsc, hst, handed. rewrite E2, E1, E3, N1, N2, E2', E1', E3', N1', N2', Hkids. change (0 <? 0)%Z with false. unfold fge. change (@Bleb 53 1024) with fle. rewrite <- Hc, <- Ed.
    destruct (c_kids (g0 cs k)); cbn [negb orb]; [destruct (fle (c_pstab (g k)) _)|]; cbn [fst snd length]; auto. }
  assert (Hlow : forall k, 1 <= k <= K -> W2 q (lowmin g (kl cs K k) D_MAX) (lowmin g' (kl cs K k) D_MAX) -> k <> 1 -> W2 q (c_plow (g k)) (c_plow (g' k))).
  { intros k Hk Hl H1. rewrite (st_plow _ _ _ _ HS k Hk), (st_plow _ _ _ _ HS' k Hk). fold (kl cs K k) (kl cs' K k). rewrite kl_same. cbn zeta. replace ((k <=? 0) || (k =? 1)) with false by lia.
    pose proof (W2_cmp q Hq _ _ D_MAX D_MAX Hl (or_intror (conj eq_refl eq_refl))) as (_ & _ & ->). destruct (feq _ D_MAX); [|exact Hl]. pose proof (HRc k Hk) as HR. destruct HR as [? ? ? ? ? ? ? ? ? ? ? ? ? ? ? ? _ Hd _]. apply Hd. }
  induction m as [|m IH]; intros k Hm Hk.
  all: assert (HC : forall c, In c (kl cs K k) -> k < c <= K) by (intros c Hc; apply (in_kl cs K HT), (tr_kid_lt cs K HT) in Hc; lia).
  all: assert (HD : forall c, In c (kl cs K k) -> dsc g c = dsc g' c /\ pstab2 q (length (dsc g c)) (hst g c) (hst g' c))
    by (intros c Hc; specialize (HC c Hc); first [lia|destruct (IH c ltac:(lia) ltac:(lia)) as (A & B & _); apply Hstep; [lia|exact A|exact B]]).
  all: assert (HL : forall c, In c (kl cs K k) -> W2 q (c_plow (g c)) (c_plow (g' c)))
    by (intros c Hc; specialize (HC c Hc); first [lia|destruct (IH c ltac:(lia) ltac:(lia)) as (_ & _ & C); apply Hlow; [lia|exact C|lia]]).
  all: pose proof (Hlen k Hk) as Hln.
  all: rewrite (g_pstab cs K g HS k Hk), (g_pstab cs' K g' HS' k Hk), kl_same.
  all: rewrite (g_desc cs K g HS k Hk) in *; rewrite (g_desc cs' K g' HS' k Hk), kl_same.
  all: split; [clear -HD; induction (kl cs K k) as [|c l IHl]; [reflexivity|]; cbn [flat_map]; rewrite (proj1 (HD c (or_introl eq_refl))); f_equal; apply IHl; intros x Hx; apply HD; right; exact Hx|].
  all: split; [apply (fold_pair _ 0); [apply (sim2_weaken _ _ 0);
    [left; split; [|repeat split; cbn; ring]; split; [reflexivity|]; split; [apply grid_0|]; cbn [B2R fzero]; rewrite Rabs_R0; lra|cbn; lra]|exact HD|cbn [Nat.add]; lia]|].
  all: clear -HL Hq; assert (HM : W2 q D_MAX D_MAX) by (right; split; reflexivity); revert HM; unfold lowmin; generalize D_MAX at 1 3; intros m0; generalize D_MAX; intros m0'; revert m0 m0'.
  all: induction (kl cs K k) as [|c l IHl]; intros a a' Ha; cbn [fold_left]; [exact Ha|]; apply IHl; [intros x Hx; apply HL; right; exact Hx|].
  all: pose proof (HL c (or_introl eq_refl)) as Hc; pose proof (W2_cmp q Hq _ _ _ _ Hc Ha) as (-> & _); destruct (flt _ _); assumption.
Qed.
End Select.

(** ** Scores *)
Lemma div_same k a a' b b' : dist2 k a a' -> dist2 k b b' -> B2R b <> 0%R -> fdiv a b = fdiv a' b'.
Proof.
  intros [(Fa & Sa & _ & Ua) (_ & Fa' & Ea & Sa')] [(Fb & Sb & Lb & _) (_ & Fb' & Eb & Sb')] Hz. destruct Lb as [Lb|Lb]; [contradiction|].
  pose proof (bpow_gt_0 radix2 k) as Hp. assert (Hz' : B2R b' <> 0%R) by (rewrite Eb; intros C; apply Rmult_integral in C; lra).
  assert (Hr : (B2R a' / B2R b' = B2R a / B2R b)%R) by (rewrite Ea, Eb; field; split; [exact Hz|lra]).
  assert (Pb : (0 < B2R b)%R) by (apply Rlt_le_trans with (2 := Lb); apply bpow_gt_0). pose proof (nonneg_of_sign a Sa) as Pa.
  assert (HB : (Rabs (rnd (B2R a / B2R b)) < big)%R).
  { apply Rle_lt_trans with (p2 481); [|apply bpow_lt; lia]. apply rnd_bound; [lia|]. rewrite Rabs_pos_eq by (unfold Rdiv; apply Rmult_le_pos; [exact Pa|left; apply Rinv_0_lt_compat; exact Pb]).
    apply (Rmult_le_reg_r (B2R b)); [exact Pb|]. unfold Rdiv. rewrite Rmult_assoc, Rinv_l, Rmult_1_r by exact Hz. apply Rle_trans with (1 := Ua). apply Rle_trans with (p2 481 * p2 (-252))%R; [rewrite <- bpow_plus; apply bpow_le; lia|]. apply Rmult_le_compat_l; [apply bpow_ge_0|exact Lb]. }
  pose proof (Bdiv_correct 53 1024 Hprec Hmax mode_NE a b Hz) as H. pose proof (Bdiv_correct 53 1024 Hprec Hmax mode_NE a' b' Hz') as H'.
  fold (fdiv a b) in H. fold (fdiv a' b') in H'. rewrite Hr in H'. fold (rnd (B2R a / B2R b)) in H, H'. rewrite Rlt_bool_true in H, H' by exact HB.
  destruct H as (H1 & H2 & H3), H' as (H1' & H2' & H3'). rewrite Fa in H2. rewrite Fa' in H2'. apply B2R_Bsign_inj; [exact H2|exact H2'|congruence|].
  rewrite H3 by (apply finite_nan; exact H2). rewrite H3' by (apply finite_nan; exact H2'). congruence.
Qed.
Lemma score2 k a a' w w' : dist2 k a a' -> dist2 k w w' -> (if feq w fzero then fzero else fsub fone (fdiv a w)) = (if feq w' fzero then fzero else fsub fone (fdiv a' w')).
Proof.
  intros Ha Hw. pose proof Hw as [(Fw & _) HT].
  assert (Hc : feq w fzero = feq w' fzero).
  { unfold feq, Beqb, SpecFloat.SFeqb. rewrite (finite_cmp k w w' fzero fzero HT); [reflexivity|repeat split; cbn; ring]. }
  rewrite <- Hc. destruct (feq w fzero) eqn:E; [reflexivity|]. f_equal. apply (div_same k); try assumption. apply nonzero_R; [exact Fw|]. unfold fne. change (@Beqb 53 1024) with feq. rewrite E. reflexivity.
Qed.

Lemma ss_unique {A} (R : A -> A -> Prop) : (forall x y, R x y -> R y x -> False) -> forall l l', StronglySorted R l -> StronglySorted R l' -> Permutation l l' -> l = l'.
Proof.
  intros HR. induction l as [|a l IH]; intros l' H H' HP; [apply Permutation_nil in HP; congruence|]. destruct l' as [|b l']; [symmetry in HP; apply Permutation_nil in HP; discriminate HP|].
  inversion H as [|? ? H1 H2]; inversion H' as [|? ? H1' H2']; subst. rewrite Forall_forall in H2, H2'.
  assert (E : a = b).
  { pose proof (Permutation_in a HP (or_introl eq_refl)) as [E|Ha]; [auto|]. pose proof (Permutation_in b (Permutation_sym HP) (or_introl eq_refl)) as [E|Hb]; [auto|]. exfalso. apply (HR a b); auto. }
  subst b. f_equal. apply IH; [exact H1|exact H1'|]. apply Permutation_cons_inv in HP. exact HP.
Qed.
Lemma before_asym a b : before a b -> before b a -> False.
Proof.
  intros [H|[H [G|[G I]]]] [H'|[H' [G'|[G' I']]]]; try lia;
  repeat match goal with X : flt _ _ = true |- _ => apply flt_true in X | X : feq _ _ = true |- _ => apply feq_true in X end; lia.
Qed.
(** Lists sorted in the same way with the same ids, whose elements of equal id are related. *)
Lemma same_ids (R : outlier -> outlier -> Prop) l l' :
  (forall a b a' b', R a a' -> R b b' -> before a b -> before a' b') ->
  (forall a a', In a l -> In a' l' -> os_id a = os_id a' -> R a a') -> (forall a a', R a a' -> os_id a = os_id a') ->
  StronglySorted before l -> StronglySorted before l' -> NoDup (map os_id l) -> Permutation (map os_id l) (map os_id l') -> Forall2 R l l'.
Proof.
  intros HB HR HI Hs Hs' HN HP.
  assert (HN' : NoDup (map os_id l')) by (apply (Permutation_NoDup HP HN)).
  assert (Hex : forall a, In a l -> exists a', In a' l' /\ R a a').
  { intros a Ha. pose proof (Permutation_in (os_id a) HP (in_map _ _ _ Ha)) as H. apply in_map_iff in H. destruct H as (a' & E & Ha'). exists a'. split; [exact Ha'|]. apply HR; auto. }
  assert (Hm : exists m, Forall2 R l m /\ incl m l').
  { clear -Hex. induction l as [|a l IH]; [exists []; split; [constructor|intros x []]|]. destruct (Hex a (or_introl eq_refl)) as (a' & H1 & H2). destruct IH as (m & M1 & M2); [intros; apply Hex; right; assumption|].
    exists (a' :: m). split; [constructor; assumption|]. intros x [<-|Hx]; auto. }
  destruct Hm as (m & M1 & M2). assert (Eid : map os_id l = map os_id m) by (clear -M1 HI; induction M1; [reflexivity|]; cbn; f_equal; auto).
  assert (Hsm : StronglySorted before m).
  { clear -M1 Hs HB. induction M1 as [|a a' l m H M1 IH]; [constructor|]. inversion Hs as [|? ? S1 S2]; subst. constructor; [apply IH; exact S1|].
    clear -S2 H M1 HB. induction M1 as [|b b' l m Hb M1 IH]; [constructor|]. inversion S2; subst. constructor; [apply (HB a b); assumption|apply IH; assumption]. }
  assert (E : m = l'); [|subst m; exact M1]. apply (ss_unique before before_asym); [exact Hsm|exact Hs'|]. apply NoDup_Permutation_bis.
  - rewrite Eid in HN. apply NoDup_map_inv in HN. exact HN.
  - apply Permutation_length in HP. rewrite !map_length in HP. rewrite <- (F2_len _ _ _ M1), HP. apply le_n.
  - exact M2.
Qed.
