(** C75: multiplying the data by a power of two. *)
From Coq Require Import Reals Lra Permutation Sorted.
From Flocq Require Import Core.Core IEEE754.BinarySingleNaN.
From Verif Require Import Base F64 F64Facts F64Arith ListFacts ModelUtils ModelDistance ModelMst ModelGraph ModelCluster ModelHier ModelSelect ModelRun SpecGraph SpecHier SpecTree SpecMain
  PropUtils ProofDistance PropDistance PropMst PropGraph PropHier ProofSelect ProofTreeSel PropSelect PropOutlier ProofRun PropRun PropSize ProofStab ProofSim ProofPair PropInvariance F64Scale ProofScale.
From Coq Require Import ZifyBool ZifyNat.
Local Open Scope nat_scope.

(** ** Specification *)

(** [x] and [x'] are numbers and [x'] = [x] * 2^q. *)
Definition pow2_times (q : Z) (x x' : f64) : Prop :=
  is_finite x = true /\ is_finite x' = true /\ B2R x' = (B2R x * bpow radix2 q)%R.
(** 0, or between 2^-200 and 2^200 in magnitude. *)
Definition moderate (x : f64) : Prop :=
  B2R x = 0%R \/ (bpow radix2 (-200) <= Rabs (B2R x) <= bpow radix2 200)%R.
(** The results [r'] are the results [r] on a scale 2^q times as large: the same labels,
    clusters, points and tables, every level multiplied by 2^q, every stability divided by it. *)
Definition rescaled (q : Z) (rows : nat) (d d' : distance) (r r' : results) : Prop :=
  r_labels r' = r_labels r /\
  (forall v, v < rows -> exists x x', nth_error (d_core d) v = Some (Some x) /\ nth_error (d_core d') v = Some (Some x') /\ pow2_times q x x') /\
  length (r_clusters r') = length (r_clusters r) /\
  (forall k c, cluster_in (r_clusters r) k c -> exists c', cluster_in (r_clusters r') k c' /\ c_label c' = c_label c /\ c_parent c' = c_parent c /\ c_desc c' = c_desc c /\
     (2 <= k -> pow2_times q (c_birth c) (c_birth c')) /\ pow2_times q (c_death c) (c_death c') /\
     (pow2_times (- q) (c_stab c) (c_stab c') \/ c_stab c' = c_stab c /\ is_finite (c_stab c) = false)) /\
  (forall k v, point_of r k v <-> point_of r' k v) /\
  (forall key, match hget (r_hier r) key, hget (r_hier r') key with
     | Some (w, ls), Some (w', ls') => ls = ls' /\ pow2_times q w w'
     | None, None => True
     | _, _ => False
     end) /\
  (3 <= length (r_clusters r) -> Forall2 (fun o o' => os_id o' = os_id o /\ os_score o' = os_score o /\ pow2_times q (os_core o) (os_core o')) (r_outliers r) (r_outliers r')).

(** ** Proofs *)
Lemma dist2_pow q x x' : dist2 q x x' -> pow2_times q x x'.
Proof. intros [_ (H1 & H2 & H3 & _)]. repeat split; assumption. Qed.
Lemma cores_ok d n : readable d n -> below_max d n -> forall v, v < n -> exists c, nth_error (d_core d) v = Some (Some c) /\ fisnan c = false.
Proof.
  intros [_ HR] [_ HB] v Hv. destruct (HR v Hv) as (x & Hx). exists x. split; [exact Hx|]. pose proof (HB v x Hv Hx) as H. apply flt_true in H. apply H.
Qed.
Lemma part_scores d n m fuel (P : parts d n m fuel) q os : 2 <= m -> (Z.of_nat n <= 65536)%Z -> readable d n -> below_max d n -> sorts q ->
  outlier_scores q (p_cs _ _ _ _ P) (l_noise (h_l (p_h _ _ _ _ P))) (l_last (h_l (p_h _ _ _ _ P))) (d_core d) n = Ok os ->
  Permutation (map Z.of_nat (seq 0 n)) (map os_id os) /\ StronglySorted before os /\
  forall o, In o os -> exists v k c w, v < n /\ os_id o = Z.of_nat v /\ nth_error (d_core d) v = Some (Some (os_core o)) /\
    last_cluster (p_h _ _ _ _ P) v k /\ cluster_in (p_cs _ _ _ _ P) k c /\ noise_level (p_h _ _ _ _ P) v w /\
    os_score o = (if feq w fzero then fzero else fsub fone (fdiv (c_plow c) w)) /\ fisnan (os_score o) = false.
Proof.
  intros Hm Hn HR HB Hq Eo. pose proof (cores_ok d n HR HB) as Hcore. destruct P as [e0 adj e h K inf cs tr root A1 A2 A3 A4 A5 A6 A7 A8 A9 A10 A11]. cbn [p_h p_cs] in *.
  destruct (C40_outlier_scores n e0 e adj m false fuel h A4 A5 A6 A7 Hm ltac:(lia) A8 K _ _ _ _ _ A9 (Permutation_refl _) (le_n K) (A10 _ _ (Permutation_refl _) (le_n K)) (d_core d) q Hcore Hq) as (l & E & H).
  rewrite Eo in E. injection E as <-. exact H.
Qed.
Lemma part_low d n m fuel (P : parts d n m fuel) k c : 2 <= m -> 2 <= p_K _ _ _ _ P -> cluster_in (p_cs _ _ _ _ P) k c ->
  exists z c0, cluster_at (p_h _ _ _ _ P) z c0 /\ c_plow c = c_death c0.
Proof.
  intros Hm HK Hc. pose proof (parts_tree _ _ _ _ P Hm) as (HT & _). cbn zeta in HT. destruct P as [e0 adj e h K inf cs tr root A1 A2 A3 A4 A5 A6 A7 A8 A9 A10 A11]. cbn [p_h p_cs p_K] in *.
  destruct (low_levels n e0 e adj m false fuel h A4 A5 A6 A7 Hm A8 K _ _ _ _ _ A9 (Permutation_refl _) (le_n K) (A10 _ _ (Permutation_refl _) (le_n K))) as (_ & _ & H & _).
  destruct (H k c Hc) as (z & c0 & _ & _ & Z1 & Z2 & _); [|exists z, c0; split; assumption]. intros _ [_ Hl].
  destruct HT as (_ & _ & _ & HT). destruct (HT 2 ltac:(lia)) as (c2 & C2 & _ & _ & C3 & _). destruct (C3 ltac:(lia)) as (p & Hp & Hlt). apply (Hl 2). exists c2. split; [exact C2|]. rewrite Hp. f_equal. lia.
Qed.
Lemma part_count d n m fuel (P : parts d n m fuel) : 2 <= m -> (Z.of_nat n <= 65536)%Z -> (Z.of_nat (p_K _ _ _ _ P) <= 65536)%Z.
Proof.
  intros Hm Hn. destruct P as [e0 adj e h K inf cs tr root A1 A2 A3 A4 A5 A6 A7 A8 A9 A10 A11]. cbn [p_K]. destruct (Nat.le_gt_cases K 1) as [H|H]; [lia|].
  pose proof (cluster_count n e0 e adj m false fuel h K A4 A5 Hm A8 A9 H) as HC. nia.
Qed.
Lemma before_pow q a b a' b' : (os_id a' = os_id a /\ os_score a' = os_score a /\ dist2 q (os_core a) (os_core a')) ->
  (os_id b' = os_id b /\ os_score b' = os_score b /\ dist2 q (os_core b) (os_core b')) -> before a b -> before a' b'.
Proof.
  intros (A1 & A2 & A3) (B1 & B2 & B3). unfold before. rewrite A1, A2, B1, B2.
  assert (E : flt (os_core a) (os_core b) = flt (os_core a') (os_core b') /\ feq (os_core a) (os_core b) = feq (os_core a') (os_core b')).
  { unfold flt, feq, Bltb, Beqb, SpecFloat.SFltb, SpecFloat.SFeqb. rewrite (finite_cmp q _ _ _ _ (proj2 A3) (proj2 B3)). split; reflexivity. }
  destruct E as [-> ->]. auto.
Qed.

Lemma scale_general ds ds' rows cols minPts q fuel s s' qsort qsort' :
  5 <= rows -> (Z.of_nat rows <= 65536)%Z -> holds ds rows cols -> holds ds' rows cols -> 2 <= minPts <= rows -> (-100 <= q <= 100)%Z -> diffs2 q ds ds' rows cols ->
  2 * rows - 1 <= fuel -> valid s -> valid s' -> sorts qsort -> sorts qsort' ->
  exists d d' o o' r r',
    fresh_run fuel s qsort (Z.of_nat minPts) ds rows cols true = Ok o /\ o_res o = Some r /\ o_dist o = Some d /\
    fresh_run fuel s' qsort' (Z.of_nat minPts) ds' rows cols true = Ok o' /\ o_res o' = Some r' /\ o_dist o' = Some d' /\ rescaled q rows d d' r r'.
Proof.
  intros Hr1 Hr HL HL' Hm Hk HD2 Hf Hs Hs' Hq Hq'. rename minPts into m.
  assert (HE : forall i j, i < j -> j < rows -> dist2 q (euclidean ds cols i j) (euclidean ds' cols i j)) by (intros i j Hi Hj; apply (euclid2 q ds ds' rows); assumption).
  destruct (paired_runs (W2 q) ds ds' rows cols cols m fuel) as (d & d' & P & P' & Ed & Ed' & HD & HB & HB' & HR & HR' & HH & H1 & H2); try assumption.
  { apply W2_cmp; exact Hk. } { right; split; reflexivity. } { apply W2_zero. }
  { intros i j Hi Hj. apply (dist2_max q _ _ (HE i j Hi Hj) Hk). } { intros i j Hi Hj. apply (dist2_max q _ _ (HE i j Hi Hj) Hk). }
  { intros i j Hi Hj. left. apply HE; assumption. }
  destruct (H1 s qsort Hs Hq) as (labels & os & E & Hll & Hlab & Hos). destruct (H2 s' qsort' Hs' Hq') as (labels' & os' & E' & Hll' & Hlab' & Hos'). clear H1 H2.
  specialize (HH (stab2 q) (stab2_zero q)). match type of HH with ?A -> _ => assert (HG : A) end.
  { intros x x' n w w' b b' Hn Hx Hw Hb. apply stab_step; [lia|unfold small; lia|exact Hx|apply lev2; exact Hw|apply birth2; exact Hb]. }
  specialize (HH HG). clear HG.
  exists d, d'. do 4 eexists. split; [exact E|]. split; [reflexivity|]. split; [reflexivity|]. split; [exact E'|]. split; [reflexivity|]. split; [reflexivity|]. clear E E'. unfold rescaled. cbn [r_clusters r_hier r_labels r_outliers].
  destruct (clusters_r d d' rows m fuel P P' _ _ (proj1 Hm) HH) as (HKK & HT & HT' & HN & HN' & HRc & g & g' & G1 & G2 & S1 & S2 & R1 & R2). cbn zeta in *.
  pose proof (st_stat _ _ _ _ S1) as Z1. pose proof (st_stat _ _ _ _ S2) as Z2. pose proof (part_count d rows m fuel P (proj1 Hm) Hr) as HK.
  pose proof (fun k => pair_desc _ _ _ q HT HT' HN HN' HRc HK Hk g g' S1 S2 (p_K _ _ _ _ P - k) k (le_n _)) as HPD.
  assert (HC : forall v, v < rows -> exists x x', nth_error (d_core d) v = Some (Some x) /\ nth_error (d_core d') v = Some (Some x') /\ dist2 q x x').
  { intros v Hv. destruct HD as (_ & _ & _ & HD). destruct HR as [_ HR]. destruct (HR v Hv) as (x & Hx). pose proof (F2_nth _ _ _ v HD) as X. rewrite Hx in X.
    destruct (nth_error (d_core d') v) as [[x'|]|] eqn:Ex; try contradiction. cbn in X. exists x, x'. split; [exact Hx|]. split; [reflexivity|]. apply lev2. split; [exact X|]. split; [eapply HB; eauto|eapply HB'; eauto]. }
  assert (HK1 : 1 <= p_K _ _ _ _ P) by (apply (tr_k _ _ HT)).
  assert (Hdesc1 : c_desc (p_root _ _ _ _ P) = c_desc (p_root _ _ _ _ P')) by (rewrite R1, R2; apply HPD; lia).
  split; [|split; [|split; [|split; [|split; [|split]]]]].
  - apply (nth_ext _ _ 0 0); [congruence|]. intros v Hv. rewrite Hll' in Hv.
    assert (Hn : nth_error labels v = Some (nth v labels 0)) by (apply nth_error_nth'; lia). assert (Hn' : nth_error labels' v = Some (nth v labels' 0)) by (apply nth_error_nth'; lia).
    assert (Hto : forall c, c <> 0 -> nth_error labels v = Some c <-> nth_error labels' v = Some c).
    { intros c Hc. rewrite (Hlab v c Hv Hc), (Hlab' v c Hv Hc), Hdesc1. split; intros [A B]; (split; [exact A|]); [apply (member_r _ _ _ _ _ HH)|apply (member_l _ _ _ _ _ HH)]; exact B. }
    destruct (Nat.eq_dec (nth v labels 0) 0) as [Hz|Hz].
    + destruct (Nat.eq_dec (nth v labels' 0) 0) as [Hz'|Hz']; [congruence|]. apply (Hto _ Hz') in Hn'. congruence.
    + apply (Hto _ Hz) in Hn. congruence.
  - intros v Hv. destruct (HC v Hv) as (x & x' & X1 & X2 & X3). exists x, x'. split; [exact X1|]. split; [exact X2|apply dist2_pow; exact X3].
  - rewrite (proj1 G1), (proj1 G2). reflexivity.
  - intros k c Hc. apply (rep_in _ _ _ _ _ G1) in Hc. destruct Hc as [Hck ->]. exists (g' k). split; [apply (rep_in _ _ _ _ _ G2); auto|]. pose proof (Z1 k Hck) as Q1. pose proof (Z2 k Hck) as Q2.
    assert (Hat : cluster_at (p_h _ _ _ _ P) k (g0 (l_cs (h_l (p_h _ _ _ _ P))) k)) by (apply (tr_in _ _ HT); auto).
    pose proof (fun Hk2 => births_real d rows m fuel P k _ (proj1 Hm) Hk2 Hat) as HNb. specialize (HRc k Hck). destruct (HPD k Hck) as (HDe & _).
    pose proof (f_equal c_birth Q1) as B1. pose proof (f_equal c_birth Q2) as B2. apply statics_eq in Q1, Q2. cbn in B1, B2.
    destruct Q1 as (L1 & D1 & T1 & A1 & _), Q2 as (L2 & D2 & T2 & A2 & _). rewrite L1, D1, A1, B1, T1, L2, D2, A2, B2, T2.
    revert HNb. destruct HRc as [lab b b' de de' nu of st st' pl nc pnc vi pa des ki XB XD XS]. cbn. intros HNb.
    split; [reflexivity|]. split; [reflexivity|]. split; [congruence|]. split; [|split; [apply dist2_pow, lev2; exact XD|]].
    + intros Hk2. destruct XB as [XB|[-> _]]; [apply dist2_pow, lev2; exact XB|]. discriminate (HNb Hk2).
    + destruct XS as [[_ (Y1 & Y2 & Y3 & _)]|[-> Y]]; [left; repeat split; assumption|right; split; [reflexivity|exact Y]].
  - intros k v. rewrite (member_in _ _ _ _ P labels os (proj1 Hm)), (member_in _ _ _ _ P' labels' os' (proj1 Hm)). split; [apply (member_r _ _ _ _ _ HH)|apply (member_l _ _ _ _ _ HH)].
  - intros key. pose proof HH as (_ & _ & _ & _ & HEn & _). pose proof (hget_r _ _ _ key HEn) as Y.
    destruct (hget (h_hier (p_h _ _ _ _ P)) key) as [[w ls]|], (hget (h_hier (p_h _ _ _ _ P')) key) as [[w' ls']|]; try exact Y. destruct Y as [Y1 Y2]. split; [exact Y2|apply dist2_pow, lev2; exact Y1].
  - intros H3. assert (HK2 : 2 <= p_K _ _ _ _ P) by (rewrite (proj1 G1) in H3; lia).
    destruct (part_scores d rows m fuel P qsort os (proj1 Hm) Hr HR HB Hq Hos) as (O1 & O2 & O3). destruct (part_scores d' rows m fuel P' qsort' os' (proj1 Hm) Hr HR' HB' Hq' Hos') as (O1' & O2' & O3').
    assert (HF : Forall2 (fun o o' => os_id o' = os_id o /\ os_score o' = os_score o /\ dist2 q (os_core o) (os_core o')) os os').
    { apply same_ids; [intros a b a' b' X Y; apply (before_pow q a b a' b' X Y)| |intros a a' (X & _); auto|exact O2|exact O2'| |rewrite <- O1; exact O1'].
      - intros a a' Ha Ha' Eid. destruct (O3 a Ha) as (v & k & c & w & V1 & V2 & V3 & V4 & V5 & V6 & V7 & _). destruct (O3' a' Ha') as (v' & k' & c' & w' & V1' & V2' & V3' & V4' & V5' & V6' & V7' & _).
        assert (v' = v) by lia. subst v'. split; [congruence|]. destruct (HC v V1) as (x & x' & X1 & X2 & X3). rewrite V3 in X1. rewrite V3' in X2. injection X1 as <-. injection X2 as <-. split; [|exact X3].
        pose proof HH as (_ & (_ & HCs & _ & HNo & HLa & _) & _). unfold last_cluster in *. rewrite HLa in V4. assert (k' = k) by congruence. subst k'.
        unfold noise_level in *. pose proof (F2_nth _ _ _ v HNo) as X. rewrite V6, V6' in X. cbn in X. apply lev2 in X. rewrite V7, V7'. symmetry. apply (score2 q); [|exact X].
        destruct (part_low _ _ _ _ P k c (proj1 Hm) HK2 V5) as (z & c0 & C1 & C2). pose proof V5 as V5b. apply (rep_in _ _ _ _ _ G1) in V5b. destruct V5b as [Hkr ->]. apply (rep_in _ _ _ _ _ G2) in V5'. destruct V5' as [_ ->].
        assert (Hlt : flt (c_plow (g k)) D_MAX = true).
        { rewrite C2. apply (tr_in _ _ HT) in C1. destruct C1 as [C1 ->]. specialize (HRc z C1). destruct HRc as [? ? ? ? ? ? ? ? ? ? ? ? ? ? ? ? _ (_ & Hd & _) _]. exact Hd. }
        assert (HW : W2 q (c_plow (g k)) (c_plow (g' k))).
        { destruct (HPD k Hkr) as (_ & _ & Hlow). rewrite (st_plow _ _ _ _ S1 k Hkr), (st_plow _ _ _ _ S2 k Hkr).
          fold (kl (l_cs (h_l (p_h _ _ _ _ P))) (p_K _ _ _ _ P) k) (kl (l_cs (h_l (p_h _ _ _ _ P'))) (p_K _ _ _ _ P) k). rewrite (kl_same _ _ _ q HRc). cbn zeta.
          destruct ((k <=? 0) || (k =? 1)); [exact Hlow|].
          pose proof (W2_cmp q Hk _ _ D_MAX D_MAX Hlow (or_intror (conj eq_refl eq_refl))) as (_ & _ & ->). destruct (feq _ D_MAX); [|exact Hlow]. specialize (HRc k Hkr). destruct HRc as [? ? ? ? ? ? ? ? ? ? ? ? ? ? ? ? _ Hd _]. apply Hd. }
        destruct HW as [HW|[HW _]]; [exact HW|]. rewrite HW in Hlt. discriminate Hlt.
      - apply (Permutation_NoDup O1). apply FinFun.Injective_map_NoDup; [intros a b; apply Nat2Z.inj|apply seq_NoDup]. }
    clear -HF. induction HF as [|a a' l l' (X1 & X2 & X3) HF IH]; constructor; [|exact IH]. split; [exact X1|]. split; [exact X2|apply dist2_pow; exact X3].
Qed.
Lemma moderate_rng x : is_finite x = true -> moderate x -> rng (-252) (p2 200) x.
Proof.
  intros F [H|[H1 H2]]; (split; [exact F|]).
  - rewrite H. split; [apply grid_0|]. rewrite Rabs_R0. apply bpow_ge_0.
  - split; [|exact H2]. apply (format_grid _ (-200)); [|exact H1]. apply generic_format_B2R.
Qed.
Lemma diffs_double q l l' rows cols : Forall2 (pow2_times q) l l' -> Forall moderate l -> (-100 <= q <= 100)%Z -> length l = rows * cols -> diffs2 q (DDouble l) (DDouble l') rows cols.
Proof.
  intros HF HM Hq HL i j c Hi Hj Hc. cbn zeta. unfold coord_diff.
  assert (Q : forall a, a < rows * cols -> rng (-252) (p2 200) (nth a l fzero) /\ val2 q (nth a l fzero) (nth a l' fzero)).
  { intros a Ha. pose proof (F2_nth _ _ _ a HF) as X. rewrite (nth_error_nth' l fzero), (nth_error_nth' l' fzero) in X by (rewrite <- ?(F2_len _ _ _ HF); lia).
    split; [|exact X]. apply moderate_rng; [apply X|]. rewrite Forall_forall in HM. apply HM, nth_In. lia. }
  assert (H1 : i * cols + c < rows * cols) by nia. assert (H2 : j * cols + c < rows * cols) by nia.
  apply sub_val2; [apply Q, H1|apply Q, H2|apply Q, H1|apply Q, H2|exact Hq].
Qed.
Lemma f_of_Z_round z : (Z.abs z <= 2 ^ 100)%Z -> is_finite (f_of_Z z) = true /\ B2R (f_of_Z z) = rnd (IZR z).
Proof.
  intros Hz. pose proof (binary_normalize_correct 53 1024 Hprec Hmax mode_NE z 0 false) as H. cbn zeta in H.
  assert (Ef : F2R (Float radix2 z 0) = IZR z) by (unfold F2R; cbn [Fnum Fexp bpow]; ring). rewrite Ef in H. fold (rnd (IZR z)) in H. fold (f_of_Z z) in H.
  rewrite Rlt_bool_true in H; [split; apply H|].
  assert (HB : (Rabs (rnd (IZR z)) <= p2 100)%R) by (apply rnd_bound; [lia|rewrite <- abs_IZR; change (p2 100) with (IZR (2 ^ 100)); apply IZR_le; exact Hz]).
  apply (under_big0 _ _ HB). apply bpow_le. lia.
Qed.
Lemma f_of_Z_val2 q z : (0 <= q <= 100)%Z -> (Z.abs z <= 2 ^ 63)%Z -> (Z.abs (z * 2 ^ q) <= 2 ^ 63)%Z -> rng (-252) (p2 201) (f_of_Z z) /\ val2 q (f_of_Z z) (f_of_Z (z * 2 ^ q)).
Proof.
  intros Hq H1 H2. assert (P : (2 ^ 63 <= 2 ^ 100)%Z) by (vm_compute; discriminate). destruct (f_of_Z_round z ltac:(lia)) as [F1 V1]. destruct (f_of_Z_round _ (Z.le_trans _ _ _ H2 P)) as [F2 V2].
  assert (G : grid (-252) (IZR z)) by (apply (grid_coarse _ 0); [exists z; cbn [bpow]; ring|lia]).
  split; [split; [exact F1|rewrite V1; split; [apply rnd_grid; [exact G|lia]|]]|].
  - apply Rle_trans with (p2 63); [|apply bpow_le; lia]. apply rnd_bound; [lia|]. rewrite <- abs_IZR. change (p2 63) with (IZR (2 ^ 63)). apply IZR_le. exact H1.
  - split; [exact F1|]. split; [exact F2|]. rewrite V1, V2, mult_IZR. change 2%Z with (radix_val radix2). rewrite IZR_Zpower by lia. apply (rnd_scale_grid (-252)); [exact G|lia|lia].
Qed.
Lemma diffs_ints q ds ds' l rows cols : ints ds = Some l -> ints ds' = Some (map (fun z => z * 2 ^ q)%Z l) -> (0 <= q <= 100)%Z -> holds ds rows cols -> holds ds' rows cols -> diffs2 q ds ds' rows cols.
Proof.
  intros H1 H2 Hq [_ HF] [_ HF'] i j c Hi Hj Hc. cbn zeta. specialize (HF l H1 i j c (conj Hi Hj) Hc). specialize (HF' _ H2 i j c (conj Hi Hj) Hc).
  assert (N : forall a, nth a (map (fun z => z * 2 ^ q)%Z l) 0%Z = (nth a l 0 * 2 ^ q)%Z) by (intros a; apply (map_nth (fun z => z * 2 ^ q)%Z l 0%Z)).
  rewrite !N in HF'. rewrite <- Z.mul_sub_distr_r in HF'.
  assert (A : forall e z, diff_fits e z -> (Z.abs z <= 2 ^ 63)%Z) by (intros e z; change (2 ^ 63)%Z with 9223372036854775808%Z; unfold diff_fits; destruct e; lia).
  apply A in HF, HF'.
  assert (E : forall e l0 a b, ints e = Some l0 -> coord_diff e a b = f_of_Z (nth a l0 0 - nth b l0 0)%Z) by (intros e l0 a b; unfold ints, coord_diff; destruct e; intros X; try discriminate X; injection X as ->; reflexivity).
  rewrite (E ds l) by exact H1. rewrite (E ds' _ _ _ H2), !N, <- Z.mul_sub_distr_r. apply f_of_Z_val2; assumption.
Qed.

(** ** C75 *)
Theorem C75_scaling_by_a_power_of_two l l' rows cols minPts q fuel s s' qsort qsort' :
  5 <= rows -> (Z.of_nat rows <= 65536)%Z -> length l = rows * cols -> 2 <= minPts <= rows -> (-100 <= q <= 100)%Z ->
  Forall moderate l -> Forall2 (pow2_times q) l l' ->
  2 * rows - 1 <= fuel -> valid s -> valid s' -> sorts qsort -> sorts qsort' ->
  exists d d' o o' r r',
    fresh_run fuel s qsort (Z.of_nat minPts) (DDouble l) rows cols true = Ok o /\ o_res o = Some r /\ o_dist o = Some d /\
    fresh_run fuel s' qsort' (Z.of_nat minPts) (DDouble l') rows cols true = Ok o' /\ o_res o' = Some r' /\ o_dist o' = Some d' /\
    rescaled q rows d d' r r'.
Proof.
  intros Hr1 Hr HL Hm Hq HM HF Hf Hs Hs' Hs1 Hs2. apply scale_general; try assumption; [apply holds_double; exact HL|apply holds_double; rewrite <- (F2_len _ _ _ HF); exact HL|].
  apply diffs_double; assumption.
Qed.
Print Assumptions C75_scaling_by_a_power_of_two.

Theorem C75_scaling_integers ds ds' l rows cols minPts q fuel s s' qsort qsort' :
  5 <= rows -> (Z.of_nat rows <= 65536)%Z -> ints ds = Some l -> ints ds' = Some (map (fun z => z * 2 ^ q)%Z l) ->
  holds ds rows cols -> holds ds' rows cols -> 2 <= minPts <= rows -> (0 <= q <= 100)%Z ->
  2 * rows - 1 <= fuel -> valid s -> valid s' -> sorts qsort -> sorts qsort' ->
  exists d d' o o' r r',
    fresh_run fuel s qsort (Z.of_nat minPts) ds rows cols true = Ok o /\ o_res o = Some r /\ o_dist o = Some d /\
    fresh_run fuel s' qsort' (Z.of_nat minPts) ds' rows cols true = Ok o' /\ o_res o' = Some r' /\ o_dist o' = Some d' /\
    rescaled q rows d d' r r'.
Proof.
  intros Hr1 Hr HI HI' HL HL' Hm Hq Hf Hs Hs' Hs1 Hs2. apply scale_general; try assumption; [lia|]. apply (diffs_ints q ds ds' l); assumption.
Qed.
Print Assumptions C75_scaling_integers.

(** Six points on a line and the same points on an eight times larger scale, as doubles and
    as integers of two types: the hypotheses hold, and there are three clusters. *)
Definition pts6 : list Z := [0; 2; 3; 20; 24; 27]%Z.
Example C75_example :
  Forall moderate (map f_of_Z pts6) /\ Forall2 (pow2_times 3) (map f_of_Z pts6) (map f_of_Z (map (fun z => z * 2 ^ 3)%Z pts6)) /\
  holds (DShort pts6) 6 1 /\ holds (DInt (map (fun z => z * 2 ^ 3)%Z pts6)) 6 1 /\
  match fresh_run 11 (mk_schedule (fun k => seq 0 k) (fun k => seq 0 k) (fun k n => list_prod (seq 0 k) (seq 0 n))) (fun l => l) 2 (DDouble (map f_of_Z pts6)) 6 1 true with
  | Ok o => match o_res o with Some r => length (r_clusters r) = 4 | None => False end | _ => False end.
Proof.
  assert (HM : forall z, (1 <= z <= 2 ^ 53)%Z -> moderate (f_of_Z z)).
  { intros z Hz. right. destruct (f_of_Z_small z ltac:(lia)) as [_ ->]. rewrite Rabs_pos_eq by (apply IZR_le; lia). split.
    - apply Rle_trans with 1%R; [change 1%R with (p2 0); apply bpow_le; lia|apply IZR_le; lia].
    - apply Rle_trans with (p2 53); [change (p2 53) with (IZR (2 ^ 53)); apply IZR_le; lia|apply bpow_le; lia]. }
  assert (HP : forall z, (0 <= z <= 2 ^ 40)%Z -> pow2_times 3 (f_of_Z z) (f_of_Z (z * 2 ^ 3))).
  { intros z Hz. destruct (f_of_Z_small z ltac:(lia)) as [F V]. destruct (f_of_Z_small (z * 2 ^ 3) ltac:(lia)) as [F' V']. split; [exact F|]. split; [exact F'|]. rewrite V, V', mult_IZR. reflexivity. }
  split; [|split; [|split; [|split]]].
  - unfold pts6. cbn [map]. constructor; [left; reflexivity|]. repeat (constructor; [apply HM; lia|]). constructor.
  - unfold pts6. cbn [map]. repeat (constructor; [apply (HP _); lia|]). constructor.
  - split; [reflexivity|]. intros l E. injection E as <-. intros i j c Hi Hc. unfold diff_fits. destruct i as [|[|[|[|[|[|?]]]]]], j as [|[|[|[|[|[|?]]]]]], c as [|?]; cbn; lia.
  - split; [reflexivity|]. intros l E. injection E as <-. intros i j c Hi Hc. unfold diff_fits. destruct i as [|[|[|[|[|[|?]]]]]], j as [|[|[|[|[|[|?]]]]]], c as [|?]; cbn; lia.
  - vm_compute. reflexivity.
Qed.
