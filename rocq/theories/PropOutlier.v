(** C40, C41: outlier scores. *)
From Coq Require Import Permutation Sorted Reals.
From Flocq Require Import IEEE754.BinarySingleNaN.
From Verif Require Import Base F64 F64Facts F64Arith ListFacts ModelUtils ModelDistance ModelMst ModelGraph ModelCluster ModelHier ModelSelect SpecGraph SpecHier SpecTree
  PropUtils PropDistance ProofCore PropMst PropGraph ProofSets ProofExplore ProofTree ProofLabel ProofTies ProofHier ProofHierEnd PropHier ProofSelect ProofTreeSel PropSelect ProofProminent PropProminent.
From Coq Require Import ZifyBool ZifyNat.
Local Open Scope nat_scope.

(** What the C standard promises of qsort: when the comparison orders the elements
    consistently (C13: no NaN, ids below 2^31), the result is a sorted rearrangement. *)
Definition sorts (qsort : list outlier -> list outlier) : Prop :=
  forall l, Forall outlier_ok l ->
    Permutation l (qsort l) /\ StronglySorted (fun a b => (outlier_score_compare a b <= 0)%Z) (qsort l).

(** By score, then core distance, then id. *)
Definition before (a b : outlier) : Prop :=
  flt (os_score a) (os_score b) = true \/
  feq (os_score a) (os_score b) = true /\
    (flt (os_core a) (os_core b) = true \/
     feq (os_core a) (os_core b) = true /\ (os_id a < os_id b)%Z).

(** All edge weights are numbers from 0 to D_MAX. *)
Definition finite_weights (e : edges) : Prop := Forall (fun w => fle fzero w = true /\ fle w D_MAX = true) (e_w e).

Lemma upto_finite a : fle fzero a = true -> fle a D_MAX = true -> is_finite a = true.
Proof. intros H1 H2. destruct a as [s|s| |s m e B]; try reflexivity; try discriminate. destruct s; discriminate. Qed.
Lemma flt_le_trans a b c : flt a b = true -> fle b c = true -> flt a c = true.
Proof.
  intros H1 H2. apply flt_true in H1. apply fle_true in H2. destruct H1 as (A & B & H1), H2 as (_ & C & H2). apply flt_intro; [exact A|exact C|]. eapply Z.lt_le_trans; eassumption.
Qed.

Lemma compare_before a b : outlier_ok a -> outlier_ok b -> os_id a <> os_id b -> (outlier_score_compare a b <= 0)%Z -> before a b.
Proof.
  intros Ha Hb Hne Hc. destruct (C13_outlier_compare a b Ha Hb) as (H1 & H2 & _).
  destruct Ha as (Sa & Ca & _), Hb as (Sb & Cb & _).
  assert (HL : lex3 (outlier_rank a) (outlier_rank b)).
  { destruct (Z.eq_dec (outlier_score_compare a b) 0) as [E|E]; [|apply H1; clear -Hc E; lia].
    apply H2 in E. unfold outlier_rank in E. injection E as _ _ E. contradiction. }
  clear H1 H2 Hc. unfold outlier_rank, lex3 in HL. unfold before.
  rewrite !flt_key, !feq_key by assumption. rewrite !Z.ltb_lt, !Z.eqb_eq. exact HL.
Qed.

Lemma sorted_before l : Forall outlier_ok l -> NoDup (map os_id l) ->
  StronglySorted (fun a b => (outlier_score_compare a b <= 0)%Z) l -> StronglySorted before l.
Proof.
  intros HF HN HS. induction HS as [|a l HS IH Ha]; [constructor|]. inversion_clear HF as [|? ? F1 F2]. cbn [map] in HN. inversion_clear HN as [|? ? N1 N2].
  constructor; [apply IH; assumption|]. rewrite Forall_forall in *. intros b Hb. apply compare_before; auto. intros E. apply N1. rewrite E. apply in_map. exact Hb.
Qed.

Lemma collect_ok cs noise last core n : (forall i, i < n -> exists o, outlier_of cs noise last core i = Ok o) ->
  forall k m acc, k + m = n -> exists os, for_up k m (fun i acc => let! o := outlier_of cs noise last core i in Ok (acc ++ [o])) acc = Ok (acc ++ os)
    /\ Forall2 (fun i o => outlier_of cs noise last core i = Ok o) (seq k m) os.
Proof.
  intros H k m. revert k. induction m as [|m IH]; intros k acc E; cbn [for_up seq].
  - exists []. rewrite app_nil_r. split; [reflexivity|constructor].
  - destruct (H k ltac:(lia)) as (o & Ho). rewrite Ho. cbn [bind]. destruct (IH (S k) (acc ++ [o]) ltac:(lia)) as (os & E1 & E2).
    exists (o :: os). rewrite E1, <- app_assoc. split; [reflexivity|constructor; assumption].
Qed.

Lemma Forall2_len {A B} (R : A -> B -> Prop) l l' : Forall2 R l l' -> length l = length l'.
Proof. induction 1; cbn; congruence. Qed.

Lemma noise_weight n e0 e adj minPts compact fuel h : graph_input n e0 e adj -> covers n e -> 2 <= minPts -> compute_hierarchy fuel e n adj minPts compact = Ok h ->
  forall v, v < n -> exists w l c, In w (e_w e) /\ noise_level h v w /\ last_cluster h v l /\ cluster_at h l c.
Proof.
  intros HG Hcov Hm Hok v Hv. destruct (C26_noise_level_and_last_cluster n e0 e adj minPts compact fuel h HG Hcov Hm Hok) as [H _].
  destruct (H v Hv) as (k & g & k' & g' & w & l & c & _ & _ & _ & Hw & _ & _ & _ & H1 & H2 & H3 & _).
  exists w, l, c. split; [apply (nth_error_In _ _ Hw)|]. auto.
Qed.

(** Facts used by all three theorems: the propagated level of each cluster. *)
Lemma low_levels n e0 e adj minPts compact fuel h : graph_input n e0 e adj -> covers n e -> weights_sorted e -> finite_weights e -> 2 <= minPts ->
  compute_hierarchy fuel e n adj minPts compact = Ok h ->
  forall K leaves fuel' inf cs' trace, length (l_cs (h_l h)) = S K -> leaf_order K leaves -> K <= fuel' -> propagate_tree fuel' (l_cs (h_l h)) leaves = Ok (inf, cs', trace) ->
  tree (l_cs (h_l h)) K /\
  (forall k, (exists c, cluster_at h k c) -> exists c', cluster_in cs' k c') /\
  (forall k c', cluster_in cs' k c' -> (k = 1 -> ~ leaf (l_cs (h_l h)) 1) ->
     exists z d, leaf (l_cs (h_l h)) z /\ under (l_cs (h_l h)) z k /\ cluster_at h z d /\ c_plow c' = c_death d /\ fle fzero (c_death d) = true /\ fle (c_death d) D_MAX = true) /\
  (forall c', cluster_in cs' 1 c' -> leaf (l_cs (h_l h)) 1 -> c_plow c' = D_MAX).
Proof.
  intros HG Hcov Hs Hw Hm Hok K lo fuel' inf cs' trace HLK HP Hf E.
  destruct (C33_hierarchy_gives_tree n e0 e adj minPts compact fuel h HG Hcov Hm Hok) as (K0 & HT & HF & HN).
  assert (K0 = K) by (destruct HT as (HL' & _); lia). subst K0.
  assert (HD : forall l c, cluster_at h l c -> fle fzero (c_death c) = true /\ fle (c_death c) D_MAX = true).
  { intros l c Hc. destruct (C31_death_levels n e0 e adj minPts compact fuel h HG Hcov Hs Hm Hok l c Hc) as (_ & Hin & _).
    unfold finite_weights in Hw. rewrite Forall_forall in Hw. apply Hw. exact Hin. }
  destruct (C36_lowest_death_level _ _ _ _ _ _ _ HT HF HP Hf E) as [H1 H2].
  { intros l c _ Hl Hc. pose proof Hc as Hc2. apply (tr_in _ _ HT) in Hc2. destruct Hc2 as [Hr _].
    destruct (C31_death_levels n e0 e adj minPts compact fuel h HG Hcov Hs Hm Hok l c Hc) as (_ & _ & H & _). destruct (H ltac:(lia)) as [Hin Hlt].
    unfold finite_weights in Hw. rewrite Forall_forall in Hw. apply (flt_le_trans _ _ _ Hlt). apply (Hw _ Hin). }
  destruct (run_result _ _ _ _ _ _ _ HT HF HP Hf E) as (_ & _ & g & HR & HS).
  split; [exact HT|]. split; [|split; [|exact H2]].
  - intros k (c & Hc). apply (tr_in _ _ HT) in Hc. exists (g k). apply (rep_in _ _ _ _ _ HR). split; [apply Hc|reflexivity].
  - intros k c' Hc Hk. destruct (H1 k c' Hc Hk) as [(z & d & Z1 & Z2 & Z3 & Z4) _]. exists z, d. destruct (HD z d Z3) as [D1 D2]. auto 10.
Qed.

Lemma score_notnan low w : is_finite low = true -> is_finite w = true -> fisnan (if feq w fzero then fzero else fsub fone (fdiv low w)) = false.
Proof.
  intros Fl Fw. destruct (feq w fzero) eqn:E; [reflexivity|]. apply minus_notnan; [reflexivity|]. apply div_notnan; [exact Fl|].
  apply nonzero_R; [exact Fw|]. unfold fne. change (@Beqb 53 1024) with feq. rewrite E. reflexivity.
Qed.

(** C40 *)
Theorem C40_outlier_scores : forall n e0 e adj minPts compact fuel h,
  graph_input n e0 e adj -> covers n e -> weights_sorted e -> finite_weights e -> 2 <= minPts -> (Z.of_nat n <= 2147483648)%Z ->
  compute_hierarchy fuel e n adj minPts compact = Ok h ->
  forall K leaves fuel' inf cs' trace,
  length (l_cs (h_l h)) = S K -> leaf_order K leaves -> K <= fuel' -> propagate_tree fuel' (l_cs (h_l h)) leaves = Ok (inf, cs', trace) ->
  forall core qsort, (forall v, v < n -> exists c, nth_error core v = Some (Some c) /\ fisnan c = false) -> sorts qsort ->
  exists l, outlier_scores qsort cs' (l_noise (h_l h)) (l_last (h_l h)) core n = Ok l /\
    Permutation (map Z.of_nat (seq 0 n)) (map os_id l) /\ StronglySorted before l /\
    forall o, In o l -> exists v k c w,
      v < n /\ os_id o = Z.of_nat v /\ nth_error core v = Some (Some (os_core o)) /\
      last_cluster h v k /\ cluster_in cs' k c /\ noise_level h v w /\
      os_score o = (if feq w fzero then fzero else fsub fone (fdiv (c_plow c) w)) /\ fisnan (os_score o) = false.
Proof.
  intros n e0 e adj minPts compact fuel h HG Hcov Hs Hw Hm Hn Hok K lo fuel' inf cs' trace HLK HP Hf E core qsort Hcore Hq.
  destruct (low_levels n e0 e adj minPts compact fuel h HG Hcov Hs Hw Hm Hok K lo fuel' inf cs' trace HLK HP Hf E) as (HT & Hex & Hlow & Hroot).
  assert (Hlf : forall k c, cluster_in cs' k c -> is_finite (c_plow c) = true).
  { intros k c Hc. assert (Hd : leaf (l_cs (h_l h)) 1 \/ ~ leaf (l_cs (h_l h)) 1) by apply Classical_Prop.classic.
    destruct Hd as [Hl|Hl]; [destruct (Nat.eq_dec k 1) as [->|Hk]; [rewrite (Hroot c Hc Hl); reflexivity|]|];
      (destruct (Hlow k c Hc) as (z & d & _ & _ & _ & -> & D1 & D2); [intros; try assumption; contradiction|]; apply upto_finite; assumption). }
  assert (Hone : forall v, v < n -> exists o k c w, outlier_of cs' (l_noise (h_l h)) (l_last (h_l h)) core v = Ok o /\
    os_id o = Z.of_nat v /\ nth_error core v = Some (Some (os_core o)) /\ fisnan (os_core o) = false /\ last_cluster h v k /\ cluster_in cs' k c /\ noise_level h v w /\
      os_score o = (if feq w fzero then fzero else fsub fone (fdiv (c_plow c) w)) /\ fisnan (os_score o) = false).
  { intros v Hv. destruct (noise_weight n e0 e adj minPts compact fuel h HG Hcov Hm Hok v Hv) as (w & k & c0 & Hin & W1 & W2 & W3).
    destruct (Hex k (ex_intro _ c0 W3)) as (c & Hc). destruct (Hcore v Hv) as (cd & Hcd & Ncd).
    exists (mk_outlier (score_of (c_plow c) w) cd (Z.of_nat v)), k, c, w. cbn [os_id os_core os_score].
    assert (Es : score_of (c_plow c) w = (if feq w fzero then fzero else fsub fone (fdiv (c_plow c) w))).
    { unfold score_of, fne. change (@Beqb 53 1024) with feq. destruct (feq w fzero); reflexivity. }
    unfold finite_weights in Hw. rewrite Forall_forall in Hw. destruct (Hw w Hin) as [P1 P2].
    split; [|repeat (split; [assumption||reflexivity|]); rewrite Es; apply score_notnan; [apply (Hlf k c Hc)|apply upto_finite; assumption]].
    unfold outlier_of, aget, cget. unfold last_cluster in W2. unfold noise_level in W1. unfold cluster_in in Hc. rewrite W2. cbn [bind]. unfold aget. rewrite Hc. cbn [bind]. rewrite W1. cbn [bind]. rewrite Hcd. reflexivity. }
  destruct (collect_ok cs' (l_noise (h_l h)) (l_last (h_l h)) core n) with (k := 0) (m := n) (acc := @nil outlier) as (os & Eo & HF2).
  { intros i Hi. destruct (Hone i Hi) as (o & _ & _ & _ & Ho & _). exists o. exact Ho. } { reflexivity. }
  assert (Hin : forall o, In o os -> exists v, v < n /\ outlier_of cs' (l_noise (h_l h)) (l_last (h_l h)) core v = Ok o).
  { intros o Ho. destruct (In_nth_error _ _ Ho) as (i & Hi). pose proof (Forall2_len _ _ _ HF2) as HL. rewrite seq_length in HL.
    assert (Hlt : i < n) by (rewrite HL; apply nth_error_Some; congruence). exists i. split; [exact Hlt|].
    clear -HF2 Hi Hlt. assert (G : forall l k os, Forall2 (fun i o => outlier_of cs' (l_noise (h_l h)) (l_last (h_l h)) core i = Ok o) l os -> nth_error os k = Some o ->
      exists x, nth_error l k = Some x /\ outlier_of cs' (l_noise (h_l h)) (l_last (h_l h)) core x = Ok o).
    { induction l as [|x l IH]; intros k os0 H H0; inversion H; subst; [destruct k; discriminate|]. destruct k as [|k]; [injection H0 as <-; exists x; auto|apply (IH k l'); assumption]. }
    destruct (G _ _ _ HF2 Hi) as (x & Hx & HO). rewrite (nth_error_nth' _ 0), seq_nth in Hx by (rewrite ?seq_length; exact Hlt). injection Hx as <-. exact HO. }
  assert (Hids : map os_id os = map Z.of_nat (seq 0 n)).
  { assert (G : forall l os, (forall i, In i l -> i < n) -> Forall2 (fun i o => outlier_of cs' (l_noise (h_l h)) (l_last (h_l h)) core i = Ok o) l os -> map os_id os = map Z.of_nat l).
    { induction l as [|x l IH]; intros os0 Hl H; inversion H; subst; [reflexivity|]. cbn [map]. f_equal; [|apply IH; [intros; apply Hl; right; assumption|assumption]].
      destruct (Hone x (Hl x (or_introl eq_refl))) as (o & _ & _ & _ & Ho & Hi & _). congruence. }
    apply G; [intros i Hi; apply in_seq in Hi; lia|exact HF2]. }
  assert (Hoks : Forall outlier_ok os).
  { rewrite Forall_forall. intros o Ho. destruct (Hin o Ho) as (v & Hv & Hov). destruct (Hone v Hv) as (o' & k & c & w & Ho' & I1 & _ & I3 & _ & _ & _ & _ & I8).
    assert (o' = o) by congruence. subst o'. split; [exact I8|]. split; [exact I3|]. rewrite I1. lia. }
  destruct (Hq os Hoks) as [HPm HSo].
  exists (qsort os). split; [unfold outlier_scores, collect_outliers; rewrite Eo; reflexivity|].
  assert (HPi : Permutation (map Z.of_nat (seq 0 n)) (map os_id (qsort os))) by (rewrite <- Hids; apply Permutation_map; exact HPm).
  split; [exact HPi|]. split.
  - apply sorted_before; [| |exact HSo].
    + rewrite Forall_forall in *. intros o Ho. apply Hoks. apply (Permutation_in _ (Permutation_sym HPm)). exact Ho.
    + apply (Permutation_NoDup HPi). apply FinFun.Injective_map_NoDup; [intros a b; apply Nat2Z.inj|apply seq_NoDup].
  - intros o Ho. apply (Permutation_in _ (Permutation_sym HPm)) in Ho. destruct (Hin o Ho) as (v & Hv & Hov).
    destruct (Hone v Hv) as (o' & k & c & w & Ho' & I1 & I2 & I3 & I4 & I5 & I6 & I7 & I8). assert (o' = o) by congruence. subst o'. exists v, k, c, w. auto 10.
Qed.
Print Assumptions C40_outlier_scores.

(** C41 *)
Lemma under_death n e0 e adj minPts compact fuel h : graph_input n e0 e adj -> covers n e -> connects n e -> weights_sorted e -> finite_weights e -> 2 <= minPts <= n ->
  compute_hierarchy fuel e n adj minPts compact = Ok h ->
  forall z k, under (l_cs (h_l h)) z k -> forall d c, cluster_at h z d -> cluster_at h k c -> fle (c_death d) (c_death c) = true.
Proof.
  intros HG Hcov Hcon Hs Hw Hm Hok z k Hu. induction Hu as [k c0 Hc0|z p k (cz & Hz & Hp) Hu IH]; intros d c Hd Hc.
  - unfold cluster_at in *. rewrite Hd in Hc. injection Hc as ->. apply fle_refl. unfold finite_weights in Hw. rewrite Forall_forall in Hw.
    destruct (C31_death_levels n e0 e adj minPts compact fuel h HG Hcov Hs (proj1 Hm) Hok k c Hd) as (_ & Hin & _). apply ge0_notnan. apply (Hw _ Hin).
  - unfold cluster_in in Hz. unfold cluster_at in Hd. rewrite Hz in Hd. injection Hd as ->.
    destruct (C33_hierarchy_gives_tree n e0 e adj minPts compact fuel h HG Hcov (proj1 Hm) Hok) as (K & HT & _).
    assert (Hch : child_in (l_cs (h_l h)) z p) by (exists d; auto). destruct (tr_kid_lt _ _ HT p z Hch) as [L1 L2].
    assert (Hpk : exists cp, cluster_at h p cp) by (exists (g0 (l_cs (h_l h)) p); apply (tr_in _ _ HT); split; [lia|reflexivity]).
    destruct Hpk as (cp & Hcp). pose proof (IH cp c Hcp Hc) as H2.
    pose proof (C31_split_ends_cluster n e0 e adj minPts compact fuel h HG Hcon Hs Hm Hok z p d cp (conj Hz Hp) Hcp) as E1.
    destruct (C31_death_levels n e0 e adj minPts compact fuel h HG Hcov Hs (proj1 Hm) Hok z d Hz) as (_ & _ & H3 & _).
    destruct (H3 ltac:(lia)) as [_ H4]. rewrite <- E1 in H4. apply (fle_trans _ (c_death cp)); [|exact H2].
    apply flt_true in H4. destruct H4 as (A & B & C). apply fle_intro; [exact A|exact B|apply Z.lt_le_incl; exact C].
Qed.

(** More than one cluster: every score lies in [0,1]. *)
Theorem C41_scores_between_0_and_1 : forall n e0 e adj minPts compact fuel h,
  graph_input n e0 e adj -> covers n e -> connects n e -> weights_sorted e -> finite_weights e -> 2 <= minPts <= n -> (Z.of_nat n <= 2147483648)%Z ->
  compute_hierarchy fuel e n adj minPts compact = Ok h ->
  forall K leaves fuel' inf cs' trace,
  length (l_cs (h_l h)) = S K -> leaf_order K leaves -> K <= fuel' -> propagate_tree fuel' (l_cs (h_l h)) leaves = Ok (inf, cs', trace) ->
  forall core qsort l, (forall v, v < n -> exists c, nth_error core v = Some (Some c) /\ fisnan c = false) -> sorts qsort ->
  outlier_scores qsort cs' (l_noise (h_l h)) (l_last (h_l h)) core n = Ok l ->
  2 <= K -> forall o, In o l -> fle fzero (os_score o) = true /\ fle (os_score o) fone = true.
Proof.
  intros n e0 e adj minPts compact fuel h HG Hcov Hcon Hs Hw Hm Hn Hok K lo fuel' inf cs' trace HLK HP Hf E core qsort l Hcore Hq El HK o Ho.
  destruct (C40_outlier_scores n e0 e adj minPts compact fuel h HG Hcov Hs Hw (proj1 Hm) Hn Hok K lo fuel' inf cs' trace HLK HP Hf E core qsort Hcore Hq) as (l' & El' & _ & _ & H).
  rewrite El in El'. injection El' as <-. destruct (H o Ho) as (v & k & c & w & Hv & _ & _ & Hlast & Hc & Hnoise & -> & _). clear H.
  destruct (low_levels n e0 e adj minPts compact fuel h HG Hcov Hs Hw (proj1 Hm) Hok K lo fuel' inf cs' trace HLK HP Hf E) as (HT & _ & Hlow & _).
  destruct (Hlow k c Hc) as (z & d & _ & Hu & Hd & -> & D1 & D2).
  { intros _ [_ Hno]. destruct (tr_par _ _ HT 2 ltac:(lia)) as (p & Ep & Hp). apply (Hno 2). exists (g0 (l_cs (h_l h)) 2). split; [apply (tr_in _ _ HT); split; [lia|reflexivity]|]. rewrite Ep. f_equal. lia. }
  destruct (noise_weight n e0 e adj minPts compact fuel h HG Hcov (proj1 Hm) Hok v Hv) as (w' & k' & ck & Hin & W1 & W2 & W3).
  unfold noise_level in *. rewrite Hnoise in W1. injection W1 as <-. unfold last_cluster in *. rewrite Hlast in W2. injection W2 as <-.
  pose proof (under_death n e0 e adj minPts compact fuel h HG Hcov Hcon Hs Hw Hm Hok z k Hu d ck Hd W3) as L1.
  destruct (C31_death_levels n e0 e adj minPts compact fuel h HG Hcov Hs (proj1 Hm) Hok k ck W3) as (_ & _ & _ & _ & H5).
  pose proof (H5 w (or_introl (ex_intro _ v (conj Hlast Hnoise)))) as L2.
  unfold finite_weights in Hw. rewrite Forall_forall in Hw. destruct (Hw w Hin) as [P1 P2]. pose proof (upto_finite w P1 P2) as Fw.
  destruct (feq w fzero) eqn:Ez; [split; reflexivity|].
  apply score_range; [exact D1|exact (fle_trans _ _ _ L1 L2)|exact Fw|].
  apply fle_R in P1; [|reflexivity|exact Fw]. change (B2R fzero) with 0%R in P1.
  assert (Hnz : B2R w <> 0%R) by (apply nonzero_R; [exact Fw|]; unfold fne; change (@Beqb 53 1024) with feq; rewrite Ez; reflexivity).
  destruct P1 as [P1|P1]; [exact P1|congruence].
Qed.
Print Assumptions C41_scores_between_0_and_1.

(** A single cluster: the level of the root keeps the sentinel D_MAX, and every point whose
    noise level is positive and at most 2^1000 has a score of at most -1. *)
Theorem C41_single_cluster_refuted : forall n e0 e adj minPts compact fuel h,
  graph_input n e0 e adj -> covers n e -> weights_sorted e -> finite_weights e -> 2 <= minPts -> (Z.of_nat n <= 2147483648)%Z ->
  compute_hierarchy fuel e n adj minPts compact = Ok h -> length (l_cs (h_l h)) = 2 ->
  forall leaves fuel' inf cs' trace, leaf_order 1 leaves -> 1 <= fuel' -> propagate_tree fuel' (l_cs (h_l h)) leaves = Ok (inf, cs', trace) ->
  forall core qsort l, (forall v, v < n -> exists c, nth_error core v = Some (Some c) /\ fisnan c = false) -> sorts qsort ->
  outlier_scores qsort cs' (l_noise (h_l h)) (l_last (h_l h)) core n = Ok l ->
  forall o, In o l -> exists v w, os_id o = Z.of_nat v /\ noise_level h v w /\
    os_score o = (if feq w fzero then fzero else fsub fone (fdiv D_MAX w)) /\
    (flt fzero w = true -> fle w two1000 = true -> fle (os_score o) minus_one = true).
Proof.
  intros n e0 e adj minPts compact fuel h HG Hcov Hs Hw Hm Hn Hok HLK lo fuel' inf cs' trace HP Hf E core qsort l Hcore Hq El o Ho.
  destruct (C40_outlier_scores n e0 e adj minPts compact fuel h HG Hcov Hs Hw Hm Hn Hok 1 lo fuel' inf cs' trace HLK HP Hf E core qsort Hcore Hq) as (l' & El' & _ & _ & H).
  rewrite El in El'. injection El' as <-. destruct (H o Ho) as (v & k & c & w & Hv & Hid & _ & Hlast & Hc & Hnoise & Es & _). clear H.
  destruct (low_levels n e0 e adj minPts compact fuel h HG Hcov Hs Hw Hm Hok 1 lo fuel' inf cs' trace HLK HP Hf E) as (HT & _ & _ & Hroot).
  destruct (noise_weight n e0 e adj minPts compact fuel h HG Hcov Hm Hok v Hv) as (w' & k' & ck & Hin & W1 & W2 & W3).
  unfold last_cluster in *. rewrite Hlast in W2. injection W2 as <-. apply (tr_in _ _ HT) in W3. assert (k = 1) by (destruct W3 as [W3 _]; lia). subst k.
  assert (Hl : leaf (l_cs (h_l h)) 1).
  { split; [exists (g0 (l_cs (h_l h)) 1); apply (tr_in _ _ HT); split; [lia|reflexivity]|]. intros j Hj. pose proof (tr_kid_lt _ _ HT 1 j Hj). lia. }
  rewrite (Hroot c Hc Hl) in Es. exists v, w. split; [exact Hid|]. split; [exact Hnoise|]. split; [exact Es|]. intros P1 P2. rewrite Es.
  replace (feq w fzero) with false; [apply sentinel_score; assumption|]. symmetry. apply flt_true in P1. destruct P1 as (A & B & C). apply feq_false; [exact B|exact A|]. intros Q. rewrite Q in C. apply (Z.lt_irrefl _ C).
Qed.
Print Assumptions C41_single_cluster_refuted.
