(** C64: hdbscan_run computes the HDBSCAN clustering of its distances and core distances. *)
From Coq Require Import Permutation Sorted Reals Relations.
From Flocq Require Import IEEE754.BinarySingleNaN.
From Verif Require Import Base F64 F64Facts F64Arith ListFacts ModelUtils ModelDistance ModelMst ModelGraph ModelCluster ModelHier ModelSelect ModelRun SpecGraph SpecHier SpecTree SpecMain
  PropUtils ProofDistance ProofCore PropDistance PropMst PropGraph ProofTree ProofHier ProofHierEnd PropHier ProofSelect ProofTreeSel PropSelect PropProminent PropOutlier ProofRun PropRun ProofStab PropStab PropCondensed.
From Coq Require Import ZifyBool ZifyNat.
Local Open Scope nat_scope.

Lemma flt_le_lt a b c : flt a b = true -> fle b c = true -> flt a c = true.
Proof. intros H1 H2. apply flt_true in H1. apply fle_true in H2. destruct H1 as (N1 & N2 & K1), H2 as (N3 & N4 & K2). apply flt_intro; auto. lia. Qed.
Lemma fle_lt_lt a b c : fle a b = true -> flt b c = true -> flt a c = true.
Proof. intros H1 H2. apply fle_true in H1. apply flt_true in H2. destruct H1 as (N1 & N2 & K1), H2 as (N3 & N4 & K2). apply flt_intro; auto. lia. Qed.

Lemma flt_nn a b : flt a b = true -> fisnan a = false.
Proof. intros H. apply flt_true in H. apply H. Qed.
Lemma fle_self a : fisnan a = false -> fle a a = true.
Proof. intros H. apply fle_refl. exact H. Qed.

(** The largest of three numbers. *)
Lemma max3 x y z w : flt x w = true -> flt y w = true -> flt z w = true ->
  exists m, flt m w = true /\ fle x m = true /\ fle y m = true /\ fle z m = true.
Proof.
  intros Hx Hy Hz. pose proof (flt_nn _ _ Hx) as Nx. pose proof (flt_nn _ _ Hy) as Ny. pose proof (flt_nn _ _ Hz) as Nz.
  assert (Htot : forall a b, fisnan a = false -> fisnan b = false -> fle a b = true \/ fle b a = true).
  { intros a b Na Nb. destruct (Z.le_ge_cases (fkey a) (fkey b)); [left|right]; apply fle_intro; auto. }
  assert (H2 : exists m, flt m w = true /\ fle x m = true /\ fle y m = true).
  { destruct (Htot x y Nx Ny) as [H|H]; [exists y|exists x]; auto using fle_self. }
  destruct H2 as (m & M1 & M2 & M3). pose proof (flt_nn _ _ M1) as Nm.
  destruct (Htot m z Nm Nz) as [H|H]; [exists z|exists m]; auto using fle_self.
  split; [exact Hz|]. split; [apply (fle_trans x m z M2 H)|]. split; [apply (fle_trans y m z M3 H)|]. apply fle_self. exact Nz.
Qed.

Lemma joined_closer d n e : (forall w u v, fisnan w = false -> joined (edge_upto (triples e) w) u v <-> joined (close d n w) u v) ->
  forall w u v, joined (edge_below (triples e) w) u v <-> joined (closer d n w) u v.
Proof.
  intros HJ w. apply joined_ext.
  - intros u v (x & Hin & Hlt). pose proof (flt_nn _ _ Hlt) as Nx.
    assert (H : joined (close d n x) u v) by (apply (HJ x u v Nx), rst_step; exists x; auto using fle_self).
    revert H. apply joined_mono. intros a b (A1 & A2 & A3 & y & cu & cv & B1 & B2 & B3 & B4 & B5 & B6).
    split; [exact A1|]. split; [exact A2|]. split; [exact A3|]. exists y, cu, cv. eauto 10 using fle_lt_lt.
  - intros u v (A1 & A2 & A3 & y & cu & cv & B1 & B2 & B3 & B4 & B5 & B6).
    destruct (max3 y cu cv w B4 B5 B6) as (m & M1 & M2 & M3 & M4).
    assert (H : joined (edge_upto (triples e) m) u v).
    { apply (HJ m u v (flt_nn _ _ M1)), rst_step. split; [exact A1|]. split; [exact A2|]. split; [exact A3|]. exists y, cu, cv. auto 10. }
    revert H. apply joined_mono. intros a b (x & Hx & Hle). exists x. split; [exact Hx|]. apply (fle_lt_lt x m w Hle M1).
Qed.

Lemma splits_ext (U B U' B' : f64 -> nat -> nat -> Prop) m w u : (forall a b, joined (U w) a b <-> joined (U' w) a b) -> (forall a b, joined (B w) a b <-> joined (B' w) a b) ->
  splits_off U B m w u -> splits_off U' B' m w u.
Proof.
  intros HU HB (H1 & u' & H2 & H3 & H4). split; [apply (many_ext (B w)); [exact HB|exact H1]|].
  exists u'. split; [apply HU; exact H2|]. split; [rewrite <- HB; exact H3|]. apply (many_ext (B w)); [exact HB|exact H4].
Qed.

Theorem C64_run_is_hdbscan : forall ds rows cols minPts fuel s qsort,
  5 <= rows -> (Z.of_nat rows <= 65536)%Z -> holds ds rows cols -> 2 <= minPts <= rows ->
  (forall i j, i < j -> j < rows -> flt (euclidean ds cols i j) D_MAX = true) -> 2 * rows - 1 <= fuel -> valid s -> sorts qsort ->
  exists d o r chosen best, distance_compute ds rows cols (Z.of_nat minPts - 1) = Ok d /\
    (forall i j, i < j -> j < rows -> distance_get d (Z.of_nat i) (Z.of_nat j) = Ok (euclidean ds cols i j)) /\
    fresh_run fuel s qsort (Z.of_nat minPts) ds rows cols true = Ok o /\ o_res o = Some r /\
    condensed_tree d rows minPts r /\ stability d rows minPts r /\ flat_clustering rows r chosen best.
Proof.
  intros ds rows cols m fuel s q Hr1 Hr HL Hm Hfin Hf Hs Hq.
  destruct (data_below ds rows cols m Hm Hr HL Hfin) as (d & Ed & HR & HB & Hget).
  destruct (run_parts ds rows cols (Z.of_nat m) fuel Hr1 Hr HL ltac:(unfold M32; lia) Hf) as (d' & P & Ed' & _ & HN & H). rewrite Ed in Ed'. injection Ed' as <-.
  destruct (H s q Hs Hq) as (labels & os & E & HLl & Hlab & _). clear H.
  destruct (C62_run_selects_the_most_stable_clusters ds rows cols (Z.of_nat m) fuel s q Hr1 Hr HL ltac:(unfold M32; lia) Hf Hs Hq) as (o & r & chosen & best & E' & Er & Hch & Hanti & Hone & Hsel & _ & Hbest & Hmax).
  rewrite E in E'. injection E' as <-. injection Er as <-. cbn [r_labels r_clusters] in *.
  exists d. eexists. eexists. exists chosen, best. split; [exact Ed|]. split; [exact Hget|]. split; [exact E|]. split; [reflexivity|]. clear E.
  destruct P as [e0 adj e h K inf cs' trace root E1 E2 E3 HG Hcov Hso Hfw Eh HLK Hp Hroot]. cbn [p_cs p_h p_root] in *. rewrite Nat2Z.id in Eh.
  set (r := mk_results labels os (h_hier h) cs').
  destruct (build_input d rows ltac:(lia) ltac:(unfold M32; lia) HR HB) as (e0' & adj' & e' & F1 & F2 & F3 & _ & _ & Hcon & _ & _ & _ & HJ).
  rewrite E1 in F1. injection F1 as <-. rewrite E3 in F3. injection F3 as <-.
  pose proof (joined_closer d rows e HJ) as HJb.
  pose proof (Hp _ _ (Permutation_refl _) (le_n K)) as Ep.
  destruct (C33_hierarchy_gives_tree rows e0 e adj m false fuel h HG Hcov (proj1 Hm) Eh) as (K0 & HT & HF & _).
  assert (K0 = K) by (destruct HT as (HL' & _); lia). subst K0.
  destruct (run_result _ _ _ _ _ _ _ HT HF (Permutation_refl _) (le_n K) Ep) as (_ & _ & g & HRp & HS).
  set (cs := l_cs (h_l h)) in *.
  assert (Hst : forall k, 1 <= k <= K -> statics (g k) = statics (g0 cs k)) by (apply (st_stat _ _ _ _ HS)).
  assert (Hfrom : forall k c, cluster_in cs' k c -> exists c', cluster_at h k c' /\ c_birth c' = c_birth c /\ c_offset c' = c_offset c /\ c_stab c' = c_stab c /\ c_parent c' = c_parent c).
  { intros k c Hc. apply (rep_in _ _ _ _ _ HRp) in Hc. destruct Hc as [Hk ->]. exists (g0 cs k). split; [apply (tr_in cs K HT); auto|].
    pose proof (Hst k Hk) as Q. repeat split; [exact (eq_sym (f_equal c_birth Q))|exact (eq_sym (f_equal c_offset Q))|exact (eq_sym (f_equal c_stab Q))|exact (eq_sym (f_equal c_parent Q))]. }
  assert (Hto : forall k c, cluster_at h k c -> exists c', cluster_in cs' k c' /\ c_birth c' = c_birth c /\ c_offset c' = c_offset c /\ c_stab c' = c_stab c /\ c_parent c' = c_parent c).
  { intros k c Hc. apply (tr_in cs K HT) in Hc. destruct Hc as [Hk ->]. exists (g k). split; [apply (rep_in _ _ _ _ _ HRp); auto|].
    pose proof (Hst k Hk) as Q. repeat split; [exact (f_equal c_birth Q)|exact (f_equal c_offset Q)|exact (f_equal c_stab Q)|exact (f_equal c_parent Q)]. }
  assert (Hpt : forall k v, point_of r k v <-> member h k v).
  { intros k v. split.
    - intros (c & w & ls & P1 & P2 & P3). destruct (Hfrom k c P1) as (c' & Q1 & _ & Q2 & _). exists c', w, ls. split; [exact Q1|]. split; [|exact P3]. unfold entry. rewrite Q2. exact P2.
    - intros (c & w & ls & P1 & P2 & P3). destruct (Hto k c P1) as (c' & Q1 & _ & Q2 & _). exists c', w, ls. split; [exact Q1|]. split; [|exact P3]. rewrite Q2. exact P2. }
  destruct (C63_clusters_are_the_dense_components_that_split_off rows e0 e adj m false fuel h HG Hcon Hso Hm Eh) as (T1 & T2 & T3).
  destruct (C30_cluster_tree rows e0 e adj m false fuel h HG Hcov (proj1 Hm) Eh) as (K1 & _ & _ & _ & HallK & (rt & Hrt & _ & Hroots) & Hpar & _).
  pose proof (ok_nonan rows e0 e adj HG m false (proj1 Hm) fuel h Eh) as Hnan. unfold no_nan in Hnan. rewrite Forall_forall in Hnan.
  assert (Hbw : forall l c, 2 <= l -> cluster_at h l c -> fisnan (c_birth c) = false).
  { intros l c Hl Hc. destruct (C31_death_levels rows e0 e adj m false fuel h HG Hcov Hso (proj1 Hm) Eh l c Hc) as (_ & _ & HBl & _). apply Hnan. apply (HBl Hl). }
  split; [|split].
  - split; [apply HRp|]. split; [intros l Hl; exists (g l); apply (rep_in _ _ _ _ _ HRp); destruct HRp as [HRl _]; cbn [r_clusters r] in Hl; split; [lia|reflexivity]|]. split; [intros v; rewrite Hpt; apply Hroots|]. split; [|split; [|split]].
    + intros l c Hl Hc. destruct (Hfrom l c Hc) as (c' & Hc' & Hb & _). destruct (T1 l c' Hl Hc') as (u & Hu & Hsp & Hmu). rewrite <- Hb.
      exists u. split; [exact Hu|]. split.
      * apply (splits_ext (edge_upto (triples e)) (edge_below (triples e))); [|apply HJb|exact Hsp]. intros a b. apply HJ. apply (Hbw l c' Hl Hc').
      * intros v. rewrite Hpt, Hmu. apply HJb.
    + intros w u Hu Nw Hsp.
      destruct (T2 w u Hu) as (l & c & Hl & Hc & Hb & Hmu).
      { apply (splits_ext (close d rows) (closer d rows)); [|intros a b; symmetry; apply HJb|exact Hsp]. intros a b. symmetry. apply HJ. exact Nw. }
      destruct (Hto l c Hc) as (c' & Hc' & Hb' & _). exists l, c'. split; [exact Hl|]. split; [exact Hc'|]. split; [rewrite Hb'; exact Hb|].
      intros v. rewrite Hpt, Hmu. apply HJb.
    + intros l l' c c' Hl Hl' Hc Hc' Hmem. destruct (Hfrom l c Hc) as (c1 & Hc1 & _). destruct (Hfrom l' c' Hc') as (c2 & Hc2 & _).
      apply (T3 l c1 l' c2 Hl Hl' Hc1 Hc2). intros v. rewrite <- !Hpt. apply Hmem.
    + intros k p (c & Hc & Hcp). destruct (Hfrom k c Hc) as (c' & Hc' & _ & _ & _ & Hpp).
      assert (Hk : 1 <= k) by (apply (rep_in _ _ _ _ _ HRp) in Hc; lia).
      destruct (Nat.eq_dec k 1) as [->|Hk1].
      { exfalso. destruct HT as (_ & HK1 & _ & HT'). destruct (HT' 1 ltac:(lia)) as (c1 & G1 & _ & G2 & _). unfold cluster_at in Hc'. unfold cluster_in in G1. change (l_cs (h_l h)) with cs in Hc'. rewrite G1 in Hc'. injection Hc' as <-. rewrite (G2 eq_refl), Hcp in Hpp. discriminate. }
      destruct (Hpar k c' Hc' ltac:(lia)) as (p' & cp & pts & G1 & G2 & _ & _ & _ & _ & G3). rewrite Hpp, Hcp in G1. injection G1 as <-. split; [lia|]. intros v. rewrite !Hpt. apply G3.
  - intros l c Hc. destruct (Hfrom l c Hc) as (c' & Hc' & Hb & _ & Hstab & _).
    destruct (C61_stability_is_the_sum_over_departures rows e0 e adj m false fuel h HG Hcov Hso (proj1 Hm) Eh l c' Hc') as (groups & S1 & S2 & S3 & S4 & S5).
    exists groups. rewrite <- Hstab, <- Hb. split; [exact S1|]. split; [exact S2|]. split; [intros v; rewrite Hpt; apply S3|]. split; [|exact S5].
    intros group w Hin. destruct (S4 group w Hin) as (G1 & G2 & G3 & G4). split; [exact G1|]. split; [|exact G4].
    destruct G2 as [G2|(k & ck & (K2 & K3) & K4 & K5)].
    + left. intros v Hv. destruct (G2 v Hv) as [_ Hnv].
      assert (Hvn : v < rows).
      { apply Hroots. assert (Hvm : member h l v) by (apply S3, in_concat; exists group; split; [apply in_map_iff; exists (group, w); auto|exact Hv]).
        assert (Hl1 : 1 <= l) by (apply (rep_in _ _ _ _ _ HRp) in Hc; lia). clear -Hvm Hl1 Hpar. revert v Hvm.
        induction l as [l IH] using lt_wf_ind. intros v Hv. destruct (Nat.eq_dec l 1) as [->|Hne]; [exact Hv|].
        pose proof Hv as (ck & w0 & ls & H1 & _). destruct (Hpar l ck H1 ltac:(lia)) as (p & cp & pts & _ & Hp & _ & _ & _ & _ & Hsub).
        apply (IH p ltac:(lia) ltac:(lia)). apply Hsub. exact Hv. }
      destruct (C63_noise_levels rows e0 e adj m false fuel h HG Hcon Hso Hm Eh v Hvn) as (w' & W1 & W2 & W3).
      unfold noise_level in *. rewrite Hnv in W1. injection W1 as <-. split.
      * apply (many_ext (edge_upto (triples e) w)); [|exact W2]. intros a b. apply HJ. apply Hnan. exact G3.
      * intros Hx. apply W3. apply (many_ext (closer d rows w)); [intros a b; symmetry; apply HJb|exact Hx].
    + right. destruct (Hto k ck K2) as (ck' & L1 & L2 & _ & _ & L3). exists k, ck'. split; [exact L1|]. split; [congruence|]. split; [congruence|].
      intros v. rewrite Hpt. apply K5.
  - assert (Hsame : forall k, k <> 0 -> In k chosen <-> In k (c_desc root)).
    { intros k Hk. rewrite <- (Hch k Hk). split.
      - intros Hin. apply In_nth_error in Hin. destruct Hin as [v Hv]. apply (Hlab v k); [|exact Hk|exact Hv]. rewrite <- HLl. apply nth_error_Some. congruence.
      - intros Hin. destruct (C34_selected_clusters_cover_the_leaves _ _ _ _ _ _ _ _ HT HF (Permutation_refl _) (le_n K) Ep Hroot) as (_ & HR2 & _).
        destruct (HR2 k Hin) as [Hk2 Hk3]. assert (Hck : exists c, cluster_at h k c) by (eexists; apply (tr_in cs K HT); split; [lia|reflexivity]).
        destruct Hck as (ck & Hck). destruct (T1 k ck Hk2 Hck) as (u & Hu & _ & Hmu). apply (nth_error_In _ u). apply Hlab; [exact Hu|exact Hk|]. split; [exact Hin|]. apply Hmu. apply rst_refl. }
    split; [exact HLl|]. split; [|split; [|split; [exact Hanti|split; [exact Hbest|exact Hmax]]]].
    + intros v k Hv Hk. cbn [r_labels r]. rewrite (Hlab v k Hv Hk), Hpt, (Hsame k Hk). reflexivity.
    + intros k Hk. destruct (Hsel k Hk) as (c & Hc). split; [|exists c; exact Hc].
      apply (rep_in _ _ _ _ _ HRp) in Hc. destruct (Nat.eq_dec k 1) as [->|Hk1]; [contradiction|lia].
Qed.
Print Assumptions C64_run_is_hdbscan.

(** ** C65 *)
Section Deepest.
Variables (n : nat) (e0 e : edges) (adj : list (list nat)) (minPts : nat) (compact : bool) (fuel : nat) (h : hstate) (K : nat).
Hypothesis HG : graph_input n e0 e adj.
Hypothesis Hcov : covers n e.
Hypothesis Hcon : connects n e.
Hypothesis Hs : weights_sorted e.
Hypothesis Hfw : finite_weights e.
Hypothesis Hm : 2 <= minPts <= n.
Hypothesis Hok : compute_hierarchy fuel e n adj minPts compact = Ok h.
Hypothesis HT : tree (l_cs (h_l h)) K.
Let cs := l_cs (h_l h).

Lemma clus_ex k : 1 <= k <= K -> exists c, cluster_at h k c.
Proof. intros Hk. exists (g0 cs k). apply (tr_in cs K HT). auto. Qed.
Lemma clus_rng k c : cluster_at h k c -> 1 <= k <= K.
Proof. intros Hk. apply (tr_in cs K HT) in Hk. apply Hk. Qed.
Lemma member_rng k v : member h k v -> 1 <= k <= K.
Proof. intros (c & w & ls & Hc & _). apply (clus_rng k c Hc). Qed.

Lemma up_member k a v : under cs k a -> member h k v -> member h a v.
Proof.
  destruct (C30_cluster_tree n e0 e adj minPts compact fuel h HG Hcov (proj1 Hm) Hok) as (_ & _ & _ & _ & _ & _ & Hpar & _).
  intros Hu. induction Hu as [k c Hc|k p a (c & Hc & Hcp) Hu IH]; intros Hv; [exact Hv|]. apply IH.
  destruct (Nat.eq_dec k 1) as [->|Hk].
  - exfalso. destruct HT as (_ & HK & _ & HT'). destruct (HT' 1 ltac:(lia)) as (c1 & G1 & _ & G2 & _). unfold cluster_in in *. fold cs in G1. rewrite G1 in Hc. injection Hc as <-. rewrite (G2 eq_refl) in Hcp. discriminate.
  - assert (H1 : cluster_at h k c) by exact Hc. pose proof (clus_rng k c H1). destruct (Hpar k c H1 ltac:(lia)) as (p' & cp & pts & G1 & G2 & _ & _ & _ & _ & G3).
    rewrite Hcp in G1. injection G1 as <-. apply G3. exact Hv.
Qed.

Lemma nested v : forall j k, k <= j -> member h j v -> member h k v -> under cs j k.
Proof.
  destruct (C30_cluster_tree n e0 e adj minPts compact fuel h HG Hcov (proj1 Hm) Hok) as (_ & _ & _ & _ & _ & _ & Hpar & Hsib & _).
  induction j as [j IH] using lt_wf_ind. intros k Hk Hj Hkm. pose proof (member_rng j v Hj) as Rj. pose proof (member_rng k v Hkm) as Rk.
  destruct (Nat.eq_dec k j) as [->|Hne]; [apply (under_refl cs K HT); exact Rj|].
  destruct (clus_ex j Rj) as (cj & Hcj). destruct (Hpar j cj Hcj ltac:(lia)) as (p & cp & pts & G1 & G2 & G4 & _ & _ & _ & G3).
  assert (Hjp : child_in cs j p) by (exists cj; auto).
  destruct (Nat.le_gt_cases k p) as [Hkp|Hkp].
  - apply under_step with p; [exact Hjp|]. apply (IH p ltac:(lia) k Hkp (G3 v Hj) Hkm).
  - pose proof (IH k ltac:(lia) p ltac:(lia) Hkm (G3 v Hj)) as Hu. destruct (under_child cs K HT k p Hu ltac:(lia)) as (q & (cq & Hq & Hqp) & Hkq).
    exfalso. apply (Hsib j q p cj cq v); [|split; assumption|split; assumption|exact Hj|apply (up_member k q v Hkq Hkm)].
    pose proof (under_le cs K HT k q Hkq). lia.
Qed.

Lemma last_member v k : v < n -> last_cluster h v k -> member h k v.
Proof.
  intros Hv Hl. destruct (C26_noise_level_and_last_cluster n e0 e adj minPts compact fuel h HG Hcov (proj1 Hm) Hok) as [H _].
  destruct (H v Hv) as (a & g & k' & g' & w & l & c & _ & _ & _ & _ & _ & _ & _ & _ & L & _ & Hmem).
  unfold last_cluster in *. rewrite Hl in L. injection L as <-. exact Hmem.
Qed.

Lemma last_deepest v k w j : v < n -> last_cluster h v k -> noise_level h v w -> member h j v -> under cs k j.
Proof.
  intros Hv Hl Hw Hj. pose proof (last_member v k Hv Hl) as Hk. pose proof (member_rng j v Hj) as Rj. pose proof (member_rng k v Hk) as Rk.
  destruct (Nat.le_gt_cases j k) as [Hjk|Hjk]; [apply (nested v k j Hjk Hk Hj)|]. exfalso.
  pose proof (nested v j k ltac:(lia) Hj Hk) as Hu. destruct (under_child cs K HT j k Hu ltac:(lia)) as (q & (cq & Hq & Hqp) & Hjq).
  destruct (clus_ex k Rk) as (ck & Hck). destruct (C31_death_levels n e0 e adj minPts compact fuel h HG Hcov Hs (proj1 Hm) Hok k ck Hck) as (_ & _ & _ & _ & Hdl).
  pose proof (Hdl w (or_introl (ex_intro _ v (conj Hl Hw)))) as L1.
  rewrite (C31_split_ends_cluster n e0 e adj minPts compact fuel h HG Hcon Hs Hm Hok q k cq ck (conj Hq Hqp) Hck) in L1.
  pose proof (up_member j q v Hjq Hj) as Hqv. assert (H2q : 2 <= q) by (destruct (tr_kid_lt cs K HT k q ltac:(exists cq; auto)); lia).
  destruct (C63_clusters_are_the_dense_components_that_split_off n e0 e adj minPts compact fuel h HG Hcon Hs Hm Hok) as (T1 & _).
  destruct (T1 q cq H2q Hq) as (u & Hu1 & ((pts & P1 & P2 & P3) & _) & Hmu).
  destruct (C63_noise_levels n e0 e adj minPts compact fuel h HG Hcon Hs Hm Hok v Hv) as (w' & W1 & _ & W3). unfold noise_level in *. rewrite Hw in W1. injection W1 as <-.
  apply W3. exists pts. split; [exact P1|]. split; [exact P2|]. intros x Hx. apply joined_mono with (R := edge_below (triples e) (c_birth cq)).
  - intros a b (y & Hy & Hlt). exists y. split; [exact Hy|]. apply (flt_le_lt y (c_birth cq) w Hlt L1).
  - apply rst_trans with u; [apply rst_sym, Hmu, Hqv|apply P3, Hx].
Qed.

Lemma noise_length : length (l_noise (h_l h)) = n.
Proof.
  pose proof (gt_w e Hs) as Hgw.
  destruct (done_rel gtw n e0 e adj minPts compact fuel h HG (proj1 Hm) gt_t Hgw Hok) as (g & B & Hg & Eh & Hnan & HI & HP).
  destruct (co_inv0 _ _ _ _ _ _ _ _ (in_core _ _ _ _ _ _ _ _ HI)) as [w0 HC]. subst h. apply (ci_noise _ _ _ _ _ _ _ HC).
Qed.

(** The smallest noise level of a cluster is the lowest death level below it. *)
Lemma lowest k z d low : 1 <= k <= K -> leaf cs z -> under cs z k -> cluster_at h z d -> low = c_death d ->
  (forall l d, leaf cs l -> under cs l k -> cluster_at h l d -> fle low (c_death d) = true) ->
  (exists u, member h k u /\ u < n /\ noise_level h u low) /\ forall u x, u < n -> member h k u -> noise_level h u x -> fle low x = true.
Proof.
  intros Rk Hz Hu Hd -> Hmin. split.
  - destruct (C31_death_levels n e0 e adj minPts compact fuel h HG Hcov Hs (proj1 Hm) Hok z d Hd) as (_ & _ & _ & [(v & H1 & H2)|(j & cj & H1 & H2)] & _).
    + assert (Hv : v < n).
      { rewrite <- noise_length. apply nth_error_Some. unfold noise_level in H2. congruence. }
      exists v. split; [|split; assumption]. apply (up_member z k v Hu). apply (last_member v z Hv H1).
    + exfalso. destruct Hz as [_ Hz]. apply (Hz j). exists cj. exact H1.
  - intros u x Hun Hmk Hx. destruct (C26_noise_level_and_last_cluster n e0 e adj minPts compact fuel h HG Hcov (proj1 Hm) Hok) as [H _].
    destruct (H u Hun) as (a & g & k' & g' & w & l & c & _ & _ & _ & _ & _ & _ & _ & N & L & Hc & Hmem).
    unfold noise_level in *. rewrite Hx in N. injection N as <-. pose proof (last_deepest u l x k Hun L Hx Hmk) as Hlk.
    destruct (C31_death_levels n e0 e adj minPts compact fuel h HG Hcov Hs (proj1 Hm) Hok l c Hc) as (_ & _ & _ & _ & Hdl).
    pose proof (Hdl x (or_introl (ex_intro _ u (conj L Hx)))) as L1.
    assert (Hleaf : exists y, leaf cs y /\ under cs y l).
    { clear -HT Hc. pose proof (clus_rng l c Hc) as Rl. clear Hc. remember (K - l) as q eqn:Eq. revert l Rl Eq. induction q as [q IH] using lt_wf_ind. intros l Rl Eq.
      destruct (Classical_Prop.classic (leaf cs l)) as [Hl|Hl]; [exists l; split; [exact Hl|apply (under_refl cs K HT); exact Rl]|].
      assert (Hk : exists j, child_in cs j l).
      { apply Classical_Prop.NNPP. intros Hno. apply Hl. split; [destruct (clus_ex l Rl) as (c2 & Hc2); exists c2; exact Hc2|]. intros j Hj. apply Hno. exists j. exact Hj. }
      destruct Hk as (j & Hj). pose proof (tr_kid_lt cs K HT l j Hj) as [J1 J2]. destruct (IH (K - j) ltac:(lia) j ltac:(lia) eq_refl) as (y & Y1 & Y2).
      exists y. split; [exact Y1|]. apply (under_trans cs) with j; [exact Y2|]. apply under_step with l; [exact Hj|apply (under_refl cs K HT); exact Rl]. }
    destruct Hleaf as (y & Y1 & Y2). destruct Y1 as [(cy & Hcy) Y1].
    pose proof (under_death n e0 e adj minPts compact fuel h HG Hcov Hcon Hs Hfw Hm Hok y l Y2 cy c Hcy Hc) as L2.
    pose proof (Hmin y cy (conj (ex_intro _ cy Hcy) Y1) (under_trans cs y l k Y2 Hlk) Hcy) as L3.
    apply (fle_trans _ _ _ L3). apply (fle_trans _ _ _ L2 L1).
Qed.
End Deepest.

Lemma dense_notnan d n m v w : 2 <= m -> dense_from d n m v w -> fisnan w = false.
Proof.
  intros Hm ((l & Hnd & Hlen & Hl) & _). destruct (fisnan w) eqn:Nw; [exfalso|reflexivity].
  assert (Hno : forall a b, joined (close d n w) a b -> a = b).
  { intros a b H. induction H as [a b (_ & _ & _ & x & cu & cv & _ & _ & _ & H & _)|a|a b _ IH|a b c _ IH1 _ IH2]; [|reflexivity|auto|congruence].
    apply fle_true in H. destruct H as (_ & H & _). congruence. }
  destruct l as [|a [|b l]]; cbn in Hlen; try lia. inversion Hnd as [|? ? N1 _]. apply N1. left.
  rewrite <- (Hno v a), <- (Hno v b); [reflexivity|apply Hl; cbn; auto|apply Hl; cbn; auto].
Qed.

Lemma dense_le d n m v w x : 2 <= m -> dense_from d n m v w -> dense_from d n m v x -> fle w x = true.
Proof.
  intros Hm Hw Hx. pose proof (dense_notnan d n m v w Hm Hw) as Nw. pose proof (dense_notnan d n m v x Hm Hx) as Nx.
  destruct (Z.le_gt_cases (fkey w) (fkey x)) as [H|H]; [apply fle_intro; assumption|exfalso].
  apply (proj2 Hw). destruct (proj1 Hx) as (l & L1 & L2 & L3). exists l. split; [exact L1|]. split; [exact L2|]. intros y Hy. specialize (L3 y Hy). revert L3.
  assert (Hlt : flt x w = true) by (apply flt_intro; auto). apply joined_mono. intros a b (A1 & A2 & A3 & z & cu & cv & B1 & B2 & B3 & B4 & B5 & B6).
  split; [exact A1|]. split; [exact A2|]. split; [exact A3|]. exists z, cu, cv. eauto 10 using fle_lt_lt.
Qed.

Theorem C65_scores_from_data : forall ds rows cols minPts fuel s qsort,
  5 <= rows -> (Z.of_nat rows <= 65536)%Z -> holds ds rows cols -> 2 <= minPts <= rows ->
  (forall i j, i < j -> j < rows -> flt (euclidean ds cols i j) D_MAX = true) -> 2 * rows - 1 <= fuel -> valid s -> sorts qsort ->
  exists d o r, distance_compute ds rows cols (Z.of_nat minPts - 1) = Ok d /\
    fresh_run fuel s qsort (Z.of_nat minPts) ds rows cols true = Ok o /\ o_res o = Some r /\
    Permutation (map Z.of_nat (seq 0 rows)) (map os_id (r_outliers r)) /\ StronglySorted before (r_outliers r) /\
    forall x, In x (r_outliers r) -> exists v, v < rows /\ os_id x = Z.of_nat v /\ nth_error (d_core d) v = Some (Some (os_core x)) /\
      glosh_score d rows minPts r v (os_score x).
Proof.
  intros ds rows cols m fuel s q Hr1 Hr HL Hm Hfin Hf Hs Hq.
  destruct (data_below ds rows cols m Hm Hr HL Hfin) as (d & Ed & HR & HB & Hget).
  destruct (run_parts ds rows cols (Z.of_nat m) fuel Hr1 Hr HL ltac:(unfold M32; lia) Hf) as (d' & P & Ed' & _ & HN & H). rewrite Ed in Ed'. injection Ed' as <-.
  destruct (H s q Hs Hq) as (labels & os & E & HLl & _ & Eo). clear H.
  exists d. eexists. eexists. split; [exact Ed|]. split; [exact E|]. split; [reflexivity|]. clear E. cbn [r_outliers].
  destruct P as [e0 adj e h K inf cs' trace root E1 E2 E3 HG Hcov Hso Hfw Eh HLK Hp Hroot]. cbn [p_cs p_h p_root] in *. rewrite Nat2Z.id in Eh.
  set (r := mk_results labels os (h_hier h) cs').
  destruct (build_input d rows ltac:(lia) ltac:(unfold M32; lia) HR HB) as (e0' & adj' & e' & F1 & F2 & F3 & _ & _ & Hcon & _ & _ & _ & HJ).
  rewrite E1 in F1. injection F1 as <-. rewrite E3 in F3. injection F3 as <-.
  pose proof (joined_closer d rows e HJ) as HJb.
  pose proof (Hp _ _ (Permutation_refl _) (le_n K)) as Ep.
  destruct (C33_hierarchy_gives_tree rows e0 e adj m false fuel h HG Hcov (proj1 Hm) Eh) as (K0 & HT & HF & _).
  assert (K0 = K) by (destruct HT as (HL' & _); lia). subst K0.
  destruct (run_result _ _ _ _ _ _ _ HT HF (Permutation_refl _) (le_n K) Ep) as (_ & _ & g & HRp & HS).
  assert (HLr : length cs' = S K) by apply HRp.
  set (cs := l_cs (h_l h)) in *.
  assert (Hst : forall k, 1 <= k <= K -> statics (g k) = statics (g0 cs k)) by (apply (st_stat _ _ _ _ HS)).
  assert (Hpt : forall k v, point_of r k v <-> member h k v).
  { intros k v. split; intros (c & w & ls & P1 & P2 & P3).
    - apply (rep_in _ _ _ _ _ HRp) in P1. destruct P1 as [Hk ->]. exists (g0 cs k), w, ls. split; [apply (tr_in cs K HT); auto|]. split; [|exact P3].
      unfold entry. pose proof (f_equal c_offset (Hst k Hk)) as Q. cbn in Q. rewrite <- Q. exact P2.
    - apply (tr_in cs K HT) in P1. destruct P1 as [Hk ->]. exists (g k), w, ls. split; [apply (rep_in _ _ _ _ _ HRp); auto|]. split; [|exact P3].
      pose proof (f_equal c_offset (Hst k Hk)) as Q. cbn in Q. rewrite Q. exact P2. }
  pose proof (ok_nonan rows e0 e adj HG m false (proj1 Hm) fuel h Eh) as Hnan. unfold no_nan in Hnan. rewrite Forall_forall in Hnan.
  assert (Hdense : forall v w, v < rows -> noise_level h v w -> dense_from d rows m v w).
  { intros v w Hv Hw. destruct (C63_noise_levels rows e0 e adj m false fuel h HG Hcon Hso Hm Eh v Hv) as (w' & W1 & W2 & W3).
    destruct (noise_weight rows e0 e adj m false fuel h HG Hcov (proj1 Hm) Eh v Hv) as (w2 & k2 & c2 & Hin & V1 & _).
    unfold noise_level in *. rewrite Hw in W1, V1. injection W1 as <-. injection V1 as <-. split.
    - apply (many_ext (edge_upto (triples e) w)); [|exact W2]. intros a b. apply HJ. apply Hnan. exact Hin.
    - intros Hx. apply W3. apply (many_ext (closer d rows w)); [intros a b; symmetry; apply HJb|exact Hx]. }
  assert (Hmn : forall k v, member h k v -> v < rows).
  { intros k v Hk. destruct (C30_cluster_tree rows e0 e adj m false fuel h HG Hcov (proj1 Hm) Eh) as (K1 & _ & _ & _ & _ & (rt & _ & _ & Hroots) & _).
    apply Hroots. apply (up_member rows e0 e adj m false fuel h K HG Hcov Hm Eh HT k 1 v); [|exact Hk]. apply (under_root _ K HT). apply (member_rng h K HT k v Hk). }
  assert (Hcore : forall v, v < rows -> exists c, nth_error (d_core d) v = Some (Some c) /\ fisnan c = false).
  { intros v Hv. destruct (proj2 HR v Hv) as (c & Hc). exists c. split; [exact Hc|]. apply (ge0_notnan c). apply (proj2 HN v c Hv Hc). }
  destruct (C40_outlier_scores rows e0 e adj m false fuel h HG Hcov Hso Hfw (proj1 Hm) ltac:(lia) Eh K _ K inf cs' trace HLK (Permutation_refl _) (le_n K) Ep (d_core d) q Hcore Hq) as (os' & Eo' & O1 & O2 & O3).
  rewrite Eo in Eo'. injection Eo' as <-. split; [exact O1|]. split; [exact O2|].
  intros x Hx. destruct (O3 x Hx) as (v & k & c & w & Hv & Hid & Hcr & Hlast & Hc & Hnoise & Hsc & _).
  exists v. split; [exact Hv|]. split; [exact Hid|]. split; [exact Hcr|]. exists k, w, (c_plow c).
  assert (Rk : 1 <= k <= K) by (apply (rep_in _ _ _ _ _ HRp) in Hc; apply Hc).
  split; [|split; [apply (Hdense v w Hv Hnoise)|split; [|split; [|exact Hsc]]]].
  - split; [apply Hpt, (last_member rows e0 e adj m false fuel h HG Hcov Hm Eh v k Hv Hlast)|].
    intros j Hj u Hu. apply Hpt. apply Hpt in Hj. apply Hpt in Hu.
    apply (up_member rows e0 e adj m false fuel h K HG Hcov Hm Eh HT k j u); [|exact Hu].
    apply (last_deepest rows e0 e adj m false fuel h K HG Hcov Hcon Hso Hm Eh HT v k w j Hv Hlast Hnoise Hj).
  - cbn [r_clusters r]. rewrite HLr. intros HK.
    assert (H1 : ~ leaf cs 1).
    { intros [_ Hno]. destruct (tr_par _ _ HT 2 ltac:(lia)) as (p & Epp & Hpp). apply (Hno 2). exists (g0 cs 2). split; [apply (tr_in _ _ HT); split; [lia|reflexivity]|]. rewrite Epp. f_equal. lia. }
    assert (HD : forall l c, leaf cs l -> l <> 1 -> cluster_in cs l c -> flt (c_death c) D_MAX = true).
    { intros l cl _ Hl1 Hcl. assert (Rl : 1 <= l <= K) by (apply (tr_in cs K HT) in Hcl; apply Hcl).
      destruct (C31_death_levels rows e0 e adj m false fuel h HG Hcov Hso (proj1 Hm) Eh l cl Hcl) as (_ & _ & HBl & _). destruct (HBl ltac:(lia)) as [Hin Hlt].
      unfold finite_weights in Hfw. rewrite Forall_forall in Hfw. destruct (Hfw _ Hin) as [_ Hle]. apply (flt_le_lt _ _ _ Hlt Hle). }
    destruct (C36_lowest_death_level cs K _ K inf cs' trace HT HF (Permutation_refl _) (le_n K) Ep HD) as [H36 _].
    destruct (H36 k c Hc ltac:(intros _; exact H1)) as [(z & dz & Z1 & Z2 & Z3 & Z4) Hmin].
    destruct (lowest rows e0 e adj m false fuel h K HG Hcov Hcon Hso Hfw Hm Eh HT k z dz (c_plow c) Rk Z1 Z2 Z3 Z4 Hmin) as [(u & U1 & U2 & U3) Hall].
    split; [exists u; split; [apply Hpt, U1|apply (Hdense u _ U2 U3)]|].
    intros y t Hy Ht. apply Hpt in Hy. pose proof (Hmn k y Hy) as Hyn.
    destruct (C63_noise_levels rows e0 e adj m false fuel h HG Hcon Hso Hm Eh y Hyn) as (w' & W1 & _).
    apply (fle_trans _ w'); [apply (Hall y w' Hyn Hy W1)|apply (dense_le d rows m y w' t (proj1 Hm) (Hdense y w' Hyn W1) Ht)].
  - cbn [r_clusters r]. rewrite HLr. intros HK. assert (K = 1) by lia. subst K. assert (k = 1) by lia. subst k.
    assert (H1 : leaf cs 1).
    { split; [destruct (clus_ex h 1 HT 1 ltac:(lia)) as (c1 & Hc1); exists c1; exact Hc1|]. intros j Hj. destruct (tr_kid_lt cs 1 HT 1 j Hj). lia. }
    destruct (low_levels rows e0 e adj m false fuel h HG Hcov Hso Hfw (proj1 Hm) Eh 1 _ 1 inf cs' trace HLK (Permutation_refl _) (le_n 1) Ep) as (_ & _ & _ & H2).
    apply (H2 c Hc H1).
Qed.
Print Assumptions C65_scores_from_data.

(** ** The hypotheses are met *)
(** By the six points 0, 1, 3, 10, 12, 15 and minPoints 2.  The run finds the clusters 2 and 3,
    born at level 7 (six_stabilities in PropStab.v); the scores of the points 15 and 3 are
    1 - 2/3 and 1 - 1/2. *)
Example six_met : 5 <= 6 /\ (Z.of_nat 6 <= 65536)%Z /\ holds (DDouble six) 6 1 /\ 2 <= 2 <= 6 /\
  (forall i j, i < j -> j < 6 -> flt (euclidean (DDouble six) 1 i j) D_MAX = true) /\ 2 * 6 - 1 <= 11 /\ valid in_turn /\ sorts insertion_sort.
Proof.
  split; [lia|]. split; [lia|]. split; [apply holds_double; reflexivity|]. split; [lia|]. split; [exact six_finite|]. split; [lia|].
  split; [apply schedules_valid|exact insertion_sort_sorts].
Qed.
Example six_scores : match fresh_run 11 in_turn insertion_sort 2 (DDouble six) 6 1 true with
  | Ok o => match o_res o with
            | Some r => match r_outliers r with
                        | [a; b; c; d; e; f] =>
                            (os_id e =? 5)%Z && feq (os_score e) (fsub fone (fdiv (f_of_Z 2) (f_of_Z 3)))
                            && (os_id f =? 2)%Z && feq (os_score f) (fsub fone (fdiv (f_of_Z 1) (f_of_Z 2)))
                            && feq (os_score a) fzero && feq (os_score d) fzero
                        | _ => false end
            | None => false end
  | _ => false end = true.
Proof. vm_compute. reflexivity. Qed.
