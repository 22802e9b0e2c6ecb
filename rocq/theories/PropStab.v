(** C61, C62: cluster stabilities and the optimality of the clusters a run selects. *)
From Coq Require Import Permutation Sorted Reals Relations.
From Flocq Require Import IEEE754.BinarySingleNaN.
From Verif Require Import Base F64 F64Facts F64Arith ListFacts ModelUtils ModelDistance ModelMst ModelGraph ModelCluster ModelHier ModelSelect ModelRun SpecGraph SpecHier SpecTree
  PropUtils ProofDistance ProofCore PropDistance PropMst PropGraph ProofTree ProofHier ProofHierEnd PropHier ProofSelect ProofTreeSel PropSelect PropProminent PropOutlier ProofRun PropRun ProofStab.
From Coq Require Import ZifyBool ZifyNat.
Local Open Scope nat_scope.

(** ** C61 *)
(** A group of points that leave cluster [l] together at level [w]: they become noise, or they
    are all the points of a new child cluster. *)
Definition departs (h : hstate) (l : nat) (points : list nat) (w : f64) : Prop :=
  (forall v, In v points -> last_cluster h v l /\ noise_level h v w)
  \/ (exists k c, child h k l c /\ c_birth c = w /\ forall v, In v points <-> member h k v).

(** The contribution of [k] points that leave at [level] a cluster born at [birth]. *)
Definition contribution (birth : f64) (k : nat) (level : f64) : f64 :=
  fmul (f_of_Z (Z.of_nat k)) (fsub (fdiv fone level) (fdiv fone birth)).

(** Every point of a cluster leaves it in exactly one group; the groups leave at falling
    levels, below the level of the cluster's birth; the stability is the sum of their
    contributions in this order. *)
Theorem C61_stability_is_the_sum_over_departures :
  forall n e0 e adj minPts compact fuel h,
  graph_input n e0 e adj -> covers n e -> weights_sorted e -> 2 <= minPts ->
  compute_hierarchy fuel e n adj minPts compact = Ok h ->
  forall l c, cluster_at h l c -> exists groups : list (list nat * f64),
    c_stab c = fold_left (fun sum g => fadd sum (contribution (c_birth c) (length (fst g)) (snd g))) groups fzero /\
    NoDup (concat (map fst groups)) /\
    (forall v, In v (concat (map fst groups)) <-> member h l v) /\
    (forall points w, In (points, w) groups -> points <> [] /\ departs h l points w /\ In w (e_w e) /\ (2 <= l -> flt w (c_birth c) = true)) /\
    StronglySorted (fun a b => fle (snd b) (snd a) = true) groups.
Proof.
  intros n e0 e adj minPts compact fuel h HG Hcov Hs Hm Hok l c Hc.
  pose proof (gt_w e Hs) as Hgw.
  destruct (done_rel gtw n e0 e adj minPts compact fuel h HG Hm gt_t Hgw Hok) as (g & B & Hg & -> & Hnan & HI & HP).
  pose proof (member_bk n e0 e adj HG minPts Hm gtw gt_t Hgw B g HI Hcov) as Hmem.
  destruct (co_inv0 _ _ _ _ _ _ _ _ (in_core _ _ _ _ _ _ _ _ HI)) as [w0 HC].
  assert (Hrange : forall k c, clus (h_l g) k c -> 1 <= k < l_next (h_l g)).
  { intros k ck H. pose proof (clus_lt _ _ _ H) as Hl. rewrite (ci_cs _ _ _ _ _ _ _ HC) in Hl.
    destruct (Nat.eq_dec k 0) as [->|Hk0]; [|lia]. unfold clus in H. rewrite (ci_null _ _ _ _ _ _ _ HC) in H. discriminate. }
  change (clus (h_l g) l c) in Hc. pose proof (Hrange l c Hc) as Hl.
  destruct (ci_c _ _ _ _ _ _ _ HC l Hl) as (c' & Hc' & Hgd). rewrite (clus_fun _ _ _ _ Hc' Hc) in Hgd.
  destruct (cg_ledger _ _ _ _ _ _ _ _ Hgd) as (evs & HL). destruct HL.
  exists evs. split; [exact ld_sum|]. split; [exact ld_nodup|]. split; [|split].
  - intros v. rewrite ld_pts, Hmem. split; [tauto|]. intros [_ H]. split; [exact H|].
    rewrite (all_noise n e0 e adj HG minPts Hm gtw Hgw B g HI Hcov); [lia|]. apply (ci_born _ _ _ _ _ _ _ HC l). exact H.
  - intros points w Hin. split; [apply (ld_ne _ Hin)|]. destruct (ld_lev _ Hin) as (L1 & _ & L3). cbn [snd] in *.
    split; [|split; [exact L1|exact L3]].
    destruct (ld_kind _ Hin) as [H|(j & cj & J1 & J2 & J3 & J4)]; cbn [fst snd] in *; [left; exact H|].
    right. exists j, cj. split; [split; assumption|]. split; [exact J3|]. intros v. rewrite Hmem, J4. pose proof (Hrange j cj J1). tauto.
  - assert (Hfin : forall g0, In g0 evs -> fle (snd g0) (snd g0) = true).
    { intros g0 Hin. destruct (ld_lev _ Hin) as (L1 & _). unfold no_nan in Hnan. rewrite Forall_forall in Hnan. apply fle_refl. apply Hnan. exact L1. }
    clear - ld_ord Hfin. induction ld_ord as [|a evs Hss IH Ha]; [constructor|]. constructor.
    + apply IH. intros g0 Hin. apply Hfin. right. exact Hin.
    + rewrite Forall_forall in *. intros b Hb. destruct (Ha b Hb) as [Heq|Hlt].
      * rewrite Heq. apply Hfin. right. exact Hb.
      * unfold gtw in Hlt. apply flt_true in Hlt. destruct Hlt as (N1 & N2 & K). apply fle_intro; auto. apply Z.lt_le_incl. exact K.
Qed.
Print Assumptions C61_stability_is_the_sum_over_departures.

(** Weights that are +0 or at least DBL_MIN. *)
Definition usual_weights (e : edges) : Prop := Forall usual (e_w e).

Lemma sum_ge0 f : forall l a, ge0 a -> (forall g : list nat * f64, In g l -> ge0 (f g)) -> ge0 (fold_left (fun s g => fadd s (f g)) l a).
Proof.
  induction l as [|g l IH]; intros a Ha H; [exact Ha|]. cbn [fold_left]. apply IH; [|intros x Hx; apply H; right; exact Hx].
  apply fadd_ge0; [exact Ha|]. apply H. left. reflexivity.
Qed.
Lemma sum_nan f : forall (l : list (list nat * f64)) a, fisnan a = true \/ (exists g, In g l /\ fisnan (f g) = true) ->
  fisnan (fold_left (fun s g => fadd s (f g)) l a) = true.
Proof.
  induction l as [|g l IH]; intros a H; cbn [fold_left].
  - destruct H as [H|(g & [] & _)]. exact H.
  - apply IH. destruct H as [H|(g' & [<-|Hg] & H)]; [left; apply fadd_nan_l; exact H|left; apply fadd_nan; exact H|right; exists g'; auto].
Qed.

(** The stability of a cluster other than the root is not negative and not NaN; that of the
    root is NaN. *)
Theorem C61_stability_not_negative :
  forall n e0 e adj minPts compact fuel h,
  graph_input n e0 e adj -> covers n e -> weights_sorted e -> 2 <= minPts -> usual_weights e ->
  compute_hierarchy fuel e n adj minPts compact = Ok h ->
  forall l c, cluster_at h l c -> (2 <= l -> fle fzero (c_stab c) = true) /\ (l = 1 -> fisnan (c_stab c) = true).
Proof.
  intros n e0 e adj minPts compact fuel h HG Hcov Hs Hm Hu Hok l c Hc.
  destruct (C61_stability_is_the_sum_over_departures n e0 e adj minPts compact fuel h HG Hcov Hs Hm Hok l c Hc) as (groups & Hsum & Hnd & Hmem & Hgr & _).
  unfold usual_weights in Hu. rewrite Forall_forall in Hu. split.
  - intros Hl. destruct (C31_death_levels n e0 e adj minPts compact fuel h HG Hcov Hs Hm Hok l c Hc) as (_ & _ & HB & _). destruct (HB Hl) as [Hb _].
    rewrite Hsum. apply (sum_ge0 (fun g => contribution (c_birth c) (length (fst g)) (snd g))); [reflexivity|].
    intros [points w] Hin. cbn [fst snd]. destruct (Hgr points w Hin) as (Hne & _ & Hw & Hlt).
    apply gain_ge0; [apply Hu; exact Hw|apply Hu; exact Hb|apply Hlt; exact Hl| |].
    + destruct points; [congruence|cbn; lia].
    + assert (Hlen : length points <= n).
      { rewrite <- (seq_length n 0). apply NoDup_incl_length.
        - apply in_split in Hin. destruct Hin as (l1 & l2 & ->). rewrite map_app, concat_app in Hnd. cbn [map concat fst] in Hnd.
          apply NoDup_app_r in Hnd. apply NoDup_app_l in Hnd. exact Hnd.
        - intros v Hv. apply in_seq. split; [lia|].
          assert (Hvm : member h l v) by (apply Hmem, in_concat; exists points; split; [apply in_map_iff; exists (points, w); auto|exact Hv]).
          destruct (C30_cluster_tree n e0 e adj minPts compact fuel h HG Hcov Hm Hok) as (K & _ & _ & _ & _ & (r & _ & _ & Hr) & Hpar & _).
          assert (Hup : forall k, forall v, member h k v -> 1 <= k -> v < n).
          { clear -Hr Hpar. intros k. induction k as [k IH] using lt_wf_ind. intros v Hv Hk. destruct (Nat.eq_dec k 1) as [->|Hk1]; [apply Hr; exact Hv|].
            pose proof Hv as (ck & w & ls & H1 & _). destruct (Hpar k ck H1 ltac:(lia)) as (p & cp & pts & _ & Hp & _ & _ & _ & _ & Hsub).
            apply (IH p ltac:(lia)); [apply Hsub; exact Hv|lia]. }
          apply (Hup l v Hvm). lia. }
      destruct HG as (_ & HG & _). unfold M32 in HG. lia.
  - intros ->. destruct (C30_cluster_tree n e0 e adj minPts compact fuel h HG Hcov Hm Hok) as (K & _ & _ & _ & _ & (r & Hr & _ & Hall) & _).
    assert (Hbirth : fisnan (c_birth c) = true).
    { destruct (done_rel anyw n e0 e adj minPts compact fuel h HG Hm any_t (any_w e) Hok) as (g & B & Hg & -> & Hnan & HI & HP).
      destruct (co_inv0 _ _ _ _ _ _ _ _ (in_core _ _ _ _ _ _ _ _ HI)) as [w0 HC]. pose proof (ci_next _ _ _ _ _ _ _ HC) as Hnx.
      destruct (ci_c _ _ _ _ _ _ _ HC 1 ltac:(lia)) as (c' & Hc' & Hgd). change (clus (h_l g) 1 c) in Hc. rewrite (clus_fun _ _ _ _ Hc' Hc) in Hgd.
      rewrite (proj2 (cg_root _ _ _ _ _ _ _ _ Hgd eq_refl)). reflexivity. }
    destruct HG as (Hn & _). assert (H0 : In 0 (concat (map fst groups))) by (apply Hmem, Hall; lia).
    apply in_concat in H0. destruct H0 as (pts & Hp & _). apply in_map_iff in Hp. destruct Hp as ([pts' w] & _ & Hin).
    rewrite Hsum. apply (sum_nan (fun g => contribution (c_birth c) (length (fst g)) (snd g))). right. exists (pts', w). split; [exact Hin|].
    unfold contribution. apply fmul_nan. cbn [snd]. destruct (c_birth c) as [s|s| |s m e' B']; try discriminate.
    destruct (fdiv fone w) as [s|s| |s m e' B']; reflexivity.
Qed.
Print Assumptions C61_stability_not_negative.

(** ** C62 *)
Lemma euclidean_usual ds cols i j : fisnan (euclidean ds cols i j) = true \/ usual (euclidean ds cols i j).
Proof.
  unfold euclidean. apply fsqrt_usual. assert (H0 : unsigned fzero) by (right; reflexivity). revert H0. generalize fzero.
  induction (seq 0 cols) as [|k l IH]; intros a Ha; [exact Ha|]. cbn [fold_left]. apply IH. apply fadd_unsigned; [exact Ha|apply fsquare_unsigned].
Qed.

Lemma run_usual ds rows cols k d : 1 <= rows -> (Z.of_nat rows <= 65536)%Z -> holds ds rows cols -> (0 <= k < M32 - 1)%Z ->
  distance_compute ds rows cols k = Ok d -> forall e0 e, construct_mst d rows true = Ok e0 -> graph_quicksort_by_edge_weight e0 = Ok e -> usual_weights e.
Proof.
  intros Hr1 Hr HL Hk Ed e0 e E1 E3.
  destruct (C15_distance_get_euclidean ds rows cols k Hr1 Hr HL Hk) as (d' & Ed' & HC & Hrows & Hdk & Hget). rewrite Ed in Ed'. injection Ed' as <-.
  assert (Hval : forall i j x, i < rows -> j < rows -> distance_get d (Z.of_nat i) (Z.of_nat j) = Ok x -> fisnan x = true \/ usual x).
  { intros i j x Hi Hj Hx. rewrite (proj1 (Hget i j Hi Hj)) in Hx. injection Hx as <-. destruct (i =? j); [right; left; reflexivity|]. apply euclidean_usual. }
  destruct (compute_split ds rows cols k d HC Hrows Ed Hk) as (d1 & C1 & R1 & K1 & Hc1 & G1).
  destruct (C18_core_distance_finite d1 C1 ltac:(lia)) as (d2 & Ed2 & _ & Hc2). rewrite Hc1 in Ed2. injection Ed2 as <-.
  assert (Hcore : forall i, i < rows -> exists c, nth_error (d_core d) i = Some (Some c) /\ usual c).
  { intros i Hi. destruct (row_exists d1 i C1 ltac:(lia)) as (row & Hrow). destruct (Hc2 i row ltac:(lia) Hrow) as (c & Hc & Hor & Hnn & _).
    exists c. split; [exact Hc|]. destruct Hor as [->|[Hin _]]; [right; reflexivity|].
    destruct Hrow as [HLr Hrow]. apply (In_nth _ _ fzero) in Hin. destruct Hin as (j & Hj & Ej).
    destruct (Hval i j c Hi ltac:(lia)) as [H|H]; [rewrite <- G1, (Hrow j) by lia; congruence|congruence|exact H]. }
  assert (HR : readable d rows).
  { split; [|intros i Hi; destruct (Hcore i Hi) as (c & Hc & _); eauto]. intros i j Hi Hj. destruct HC as [_ HC]. apply HC; lia. }
  destruct (C20_spanning_tree_construction d rows Hr1 HR) as (e0' & E0 & La & Lb & Lw & Htree & Hself). rewrite E1 in E0. injection E0 as <-.
  assert (Hal : aligned e0) by (unfold aligned; lia).
  assert (Htl : length (triples e0) = 2 * rows - 1) by (unfold triples; rewrite !combine_length; lia).
  assert (Hcases : forall a b w, In (a, b, w) (triples e0) -> usual w).
  { intros a b w Hin. apply In_nth_error in Hin. destruct Hin as [i Hi].
    assert (Hil : i < 2 * rows - 1) by (rewrite <- Htl; apply nth_error_Some; congruence).
    destruct (le_lt_dec (rows - 1) i) as [Hge|Hlt].
    - destruct (Hself (i - (rows - 1)) ltac:(lia)) as (cv & Hc & Ht). replace (rows - 1 + (i - (rows - 1))) with i in Ht by lia.
      rewrite Hi in Ht. injection Ht as -> -> ->. destruct (Hcore (i - (rows - 1)) ltac:(lia)) as (c & Hc' & Hu). congruence.
    - destruct (Htree i Hlt) as (a' & w' & Ht & Ha & Hw & Hor). rewrite Hi in Ht. injection Ht as -> -> ->.
      destruct Hor as [((x & cu & cv & Hx & Hcu & Hcv & Heq & _) & _)|[_ -> ]]; [|right; reflexivity].
      destruct Heq as [->|[->| -> ]].
      + destruct (Hval a' i x Ha ltac:(lia) Hx) as [Hnan|Hu]; [|exact Hu]. apply fle_true in Hw. destruct Hw as (Hnn & _). unfold notnan in Hnn. congruence.
      + destruct (Hcore a' Ha) as (c & Hc' & Hu). congruence.
      + destruct (Hcore i ltac:(lia)) as (c & Hc' & Hu). congruence. }
  destruct (C23_quicksort_by_edge_weight e0 Hal) as (e' & Ee & Hal' & HP & _). rewrite E3 in Ee. injection Ee as <-.
  pose proof (perm_weights e0 e HP Hal Hal') as HPw.
  unfold usual_weights. apply Forall_forall. intros w Hw. apply (Permutation_in w (Permutation_sym HPw)) in Hw.
  apply (In_nth _ _ fzero) in Hw. destruct Hw as (i & Hi & <-). apply (Hcases (nth i (e_a e0) 0) (nth i (e_b e0) 0)).
  unfold triples. rewrite <- !combine_nth by (rewrite ?combine_length; lia). apply nth_In. rewrite !combine_length. lia.
Qed.

Lemma mt_transfer cs cs' T : (forall k c, cluster_in cs k c -> exists c', cluster_in cs' k c' /\ c_stab c' = c_stab c) ->
  (forall k l, children cs k l -> children cs' k l) -> forall k v, machine_total cs T k v -> machine_total cs' T k v.
Proof.
  intros H1 H2. fix IH 3. intros k v H. destruct H as [k c Hc Hk|k l vs Hk Hl HF].
  - destruct (H1 k c Hc) as (c' & Hc' & <-). apply mt_chosen; assumption.
  - apply mt_sum with l; [exact Hk|apply H2; exact Hl|]. clear Hl. induction HF as [|x y l vs Hx HF IHF]; constructor; [apply IH; exact Hx|exact IHF].
Qed.

(** Whatever the data: the labels a run gives out are the clusters of a set whose total
    stability is the largest possible among all sets of clusters without the root. *)
Theorem C62_run_selects_the_most_stable_clusters :
  forall ds rows cols minPts fuel s qsort,
  5 <= rows -> (Z.of_nat rows <= 65536)%Z -> holds ds rows cols -> (2 <= minPts < M32)%Z -> 2 * rows - 1 <= fuel ->
  valid s -> sorts qsort ->
  exists o r chosen best, fresh_run fuel s qsort minPts ds rows cols true = Ok o /\ o_res o = Some r /\
    (forall c, c <> 0 -> In c (r_labels r) <-> In c chosen) /\
    antichain (r_clusters r) chosen /\ ~ In 1 chosen /\ (forall k, In k chosen -> exists c, cluster_in (r_clusters r) k c) /\
    (forall k c, cluster_in (r_clusters r) k c -> k <> 1 -> fle fzero (c_stab c) = true) /\
    machine_total (r_clusters r) chosen 1 best /\
    forall T v, ~ In 1 T -> machine_total (r_clusters r) T 1 v -> fle v best = true.
Proof.
  intros ds rows cols m fuel s q Hr1 Hr HL Hm Hf Hs Hq. assert (HM : (M32 = 4294967296)%Z) by reflexivity.
  destruct (run_parts ds rows cols m fuel Hr1 Hr HL Hm Hf) as (d & P & Ed & HR & HN & H). destruct (H s q Hs Hq) as (labels & os & E & HLl & Hlab & _). clear H.
  exists (mk_hdb m rows true (Some d) (Some (p_cs _ _ _ _ P)) (Some (mk_results labels os (h_hier (p_h _ _ _ _ P)) (p_cs _ _ _ _ P)))).
  eexists. exists (c_desc (p_root _ _ _ _ P)), (c_pstab (p_root _ _ _ _ P)). split; [exact E|]. split; [reflexivity|]. cbn [r_labels r_clusters]. clear E.
  destruct P as [e0 adj e h K inf cs' trace root E1 E2 E3 HG Hcov Hso Hfin Eh HLK Hp Hroot]. cbn [p_cs p_h p_root] in *.
  pose proof (Hp _ _ (Permutation_refl _) (le_n K)) as Ep.
  pose proof (run_usual ds rows cols (m - 1) d ltac:(lia) Hr HL ltac:(lia) Ed e0 e E1 E3) as Hu.
  destruct (C33_hierarchy_gives_tree rows e0 e adj (Z.to_nat m) false fuel h HG Hcov ltac:(lia) Eh) as (K0 & HT & HF & HNC).
  assert (K0 = K) by (destruct HT as (HL' & _); lia). subst K0.
  pose proof (C61_stability_not_negative rows e0 e adj (Z.to_nat m) false fuel h HG Hcov Hso ltac:(lia) Hu Eh) as Hpos.
  destruct (run_result _ _ _ _ _ _ _ HT HF (Permutation_refl _) (le_n K) Ep) as (_ & _ & g & HRp & HS).
  destruct (C34_selected_clusters_cover_the_leaves _ _ _ _ _ _ _ _ HT HF (Permutation_refl _) (le_n K) Ep Hroot) as (HA & HR2 & HR3).
  set (cs := l_cs (h_l h)) in *.
  assert (Hto : forall k c, cluster_in cs k c -> exists c', cluster_in cs' k c' /\ c_stab c' = c_stab c).
  { intros k c Hc. apply (tr_in cs K HT) in Hc. destruct Hc as [Hk ->]. exists (g k). split; [apply (rep_in _ _ _ _ _ HRp); auto|].
    destruct (g_stat cs K g HS k Hk) as (_ & _ & X & _). exact X. }
  assert (Hfrom : forall k c, cluster_in cs' k c -> exists c', cluster_in cs k c' /\ c_stab c' = c_stab c).
  { intros k c Hc. apply (rep_in _ _ _ _ _ HRp) in Hc. destruct Hc as [Hk ->]. exists (g0 cs k). split; [apply (tr_in cs K HT); auto|].
    destruct (g_stat cs K g HS k Hk) as (_ & _ & X & _). symmetry. exact X. }
  assert (Hch : forall k l, children cs k l <-> children cs' k l).
  { intros k l. unfold children. split; intros [X1 X2]; (split; [|exact X2]); intros x; rewrite X1; [symmetry|]; apply (kids_same cs cs' K g x k HT HRp HS). }
  assert (Hstab : forall k c, cluster_in cs k c -> k <> 1 -> fle fzero (c_stab c) = true).
  { intros k c Hc Hk1. apply (Hpos k c Hc). apply (tr_in cs K HT) in Hc. lia. }
  destruct (C35_maximal_in_double_arithmetic cs K _ K inf cs' trace root HT HF HNC (Permutation_refl _) (le_n K) Ep Hstab Hroot) as [Hsel Hmax].
  assert (Hmem : forall c, In c (c_desc root) -> exists v, v < rows /\ member h c v).
  { intros c Hc. destruct (HR2 c Hc) as [Hc2 Hc3].
    destruct (C30_cluster_tree rows e0 e adj (Z.to_nat m) false fuel h HG Hcov ltac:(lia) Eh) as (K1 & HLK1 & _ & _ & Hk & (r & _ & _ & Hall) & Hpar & _).
    change (l_cs (h_l h)) with cs in HLK1. assert (K1 = K) by (clear -HLK HLK1; lia). subst K1.
    destruct (Hk c ltac:(lia)) as (cc & Hcc & _). destruct (Hpar c cc Hcc ltac:(lia)) as (p & cp & pts & _ & _ & _ & _ & Hlen & Hpts & _).
    destruct pts as [|v pts]; [cbn in Hlen; lia|]. exists v. assert (Hv : member h c v) by (apply Hpts; left; reflexivity). split; [|exact Hv].
    clear - Hv Hall Hpar Hc2. revert v Hv. induction c as [c IH] using lt_wf_ind. intros v Hv.
    destruct (Nat.eq_dec c 1) as [->|Hc1]; [apply Hall; exact Hv|].
    pose proof Hv as (ck & w & ls & H1 & _). destruct (Hpar c ck H1 ltac:(lia)) as (p & cp & pts & _ & Hp & _ & _ & _ & _ & Hsub).
    destruct (Nat.eq_dec p 1) as [->|Hp1]; [apply Hall, Hsub, Hv|]. apply (IH p ltac:(lia) ltac:(lia)). apply Hsub. exact Hv. }
  split; [|split; [|split; [|split; [|split; [|split]]]]].
  - intros c Hc. split.
    + intros Hin. apply In_nth_error in Hin. destruct Hin as [v Hv]. apply (Hlab v c); [|exact Hc|exact Hv]. rewrite <- HLl. apply nth_error_Some. congruence.
    + intros Hin. destruct (Hmem c Hin) as (v & Hv & Hmv). apply (nth_error_In _ v). apply Hlab; auto.
  - destruct HA as [HA1 HA2]. split; [exact HA1|]. intros j k Hj Hk Hu'. apply HA2; [exact Hj|exact Hk|].
    clear -Hu' Hfrom HT HRp HS. induction Hu' as [k c Hc|k p a Hkp Hpa IH].
    + destruct (Hfrom k c Hc) as (c' & Hc' & _). apply (under_self _ _ _ Hc').
    + apply under_step with p; [apply (kids_same cs cs' K g k p HT HRp HS); exact Hkp|exact IH].
  - intros Hin. destruct (HR2 1 Hin). lia.
  - intros k Hin. destruct (HR2 k Hin). exists (g k). apply (rep_in _ _ _ _ _ HRp). split; [lia|reflexivity].
  - intros k c Hc Hk1. destruct (Hfrom k c Hc) as (c' & Hc' & <-). apply (Hstab k c' Hc' Hk1).
  - apply (mt_transfer cs cs' _ Hto); [intros k l; apply Hch|exact Hsel].
  - intros T v HT1 Hv. apply (Hmax T v HT1). apply (mt_transfer cs' cs T Hfrom); [intros k l; apply Hch|exact Hv].
Qed.
Print Assumptions C62_run_selects_the_most_stable_clusters.

(** ** The hypotheses are met *)
(** The six points of C28: the hierarchy's input meets the hypotheses of C61. *)
Example six_usual : exists d e0 adj e, six_distance = Ok d /\ construct_mst d 6 true = Ok e0 /\ graph_init 6 e0 = Ok adj /\ graph_quicksort_by_edge_weight e0 = Ok e /\
  graph_input 6 e0 e adj /\ covers 6 e /\ weights_sorted e /\ usual_weights e.
Proof.
  destruct six_hypotheses as (d & e0 & adj & e & Ed & HR & HB & E1 & E2 & E3 & HG & Hcov & Hcon & _ & Hs).
  exists d, e0, adj, e. repeat (split; [assumption|]).
  apply (run_usual (DDouble six) 6 1 1 d ltac:(lia) ltac:(lia) (holds_double six 6 1 eq_refl) ltac:(unfold M32; lia) Ed e0 e E1 E3).
Qed.

(** Its clusters 2 (points 0, 1, 3) and 3 (points 10, 12, 15) are born at level 7. The points
    leave cluster 2 one by one at the levels 2, 1, 1 and cluster 3 at 3, 2, 2. *)
Example six_stabilities : match fresh_run 11 in_turn insertion_sort 2 (DDouble six) 6 1 true with
  | Ok o => match o_res o with
            | Some r => match r_clusters r with
                        | [None; Some c1; Some c2; Some c3] =>
                            let one_by_one := fold_left (fun sum w => fadd sum (contribution (f_of_Z 7) 1 (f_of_Z w))) in
                            fisnan (c_stab c1) && feq (c_birth c2) (f_of_Z 7) && feq (c_birth c3) (f_of_Z 7)
                            && feq (c_stab c2) (one_by_one [2; 1; 1]%Z fzero)
                            && feq (c_stab c3) (one_by_one [3; 2; 2]%Z fzero)
                            && flt fzero (c_stab c2) && flt fzero (c_stab c3)
                        | _ => false end
            | None => false end
  | _ => false end = true.
Proof. vm_compute. reflexivity. Qed.
(** The hypotheses of C62 are those of C51; with these data clusters 2 and 3 are chosen (six_run). *)
