(** C38, C40, C41: labels of points and outlier scores. *)
From Coq Require Import Permutation Sorted Reals.
From Flocq Require Import IEEE754.BinarySingleNaN.
From Verif Require Import Base F64 F64Facts F64Arith ListFacts ModelUtils ModelDistance ModelMst ModelGraph ModelCluster ModelHier ModelSelect SpecGraph SpecHier SpecTree
  PropUtils PropMst PropGraph ProofSets ProofExplore ProofTree ProofLabel ProofTies ProofHier ProofHierEnd PropHier ProofSelect ProofTreeSel PropSelect ProofProminent.
From Coq Require Import ZifyBool ZifyNat.
Local Open Scope nat_scope.

(** The clusters built by hdbscan_compute_hierarchy_and_cluster_tree meet the hypotheses of
    C33-C37. *)
Theorem C33_hierarchy_gives_tree : forall n e0 e adj minPts compact fuel h,
  graph_input n e0 e adj -> covers n e -> 2 <= minPts -> compute_hierarchy fuel e n adj minPts compact = Ok h ->
  exists K, tree (l_cs (h_l h)) K /\ fresh (l_cs (h_l h)) /\ no_constraints (l_cs (h_l h)).
Proof.
  intros n e0 e adj minPts compact fuel h HG Hcov Hm Hok.
  destruct (C30_cluster_tree n e0 e adj minPts compact fuel h HG Hcov Hm Hok) as (K & HL & HK & H0 & Hlab & (r & Hr & Hrp & _) & Hpar & _ & Hkids & _).
  assert (HF : forall k c, cluster_at h k c -> c_pstab c = fzero /\ c_plow c = D_MAX /\ c_nc c = 0%Z /\ c_pnc c = 0%Z /\ c_desc c = []).
  { destruct (done_rel anyw n e0 e adj minPts compact fuel h HG Hm any_t (any_w e) Hok) as (g & B & Hg & -> & Hnan & HI & HP).
    destruct (co_inv0 _ _ _ _ _ _ _ _ (in_core _ _ _ _ _ _ _ _ HI)) as [w0 HC].
    intros k c Hc. change (clus (h_l g) k c) in Hc. pose proof (clus_lt _ _ _ Hc) as Hl. rewrite (ci_cs _ _ _ _ _ _ _ HC) in Hl.
    destruct (Nat.eq_dec k 0) as [->|Hk0]; [unfold clus in Hc; rewrite (ci_null _ _ _ _ _ _ _ HC) in Hc; discriminate|].
    destruct (ci_c _ _ _ _ _ _ _ HC k ltac:(lia)) as (c' & Hc' & Hgd). rewrite (clus_fun _ _ _ _ Hc' Hc) in Hgd. apply (cg_fresh _ _ _ _ _ _ _ _ Hgd). }
  exists K. split; [|split].
  - split; [exact HL|]. split; [exact HK|]. split; [exact H0|]. intros k Hk. destruct (Hlab k Hk) as (c & Hc & El). exists c.
    split; [exact Hc|]. split; [exact El|]. split; [|split].
    + intros ->. unfold cluster_at in *. rewrite Hr in Hc. injection Hc as <-. exact Hrp.
    + intros H2. destruct (Hpar k c Hc H2) as (p & _ & _ & P1 & P2 & _). exists p. auto.
    + rewrite (Hkids k c Hc). split; intros (j & H); [destruct H as (cj & Hj)|destruct H as (cj & Hj)]; exists j, cj || (exists j; exists cj); exact Hj.
  - intros k c Hc. destruct (HF k c Hc) as (F1 & F2 & _ & _ & F5). auto.
  - intros k c Hc. destruct (HF k c Hc) as (_ & _ & F3 & F4 & _). auto.
Qed.
Print Assumptions C33_hierarchy_gives_tree.

(** Clusters that share a point are nested. *)
Lemma member_nested n e0 e adj minPts compact fuel h : graph_input n e0 e adj -> covers n e -> 2 <= minPts -> compute_hierarchy fuel e n adj minPts compact = Ok h ->
  forall v l k, k <= l -> member h k v -> member h l v -> under (l_cs (h_l h)) l k.
Proof.
  intros HG Hcov Hm Hok.
  destruct (C33_hierarchy_gives_tree n e0 e adj minPts compact fuel h HG Hcov Hm Hok) as (K0 & HT & _).
  destruct (C30_cluster_tree n e0 e adj minPts compact fuel h HG Hcov Hm Hok) as (K & HL & HK & H0 & Hlab & _ & Hpar & Hsib & _).
  assert (K0 = K) by (destruct HT as (HL' & _); lia). subst K0.
  assert (Hcl : forall k v, member h k v -> exists c, cluster_in (l_cs (h_l h)) k c) by (intros k v (c & _ & _ & Hc & _); exists c; exact Hc).
  assert (Hrange : forall k v, member h k v -> 1 <= k <= K) by (intros k v Hmem; destruct (Hcl k v Hmem) as (c & Hc); apply (tr_in _ _ HT) in Hc; apply Hc).
  assert (Hup : forall j a, under (l_cs (h_l h)) j a -> forall v, member h j v -> member h a v).
  { induction 1 as [j c Hc|j p a (c & Hc & Hp) Hu IH]; intros v Hv; [exact Hv|]. apply IH.
    assert (H2 : 2 <= j) by (destruct (tr_kid_lt _ _ HT p j) as [_ H2]; [exists c; auto|lia]).
    destruct (Hpar j c Hc H2) as (p' & _ & _ & P1 & _ & _ & _ & _ & _ & P2). rewrite Hp in P1. injection P1 as <-. apply P2. exact Hv. }
  intros v. induction l as [l IH] using (well_founded_induction Wf_nat.lt_wf). intros k Hkl Mk Ml.
  destruct (Nat.eq_dec k l) as [->|Hne]; [apply (under_refl _ _ HT); apply (Hrange _ _ Ml)|].
  pose proof (Hrange _ _ Mk) as Rk. destruct (Hcl _ _ Ml) as (c & Hc).
  destruct (Hpar l c Hc ltac:(lia)) as (p & _ & _ & P1 & P2 & _ & _ & _ & _ & P3). pose proof (P3 v Ml) as Mp.
  assert (Hch : child_in (l_cs (h_l h)) l p) by (exists c; auto).
  destruct (Nat.le_gt_cases k p) as [Hkp|Hpk].
  - apply under_step with p; [exact Hch|]. apply IH; [lia|exact Hkp|exact Mk|exact Mp].
  - exfalso. assert (Hu : under (l_cs (h_l h)) k p) by (apply IH; [lia|lia|exact Mp|exact Mk]).
    destruct (under_child _ _ HT k p Hu ltac:(lia)) as (d & (cd & Hd1 & Hd2) & Hud).
    pose proof (Hup _ _ Hud v Mk) as Md.
    destruct (Nat.eq_dec d l) as [->|Hdl]; [apply (under_le _ _ HT) in Hud; lia|].
    apply (Hsib d l p cd c v Hdl); [split; assumption|split; assumption|exact Md|exact Ml].
Qed.

(** C38.  [order] is the order in which the iterations over the selected clusters enter the
    critical section, [acts] gives the order of the steps (selected group, point) of the
    second parallel loop. *)
Theorem C38_labels_are_the_selected_clusters : forall n e0 e adj minPts compact fuel h,
  graph_input n e0 e adj -> covers n e -> 2 <= minPts -> compute_hierarchy fuel e n adj minPts compact = Ok h ->
  forall K leaves fuel' inf cs' trace root order acts,
  length (l_cs (h_l h)) = S K -> leaf_order K leaves -> K <= fuel' -> propagate_tree fuel' (l_cs (h_l h)) leaves = Ok (inf, cs', trace) -> cluster_in cs' 1 root ->
  Permutation (seq 0 (length (c_desc root))) order ->
  (forall keys, Permutation (list_prod (seq 0 keys) (seq 0 n)) (acts keys)) ->
  exists labels, find_prominent n cs' (h_hier h) order acts = Ok labels /\ length labels = n
    /\ (forall v c, v < n -> c <> 0 -> nth_error labels v = Some c <-> In c (c_desc root) /\ member h c v)
    /\ (forall v, v < n -> nth_error labels v = Some 0 <-> forall c, In c (c_desc root) -> ~ member h c v)
    /\ (forall v c d, In c (c_desc root) -> In d (c_desc root) -> member h c v -> member h d v -> c = d).
Proof.
  intros n e0 e adj minPts compact fuel h HG Hcov Hm Hok K lo fuel' inf cs' trace root order acts HLK HP Hf E Hr Ho Ha.
  destruct (C33_hierarchy_gives_tree n e0 e adj minPts compact fuel h HG Hcov Hm Hok) as (K0 & HT & HF & HN).
  assert (K0 = K) by (destruct HT as (HL' & _); lia). subst K0.
  destruct (C34_selected_clusters_cover_the_leaves _ _ _ _ _ _ _ _ HT HF HP Hf E Hr) as ((HND & HA) & HR2 & _).
  destruct (run_result _ _ _ _ _ _ _ HT HF HP Hf E) as (_ & _ & g & HR & HS).
  pose proof (root_of _ _ _ _ _ HT HR Hr) as ->.
  set (S1 := c_desc (g 1)) in *. set (cs := l_cs (h_l h)) in *.
  assert (Hone : forall v c d, In c S1 -> In d S1 -> member h c v -> member h d v -> c = d).
  { intros v c d Hc Hd Mc Md. destruct (Nat.le_ge_cases c d) as [Hle|Hle].
    - symmetry. apply HA; [exact Hd|exact Hc|]. apply (member_nested n e0 e adj minPts compact fuel h HG Hcov Hm Hok v d c Hle Mc Md).
    - apply HA; [exact Hc|exact Hd|]. apply (member_nested n e0 e adj minPts compact fuel h HG Hcov Hm Hok v c d Hle Md Mc). }
  (* selected clusters in cs' *)
  assert (Hget : forall x, 1 <= x <= K -> cget cs' x = Ok (g x)) by (intros x Hx; apply (rep_cget _ _ _ _ HR Hx)).
  assert (Hg0 : forall x, 2 <= x <= K -> cluster_at h x (g0 cs x) /\ c_offset (g x) = c_offset (g0 cs x) /\ c_label (g x) = x).
  { intros x Hx. split; [apply (tr_in cs K HT); split; [lia|reflexivity]|]. destruct (g_stat cs K g HS x ltac:(lia)) as (E1 & _ & _ & _ & _ & _ & E7).
    split; [exact E7|]. rewrite E1. apply (tr_lab cs K HT). lia. }
  unfold find_prominent. rewrite Hget by (pose proof (tr_k cs K HT); lia). cbn [bind]. fold S1.
  destruct (group_ok cs' S1) with (order := order) (m := @nil (nat * list nat)) as (m & Em & Hne & HGr).
  { intros x Hx. exists (g x). apply Hget. specialize (HR2 x Hx). lia. }
  { intros i Hi. apply (Permutation_in _ (Permutation_sym Ho)) in Hi. apply in_seq in Hi. lia. }
  { intros o ls []. }
  rewrite Em. cbn [bind].
  assert (HGr' : forall o l, groups m o l <-> In l S1 /\ o = c_offset (g0 cs l)).
  { intros o l. rewrite HGr. split.
    - intros [(ls & [] & _)|(i & x & c & Hi & Hx & Hc & -> & ->)]. pose proof (nth_error_In _ _ Hx) as Hin. pose proof (HR2 x Hin) as Rx.
      rewrite Hget in Hc by lia. injection Hc as <-. destruct (Hg0 x Rx) as (_ & -> & ->). auto.
    - intros [Hl ->]. right. destruct (In_nth_error _ _ Hl) as (i & Hi). exists i, l, (g l). pose proof (HR2 l Hl) as Rl. destruct (Hg0 l Rl) as (_ & E1 & E2).
      split; [apply (Permutation_in _ Ho), in_seq; split; [lia|]; cbn; apply nth_error_Some; congruence|]. split; [exact Hi|]. split; [apply Hget; lia|]. split; [symmetry; exact E1|symmetry; exact E2]. }
  assert (Hent : forall o ls, In (o, ls) m -> exists w en, hget (h_hier h) (S o) = Some (w, en) /\ length en = n).
  { intros o ls Hin. destruct (Hne o ls Hin) as (l & Hl). assert (Hgl : groups m o l) by (exists ls; auto). apply HGr' in Hgl. destruct Hgl as [Hl1 ->].
    pose proof (HR2 l Hl1) as Rl. destruct (Hg0 l Rl) as (Hc & _ & _).
    destruct (C32_cluster_entry n e0 e adj minPts compact fuel h HG Hcov Hm Hok l _ Hc ltac:(lia)) as (w & ls' & _ & _ & _ & _ & He & Hle & _). exists w, ls'. auto. }
  assert (Hw : forall j l, (exists i, i < length m /\ writes (h_hier h) m i j l) <-> In l S1 /\ member h l j).
  { intros j l. split.
    - intros (i & _ & o & ls & w & en & E1 & E2 & E3 & E4). assert (Hgl : groups m o l) by (exists ls; split; [apply (nth_error_In _ _ E1)|exact E4]).
      apply HGr' in Hgl. destruct Hgl as [Hl1 ->]. split; [exact Hl1|]. pose proof (HR2 l Hl1) as Rl. exists (g0 cs l), w, en. split; [apply (Hg0 l Rl)|]. auto.
    - intros [Hl (c & w & ls & Hc & He & Hn)]. pose proof (HR2 l Hl) as Rl.
      assert (c = g0 cs l) by (apply (tr_in cs K HT) in Hc; apply Hc). subst c.
      assert (Hgl : groups m (c_offset (g0 cs l)) l) by (apply HGr'; auto). destruct Hgl as (ks & Hin & Hk). destruct (In_nth_error _ _ Hin) as (i & Hi).
      exists i. split; [apply nth_error_Some; congruence|]. exists (c_offset (g0 cs l)), ks, w, ls. auto. }
  assert (Hu : forall j i i' l l', writes (h_hier h) m i j l -> writes (h_hier h) m i' j l' -> l = l').
  { intros j i i' l l' W1 W2.
    assert (L : forall i l, writes (h_hier h) m i j l -> i < length m) by (intros i0 l0 (o & ls & _ & _ & E1 & _); apply nth_error_Some; congruence).
    destruct (proj1 (Hw j l) (ex_intro _ i (conj (L _ _ W1) W1))) as [A1 A2]. destruct (proj1 (Hw j l') (ex_intro _ i' (conj (L _ _ W2) W2))) as [B1 B2].
    apply (Hone j l l'); assumption. }
  assert (Hacts : forall i j, In (i, j) (acts (length m)) <-> i < length m /\ j < n).
  { intros i j. split; intros H.
    - apply (Permutation_in _ (Permutation_sym (Ha (length m)))) in H. apply in_prod_iff in H. rewrite !in_seq in H. lia.
    - apply (Permutation_in _ (Ha (length m))). apply in_prod_iff. rewrite !in_seq. lia. }
  destruct (labels_ok n (h_hier h) m Hent Hu (acts (length m)) (repeat 0 n)) as (labels & El & HLl & HI).
  { intros i j. apply Hacts. } { apply repeat_length. }
  assert (Hzero : forall v, v < n -> (forall c, In c S1 -> ~ member h c v) -> nth_error labels v = Some 0).
  { intros v Hv Hno. destruct (HI v Hv) as [_ I2]. rewrite I2.
    - apply nth_error_repeat. exact Hv.
    - intros i l Hin Hwr. apply Hacts in Hin. destruct (proj1 (Hw v l) (ex_intro _ i (conj (proj1 Hin) Hwr))) as [A1 A2]. apply (Hno l A1 A2). }
  assert (Hsome : forall v c, v < n -> In c S1 -> member h c v -> nth_error labels v = Some c).
  { intros v c Hv Hc Mc. destruct (proj2 (Hw v c) (conj Hc Mc)) as (i & Hi & Hwr). apply (proj1 (HI v Hv) i c); [apply Hacts; auto|exact Hwr]. }
  assert (Hdec : forall v, v < n -> (exists c, In c S1 /\ member h c v) \/ (forall c, In c S1 -> ~ member h c v)).
  { intros v Hv. destruct (HI v Hv) as [I1 I2].
    assert (Hd : forall c, 2 <= c <= K -> member h c v \/ ~ member h c v).
    { intros c Rc. destruct (Hg0 c Rc) as (Hc & _ & _). destruct (C32_cluster_entry n e0 e adj minPts compact fuel h HG Hcov Hm Hok c _ Hc ltac:(lia)) as (w & ls' & _ & _ & _ & _ & He & Hle & _).
      destruct (nth_error ls' v) as [x|] eqn:Ex; [|apply nth_error_None in Ex; lia]. destruct (Nat.eq_dec x c) as [->|Hx]; [left; exists (g0 cs c), w, ls'; auto|].
      right. intros (c' & w' & ls2 & Hc' & He' & Hn'). unfold cluster_at in *. rewrite Hc in Hc'. injection Hc' as <-. unfold entry in *. rewrite He in He'. injection He' as <- <-. congruence. }
    clearbody S1. clear -Hd HR2. induction S1 as [|c l IH]; [right; intros c []|].
    destruct (Hd c (HR2 c (or_introl eq_refl))) as [Hy|Hn]; [left; exists c; split; [left; reflexivity|exact Hy]|].
    destruct IH as [(d & Hd1 & Hd2)|Hno]; [intros k Hk; apply HR2; right; exact Hk|left; exists d; split; [right; exact Hd1|exact Hd2]|].
    right. intros d [<-|Hd1]; [exact Hn|apply Hno; exact Hd1]. }
  exists labels. split; [exact El|]. split; [exact HLl|]. split; [|split; [|exact Hone]].
  - intros v c Hv Hc. split.
    + intros Hn. destruct (Hdec v Hv) as [(d & Hd1 & Hd2)|Hno].
      * rewrite (Hsome v d Hv Hd1 Hd2) in Hn. injection Hn as <-. auto.
      * rewrite (Hzero v Hv Hno) in Hn. injection Hn as E0. congruence.
    + intros [H1 H2]. apply Hsome; assumption.
  - intros v Hv. split; [|apply Hzero; exact Hv]. intros Hn c Hc Mc. rewrite (Hsome v c Hv Hc Mc) in Hn. injection Hn as ->. specialize (HR2 0 Hc). lia.
Qed.
Print Assumptions C38_labels_are_the_selected_clusters.
