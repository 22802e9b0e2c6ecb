(** Theorems C25-C27 and C29-C32: hdbscan_compute_hierarchy_and_cluster_tree.
    Vocabulary: SpecHier.v. *)
From Coq Require Import Relations Permutation Sorted.
From Verif Require Import Base F64 F64Facts ListFacts ModelDistance ModelMst ModelGraph ModelCluster ModelHier ProofDistance ProofMst ProofGraph
  SpecGraph ProofSets ProofExplore ProofTree ProofLabel ProofTies ProofCore PropDistance PropMst PropGraph SpecHier ProofHier ProofHierEnd.
From Coq Require Import ZifyBool ZifyNat.
Local Open Scope nat_scope.

Lemma done_rel (D : f64 -> f64 -> Prop) n e0 e adj minPts compact fuel h : graph_input n e0 e adj -> 2 <= minPts ->
  (forall a b c, D a b -> D b c -> D a c) ->
  (forall i j i', i < j -> j < length (e_w e) -> feq (ew e i) (ew e j) = false -> i' <= i -> D (ew e j) (ew e i')) ->
  compute_hierarchy fuel e n adj minPts compact = Ok h ->
  exists g B, moment e adj minPts n compact 0 g /\ h = hier_finish n g /\ no_nan e /\ Inv n (length (e_w e)) minPts e D B 0 g
    /\ Path n (length (e_w e)) minPts e D [[]; seq 0 n] (length (e_w e)) (hier_start n adj) B 0 g.
Proof.
  intros HG Hm Ht Hw Hok. pose proof (ok_nonan n e0 e adj HG minPts compact Hm fuel h Hok) as Hnan.
  destruct (ok_moment n e0 e adj HG minPts compact Hm fuel h Hok) as (g & Hg & ->).
  destruct (moment_path n e0 e adj HG minPts compact Hm D Ht Hw 0 g Hnan Hg) as (B & P).
  exists g, B. split; [exact Hg|]. split; [reflexivity|]. split; [exact Hnan|]. split; [apply (pa_inv _ _ _ _ _ _ _ _ _ _ _ P)|exact P].
Qed.

Lemma labelled_lab h v k n : length (l_cur (h_l h)) = n -> v < n -> labelled h v k <-> lab (h_l h) v = k.
Proof. intros H1 H2. unfold labelled, lab. rewrite (nth_error_nth' _ 0) by lia. split; congruence. Qed.

(** ** C25 *)
Theorem C25_hierarchy_terminates :
  forall n e0 e adj minPts compact fuel,
  graph_input n e0 e adj -> 2 <= minPts -> no_nan e -> length (e_w e) <= fuel ->
  exists h, compute_hierarchy fuel e n adj minPts compact = Ok h.
Proof. intros n e0 e adj minPts compact fuel HG Hm Hn Hf. apply (terminates n e0); assumption. Qed.
Print Assumptions C25_hierarchy_terminates.

Theorem C25_nan_never_terminates :
  forall n e0 e adj minPts compact,
  graph_input n e0 e adj -> 2 <= minPts -> Exists (fun w => fisnan w = true) (e_w e) ->
  forall fuel, compute_hierarchy fuel e n adj minPts compact = Fuel.
Proof. intros n e0 e adj minPts compact HG Hm Hn fuel. apply (nan_stuck n e0); assumption. Qed.
Print Assumptions C25_nan_never_terminates.

(** ** C26 *)
Lemma level_event e minPts n compact v x y : levels e minPts n compact x y ->
  lab (h_l (snd x)) v <> 0 -> lab (h_l (snd y)) v = 0 ->
  exists y1 y2, levels e minPts n compact x y1 /\ 0 < fst y1 /\ hier_level e minPts n compact (fst y1) (snd y1) = Ok y2
    /\ levels e minPts n compact y2 y /\ lab (h_l (snd y1)) v <> 0 /\ lab (h_l (snd y2)) v = 0.
Proof.
  induction 1 as [x|x y z Hl IH Hk Hs]; intros H1 H2; [contradiction|].
  destruct (Nat.eq_dec (lab (h_l (snd y)) v) 0) as [E|E].
  - destruct (IH H1 E) as (y1 & y2 & Q1 & Q2 & Q3 & Q4 & Q5 & Q6). exists y1, y2.
    split; [exact Q1|]. split; [exact Q2|]. split; [exact Q3|]. split; [apply levels_next with y; assumption|]. auto.
  - exists y, z. split; [exact Hl|]. split; [exact Hk|]. split; [exact Hs|]. split; [apply levels_refl|]. auto.
Qed.

(** Every point turns from a cluster to noise at some level; its noise level is the weight
    of that level and its last cluster the label it had.  A value once written stays. *)
Theorem C26_noise_level_and_last_cluster :
  forall n e0 e adj minPts compact fuel h,
  graph_input n e0 e adj -> covers n e -> 2 <= minPts -> compute_hierarchy fuel e n adj minPts compact = Ok h ->
  (forall v, v < n -> exists k g k' g' w l c,
     moment e adj minPts n compact k g /\ 0 < k /\ hier_level e minPts n compact k g = Ok (k', g') /\
     nth_error (e_w e) (k - 1) = Some w /\
     labelled g v l /\ l <> 0 /\ labelled g' v 0 /\
     noise_level h v w /\ last_cluster h v l /\ cluster_at h l c /\ member h l v) /\
  (forall k g v, moment e adj minPts n compact k g -> v < n ->
     (forall w, noise_level g v w -> noise_level h v w) /\ (forall l, last_cluster g v l -> last_cluster h v l)).
Proof.
  intros n e0 e adj minPts compact fuel h HG Hcov Hm Hok.
  destruct (done_rel anyw n e0 e adj minPts compact fuel h HG Hm any_t (any_w e) Hok) as (g & B & Hg & -> & Hnan & HI & HP).
  pose proof (in_n32 _ _ _ _ HG) as Hn32. pose proof (in_n1 _ _ _ _ HG) as Hn1. pose proof (in_wf _ _ _ _ HG) as Hwf. pose proof (in_v _ _ _ _ HG) as Hv.
  assert (Hpath : forall k g1, moment e adj minPts n compact k g1 -> exists B1, Path n (length (e_w e)) minPts e anyw [[]; seq 0 n] (length (e_w e)) (hier_start n adj) B1 k g1).
  { intros k g1 H. apply (moment_path n e0 e adj HG minPts compact Hm anyw any_t (any_w e) k g1 Hnan H). }
  assert (Hfin : forall k g1 B1, moment e adj minPts n compact k g1 -> Inv n (length (e_w e)) minPts e anyw B1 k g1 ->
     exists B2, Path n (length (e_w e)) minPts e anyw B1 k g1 B2 0 g).
  { intros k g1 B1 H H1. pose proof (moment_final n e adj minPts compact Hm k g1 g H Hg) as Hl.
    apply (levels_path n (length (e_w e)) minPts e compact anyw Hn32 Hwf Hv any_t (any_w e) Hm Hn1 (in_nan _ Hnan) _ _ Hl B1 H1). }
  split.
  - intros v Hvn.
    destruct (level_event e minPts n compact v _ _ Hg) as ([k1 g1] & [k2 g2] & Q1 & Q2 & Q3 & Q4 & Q5 & Q6).
    { cbn [snd]. unfold lab, hier_start. cbn [h_l l_cur]. rewrite nth_repeat' by exact Hvn. lia. }
    { cbn [snd]. apply (all_noise n e0 e adj HG minPts Hm anyw (any_w e) B g HI Hcov v Hvn). }
    cbn [fst snd] in *.
    destruct (Hpath k1 g1 Q1) as (B1 & P1). pose proof (pa_inv _ _ _ _ _ _ _ _ _ _ _ P1) as I1.
    pose proof (co_k _ _ _ _ _ _ _ _ (in_core _ _ _ _ _ _ _ _ I1)) as Hk1.
    destruct (inv_step n (length (e_w e)) minPts e compact anyw Hn32 Hwf Hv any_t (any_w e) Hm Hn1 B1 k1 g1 Q2 (in_nan _ Hnan (k1 - 1) ltac:(lia)) I1)
      as (k2' & g2' & B2 & R & R1 & _ & R3 & _ & R5).
    rewrite R in Q3. injection Q3 as <- <-.
    destruct (ev_noise _ _ _ _ _ _ _ R5 v Hvn) as [(_ & _ & X1 & X2)|[X1 X2]].
    2:{ exfalso. destruct (co_inv0 _ _ _ _ _ _ _ _ (in_core _ _ _ _ _ _ _ _ I1)) as [wa HCa].
        destruct (co_inv0 _ _ _ _ _ _ _ _ (in_core _ _ _ _ _ _ _ _ R3)) as [wb HCb].
        destruct (ci_lab _ _ _ _ _ _ _ HCa v Hvn) as (_ & La & _). destruct (ci_lab _ _ _ _ _ _ _ HCb v Hvn) as (_ & _ & Lb).
        destruct (La Q5) as (_ & La1 & _). destruct (Lb Q6) as (w' & l' & Lb1 & _). congruence. }
    assert (Hmom : moment e adj minPts n compact k2' g2').
    { apply levels_next with (k1, g1); [exact Q1|exact Q2|exact R]. }
    destruct (Hfin k2' g2' B2 Hmom R3) as (B3 & P3).
    pose proof (pa_noise _ _ _ _ _ _ _ _ _ _ _ P3 v _ Hvn X1) as Y1. pose proof (pa_last _ _ _ _ _ _ _ _ _ _ _ P3 v _ Hvn X2) as Y2.
    destruct (co_inv0 _ _ _ _ _ _ _ _ (in_core _ _ _ _ _ _ _ _ HI)) as [wc HCc].
    destruct (ci_lab _ _ _ _ _ _ _ HCc v Hvn) as (_ & _ & Lc).
    destruct Lc as (w' & l' & Lc1 & Lc2 & Lc3 & Lc4 & Lc5 & _).
    { apply (all_noise n e0 e adj HG minPts Hm anyw (any_w e) B g HI Hcov v Hvn). }
    rewrite Y2 in Lc2. injection Lc2 as <-.
    destruct (ci_c _ _ _ _ _ _ _ HCc _ Lc4) as (c & Hc & _).
    assert (Hcur1 : length (l_cur (h_l g1)) = n).
    { destruct (co_inv0 _ _ _ _ _ _ _ _ (in_core _ _ _ _ _ _ _ _ I1)) as [wa HCa]. apply HCa. }
    assert (Hcur2 : length (l_cur (h_l g2')) = n).
    { destruct (co_inv0 _ _ _ _ _ _ _ _ (in_core _ _ _ _ _ _ _ _ R3)) as [wa HCa]. apply HCa. }
    exists k1, g1, k2', g2', (ew e (k1 - 1)), (lab (h_l g1) v), c.
    split; [exact Q1|]. split; [exact Q2|]. split; [exact R|].
    split; [unfold ew; apply nth_error_nth'; lia|].
    split; [apply (labelled_lab g1 v _ n); auto|]. split; [exact Q5|]. split; [apply (labelled_lab g2' v _ n); auto|].
    split; [exact Y1|]. split; [exact Y2|]. split; [exact Hc|].
    apply (member_bk n e0 e adj HG minPts Hm anyw any_t (any_w e) B g HI Hcov). auto.
  - intros k g1 v Hg1 Hvn. destruct (Hpath k g1 Hg1) as (B1 & P1).
    destruct (Hfin k g1 B1 Hg1 (pa_inv _ _ _ _ _ _ _ _ _ _ _ P1)) as (B3 & P3). split; intros x Hx.
    + apply (pa_noise _ _ _ _ _ _ _ _ _ _ _ P3 v _ Hvn Hx).
    + apply (pa_last _ _ _ _ _ _ _ _ _ _ _ P3 v _ Hvn Hx).
Qed.
Print Assumptions C26_noise_level_and_last_cluster.

(** ** C27 *)
Lemma joined_ext (R S : nat -> nat -> Prop) : (forall u v, R u v -> joined S u v) -> (forall u v, S u v -> joined R u v) ->
  forall u v, joined R u v <-> joined S u v.
Proof. intros H1 H2 u v. split; apply joined_map; assumption. Qed.

Lemma many_ext R S k u : (forall x y, joined R x y <-> joined S x y) -> many R k u <-> many S k u.
Proof.
  intros H. split; intros (l & L1 & L2 & L3); exists l; (split; [exact L1|]; split; [exact L2|]; intros x Hx; apply H; apply L3; exact Hx).
Qed.

Lemma components_ext R S minPts n ls : (forall x y, joined R x y <-> joined S x y) -> components R minPts n ls -> components S minPts n ls.
Proof.
  intros H (C1 & C2 & C3). split; [exact C1|]. split.
  - intros u Hu. rewrite (C2 u Hu). apply many_ext. exact H.
  - intros u v Hu Hv Hz. rewrite (C3 u v Hu Hv Hz). apply H.
Qed.

Lemma connects_E n e m : wf m e -> connects n e -> forall u v, u < n -> v < n -> joined (E e m) u v.
Proof.
  intros Hwf H u v Hu Hv. generalize (H u v Hu Hv). apply joined_map. intros a b (w & Hin).
  apply (triple_ew e m _ _ _ Hwf) in Hin. destruct Hin as (i & Hi & -> & -> & _). apply rst_step. exists i. auto.
Qed.

Theorem C27_levels_are_density_components :
  forall n e0 e adj minPts compact fuel h,
  graph_input n e0 e adj -> connects n e -> weights_sorted e -> 2 <= minPts <= n ->
  compute_hierarchy fuel e n adj minPts compact = Ok h ->
  forall i w ls, 1 <= i -> entry h i w ls -> components (edge_upto (triples e) w) minPts n ls.
Proof.
  intros n e0 e adj minPts compact fuel h HG Hcon Hs [Hm Hmn] Hok i w ls Hi Hent.
  pose proof (gt_w e Hs) as Hgw.
  destruct (done_rel gtw n e0 e adj minPts compact fuel h HG Hm gt_t Hgw Hok) as (g & B & Hg & -> & Hnan & HI & HP).
  pose proof (in_wf _ _ _ _ HG) as Hwf. pose proof (in_v _ _ _ _ HG) as Hv.
  apply (entry_finish n e minPts Hm gtw gt_t Hgw g i w ls) in Hent; [|lia].
  pose proof (pa_conn _ _ _ _ _ _ _ _ _ _ _ HP) as HC.
  specialize (HC (start_InvC n (length (e_w e)) minPts e gtw Hv Hgw Hm (in_n1 _ _ _ _ HG) adj Hmn (connects_E n e _ Hwf Hcon))).
  destruct (ic_ent _ _ _ _ _ _ HC i w ls Hent) as (k & Hk & -> & Hb & HL1 & HL2).
  pose proof (en_ok _ _ _ _ _ _ _ (in_ent _ _ _ _ _ _ _ _ HI) i _ ls Hent) as (Hlen & _).
  apply (components_ext (E e k)).
  - apply joined_ext.
    + intros a b (j & Hj & Hab).
      assert (He : edge_upto (triples e) (ew e (k - 1)) (va e j) (vb e j)).
      { exists (ew e j). split; [apply (triple_ew e _ _ _ _ Hwf); exists j; split; [lia|auto]|].
        destruct (Nat.eq_dec j (k - 1)) as [->|Hne].
        - pose proof (in_nan e Hnan (k - 1) ltac:(lia)) as Hx. apply feq_true in Hx. apply fle_intro; try apply Hx. apply Z.le_refl.
        - apply (sorted_le e Hs); lia. }
      destruct Hab as [[<- <-]|[<- <-]]; [apply rst_step; exact He|apply rst_sym, rst_step; exact He].
    + intros a b (w & Hin & Hle). apply (triple_ew e _ _ _ _ Hwf) in Hin. destruct Hin as (j & Hj & -> & -> & ->).
      apply rst_step. exists j. split; [|auto].
      destruct (le_lt_dec k j) as [Hge|Hlt]; [exfalso|exact Hlt].
      destruct Hb as [Hb|Hb]; [lia|].
      assert (Hkj : fle (ew e k) (ew e j) = true).
      { destruct (Nat.eq_dec j k) as [->|Hne].
        - pose proof (in_nan e Hnan k ltac:(lia)) as Hx. apply feq_true in Hx. apply fle_intro; try apply Hx. apply Z.le_refl.
        - apply (sorted_le e Hs); lia. }
      pose proof (Hgw (k - 1) k (k - 1) ltac:(lia) ltac:(lia) Hb (Nat.le_refl _)) as Hgt. unfold gtw in Hgt.
      apply flt_true in Hgt. apply fle_true in Hkj, Hle. destruct Hgt as (_ & _ & K1), Hkj as (_ & _ & K2), Hle as (_ & _ & K3).
      clear -K1 K2 K3. lia.
  - split; [exact Hlen|]. split; [exact HL1|exact HL2].
Qed.
Print Assumptions C27_levels_are_density_components.

(** ** C29 *)
Theorem C29_hierarchy_entries :
  forall n e0 e adj minPts compact fuel h,
  graph_input n e0 e adj -> covers n e -> weights_sorted e -> 2 <= minPts ->
  compute_hierarchy fuel e n adj minPts compact = Ok h ->
  exists m, 1 <= m /\ h_line h = S m /\
    (forall i, (exists w ls, entry h i w ls) <-> i <= m) /\
    (forall i w ls, entry h i w ls -> length ls = n) /\
    (forall i j wi li wj lj, 1 <= i < j -> entry h i wi li -> entry h j wj lj -> flt wj wi = true) /\
    entry h 0 fzero (repeat 0 n) /\
    (exists w, entry h 1 w (repeat 1 n) /\ In w (e_w e) /\ forall x, In x (e_w e) -> fle x w = true) /\
    (forall i j wi li wj lj v, 1 <= i < j -> entry h i wi li -> entry h j wj lj ->
       nth_error li v = Some 0 -> nth_error lj v = Some 0) /\
    (forall i w ls, 1 <= i -> entry h i w ls -> In w (e_w e)).
Proof.
  intros n e0 e adj minPts compact fuel h HG Hcov Hs Hm Hok.
  pose proof (gt_w e Hs) as Hgw.
  destruct (done_rel gtw n e0 e adj minPts compact fuel h HG Hm gt_t Hgw Hok) as (g & B & Hg & -> & Hnan & HI & HP).
  pose proof (in_ent _ _ _ _ _ _ _ _ HI) as HE.
  pose proof (entry_finish n e minPts Hm gtw gt_t Hgw g) as Hef.
  pose proof (first_entry n e0 e adj HG minPts Hm gtw gt_t Hgw B g HI Hcov) as [F1 F2].
  assert (Hm0 : 0 < length (e_w e)) by exact (m_pos n e0 e adj HG minPts Hm gtw gt_t Hgw Hcov).
  assert (H0 : entry (hier_finish n g) 0 fzero (repeat 0 n)) by (unfold entry, hier_finish; cbn [h_hier]; rewrite hget_hput; reflexivity).
  assert (Hlen : forall i w ls, entry (hier_finish n g) i w ls -> length ls = n).
  { intros i w ls H. destruct (Nat.eq_dec i 0) as [->|Hi].
    - unfold entry in H, H0. rewrite H0 in H. injection H as <- <-. apply repeat_length.
    - apply Hef in H; [|lia]. apply (en_ok _ _ _ _ _ _ _ HE i w ls H). }
  exists (h_line g). split; [exact F1|]. split; [reflexivity|]. split; [|split; [|split; [|split; [|split; [|split]]]]].
  - intros i. destruct (Nat.eq_dec i 0) as [->|Hi].
    + split; [lia|]. intros _. eexists _, _. exact H0.
    + split.
      * intros (w & ls & H). apply Hef in H; [|lia]. apply (en_dom _ _ _ _ _ _ _ HE i). eexists. exact H.
      * intros H. destruct (proj2 (en_dom _ _ _ _ _ _ _ HE i) ltac:(lia)) as [[w ls] H1]. exists w, ls. apply Hef; [lia|exact H1].
  - exact Hlen.
  - intros i j wi li wj lj Hij H1 H2. apply Hef in H1; [|lia]. apply Hef in H2; [|lia].
    apply (en_mono _ _ _ _ _ _ _ HE i j wi li wj lj ltac:(lia) H1 H2).
  - exact H0.
  - exists (ew e (length (e_w e) - 1)). split; [apply Hef; [lia|exact F2]|]. split; [apply ew_in; lia|].
    intros x Hx. apply (In_nth _ _ fzero) in Hx. destruct Hx as (i & Hi & <-). fold (ew e i).
    destruct (Nat.eq_dec i (length (e_w e) - 1)) as [->|Hne].
    + pose proof (in_nan e Hnan (length (e_w e) - 1) ltac:(lia)) as Hx. apply feq_true in Hx. apply fle_intro; try apply Hx. apply Z.le_refl.
    + apply (sorted_le e Hs); lia.
  - intros i j wi li wj lj v Hij H1 H2 Hv. pose proof (Hlen _ _ _ H1) as L1. pose proof (Hlen _ _ _ H2) as L2.
    apply Hef in H1; [|lia]. apply Hef in H2; [|lia].
    assert (Hvn : v < n) by (rewrite <- L1; apply nth_error_Some; congruence).
    destruct (en_mono _ _ _ _ _ _ _ HE i j wi li wj lj ltac:(lia) H1 H2) as [_ Hz].
    apply nth_error_of_nth; [lia|]. apply Hz; [exact Hvn|]. apply nth_error_of_nth in Hv; [exact Hv|lia].
  - intros i w ls Hi H. apply Hef in H; [|lia]. apply (en_ok _ _ _ _ _ _ _ HE i w ls H).
Qed.
Print Assumptions C29_hierarchy_entries.

(** ** C28 *)
Lemma in_firstn_split {A} (x : A) k l : In x l -> In x (firstn k l) \/ exists i, k <= i /\ nth_error l i = Some x.
Proof.
  intros H. apply In_nth_error in H. destruct H as [i Hi]. destruct (le_lt_dec k i) as [Hk|Hk]; [right; eauto|left].
  apply (nth_error_In _ i). rewrite nth_error_firstn. replace (i <? k) with true by (symmetry; apply Nat.ltb_lt; exact Hk). exact Hi.
Qed.

Lemma map_snd_combine {A B} (l : list A) (l' : list B) : length l' <= length l -> map snd (combine l l') = l'.
Proof. revert l'. induction l as [|x l IH]; intros [|y l']; cbn; intros H; try reflexivity; try lia. f_equal. apply IH. lia. Qed.

Lemma perm_weights e0 e : Permutation (triples e0) (triples e) -> aligned e0 -> aligned e -> Permutation (e_w e0) (e_w e).
Proof.
  intros H A0 A. assert (Q : forall x, aligned x -> map snd (triples x) = e_w x).
  { intros x [H1 H2]. unfold triples. rewrite map_snd_combine; [reflexivity|]. rewrite combine_length. lia. }
  rewrite <- (Q e0 A0), <- (Q e A). apply Permutation_map. exact H.
Qed.

(** The graph that hdbscan_do_run hands to the hierarchy construction. *)
Lemma build_input d n : 1 <= n -> (Z.of_nat n < M32)%Z -> readable d n -> below_max d n ->
  exists e0 adj e, construct_mst d n true = Ok e0 /\ graph_init n e0 = Ok adj /\ graph_quicksort_by_edge_weight e0 = Ok e
    /\ graph_input n e0 e adj /\ covers n e /\ connects n e /\ no_nan e /\ weights_sorted e /\ length (e_w e) = 2 * n - 1
    /\ (forall w u v, fisnan w = false -> joined (edge_upto (triples e) w) u v <-> joined (close d n w) u v).
Proof.
  intros Hn Hn32 HR HB.
  destruct (C20_spanning_tree_construction d n Hn HR) as (e0 & E0 & La & Lb & Lw & Htree & Hself).
  destruct (C21_tree_preserves_density_connectivity d n Hn HR HB) as (e0' & E0' & Hjoin & Hall).
  rewrite E0 in E0'. injection E0' as <-.
  assert (Hal : aligned e0) by (unfold aligned; lia).
  assert (Htl : length (triples e0) = 2 * n - 1) by (unfold triples; rewrite !combine_length; lia).
  assert (Hcases : forall a b w, In (a, b, w) (triples e0) -> a < n /\ b < n /\ fisnan w = false /\ (In (a, b, w) (firstn (n - 1) (triples e0)) \/ a = b)).
  { intros a b w Hin. apply In_nth_error in Hin. destruct Hin as [i Hi].
    assert (Hil : i < 2 * n - 1) by (rewrite <- Htl; apply nth_error_Some; congruence).
    destruct (le_lt_dec (n - 1) i) as [Hge|Hlt].
    - destruct (Hself (i - (n - 1)) ltac:(lia)) as (cv & Hc & Ht). replace (n - 1 + (i - (n - 1))) with i in Ht by lia.
      rewrite Hi in Ht. injection Ht as -> -> ->. split; [lia|]. split; [lia|]. split; [|auto].
      pose proof (proj2 HB (i - (n - 1)) _ ltac:(lia) Hc) as Hx. apply flt_true in Hx. apply Hx.
    - destruct (Htree i Hlt) as (a' & w' & Ht & Ha & Hw & _). rewrite Hi in Ht. injection Ht as -> -> ->.
      split; [exact Ha|]. split; [lia|]. split; [apply fle_true in Hw; apply Hw|]. left.
      apply (nth_error_In _ i). rewrite nth_error_firstn. replace (i <? n - 1) with true by (symmetry; apply Nat.ltb_lt; exact Hlt). exact Hi. }
  assert (Hvb : vertices_below n e0).
  { assert (Q : forall i, i < 2 * n - 1 -> nth i (e_a e0) 0 < n /\ nth i (e_b e0) 0 < n).
    { intros i Hi. assert (Hin : In (nth i (e_a e0) 0, nth i (e_b e0) 0, nth i (e_w e0) fzero) (triples e0)).
      { unfold triples. rewrite <- !combine_nth by (rewrite ?combine_length; lia). apply nth_In. rewrite !combine_length. lia. }
      apply Hcases in Hin. tauto. }
    split; apply Forall_forall; intros x Hx; apply (In_nth _ _ 0) in Hx; destruct Hx as (i & Hi & <-); apply Q; lia. }
  destruct (C24_adjacency_matches_edges n e0 Hal Hvb) as (adj & Eadj & _).
  destruct (C23_quicksort_by_edge_weight e0 Hal) as (e & Ee & Hal' & HP & Hsort).
  assert (Hnan0 : Forall (fun w => fisnan w = false) (e_w e0)).
  { apply Forall_forall. intros w Hw. apply (In_nth _ _ fzero) in Hw. destruct Hw as (i & Hi & <-).
    assert (Hin : In (nth i (e_a e0) 0, nth i (e_b e0) 0, nth i (e_w e0) fzero) (triples e0)).
    { unfold triples. rewrite <- !combine_nth by (rewrite ?combine_length; lia). apply nth_In. rewrite !combine_length. lia. }
    apply Hcases in Hin. tauto. }
  pose proof (perm_weights e0 e HP Hal Hal') as HPw.
  assert (Hin' : forall x, In x (triples e) <-> In x (triples e0)).
  { intros x. split; apply Permutation_in; [apply Permutation_sym|]; exact HP. }
  assert (Hj : forall w u v, fisnan w = false -> joined (edge_upto (triples e) w) u v <-> joined (close d n w) u v).
  { intros w u v Hw. rewrite (Hjoin w u v Hw). apply joined_ext.
    - intros a b (x & Hx & Hle). apply Hin' in Hx. destruct (Hcases _ _ _ Hx) as (_ & _ & _ & [H| -> ]); [|apply rst_refl].
      apply rst_step. exists x. auto.
    - intros a b (x & Hx & Hle). apply rst_step. exists x. split; [|exact Hle]. apply Hin'.
      apply In_nth_error in Hx. destruct Hx as [i Hi]. rewrite nth_error_firstn in Hi. destruct (i <? n - 1); [|discriminate].
      apply (nth_error_In _ i). exact Hi. }
  exists e0, adj, e. split; [exact E0|]. split; [exact Eadj|]. split; [exact Ee|].
  split. { unfold graph_input. split; [exact Hn|]. split; [exact Hn32|]. split; [exact Hal|]. split; [exact Hvb|]. split; [exact Eadj|]. split; [exact Hal'|exact HP]. }
  split. { intros v Hv. destruct (Hself v Hv) as (cv & _ & Ht). exists v, v, cv. split; [apply Hin', (nth_error_In _ _ Ht)|auto]. }
  split. { intros u v Hu Hv. generalize (Hall u v Hu Hv). apply joined_map. intros a b (x & Hx & _). apply rst_step. exists x. apply Hin'.
    apply In_nth_error in Hx. destruct Hx as [i Hi]. rewrite nth_error_firstn in Hi. destruct (i <? n - 1); [|discriminate].
    apply (nth_error_In _ i). exact Hi. }
  split. { unfold no_nan. apply Forall_forall. intros w Hw. rewrite Forall_forall in Hnan0. apply Hnan0.
    apply (Permutation_in w (Permutation_sym HPw) Hw). }
  split; [apply Hsort; exact Hnan0|]. split; [rewrite <- (Permutation_length HPw); exact Lw|exact Hj].
Qed.

(** Every level of the hierarchy of [d] is the partition of the points into the components
    of "mutual reachability distance at most w" that have at least minPoints points. *)
Theorem C28_levels_are_reachability_components :
  forall d n minPts compact fuel,
  2 <= minPts <= n -> (Z.of_nat n < M32)%Z -> readable d n -> below_max d n -> 2 * n - 1 <= fuel ->
  exists e h, build_hierarchy fuel d n minPts compact = Ok (e, h) /\
    forall i w ls, 1 <= i -> entry h i w ls -> components (close d n w) minPts n ls.
Proof.
  intros d n minPts compact fuel Hm Hn32 HR HB Hf.
  destruct (build_input d n ltac:(lia) Hn32 HR HB) as (e0 & adj & e & E1 & E2 & E3 & HG & Hcov & Hcon & Hnan & Hs & Hl & Hj).
  destruct (C25_hierarchy_terminates n e0 e adj minPts compact fuel HG (proj1 Hm) Hnan ltac:(lia)) as (h & Hh).
  exists e, h. split; [unfold build_hierarchy; rewrite E1; cbn [bind]; rewrite E2; cbn [bind]; rewrite E3; cbn [bind]; rewrite Hh; reflexivity|].
  intros i w ls Hi Hent.
  pose proof (C27_levels_are_density_components n e0 e adj minPts compact fuel h HG Hcon Hs Hm Hh i w ls Hi Hent) as HC.
  destruct (C29_hierarchy_entries n e0 e adj minPts compact fuel h HG Hcov Hs (proj1 Hm) Hh) as (L & _ & _ & _ & _ & _ & _ & _ & _ & HW).
  pose proof (HW i w ls Hi Hent) as Hw. unfold no_nan in Hnan. rewrite Forall_forall in Hnan. specialize (Hnan w Hw).
  apply (components_ext (edge_upto (triples e) w)); [|exact HC]. intros x y. apply Hj. exact Hnan.
Qed.
Print Assumptions C28_levels_are_reachability_components.

Lemma compute_split ds rows cols k d : complete d -> d_rows d = Z.of_nat rows ->
  distance_compute ds rows cols k = Ok d -> (0 <= k < M32 - 1)%Z ->
  exists d1, complete d1 /\ d_rows d1 = Z.of_nat rows /\ d_k d1 = k /\ distance_get_core_distances d1 = Ok d /\
    forall i j, distance_get d1 i j = distance_get d i j.
Proof.
  intros HC Hr E Hk. unfold distance_compute in E. apply bind_ok in E. destruct E as (m & _ & E).
  set (d1 := mk_distance (Z.of_nat rows) (Z.of_nat cols) k m (repeat None rows)) in *.
  assert (Hd : d_dist d = m /\ d_rows d = d_rows d1).
  { unfold distance_get_core_distances in E. apply bind_ok in E. destruct E as (c & _ & E). injection E as <-. split; reflexivity. }
  assert (HG : forall i j, distance_get d1 i j = distance_get d i j).
  { intros i j. unfold distance_get. rewrite (proj1 Hd), (proj2 Hd). reflexivity. }
  exists d1. split; [|split; [reflexivity|split; [reflexivity|split; [exact E|exact HG]]]].
  split; [cbn [d1 d_rows d_core]; rewrite repeat_length; lia|]. intros i j Hi Hj. rewrite HG. apply (proj2 HC); rewrite (proj2 Hd); assumption.
Qed.

Lemma row_exists d i : complete d -> i < Z.to_nat (d_rows d) -> exists row, row_of d i row.
Proof.
  intros [_ HC] Hi. exists (map (gval d i) (seq 0 (Z.to_nat (d_rows d)))). split; [rewrite map_length, seq_length; reflexivity|].
  intros j Hj. destruct (HC (Z.of_nat i) (Z.of_nat j)) as (v & Hv); [lia|lia|].
  rewrite (nth_indep _ fzero (gval d i 0)) by (rewrite map_length, seq_length; exact Hj). rewrite map_nth, seq_nth by exact Hj.
  cbn [Nat.add]. unfold gval, dget. rewrite Hv. reflexivity.
Qed.

Lemma data_below ds rows cols minPts :
  2 <= minPts <= rows -> (Z.of_nat rows <= 65536)%Z -> holds ds rows cols ->
  (forall i j, i < j -> j < rows -> flt (euclidean ds cols i j) D_MAX = true) ->
  exists d, distance_compute ds rows cols (Z.of_nat minPts - 1) = Ok d /\ readable d rows /\ below_max d rows /\
    (forall i j, i < j -> j < rows -> distance_get d (Z.of_nat i) (Z.of_nat j) = Ok (euclidean ds cols i j)).
Proof.
  intros Hm Hr HL Hfin.
  assert (HM : (M32 = 4294967296)%Z) by reflexivity.
  destruct (C15_distance_get_euclidean ds rows cols (Z.of_nat minPts - 1) ltac:(lia) Hr HL ltac:(lia)) as (d & Ed & HC & Hrows & Hk & Hget).
  assert (Hval : forall i j, i < rows -> j < rows -> exists x, distance_get d (Z.of_nat i) (Z.of_nat j) = Ok x /\ flt x D_MAX = true).
  { intros i j Hi Hj. destruct (Hget i j Hi Hj) as [-> _]. eexists. split; [reflexivity|].
    destruct (Nat.eqb_spec i j) as [->|Hne]; [reflexivity|]. apply Hfin; lia. }
  destruct (compute_split ds rows cols (Z.of_nat minPts - 1) d HC Hrows Ed ltac:(lia)) as (d1 & C1 & R1 & K1 & Hc1 & G1).
  destruct (C18_sentinel_iff_too_few_neighbours d1 C1 ltac:(lia)) as (d2 & Ed2 & _ & _ & Hc2).
  rewrite Hc1 in Ed2. injection Ed2 as <-.
  assert (Hcore : forall i, i < rows -> exists c, nth_error (d_core d) i = Some (Some c) /\ flt c D_MAX = true).
  { intros i Hi.
    destruct (row_exists d1 i C1 ltac:(lia)) as (row & Hrow). destruct (Hc2 i row ltac:(lia) Hrow) as (c & Hc & Hbelow & _).
    exists c. split; [exact Hc|]. apply Hbelow. rewrite K1. destruct Hrow as [HLr Hrow].
    unfold finite_values. rewrite (filter_all _ row); [rewrite HLr, R1; lia|].
    intros x Hx. apply (In_nth _ _ fzero) in Hx. destruct Hx as (j & Hj & <-).
    destruct (Hval i j Hi ltac:(lia)) as (x & Hx1 & Hx2). rewrite <- G1, (Hrow j) in Hx1 by lia. injection Hx1 as ->. exact Hx2. }
  assert (HR : readable d rows).
  { split; [intros i j Hi Hj; destruct (Hval i j Hi Hj) as (x & Hx & _); eauto|intros i Hi; destruct (Hcore i Hi) as (c & Hc & _); eauto]. }
  assert (HB : below_max d rows).
  { split; [intros i j x Hi Hj Hx; destruct (Hval i j Hi Hj) as (y & Hy & Hlt); congruence|].
    intros i x Hi Hx. destruct (Hcore i Hi) as (c & Hc & Hlt). congruence. }
  exists d. split; [exact Ed|]. split; [exact HR|]. split; [exact HB|].
  intros i j Hij Hj. destruct (Hget i j ltac:(lia) Hj) as [-> _]. destruct (Nat.eqb_spec i j); [lia|].
  rewrite Nat.min_l, Nat.max_r by lia. reflexivity.
Qed.

(** The same from the data: the distance object is the one distance_compute builds with
    minPoints - 1 neighbours, as in hdbscan_run. *)
Theorem C28_levels_from_data :
  forall ds rows cols minPts compact fuel,
  2 <= minPts <= rows -> (Z.of_nat rows <= 65536)%Z -> holds ds rows cols ->
  (forall i j, i < j -> j < rows -> flt (euclidean ds cols i j) D_MAX = true) -> 2 * rows - 1 <= fuel ->
  exists d e h, distance_compute ds rows cols (Z.of_nat minPts - 1) = Ok d /\
    build_hierarchy fuel d rows minPts compact = Ok (e, h) /\
    (forall i j, i < j -> j < rows -> distance_get d (Z.of_nat i) (Z.of_nat j) = Ok (euclidean ds cols i j)) /\
    forall i w ls, 1 <= i -> entry h i w ls -> components (close d rows w) minPts rows ls.
Proof.
  intros ds rows cols minPts compact fuel Hm Hr HL Hfin Hf.
  destruct (data_below ds rows cols minPts Hm Hr HL Hfin) as (d & Ed & HR & HB & Hget).
  destruct (C28_levels_are_reachability_components d rows minPts compact fuel Hm ltac:(unfold M32; lia) HR HB Hf) as (e & h & Eh & Hent).
  exists d, e, h. auto.
Qed.
Print Assumptions C28_levels_from_data.

(** ** C30 *)
Theorem C30_cluster_tree :
  forall n e0 e adj minPts compact fuel h,
  graph_input n e0 e adj -> covers n e -> 2 <= minPts -> compute_hierarchy fuel e n adj minPts compact = Ok h ->
  exists K, length (l_cs (h_l h)) = S K /\ 1 <= K /\
    nth_error (l_cs (h_l h)) 0 = Some None /\
    (forall k, 1 <= k <= K -> exists c, cluster_at h k c /\ c_label c = k) /\
    (* the root holds all points *)
    (exists c, cluster_at h 1 c /\ c_parent c = None /\ forall v, member h 1 v <-> v < n) /\
    (* other clusters *)
    (forall k c, cluster_at h k c -> 2 <= k -> exists p cp points,
       c_parent c = Some p /\ 1 <= p < k /\ cluster_at h p cp /\
       NoDup points /\ minPts <= length points /\ (forall v, In v points <-> member h k v) /\
       (forall v, member h k v -> member h p v)) /\
    (* siblings are disjoint *)
    (forall j k p cj ck v, j <> k -> child h j p cj -> child h k p ck -> member h j v -> member h k v -> False) /\
    (* hasChildren, and at least two children *)
    (forall p cp, cluster_at h p cp -> (c_kids cp = true <-> exists k ck, child h k p ck)) /\
    (forall k p ck, child h k p ck -> exists j cj, j <> k /\ child h j p cj).
Proof.
  intros n e0 e adj minPts compact fuel h HG Hcov Hm Hok.
  destruct (done_rel anyw n e0 e adj minPts compact fuel h HG Hm any_t (any_w e) Hok) as (g & B & Hg & -> & Hnan & HI & HP).
  pose proof (member_bk n e0 e adj HG minPts Hm anyw any_t (any_w e) B g HI Hcov) as Hmem.
  destruct (co_inv0 _ _ _ _ _ _ _ _ (in_core _ _ _ _ _ _ _ _ HI)) as [w0 HC].
  pose proof (in_off _ _ _ _ _ _ _ _ HI) as HO.
  pose proof (ci_next _ _ _ _ _ _ _ HC) as Hnx.
  assert (Hrange : forall k c, cluster_at (hier_finish n g) k c -> 1 <= k < l_next (h_l g)).
  { intros k c H. change (clus (h_l g) k c) in H. pose proof (clus_lt _ _ _ H) as Hl. rewrite (ci_cs _ _ _ _ _ _ _ HC) in Hl.
    destruct (Nat.eq_dec k 0) as [->|Hk0]; [|lia]. unfold clus in H. rewrite (ci_null _ _ _ _ _ _ _ HC) in H. discriminate. }
  assert (Hgood : forall k c, cluster_at (hier_finish n g) k c -> cgood minPts (e_w e) anyw w0 B (h_l g) k c).
  { intros k c H. destruct (ci_c _ _ _ _ _ _ _ HC k (Hrange k c H)) as (c' & H1 & H2). rewrite (clus_fun (h_l g) k c c' H H1). exact H2. }
  exists (l_next (h_l g) - 1). split; [cbn [hier_finish h_l]; rewrite (ci_cs _ _ _ _ _ _ _ HC); lia|]. split; [lia|].
  split; [apply HC|]. split; [|split; [|split; [|split; [|split]]]].
  - intros k Hk. destruct (ci_c _ _ _ _ _ _ _ HC k ltac:(lia)) as (c & H1 & H2). exists c. split; [exact H1|]. apply H2.
  - destruct (ci_c _ _ _ _ _ _ _ HC 1 ltac:(lia)) as (c & H1 & H2). exists c. split; [exact H1|].
    split; [apply (cg_root _ _ _ _ _ _ _ _ H2 eq_refl)|]. intros v. rewrite Hmem, (ci_root _ _ _ _ _ _ _ HC), in_seq. lia.
  - intros k c Hc Hk. pose proof (Hrange k c Hc) as Hr. destruct (cg_nonroot _ _ _ _ _ _ _ _ (Hgood k c Hc) Hk) as ((p & P1 & P2 & P3) & P4 & _).
    destruct (ci_c _ _ _ _ _ _ _ HC p ltac:(lia)) as (cp & Hcp & _). exists p, cp, (bk B k).
    split; [exact P1|]. split; [exact P2|]. split; [exact Hcp|]. split; [apply (ci_born _ _ _ _ _ _ _ HC k)|]. split; [exact P4|].
    split; [intros v; rewrite Hmem; tauto|]. intros v. rewrite !Hmem. intros [_ H]. split; [lia|]. apply P3. exact H.
  - intros j k p cj ck v Hjk [J1 J2] [K1 K2] M1 M2. apply Hmem in M1, M2.
    apply (ci_sib _ _ _ _ _ _ _ HC j k p v Hjk); [exists cj; auto|exists ck; auto|apply M1|apply M2].
  - intros p cp Hcp. rewrite (cg_kids _ _ _ _ _ _ _ _ (Hgood p cp Hcp)). split; intros (j & cj & Hj); exists j, cj; exact Hj.
  - intros k p ck [K1 K2]. destruct (of_two _ _ _ HO k p) as (j & J1 & cj & J2 & J3); [exists ck; auto|]. exists j, cj. repeat split; assumption.
Qed.
Print Assumptions C30_cluster_tree.

(** ** C31 *)
(** At the head of every iteration numPoints is the number of points carrying the label. *)
Theorem C31_point_counts :
  forall n e0 e adj minPts compact k g,
  graph_input n e0 e adj -> 2 <= minPts -> no_nan e -> moment e adj minPts n compact k g ->
  forall l c, cluster_at g l c -> c_num c = Z.of_nat (count_occ Nat.eq_dec (l_cur (h_l g)) l) /\ (0 <= c_num c < M32)%Z.
Proof.
  intros n e0 e adj minPts compact k g HG Hm Hnan Hg l c Hc.
  destruct (moment_path n e0 e adj HG minPts compact Hm anyw any_t (any_w e) k g Hnan Hg) as (B & P).
  destruct (co_inv0 _ _ _ _ _ _ _ _ (in_core _ _ _ _ _ _ _ _ (pa_inv _ _ _ _ _ _ _ _ _ _ _ P))) as [w0 HC].
  pose proof (clus_lt _ _ _ Hc) as Hl. rewrite (ci_cs _ _ _ _ _ _ _ HC) in Hl.
  destruct (Nat.eq_dec l 0) as [->|Hl0].
  { unfold cluster_at in Hc. rewrite (ci_null _ _ _ _ _ _ _ HC) in Hc. discriminate. }
  destruct (ci_c _ _ _ _ _ _ _ HC l ltac:(lia)) as (c' & Hc' & Hgd). rewrite (clus_fun _ _ _ _ Hc' Hc) in Hgd.
  pose proof (cg_num _ _ _ _ _ _ _ _ Hgd) as Hnum. split; [exact Hnum|].
  pose proof (count_occ_bound Nat.eq_dec l (l_cur (h_l g))) as Hb. rewrite (ci_cur _ _ _ _ _ _ _ HC) in Hb.
  pose proof (in_n32 _ _ _ _ HG). lia.
Qed.
Print Assumptions C31_point_counts.

(** Points leave cluster [l] at weight [w]: to noise or into a new child. *)
Definition leaves (h : hstate) (l : nat) (w : f64) : Prop :=
  (exists v, last_cluster h v l /\ noise_level h v w) \/ (exists k c, child h k l c /\ c_birth c = w).

Theorem C31_death_levels :
  forall n e0 e adj minPts compact fuel h,
  graph_input n e0 e adj -> covers n e -> weights_sorted e -> 2 <= minPts ->
  compute_hierarchy fuel e n adj minPts compact = Ok h ->
  forall l c, cluster_at h l c ->
    c_num c = 0%Z /\ In (c_death c) (e_w e) /\
    (2 <= l -> In (c_birth c) (e_w e) /\ flt (c_death c) (c_birth c) = true) /\
    leaves h l (c_death c) /\ (forall w, leaves h l w -> fle (c_death c) w = true).
Proof.
  intros n e0 e adj minPts compact fuel h HG Hcov Hs Hm Hok l c Hc.
  pose proof (gt_w e Hs) as Hgw.
  destruct (done_rel gtw n e0 e adj minPts compact fuel h HG Hm gt_t Hgw Hok) as (g & B & Hg & -> & Hnan & HI & HP).
  destruct (co_inv0 _ _ _ _ _ _ _ _ (in_core _ _ _ _ _ _ _ _ HI)) as [w0 HC].
  change (clus (h_l g) l c) in Hc.
  pose proof (clus_lt _ _ _ Hc) as Hl. rewrite (ci_cs _ _ _ _ _ _ _ HC) in Hl.
  destruct (Nat.eq_dec l 0) as [->|Hl0].
  { unfold clus in Hc. rewrite (ci_null _ _ _ _ _ _ _ HC) in Hc. discriminate. }
  destruct (ci_c _ _ _ _ _ _ _ HC l ltac:(lia)) as (c' & Hc' & Hgd). rewrite (clus_fun _ _ _ _ Hc' Hc) in Hgd.
  assert (Hz : c_num c = 0%Z).
  { rewrite (cg_num _ _ _ _ _ _ _ _ Hgd), (cnt_zero n e0 e adj HG minPts Hm gtw gt_t Hgw B g HI Hcov) by lia. reflexivity. }
  destruct (cg_dead _ _ _ _ _ _ _ _ Hgd Hz) as (D1 & D2 & D3). destruct (cg_event _ _ _ _ _ _ _ _ Hgd Hz) as (E1 & E2).
  split; [exact Hz|]. split; [exact D1|]. split.
  { intros H2. split; [apply (cg_nonroot _ _ _ _ _ _ _ _ Hgd H2)|]. apply (D2 H2). }
  assert (Hge : forall w, w = c_death c \/ gtw w (c_death c) -> fle (c_death c) w = true).
  { intros w [->|Hw].
    - unfold no_nan in Hnan. rewrite Forall_forall in Hnan. pose proof (Hnan _ D1) as Hx. apply fle_intro; auto. apply Z.le_refl.
    - unfold gtw in Hw. apply flt_true in Hw. destruct Hw as (N1 & N2 & K). apply fle_intro; auto. apply Z.lt_le_incl. exact K. }
  split.
  - destruct E1 as [(v & V1 & V2)|(k & ck & K1 & K2 & K3)]; [left; exists v; split; assumption|right; exists k, ck; repeat split; assumption].
  - intros w [(v & V1 & V2)|(k & ck & [K1 K2] & K3)]; apply Hge.
    + apply (D3 v w V1 V2).
    + apply E2. exists k, ck. auto.
Qed.
Print Assumptions C31_death_levels.

(** In a connected graph a cluster that splits ends there. *)
Theorem C31_split_ends_cluster :
  forall n e0 e adj minPts compact fuel h,
  graph_input n e0 e adj -> connects n e -> weights_sorted e -> 2 <= minPts <= n ->
  compute_hierarchy fuel e n adj minPts compact = Ok h ->
  forall k p c cp, child h k p c -> cluster_at h p cp -> c_death cp = c_birth c.
Proof.
  intros n e0 e adj minPts compact fuel h HG Hcon Hs [Hm Hmn] Hok k p c cp [H1 H2] H3.
  pose proof (gt_w e Hs) as Hgw.
  destruct (done_rel gtw n e0 e adj minPts compact fuel h HG Hm gt_t Hgw Hok) as (g & B & Hg & -> & Hnan & HI & HP).
  pose proof (in_wf _ _ _ _ HG) as Hwf. pose proof (in_v _ _ _ _ HG) as Hv.
  pose proof (pa_conn _ _ _ _ _ _ _ _ _ _ _ HP) as HC.
  specialize (HC (start_InvC n (length (e_w e)) minPts e gtw Hv Hgw Hm (in_n1 _ _ _ _ HG) adj Hmn (connects_E n e _ Hwf Hcon))).
  apply (ic_dead _ _ _ _ _ _ HC k p c cp H1 H2 H3).
Qed.
Print Assumptions C31_split_ends_cluster.

(** ** C32 *)
(** The entry hierarchy[offset + 1] exists; the cluster was created by one level of the
    loop, and the points labelled with it in that entry are exactly those labelled with it
    after that level.  Earlier entries do not contain it. *)
Theorem C32_cluster_entry :
  forall n e0 e adj minPts compact fuel h,
  graph_input n e0 e adj -> covers n e -> 2 <= minPts -> compute_hierarchy fuel e n adj minPts compact = Ok h ->
  forall l c, cluster_at h l c -> 2 <= l ->
  exists w ls k g k' g',
    entry h (S (c_offset c)) w ls /\ length ls = n /\
    moment e adj minPts n compact k g /\ 0 < k /\ hier_level e minPts n compact k g = Ok (k', g') /\
    (forall c, ~ cluster_at g l c) /\ (exists c', cluster_at g' l c') /\
    nth_error (e_w e) (k - 1) = Some (c_birth c) /\
    (forall v, nth_error ls v = Some l <-> labelled g' v l) /\
    (exists ls', entry h (c_offset c) (c_birth c) ls') /\
    (forall i wi li v, i <= c_offset c -> entry h i wi li -> nth_error li v <> Some l).
Proof.
  intros n e0 e adj minPts compact fuel h HG Hcov Hm Hok l c Hc Hl2.
  destruct (done_rel anyw n e0 e adj minPts compact fuel h HG Hm any_t (any_w e) Hok) as (g & B & Hg & -> & Hnan & HI & HP).
  pose proof (in_n32 _ _ _ _ HG) as Hn32. pose proof (in_n1 _ _ _ _ HG) as Hn1. pose proof (in_wf _ _ _ _ HG) as Hwf. pose proof (in_v _ _ _ _ HG) as Hv.
  destruct (co_inv0 _ _ _ _ _ _ _ _ (in_core _ _ _ _ _ _ _ _ HI)) as [w0 HC].
  change (clus (h_l g) l c) in Hc. pose proof (clus_lt _ _ _ Hc) as Hl. rewrite (ci_cs _ _ _ _ _ _ _ HC) in Hl.
  destruct (own_entry n e0 e adj HG minPts Hm anyw any_t (any_w e) B g HI Hcov l c Hc) as (w & ls & E1 & E2 & E3 & E4).
  destruct (E4 Hl2) as (E5 & E6 & ls' & E7).
  pose proof (entry_finish n e minPts Hm anyw any_t (any_w e) g) as Hef.
  assert (H0 : Inv n (length (e_w e)) minPts e anyw [[]; seq 0 n] (length (e_w e)) (hier_start n adj)).
  { apply (inv0 n e0 e adj HG minPts Hm anyw any_t (any_w e)). }
  destruct (levels_born n (length (e_w e)) minPts e compact anyw Hv (any_w e) Hm Hn1 (in_nan _ Hnan) _ _ Hg [[]; seq 0 n] l H0 (conj Hl2 Hl))
    as ([k1 g1] & [k2 g2] & Q1 & Q2 & Q3 & Q4 & Q5). cbn [fst snd] in *.
  destruct (moment_path n e0 e adj HG minPts compact Hm anyw any_t (any_w e) k1 g1 Hnan Q1) as (B1 & P1).
  pose proof (pa_inv _ _ _ _ _ _ _ _ _ _ _ P1) as I1.
  pose proof (co_k _ _ _ _ _ _ _ _ (in_core _ _ _ _ _ _ _ _ I1)) as Hk1.
  destruct (inv_step n (length (e_w e)) minPts e compact anyw Hn32 Hwf Hv any_t (any_w e) Hm Hn1 B1 k1 g1 Q2 (in_nan _ Hnan (k1 - 1) ltac:(lia)) I1)
    as (k2' & g2' & B2 & R & R1 & _ & R3 & _ & R5).
  pose proof Q3 as Q3'. rewrite R in Q3. injection Q3 as <- <-.
  destruct (levels_path n (length (e_w e)) minPts e compact anyw Hn32 Hwf Hv any_t (any_w e) Hm Hn1 (in_nan _ Hnan) _ _ Q4 B2 R3) as (B3 & P3).
  cbn [fst snd] in P3.
  assert (HBB : bk B3 l = bk B2 l) by (apply (pa_bk _ _ _ _ _ _ _ _ _ _ _ P3); lia).
  (* both families describe the final state *)
  destruct (own_entry n e0 e adj HG minPts Hm anyw any_t (any_w e) B3 g (pa_inv _ _ _ _ _ _ _ _ _ _ _ P3) Hcov l c Hc) as (w' & ls2 & E1' & _ & E3' & _).
  rewrite E1 in E1'. injection E1' as <- <-.
  destruct (ev_born _ _ _ _ _ _ _ R5 l Q5) as (V1 & cb & V2 & V3).
  destruct (pa_old _ _ _ _ _ _ _ _ _ _ _ P3 l cb V2) as (cf & F1 & _ & F2 & _). rewrite (clus_fun _ _ _ _ F1 Hc) in F2.
  destruct (co_inv0 _ _ _ _ _ _ _ _ (in_core _ _ _ _ _ _ _ _ I1)) as [wa HCa].
  destruct (co_inv0 _ _ _ _ _ _ _ _ (in_core _ _ _ _ _ _ _ _ R3)) as [wb HCb].
  exists w, ls, k1, g1, k2', g2'.
  split; [apply Hef; [lia|exact E1]|]. split; [exact E2|]. split; [exact Q1|]. split; [exact Q2|]. split; [exact R|].
  split. { intros cx Hx. change (clus (h_l g1) l cx) in Hx. pose proof (clus_lt _ _ _ Hx) as Hy. rewrite (ci_cs _ _ _ _ _ _ _ HCa) in Hy. lia. }
  split; [exists cb; exact V2|]. split; [rewrite F2, V3; unfold ew; apply nth_error_nth'; lia|].
  split.
  { intros v. rewrite E3', HBB. destruct (le_lt_dec n v) as [Hge|Hvn].
    - split; intros H.
      + apply (ci_born _ _ _ _ _ _ _ HCb l) in H. lia.
      + unfold labelled in H. assert (v < length (l_cur (h_l g2'))) by (apply nth_error_Some; congruence). rewrite (ci_cur _ _ _ _ _ _ _ HCb) in *. lia.
    - rewrite <- (V1 v Hvn). rewrite (labelled_lab g2' v l n); [tauto|apply HCb|exact Hvn]. }
  split; [exists ls'; apply Hef; [lia|exact E7]|].
  intros i wi li v Hi Hent. destruct (Nat.eq_dec i 0) as [->|Hi0].
  - unfold entry, hier_finish in Hent. cbn [h_hier] in Hent. rewrite hget_hput in Hent. cbn in Hent. injection Hent as <- <-.
    intros H. apply nth_error_repeat_in in H. lia.
  - apply Hef in Hent; [|lia]. apply (E6 i wi li v); [lia|exact Hent].
Qed.
Print Assumptions C32_cluster_entry.

(** ** Concrete cases *)

(** Six points on a line, minPoints = 2: two groups. *)
Definition six : list f64 := map f_of_Z [0; 1; 3; 10; 12; 15]%Z.
Definition six_distance : res distance := distance_compute (DDouble six) 6 1 1.

(** They meet the hypotheses of C25-C32. *)
Example six_hypotheses : exists d e0 adj e, six_distance = Ok d /\ readable d 6 /\ below_max d 6 /\
  construct_mst d 6 true = Ok e0 /\ graph_init 6 e0 = Ok adj /\ graph_quicksort_by_edge_weight e0 = Ok e /\
  graph_input 6 e0 e adj /\ covers 6 e /\ connects 6 e /\ no_nan e /\ weights_sorted e.
Proof.
  assert (H : match six_distance with Ok d => ready_check d 6 | _ => false end = true) by (vm_compute; reflexivity).
  destruct six_distance as [d| | |]; try discriminate. apply ready_check_ok in H. destruct H as [HR HB].
  destruct (build_input d 6) as (e0 & adj & e & E1 & E2 & E3 & H1 & H2 & H3 & H4 & H5 & _); [lia|reflexivity|exact HR|exact HB|].
  exists d, e0, adj, e. repeat (split; [assumption||reflexivity|]). assumption.
Qed.

(** What the call builds: entries 0-4, the last cluster of each point, clusters 2 and 3
    below the root, and whether the noise level of each point is one of 2 and 3. *)
Example six_hierarchy :
  match (let! d := six_distance in build_hierarchy 11 d 6 2 false) with
  | Ok (e, h) => Some (map (fun p => (fst p, snd (snd p))) (h_hier h), l_last (h_l h),
       map (fun o => match o with Some c => Some (c_offset c, c_parent c, c_kids c) | None => None end) (l_cs (h_l h)),
       map (fun o => match o with Some w => existsb (feq w) (map f_of_Z [2; 3]%Z) | None => false end) (l_noise (h_l h)))
  | _ => None
  end =
  Some ([(0, [0; 0; 0; 0; 0; 0]); (4, [2; 2; 0; 0; 0; 0]); (3, [2; 2; 2; 3; 3; 0]); (2, [2; 2; 2; 3; 3; 3]); (1, [1; 1; 1; 1; 1; 1])],
        [Some 2; Some 2; Some 2; Some 3; Some 3; Some 3],
        [None; Some (0, None, true); Some (1, Some 1, false); Some (1, Some 1, false)],
        [false; false; true; true; true; true]).
Proof. vm_compute. reflexivity. Qed.

(** A graph with a NaN weight. *)
Definition nan_edges : edges := mk_edges [0; 0; 1] [1; 0; 1] [fnan; fone; fone].
Example nan_hypotheses : exists adj, graph_input 2 nan_edges nan_edges adj /\ Exists (fun w => fisnan w = true) (e_w nan_edges).
Proof.
  exists [[1; 0]; [0; 1]]. split; [|left; reflexivity].
  split; [lia|]. split; [reflexivity|]. split; [split; reflexivity|].
  split; [split; repeat constructor; lia|]. split; [reflexivity|]. split; [split; reflexivity|apply Permutation_refl].
Qed.

Example six_finite : forall i j, i < j -> j < 6 -> flt (euclidean (DDouble six) 1 i j) D_MAX = true.
Proof.
  assert (H : forallb (fun i => forallb (fun j => flt (euclidean (DDouble six) 1 i j) D_MAX) (seq 0 6)) (seq 0 6) = true) by (vm_compute; reflexivity).
  intros i j Hi Hj. rewrite forallb_forall in H. specialize (H i (proj2 (in_seq 6 0 i) ltac:(lia))).
  rewrite forallb_forall in H. apply H. apply in_seq. lia.
Qed.
