(** C87: a whole run, and every later rerun, on the containers of the library. *)
From Coq Require Import Permutation Sorted.
From Verif Require ModelMap.
From Verif Require Import Base F64 F64Facts F64Arith ListFacts ModelUtils ModelArrayList ModelDistance ModelMst ModelGraph ProofArrayList ModelConcrete ProofConcrete ProofConcreteTable
  SpecGraph SpecHier SpecTree PropUtils ProofDistance ProofCore PropDistance ProofMst PropMst PropGraph ProofTree ProofLabel ProofHier ProofHierEnd PropHier ProofTreeSel PropSelect PropProminent PropOutlier PropSize
  ProofRun PropRun SpecConcrete.
From Verif Require Import ModelCluster ModelHier ModelSelect ModelRun ModelConcreteRun ProofConcreteHier ProofConcreteRun PropConcrete.
From Coq Require Import ZifyBool ZifyNat.
Local Open Scope nat_scope.

Lemma offsets_small n e0 e adj m compact fuel h : graph_input n e0 e adj -> covers n e -> 2 <= m -> compute_hierarchy fuel e n adj m compact = Ok h ->
  (forall i, hget (h_hier h) i <> None -> small i) -> forall l c, nth_error (l_cs (h_l h)) l = Some (Some c) -> small (c_offset c).
Proof.
  intros HG Hcov Hm Hok HK l c Hc.
  destruct (done_rel anyw n e0 e adj m compact fuel h HG Hm any_t (any_w e) Hok) as (g & B & Hg & -> & Hnan & HI & HP).
  change (clus (h_l g) l c) in Hc.
  destruct (own_entry n e0 e adj HG m Hm anyw any_t (any_w e) B g HI Hcov l c Hc) as (w & ls & E1 & _).
  assert (HS : small (S (c_offset c))).
  { apply HK. apply (entry_finish n e m Hm anyw any_t (any_w e) g) in E1; [|lia]. unfold entry in E1. congruence. }
  unfold small in *. lia.
Qed.

Lemma same_labels n (l1 l2 : list nat) (P : nat -> nat -> Prop) : length l1 = n -> length l2 = n ->
  (forall v c, v < n -> c <> 0 -> nth_error l1 v = Some c <-> P c v) -> (forall v c, v < n -> c <> 0 -> nth_error l2 v = Some c <-> P c v) -> l1 = l2.
Proof.
  intros L1 L2 C1 C2. apply nth_error_ext. intros i. destruct (Nat.lt_ge_cases i n) as [Hi|Hi].
  - destruct (nth_error l1 i) as [a|] eqn:Ea; [|apply nth_error_None in Ea; lia]. destruct (nth_error l2 i) as [b|] eqn:Eb; [|apply nth_error_None in Eb; lia]. f_equal.
    destruct (Nat.eq_dec a 0) as [->|Ha]; [destruct (Nat.eq_dec b 0) as [->|Hb]; [reflexivity|]|].
    + apply (C2 i b Hi Hb) in Eb. apply (C1 i b Hi Hb) in Eb. congruence.
    + apply (C1 i a Hi Ha) in Ea. apply (C2 i a Hi Ha) in Ea. congruence.
  - rewrite !(proj2 (nth_error_None _ _)) by lia. reflexivity.
Qed.

Lemma same_of ptrs ks cs : ProofArrayList.rep ptrs (ptrs_from 0 cs) -> cs_rel ks cs -> nth_error cs 0 = Some None -> (forall i, 1 <= i < length cs -> nth_error cs i <> Some None) ->
  same_clusters ptrs ks cs.
Proof.
  intros HP HC H0 Hs. unfold same_clusters. split; [|split; [exact H0|]].
  - destruct cs as [|c cs]; [discriminate|]. injection H0 as ->. exists (length cs). split; [reflexivity|]. apply rep_reads. cbn [ptrs_from] in HP.
    rewrite ptrs_seq in HP; [exact HP|]. apply Forall_forall. intros c Hc ->. apply In_nth_error in Hc. destruct Hc as [i Hi].
    apply (Hs (S i)); [|exact Hi]. cbn [length]. assert (i < length cs) by (apply nth_error_Some; congruence). lia.
  - intros i c Hi. apply cget_nth in Hi. destruct (oget_sim _ _ i c HC Hi) as (o & O1 & O2 & O3 & O4). exists o. split.
    + unfold oget, aget in O1. destruct (nth_error ks i) as [[x|]|]; cbn [bind got] in O1; congruence.
    + unfold same_cluster. rewrite O2. cbn [erase c_label c_birth c_death c_num c_offset c_stab c_pstab c_plow c_nc c_pnc c_parent c_kids].
      do 12 (split; [reflexivity|]). split; apply rep_reads; [apply O3|exact O4].
Qed.

Lemma ptrs_shape : forall cs cs' b, ptrs_from b cs' = ptrs_from b cs -> length cs' = length cs /\ forall i, nth_error cs' i = Some None <-> nth_error cs i = Some None.
Proof.
  induction cs as [|c cs IH]; intros [|c' cs'] b E; try (destruct c; discriminate); try (destruct c'; discriminate); [split; [reflexivity|tauto]|].
  assert (Et : ptrs_from (S b) cs' = ptrs_from (S b) cs /\ (c' = None <-> c = None)).
  { destruct c, c'; cbn [ptrs_from] in E; inversion E; split; try assumption; split; congruence. }
  destruct Et as [Et Eh]. destruct (IH _ _ Et) as [I1 I2]. split; [cbn [length]; congruence|]. intros [|i]; [|apply I2]. cbn. split; intros Hx; injection Hx as Hx; f_equal; apply Eh; exact Hx.
Qed.

Lemma c_do_run_sim d n m fuel (P : parts d n m fuel) s q self list0 res0 o : 2 <= m -> (Z.of_nat n <= 65536)%Z -> nonneg d n -> readable d n -> valid s -> sorts q -> self = true ->
  ProofArrayList.rep list0 [] -> do_run fuel s q (mk_hdb (Z.of_nat m) n self (Some d) (Some []) res0) = Ok o ->
  exists z, c_do_run fuel s q (mk_chdb (Z.of_nat m) n self (Some d) (Some list0) None) = Ok z /\ same_object z o /\
    exists v, z_list z = Some v /\ ProofArrayList.rep (array_list_clear v false) [].
Proof.
  intros Hm Hn HNn HR HV Hq -> H0 Eo.
  destruct (do_run_parts d n m fuel P s q true res0 Hm ltac:(lia) HNn HR HV Hq eq_refl) as (labels & os & E & HLl & Hlab & Hos). rewrite E in Eo. injection Eo as <-.
  destruct HV as (V1 & V2 & V3). destruct P as [e0 adj e h K inf cs' trace root E1 E2 E3 HG Hcov Hs Hfin Eh HLK Hp Hr]. cbn [p_cs p_h p_root] in *.
  assert (Hlo : leaf_order K (s_leaves s (S K))) by apply V1.
  pose proof HG as (Hn1 & _ & Ha0 & Hv0 & Hinit & Hal & HPe).
  destruct (triples_small n e0 Ha0 Hv0 ltac:(unfold limit; lia)) as [S1 S2].
  destruct (graph_init_sim n e0 adj S1 S2 Hinit) as (lists & L1 & L2).
  destruct (C30_cluster_tree n e0 e adj m false fuel h HG Hcov Hm Eh) as (K0 & HLK0 & HK1 & H00 & Hlabel & _). assert (K0 = K) by lia. subst K0.
  assert (HLa : length adj = n).
  { destruct (C24_adjacency_matches_edges n e0 Ha0 Hv0) as (adj1 & A1 & A2 & _). congruence. }
  assert (Hnn : Forall (fun w => fisnan w = false) (e_w e)) by (eapply Forall_impl; [|exact Hfin]; cbv beta; intros w [Hw _]; apply (ge0_notnan w Hw)).
  assert (Hlen : length (e_w e) = 2 * n - 1).
  { destruct (any_input d n ltac:(lia) ltac:(unfold M32; lia) HR HNn) as (e1 & adj1 & e2 & F1 & F2 & F3 & _ & _ & _ & _ & _ & F4). congruence. }
  destruct (lt_init_sim (V := f64 * list nat) (Z.of_nat (cluster_capacity n))) as (tab0 & T1 & T2).
  destruct (compute_hierarchy_sim list0 tab0 fuel e n lists adj m false h H0 T2 L2) as (g & G1 & HS & G3 & G4 & G5); [rewrite HLa; unfold limit; lia|exact Hnn|unfold small; lia|exact Eh| |].
  { rewrite (hierarchy_next _ _ _ _ _ _ _ Eh), HLK. unfold limit. destruct (le_lt_dec 2 K) as [HK2|HK2]; [|lia].
    pose proof (cluster_count n e0 e adj m false fuel h K HG Hcov Hm Eh HLK HK2). nia. }
  pose proof (sr_ptrs _ _ HS) as HPt. pose proof (sr_cs _ _ HS) as HCs.
  assert (HLo : lab_ok (l_cs (h_l h))).
  { intros i c Hc. split; [|apply (offsets_small n e0 e adj m false fuel h HG Hcov Hm Eh G4 i c Hc)].
    assert (Hi : i < S K) by (rewrite <- HLK; apply nth_error_Some; congruence). destruct i as [|i]; [congruence|].
    destruct (Hlabel (S i) ltac:(lia)) as (c1 & Hc1 & Hl1). unfold SpecHier.cluster_at in Hc1. rewrite Hc in Hc1. injection Hc1 as <-. rewrite Hl1.
    destruct (le_lt_dec 2 K) as [HK2|HK2]; [|unfold small; lia]. pose proof (cluster_count n e0 e adj m false fuel h K HG Hcov Hm Eh HLK HK2). unfold small. nia. }
  destruct (propagate_tree_sim (k_ptrs (g_s g)) (S K) (k_cs (g_s g)) (l_cs (h_l h)) _ inf cs' trace HPt HCs HLo (Hp _ _ Hlo (Nat.le_succ_diag_r K))) as (ks' & P1 & P2 & P3 & P4).
  rewrite <- P4 in HPt. destruct (ptrs_shape _ _ _ P4) as [Q1 Q2].
  assert (Hsz : al_size (k_ptrs (g_s g)) = S K) by (rewrite (proj1 HPt), ptrs_length; lia).
  assert (Hg : cget cs' 1 = Ok root) by (unfold cget, aget; unfold cluster_in in Hr; rewrite Hr; reflexivity).
  assert (HF : c_find_prominent n (k_ptrs (g_s g)) ks' (g_hier g) (s_select s) (fun keys => s_points s keys n) = Ok labels).
  { apply (prominent_sim n _ ks' cs' (h_hier h) _ root _ _ labels HPt P2 P3 G3 G4 G5 Hg (fun keys => V3 keys n)). intros acts' Ha'.
    destruct (C38_labels_are_the_selected_clusters n e0 e adj m false fuel h HG Hcov Hm Eh K _ (S K) inf cs' trace root (s_select s (length (c_desc root))) acts' HLK Hlo (Nat.le_succ_diag_r K)
      (Hp _ _ Hlo (Nat.le_succ_diag_r K)) Hr (V2 _) Ha') as (labels' & El & HLl' & Hlab' & _).
    rewrite El. f_equal. apply (same_labels n _ _ (fun c v => In c (c_desc root) /\ member h c v)); assumption. }
  pose proof (outliers_sim q _ ks' cs' _ _ _ n os HPt P2 Hos) as HO.
  eexists. split.
  { unfold c_do_run. cbn [z_dist z_list z_n z_self z_min]. rewrite T1. cbn [bind]. rewrite E1. cbn [bind]. rewrite L1. cbn [bind]. rewrite E3. cbn [bind].
    rewrite Nat2Z.id, G1. cbn [bind]. rewrite Hsz, P1. cbn [bind snd]. rewrite HF. cbn [bind]. rewrite (sr_noise _ _ HS), (sr_last _ _ HS), HO. reflexivity. }
  split.
  - unfold same_object. cbn [z_min z_n z_self z_dist z_res z_list o_min o_n o_self o_dist o_res]. do 4 (split; [reflexivity|]).
    eexists. eexists. eexists. do 3 (split; [reflexivity|]). cbn [z_labels z_outliers z_hier z_blocks r_labels r_outliers r_hier r_clusters]. do 2 (split; [reflexivity|]).
    split; [apply rel_table; assumption|]. apply same_of; [exact HPt|exact P2|apply Q2; exact H00|]. intros i Hi Hx. apply Q2 in Hx. destruct (Hlabel i ltac:(lia)) as (c & Hc & _). unfold SpecHier.cluster_at in Hc. congruence.
  - cbn [z_list]. eexists. split; [reflexivity|]. apply (rep_reset _ _ HPt).
Qed.

(** ** C87.  Arbitrary doubles; any schedule of the parallel loops; any correct qsort; any
    history of reruns with minPoints between 2 and 2^32 - 1. *)
Theorem C87_run_on_containers : forall ds rows cols minPts fuel s qsort,
  5 <= rows -> (Z.of_nat rows <= 65536)%Z -> holds ds rows cols -> (2 <= minPts < M32)%Z -> 2 * rows - 1 <= fuel ->
  valid s -> sorts qsort ->
  forall history, Forall (fun ms => (2 <= fst ms < M32)%Z /\ valid (snd ms)) history ->
  exists z0 o0 z o,
    c_fresh_run fuel s qsort minPts ds rows cols true = Ok z0 /\ fresh_run fuel s qsort minPts ds rows cols true = Ok o0 /\ same_object z0 o0 /\
    c_reruns fuel qsort history z0 = Ok z /\ reruns fuel qsort history o0 = Ok o /\ same_object z o.
Proof.
  intros ds rows cols m fuel s q Hr1 Hr HL Hm Hf Hs Hq history HH. assert (HM : (M32 = 4294967296)%Z) by reflexivity.
  assert (First : exists z0 o0, c_fresh_run fuel s q m ds rows cols true = Ok z0 /\ fresh_run fuel s q m ds rows cols true = Ok o0 /\ same_object z0 o0 /\
    exists v, z_list z0 = Some v /\ ProofArrayList.rep (array_list_clear v false) []).
  { destruct (run_parts ds rows cols m fuel Hr1 Hr HL Hm Hf) as (d & P & Ed & HR & HN & H). destruct (H s q Hs Hq) as (labels & os & E & _).
    assert (Hcap : cluster_capacity rows =? 0 = false).
    { apply Nat.eqb_neq. unfold cluster_capacity. assert (1 <= rows / 5) by (apply Nat.div_le_lower_bound; lia). destruct (rows / 5 <? 4); lia. }
    pose proof E as E0. unfold fresh_run, hdbscan_init in E0. replace (1 <? m)%Z with true in E0 by lia. cbn [bind] in E0.
    unfold hdbscan_run in E0. cbn [o_min o_self o_res dataset_size] in E0. unfold u32 in E0. rewrite Z.mod_small in E0 by lia. rewrite Ed in E0. cbn [bind] in E0. rewrite Hcap in E0.
    unfold c_fresh_run. replace (1 <? m)%Z with true by lia. cbn [dataset_size]. unfold u32. rewrite Z.mod_small by lia. rewrite Ed. cbn [bind].
    destruct (array_list_init (A := option nat) (cluster_capacity rows)) as [list0| | |] eqn:El; try (unfold array_list_init in El; destruct (Nat.ltb_spec 0 (cluster_capacity rows)); [discriminate El|lia]).
    cbn [bind]. apply rep_init in El. rewrite <- (Z2Nat.id m) in E0 at 1 by lia.
    destruct (c_do_run_sim d rows (Z.to_nat m) fuel P s q true list0 None _ ltac:(lia) Hr HN HR Hs Hq eq_refl (proj1 El) E0) as (z & Z1 & Z2 & Z3).
    rewrite Z2Nat.id in Z1 by lia. exists z. eexists. split; [exact Z1|]. split; [exact E|]. split; [exact Z2|exact Z3]. }
  destruct First as (z0 & o0 & F1 & F2 & F3 & F4). exists z0, o0.
  assert (Rest : exists z o, c_reruns fuel q history z0 = Ok z /\ reruns fuel q history o0 = Ok o /\ same_object z o).
  { apply run_ran in F2. clear F1. revert z0 o0 F2 F3 F4 HH. induction history as [|[m1 s1] hist IH]; intros z0 o0 HRan HS HV HH; cbn [c_reruns reruns]; [eauto|].
    inversion_clear HH as [|? ? [Hm1 Hs1] HH']. cbn [fst snd] in *.
    destruct (run_parts ds rows cols m1 fuel Hr1 Hr HL Hm1 Hf) as (d & P & Ed & HR & HN & H). destruct (H s1 q Hs1 Hq) as (labels & os & E & _).
    rewrite <- (rerun_fresh _ _ _ _ _ _ _ _ _ HRan Hm1) in E. pose proof (rerun_ran _ _ _ _ _ _ _ _ _ _ HRan E) as HRan'.
    pose proof E as E0. unfold hdbscan_rerun in E0. destruct (o_dist o0) as [d0|] eqn:Ed0; [|discriminate]. destruct (o_clusters o0) as [cs0|] eqn:Ec0; [|discriminate].
    step E0 d1 E1. pose proof (do_run_keeps _ _ _ _ _ E0) as (K1 & K2 & _). cbn [o_dist o_n] in K1, K2. injection K1 as <-.
    destruct HS as (_ & HSn & _ & HSd & _). destruct HV as (v & V1 & V2). rewrite <- K2 in E0. rewrite <- (Z2Nat.id m1) in E0 at 1 by lia.
    destruct (c_do_run_sim d rows (Z.to_nat m1) fuel P s1 q true (array_list_clear v false) None _ ltac:(lia) Hr HN HR Hs1 Hq eq_refl V2 E0) as (z & Z1 & Z2 & Z3).
    rewrite Z2Nat.id in Z1 by lia. rewrite E. cbn [bind].
    assert (Ez : c_rerun fuel s1 q m1 z0 = Ok z). { unfold c_rerun. rewrite HSd, Ed0, V1, E1. cbn [bind]. rewrite HSn, <- K2. exact Z1. }
    rewrite Ez. cbn [bind]. apply (IH z _ HRan' Z2 Z3 HH'). }
  destruct Rest as (z & o & R1 & R2 & R3). exists z, o. auto 10.
Qed.
Print Assumptions C87_run_on_containers.

(** Six points in two groups, a run and two reruns: labels, order of the outliers, keys of
    the hierarchy, pointers in the list of clusters and the clusters the root selects. *)
Example C87_example :
  holds (DDouble six) 6 1 /\ Forall (fun ms => (2 <= fst ms < M32)%Z /\ valid (snd ms)) [(5%Z, backwards); (2%Z, in_turn)] /\
  match (let! z := c_fresh_run 11 in_turn insertion_sort 3 (DDouble six) 6 1 true in c_reruns 11 insertion_sort [(5%Z, backwards); (2%Z, in_turn)] z) with
  | Ok z => match z_res z, z_list z with
            | Some r, Some v => (z_labels r, map os_id (z_outliers r), map (lt_key (z_hier r)) (seq 0 5), firstn (al_size v) (al_data v),
                                 map (fun o => match o with Some o => firstn (al_size (o_desc o)) (al_data (o_desc o)) | None => [] end) (z_blocks r))
                                = ([2; 2; 2; 3; 3; 3], [0; 1; 3; 4; 5; 2]%Z, map Ok [0; 1; 2; 3; 4], [Some None; Some (Some 1); Some (Some 2); Some (Some 3)],
                                   [[]; [Some 3; Some 2]; []; []])
            | _, _ => False
            end
  | _ => False
  end.
Proof.
  split; [apply holds_double; reflexivity|]. split; [destruct schedules_valid as [V1 V2]; constructor; [|constructor; [|constructor]]; cbn [fst snd]; (split; [unfold M32; lia|assumption])|]. vm_compute. reflexivity.
Qed.
