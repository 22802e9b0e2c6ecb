(** C104: what a run reports when memory is refused. *)
From Coq Require Import Permutation Sorted Reals Relations.
From Flocq Require Import IEEE754.BinarySingleNaN.
From Verif Require Import Base F64 F64Facts F64Arith ListFacts ModelUtils ModelDistance ModelMst ModelGraph ModelCluster ModelHier ModelSelect ModelRun SpecGraph SpecHier SpecTree
  PropUtils ProofDistance ProofCore PropDistance ProofMst PropMst PropGraph ProofHier ProofHierEnd PropHier ProofSets ProofSelect ProofTreeSel PropSelect ProofProminent PropProminent PropOutlier ProofRun PropRun PropRace ModelRefused.
From Coq Require Import ZifyBool ZifyNat.
Local Open Scope nat_scope.

(** Writing labels into NULL: only possible when no label is written. *)
Lemma null_labels hier m : (forall o l, groups m o l -> l <> 0) -> forall acts labels labels', label_points hier m labels acts = Ok labels' ->
  (label_points hier m [] acts = Ok [] /\ labels' = labels) \/
  (label_points hier m [] acts = UB /\ exists v x, nth_error labels' v = Some x /\ x <> 0).
Proof.
  intros Hm. induction acts as [|[i j] acts IH]; intros labels labels' E; cbn [label_points] in *; [injection E as <-; auto|].
  destruct (label_point hier m labels i j) as [l1| | |] eqn:E1; try discriminate. cbn [bind] in E.
  unfold label_point in E1 |- *. destruct (aget m i) as [[o ls]| | |] eqn:Em; try discriminate. cbn [bind fst snd] in *.
  destruct (hget hier (S o)) as [[w en]|] eqn:Eh; try discriminate. cbn [snd] in *. destruct (aget en j) as [y| | |] eqn:Ey; try discriminate. cbn [bind] in *.
  destruct (set_mem y ls) eqn:Es.
  - unfold aset at 1. replace (j <? length (@nil nat)) with false by (cbn; lia). cbn [bind]. right. split; [reflexivity|].
    assert (Hy : y <> 0).
    { apply (Hm o). exists ls. split; [|now apply set_mem_In]. unfold aget in Em. destruct (nth_error m i) eqn:Ei; [|discriminate]. injection Em as ->. apply (nth_error_In _ _ Ei). }
    unfold aset in E1. destruct (j <? length labels) eqn:Ej; [|discriminate]. injection E1 as <-.
    assert (Hj : nth_error (upd labels j y) j = Some y) by (apply nth_error_upd_eq; lia).
    destruct (nth_error labels' j) as [x|] eqn:Ex.
    + exists j, x. split; [exact Ex|]. destruct (points_partial _ _ _ _ _ E j x Ex) as [H|(o' & ls' & w' & en' & I & _ & _ & I2)]; [congruence|]. apply (Hm o'). exists ls'. auto.
    + exfalso. destruct (IH _ _ E) as [[_ ->]|[_ (v & x & Hv & _)]]; [congruence|].
      assert (HL : length labels' = length (upd labels j y)).
      { clear -E. revert E. generalize (upd labels j y). induction acts as [|[i' j'] acts IH]; intros l E; cbn [label_points] in E; [injection E as <-; reflexivity|].
        destruct (label_point hier m l i' j') as [l2| | |] eqn:E2; try discriminate. cbn [bind] in E. rewrite (IH _ E).
        unfold label_point in E2. destruct (aget m i') as [kl| | |]; try discriminate. cbn [bind] in E2. destruct (hget hier (S (fst kl))) as [en|]; try discriminate.
        destruct (aget (snd en) j') as [z| | |]; try discriminate. cbn [bind] in E2. destruct (set_mem z (snd kl)); [|injection E2 as <-; reflexivity].
        apply aset_inv in E2. destruct E2 as [_ ->]. apply upd_length. }
      apply nth_error_None in Ex. rewrite upd_length in HL. lia.
  - injection E1 as <-. apply IH. exact E.
Qed.

(** The parts of a run that was not refused anything, and what the refused run makes of them. *)
Lemma run_shape ds rows cols m fuel s q rf :
  5 <= rows -> (Z.of_nat rows <= 65536)%Z -> holds ds rows cols -> (2 <= m < M32)%Z -> 2 * rows - 1 <= fuel -> valid s -> sorts q ->
  no_object rf = false -> no_distances rf = false -> no_core rf = false -> no_clusters rf = false -> no_hierarchy rf = false ->
  exists o r gs hier cs noise last core,
    fresh_run fuel s q m ds rows cols true = Ok o /\ o_res o = Some r /\ (forall o l, groups gs o l -> l <> 0) /\
    label_points hier gs (repeat 0 rows) (s_points s (length gs) rows) = Ok (r_labels r) /\
    outlier_scores q cs noise last core rows = Ok (r_outliers r) /\
    refused_run rf fuel s q m ds rows cols true =
      (let! labels := refused_labels rf rows hier gs (s_points s (length gs) rows) in
       let! scores := refused_scores rf q cs noise last core rows in
       Ok (mk_report HDBSCAN_SUCCESS labels (snd scores))).
Proof.
  intros Hr1 Hr HL Hm Hf Hs Hq N0 N1 N2 N3 N4. assert (HM : (M32 = 4294967296)%Z) by reflexivity.
  destruct (run_parts ds rows cols m fuel Hr1 Hr HL Hm Hf) as (d & P & Ed & HR & HN & H). destruct (H s q Hs Hq) as (labels & os & E & HLl & _ & Eo). clear H.
  destruct P as [e0 adj e h K inf cs' trace root E1 E2 E3 HG Hcov Hso Hfin Eh HLK Hp Hroot]. cbn [p_cs p_h p_root] in *.
  destruct Hs as (V1 & V2 & V3). assert (Hlo : leaf_order K (s_leaves s (S K))) by apply V1.
  pose proof (Hp _ _ Hlo (Nat.le_succ_diag_r K)) as Ep.
  assert (Hcap : cluster_capacity rows =? 0 = false).
  { apply Nat.eqb_neq. unfold cluster_capacity. assert (1 <= rows / 5) by (apply Nat.div_le_lower_bound; lia). destruct (rows / 5 <? 4); lia. }
  assert (Hg : cget cs' 1 = Ok root) by (unfold cget, aget; unfold cluster_in in Hroot; rewrite Hroot; reflexivity).
  assert (Q : exists gs, group_solution cs' (c_desc root) (s_select s (length (c_desc root))) [] = Ok gs /\
            label_points (h_hier h) gs (repeat 0 rows) (s_points s (length gs) rows) = Ok labels).
  { unfold fresh_run, hdbscan_init in E. replace (1 <? m)%Z with true in E by lia. cbn [bind] in E. unfold hdbscan_run in E. cbn [o_min o_self o_res dataset_size] in E.
    unfold u32 in E. rewrite Z.mod_small in E by lia. rewrite Ed in E. cbn [bind] in E. rewrite Hcap in E. unfold do_run in E. cbn [o_dist o_clusters o_n o_self o_min] in E.
    rewrite E1 in E. cbn [bind] in E. rewrite E2 in E. cbn [bind] in E. rewrite E3 in E. cbn [bind] in E. rewrite from_nil, Eh in E. cbn [bind] in E.
    rewrite HLK, Ep in E. cbn [bind] in E. rewrite Hg in E. cbn [bind] in E. unfold find_prominent in E. rewrite Hg in E. cbn [bind] in E.
    destruct (group_solution cs' (c_desc root) (s_select s (length (c_desc root))) []) as [gs| | |]; cbn [bind] in E; try discriminate.
    exists gs. split; [reflexivity|].
    destruct (label_points (h_hier h) gs (repeat 0 rows) (s_points s (length gs) rows)) as [l| | |]; cbn [bind] in E; try discriminate.
    rewrite Eo in E. cbn [bind] in E. injection E as ->. reflexivity. }
  destruct Q as (gs & Eg & El).
  eexists. exists (mk_results labels os (h_hier h) cs'), gs, (h_hier h), cs', (l_noise (h_l h)), (l_last (h_l h)), (d_core d).
  split; [exact E|]. split; [reflexivity|]. split; [|split; [exact El|split; [exact Eo|]]].
  - intros o l Hgl. destruct (group_partial _ _ _ _ _ Eg o l Hgl) as [(ls & [] & _)|(x & c & Ec & _ & ->)].
    destruct (C33_hierarchy_gives_tree rows e0 e adj (Z.to_nat m) false fuel h HG Hcov ltac:(lia) Eh) as (K0 & HT & HF & _).
    assert (K0 = K) by (destruct HT as (HL' & _); lia). subst K0.
    destruct (run_result _ _ _ _ _ _ _ HT HF Hlo (Nat.le_succ_diag_r K) Ep) as (_ & _ & g & HRp & HS).
    assert (Hx : 1 <= x <= K).
    { destruct HRp as (HLc & H0 & _). unfold cget, aget in Ec. destruct x as [|x]; [rewrite H0 in Ec; discriminate|].
      destruct (nth_error cs' (S x)) as [y|] eqn:Ex; [|discriminate]. assert (S x < length cs') by (apply nth_error_Some; congruence). lia. }
    rewrite (rep_cget _ _ _ _ HRp Hx) in Ec. injection Ec as <-. destruct (g_stat _ K g HS x Hx) as (-> & _). rewrite (tr_lab _ K HT) by exact Hx. lia.
  - unfold refused_run. replace (1 <? m)%Z with true by lia. rewrite N0. cbn [dataset_size]. unfold refused_distances. rewrite N1, N2. cbn [array_or_null].
    unfold u32. rewrite Z.mod_small by lia. unfold distance_compute in Ed. unfold bind in Ed |- *.
    destruct (fill_matrix ds rows cols (repeat None (Z.to_nat (alloc_size (Z.of_nat rows))))) as [mx| | |]; try discriminate. rewrite Ed. rewrite Hcap.
    unfold refused_do_run, bind. rewrite E1, E2, E3, N3, N4. rewrite from_nil, Eh. rewrite HLK, Ep. rewrite Hg. rewrite Eg. reflexivity.
Qed.

(** When nothing is refused, a run answers HDBSCAN_SUCCESS with labels and scores. *)
Theorem C104_granted : forall ds rows cols minPts fuel s qsort,
  5 <= rows -> (Z.of_nat rows <= 65536)%Z -> holds ds rows cols -> (2 <= minPts < M32)%Z -> 2 * rows - 1 <= fuel -> valid s -> sorts qsort ->
  exists o r, fresh_run fuel s qsort minPts ds rows cols true = Ok o /\ o_res o = Some r /\
    refused_run (mk_refusals false false false false false false false) fuel s qsort minPts ds rows cols true =
      Ok (mk_report HDBSCAN_SUCCESS (Some (r_labels r)) (Some (r_outliers r))).
Proof.
  intros ds rows cols m fuel s q H1 H2 H3 H4 H5 H6 H7.
  destruct (run_shape ds rows cols m fuel s q (mk_refusals false false false false false false false) H1 H2 H3 H4 H5 H6 H7 eq_refl eq_refl eq_refl eq_refl eq_refl)
    as (o & r & gs & hier & cs & noise & last & core & E & Er & _ & El & Eo & ->).
  exists o, r. split; [exact E|]. split; [exact Er|]. unfold refused_labels, refused_scores. cbn [array_or_null no_labels no_scores]. rewrite El. cbn [bind]. rewrite Eo. reflexivity.
Qed.
Print Assumptions C104_granted.

(** The object is refused: hdbscan_init answers NULL, and hdbscan_run on NULL answers
    HDBSCAN_ERROR, for all other arguments. *)
Theorem C104_no_object : forall a b c d e f fuel s qsort minPts ds rows cols rowwise, (2 <= minPts)%Z ->
  refused_run (mk_refusals true a b c d e f) fuel s qsort minPts ds rows cols rowwise = Ok (mk_report HDBSCAN_ERROR None None).
Proof. intros. unfold refused_run. replace (1 <? minPts)%Z with true by lia. reflexivity. Qed.
Print Assumptions C104_no_object.

(** The distances or the core distances are refused: undefined. *)
Theorem C104_no_distances_refuted : forall rf ds rows cols minPts fuel s qsort,
  2 <= rows -> (Z.of_nat rows <= 65536)%Z -> holds ds rows cols -> (2 <= minPts < M32)%Z ->
  no_object rf = false -> no_distances rf = true \/ no_core rf = true ->
  refused_run rf fuel s qsort minPts ds rows cols true = UB.
Proof.
  intros rf ds rows cols m fuel s q H1 Hr HL Hm N0 N. assert (HM : (M32 = 4294967296)%Z) by reflexivity.
  unfold refused_run. replace (1 <? m)%Z with true by lia. rewrite N0. cbn [dataset_size].
  assert (E : refused_distances rf ds rows cols (u32 (m - 1)) = UB); [|rewrite E; reflexivity].
  unfold refused_distances. destruct (no_distances rf) eqn:Nd; cbn [array_or_null].
  - destruct rows as [|[|rows]]; try lia. unfold fill_matrix. cbn [for_up]. replace (S (S rows) - 1) with (S rows) by lia. cbn [for_up].
    unfold pair_step at 1. destruct (ProofDistance.pair_value_ok ds cols 0 1) as [->|(v & ->)]; cbn [bind]; [reflexivity|].
    unfold zset at 1. cbn [length]. change (Z.of_nat 0) with 0%Z. set (ix := set_index _ _ _). replace ((0 <=? ix) && (ix <? 0))%Z with false by lia. reflexivity.
  - destruct N as [N|N]; [discriminate|]. rewrite N. cbn [array_or_null].
    destruct (data_ready ds rows cols (u32 (m - 1)) ltac:(lia) Hr HL) as (d & Ed & _); [unfold u32; rewrite Z.mod_small by lia; lia|].
    unfold distance_compute in Ed. unfold bind at 1 in Ed. unfold bind at 1.
    destruct (fill_matrix ds rows cols (repeat None (Z.to_nat (alloc_size (Z.of_nat rows))))) as [mx| | |]; try discriminate.
    unfold distance_get_core_distances in *. cbn [d_rows d_cols d_k d_dist d_core] in *. rewrite Nat2Z.id in *.
    destruct rows as [|rows]; [lia|]. cbn [for_up] in *.
    change (core_of (mk_distance (Z.of_nat (S rows)) (Z.of_nat cols) (u32 (m - 1)) mx []) 0) with (core_of (mk_distance (Z.of_nat (S rows)) (Z.of_nat cols) (u32 (m - 1)) mx (repeat None (S rows))) 0).
    destruct (core_of (mk_distance (Z.of_nat (S rows)) (Z.of_nat cols) (u32 (m - 1)) mx (repeat None (S rows))) 0) as [c| | |]; cbn [bind] in Ed |- *; try discriminate. reflexivity.
Qed.
Print Assumptions C104_no_distances_refuted.

(** The list of clusters or the hierarchy is refused: undefined. *)
Theorem C104_no_clusters_refuted : forall rf ds rows cols minPts fuel s qsort,
  5 <= rows -> (Z.of_nat rows <= 65536)%Z -> holds ds rows cols -> (2 <= minPts < M32)%Z -> 2 * rows - 1 <= fuel ->
  no_object rf = false -> no_distances rf = false -> no_core rf = false -> no_clusters rf = true \/ no_hierarchy rf = true ->
  refused_run rf fuel s qsort minPts ds rows cols true = UB.
Proof.
  intros rf ds rows cols m fuel s q Hr1 Hr HL Hm Hf N0 N1 N2 N. assert (HM : (M32 = 4294967296)%Z) by reflexivity.
  destruct (run_parts ds rows cols m fuel Hr1 Hr HL Hm Hf) as (d & P & Ed & _).
  destruct P as [e0 adj e h K inf cs' trace root E1 E2 E3 HG Hcov Hso Hfin Eh HLK Hp Hroot].
  unfold refused_run. replace (1 <? m)%Z with true by lia. rewrite N0. cbn [dataset_size]. unfold refused_distances. rewrite N1, N2. cbn [array_or_null].
  unfold u32. rewrite Z.mod_small by lia. unfold distance_compute in Ed. unfold bind in Ed |- *.
  destruct (fill_matrix ds rows cols (repeat None (Z.to_nat (alloc_size (Z.of_nat rows))))) as [mx| | |]; try discriminate. rewrite Ed.
  assert (Hcap : cluster_capacity rows =? 0 = false).
  { apply Nat.eqb_neq. unfold cluster_capacity. assert (1 <= rows / 5) by (apply Nat.div_le_lower_bound; lia). destruct (rows / 5 <? 4); lia. }
  rewrite Hcap. unfold refused_do_run, bind. rewrite E1, E2, E3. destruct (no_clusters rf); [reflexivity|]. destruct N as [N|N]; [discriminate|].
  rewrite from_nil, Eh, N. reflexivity.
Qed.
Print Assumptions C104_no_clusters_refuted.

(** Only the scores are refused: HDBSCAN_SUCCESS, the labels of an ordinary run, and no scores. *)
Theorem C104_no_scores : forall ds rows cols minPts fuel s qsort,
  5 <= rows -> (Z.of_nat rows <= 65536)%Z -> holds ds rows cols -> (2 <= minPts < M32)%Z -> 2 * rows - 1 <= fuel -> valid s -> sorts qsort ->
  exists o r, fresh_run fuel s qsort minPts ds rows cols true = Ok o /\ o_res o = Some r /\
    refused_run (mk_refusals false false false false false false true) fuel s qsort minPts ds rows cols true =
      Ok (mk_report HDBSCAN_SUCCESS (Some (r_labels r)) None).
Proof.
  intros ds rows cols m fuel s q H1 H2 H3 H4 H5 H6 H7.
  destruct (run_shape ds rows cols m fuel s q (mk_refusals false false false false false false true) H1 H2 H3 H4 H5 H6 H7 eq_refl eq_refl eq_refl eq_refl eq_refl)
    as (o & r & gs & hier & cs & noise & last & core & E & Er & _ & El & Eo & ->).
  exists o, r. split; [exact E|]. split; [exact Er|]. unfold refused_labels, refused_scores. cbn [array_or_null no_labels no_scores]. rewrite El. reflexivity.
Qed.
Print Assumptions C104_no_scores.

(** Only the labels are refused: undefined when some point of an ordinary run is in a cluster;
    otherwise HDBSCAN_SUCCESS without labels. *)
Theorem C104_no_labels : forall ds rows cols minPts fuel s qsort,
  5 <= rows -> (Z.of_nat rows <= 65536)%Z -> holds ds rows cols -> (2 <= minPts < M32)%Z -> 2 * rows - 1 <= fuel -> valid s -> sorts qsort ->
  exists o r, fresh_run fuel s qsort minPts ds rows cols true = Ok o /\ o_res o = Some r /\
    ((exists v c, nth_error (r_labels r) v = Some c /\ c <> 0) ->
       refused_run (mk_refusals false false false false false true false) fuel s qsort minPts ds rows cols true = UB) /\
    (Forall (eq 0) (r_labels r) ->
       refused_run (mk_refusals false false false false false true false) fuel s qsort minPts ds rows cols true =
         Ok (mk_report HDBSCAN_SUCCESS None (Some (r_outliers r)))).
Proof.
  intros ds rows cols m fuel s q H1 H2 H3 H4 H5 H6 H7.
  destruct (run_shape ds rows cols m fuel s q (mk_refusals false false false false false true false) H1 H2 H3 H4 H5 H6 H7 eq_refl eq_refl eq_refl eq_refl eq_refl)
    as (o & r & gs & hier & cs & noise & last & core & E & Er & Hz & El & Eo & ->).
  exists o, r. split; [exact E|]. split; [exact Er|]. unfold refused_labels, refused_scores. cbn [array_or_null no_labels no_scores].
  destruct (null_labels hier gs Hz _ _ _ El) as [[En Eq]|[En (v & x & Hv & Hx)]]; rewrite En; cbn [bind].
  - split; [|intros _; rewrite Eo; reflexivity]. intros (v & c & Hv & Hc). exfalso. apply Hc. rewrite Eq in Hv. symmetry. apply nth_error_In, repeat_spec in Hv. now symmetry.
  - split; [reflexivity|]. intros F. exfalso. rewrite Forall_forall in F. apply Hx. symmetry. apply F. apply (nth_error_In _ _ Hv).
Qed.
Print Assumptions C104_no_labels.


Lemma found (P : report -> Prop) rf s q m ds : valid s -> sorts q ->
  match refused_run rf 11 s q m ds 6 1 true with Ok p => P p | _ => False end ->
  exists rf s q p, valid s /\ sorts q /\ refused_run rf 11 s q m ds 6 1 true = Ok p /\ P p.
Proof.
  intros V Q H. exists rf, s, q. destruct (refused_run rf 11 s q m ds 6 1 true) as [p| | |]; try contradiction.
  exists p. split; [exact V|]. split; [exact Q|]. split; [reflexivity|exact H].
Qed.

(** So HDBSCAN_SUCCESS does not mean that there are results, not even for six numbers in two
    groups. *)
Theorem C104_success_has_results_refuted :
  (exists rf s qsort p, valid s /\ sorts qsort /\ refused_run rf 11 s qsort 2 (DDouble six) 6 1 true = Ok p /\
     rp_code p = HDBSCAN_SUCCESS /\ rp_labels p = Some [2; 2; 2; 3; 3; 3] /\ rp_scores p = None) /\
  (exists rf s qsort p, valid s /\ sorts qsort /\ refused_run rf 11 s qsort 5 (DDouble six) 6 1 true = Ok p /\
     rp_code p = HDBSCAN_SUCCESS /\ rp_labels p = None).
Proof.
  split.
  - apply (found (fun p => rp_code p = HDBSCAN_SUCCESS /\ rp_labels p = Some [2; 2; 2; 3; 3; 3] /\ rp_scores p = None)
             (mk_refusals false false false false false false true) in_turn insertion_sort); [apply schedules_valid|apply insertion_sort_sorts|].
    vm_compute. split; [reflexivity|]. split; reflexivity.
  - apply (found (fun p => rp_code p = HDBSCAN_SUCCESS /\ rp_labels p = None)
             (mk_refusals false false false false false true false) in_turn insertion_sort); [apply schedules_valid|apply insertion_sort_sorts|].
    vm_compute. split; reflexivity.
Qed.
Print Assumptions C104_success_has_results_refuted.

(** hdbscsan_calculate_outlier_scores answers HDBSCAN_ERROR whether or not its memory is refused:
    its code says nothing. *)
Theorem C104_score_code_refuted : forall rf qsort cs noise last core n code l,
  refused_scores rf qsort cs noise last core n = Ok (code, l) -> code = HDBSCAN_ERROR.
Proof.
  intros rf q cs noise last core n code l E. unfold refused_scores in E. destruct (no_scores rf); [congruence|].
  destruct (outlier_scores q cs noise last core n); cbn [bind] in E; try discriminate. injection E as <- _. reflexivity.
Qed.
Print Assumptions C104_score_code_refuted.

(** The six points of PropRun.v meet the hypotheses; each kind of refusal. *)
Example six_refused :
  5 <= 6 /\ (Z.of_nat 6 <= 65536)%Z /\ holds (DDouble six) 6 1 /\ (2 <= 2 < M32)%Z /\ 2 * 6 - 1 <= 11 /\ valid in_turn /\ sorts insertion_sort.
Proof.
  split; [lia|]. split; [lia|]. split; [apply holds_double; reflexivity|]. split; [unfold M32; lia|]. split; [lia|]. split; [apply schedules_valid|apply insertion_sort_sorts].
Qed.
Definition codes (m : Z) (rf : refusals) : res (Z * bool * bool) :=
  let! p := refused_run rf 11 in_turn insertion_sort m (DDouble six) 6 1 true in
  Ok (rp_code p, match rp_labels p with Some _ => true | None => false end, match rp_scores p with Some _ => true | None => false end).
Example six_codes :
  map (codes 2) [mk_refusals false false false false false false false; mk_refusals true false false false false false false; mk_refusals false true false false false false false;
    mk_refusals false false true false false false false; mk_refusals false false false true false false false; mk_refusals false false false false true false false;
    mk_refusals false false false false false true false; mk_refusals false false false false false false true]
  = [Ok (0%Z, true, true); Ok (1%Z, false, false); UB; UB; UB; UB; UB; Ok (0%Z, true, false)] /\
  codes 5 (mk_refusals false false false false false true false) = Ok (0%Z, false, true).
Proof. vm_compute. split; reflexivity. Qed.
