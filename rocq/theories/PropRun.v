(** C19, C50-C53, C56: whole runs. *)
From Coq Require Import Permutation Sorted Reals Relations.
From Flocq Require Import IEEE754.BinarySingleNaN.
From Verif Require Import Base F64 F64Facts F64Arith ListFacts ModelUtils ModelDistance ModelMst ModelGraph ModelCluster ModelHier ModelSelect ModelRun SpecGraph SpecHier SpecTree
  PropUtils ProofDistance ProofCore PropDistance ProofMst PropMst PropGraph ProofHier ProofHierEnd PropHier ProofTreeSel PropSelect PropProminent PropOutlier ProofRun.
From Coq Require Import ZifyBool ZifyNat.
Local Open Scope nat_scope.

(** ** C51.  Arbitrary doubles, NaN and infinities included; any relation of minPoints to
    the number of rows; any schedule; any correct qsort. *)
Lemma run_parts ds rows cols m fuel : 5 <= rows -> (Z.of_nat rows <= 65536)%Z -> holds ds rows cols -> (2 <= m < M32)%Z -> 2 * rows - 1 <= fuel ->
  exists d (P : parts d rows (Z.to_nat m) fuel), distance_compute ds rows cols (m - 1) = Ok d /\ readable d rows /\ nonneg d rows /\
    forall s q, valid s -> sorts q -> exists labels os,
      fresh_run fuel s q m ds rows cols true =
        Ok (mk_hdb m rows true (Some d) (Some (p_cs _ _ _ _ P)) (Some (mk_results labels os (h_hier (p_h _ _ _ _ P)) (p_cs _ _ _ _ P)))) /\
      length labels = rows /\
      (forall v c, v < rows -> c <> 0 -> nth_error labels v = Some c <-> In c (c_desc (p_root _ _ _ _ P)) /\ member (p_h _ _ _ _ P) c v) /\
      outlier_scores q (p_cs _ _ _ _ P) (l_noise (h_l (p_h _ _ _ _ P))) (l_last (h_l (p_h _ _ _ _ P))) (d_core d) rows = Ok os.
Proof.
  intros Hr1 Hr HL Hm Hf. assert (HM : (M32 = 4294967296)%Z) by reflexivity.
  destruct (data_ready ds rows cols (m - 1) ltac:(lia) Hr HL ltac:(lia)) as (d & Ed & HR & HN & _).
  destruct (parts_exist d rows (Z.to_nat m) fuel ltac:(lia) ltac:(lia) HR HN ltac:(lia) Hf) as (P & _).
  exists d, P. split; [exact Ed|]. split; [exact HR|]. split; [exact HN|]. intros s q Hs Hq.
  destruct (do_run_parts d rows (Z.to_nat m) fuel P s q true None ltac:(lia) ltac:(lia) HN HR Hs Hq eq_refl) as (labels & os & E & H).
  exists labels, os. split; [|exact H]. unfold fresh_run, hdbscan_init. replace (1 <? m)%Z with true by lia. cbn [bind].
  unfold hdbscan_run. cbn [o_min o_self o_res dataset_size]. unfold u32. rewrite Z.mod_small by lia. rewrite Ed. cbn [bind].
  replace (cluster_capacity rows =? 0) with false; [rewrite Z2Nat.id in E by lia; exact E|].
  symmetry. apply Nat.eqb_neq. unfold cluster_capacity. assert (1 <= rows / 5) by (apply Nat.div_le_lower_bound; lia). destruct (rows / 5 <? 4); lia.
Qed.

Theorem C51_run_is_total : forall ds rows cols minPts fuel s qsort,
  5 <= rows -> (Z.of_nat rows <= 65536)%Z -> holds ds rows cols -> (2 <= minPts < M32)%Z -> 2 * rows - 1 <= fuel ->
  valid s -> sorts qsort ->
  exists o r, fresh_run fuel s qsort minPts ds rows cols true = Ok o /\ o_res o = Some r /\
    length (r_labels r) = rows /\ Permutation (map Z.of_nat (seq 0 rows)) (map os_id (r_outliers r)) /\ StronglySorted before (r_outliers r).
Proof.
  intros ds rows cols m fuel s q Hr1 Hr HL Hm Hf Hs Hq.
  destruct (run_parts ds rows cols m fuel Hr1 Hr HL Hm Hf) as (d & P & _ & HR & HN & H). destruct (H s q Hs Hq) as (labels & os & E & HLl & _ & Eo).
  eexists. eexists. split; [exact E|]. split; [reflexivity|]. cbn [r_labels r_outliers]. split; [exact HLl|].
  destruct P as [e0 adj e h K inf cs' trace root E1 E2 E3 HG Hcov Hso Hfin Eh HLK Hp Hroot]. cbn [p_cs p_h] in *.
  destruct (C40_outlier_scores rows e0 e adj (Z.to_nat m) false fuel h HG Hcov Hso Hfin ltac:(lia) ltac:(lia) Eh K _ K inf cs' trace HLK (Permutation_refl _) (le_n K) (Hp _ _ (Permutation_refl _) (le_n K)) (d_core d) q) as (os' & Eo' & H1 & H2 & _).
  { intros v Hv. destruct (proj2 HR v Hv) as (c & Hc). exists c. split; [exact Hc|]. apply (ge0_notnan c). apply (proj2 HN v c Hv Hc). } { exact Hq. }
  rewrite Eo in Eo'. injection Eo' as <-. auto.
Qed.
Print Assumptions C51_run_is_total.

(** ** C56.  All results are the same for every schedule, every correct qsort. *)
Theorem C56_results_do_not_depend_on_schedule : forall ds rows cols minPts fuel1 fuel2 s1 s2 qsort1 qsort2,
  5 <= rows -> (Z.of_nat rows <= 65536)%Z -> holds ds rows cols -> (2 <= minPts < M32)%Z -> 2 * rows - 1 <= fuel1 -> 2 * rows - 1 <= fuel2 ->
  valid s1 -> valid s2 -> sorts qsort1 -> sorts qsort2 ->
  fresh_run fuel1 s1 qsort1 minPts ds rows cols true = fresh_run fuel2 s2 qsort2 minPts ds rows cols true.
Proof.
  intros ds rows cols m f1 f2 s1 s2 q1 q2 Hr1 Hr HL Hm Hf1 Hf2 V1 V2 Q1 Q2.
  destruct (run_parts ds rows cols m f1 Hr1 Hr HL Hm Hf1) as (d & P & Ed & HR & HN & H1).
  destruct (run_parts ds rows cols m f2 Hr1 Hr HL Hm Hf2) as (d' & P' & Ed' & _ & _ & H2). rewrite Ed in Ed'. injection Ed' as <-.
  destruct (H1 s1 q1 V1 Q1) as (lab1 & os1 & -> & L1 & C1 & O1). destruct (H2 s2 q2 V2 Q2) as (lab2 & os2 & -> & L2 & C2 & O2). clear H1 H2.
  destruct P as [e0 adj e h K inf cs' trace root E1 E2 E3 HG Hcov Hso Hfin Eh HLK Hp Hroot].
  destruct P' as [e0' adj' e' h' K' inf' cs2 trace' root' E1' E2' E3' X1' X2' X3' X4' Eh' HLK' Hp' Hroot']. cbn [p_cs p_h p_root] in *. clear X1' X2' X3' X4'.
  rewrite E1 in E1'. injection E1' as <-. rewrite E2 in E2'. injection E2' as <-. rewrite E3 in E3'. injection E3' as <-.
  pose proof (compute_fuel _ _ _ _ _ _ _ _ _ Eh Eh') as <-. assert (K' = K) by lia. subst K'.
  pose proof (Hp _ _ (Permutation_refl _) (le_n K)) as R1. pose proof (Hp' _ _ (Permutation_refl _) (le_n K)) as R2. rewrite R1 in R2. injection R2 as <- <- <-.
  assert (root' = root) by (unfold cluster_in in *; congruence). subst root'.
  assert (Hl : lab1 = lab2).
  { apply nth_error_ext. intros i. destruct (Nat.lt_ge_cases i rows) as [Hi|Hi].
    - destruct (nth_error lab1 i) as [a|] eqn:Ea; [|apply nth_error_None in Ea; lia]. destruct (nth_error lab2 i) as [b|] eqn:Eb; [|apply nth_error_None in Eb; lia]. f_equal.
      destruct (Nat.eq_dec a 0) as [->|Ha]; [destruct (Nat.eq_dec b 0) as [->|Hb]; [reflexivity|]|].
      + apply (C2 i b Hi Hb) in Eb. apply (C1 i b Hi Hb) in Eb. congruence.
      + apply (C1 i a Hi Ha) in Ea. apply (C2 i a Hi Ha) in Ea. congruence.
    - rewrite !(proj2 (nth_error_None _ _)) by lia. reflexivity. }
  assert (Hc : forall v, v < rows -> exists c, nth_error (d_core d) v = Some (Some c) /\ fisnan c = false).
  { intros v Hv. destruct (proj2 HR v Hv) as (c & Hc). exists c. split; [exact Hc|]. apply (ge0_notnan c). apply (proj2 HN v c Hv Hc). }
  pose proof (C40_outlier_scores rows e0 e adj (Z.to_nat m) false f1 h HG Hcov Hso Hfin ltac:(lia) ltac:(lia) Eh K _ K inf cs' trace HLK (Permutation_refl _) (le_n K) R1 (d_core d)) as HO.
  destruct (HO q1 Hc Q1) as (l1 & X1 & P1 & S1 & D1). destruct (HO q2 Hc Q2) as (l2 & X2 & P2 & S2 & D2). clear HO.
  rewrite O1 in X1. injection X1 as <-. rewrite O2 in X2. injection X2 as <-.
  assert (Hid : forall a b, In a os1 -> In b os2 -> os_id a = os_id b -> a = b).
  { intros a b Ha Hb Eab. destruct (D1 a Ha) as (v & k & c & w & _ & I1 & I2 & I3 & I4 & I5 & I6 & _). destruct (D2 b Hb) as (v' & k' & c' & w' & _ & J1 & J2 & J3 & J4 & J5 & J6 & _).
    assert (v' = v) by lia. subst v'. unfold last_cluster, noise_level, cluster_in in *. rewrite I3 in J3. injection J3 as <-. rewrite I4 in J4. injection J4 as <-. rewrite I5 in J5. injection J5 as <-.
    rewrite I2 in J2. injection J2 as J2. destruct a as [a1 a2 a3], b as [b1 b2 b3]. cbn [os_id os_core os_score] in *. congruence. }
  assert (ND : forall l, Permutation (map Z.of_nat (seq 0 rows)) (map os_id l) -> NoDup l).
  { intros l HP. apply (NoDup_map_inv os_id). apply (Permutation_NoDup HP). apply FinFun.Injective_map_NoDup; [intros a b; apply Nat2Z.inj|apply seq_NoDup]. }
  assert (Ho : os1 = os2).
  { apply (sorted_unique before before_asym); [exact S1|exact S2|]. apply NoDup_Permutation; [apply ND, P1|apply ND, P2|].
    pose proof (perm_trans (Permutation_sym P1) P2) as PP. intros x. split; intros Hx.
    - assert (Hin : In (os_id x) (map os_id os2)) by (apply (Permutation_in _ PP), in_map, Hx). apply in_map_iff in Hin. destruct Hin as (y & Ey & Hy). rewrite (Hid x y Hx Hy (eq_sym Ey)). exact Hy.
    - assert (Hin : In (os_id x) (map os_id os1)) by (apply (Permutation_in _ (Permutation_sym PP)), in_map, Hx). apply in_map_iff in Hin. destruct Hin as (y & Ey & Hy). rewrite <- (Hid y x Hy Hx Ey). exact Hy. }
  subst. reflexivity.
Qed.
Print Assumptions C56_results_do_not_depend_on_schedule.

(** ** C50 *)
Theorem C50_small_data_aborts : forall ds rows cols minPts fuel s qsort,
  rows < 5 -> holds ds rows cols -> (2 <= minPts < M32)%Z ->
  fresh_run fuel s qsort minPts ds rows cols true = Abort.
Proof.
  intros ds rows cols m fuel s q Hr HL Hm. assert (HM : (M32 = 4294967296)%Z) by reflexivity.
  unfold fresh_run, hdbscan_init. replace (1 <? m)%Z with true by lia. cbn [bind]. unfold hdbscan_run. cbn [o_min dataset_size].
  assert (E : exists d, distance_compute ds rows cols (u32 (m - 1)) = Ok d).
  { destruct (Nat.eq_dec rows 0) as [->|Hne]; [eexists; reflexivity|].
    destruct (C15_distance_get_euclidean ds rows cols (u32 (m - 1)) ltac:(lia) ltac:(lia) HL) as (d & Ed & _); [|exists d; exact Ed]. unfold u32. rewrite Z.mod_small by lia. lia. }
  destruct E as (d & ->). cbn [bind]. unfold cluster_capacity. rewrite (Nat.div_small rows 5) by lia. reflexivity.
Qed.
Print Assumptions C50_small_data_aborts.

(** ** C52.  The core distances hold [rows] values, the run reads index rows*cols - 1. *)
Theorem C52_column_data_refuted : forall ds rows cols minPts fuel s qsort,
  1 <= rows -> (Z.of_nat rows <= 65536)%Z -> 2 <= cols -> 5 <= rows * cols -> (Z.of_nat rows * Z.of_nat cols < M32)%Z -> holds ds rows cols ->
  (2 <= minPts < M32)%Z -> fresh_run fuel s qsort minPts ds rows cols false = UB.
Proof.
  intros ds rows cols m fuel s q Hr1 Hr Hc H5 H32 HL Hm. assert (HM : (M32 = 4294967296)%Z) by reflexivity.
  assert (Hn : dataset_size rows cols false = rows * cols) by (unfold dataset_size, u32; rewrite Z.mod_small by lia; lia).
  unfold fresh_run, hdbscan_init. replace (1 <? m)%Z with true by lia. cbn [bind]. unfold hdbscan_run. cbn [o_min o_self o_res]. rewrite Hn.
  destruct (C15_distance_get_euclidean ds rows cols (u32 (m - 1)) Hr1 Hr HL) as (d & Ed & (HLc & _) & Hrows & _); [unfold u32; rewrite Z.mod_small by lia; lia|].
  rewrite Ed. cbn [bind]. rewrite Hrows, Nat2Z.id in HLc.
  assert (Hcap : cluster_capacity (rows * cols) =? 0 = false).
  { apply Nat.eqb_neq. unfold cluster_capacity. assert (1 <= rows * cols / 5) by (apply Nat.div_le_lower_bound; lia). destruct (rows * cols / 5 <? 4); lia. }
  rewrite Hcap. unfold do_run. cbn [o_dist o_clusters o_n o_self].
  assert (Hlt : rows <= rows * cols - 1) by nia.
  set (n := rows * cols) in *. clearbody n.
  assert (E : construct_mst d n true = UB); [|rewrite E; reflexivity].
  unfold construct_mst, mst_edges. replace (n =? 0) with false by lia. replace (n - 1 + n =? 0) with false by lia.
  destruct n as [|[|n]]; [lia|lia|]. cbn [Nat.sub]. cbn [for_up]. unfold prim_round at 1. cbn [p_att p_cur p_dist p_nbr for_up].
  unfold scan_step at 1. change (S n =? 0) with false. cbv iota. cbn [repeat app aget nth_error bind].
  assert (G : dget d 0 (S n) = UB \/ exists x, dget d 0 (S n) = Ok x).
  { unfold dget, distance_get. destruct (_ <? _)%Z; [|destruct (_ =? _)%Z; [right; eauto|]]; unfold zget; destruct (_ <? _)%Z; auto; destruct (nth_error _ _) as [[x|]|]; eauto. }
  assert (C : dcore d (S n) = UB).
  { unfold dcore, zget. destruct (_ <? _)%Z; [reflexivity|]. rewrite Nat2Z.id, (proj2 (nth_error_None _ _)) by lia. reflexivity. }
  destruct G as [G|[x G]]; rewrite G; [reflexivity|]. cbn [bind]. rewrite C. reflexivity.
Qed.
Print Assumptions C52_column_data_refuted.

(** ** C53.  For every dataset type, and every history of calls that returned: hdbscan_rerun
    leaves the object in the state in which a new object with this minPoints is left by
    hdbscan_run on the same data (and behaves like it if it does not return). *)
Lemma cores_overwritten (f : nat -> res f64) L : forall m k c1 c2, k + m = L -> length c1 = L -> length c2 = L -> (forall i, i < k -> nth_error c1 i = nth_error c2 i) ->
  for_up k m (fun i core => let! c := f i in zset core (Z.of_nat i) c) c1 = for_up k m (fun i core => let! c := f i in zset core (Z.of_nat i) c) c2.
Proof.
  induction m as [|m IH]; intros k c1 c2 HL L1 L2 H; cbn [for_up].
  - f_equal. apply nth_error_ext. intros i. destruct (Nat.lt_ge_cases i k) as [Hi|Hi]; [apply H; exact Hi|]. rewrite !(proj2 (nth_error_None _ _)) by lia. reflexivity.
  - destruct (f k) as [c| | |]; cbn [bind]; try reflexivity. unfold zset. replace ((0 <=? Z.of_nat k)%Z && (Z.of_nat k <? Z.of_nat (length c1))%Z) with true by lia.
    replace ((0 <=? Z.of_nat k)%Z && (Z.of_nat k <? Z.of_nat (length c2))%Z) with true by lia. cbn [bind]. rewrite Nat2Z.id.
    apply IH; [lia|rewrite upd_length; exact L1|rewrite upd_length; exact L2|]. intros i Hi. rewrite !nth_error_upd by lia. destruct (Nat.eq_dec i k) as [->|Hne].
    + replace (k <? length c1) with true by lia. replace (k <? length c2) with true by lia. rewrite Nat.eqb_refl. reflexivity.
    + replace (k =? i) with false by lia. replace (i =? k) with false by lia. cbn [andb]. apply H. lia.
Qed.

Lemma core_len d d' : distance_get_core_distances d = Ok d' -> d_rows d' = d_rows d /\ d_cols d' = d_cols d /\ d_dist d' = d_dist d /\ length (d_core d') = length (d_core d).
Proof.
  unfold distance_get_core_distances. intros H. apply bind_ok in H. destruct H as (core & H & E). injection E as <-. cbn. repeat (split; [reflexivity|]).
  revert H. generalize (d_core d) as c. generalize (Z.to_nat (d_rows d)) as m. generalize 0 as k. intros k m. revert k. induction m as [|m IH]; intros k c H; cbn [for_up] in H; [congruence|].
  apply bind_ok in H. destruct H as (c1 & H1 & H). apply bind_ok in H1. destruct H1 as (x & _ & H1). unfold zset in H1. destruct (_ && _); [|discriminate]. injection H1 as <-.
  rewrite (IH _ _ H). apply upd_length.
Qed.

(** What a run leaves behind. *)
Definition ran (ds : dataset) (rows cols : nat) (rowwise : bool) (o : hdb) : Prop :=
  exists d m cs, o_dist o = Some d /\ o_clusters o = Some cs /\ o_n o = dataset_size rows cols rowwise /\
    fill_matrix ds rows cols (repeat None (Z.to_nat (alloc_size (Z.of_nat rows)))) = Ok m /\
    d_rows d = Z.of_nat rows /\ d_cols d = Z.of_nat cols /\ d_dist d = m /\ length (d_core d) = rows /\ cluster_capacity (o_n o) <> 0.

Lemma do_run_keeps fuel s q o o' : do_run fuel s q o = Ok o' -> o_dist o' = o_dist o /\ o_n o' = o_n o /\ exists cs, o_clusters o' = Some cs.
Proof.
  unfold do_run. destruct (o_dist o) as [d|]; [|discriminate]. destruct (o_clusters o) as [cs0|]; [|discriminate]. intros H.
  do 5 (apply bind_ok in H; destruct H as (? & _ & H)). destruct x3 as [[inf cs] tr]. do 3 (apply bind_ok in H; destruct H as (? & _ & H)).
  injection H as <-. cbn. eauto.
Qed.

Lemma run_ran fuel s q m ds rows cols rowwise o : fresh_run fuel s q m ds rows cols rowwise = Ok o -> ran ds rows cols rowwise o.
Proof.
  unfold fresh_run. intros H. apply bind_ok in H. destruct H as (o0 & H0 & H). unfold hdbscan_run in H. apply bind_ok in H. destruct H as (d & Hd & H).
  destruct (cluster_capacity (dataset_size rows cols rowwise) =? 0) eqn:Ec; [discriminate|]. apply Nat.eqb_neq in Ec.
  destruct (do_run_keeps _ _ _ _ _ H) as (K1 & K2 & cs & K3). cbn [o_dist o_n] in *.
  unfold distance_compute in Hd. apply bind_ok in Hd. destruct Hd as (mat & Hm & Hd). destruct (core_len _ _ Hd) as (D1 & D2 & D3 & D4). cbn [d_rows d_cols d_dist d_core] in *. rewrite repeat_length in D4.
  exists d, mat, cs. rewrite K2. auto 10.
Qed.

Lemma rerun_fresh fuel s q m ds rows cols rowwise o : ran ds rows cols rowwise o -> (2 <= m < M32)%Z ->
  hdbscan_rerun fuel s q m o = fresh_run fuel s q m ds rows cols rowwise.
Proof.
  intros (d & mat & cs & Ed & Ec & En & Hf & D1 & D2 & D3 & D4 & Hcap) Hm.
  unfold fresh_run, hdbscan_init. replace (1 <? m)%Z with true by lia. cbn [bind]. unfold hdbscan_run, hdbscan_rerun. rewrite Ed, Ec. cbn [o_min o_self o_res].
  unfold distance_compute. rewrite Hf. cbn [bind]. rewrite En in Hcap |- *. apply Nat.eqb_neq in Hcap. rewrite Hcap.
  rewrite D1, D2, D3. unfold distance_get_core_distances. cbn [d_rows d_cols d_k d_dist d_core]. rewrite Nat2Z.id.
  rewrite (cores_overwritten (core_of (mk_distance (Z.of_nat rows) (Z.of_nat cols) (u32 (m - 1)) mat (repeat None rows))) rows rows 0 (repeat None rows) (d_core d) eq_refl (repeat_length _ _) D4) by lia.
  reflexivity.
Qed.

Lemma rerun_ran fuel s q m ds rows cols rowwise o o' : ran ds rows cols rowwise o -> hdbscan_rerun fuel s q m o = Ok o' -> ran ds rows cols rowwise o'.
Proof.
  intros (d & mat & cs & Ed & Ec & En & Hf & D1 & D2 & D3 & D4 & Hcap) H. unfold hdbscan_rerun in H. rewrite Ed, Ec in H. apply bind_ok in H. destruct H as (d' & Hd & H).
  destruct (do_run_keeps _ _ _ _ _ H) as (K1 & K2 & cs' & K3). cbn [o_dist o_n] in *. destruct (core_len _ _ Hd) as (X1 & X2 & X3 & X4). cbn [d_rows d_cols d_dist d_core] in *.
  exists d', mat, cs'. rewrite K2, X1, X2, X3, X4. auto 10.
Qed.

Theorem C53_rerun_equals_fresh_run : forall ds rows cols rowwise fuel qsort m0 s0 o0 history o,
  fresh_run fuel s0 qsort m0 ds rows cols rowwise = Ok o0 -> reruns fuel qsort history o0 = Ok o ->
  forall m s, (2 <= m < M32)%Z -> hdbscan_rerun fuel s qsort m o = fresh_run fuel s qsort m ds rows cols rowwise.
Proof.
  intros ds rows cols rowwise fuel q m0 s0 o0 hist o H0 H m s Hm. apply run_ran in H0. apply rerun_fresh; [|exact Hm]. clear m s Hm. revert o0 H0 H.
  induction hist as [|[m s] hist IH]; intros o0 H0 H; cbn [reruns] in H; [injection H as <-; exact H0|].
  apply bind_ok in H. destruct H as (o1 & H1 & H). apply (IH o1); [|exact H]. apply (rerun_ran _ _ _ _ _ _ _ _ _ _ H0 H1).
Qed.
Print Assumptions C53_rerun_equals_fresh_run.

(** ** C19 *)
Theorem C19_init_rejects : forall m, hdbscan_init m = Abort <-> (m <= 1)%Z.
Proof. intros m. unfold hdbscan_init. destruct (Z.ltb_spec 1 m); split; intros H'; try discriminate; try reflexivity; lia. Qed.
Print Assumptions C19_init_rejects.

Theorem C19_rerun_zero_refuted : forall ds rows cols rowwise fuel qsort m0 s0 o0 history o s,
  1 <= rows -> fresh_run fuel s0 qsort m0 ds rows cols rowwise = Ok o0 -> reruns fuel qsort history o0 = Ok o ->
  hdbscan_rerun fuel s qsort 0 o = UB.
Proof.
  intros ds rows cols rowwise fuel q m0 s0 o0 hist o s Hr H0 H. apply run_ran in H0.
  assert (R : ran ds rows cols rowwise o).
  { revert o0 H0 H. induction hist as [|[m1 s1] hist IH]; intros o0 H0 H; cbn [reruns] in H; [injection H as <-; exact H0|].
    apply bind_ok in H. destruct H as (o1 & H1 & H). apply (IH o1); [|exact H]. apply (rerun_ran _ _ _ _ _ _ _ _ _ _ H0 H1). }
  destruct R as (d & mat & cs & Ed & Ec & _ & _ & D1 & _). unfold hdbscan_rerun. rewrite Ed, Ec.
  unfold distance_get_core_distances. cbn [d_rows]. rewrite D1, Nat2Z.id. destruct rows as [|rows]; [lia|]. reflexivity.
Qed.
Print Assumptions C19_rerun_zero_refuted.

(** ** Instances: the hypotheses of C38, C40, C41, C50-C53, C56 can be met. *)
Definition in_turn : schedule := mk_schedule (seq 0) (seq 0) (fun k n => list_prod (seq 0 k) (seq 0 n)).
Definition backwards : schedule := mk_schedule (fun k => rev (seq 0 k)) (fun k => rev (seq 0 k)) (fun k n => rev (list_prod (seq 0 k) (seq 0 n))).
Example schedules_valid : valid in_turn /\ valid backwards.
Proof. split; (split; [|split]); intros; cbn; first [apply Permutation_refl|apply Permutation_rev]. Qed.

Fixpoint insert (a : outlier) (l : list outlier) : list outlier :=
  match l with
  | [] => [a]
  | b :: l' => if (outlier_score_compare a b <=? 0)%Z then a :: l else b :: insert a l'
  end.
Definition insertion_sort (l : list outlier) : list outlier := fold_right insert [] l.

Lemma lex3_trans a b c : lex3 a b -> lex3 b c -> lex3 a c.
Proof. destruct a as [[a1 a2] a3], b as [[b1 b2] b3], c as [[c1 c2] c3]. unfold lex3. lia. Qed.
Lemma compare_trans a b c : outlier_ok a -> outlier_ok b -> outlier_ok c -> (outlier_score_compare a b <= 0)%Z -> (outlier_score_compare b c <= 0)%Z -> (outlier_score_compare a c <= 0)%Z.
Proof.
  intros Ha Hb Hc H1 H2. destruct (C13_outlier_compare a b Ha Hb) as (A1 & A2 & _), (C13_outlier_compare b c Hb Hc) as (B1 & B2 & _), (C13_outlier_compare a c Ha Hc) as (C1 & C2 & _).
  assert (X : lex3 (outlier_rank a) (outlier_rank b) \/ outlier_rank a = outlier_rank b).
  { destruct (Z.eq_dec (outlier_score_compare a b) 0); [right; apply A2; assumption|left; apply A1; lia]. }
  assert (Y : lex3 (outlier_rank b) (outlier_rank c) \/ outlier_rank b = outlier_rank c).
  { destruct (Z.eq_dec (outlier_score_compare b c) 0); [right; apply B2; assumption|left; apply B1; lia]. }
  assert (Q : lex3 (outlier_rank a) (outlier_rank c) \/ outlier_rank a = outlier_rank c).
  { destruct X as [X|X], Y as [Y|Y]; [left; apply (lex3_trans _ _ _ X Y)|left; rewrite <- Y; exact X|left; rewrite X; exact Y|right; congruence]. }
  destruct Q as [Q|Q]; [apply C1 in Q|apply C2 in Q]; lia.
Qed.
Lemma compare_total a b : outlier_ok a -> outlier_ok b -> (0 < outlier_score_compare a b)%Z -> (outlier_score_compare b a <= 0)%Z.
Proof.
  intros Ha Hb H. destruct (C13_outlier_compare a b Ha Hb) as (_ & _ & A), (C13_outlier_compare b a Hb Ha) as (B & _). apply Z.lt_le_incl, B, A. lia.
Qed.
Example insertion_sort_sorts : sorts insertion_sort.
Proof.
  assert (HP : forall a l, Permutation (a :: l) (insert a l)).
  { intros a l. induction l as [|b l IH]; cbn [insert]; [apply Permutation_refl|]. destruct (_ <=? 0)%Z; [apply Permutation_refl|].
    apply (perm_trans (perm_swap b a l)). apply perm_skip. exact IH. }
  assert (HPs : forall l, Permutation l (insertion_sort l)) by (induction l as [|a l IH]; cbn; [constructor|]; apply (perm_trans (perm_skip a IH)); apply HP).
  intros l HF. split; [apply HPs|]. induction l as [|a l IH]; cbn [insertion_sort fold_right]; [constructor|]. inversion_clear HF as [|? ? Ha HF']. specialize (IH HF').
  assert (Hok : Forall outlier_ok (insertion_sort l)).
  { rewrite Forall_forall in *. intros x Hx. apply HF'. apply (Permutation_in _ (Permutation_sym (HPs l)) Hx). }
  change (fold_right insert [] l) with (insertion_sort l). revert IH Hok. generalize (insertion_sort l) as t. clear HF' l.
  induction t as [|b t IHt]; intros HS Hok; cbn [insert]; [repeat constructor|]. inversion_clear HS as [|? ? HS' Hb]. inversion_clear Hok as [|? ? Hob Hot].
  destruct (Z.leb_spec (outlier_score_compare a b) 0) as [Hle|Hgt].
  - constructor; [constructor; assumption|]. constructor; [exact Hle|]. rewrite Forall_forall in *. intros x Hx. apply (compare_trans a b x); auto.
  - constructor; [apply IHt; assumption|]. rewrite Forall_forall in *. intros x Hx. apply (Permutation_in _ (Permutation_sym (HP a t))) in Hx. destruct Hx as [<-|Hx]; [apply compare_total; assumption|apply Hb; exact Hx].
Qed.

(** Six points on a line in two groups: labels, the ids by outlier score, selected clusters. *)
Definition summary (r : res hdb) : res (list nat * list Z * list nat) :=
  let! o := r in
  match o_res o with
  | Some r => let! root := cget (r_clusters r) 1 in Ok (r_labels r, map os_id (r_outliers r), c_desc root)
  | None => UB
  end.
Example six_run : summary (fresh_run 11 in_turn insertion_sort 2 (DDouble six) 6 1 true) = Ok ([2; 2; 2; 3; 3; 3], [0; 1; 3; 4; 5; 2]%Z, [3; 2]).
Proof. vm_compute. reflexivity. Qed.
(** The same points as 16 bit integers, and the hypotheses of C51 for integer and float data. *)
Example six_shorts : let ds := DShort [0; 1; 3; 10; 12; 15]%Z in
  holds ds 6 1 /\ summary (fresh_run 11 in_turn insertion_sort 2 ds 6 1 true) = Ok ([2; 2; 2; 3; 3; 3], [0; 1; 3; 4; 5; 2]%Z, [3; 2]).
Proof.
  cbv zeta. split; [|vm_compute; reflexivity]. split; [reflexivity|]. intros l E. injection E as <-.
  intros i j c Hij Hc. assert (c = 0) as -> by lia. rewrite !Nat.mul_1_r, !Nat.add_0_r. cbn [diff_fits].
  assert (B : forall a, (0 <= nth a [0; 1; 3; 10; 12; 15]%Z 0 <= 15)%Z) by (intros a; do 7 (destruct a as [|a]; [cbn; lia|]); cbn; destruct a; lia).
  pose proof (B i). pose proof (B j). lia.
Qed.
Example five_floats : let ds := DFloat [B754_zero false; B754_infinity false; B754_nan; B754_zero true; B754_zero false] in
  holds ds 5 1 /\ match fresh_run 9 in_turn insertion_sort 2 ds 5 1 true with Ok _ => True | _ => False end.
Proof. cbv zeta. split; [apply holds_float; reflexivity|vm_compute; exact I]. Qed.
(** After a rerun with another minPoints and back, with another schedule. *)
Example six_rerun : summary (let! o := fresh_run 11 in_turn insertion_sort 3 (DDouble six) 6 1 true in reruns 11 insertion_sort [(5%Z, in_turn); (2%Z, backwards)] o)
  = Ok ([2; 2; 2; 3; 3; 3], [0; 1; 3; 4; 5; 2]%Z, [3; 2]).
Proof. vm_compute. reflexivity. Qed.
(** One cluster only: all points are noise and all scores are below -1. *)
Example one_cluster : match fresh_run 11 in_turn insertion_sort 5 (DDouble six) 6 1 true with
  | Ok o => match o_res o with Some r => length (r_clusters r) = 2 /\ r_labels r = repeat 0 6 /\ forallb (fun o => fle (os_score o) minus_one) (r_outliers r) = true | None => False end
  | _ => False end.
Proof. vm_compute. repeat split. Qed.
(** NaN and infinities in the data. *)
Example wild_run : match fresh_run 11 in_turn insertion_sort 2 (DDouble [fnan; finf; fzero; fone; finf; D_MAX]) 6 1 true with Ok o => True | _ => False end.
Proof. vm_compute. exact I. Qed.
Example four_run : fresh_run 11 in_turn insertion_sort 2 (DDouble (firstn 4 six)) 4 1 true = Abort.
Proof. vm_compute. reflexivity. Qed.
Example columns_run : fresh_run 11 in_turn insertion_sort 2 (DDouble six) 3 2 false = UB.
Proof. vm_compute. reflexivity. Qed.
(** The distances of the six points are finite: hypotheses of C38, C40 and C41. *)
Example six_scored : exists d e0 adj e, distance_compute (DDouble six) 6 1 1 = Ok d /\ construct_mst d 6 true = Ok e0 /\ graph_init 6 e0 = Ok adj /\ graph_quicksort_by_edge_weight e0 = Ok e /\
  graph_input 6 e0 e adj /\ covers 6 e /\ connects 6 e /\ weights_sorted e /\ finite_weights e /\
  (forall v, v < 6 -> exists c, nth_error (d_core d) v = Some (Some c) /\ fisnan c = false).
Proof.
  destruct six_hypotheses as (d & e0 & adj & e & Ed & HR & HB & E1 & E2 & E3 & HG & Hcov & Hcon & _ & Hs).
  destruct (data_ready (DDouble six) 6 1 1 ltac:(lia) ltac:(lia) (holds_double six 6 1 eq_refl) ltac:(unfold M32; lia)) as (d' & Ed' & HR' & HN & _). unfold six_distance in Ed. rewrite Ed in Ed'. injection Ed' as <-.
  destruct (any_input d 6 ltac:(lia) eq_refl HR HN) as (e0' & adj' & e' & F1 & F2 & F3 & _ & _ & _ & _ & Hfin & _).
  rewrite E1 in F1. injection F1 as <-. rewrite E3 in F3. injection F3 as <-.
  exists d, e0, adj, e. repeat (split; [assumption|]). intros v Hv. destruct (proj2 HR v Hv) as (c & Hc). exists c. split; [exact Hc|]. apply (ge0_notnan c). apply (proj2 HN v c Hv Hc).
Qed.
