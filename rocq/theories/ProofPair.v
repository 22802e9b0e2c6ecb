(** Two whole runs on related data (C74, C75). *)
From Coq Require Import Permutation Sorted Relations.
From Flocq Require Import IEEE754.BinarySingleNaN.
From Verif Require Import Base F64 F64Facts F64Arith ListFacts ModelUtils ModelDistance ModelMst ModelGraph ModelCluster ModelHier ModelSelect ModelRun SpecGraph SpecHier SpecTree SpecMain
  PropUtils ProofDistance ProofCore PropDistance ProofMst PropMst PropGraph ProofHier ProofHierEnd PropHier ProofSelect ProofTreeSel PropSelect PropProminent PropOutlier ProofRun PropRun PropCondensed ProofSim.
From Coq Require Import ZifyBool ZifyNat.
Local Open Scope nat_scope.

Lemma weights_below d n e : 1 <= n -> readable d n -> below_max d n -> construct_mst d n true = Ok e -> Forall (fun w => flt w D_MAX = true) (e_w e).
Proof.
  intros Hn HR HB Ee. unfold construct_mst in Ee.
  destruct (mst_edges_ok (dget d) (dcore d) (gval d) (cval d) n Hn) as (e' & A & E & Ha & Hb & Hw & Hbi & Hself & HAl & HAin & D & N & Hch & HDN).
  { intros. eapply dget_val; eauto. }
  { intros. eapply dcore_val; eauto. }
  rewrite Ee in E. injection E as <-.
  assert (HWmax : forall u v, u < n -> v < n -> u <> v -> flt (ProofMst.W (gval d) (cval d) u v) D_MAX = true).
  { intros u v Hu Hv Hne. destruct HB as [HB1 HB2].
    pose proof (dget_val d n v u HR Hv Hu) as Eg. pose proof (dcore_val d n u HR Hu) as Eu. pose proof (dcore_val d n v HR Hv) as Ev.
    apply dcore_nth in Eu, Ev. unfold ProofMst.W, mutual_reach.
    destruct (fgt (cval d u) _); destruct (fgt (cval d v) _); eauto. }
  apply Forall_forall. intros w Hin. apply In_nth_error in Hin. destruct Hin as [i Hi].
  assert (Hlt : i < n - 1 + n) by (rewrite <- Hw; apply nth_error_Some; congruence). apply (nth_error_nth _ _ D_MAX) in Hi. subst w.
  destruct (lt_dec i (n - 1)) as [H1|H1].
  - destruct (HDN i H1) as [<- _].
    assert (Hin2 : exists B, chain (gval d) (cval d) n D N (i :: B) /\ B <> []).
    { clear - Hch HAin H1 Hn. assert (Hin : In i A) by (apply HAin; lia). clear HAin. revert Hin Hch.
      induction A as [|a A IH]; [intros []|]. intros [->|Hin] Hch.
      - exists A. split; auto. destruct Hch as [[-> ->]|(Hc & _)]; [lia|]. intros ->. contradiction.
      - destruct Hch as [[-> _]|(Hc & _)]; [contradiction|]. auto. }
    destruct Hin2 as (B & HchB & HB0).
    destruct (attach_edge (gval d) (cval d) n n Hn ltac:(lia) D N HWmax B i HchB HB0) as (HinB & HDB & _ & HniB & _).
    assert (HNB : N i < n).
    { destruct HchB as [[-> _]|(HcB & _)]; [contradiction|].
      pose proof (chain_lt (gval d) (cval d) n n Hn ltac:(lia) D N B HcB) as HF2. rewrite Forall_forall in HF2. auto. }
    rewrite HDB. apply HWmax; auto; [lia|]. intros Heq. apply HniB. rewrite <- Heq at 1. exact HinB.
  - assert (Hv : i - (n - 1) < n) by lia. pose proof (Hself _ Hv) as Hs. replace (n - 1 + (i - (n - 1))) with i in Hs by lia. unfold edge_at in Hs. injection Hs as _ _ Hs.
    assert (Hc : flt (cval d (i - (n - 1))) D_MAX = true).
    { destruct HB as [_ HB2]. pose proof (dcore_val d n _ HR Hv) as Ev. apply dcore_nth in Ev. eapply HB2; eauto. }
    rewrite <- Hs in Hc. erewrite nth_indep in Hc; [exact Hc|lia].
Qed.

(** Related levels that are real distances. *)
Definition Lev (W : f64 -> f64 -> Prop) (x x' : f64) : Prop := W x x' /\ flt x D_MAX = true /\ flt x' D_MAX = true.
Lemma lev_cmp (W : f64 -> f64 -> Prop) : same_cmp W -> same_cmp (Lev W).
Proof. intros H x x' y y' [A _] [B _]. apply H; assumption. Qed.
Lemma lev_zero (W : f64 -> f64 -> Prop) : W fzero fzero -> Lev W fzero fzero.
Proof. intros H. split; [exact H|]. split; reflexivity. Qed.
Lemma F2_lev (W : f64 -> f64 -> Prop) l l' : Forall2 W l l' -> Forall (fun w => flt w D_MAX = true) l -> Forall (fun w => flt w D_MAX = true) l' -> Forall2 (Lev W) l l'.
Proof. induction 1 as [|x y l l' Hxy H IH]; intros A B; [constructor|]. inversion A; inversion B; subst. constructor; [split; auto|auto]. Qed.
Lemma paired_runs (W : f64 -> f64 -> Prop) ds ds' rows cols cols' m fuel :
  same_cmp W -> W D_MAX D_MAX -> W fzero fzero ->
  5 <= rows -> (Z.of_nat rows <= 65536)%Z -> holds ds rows cols -> holds ds' rows cols' -> 2 <= m <= rows ->
  (forall i j, i < j -> j < rows -> flt (euclidean ds cols i j) D_MAX = true) -> (forall i j, i < j -> j < rows -> flt (euclidean ds' cols' i j) D_MAX = true) ->
  (forall i j, i < j -> j < rows -> W (euclidean ds cols i j) (euclidean ds' cols' i j)) -> 2 * rows - 1 <= fuel ->
  exists d d' (P : parts d rows m fuel) (P' : parts d' rows m fuel),
    distance_compute ds rows cols (Z.of_nat m - 1) = Ok d /\ distance_compute ds' rows cols' (Z.of_nat m - 1) = Ok d' /\ Rd W d d' /\
    below_max d rows /\ below_max d' rows /\ readable d rows /\ readable d' rows /\
    (forall S : f64 -> f64 -> Prop, S fzero fzero -> (forall s s' k w w' b b', k <= rows -> S s s' -> Lev W w w' -> birth_rel (Lev W) b b' -> S (fadd s (stability_gain k w b)) (fadd s' (stability_gain k w' b'))) ->
       Rh (Lev W) S rows (p_h _ _ _ _ P) (p_h _ _ _ _ P')) /\
    (forall s q, valid s -> sorts q -> exists labels os,
      fresh_run fuel s q (Z.of_nat m) ds rows cols true = Ok (mk_hdb (Z.of_nat m) rows true (Some d) (Some (p_cs _ _ _ _ P)) (Some (mk_results labels os (h_hier (p_h _ _ _ _ P)) (p_cs _ _ _ _ P)))) /\
      length labels = rows /\
      (forall v c, v < rows -> c <> 0 -> nth_error labels v = Some c <-> In c (c_desc (p_root _ _ _ _ P)) /\ member (p_h _ _ _ _ P) c v) /\
      outlier_scores q (p_cs _ _ _ _ P) (l_noise (h_l (p_h _ _ _ _ P))) (l_last (h_l (p_h _ _ _ _ P))) (d_core d) rows = Ok os) /\
    (forall s q, valid s -> sorts q -> exists labels os,
      fresh_run fuel s q (Z.of_nat m) ds' rows cols' true = Ok (mk_hdb (Z.of_nat m) rows true (Some d') (Some (p_cs _ _ _ _ P')) (Some (mk_results labels os (h_hier (p_h _ _ _ _ P')) (p_cs _ _ _ _ P')))) /\
      length labels = rows /\
      (forall v c, v < rows -> c <> 0 -> nth_error labels v = Some c <-> In c (c_desc (p_root _ _ _ _ P')) /\ member (p_h _ _ _ _ P') c v) /\
      outlier_scores q (p_cs _ _ _ _ P') (l_noise (h_l (p_h _ _ _ _ P'))) (l_last (h_l (p_h _ _ _ _ P'))) (d_core d') rows = Ok os).
Proof.
  intros HW Wm Wz Hr1 Hr HL HL' Hm Hfin Hfin' HWd Hf.
  destruct (data_below ds rows cols m Hm Hr HL Hfin) as (d & Ed & HR & HB & _). destruct (data_below ds' rows cols' m Hm Hr HL' Hfin') as (d' & Ed' & HR' & HB' & _).
  pose proof (run_parts ds rows cols (Z.of_nat m) fuel Hr1 Hr HL ltac:(unfold M32; lia) Hf) as X. rewrite Nat2Z.id in X. destruct X as (d1 & P & E1 & _ & _ & HP). rewrite Ed in E1. injection E1 as <-.
  pose proof (run_parts ds' rows cols' (Z.of_nat m) fuel Hr1 Hr HL' ltac:(unfold M32; lia) Hf) as X. rewrite Nat2Z.id in X. destruct X as (d1 & P' & E1 & _ & _ & HP'). rewrite Ed' in E1. injection E1 as <-.
  assert (HD : Rd W d d').
  { pose proof (compute_r W HW Wm Wz ds ds' rows cols cols' (Z.of_nat m - 1)) as X. rewrite Ed, Ed' in X. apply X. intros i j Hi Hj.
    rewrite (PropDistance.pair_value_ok ds rows cols i j HL (conj Hi Hj)), (PropDistance.pair_value_ok ds' rows cols' i j HL' (conj Hi Hj)). apply HWd; assumption. }
  exists d, d', P, P'. split; [exact Ed|]. split; [exact Ed'|]. split; [exact HD|]. split; [exact HB|]. split; [exact HB'|]. split; [exact HR|]. split; [exact HR'|]. split; [|split; [exact HP|exact HP']].
  clear HP HP'. intros S S0 Sg.
  destruct P as [e0 adj e h K inf cs tr root A1 A2 A3 A4 A5 A6 A7 A8 A9 A10 A11]. destruct P' as [e0' adj' e' h' K' inf' cs' tr' root' B1 B2 B3 B4 B5 B6 B7 B8 B9 B10 B11]. cbn [p_h].
  pose proof (construct_mst_r W HW Wm Wz d d' rows true HD) as X. rewrite A1, B1 in X. cbn in X.
  pose proof (weights_below d rows e0 ltac:(lia) HR HB A1) as F. pose proof (weights_below d' rows e0' ltac:(lia) HR' HB' B1) as F'.
  assert (HE0 : Re (Lev W) e0 e0') by (destruct X as (X1 & X2 & X3); split; [exact X1|]; split; [exact X2|]; apply F2_lev; assumption).
  rewrite (graph_init_r (Lev W) rows e0 e0' HE0) in A2. rewrite B2 in A2. injection A2 as <-.
  pose proof (quicksort_r (Lev W) (lev_cmp W HW) e0 e0' HE0) as X1. rewrite A3, B3 in X1. cbn in X1.
  pose proof (hierarchy_r (Lev W) (lev_cmp W HW) (lev_zero W Wz) S S0 rows Sg fuel e e' adj' m false X1) as X2. rewrite A8, B8 in X2. exact X2.
Qed.

Lemma parts_tree d n m fuel (P : parts d n m fuel) : 2 <= m ->
  let cs := l_cs (h_l (p_h _ _ _ _ P)) in let K := p_K _ _ _ _ P in
  tree cs K /\ no_constraints cs /\ same_clusters cs (p_cs _ _ _ _ P) /\
  exists g, rep (p_cs _ _ _ _ P) g K /\ Stage K (g0 cs) 0 g /\ p_root _ _ _ _ P = g 1.
Proof.
  intros Hm. destruct P as [e0 adj e h K inf cs' trace root E1 E2 E3 HG Hcov Hso Hfw Eh HLK Hp Hroot]. cbn [p_h p_K p_cs p_root].
  pose proof (Hp _ _ (Permutation_refl _) (le_n K)) as Ep. destruct (C33_hierarchy_gives_tree n e0 e adj m false fuel h HG Hcov Hm Eh) as (K0 & HT & HF & HN).
  assert (K0 = K) by (destruct HT as (HL' & _); lia). subst K0. split; [exact HT|]. split; [exact HN|].
  destruct (run_result _ _ _ _ _ _ _ HT HF (Permutation_refl _) (le_n K) Ep) as (_ & _ & g & HRp & HS). split.
  - destruct (C33_each_cluster_once_children_first _ _ HT HF) as (inf2 & cs2 & tr2 & H1 & _ & _ & H2). rewrite (H1 _ _ (Permutation_refl _) (le_n K)) in Ep. injection Ep as _ -> _. exact H2.
  - exists g. split; [exact HRp|]. split; [exact HS|]. apply (root_of _ _ _ _ _ HT HRp Hroot).
Qed.
Lemma hget_r W h h' k : Forall2 (Rent W) h h' -> orel (fun x y => W (fst x) (fst y) /\ snd x = snd y) (hget h k) (hget h' k).
Proof.
  induction 1 as [|[a [w ls]] [b [w' ls']] l l' (H1 & H2 & H3) H IH]; cbn [hget]; [exact I|]. cbn [fst snd] in *. subst b. destruct (k =? a); [split; assumption|exact IH].
Qed.

(** The clusters of both runs before and after the selection. *)
Lemma clusters_r d d' n m fuel (P : parts d n m fuel) (P' : parts d' n m fuel) L S : 2 <= m -> Rh L S n (p_h _ _ _ _ P) (p_h _ _ _ _ P') ->
  let cs := l_cs (h_l (p_h _ _ _ _ P)) in let cs' := l_cs (h_l (p_h _ _ _ _ P')) in let K := p_K _ _ _ _ P in
  p_K _ _ _ _ P' = K /\ tree cs K /\ tree cs' K /\ no_constraints cs /\ no_constraints cs' /\ (forall k, 1 <= k <= K -> Rc L S (g0 cs k) (g0 cs' k)) /\
  exists g g', rep (p_cs _ _ _ _ P) g K /\ rep (p_cs _ _ _ _ P') g' K /\ Stage K (g0 cs) 0 g /\ Stage K (g0 cs') 0 g' /\ p_root _ _ _ _ P = g 1 /\ p_root _ _ _ _ P' = g' 1.
Proof.
  intros Hm HH. destruct (parts_tree _ _ _ _ P Hm) as (HT & HN & _ & g & G1 & G2 & G3). destruct (parts_tree _ _ _ _ P' Hm) as (HT' & HN' & _ & g' & G1' & G2' & G3'). cbn zeta in *.
  destruct HH as (_ & (_ & HC & _) & _). pose proof (F2_len _ _ _ HC) as HL. assert (HK : p_K _ _ _ _ P' = p_K _ _ _ _ P) by (destruct HT as (A & _), HT' as (B & _); lia).
  rewrite HK in *. split; [reflexivity|]. split; [exact HT|]. split; [exact HT'|]. split; [exact HN|]. split; [exact HN'|]. split; [|exists g, g'; auto 10].
  intros k Hk. destruct HT as (_ & _ & _ & A), HT' as (_ & _ & _ & B). destruct (A k Hk) as (c & Hc & _), (B k Hk) as (c' & Hc' & _). unfold cluster_in in *.
  pose proof (F2_nth _ _ _ k HC) as X. rewrite Hc, Hc' in X. cbn in X. unfold g0. rewrite (nth_error_nth _ _ None Hc), (nth_error_nth _ _ None Hc'). exact X.
Qed.
Lemma member_in d n m fuel (P : parts d n m fuel) labels os : 2 <= m ->
  let r := mk_results labels os (h_hier (p_h _ _ _ _ P)) (p_cs _ _ _ _ P) in forall k v, point_of r k v <-> member (p_h _ _ _ _ P) k v.
Proof.
  intros Hm r k v. destruct (parts_tree _ _ _ _ P Hm) as (HT & _ & _ & g & HRp & HS & _). cbn zeta in *. pose proof (st_stat _ _ _ _ HS) as Hst.
  set (cs := l_cs (h_l (p_h _ _ _ _ P))) in *. set (K := p_K _ _ _ _ P) in *.
  split; intros (c & w & ls & P1 & P2 & P3).
  - apply (rep_in _ _ _ _ _ HRp) in P1. destruct P1 as [Hk ->]. exists (g0 cs k), w, ls. split; [apply (tr_in cs K HT); auto|]. split; [|exact P3].
    unfold entry. pose proof (f_equal c_offset (Hst k Hk)) as Q. cbn in Q. rewrite <- Q. exact P2.
  - apply (tr_in cs K HT) in P1. destruct P1 as [Hk ->]. exists (g k), w, ls. split; [apply (rep_in _ _ _ _ _ HRp); auto|]. split; [|exact P3].
    pose proof (f_equal c_offset (Hst k Hk)) as Q. cbn in Q. rewrite Q. exact P2.
Qed.
Lemma member_r L S n h h' : Rh L S n h h' -> forall k v, member h k v -> member h' k v.
Proof.
  intros (_ & (_ & HC & _) & _ & _ & HE & _) k v (c & w & ls & H1 & H2 & H3). unfold cluster_at, entry in *. pose proof (F2_nth _ _ _ k HC) as X. rewrite H1 in X.
  destruct (nth_error (l_cs (h_l h')) k) as [[c'|]|] eqn:E; try contradiction. cbn in X. pose proof (hget_r L _ _ (Datatypes.S (c_offset c)) HE) as Y. rewrite H2 in Y.
  destruct (hget (h_hier h') _) as [[w' ls']|] eqn:E2; [|contradiction]. destruct Y as [_ Y]. cbn in Y. subst ls'. exists c', w', ls. split; [exact E|]. split; [|exact H3].
  unfold entry. destruct X. cbn in *. exact E2.
Qed.
Lemma member_l L S n h h' : Rh L S n h h' -> forall k v, member h' k v -> member h k v.
Proof.
  intros (_ & (_ & HC & _) & _ & _ & HE & _) k v (c' & w' & ls & H1 & H2 & H3). unfold cluster_at, entry in *. pose proof (F2_nth _ _ _ k HC) as X. rewrite H1 in X.
  destruct (nth_error (l_cs (h_l h)) k) as [[c|]|] eqn:E; try contradiction. cbn in X. pose proof (hget_r L _ _ (Datatypes.S (c_offset c')) HE) as Y. rewrite H2 in Y.
  destruct (hget (h_hier h) _) as [[w ls']|] eqn:E2; [|contradiction]. destruct Y as [_ Y]. cbn in Y. subst ls'. exists c, w, ls. split; [exact E|]. split; [|exact H3].
  unfold entry. destruct X. cbn in *. exact E2.
Qed.
Lemma births_real d n m fuel (P : parts d n m fuel) k c : 2 <= m -> 2 <= k -> cluster_at (p_h _ _ _ _ P) k c -> fisnan (c_birth c) = false.
Proof.
  intros Hm Hk. destruct P as [e0 adj e h K inf cs' trace root E1 E2 E3 HG Hcov Hso Hfw Eh HLK Hp Hroot]. cbn [p_h]. intros Hc.
  pose proof (ok_nonan n e0 e adj HG m false Hm fuel h Eh) as Hnan. unfold no_nan in Hnan. rewrite Forall_forall in Hnan.
  destruct (C31_death_levels n e0 e adj m false fuel h HG Hcov Hso Hm Eh k c Hc) as (_ & _ & HBl & _). apply Hnan. apply (HBl Hk).
Qed.
