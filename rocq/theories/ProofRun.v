(** Lemmas about whole runs. *)
From Coq Require Import Permutation Sorted Reals Relations.
From Flocq Require Import IEEE754.BinarySingleNaN.
From Verif Require Import Base F64 F64Facts F64Arith ListFacts ModelUtils ModelDistance ModelMst ModelGraph ModelCluster ModelHier ModelSelect ModelRun SpecGraph SpecHier SpecTree
  PropUtils ProofDistance ProofCore PropDistance PropMst PropGraph ProofHier ProofHierEnd PropHier ProofTreeSel PropSelect PropProminent PropOutlier.
From Coq Require Import ZifyBool ZifyNat.
Local Open Scope nat_scope.

(** Distances are not negative (or NaN), core distances lie between 0 and D_MAX. *)
Definition nonneg (d : distance) (n : nat) : Prop :=
  (forall i j x, i < n -> j < n -> distance_get d (Z.of_nat i) (Z.of_nat j) = Ok x -> fisnan x = true \/ fle fzero x = true) /\
  (forall i x, i < n -> nth_error (d_core d) i = Some (Some x) -> fle fzero x = true /\ fle x D_MAX = true).

(** An order of the steps of each parallel loop: every step exactly once. *)
Definition valid (s : schedule) : Prop :=
  (forall k, Permutation (seq 0 k) (s_leaves s k)) /\ (forall k, Permutation (seq 0 k) (s_select s k)) /\
  (forall k n, Permutation (list_prod (seq 0 k) (seq 0 n)) (s_points s k n)).

Lemma any_input d n : 1 <= n -> (Z.of_nat n < M32)%Z -> readable d n -> nonneg d n ->
  exists e0 adj e, construct_mst d n true = Ok e0 /\ graph_init n e0 = Ok adj /\ graph_quicksort_by_edge_weight e0 = Ok e
    /\ graph_input n e0 e adj /\ covers n e /\ no_nan e /\ weights_sorted e /\ finite_weights e /\ length (e_w e) = 2 * n - 1.
Proof.
  intros Hn Hn32 HR [HN1 HN2].
  destruct (C20_spanning_tree_construction d n Hn HR) as (e0 & E0 & La & Lb & Lw & Htree & Hself).
  assert (Hal : aligned e0) by (unfold aligned; lia).
  assert (Htl : length (triples e0) = 2 * n - 1) by (unfold triples; rewrite !combine_length; lia).
  assert (Hcases : forall a b w, In (a, b, w) (triples e0) -> a < n /\ b < n /\ fle fzero w = true /\ fle w D_MAX = true).
  { intros a b w Hin. apply In_nth_error in Hin. destruct Hin as [i Hi].
    assert (Hil : i < 2 * n - 1) by (rewrite <- Htl; apply nth_error_Some; congruence).
    destruct (le_lt_dec (n - 1) i) as [Hge|Hlt].
    - destruct (Hself (i - (n - 1)) ltac:(lia)) as (cv & Hc & Ht). replace (n - 1 + (i - (n - 1))) with i in Ht by lia.
      rewrite Hi in Ht. injection Ht as -> -> ->. split; [lia|]. split; [lia|]. apply (HN2 (i - (n - 1))); [lia|exact Hc].
    - destruct (Htree i Hlt) as (a' & w' & Ht & Ha & Hw & Hor). rewrite Hi in Ht. injection Ht as -> -> ->.
      split; [exact Ha|]. split; [lia|]. split; [|exact Hw].
      destruct Hor as [((x & cu & cv & Hx & Hcu & Hcv & Heq & _) & _)|[_ -> ]]; [|reflexivity].
      destruct Heq as [->|[->| -> ]].
      + destruct (HN1 a' i x Ha ltac:(lia) Hx) as [Hnan|Hge]; [|exact Hge]. apply fle_true in Hw. destruct Hw as (Hnn & _). unfold notnan in Hnn. congruence.
      + apply (HN2 a' cu Ha Hcu).
      + apply (HN2 i cv ltac:(lia) Hcv). }
  assert (Hnth : forall i, i < 2 * n - 1 -> In (nth i (e_a e0) 0, nth i (e_b e0) 0, nth i (e_w e0) fzero) (triples e0)).
  { intros i Hi. unfold triples. rewrite <- !combine_nth by (rewrite ?combine_length; lia). apply nth_In. rewrite !combine_length. lia. }
  assert (Hvb : vertices_below n e0).
  { split; apply Forall_forall; intros x Hx; apply (In_nth _ _ 0) in Hx; destruct Hx as (i & Hi & <-); apply (Hcases _ _ _ (Hnth i ltac:(lia))). }
  assert (Hfin0 : Forall (fun w => fle fzero w = true /\ fle w D_MAX = true) (e_w e0)).
  { apply Forall_forall. intros w Hw. apply (In_nth _ _ fzero) in Hw. destruct Hw as (i & Hi & <-). apply (Hcases _ _ _ (Hnth i ltac:(lia))). }
  assert (Hnan0 : Forall (fun w => fisnan w = false) (e_w e0)).
  { eapply Forall_impl; [|exact Hfin0]. cbv beta. intros w [Hw _]. apply (ge0_notnan w Hw). }
  destruct (C24_adjacency_matches_edges n e0 Hal Hvb) as (adj & Eadj & _).
  destruct (C23_quicksort_by_edge_weight e0 Hal) as (e & Ee & Hal' & HP & Hsort).
  pose proof (perm_weights e0 e HP Hal Hal') as HPw.
  exists e0, adj, e. split; [exact E0|]. split; [exact Eadj|]. split; [exact Ee|].
  split. { unfold graph_input. split; [exact Hn|]. split; [exact Hn32|]. split; [exact Hal|]. split; [exact Hvb|]. split; [exact Eadj|]. split; [exact Hal'|exact HP]. }
  split. { intros v Hv. destruct (Hself v Hv) as (cv & _ & Ht). exists v, v, cv. split; [apply (Permutation_in _ HP), (nth_error_In _ _ Ht)|auto]. }
  split. { unfold no_nan. rewrite Forall_forall in *. intros w Hw. apply Hnan0. apply (Permutation_in w (Permutation_sym HPw) Hw). }
  split; [apply Hsort; exact Hnan0|].
  split. { unfold finite_weights. rewrite Forall_forall in *. intros w Hw. apply Hfin0. apply (Permutation_in w (Permutation_sym HPw) Hw). }
  rewrite <- (Permutation_length HPw). exact Lw.
Qed.

Lemma from_nil fuel e n adj m compact : compute_hierarchy_from [] fuel e n adj m compact = compute_hierarchy fuel e n adj m compact.
Proof. reflexivity. Qed.

Lemma hier_fuel e m n compact : forall f1 f2 k h r1 r2, hier_loop f1 e m n compact k h = Ok r1 -> hier_loop f2 e m n compact k h = Ok r2 -> r1 = r2.
Proof.
  induction f1 as [|f1 IH]; intros f2 k h r1 r2 H1 H2; (destruct k as [|k]; [destruct f2; cbn [hier_loop] in *; congruence|]); [discriminate|].
  destruct f2 as [|f2]; [discriminate|]. cbn [hier_loop] in *. destruct (hier_level e m n compact (S k) h) as [r| | |]; cbn [bind] in *; try discriminate.
  apply (IH _ _ _ _ _ H1 H2).
Qed.
Lemma compute_fuel e m n adj compact f1 f2 r1 r2 : compute_hierarchy f1 e n adj m compact = Ok r1 -> compute_hierarchy f2 e n adj m compact = Ok r2 -> r1 = r2.
Proof.
  unfold compute_hierarchy. intros H1 H2. destruct (hier_loop f1 _ _ _ _ _ _) as [a| | |] eqn:E1; try discriminate. destruct (hier_loop f2 _ _ _ _ _ _) as [b| | |] eqn:E2; try discriminate.
  cbn [bind] in *. rewrite (hier_fuel _ _ _ _ _ _ _ _ _ _ E1 E2) in H1. congruence.
Qed.

(** The parts of a run on a distance object. *)
Record parts (d : distance) (n m fuel : nat) := mk_parts {
  p_e0 : edges; p_adj : list (list nat); p_e : edges; p_h : hstate; p_K : nat; p_inf : bool; p_cs : clusters; p_trace : list nat; p_root : cluster;
  p_mst : construct_mst d n true = Ok p_e0;
  p_init : graph_init n p_e0 = Ok p_adj;
  p_sort : graph_quicksort_by_edge_weight p_e0 = Ok p_e;
  p_graph : graph_input n p_e0 p_e p_adj;
  p_cov : covers n p_e;
  p_sorted : weights_sorted p_e;
  p_fin : finite_weights p_e;
  p_hier : compute_hierarchy fuel p_e n p_adj m false = Ok p_h;
  p_len : length (l_cs (h_l p_h)) = S p_K;
  p_prop : forall order f, leaf_order p_K order -> p_K <= f -> propagate_tree f (l_cs (h_l p_h)) order = Ok (p_inf, p_cs, p_trace);
  p_one : cluster_in p_cs 1 p_root }.

Lemma parts_exist d n m fuel : 1 <= n -> (Z.of_nat n < M32)%Z -> readable d n -> nonneg d n -> 2 <= m -> 2 * n - 1 <= fuel ->
  exists _ : parts d n m fuel, True.
Proof.
  intros Hn Hn32 HR HN Hm Hf.
  destruct (any_input d n Hn Hn32 HR HN) as (e0 & adj & e & E1 & E2 & E3 & HG & Hcov & Hnan & Hs & Hfin & HL).
  destruct (C25_hierarchy_terminates n e0 e adj m false fuel HG Hm Hnan ltac:(lia)) as (h & Eh).
  destruct (C33_hierarchy_gives_tree n e0 e adj m false fuel h HG Hcov Hm Eh) as (K & HT & HF & _).
  destruct (C33_each_cluster_once_children_first _ _ HT HF) as (inf & cs' & trace & Hrun & Hsame & _).
  assert (Hroot : exists r, cluster_in cs' 1 r).
  { destruct (run_result _ _ _ _ _ _ _ HT HF (Permutation_refl _) (le_n K) (Hrun _ _ (Permutation_refl _) (le_n K))) as (_ & _ & g & HRp & _).
    exists (g 1). apply (ProofSelect.rep_in _ _ _ _ _ HRp). split; [destruct HT as (_ & ? & _); lia|reflexivity]. }
  destruct Hroot as (r & Hr).
  unshelve eexists; [|exact I]. apply (mk_parts d n m fuel e0 adj e h K inf cs' trace r); try assumption. apply HT.
Qed.

Lemma do_run_parts d n m fuel (P : parts d n m fuel) s q self res0 : 2 <= m -> (Z.of_nat n <= 2147483648)%Z -> nonneg d n -> readable d n -> valid s -> sorts q -> self = true ->
  exists labels os,
    do_run fuel s q (mk_hdb (Z.of_nat m) n self (Some d) (Some []) res0) =
      Ok (mk_hdb (Z.of_nat m) n true (Some d) (Some (p_cs _ _ _ _ P)) (Some (mk_results labels os (h_hier (p_h _ _ _ _ P)) (p_cs _ _ _ _ P)))) /\
    length labels = n /\
    (forall v c, v < n -> c <> 0 -> nth_error labels v = Some c <-> In c (c_desc (p_root _ _ _ _ P)) /\ member (p_h _ _ _ _ P) c v) /\
    outlier_scores q (p_cs _ _ _ _ P) (l_noise (h_l (p_h _ _ _ _ P))) (l_last (h_l (p_h _ _ _ _ P))) (d_core d) n = Ok os.
Proof.
  intros Hm Hn HNn HR (V1 & V2 & V3) Hq ->. destruct P as [e0 adj e h K inf cs' trace root E1 E2 E3 HG Hcov Hs Hfin Eh HLK Hp Hr].
  cbn [p_cs p_h p_root].
  assert (Hlo : leaf_order K (s_leaves s (S K))) by apply V1.
  destruct (C38_labels_are_the_selected_clusters n e0 e adj m false fuel h HG Hcov Hm Eh K _ (S K) inf cs' trace root _ (fun keys => s_points s keys n) HLK Hlo (Nat.le_succ_diag_r K)
    (Hp _ _ Hlo (Nat.le_succ_diag_r K)) Hr (V2 _) (fun keys => V3 keys n)) as (labels & El & HLl & Hlab & _).
  destruct (C40_outlier_scores n e0 e adj m false fuel h HG Hcov Hs Hfin Hm Hn Eh K _ (S K) inf cs' trace HLK Hlo (Nat.le_succ_diag_r K) (Hp _ _ Hlo (Nat.le_succ_diag_r K)) (d_core d) q) as (os & Eo & _).
  { intros v Hv. destruct (proj2 HR v Hv) as (c & Hc). exists c. split; [exact Hc|]. apply (ge0_notnan c). apply (proj2 HNn v c Hv Hc). } { exact Hq. }
  exists labels, os. split; [|split; [exact HLl|]; split; [exact Hlab|exact Eo]].
  unfold do_run. cbn [o_dist o_clusters o_n o_self o_min]. rewrite E1. cbn [bind]. rewrite E2. cbn [bind]. rewrite E3. cbn [bind].
  rewrite from_nil, Nat2Z.id, Eh. cbn [bind]. rewrite HLK, (Hp _ _ Hlo (Nat.le_succ_diag_r K)). cbn [bind].
  assert (Hg : cget cs' 1 = Ok root) by (unfold cget, aget; unfold cluster_in in Hr; rewrite Hr; reflexivity).
  rewrite Hg. cbn [bind]. rewrite El. cbn [bind]. rewrite Eo. reflexivity.
Qed.

(** ** From data *)
Lemma data_ready ds rows cols k : 1 <= rows -> (Z.of_nat rows <= 65536)%Z -> holds ds rows cols -> (0 <= k < M32 - 1)%Z ->
  exists d, distance_compute ds rows cols k = Ok d /\ readable d rows /\ nonneg d rows /\ complete d /\ d_rows d = Z.of_nat rows.
Proof.
  intros Hr1 Hr HL Hk.
  destruct (C15_distance_get_euclidean ds rows cols k Hr1 Hr HL Hk) as (d & Ed & HC & Hrows & Hdk & Hget).
  assert (Hval : forall i j x, i < rows -> j < rows -> distance_get d (Z.of_nat i) (Z.of_nat j) = Ok x -> fisnan x = true \/ fle fzero x = true).
  { intros i j x Hi Hj Hx. rewrite (proj1 (Hget i j Hi Hj)) in Hx. injection Hx as <-.
    destruct (i =? j); [right; reflexivity|]. destruct (fisnan (euclidean ds cols (Nat.min i j) (Nat.max i j))) eqn:En; [left; reflexivity|right].
    destruct (C15_distance_not_negative ds cols (Nat.min i j) (Nat.max i j)) as [H|H]; [congruence|]. apply fle_intro; [reflexivity|exact En|exact H]. }
  destruct (compute_split ds rows cols k d HC Hrows Ed Hk) as (d1 & C1 & R1 & K1 & Hc1 & G1).
  destruct (C18_core_distance_finite d1 C1 ltac:(lia)) as (d2 & Ed2 & _ & Hc2). rewrite Hc1 in Ed2. injection Ed2 as <-.
  assert (Hcore : forall i, i < rows -> exists c, nth_error (d_core d) i = Some (Some c) /\ fle fzero c = true /\ fle c D_MAX = true).
  { intros i Hi. destruct (row_exists d1 i C1 ltac:(lia)) as (row & Hrow). destruct (Hc2 i row ltac:(lia) Hrow) as (c & Hc & Hor & Hnn & Hle & _).
    exists c. split; [exact Hc|]. split; [|exact Hle]. destruct Hor as [->|[Hin _]]; [reflexivity|].
    destruct Hrow as [HLr Hrow]. apply (In_nth _ _ fzero) in Hin. destruct Hin as (j & Hj & Ej).
    destruct (Hval i j c Hi ltac:(lia)) as [H|H]; [rewrite <- G1, (Hrow j) by lia; congruence|congruence|exact H]. }
  exists d. split; [exact Ed|]. split; [|split; [|split; assumption]].
  - split; [|intros i Hi; destruct (Hcore i Hi) as (c & Hc & _); eauto]. intros i j Hi Hj. destruct HC as [_ HC]. apply HC; lia.
  - split; [exact Hval|]. intros i x Hi Hx. destruct (Hcore i Hi) as (c & Hc & H). rewrite Hx in Hc. injection Hc as ->. exact H.
Qed.

(** ** Uniqueness of sorted lists *)
Lemma sorted_unique {A} (R : A -> A -> Prop) : (forall a b, R a b -> R b a -> False) -> forall l1 l2, StronglySorted R l1 -> StronglySorted R l2 -> Permutation l1 l2 -> l1 = l2.
Proof.
  intros Has. induction l1 as [|a l1 IH]; intros l2 S1 S2 HP.
  - apply Permutation_nil in HP. symmetry. exact HP.
  - destruct l2 as [|b l2]; [apply Permutation_sym, Permutation_nil in HP; discriminate|].
    inversion_clear S1 as [|? ? S1' F1]. inversion_clear S2 as [|? ? S2' F2]. rewrite Forall_forall in F1, F2.
    assert (a = b).
    { assert (Ha : In a (b :: l2)) by (apply (Permutation_in _ HP); left; reflexivity). assert (Hb : In b (a :: l1)) by (apply (Permutation_in _ (Permutation_sym HP)); left; reflexivity).
      destruct Ha as [Ha|Ha]; [congruence|]. destruct Hb as [Hb|Hb]; [congruence|]. destruct (Has a b (F1 b Hb) (F2 a Ha)). }
    subst b. f_equal. apply IH; [assumption|assumption|]. apply (Permutation_cons_inv HP).
Qed.
Lemma before_asym a b : before a b -> before b a -> False.
Proof.
  assert (L : forall x y, flt x y = true -> (fkey x < fkey y)%Z) by (intros x y H; apply flt_true in H; apply H).
  assert (Q : forall x y, feq x y = true -> fkey x = fkey y) by (intros x y H; apply feq_true in H; apply H).
  unfold before. intros H1 H2.
  destruct H1 as [H1|[H1 H1']]; [apply L in H1|apply Q in H1]; (destruct H2 as [H2|[H2 H2']]; [apply L in H2|apply Q in H2]);
    try (clear -H1 H2; generalize dependent (fkey (os_score a)); generalize (fkey (os_score b)); intros; lia).
  destruct H1' as [G1|[G1 G1']]; [apply L in G1|apply Q in G1]; (destruct H2' as [G2|[G2 G2']]; [apply L in G2|apply Q in G2]);
    try (clear -G1 G2; generalize dependent (fkey (os_core a)); generalize (fkey (os_core b)); intros; lia).
  clear -G1' G2'. lia.
Qed.
