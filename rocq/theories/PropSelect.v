(** C33-C37: propagating the cluster tree and selecting clusters. *)
From Coq Require Import Permutation Sorted Reals Lra.
From Flocq Require Import Core.Raux Core.Zaux Core.Defs IEEE754.BinarySingleNaN.
From Verif Require Import Base F64 F64Facts F64Arith ListFacts ModelCluster ModelHier ModelSelect SpecTree ProofSelect ProofTreeSel.
From Coq Require Import ZifyBool ZifyNat.
Local Open Scope nat_scope.

(** [order] lists the positions of sc->clusters in the order in which the iterations of the
    parallel loop that collects the leaves enter its critical section. *)
Definition leaf_order (K : nat) (order : list nat) : Prop := Permutation (seq 0 (S K)) order.

(** C33.  The propagation ends, whatever the order, with the same result; every cluster is
    taken from the examination list exactly once, its children before it. *)
Theorem C33_each_cluster_once_children_first : forall cs K, tree cs K -> fresh cs ->
  exists inf cs' trace,
    (forall order fuel, leaf_order K order -> K <= fuel -> propagate_tree fuel cs order = Ok (inf, cs', trace))
    /\ Permutation (seq 1 K) trace
    /\ (forall j p i i', child_in cs j p -> nth_error trace i = Some j -> nth_error trace i' = Some p -> i < i')
    /\ same_clusters cs cs'.
Proof.
  intros cs K HT HF. destruct (tree_run cs K HT HF) as (cs' & g & HR & HS & HG).
  eexists _, cs', _. split; [exact HG|]. split; [apply Permutation_rev|]. split.
  - intros j p i i' Hc Hi Hi'. pose proof (tr_kid_lt cs K HT _ _ Hc).
    assert (Hnth : forall i x, nth_error (rev (seq 1 K)) i = Some x -> x = K - i /\ i < K).
    { intros a x Ha. assert (La : a < K) by (rewrite <- (seq_length K 1), <- rev_length; apply nth_error_Some; congruence).
      apply (nth_error_nth _ _ 0) in Ha. rewrite rev_nth, seq_length, seq_nth in Ha by (rewrite ?seq_length; lia). lia. }
    apply Hnth in Hi, Hi'. lia.
  - split; [rewrite (proj1 HR); symmetry; apply HT|]. intros k c Hc. apply (tr_in cs K HT) in Hc. destruct Hc as [Hk ->].
    exists (g k). split; [apply (rep_in _ _ _ _ _ HR); auto|]. pose proof (st_stat _ _ _ _ HS k Hk) as E.
    pose proof (statics_eq _ _ E) as (-> & -> & -> & -> & -> & _ & ->).
    pose proof (f_equal c_birth E) as E1. pose proof (f_equal c_num E) as E2. cbn in E1, E2. rewrite E1, E2. reflexivity.
Qed.
Print Assumptions C33_each_cluster_once_children_first.

Lemma run_result cs K order fuel inf cs' trace : tree cs K -> fresh cs -> leaf_order K order -> K <= fuel ->
  propagate_tree fuel cs order = Ok (inf, cs', trace) ->
  inf = existsb (fun x => feq (c_stab (g0 cs x)) D_MAX) (rev (seq 1 K)) /\ trace = rev (seq 1 K) /\ exists g, rep cs' g K /\ Stage K (g0 cs) 0 g.
Proof.
  intros HT HF HP Hf E. destruct (tree_run cs K HT HF) as (cs2 & g & HR & HS & HG). rewrite (HG order fuel HP Hf) in E.
  injection E as <- <- <-. split; [reflexivity|]. split; [reflexivity|]. exists g. auto.
Qed.
Lemma root_of cs cs' K g r : tree cs K -> rep cs' g K -> cluster_in cs' 1 r -> r = g 1.
Proof. intros HT HR H. apply (rep_in _ _ _ _ _ HR) in H. apply H. Qed.

(** C34.  The clusters handed to the root: pairwise not nested, never the root itself, and
    every leaf other than a childless root lies below exactly one of them. *)
Theorem C34_selected_clusters_cover_the_leaves : forall cs K order fuel inf cs' trace root,
  tree cs K -> fresh cs -> leaf_order K order -> K <= fuel -> propagate_tree fuel cs order = Ok (inf, cs', trace) ->
  cluster_in cs' 1 root ->
  antichain cs (c_desc root)
  /\ (forall k, In k (c_desc root) -> 2 <= k <= K)
  /\ (forall l, leaf cs l -> l <> 1 -> exists k, In k (c_desc root) /\ under cs l k /\ forall k', In k' (c_desc root) -> under cs l k' -> k' = k).
Proof.
  intros cs K order fuel inf cs' trace root HT HF HP Hf E Hr. destruct (run_result _ _ _ _ _ _ _ HT HF HP Hf E) as (_ & _ & g & HR & HS).
  rewrite (root_of _ _ _ _ _ HT HR Hr). pose proof (tr_k cs K HT). destruct (good_desc cs K HT g HS 1 ltac:(lia)) as (H1 & H2 & H3).
  split; [exact H1|]. split.
  - intros k Hk. apply H2 in Hk. destruct Hk as [Hu Hne]. apply (under_le cs K HT) in Hu. lia.
  - intros l Hl Hne. assert (Hlk : 1 <= l <= K) by (destruct Hl as [[c Hc] _]; apply (tr_in cs K HT) in Hc; apply Hc).
    destruct (H3 l Hl (under_root cs K HT l Hlk) Hne) as (k & Hk & Hu). exists k. split; [exact Hk|]. split; [exact Hu|].
    intros k' Hk' Hu'. destruct (under_two cs l k k' Hu Hu') as [H0|H0]; [symmetry|]; apply H1; assumption.
Qed.
Print Assumptions C34_selected_clusters_cover_the_leaves.

(** C35, part 1: the local decisions. *)
Lemma kids_same cs cs' K g x p : tree cs K -> rep cs' g K -> Stage K (g0 cs) 0 g -> child_in cs' x p <-> child_in cs x p.
Proof.
  intros HT HR HS. unfold child_in. split; intros (c & Hc & Hp).
  - apply (rep_in _ _ _ _ _ HR) in Hc. destruct Hc as [Hx ->]. exists (g0 cs x). split; [apply (tr_in cs K HT); auto|].
    destruct (g_stat cs K g HS x Hx) as (_ & _ & _ & E & _). congruence.
  - apply (tr_in cs K HT) in Hc. destruct Hc as [Hx ->]. exists (g x). split; [apply (rep_in _ _ _ _ _ HR); auto|].
    destruct (g_stat cs K g HS x Hx) as (_ & _ & _ & E & _). congruence.
Qed.
Lemma leaf_same cs cs' K g k : tree cs K -> rep cs' g K -> Stage K (g0 cs) 0 g -> leaf cs' k <-> leaf cs k.
Proof.
  intros HT HR HS. unfold leaf. split; intros [[c Hc] H]; (split; [|intros j Hj; apply (H j); apply (kids_same cs cs' K g j k HT HR HS); exact Hj]).
  - apply (rep_in _ _ _ _ _ HR) in Hc. exists (g0 cs k). apply (tr_in cs K HT). tauto.
  - apply (tr_in cs K HT) in Hc. exists (g k). apply (rep_in _ _ _ _ _ HR). tauto.
Qed.

Theorem C35_local_decisions : forall cs K order fuel inf cs' trace,
  tree cs K -> fresh cs -> no_constraints cs -> leaf_order K order -> K <= fuel -> propagate_tree fuel cs order = Ok (inf, cs', trace) ->
  forall p c, cluster_in cs' p c -> exists given : list (nat * f64 * list nat),
    children cs' p (map (fun x => fst (fst x)) given)
    /\ (forall k v ds, In (k, v, ds) given -> hands cs' k v ds)
    /\ c_pstab c = fold_left fadd (map (fun x => snd (fst x)) given) fzero
    /\ c_desc c = concat (map snd given).
Proof.
  intros cs K order fuel inf cs' trace HT HF HN HP Hf E p c Hc. destruct (run_result _ _ _ _ _ _ _ HT HF HP Hf E) as (_ & _ & g & HR & HS).
  apply (rep_in _ _ _ _ _ HR) in Hc. destruct Hc as [Hp ->]. pose proof (pnc_zero cs K HT g HN HS) as Hnc.
  exists (map (fun k => (k, hst g k, dsc g k)) (kl cs K p)). rewrite !map_map. cbn [fst snd]. rewrite map_id. split; [|split; [|split]].
  - destruct (kl_children cs K HT p) as [H1 H2]. split; [|exact H2]. intros x. rewrite H1. symmetry. apply (kids_same cs cs' K g x p HT HR HS).
  - intros k v ds Hin. apply in_map_iff in Hin. destruct Hin as (k0 & Ek & Hk). injection Ek as -> <- <-.
    apply (in_kl cs K HT), (tr_kid_lt cs K HT) in Hk. assert (Hk1 : 1 <= k <= K) by lia.
    rewrite (hst_plain cs K g HS Hnc k Hk1), (handed_plain cs K g HS Hnc k Hk1).
    assert (Hck : cluster_in cs' k (g k)) by (apply (rep_in _ _ _ _ _ HR); auto).
    destruct (g_stat cs K g HS k Hk1) as (_ & _ & Est & _). rewrite <- Est.
    assert (Hlf : leaf cs' k <-> c_kids (g0 cs k) = false) by (rewrite (leaf_same cs cs' K g k HT HR HS); apply (leaf_kl cs K HT); exact Hk1).
    destruct (c_kids (g0 cs k)).
    + destruct (fge (c_stab (g k)) (c_pstab (g k))) eqn:Eg.
      * apply hands_self; [exact Hck|]. right. exact Eg.
      * apply hands_up; [exact Hck| |exact Eg]. rewrite Hlf. discriminate.
    + apply hands_self; [exact Hck|]. left. apply Hlf. reflexivity.
  - apply (g_pstab cs K g HS p Hp).
  - rewrite (g_desc cs K g HS p Hp). apply flat_map_concat_map.
Qed.
Print Assumptions C35_local_decisions.

(** C35, part 2: with non-negative stabilities the selection has the largest total among all
    sets of non-root clusters, totals being computed in double arithmetic along the tree. *)
Theorem C35_maximal_in_double_arithmetic : forall cs K order fuel inf cs' trace root,
  tree cs K -> fresh cs -> no_constraints cs -> leaf_order K order -> K <= fuel -> propagate_tree fuel cs order = Ok (inf, cs', trace) ->
  (forall k c, cluster_in cs k c -> k <> 1 -> fle fzero (c_stab c) = true) ->
  cluster_in cs' 1 root ->
  machine_total cs (c_desc root) 1 (c_pstab root)
  /\ forall T v, ~ In 1 T -> machine_total cs T 1 v -> fle v (c_pstab root) = true.
Proof.
  intros cs K order fuel inf cs' trace root HT HF HN HP Hf E Hpos Hr. destruct (run_result _ _ _ _ _ _ _ HT HF HP Hf E) as (_ & _ & g & HR & HS).
  rewrite (root_of _ _ _ _ _ HT HR Hr). pose proof (pnc_zero cs K HT g HN HS) as Hnc.
  assert (Hpos' : forall k, 2 <= k <= K -> ge0 (c_stab (g0 cs k))).
  { intros k Hk. apply (Hpos k); [apply (tr_in cs K HT); split; [lia|reflexivity]|lia]. }
  split; [apply (mt_selected cs K HT g HS Hnc Hpos')|]. intros T v. apply (mt_root cs K HT g HS Hnc Hpos').
Qed.
Print Assumptions C35_maximal_in_double_arithmetic.

(** C35, part 3: when no addition rounds (stabilities that are integer multiples of one power
    of two and small in total) the exact total is the largest among all sets of pairwise not
    nested non-root clusters. *)
Theorem C35_maximal_in_exact_arithmetic : forall cs K order fuel inf cs' trace root (m : nat -> Z) q,
  tree cs K -> fresh cs -> no_constraints cs -> leaf_order K order -> K <= fuel -> propagate_tree fuel cs order = Ok (inf, cs', trace) ->
  (forall k c, cluster_in cs k c -> k <> 1 -> (0 <= m k)%Z /\ is_finite (c_stab c) = true /\ B2R (c_stab c) = (IZR (m k) * bpow radix2 q)%R) ->
  (-1074 <= q <= 900)%Z -> (sumz m (seq 2 (K - 1)) <= 2 ^ 53)%Z ->
  cluster_in cs' 1 root ->
  forall T, antichain cs T -> (forall k, In k T -> 2 <= k <= K) -> (real_total cs T <= real_total cs (c_desc root))%R.
Proof.
  intros cs K order fuel inf cs' trace root m q HT HF HN HP Hf E Hg Hq Hs Hr T HA HU. destruct (run_result _ _ _ _ _ _ _ HT HF HP Hf E) as (_ & _ & g & HR & HS).
  rewrite (root_of _ _ _ _ _ HT HR Hr). pose proof (pnc_zero cs K HT g HN HS) as Hnc.
  apply (grid_opt cs K HT g HS Hnc m q Hq); [|exact Hs|exact HA|].
  - intros k Hk. apply Hg; [apply (tr_in cs K HT); split; [lia|reflexivity]|lia].
  - intros t Ht. apply HU in Ht. split; [lia|]. exists (g0 cs t). apply (tr_in cs K HT). split; [lia|reflexivity].
Qed.
Print Assumptions C35_maximal_in_exact_arithmetic.

(** C36. *)
Theorem C36_lowest_death_level : forall cs K order fuel inf cs' trace,
  tree cs K -> fresh cs -> leaf_order K order -> K <= fuel -> propagate_tree fuel cs order = Ok (inf, cs', trace) ->
  (forall l c, leaf cs l -> l <> 1 -> cluster_in cs l c -> flt (c_death c) D_MAX = true) ->
  (forall k c, cluster_in cs' k c -> (k = 1 -> ~ leaf cs 1) ->
     (exists l d, leaf cs l /\ under cs l k /\ cluster_in cs l d /\ c_plow c = c_death d)
     /\ (forall l d, leaf cs l -> under cs l k -> cluster_in cs l d -> fle (c_plow c) (c_death d) = true))
  /\ (forall c, cluster_in cs' 1 c -> leaf cs 1 -> c_plow c = D_MAX).
Proof.
  intros cs K order fuel inf cs' trace HT HF HP Hf E HD. destruct (run_result _ _ _ _ _ _ _ HT HF HP Hf E) as (_ & _ & g & HR & HS).
  assert (HD' : forall z, leaf cs z -> z <> 1 -> flt (c_death (g0 cs z)) D_MAX = true).
  { intros z Hz Hne. apply (HD z); [exact Hz|exact Hne|]. destruct Hz as [[c Hc] _]. apply (tr_in cs K HT) in Hc. apply (tr_in cs K HT). tauto. }
  destruct (low_root cs K HT g HS HD') as [HL1 HL2]. split.
  - intros k c Hc H1. apply (rep_in _ _ _ _ _ HR) in Hc. destruct Hc as [Hk ->].
    assert (HL : low_ok cs k (c_plow (g k))).
    { destruct (Nat.eq_dec k 1) as [->|Hne]; [apply HL2, H1; reflexivity|]. apply (low_all cs K HT g HS HD' (K - k)); lia. }
    destruct HL as [(z & Hz & Hu & Ez) HA]. split.
    + exists z, (g0 cs z). split; [exact Hz|]. split; [exact Hu|]. split; [|exact Ez]. destruct Hz as [[c Hc] _]. apply (tr_in cs K HT) in Hc. apply (tr_in cs K HT). tauto.
    + intros l d Hl Hul Hd. apply (tr_in cs K HT) in Hd. destruct Hd as [_ ->]. apply HA; assumption.
  - intros c Hc Hl. rewrite (root_of _ _ _ _ _ HT HR Hc). apply HL1. exact Hl.
Qed.
Print Assumptions C36_lowest_death_level.

(** C37.  The result says whether some stability equals the largest finite double; an
    infinite stability is not reported. *)
Theorem C37_reports_largest_finite_stability : forall cs K order fuel inf cs' trace,
  tree cs K -> fresh cs -> leaf_order K order -> K <= fuel -> propagate_tree fuel cs order = Ok (inf, cs', trace) ->
  inf = true <-> exists k c, cluster_in cs k c /\ c_stab c = D_MAX.
Proof.
  intros cs K order fuel inf cs' trace HT HF HP Hf E. destruct (run_result _ _ _ _ _ _ _ HT HF HP Hf E) as (-> & _ & _).
  rewrite existsb_exists. split.
  - intros (k & Hk & Ek). apply in_rev, in_seq in Hk. exists k, (g0 cs k). split; [apply (tr_in cs K HT); split; [lia|reflexivity]|].
    apply feq_true in Ek. destruct Ek as (N1 & N2 & Ek). destruct (fkey_inj _ _ N1 N2 Ek) as [|(_ & s & t & _ & Hz)]; [assumption|]. discriminate Hz.
  - intros (k & c & Hc & Ec). apply (tr_in cs K HT) in Hc. destruct Hc as [Hk ->]. exists k. split; [apply -> in_rev; apply in_seq; lia|]. rewrite Ec. reflexivity.
Qed.
Print Assumptions C37_reports_largest_finite_stability.

Theorem C37_infinite_stability_refuted : forall cs K order fuel inf cs' trace,
  tree cs K -> fresh cs -> leaf_order K order -> K <= fuel -> propagate_tree fuel cs order = Ok (inf, cs', trace) ->
  (exists k c, cluster_in cs k c /\ c_stab c = finf) -> (forall k c, cluster_in cs k c -> c_stab c <> D_MAX) -> inf = false.
Proof.
  intros cs K order fuel inf cs' trace HT HF HP Hf E _ HN. destruct inf; [|reflexivity]. exfalso.
  destruct (proj1 (C37_reports_largest_finite_stability _ _ _ _ _ _ _ HT HF HP Hf E) eq_refl) as (k & c & Hc & Ec). apply (HN k c Hc Ec).
Qed.
Print Assumptions C37_infinite_stability_refuted.

(** A tree that meets the hypotheses: 2 and 3 are children of the root, 4 and 5 of 2; the
    stabilities of 2, 3, 4, 5 are 5, 2, 1, 1. *)
Definition node (label : nat) (parent : option nat) (death stab : Z) (kids : bool) : option cluster :=
  Some (mk_cluster label (f_of_Z 9) (f_of_Z death) 0 0 (f_of_Z stab) fzero D_MAX 0 0 [] parent [] kids).
Definition five : clusters :=
  [None; node 1 None 0 0 true; node 2 (Some 1) 4 5 true; node 3 (Some 1) 3 2 false; node 4 (Some 2) 2 1 false; node 5 (Some 2) 1 1 false].
Lemma five_child k p : child_in five k p <-> (k = 2 /\ p = 1) \/ (k = 3 /\ p = 1) \/ (k = 4 /\ p = 2) \/ (k = 5 /\ p = 2).
Proof.
  split.
  - intros (c & H & Hp). unfold cluster_in in H. do 6 (destruct k as [|k]; [cbn in H; try discriminate; injection H as <-; cbn in Hp; try discriminate; injection Hp as <-; lia|cbn in H]). destruct k; discriminate.
  - intros [[-> ->]|[[-> ->]|[[-> ->]|[-> ->]]]]; eexists; (split; [reflexivity|reflexivity]).
Qed.
Example five_tree : tree five 5.
Proof.
  split; [reflexivity|]. split; [lia|]. split; [reflexivity|]. intros k Hk.
  assert (K1 : exists j, child_in five j 1) by (exists 2; apply five_child; lia).
  assert (K2 : exists j, child_in five j 2) by (exists 4; apply five_child; lia).
  assert (Hc : k = 1 \/ k = 2 \/ k = 3 \/ k = 4 \/ k = 5) by lia.
  destruct Hc as [->|[->|[->|[->| ->]]]]; eexists; (split; [reflexivity|]); (split; [reflexivity|]);
    (split; [intros Hk1; first [discriminate Hk1|reflexivity]|]); (split; [intros Hk2; first [exfalso; lia|eexists; split; [reflexivity|lia]]|]); cbn [c_kids];
    split; intros H; first [reflexivity|assumption|cbn in H; discriminate H|exfalso; destruct H as (j & Hj); apply five_child in Hj; lia].
Qed.
Example five_fresh : fresh five /\ no_constraints five.
Proof.
  split; intros k c H; unfold cluster_in in H;
   do 6 (destruct k as [|k]; [cbn in H; try discriminate; injection H as <-; repeat split; reflexivity|cbn in H]); destruct k; discriminate.
Qed.
Example five_positive : forall k c, cluster_in five k c -> k <> 1 -> fle fzero (c_stab c) = true.
Proof. intros k c H _. unfold cluster_in in H. do 6 (destruct k as [|k]; [cbn [five nth_error] in H; try discriminate; injection H as <-; vm_compute; reflexivity|cbn [nth_error five] in H]). destruct k; discriminate. Qed.
Example five_leaves_die : forall l c, leaf five l -> l <> 1 -> cluster_in five l c -> flt (c_death c) D_MAX = true.
Proof. intros k c _ _ H. unfold cluster_in in H. do 6 (destruct k as [|k]; [cbn [five nth_error] in H; try discriminate; injection H as <-; vm_compute; reflexivity|cbn [nth_error five] in H]). destruct k; discriminate. Qed.
(** Cluster 2 is kept because 5 >= 1 + 1; the trace and the selected clusters for an order. *)
Example five_run : match propagate_tree 5 five [3; 0; 5; 1; 4; 2] with
  | Ok (inf, cs', trace) => inf = false /\ trace = [5; 4; 3; 2; 1] /\ (match nth_error cs' 1 with Some (Some r) => c_desc r = [3; 2] /\ feq (c_pstab r) (f_of_Z 7) = true | _ => False end)
  | _ => False end.
Proof. vm_compute. repeat split. Qed.
Example five_grid : forall k c, cluster_in five k c -> k <> 1 ->
  let m := fun k => match k with 2 => 5%Z | 3 => 2%Z | _ => 1%Z end in
  (0 <= m k)%Z /\ is_finite (c_stab c) = true /\ B2R (c_stab c) = (IZR (m k) * bpow radix2 0)%R.
Proof.
  intros k c H Hne m. assert (Hk : k = 2 \/ k = 3 \/ k = 4 \/ k = 5).
  { assert (k < 6) by (change 6 with (length five); apply nth_error_Some; unfold cluster_in in H; congruence). destruct k; [discriminate|lia]. }
  unfold cluster_in in H.
  assert (G : forall z, (0 <= z <= 2 ^ 53)%Z -> is_finite (f_of_Z z) = true /\ B2R (f_of_Z z) = (IZR z * bpow radix2 0)%R).
  { intros z Hz. destruct (f_of_Z_small z Hz) as [G1 G2]. split; [exact G1|]. rewrite G2. cbn [bpow]. symmetry. apply Rmult_1_r. }
  destruct Hk as [->|[->|[->| ->]]]; cbn [five nth_error] in H; unfold node in H; apply (f_equal (fun o => match o with Some (Some c) => c_stab c | _ => fzero end)) in H;
    cbn [c_stab] in H; rewrite <- H; cbn [m]; (split; [lia|]); apply G; lia.
Qed.
(** A cluster with infinite stability: not reported. *)
Definition five_inf : clusters := upd five 3 (Some (mk_cluster 3 (f_of_Z 9) (f_of_Z 3) 0 0 finf fzero D_MAX 0 0 [] (Some 1) [] false)).
Example five_inf_run : match propagate_tree 5 five_inf [0; 1; 2; 3; 4; 5] with Ok (inf, _, _) => inf = false | _ => False end.
Proof. vm_compute. reflexivity. Qed.
