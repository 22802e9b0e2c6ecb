(** C86: the hierarchy on the containers of the library. *)
From Coq Require Import Permutation Sorted.
From Verif Require ModelMap.
From Verif Require Import Base F64 F64Facts ListFacts ModelUtils ModelArrayList ModelMst ModelGraph ProofArrayList ModelConcrete ProofConcrete ProofConcreteTable ModelCluster ModelHier
  SpecGraph SpecHier ModelDistance PropGraph PropHier PropSize SpecConcrete ProofConcreteHier.
From Coq Require Import ZifyBool ZifyNat.
Local Open Scope nat_scope.

Lemma rep_reads {A} (v : alist A) l : ProofArrayList.rep v l -> reads v l.
Proof. intros (H1 & H2 & H3 & H4 & H5). repeat split; [exact H1|lia|exact H5]. Qed.
Lemma ptrs_seq : forall cs i, Forall (fun c => c <> None) cs -> ptrs_from i cs = map Some (seq i (length cs)).
Proof.
  induction cs as [|[c|] cs IH]; intros i H; inversion_clear H; cbn [ptrs_from length seq map]; [reflexivity| |congruence]. rewrite IH by assumption. reflexivity.
Qed.
Lemma rel_same k s : st_rel k s -> nth_error (l_cs s) 0 = Some None -> (forall i, 1 <= i < length (l_cs s) -> nth_error (l_cs s) i <> Some None) ->
  same_clusters (k_ptrs k) (k_cs k) (l_cs s).
Proof.
  intros H H0 Hs. pose proof (sr_ptrs _ _ H) as HP. pose proof (sr_cs _ _ H) as HC. unfold same_clusters.
  split; [|split; [exact H0|]].
  - destruct (l_cs s) as [|c cs] eqn:E; [discriminate|]. injection H0 as ->. exists (length cs). split; [reflexivity|]. apply rep_reads. cbn [ptrs_from] in HP.
    rewrite ptrs_seq in HP; [exact HP|]. apply Forall_forall. intros c Hc ->. apply In_nth_error in Hc. destruct Hc as [i Hi].
    apply (Hs (S i)); [|exact Hi]. cbn [length]. assert (i < length cs) by (apply nth_error_Some; congruence). lia.
  - intros i c Hi. apply cget_nth in Hi. destruct (oget_sim _ _ i c HC Hi) as (o & O1 & O2 & O3 & O4). exists o. split.
    + unfold oget, aget in O1. destruct (nth_error (k_cs k) i) as [[x|]|]; cbn [bind got] in O1; congruence.
    + unfold same_cluster. rewrite O2. cbn [erase c_label c_birth c_death c_num c_offset c_stab c_pstab c_plow c_nc c_pnc c_parent c_kids].
      do 12 (split; [reflexivity|]). split; apply rep_reads; [apply O3|exact O4].
Qed.

Lemma triples_small n e : aligned e -> vertices_below n e -> (Z.of_nat n <= limit)%Z -> Forall small (e_a e) /\ Forall small (e_b e).
Proof.
  intros HA [Ha Hb] Hn. rewrite Forall_forall in Ha, Hb. split; apply Forall_forall; intros x Hx; apply below_small with n; auto.
Qed.

Lemma rel_table t h : lt_rel t (hget h) -> (forall i, hget h i <> None -> small i) -> same_table t h.
Proof.
  intros H HK. split; [|split].
  - intros k v E. destruct (lt_find_some t _ k v H (HK k ltac:(congruence)) E) as (a & A1 & A2). exists a. split; [exact A1|]. unfold ModelMap.pt_load in A2. apply aget_inv in A2. exact A2.
  - intros k Hk E. apply (lt_find_none t _ k H); [unfold small; lia|exact E].
  - destruct (lt_keys_sim t _ H) as (ks & K1 & K2 & K3 & K4 & K5). exists ks. split; [exact K1|]. split; [exact K2|]. split; [exact K5|].
    intros k. split; intros Hk; [rewrite Forall_forall in K3; apply K4; auto|apply K4; auto].
Qed.

Theorem C86_hierarchy_on_containers : forall list0 buckets tab0 n e0 e adj minPts compact fuel,
  graph_input n e0 e adj -> covers n e -> no_nan e -> 2 <= minPts -> length (e_w e) <= fuel -> (Z.of_nat n <= 2147483648)%Z ->
  (Z.of_nat (length (e_w e)) < 2147483648)%Z -> empty_list list0 -> lt_init buckets = Ok tab0 ->
  exists h lists g,
    compute_hierarchy fuel e n adj minPts compact = Ok h /\
    c_graph_init n e0 = Ok lists /\ c_compute_hierarchy list0 tab0 fuel e n lists minPts compact = Ok g /\
    k_cur (g_s g) = l_cur (h_l h) /\ k_noise (g_s g) = l_noise (h_l h) /\ k_last (g_s g) = l_last (h_l h) /\
    same_table (g_hier g) (h_hier h) /\ same_clusters (k_ptrs (g_s g)) (k_cs (g_s g)) (l_cs (h_l h)).
Proof.
  intros list0 buckets tab0 n e0 e adj m compact fuel HG Hcov Hnn Hm Hf Hn Hw (E1 & E2 & E3) Ht.
  destruct (C25_hierarchy_terminates n e0 e adj m compact fuel HG Hm Hnn Hf) as (h & Hok).
  pose proof HG as (Hn1 & _ & Ha0 & Hv0 & Hinit & _ & _).
  destruct (triples_small n e0 Ha0 Hv0 Hn) as [S1 S2].
  destruct (graph_init_sim n e0 adj S1 S2 Hinit) as (lists & L1 & L2).
  destruct (C30_cluster_tree n e0 e adj m compact fuel h HG Hcov Hm Hok) as (K & HLK & HK1 & H0 & Hlab & _).
  assert (HR : ProofArrayList.rep list0 []) by (repeat split; cbn [length]; try lia; intros [|i] a Hi; discriminate).
  assert (HLa : length adj = n).
  { destruct (C24_adjacency_matches_edges n e0 Ha0 Hv0) as (adj1 & A1 & A2 & _). congruence. }
  destruct (lt_init_sim (V := f64 * list nat) buckets) as (t & T1 & T2). assert (t = tab0) by congruence. subst t.
  destruct (compute_hierarchy_sim list0 tab0 fuel e n lists adj m compact h HR T2 L2) as (g & G1 & HS & G3 & G4 & _); [rewrite HLa; exact Hn|exact Hnn|unfold small; lia|exact Hok| |].
  { rewrite (hierarchy_next _ _ _ _ _ _ _ Hok), HLK. unfold limit. destruct (le_lt_dec 2 K) as [HK2|HK2]; [|lia].
    pose proof (cluster_count n e0 e adj m compact fuel h K HG Hcov Hm Hok HLK HK2). nia. }
  exists h, lists, g. split; [exact Hok|]. split; [exact L1|]. split; [exact G1|].
  split; [exact (sr_cur _ _ HS)|]. split; [exact (sr_noise _ _ HS)|]. split; [exact (sr_last _ _ HS)|]. split; [apply rel_table; [exact G3|exact G4]|].
  apply rel_same; [exact HS|exact H0|]. intros i Hi. destruct (Hlab i ltac:(lia)) as (c & Hc & _). unfold SpecHier.cluster_at in Hc. congruence.
Qed.
Print Assumptions C86_hierarchy_on_containers.

(** The case of [six_hypotheses], with a list of capacity 1 to start from and a table asked
    for 4 buckets: the list grows, holds four pointers, the sets of points left as noise
    under clusters 2 and 3 have been filled, and the table lists the five levels. *)
Example C86_example :
  empty_list (AL [None] 0 1 : alist (option nat)) /\
  match (let! d := six_distance in let! e0 := construct_mst d 6 true in let! lists := c_graph_init 6 e0 in let! e := graph_quicksort_by_edge_weight e0 in
         let! tab0 := lt_init 4 in c_compute_hierarchy (AL [None] 0 1) tab0 11 e 6 lists 2 false) with
  | Ok g => (firstn 4 (al_data (k_ptrs (g_s g))), al_size (k_ptrs (g_s g)), 1 <? al_max (k_ptrs (g_s g)), k_cur (g_s g), map (lt_key (g_hier g)) (seq 0 5),
             map (fun o => match o with Some o => firstn (al_size (o_virt o)) (al_data (o_virt o)) | None => [] end) (k_cs (g_s g)))
            = ([Some None; Some (Some 1); Some (Some 2); Some (Some 3)], 4, true, [0; 0; 0; 0; 0; 0], map Ok [0; 1; 2; 3; 4],
               [[]; []; [Some 0; Some 1; Some 2]; [Some 3; Some 4; Some 5]])
  | _ => False
  end.
Proof. split; [unfold empty_list; cbn; lia|]. vm_compute. reflexivity. Qed.
