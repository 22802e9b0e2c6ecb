(** C69: how many points a cluster has, how many clusters there are. *)
From Coq Require Import Permutation Sorted Reals Relations.
From Verif Require Import Base F64 F64Facts F64Arith ListFacts ModelUtils ModelDistance ModelMst ModelGraph ModelCluster ModelHier ModelSelect ModelRun SpecGraph SpecHier SpecTree
  PropUtils ProofDistance ProofCore PropDistance ProofMst PropMst PropGraph ProofHier ProofHierEnd PropHier ProofTreeSel PropSelect PropProminent PropOutlier ProofRun PropRun.
From Coq Require Import ZifyBool ZifyNat.
Local Open Scope nat_scope.

(** Disjoint groups of at least [m] elements each. *)
Lemma groups (P : nat -> nat -> Prop) m : forall ids, NoDup ids ->
  (forall k, In k ids -> exists l, NoDup l /\ m <= length l /\ forall v, In v l -> P k v) ->
  (forall j k v, In j ids -> In k ids -> P j v -> P k v -> j = k) ->
  exists big, NoDup big /\ length ids * m <= length big /\ forall v, In v big -> exists k, In k ids /\ P k v.
Proof.
  induction ids as [|k ids IH]; intros Hnd Hl Hd.
  - exists []. split; [constructor|]. split; [cbn; lia|]. intros v [].
  - inversion_clear Hnd as [|? ? Hk Hnd'].
    destruct IH as (big & B1 & B2 & B3); [exact Hnd'|intros j Hj; apply Hl; right; exact Hj|intros i j v Hi Hj; apply Hd; right; assumption|].
    destruct (Hl k (or_introl eq_refl)) as (l & L1 & L2 & L3). exists (l ++ big). split; [|split].
    + apply NoDup_app_intro; [exact L1|exact B1|]. intros v Hv Hb. destruct (B3 v Hb) as (j & Hj & Pj).
      assert (k = j) by (apply (Hd k j v); [left; reflexivity|right; exact Hj|apply L3; exact Hv|exact Pj]). subst j. contradiction.
    + rewrite app_length. cbn [length]. lia.
    + intros v Hv. apply in_app_or in Hv. destruct Hv as [Hv|Hv]; [exists k; split; [left; reflexivity|apply L3; exact Hv]|].
      destruct (B3 v Hv) as (j & Hj & Pj). exists j. split; [right; exact Hj|exact Pj].
Qed.
Lemma groups_bound (P : nat -> nat -> Prop) m a n ids : NoDup ids ->
  (forall k, In k ids -> exists l, NoDup l /\ m <= length l /\ forall v, In v l -> P k v) ->
  (forall j k v, In j ids -> In k ids -> P j v -> P k v -> j = k) -> (forall k v, P k v -> a <= v < a + n) -> length ids * m <= n.
Proof.
  intros H1 H2 H3 H4. destruct (groups P m ids H1 H2 H3) as (big & B1 & B2 & B3).
  apply (Nat.le_trans _ (length big)); [exact B2|]. rewrite <- (seq_length n a). apply NoDup_incl_length; [exact B1|].
  intros v Hv. destruct (B3 v Hv) as (k & _ & Pk). apply in_seq. apply (H4 k). exact Pk.
Qed.
Lemma filter_two (p : nat -> bool) l : length (filter p l) + length (filter (fun x => negb (p x)) l) = length l.
Proof. induction l as [|x l IH]; [reflexivity|]. cbn [filter]. destruct (p x); cbn [negb length]; lia. Qed.

(** At most 2n/minPts - 1 clusters, the root included. *)
Lemma cluster_count n e0 e adj m compact fuel h K : graph_input n e0 e adj -> covers n e -> 2 <= m -> compute_hierarchy fuel e n adj m compact = Ok h ->
  length (l_cs (h_l h)) = S K -> 2 <= K -> S K * m <= 2 * n.
Proof.
  intros HG Hcov Hm Hok HLK HK2.
  destruct (C30_cluster_tree n e0 e adj m compact fuel h HG Hcov Hm Hok) as (K' & HL & HK & H0 & Hlab & (r & Hr & Hrp & Hroot) & Hpar & Hsib & Hkids & Htwo).
  assert (K' = K) by lia. subst K'.
  pose proof (member_nested n e0 e adj m compact fuel h HG Hcov Hm Hok) as Hnest.
  set (kids := fun k => match nth_error (l_cs (h_l h)) k with Some (Some c) => c_kids c | _ => false end).
  assert (Hinner : length (filter kids (seq 1 K)) * 2 <= K - 1).
  { apply (groups_bound (fun p k => exists c, child h k p c) 2 2).
    - apply NoDup_filter, seq_NoDup.
    - intros p Hp. apply filter_In in Hp. destruct Hp as [Hp Hk]. apply in_seq in Hp. destruct (Hlab p ltac:(lia)) as (c & Hc & _).
      assert (Ek : kids p = c_kids c) by (unfold kids; unfold cluster_at in Hc; rewrite Hc; reflexivity). rewrite Ek in Hk. apply (Hkids p c Hc) in Hk. destruct Hk as (k & ck & Hck).
      destruct (Htwo k p ck Hck) as (j & cj & Hjk & Hcj). exists [j; k]. split; [constructor; [intros [E|[]]; congruence|constructor; [intros []|constructor]]|].
      split; [cbn; lia|]. intros v [<-|[<-|[]]]; eauto.
    - intros p q k _ _ (c & C1 & C2) (c' & C1' & C2'). unfold cluster_at in *. rewrite C1 in C1'. injection C1' as <-. congruence.
    - intros p k (c & C1 & C2). assert (Hkl : k < S K) by (rewrite <- HLK; apply nth_error_Some; unfold cluster_at in C1; congruence).
      destruct (Nat.lt_ge_cases k 2) as [Hk|Hk]; [|lia]. exfalso. destruct k as [|[|k]]; [unfold cluster_at in C1; congruence| |lia].
      unfold cluster_at in *. rewrite Hr in C1. injection C1 as <-. congruence. }
  assert (Hleaf : length (filter (fun k => negb (kids k)) (seq 1 K)) * m <= n).
  { assert (Hin : forall k v, member h k v -> v < n).
    { intros k. induction k as [k IH] using (well_founded_induction Wf_nat.lt_wf). intros v Hv.
      assert (Hex : exists c, cluster_at h k c) by (destruct Hv as (c & w & ls & H & _); exists c; exact H). destruct Hex as (c & Hc).
      destruct (Nat.lt_ge_cases k 2) as [Hk|Hk].
      - destruct k as [|[|k]]; [unfold cluster_at in Hc; congruence|apply Hroot; exact Hv|lia].
      - destruct (Hpar k c Hc Hk) as (p & cp & pts & _ & Hp & _ & _ & _ & _ & Hup). apply (IH p); [lia|]. apply Hup. exact Hv. }
    apply (groups_bound (member h) m 0).
    - apply NoDup_filter, seq_NoDup.
    - intros k Hk. apply filter_In in Hk. destruct Hk as [Hk Hn]. apply in_seq in Hk. destruct (Hlab k ltac:(lia)) as (c & Hc & _).
      assert (Ek : kids k = c_kids c) by (unfold kids; unfold cluster_at in Hc; rewrite Hc; reflexivity). rewrite Ek in Hn.
      assert (Hk2 : 2 <= k).
      { destruct (Nat.eq_dec k 1) as [->|]; [|lia]. exfalso. destruct (Hlab 2 ltac:(lia)) as (c2 & Hc2 & _).
        destruct (Hpar 2 c2 Hc2 (le_n 2)) as (p & cp & _ & P1 & P2 & _). assert (p = 1) by lia. subst p.
        assert (Hk1 : c_kids c = true) by (apply (Hkids 1 c Hc); exists 2, c2; split; assumption). rewrite Hk1 in Hn. discriminate. }
      destruct (Hpar k c Hc Hk2) as (p & cp & pts & _ & _ & _ & Hnd & Hlen & Hpts & _). exists pts. split; [exact Hnd|]. split; [exact Hlen|]. intros v Hv. apply Hpts. exact Hv.
    - assert (Hord : forall j k v, In k (filter (fun k => negb (kids k)) (seq 1 K)) -> j <= k -> In j (filter (fun k => negb (kids k)) (seq 1 K)) -> member h j v -> member h k v -> j = k).
      { intros j k v _ Hjk Hj Mj Mk. apply filter_In in Hj. destruct Hj as [Hj Hn]. apply in_seq in Hj. destruct (Hlab j ltac:(lia)) as (c & Hc & _).
        assert (Ek : kids j = c_kids c) by (unfold kids; unfold cluster_at in Hc; rewrite Hc; reflexivity). rewrite Ek in Hn.
        pose proof (Hnest v k j Hjk Mj Mk) as Hu. destruct (Nat.eq_dec j k) as [E|Hne]; [exact E|exfalso].
        assert (Hx : exists x, child_in (l_cs (h_l h)) x j).
        { clear -Hu Hne. induction Hu as [k c H|k p a Hc Hu IH]; [congruence|]. destruct (Nat.eq_dec a p) as [->|Hap]; [exists k; exact Hc|apply IH; exact Hap]. }
        destruct Hx as (x & cx & X1 & X2). assert (Hk1 : c_kids c = true) by (apply (Hkids j c Hc); exists x, cx; split; assumption). rewrite Hk1 in Hn. discriminate. }
      intros j k v Hj Hk Mj Mk. destruct (Nat.le_ge_cases j k) as [Hle|Hle]; [apply (Hord j k v); assumption|symmetry; apply (Hord k j v); assumption].
    - intros k v Hv. apply Hin in Hv. lia. }
  pose proof (filter_two kids (seq 1 K)) as Hsum. rewrite seq_length in Hsum.
  set (a := length (filter kids (seq 1 K))) in *. set (b := length (filter (fun k => negb (kids k)) (seq 1 K))) in *. clearbody a b.
  assert (S K <= 2 * b) by lia. nia.
Qed.

(** Different labels that occur. *)
Definition distinct_clusters (labels : list nat) : list nat := nodup Nat.eq_dec (filter (fun c => negb (c =? 0)) labels).

Lemma count_at_least (labels : list nat) c l : NoDup l -> (forall v, In v l -> nth_error labels v = Some c) -> length l <= count_occ Nat.eq_dec labels c.
Proof.
  revert l. induction labels as [|x labels IH]; intros l Hnd Hl.
  - destruct l as [|v l]; [apply Nat.le_refl|]. specialize (Hl v (or_introl eq_refl)). destruct v; discriminate Hl.
  - set (l' := map Nat.pred (filter (fun v => negb (v =? 0)) l)).
    assert (Hlen : length l' + length (filter (fun v => v =? 0) l) = length l).
    { unfold l'. rewrite map_length. pose proof (filter_two (fun v => v =? 0) l). lia. }
    assert (Hl' : length l' <= count_occ Nat.eq_dec labels c).
    { apply IH.
      - unfold l'. clear -Hnd. induction Hnd as [|v l Hv Hnd IH]; [constructor|]. cbn [filter]. destruct v as [|v]; cbn [Nat.eqb negb]; [exact IH|].
        cbn [map Nat.pred]. constructor; [|exact IH]. intros H. apply in_map_iff in H. destruct H as (u & E & Hu). apply filter_In in Hu. destruct Hu as [Hu Hn]. destruct u as [|u]; [discriminate|]. cbn in E. subst u. contradiction.
      - intros v Hv. unfold l' in Hv. apply in_map_iff in Hv. destruct Hv as (u & E & Hu). apply filter_In in Hu. destruct Hu as [Hu Hn]. destruct u as [|u]; [discriminate|]. cbn in E. subst u. apply (Hl (S v) Hu). }
    assert (Hz : length (filter (fun v => v =? 0) l) <= 1).
    { clear -Hnd. induction Hnd as [|v l Hv Hnd IH]; [cbn; lia|]. cbn [filter]. destruct (Nat.eqb_spec v 0) as [->|]; [|exact IH]. cbn [length].
      assert (E : filter (fun v => v =? 0) l = []); [|rewrite E; apply Nat.le_refl]. clear -Hv. induction l as [|u l IH]; [reflexivity|]. cbn [filter]. destruct (Nat.eqb_spec u 0) as [->|]; [contradict Hv; left; reflexivity|]. apply IH. intros H. apply Hv. right. exact H. }
    cbn [count_occ]. destruct (Nat.eq_dec x c) as [->|Hx]; [lia|].
    assert (E : filter (fun v => v =? 0) l = []).
    { destruct (filter (fun v => v =? 0) l) as [|v t] eqn:E; [reflexivity|]. exfalso. assert (Hv : In v (filter (fun v => v =? 0) l)) by (rewrite E; left; reflexivity).
      apply filter_In in Hv. destruct Hv as [Hv E0]. apply Nat.eqb_eq in E0. subst v. specialize (Hl 0 Hv). cbn in Hl. congruence. }
    rewrite E in Hlen. cbn [length] in Hlen. lia.
Qed.

(** ** C69.  Arbitrary data; minPoints of any size. *)
Theorem C69_cluster_sizes : forall ds rows cols minPts fuel s qsort,
  5 <= rows -> (Z.of_nat rows <= 65536)%Z -> holds ds rows cols -> (2 <= minPts < M32)%Z -> 2 * rows - 1 <= fuel -> valid s -> sorts qsort ->
  exists o r, fresh_run fuel s qsort minPts ds rows cols true = Ok o /\ o_res o = Some r /\
    (* a cluster that occurs has at least minPts points *)
    (forall c, In c (r_labels r) -> c <> 0 -> (minPts <= Z.of_nat (count_occ Nat.eq_dec (r_labels r) c))%Z) /\
    (* so there are at most rows / minPts of them *)
    (Z.of_nat (length (distinct_clusters (r_labels r))) * minPts <= Z.of_nat rows)%Z /\
    (* labels are positions in the list of clusters, which has at most 2 * rows / minPts places *)
    (forall c, In c (r_labels r) -> c < length (r_clusters r)) /\
    2 <= length (r_clusters r) /\
    (3 <= length (r_clusters r) -> (Z.of_nat (length (r_clusters r)) * minPts <= 2 * Z.of_nat rows)%Z).
Proof.
  intros ds rows cols m fuel s q Hr1 Hr HL Hm Hf Hs Hq.
  destruct (run_parts ds rows cols m fuel Hr1 Hr HL Hm Hf) as (d & P & _ & HR & HN & H). destruct (H s q Hs Hq) as (labels & os & E & HLl & Hlab & _). clear H.
  eexists. eexists. split; [exact E|]. split; [reflexivity|]. cbn [r_labels r_clusters]. clear E.
  destruct P as [e0 adj e h K inf cs' trace root E1 E2 E3 HG Hcov Hso Hfin Eh HLK Hp Hroot]. cbn [p_cs p_h p_root] in *.
  assert (Hm2 : 2 <= Z.to_nat m) by lia.
  destruct (C33_hierarchy_gives_tree rows e0 e adj (Z.to_nat m) false fuel h HG Hcov Hm2 Eh) as (K0 & HT & HF & HNc).
  assert (K0 = K) by (destruct HT as (HL' & _); lia). subst K0.
  pose proof (Hp _ _ (Permutation_refl _) (le_n K)) as Hrun.
  destruct (C34_selected_clusters_cover_the_leaves _ _ _ _ _ _ _ _ HT HF (Permutation_refl _) (le_n K) Hrun Hroot) as (_ & HR2 & _).
  destruct (C33_each_cluster_once_children_first _ _ HT HF) as (inf' & cs2 & trace' & Hrun' & _ & _ & Hsame).
  rewrite (Hrun' _ _ (Permutation_refl _) (le_n K)) in Hrun. injection Hrun as -> -> ->.
  assert (Hlen : length cs' = S K) by (rewrite (proj1 Hsame); exact HLK).
  destruct (C30_cluster_tree rows e0 e adj (Z.to_nat m) false fuel h HG Hcov Hm2 Eh) as (K' & HL' & HK & H0 & Hall & (r & Hr' & Hrp & Hrt) & Hpar & _).
  assert (K' = K) by lia. subst K'.
  assert (Hocc : forall c, In c labels -> c <> 0 -> exists l, NoDup l /\ Z.to_nat m <= length l /\ forall v, In v l -> nth_error labels v = Some c).
  { intros c Hc Hc0. apply In_nth_error in Hc. destruct Hc as [v Hv]. assert (Hvr : v < rows) by (rewrite <- HLl; apply nth_error_Some; congruence).
    apply (Hlab v c Hvr Hc0) in Hv. destruct Hv as [Hd Mv]. specialize (HR2 c Hd). destruct (Hall c ltac:(lia)) as (cc & Hcc & _).
    destruct (Hpar c cc Hcc (proj1 HR2)) as (p & cp & pts & _ & _ & _ & Hnd & Hln & Hpts & _). exists pts. split; [exact Hnd|]. split; [exact Hln|].
    intros u Hu. apply Hpts in Hu. assert (Hur : u < rows).
    { destruct Hu as (c1 & w1 & ls1 & _ & Hent & Hn). destruct (C29_hierarchy_entries rows e0 e adj (Z.to_nat m) false fuel h HG Hcov Hso Hm2 Eh) as (mm & _ & _ & _ & Hlens & _).
      rewrite <- (Hlens _ _ _ Hent). apply nth_error_Some. congruence. }
    apply (Hlab u c Hur Hc0). auto. }
  split; [|split; [|split; [|split]]].
  - intros c Hc Hc0. destruct (Hocc c Hc Hc0) as (l & L1 & L2 & L3). pose proof (count_at_least labels c l L1 L3). lia.
  - assert (Hb : length (distinct_clusters labels) * Z.to_nat m <= rows); [|clear -Hb Hm; nia].
    apply (groups_bound (fun c v => nth_error labels v = Some c) (Z.to_nat m) 0).
    + apply NoDup_nodup.
    + intros c Hc. apply nodup_In, filter_In in Hc. destruct Hc as [Hc Hn]. apply Hocc; [exact Hc|]. intros ->. discriminate Hn.
    + intros j k v _ _ Hj Hk. congruence.
    + intros c v Hv. assert (v < length labels) by (apply nth_error_Some; congruence). lia.
  - intros c Hc. destruct (Nat.eq_dec c 0) as [->|Hc0]; [lia|]. apply In_nth_error in Hc. destruct Hc as [v Hv]. assert (Hvr : v < rows) by (rewrite <- HLl; apply nth_error_Some; congruence).
    apply (Hlab v c Hvr Hc0) in Hv. specialize (HR2 c (proj1 Hv)). lia.
  - lia.
  - intros H3. pose proof (cluster_count rows e0 e adj (Z.to_nat m) false fuel h K HG Hcov Hm2 Eh HLK ltac:(lia)) as Hcnt. rewrite Hlen. clear -Hcnt Hm. nia.
Qed.
Print Assumptions C69_cluster_sizes.

(** The bounds are reached: six points in two groups of three, minPoints 3. *)
Example C69_example : match fresh_run 11 in_turn insertion_sort 3 (DDouble six) 6 1 true with
  | Ok o => match o_res o with Some r => (r_labels r, distinct_clusters (r_labels r), length (r_clusters r)) = ([2; 2; 2; 3; 3; 3], [2; 3], 4) | None => False end
  | _ => False end.
Proof. vm_compute. reflexivity. Qed.
