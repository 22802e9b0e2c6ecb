(** C58-C60: the C++ versions of the cluster map, the distance map, the statistics and the
    sorting of clusters. *)
From Coq Require Import Sorted Permutation.
From Verif Require Import Base ListFacts F64 F64Facts ModelArrayList SpecSeq ProofArrayList PropCollections ModelCells ModelHash
  ModelUtils ModelDistance ModelMap ProofMap PropClusterMap PropTandem SpecStats PropMinMax ProofStats F64Arith PropStats ModelCpp ProofCpp.
From Coq Require Import ZifyBool ZifyNat.
Local Open Scope nat_scope.

Lemma indices_sorted labels first n c : StronglySorted lt (indices labels first n c).
Proof.
  unfold indices. revert first. induction n as [|n IH]; intros first; cbn [seq filter]; [constructor|].
  destruct (match nth_error labels first with Some x => (x =? c)%Z | None => false end); [|apply IH]. constructor; [apply IH|].
  apply Forall_forall. intros x Hx. apply filter_In in Hx. destruct Hx as [Hx _]. apply in_seq in Hx. lia.
Qed.
Lemma indices_some labels first last c : first <= last -> indices labels first (last - first) c <> [] <-> exists i, first <= i < last /\ nth_error labels i = Some c.
Proof.
  intros Hr. split.
  - intros H. destruct (indices labels first (last - first) c) as [|i l] eqn:Ei; [contradiction|]. exists i.
    assert (Hx : In i (indices labels first (last - first) c)) by (rewrite Ei; left; reflexivity). apply indices_in in Hx. split; [lia|apply Hx].
  - intros (i & Hi) H. assert (Hx : In i (indices labels first (last - first) c)) by (apply indices_in; split; [lia|apply Hi]). rewrite H in Hx. destruct Hx.
Qed.
Lemma cpp_lists_keys labels first n m c : cpp_lists labels first n m -> In c (map fst m) <-> indices labels first n c <> [].
Proof.
  intros [HO HI]. split.
  - intros H. apply in_map_iff in H. destruct H as ([c' l] & E & H). cbn [fst] in E. subst c'. apply HI in H. apply H.
  - intros H. change c with (fst (c, map Z.of_nat (indices labels first n c))). apply in_map, HI. auto.
Qed.

(** C58.  The keys of createClusterMap are the labels of the range in increasing order, and every
    label is mapped to the increasing list of its positions.  Ranges of one and two points are
    no exception (C42_short_ranges_abort). *)
Theorem C58_cpp_cluster_map_is_the_partition : forall labels first last, first <= last <= length labels ->
  exists m, cpp_create_cluster_map labels (Z.of_nat first) (Z.of_nat last) = Ok m /\
    StronglySorted Z.lt (map fst m) /\
    (forall c, In c (map fst m) <-> exists i, first <= i < last /\ nth_error labels i = Some c) /\
    (forall c l, In (c, l) m -> exists l', l = map Z.of_nat l' /\ StronglySorted lt l' /\
       forall i, In i l' <-> first <= i < last /\ nth_error labels i = Some c).
Proof.
  intros labels first last Hr. destruct (cpp_create_ok labels first last Hr) as (m & E & HL). exists m. split; [exact E|]. split; [apply HL|]. split.
  - intros c. rewrite (cpp_lists_keys _ _ _ _ _ HL). apply indices_some. lia.
  - intros c l Hc. apply HL in Hc. destruct Hc as [_ ->]. eexists. split; [reflexivity|]. split; [apply indices_sorted|].
    intros i. rewrite indices_in. split; intros [H1 H2]; (split; [lia|exact H2]).
Qed.
Print Assumptions C58_cpp_cluster_map_is_the_partition.

Lemma stores_inj {A} (al : alist A) l l' : stores al l -> rep al l' -> l = l'.
Proof.
  intros [_ E1] H2. apply rep_elements in H2. destruct H2 as [E2 _]. rewrite E1 in E2. clear -E2. revert l' E2.
  induction l as [|x l IH]; intros [|y l'] E; cbn [map] in E; try discriminate; [reflexivity|]. injection E as -> E. f_equal. apply IH, E.
Qed.
Definition low_label (l : Z) : Prop := (0 <= l < 2147483648)%Z.
Lemma low_ok l : low_label l -> label_ok l.
Proof. unfold low_label, label_ok, M32. lia. Qed.
Lemma low_key l : low_label l -> lkey l = l.
Proof. unfold low_label, lkey, i32_of_u32. intros H. destruct (Z.ltb_spec l 2147483648); lia. Qed.
Lemma low_keys l : Forall low_label l -> map lkey l = l.
Proof. induction 1 as [|x l H _ IH]; [reflexivity|]. cbn [map]. rewrite (low_key x H), IH. reflexivity. Qed.
Lemma sorted_same (a b : list Z) : StronglySorted Z.lt a -> StronglySorted Z.lt b -> (forall x, In x a <-> In x b) -> a = b.
Proof.
  intros Ha Hb H. assert (E : map (fun x => (x, tt)) a = map (fun x => (x, tt)) b).
  { apply ordered_ext.
    - unfold ordered. rewrite map_map. cbn [fst]. rewrite map_id. exact Ha.
    - unfold ordered. rewrite map_map. cbn [fst]. rewrite map_id. exact Hb.
    - intros e. rewrite !in_map_iff. split; intros (x & E & Hx); exists x; (split; [exact E|apply H, Hx]). }
  apply (f_equal (map fst)) in E. rewrite !map_map in E. cbn [fst] in E. rewrite !map_id in E. exact E.
Qed.

Lemma both_maps labels first last : Forall label_ok labels -> (Z.of_nat (length labels) < M32)%Z -> first <= last <= length labels -> last - first = 0 \/ 3 <= last - first ->
  exists t mm m, create_cluster_map labels (Z.of_nat first) (Z.of_nat last) = Ok t /\ cpp_create_cluster_map labels (Z.of_nat first) (Z.of_nat last) = Ok m /\
    lists_ok labels first (last - first) t mm /\ cpp_lists labels first (last - first) m /\ forall c, In c (map fst m) <-> In c (map fst mm).
Proof.
  intros HL HM Hr Hn. destruct (create_ok labels first last HL HM Hr Hn) as (t & mm & E & HI). destruct (cpp_create_ok labels first last Hr) as (m & E' & HI').
  exists t, mm, m. split; [exact E|]. split; [exact E'|]. split; [exact HI|]. split; [exact HI'|]. intros c. rewrite (cpp_lists_keys _ _ _ _ _ HI').
  symmetry. apply HI.
Qed.

(** Where the C function works (no points or at least three), both build the same map, and for
    labels below 2^31 a caller meets the keys in the same order. *)
Theorem C58_same_map_as_c : forall labels first last,
  Forall label_ok labels -> (Z.of_nat (length labels) < M32)%Z -> first <= last <= length labels -> last - first = 0 \/ 3 <= last - first ->
  exists t m, create_cluster_map labels (Z.of_nat first) (Z.of_nat last) = Ok t /\ cpp_create_cluster_map labels (Z.of_nat first) (Z.of_nat last) = Ok m /\
    pt_size t = length m /\
    (forall c l, label_ok c -> maps_to t c l <-> In (c, l) m) /\
    (Forall low_label labels -> forall i c, nth_error (map fst m) i = Some c -> pt_key t i = Ok c).
Proof.
  intros labels first last HL HM Hr Hn. destruct (both_maps labels first last HL HM Hr Hn) as (t & mm & m & E & E' & (HG & Hm & Hk) & HC & HK). pose proof HC as [HO HI].
  exists t, m. split; [exact E|]. split; [exact E'|]. destruct (pt_keys t mm HG) as (ls & K1 & K2 & K3 & K4).
  assert (HND : NoDup (map fst m)).
  { clear -HO. induction m as [|[k v] m IH]; [constructor|]. apply ordered_cons in HO. destruct HO as [HO HL]. cbn [map fst]. constructor; [|apply IH, HO]. intros H. specialize (HL _ H). lia. }
  split; [|split].
  - rewrite K1. rewrite (Permutation_length K2). rewrite <- (map_length fst m). apply Permutation_length, NoDup_Permutation; [apply HG|exact HND|]. intros c. symmetry. apply HK.
  - intros c l Hc. split.
    + intros (a & al & Ef & Hal & Hst). rewrite (pt_find_ok t mm c HG Hc) in Ef. injection Ef as Ef. apply (pfind_in mm c a (pg_nd _ _ HG)) in Ef.
      destruct (Hm c a Ef) as (al' & Hal' & Hrep). rewrite Hal in Hal'. injection Hal' as <-. rewrite (stores_inj _ _ _ Hst Hrep). apply HI. split; [|reflexivity]. apply Hk. apply (in_map fst) in Ef. exact Ef.
    + intros Hin. apply HI in Hin. destruct Hin as [Hne ->]. apply Hk in Hne. apply in_map_iff in Hne. destruct Hne as ([c' a] & Ec & Ha). cbn [fst] in Ec. subst c'.
      destruct (Hm c a Ha) as (al & Hal & Hrep). exists a, al. split; [|split; [exact Hal|apply rep_elements in Hrep; split; tauto]].
      rewrite (pt_find_ok t mm c HG Hc). f_equal. apply (pfind_in mm c a (pg_nd _ _ HG)), Ha.
  - intros HF i c Hi. apply K4. rewrite <- Hi. f_equal. apply sorted_same; [|exact HO|].
    + rewrite <- (low_keys ls); [exact K3|]. apply Forall_forall. intros x Hx. apply (Permutation_in _ K2) in Hx. apply Hk in Hx.
      destruct (indices labels first (last - first) x) as [|j js] eqn:Ej; [contradiction|]. assert (Hj : In j (indices labels first (last - first) x)) by (rewrite Ej; left; reflexivity).
      apply indices_in in Hj. destruct Hj as [_ Hj]. apply nth_error_In in Hj. rewrite Forall_forall in HF. apply HF, Hj.
    + intros x. rewrite HK. split; apply Permutation_in; [|apply Permutation_sym]; exact K2.
Qed.
Print Assumptions C58_same_map_as_c.

(** Labels of 2^31 and more are negative for the comparison of the C table: a caller meets the
    keys in another order. *)
Theorem C58_large_labels_in_another_order_refuted :
  exists labels t m, Forall label_ok labels /\
    create_cluster_map labels 0 (Z.of_nat (length labels)) = Ok t /\ cpp_create_cluster_map labels 0 (Z.of_nat (length labels)) = Ok m /\
    exists c c', nth_error (map fst m) 0 = Some c /\ pt_key t 0 = Ok c' /\ c <> c'.
Proof.
  exists [1; 2147483648; 1]%Z.
  set (F := let! t := create_cluster_map [1; 2147483648; 1]%Z 0 (Z.of_nat (length [1; 2147483648; 1]%Z)) in pt_key t 0).
  assert (HF : F = Ok 2147483648%Z) by (vm_compute; reflexivity).
  destruct (C58_same_map_as_c [1; 2147483648; 1]%Z 0 3) as (t & m & E & E' & _).
  { repeat constructor; unfold label_ok, M32; lia. } { reflexivity. } { cbn; lia. } { right; lia. }
  exists t, m. split; [repeat constructor; unfold label_ok, M32; lia|]. split; [exact E|]. split; [exact E'|].
  unfold F in HF. change (Z.of_nat (length [1; 2147483648; 1]%Z)) with (Z.of_nat 3) in HF. change 0%Z with (Z.of_nat 0) in HF. rewrite E in HF. cbn [bind] in HF.
  exists 1%Z, 2147483648%Z. split; [|split; [exact HF|discriminate]].
  assert (Em : cpp_create_cluster_map [1; 2147483648; 1]%Z (Z.of_nat 0) (Z.of_nat 3) = Ok [(1, [0; 2]); (2147483648, [1])]%Z) by (vm_compute; reflexivity).
  rewrite Em in E'. injection E' as <-. reflexivity.
Qed.
Print Assumptions C58_large_labels_in_another_order_refuted.
Example C58_example :
  cpp_create_cluster_map [7; 0; 7; 3; 3; 9]%Z 1 5 = Ok [(0, [1]); (3, [3; 4]); (7, [2])]%Z /\
  cpp_create_cluster_map [7]%Z 0 1 = Ok [(7, [0])]%Z.
Proof. split; vm_compute; reflexivity. Qed.

(** C59.  getMinMaxDistances records the extremes of every cluster, for ranges of every size. *)
Theorem C59_cpp_min_max_distances : forall labels first last d core dist, first <= last <= length labels ->
  (forall i, first <= i < last -> zget (d_core d) (Z.of_nat i) = Ok (core (Z.of_nat i)) /\ nonneg (core (Z.of_nat i))) ->
  (forall i j, first <= i < last -> first <= j < last ->
     distance_get d (Z.of_nat i) (Z.of_nat j) = Ok (dist (Z.of_nat i) (Z.of_nat j)) /\ nonneg (dist (Z.of_nat i) (Z.of_nat j))) ->
  exists m dm, cpp_create_cluster_map labels (Z.of_nat first) (Z.of_nat last) = Ok m /\ cpp_get_min_max_distances d m = Ok dm /\
    StronglySorted Z.lt (map fst dm) /\
    (forall c, In c (map fst dm) <-> exists i, first <= i < last /\ nth_error labels i = Some c) /\
    (forall c v, In (c, v) dm -> exists i0 l, StronglySorted lt (i0 :: l) /\ (forall i, In i (i0 :: l) <-> first <= i < last /\ nth_error labels i = Some c) /\
       extremes core dist (Z.of_nat i0) (map Z.of_nat (i0 :: l)) v).
Proof.
  intros labels first last d core dist Hr H1 H2. destruct (cpp_create_ok labels first last Hr) as (m & E & HC). pose proof HC as [HO HI].
  assert (HR : forall c l, In (c, l) m -> l <> [] /\ readable d l core dist).
  { intros c l Hin. apply HI in Hin. destruct Hin as [Hne ->]. split; [destruct (indices labels first (last - first) c); [contradiction|discriminate]|].
    assert (Hi : forall z, In z (map Z.of_nat (indices labels first (last - first) c)) -> exists i, z = Z.of_nat i /\ first <= i < last).
    { intros z Hz. apply in_map_iff in Hz. destruct Hz as (i & <- & Hz). apply indices_in in Hz. exists i. split; [reflexivity|lia]. }
    split.
    - intros z Hz. destruct (Hi z Hz) as (i & -> & Hx). apply H1, Hx.
    - intros z Hz. destruct (Hi z Hz) as (i & -> & Hx). apply H1, Hx.
    - intros z w Hz Hw. destruct (Hi z Hz) as (i & -> & Hx), (Hi w Hw) as (j & -> & Hy). apply H2; assumption.
    - intros z w Hz Hw. destruct (Hi z Hz) as (i & -> & Hx), (Hi w Hw) as (j & -> & Hy). apply H2; assumption. }
  destruct (cpp_minmax_ok d core dist m HO) as (dm & E2 & K1 & K2).
  { intros c l Hin. destruct (HR c l Hin) as [A [B1 _ B3 _]]. split; [exact A|]. split; assumption. }
  exists m, dm. split; [exact E|]. split; [exact E2|]. rewrite K1. split; [exact HO|]. split.
  - intros c. rewrite (cpp_lists_keys _ _ _ _ _ HC). apply indices_some. lia.
  - intros c v Hin. apply In_nth_error in Hin. destruct Hin as (i & Hi).
    assert (Hlen : length dm = length m) by (rewrite <- (map_length fst dm), K1, map_length; reflexivity).
    destruct (nth_error m i) as [[c' l]|] eqn:Em; [|apply nth_error_None in Em; assert (i < length dm) by (apply nth_error_Some; congruence); lia].
    destruct (K2 i c' l Em) as (v' & Ev & Ew). rewrite Hi in Ev. injection Ev as <- <-. apply nth_error_In in Em. destruct (HR c l Em) as [Hne Hrd].
    destruct (walk_extremes d core dist l v Hne Hrd Ew) as (x & Hx & Hex). apply HI in Em. destruct Em as [Hn ->].
    destruct (indices labels first (last - first) c) as [|i0 r] eqn:Ei; [contradiction|]. cbn [map hd_error] in Hx. injection Hx as <-. exists i0, r.
    split; [rewrite <- Ei; apply indices_sorted|]. split; [|exact Hex]. intros j. rewrite <- Ei, indices_in. split; intros [A B]; (split; [lia|exact B]).
Qed.
Print Assumptions C59_cpp_min_max_distances.

(** On the ranges the C functions accept, and for labels below 2^31, the whole chain gives the
    same bits: the same extremes, statistics and confidences under the same keys in the same
    order.  No sign or NaN condition on the distances is needed. *)
Theorem C59_same_results_as_c : forall labels first last d core dist pow s,
  Forall low_label labels -> (Z.of_nat (length labels) < M32)%Z -> first <= last <= length labels -> 3 <= last - first ->
  (forall i, first <= i < last -> zget (d_core d) (Z.of_nat i) = Ok (core (Z.of_nat i))) ->
  (forall i j, first <= i < last -> first <= j < last -> distance_get d (Z.of_nat i) (Z.of_nat j) = Ok (dist (Z.of_nat i) (Z.of_nat j))) ->
  exists ct m t dm t' dm' s',
    create_cluster_map labels (Z.of_nat first) (Z.of_nat last) = Ok ct /\ cpp_create_cluster_map labels (Z.of_nat first) (Z.of_nat last) = Ok m /\
    get_min_max_distances d ct = Ok t /\ cpp_get_min_max_distances d m = Ok dm /\ reads t dm /\
    calculate_stats pow t s = Ok (t', s') /\ cpp_calculate_stats pow dm s = Ok (dm', s') /\ reads t' dm' /\
    analyse_stats s' = cpp_analyse_stats s'.
Proof.
  intros labels first last d core dist pow s HL HM Hr Hn H1 H2.
  assert (HL' : Forall label_ok labels) by (eapply Forall_impl; [|exact HL]; intros a; apply low_ok).
  destruct (both_maps labels first last HL' HM Hr (or_intror Hn)) as (ct & mm & m & E & E' & (HG & Hm & Hk) & HC & HK). pose proof HC as [HO HI].
  assert (HD : forall c, defined d core dist (map Z.of_nat (indices labels first (last - first) c))).
  { intros c. assert (Hi : forall z, In z (map Z.of_nat (indices labels first (last - first) c)) -> exists i, z = Z.of_nat i /\ first <= i < last).
    { intros z Hz. apply in_map_iff in Hz. destruct Hz as (i & <- & Hz). apply indices_in in Hz. exists i. split; [reflexivity|lia]. }
    split.
    - intros z Hz. destruct (Hi z Hz) as (i & -> & Hx). apply H1, Hx.
    - intros z w Hz Hw. destruct (Hi z Hz) as (i & -> & Hx), (Hi w Hw) as (j & -> & Hy). apply H2; assumption. }
  assert (Hlist : forall c, indices labels first (last - first) c <> [] -> map Z.of_nat (indices labels first (last - first) c) <> []).
  { intros c H. destruct (indices labels first (last - first) c); [contradiction|discriminate]. }
  destruct (c_minmax_ok d core dist ct mm HG) as (t & m' & Et & G' & P' & V').
  { intros c a Hin. destruct (Hm c a Hin) as (al & Hal & Hrep). eexists al, _. split; [exact Hal|]. split; [exact Hrep|]. split; [|apply HD].
    apply Hlist. apply Hk. apply (in_map fst) in Hin. exact Hin. }
  destruct (cpp_minmax_ok d core dist m HO) as (dm & Edm & K1 & K2).
  { intros c l Hin. apply HI in Hin. destruct Hin as [Hne ->]. split; [apply Hlist, Hne|apply HD]. }
  (* the table of the C chain holds the pairs of the C++ map *)
  destruct (table_exists t m' G') as (kv & HT & PT).
  assert (Hlow : forall c, In c (map fst m) -> low_label c).
  { intros c Hc. apply (cpp_lists_keys _ _ _ _ _ HC) in Hc. apply indices_some in Hc; [|lia]. destruct Hc as (i & _ & Hi). rewrite Forall_forall in HL. apply HL, (nth_error_In _ _ Hi). }
  assert (Hsame : forall c, In c (map fst kv) <-> In c (map fst m)).
  { intros c. rewrite HK. split; intros H.
    - apply (Permutation_in _ P'), (Permutation_in _ PT), H.
    - apply (Permutation_in _ (Permutation_sym PT)), (Permutation_in _ (Permutation_sym P')), H. }
  assert (Hkeys : map fst kv = map fst m).
  { apply sorted_same; [|exact HO|exact Hsame]. destruct HT as (_ & _ & _ & HS). rewrite low_keys in HS; [exact HS|]. apply Forall_forall. intros c Hc. apply Hlow, Hsame, Hc. }
  assert (Hkv : kv = dm).
  { apply nth_error_ext. intros i. destruct (nth_error m i) as [[c l]|] eqn:Em.
    - destruct (K2 i c l Em) as (v & Ev & Ew). rewrite Ev.
      assert (Ek : nth_error (map fst kv) i = Some c) by (rewrite Hkeys, nth_error_map, Em; reflexivity). rewrite nth_error_map in Ek.
      destruct (nth_error kv i) as [[c' w]|] eqn:Ekv; [|discriminate]. cbn in Ek. injection Ek as ->.
      destruct HT as (_ & (_ & _ & R3) & _). destruct (R3 i c w Ekv) as [_ Hw]. apply nth_error_In in Em. pose proof Em as Em'. apply HI in Em. destruct Em as [_ ->].
      assert (Hc : In c (map fst mm)) by (apply HK; apply (in_map fst) in Em'; exact Em'). apply in_map_iff in Hc. destruct Hc as ([c' a] & Ec & Ha). cbn [fst] in Ec. subst c'.
      destruct (Hm c a Ha) as (al & Hal & Hrep). destruct (V' c a al _ Ha Hal Hrep) as (v' & D1 & D2). rewrite Hw in D1. injection D1 as <-. rewrite Ew in D2. injection D2 as <-. reflexivity.
    - assert (Hi : length m <= i) by (apply nth_error_None, Em).
      rewrite (proj2 (nth_error_None kv i)) by (rewrite <- (map_length fst kv), Hkeys, map_length; exact Hi).
      rewrite (proj2 (nth_error_None dm i)) by (rewrite <- (map_length fst dm), K1, map_length; exact Hi). reflexivity. }
  subst kv.
  assert (Hne : dm <> []).
  { intros ->. destruct (nth_error labels first) as [c|] eqn:Ec; [|apply nth_error_None in Ec; lia].
    assert (Hc : In c (map fst m)) by (apply (cpp_lists_keys _ _ _ _ _ HC); apply indices_some; [lia|]; exists first; split; [lia|exact Ec]). rewrite <- K1 in Hc. destruct Hc. }
  assert (Hlen : (Z.of_nat (length dm) < M32)%Z).
  { assert (length (map fst dm) <= length labels); [|rewrite map_length in *; lia]. apply NoDup_incl_length; [apply HT|].
    intros c Hc. rewrite K1 in Hc. apply (cpp_lists_keys _ _ _ _ _ HC) in Hc. apply indices_some in Hc; [|lia]. destruct Hc as (i & _ & Hi). apply (nth_error_In _ _ Hi). }
  destruct (cpp_stats_ok pow dm s Hne Hlen t HT) as (t' & dm' & s' & A & B & C).
  exists ct, m, t, dm, t', dm', s'. split; [exact E|]. split; [exact E'|]. split; [exact Et|]. split; [exact Edm|]. split; [apply HT|]. split; [exact A|]. split; [exact B|]. split; [apply C|reflexivity].
Qed.
Print Assumptions C59_same_results_as_c.

(** An empty distance map makes calculateStats read an array without elements. *)
Theorem C59_empty_map_refuted : forall pow s, cpp_calculate_stats pow [] s = UB.
Proof. intros pow s. reflexivity. Qed.
Print Assumptions C59_empty_map_refuted.
Definition cpp_summary (data labels : list Z) : res (Z * list (Z * bool)) :=
  let! d := distance_compute (DDouble (map f_of_Z data)) (length data) 1 2 in
  let! m := cpp_create_cluster_map labels 0 (Z.of_nat (length labels)) in
  let! dm := cpp_get_min_max_distances d m in
  let! r := cpp_calculate_stats pow34 dm blank in
  Ok (st_count (snd r), map (fun e => (fst e, fle fzero (v_dr_conf (snd e)) && flt (v_dr_conf (snd e)) (f_of_Z 100))) (fst r)).
Example C59_example :
  cpp_summary [0; 1; 3; 10; 11; 14; 30; 31; 35]%Z [1; 1; 1; 2; 2; 2; 5; 5; 5]%Z = Ok (3, [(1, true); (2, true); (5, true)])%Z.
Proof. vm_compute. reflexivity. Qed.

(** C60.  The labels that are sorted: all keys when the vector is empty. *)
Definition chosen {V} (m : smap V) (clusters : list Z) : list Z := match clusters with [] => map fst m | _ => clusters end.

Lemma cpp_sort_by_ok {V} fuel (m : smap V) (key_of : V -> f64) clusters : ordered m -> chosen m clusters <> [] ->
  (Z.of_nat (length (chosen m clusters)) < 2147483648)%Z -> length (chosen m clusters) <= fuel ->
  (forall c, In c (chosen m clusters) -> exists v, In (c, v) m /\ fisnan (key_of v) = false) ->
  exists l, cpp_sort_by fuel m key_of clusters = Ok l /\ Permutation (chosen m clusters) l /\
    (forall i j c c' v v', i <= j -> nth_error l i = Some c -> nth_error l j = Some c' -> In (c, v) m -> In (c', v') m -> fle (key_of v) (key_of v') = true).
Proof.
  intros HO Hne Hlt Hf HD. set (f := fun c => match sm_find m c with Some v => key_of v | None => fzero end).
  assert (Hfv : forall c v, In (c, v) m -> f c = key_of v) by (intros c v H; apply (sm_find_in m c v HO) in H; unfold f; rewrite H; reflexivity).
  assert (E : (match clusters with [] => Ok (map fst m, map (fun e => key_of (snd e)) m) | _ => let! ks := cpp_keys m key_of clusters in Ok (clusters, ks) end) = Ok (chosen m clusters, map f (chosen m clusters))).
  { unfold chosen in *. destruct clusters as [|c0 cr].
    - do 2 f_equal. rewrite map_map. apply map_ext_in. intros [c v] H. cbn [fst snd]. symmetry. apply Hfv, H.
    - rewrite (cpp_keys_ok m key_of (c0 :: cr) f); [reflexivity|]. intros c Hc. destruct (HD c Hc) as (v & Hv & _). exists v. split; [apply (sm_find_in m c v HO), Hv|symmetry; apply Hfv, Hv]. }
  unfold cpp_sort_by. rewrite E. cbn [bind fst snd].
  destruct (cpp_sort_ok fuel (chosen m clusters) (map f (chosen m clusters)) Hne (map_length _ _) Hlt Hf) as (l' & k' & Es & L & P & S).
  { intros x Hx. apply in_map_iff in Hx. destruct Hx as (c & <- & Hc). destruct (HD c Hc) as (v & Hv & Hn). rewrite (Hfv c v Hv). exact Hn. }
  rewrite Es. cbn [bind fst]. destruct (keys_follow f _ l' k' L P) as [-> HP]. exists l'. split; [reflexivity|]. split; [exact HP|].
  intros i j c c' v v' Hij Hi Hj Hv Hv'. rewrite <- (Hfv c v Hv), <- (Hfv c' v' Hv'). apply (S i j); [exact Hij| |]; rewrite nth_error_map; [rewrite Hi|rewrite Hj]; reflexivity.
Qed.

Theorem C60_cpp_sort_by_length : forall fuel (m : smap (list Z)) clusters, StronglySorted Z.lt (map fst m) -> chosen m clusters <> [] ->
  (Z.of_nat (length (chosen m clusters)) < 2147483648)%Z -> length (chosen m clusters) <= fuel ->
  (forall c, In c (chosen m clusters) -> In c (map fst m)) -> (forall c l, In (c, l) m -> (Z.of_nat (length l) <= 2 ^ 53)%Z) ->
  exists l, cpp_sort_by_length fuel m clusters = Ok l /\ Permutation (chosen m clusters) l /\
    (forall i j c c' x y, i <= j -> nth_error l i = Some c -> nth_error l j = Some c' -> In (c, x) m -> In (c', y) m -> length x <= length y).
Proof.
  intros fuel m clusters HO Hne Hlt Hf HD Hb. unfold cpp_sort_by_length.
  destruct (cpp_sort_by_ok fuel m (fun l => f_of_Z (Z.of_nat (length l))) clusters HO Hne Hlt Hf) as (l & E & P & S).
  { intros c Hc. apply HD in Hc. apply in_map_iff in Hc. destruct Hc as ([c' x] & Ec & Hx). cbn [fst] in Ec. subst c'. exists x. split; [exact Hx|]. apply fin_notnan. apply f_of_Z_small. specialize (Hb c x Hx). lia. }
  exists l. split; [exact E|]. split; [exact P|]. intros i j c c' x y Hij Hi Hj Hx Hy. specialize (S i j c c' x y Hij Hi Hj Hx Hy).
  apply fle_of_Z in S; [lia| |]; [specialize (Hb c x Hx)|specialize (Hb c' y Hy)]; lia.
Qed.
Print Assumptions C60_cpp_sort_by_length.

Theorem C60_cpp_sort_by_similarity : forall fuel core (m : smap dvals) clusters, StronglySorted Z.lt (map fst m) -> chosen m clusters <> [] ->
  (Z.of_nat (length (chosen m clusters)) < 2147483648)%Z -> length (chosen m clusters) <= fuel ->
  (forall c, In c (chosen m clusters) -> In c (map fst m)) -> (forall c v, In (c, v) m -> fisnan (conf core v) = false) ->
  exists l, cpp_sort_by_similarity fuel m clusters core = Ok l /\ Permutation (chosen m clusters) l /\
    (forall i j c c' v v', i <= j -> nth_error l i = Some c -> nth_error l j = Some c' -> In (c, v) m -> In (c', v') m -> fle (conf core v) (conf core v') = true).
Proof.
  intros fuel core m clusters HO Hne Hlt Hf HD Hb. unfold cpp_sort_by_similarity.
  destruct (cpp_sort_by_ok fuel m (fun v => if core then v_cr_conf v else v_dr_conf v) clusters HO Hne Hlt Hf) as (l & E & P & S).
  { intros c Hc. apply HD in Hc. apply in_map_iff in Hc. destruct Hc as ([c' x] & Ec & Hx). cbn [fst] in Ec. subst c'. exists x. split; [exact Hx|]. apply (Hb c x Hx). }
  exists l. split; [exact E|]. split; [exact P|]. exact S.
Qed.
Print Assumptions C60_cpp_sort_by_similarity.

(** A label without an entry dereferences the end iterator; with no labels at all the process
    is ended by the empty list; three or more labels whose confidences are NaN are never sorted. *)
Lemma cpp_keys_missing {V} (m : smap V) key_of l : (exists c, In c l /\ ~ In c (map fst m)) -> cpp_keys m key_of l = UB.
Proof.
  intros (c & Hc & Hn). unfold cpp_keys. apply In_nth_error in Hc. destruct Hc as (p & Hp). assert (Hpl : p < length l) by (apply nth_error_Some; congruence).
  assert (HG : forall n k ks, k <= p < k + n -> k + n <= length l ->
     for_up k n (fun i ks => let! key := aget l i in let! v := sm_deref m key in Ok (ks ++ [key_of v])) ks = UB).
  { induction n as [|n IH]; intros k ks H1 H2; [lia|]. cbn [for_up]. destruct (aget_ok l k ltac:(lia)) as (x & -> & Ex). cbn [bind]. unfold sm_deref.
    destruct (Nat.eq_dec k p) as [->|].
    - rewrite Hp in Ex. injection Ex as <-. rewrite (proj2 (sm_find_none m c) Hn). reflexivity.
    - destruct (sm_find m x) as [v|]; cbn [bind]; [|reflexivity]. apply IH; lia. }
  apply HG; lia.
Qed.
Theorem C60_bad_inputs_refuted : forall fuel (ct : smap (list Z)) (dm : smap dvals) clusters core,
  ((exists c, In c clusters /\ ~ In c (map fst ct)) -> cpp_sort_by_length fuel ct clusters = UB) /\
  ((exists c, In c clusters /\ ~ In c (map fst dm)) -> cpp_sort_by_similarity fuel dm clusters core = UB) /\
  cpp_sort_by_length fuel [] [] = Abort /\ cpp_sort_by_similarity fuel [] [] core = Abort /\
  (3 <= length dm -> (Z.of_nat (length dm) < 2147483648)%Z -> (forall x, In x dm -> fisnan (conf core (snd x)) = true) -> cpp_sort_by_similarity fuel dm [] core = Fuel).
Proof.
  intros fuel ct dm clusters core. split; [|split; [|split; [reflexivity|split; [reflexivity|]]]].
  - intros H. unfold cpp_sort_by_length, cpp_sort_by. destruct clusters as [|c0 cr]; [destruct H as (c & [] & _)|]. rewrite (cpp_keys_missing ct _ _ H). reflexivity.
  - intros H. unfold cpp_sort_by_similarity, cpp_sort_by. destruct clusters as [|c0 cr]; [destruct H as (c & [] & _)|]. rewrite (cpp_keys_missing dm _ _ H). reflexivity.
  - intros H3 Hlt HN. unfold cpp_sort_by_similarity, cpp_sort_by. cbn [bind fst snd]. unfold cpp_quick_sort. rewrite !map_length.
    assert (Ei : forall T, exists al0 : alist T, array_list_init (length dm) = Ok al0).
    { intros T. unfold array_list_init. destruct (Nat.ltb_spec 0 (length dm)); [eauto|lia]. }
    destruct (Ei f64) as (a1 & ->), (Ei Z) as (a0 & ->). cbn [bind].
    set (ks := map (fun e : Z * dvals => if core then v_cr_conf (snd e) else v_dr_conf (snd e)) dm).
    assert (Hk : length ks = length dm) by apply map_length.
    rewrite (for_up_app (fun i => aget ks i) ks (length dm) 0 []); [|intros i x Hx; apply aget_nth, Hx|exact Hk]. cbn [bind app].
    assert (Hr : i32_of_u32 (u32 (Z.of_nat (length dm) - 1)) = (Z.of_nat (length dm) - 1)%Z).
    { unfold i32_of_u32, u32, M32. rewrite Z.mod_small by lia. destruct (Z.ltb_spec (Z.of_nat (length dm) - 1) 2147483648); lia. }
    rewrite Hr. change (i32_of_u32 0) with 0%Z. destruct (nth_error dm 0) as [x|] eqn:Ekv; [|apply nth_error_None in Ekv; lia].
    rewrite (C47_nan_pivot_never_terminates_refuted _ fuel _ _ 0 (Z.of_nat (length dm) - 1)%Z (conf core (snd x))); [reflexivity|lia|lia| | | |].
    + rewrite map_length. lia.
    + lia.
    + change (Z.to_nat 0) with 0. unfold ks. rewrite nth_error_map, Ekv. reflexivity.
    + apply HN, (nth_error_In _ _ Ekv).
Qed.
Print Assumptions C60_bad_inputs_refuted.

(** A vector of two labels comes back sorted, while the C function returns the same list with the
    larger confidence first (C49_supplied_list_refuted). *)
Theorem C60_c_and_cpp_disagree : forall fuel core t k1 v1 k2 v2 al, table t [(k1, v1); (k2, v2)] -> (k1 < k2)%Z -> rep al [k2; k1] -> 2 <= fuel ->
  flt (conf core v1) (conf core v2) = true ->
  cpp_sort_by_similarity fuel [(k1, v1); (k2, v2)] [k2; k1] core = Ok [k1; k2] /\
  exists al', sort_by_similarity fuel t (Some al) core = Ok al' /\ stores al' [k2; k1].
Proof.
  intros fuel core t k1 v1 k2 v2 al HT Hk HR Hf Hlt. split; [|apply (C49_supplied_list_refuted fuel core t k1 v1 k2 v2 al HT HR Hf Hlt)].
  pose proof (flt_true _ _ Hlt) as (N1 & N2 & K).
  destruct (C60_cpp_sort_by_similarity fuel core [(k1, v1); (k2, v2)] [k2; k1]) as (l & E & P & S).
  { cbn [map fst]. repeat constructor. exact Hk. } { discriminate. } { cbn; lia. } { exact Hf. }
  { intros c [<-|[<-|[]]]; cbn; auto. } { intros c v [H|[H|[]]]; injection H as <- <-; assumption. }
  rewrite E. f_equal. cbn [chosen] in P. apply Permutation_length_2_inv in P. destruct P as [P|P]; subst l; [|reflexivity].
  exfalso. specialize (S 0 1 k2 k1 v2 v1 ltac:(lia) eq_refl eq_refl (or_intror (or_introl eq_refl)) (or_introl eq_refl)). apply fle_true in S. destruct S as (_ & _ & S). lia.
Qed.
Print Assumptions C60_c_and_cpp_disagree.
Definition with_dr (z : Z) : dvals := mk_dvals fzero fzero fzero fzero fzero (f_of_Z z).
Example C60_example :
  cpp_sort_by_length 10 [(3, [3; 4]); (7, [0; 1; 2]); (9, [5])]%Z [] = Ok [9; 3; 7]%Z /\
  cpp_sort_by_length 10 [(3, [3; 4]); (7, [0; 1; 2]); (9, [5])]%Z [7; 3; 3]%Z = Ok [3; 3; 7]%Z /\
  cpp_sort_by_similarity 10 [(1, with_dr 40); (2, with_dr 10); (5, with_dr 20)]%Z [1; 5]%Z false = Ok [5; 1]%Z.
Proof. repeat split; vm_compute; reflexivity. Qed.
