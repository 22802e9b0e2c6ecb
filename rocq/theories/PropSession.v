(** C106: what the sample program does with a finished run. *)
From Coq Require Import Sorted Permutation.
From Verif Require Import Base ListFacts F64 F64Facts F64Arith ModelArrayList SpecSeq ProofArrayList PropCollections ModelCells ModelHash
  ModelUtils ModelDistance ModelMap ModelMst ModelRun ModelSession ProofMap PropClusterMap PropTandem SpecStats PropMinMax ProofStats PropStats
  PropUtils PropDistance PropMst ProofHierEnd PropOutlier ProofRun PropRun PropSize.
From Coq Require Import ZifyBool ZifyNat.
Local Open Scope nat_scope.

Lemma indices_count labels c n : n <= length labels -> length (indices labels 0 n c) = count_occ Z.eq_dec (firstn n labels) c.
Proof.
  induction n as [|n IH]; intros Hn; [reflexivity|]. rewrite indices_S, app_length, IH by lia. cbn [Nat.add].
  destruct (nth_error labels n) as [x|] eqn:E; [|apply nth_error_None in E; lia].
  assert (Ef : firstn (S n) labels = firstn n labels ++ [x]).
  { clear -E. revert n E. induction labels as [|a l IH]; intros [|n] E; try discriminate; cbn in *; [injection E as ->; reflexivity|]. f_equal. apply IH, E. }
  rewrite Ef, count_occ_app. f_equal. cbn [count_occ]. destruct (Z.eq_dec x c) as [->|Hx]; [rewrite Z.eqb_refl; reflexivity|]. replace (x =? c)%Z with false by lia. reflexivity.
Qed.

Lemma key_list_ok {ct : ptable (alist Z)} kv : table ct kv -> kv <> [] -> exists al, key_list ct = Ok al /\ rep al (map fst kv).
Proof.
  intros HT Hne. destruct HT as (_ & (R1 & _ & R3) & _). unfold key_list. rewrite R1.
  assert (Ei : exists al0 : alist Z, array_list_init (length kv) = Ok al0 /\ rep al0 []).
  { assert (E : exists al0 : alist Z, array_list_init (length kv) = Ok al0).
    { unfold array_list_init. destruct (Nat.ltb_spec 0 (length kv)); [eauto|]. destruct kv; [contradiction|cbn in *; lia]. }
    destruct E as (al0 & E). exists al0. split; [exact E|]. apply (rep_init _ _ E). }
  destruct Ei as (al0 & -> & R0). cbn [bind].
  destruct (for_up_inv (fun i al => rep al (firstn i (map fst kv))) (fun i l => let! k := pt_key ct i in let! a := array_list_append l k in Ok (fst a)) 0 (length kv) al0) as (al & E & R).
  - exact R0.
  - intros i al Hi HR. destruct (nth_error kv i) as [[k v]|] eqn:Ek; [|apply nth_error_None in Ek; lia]. destruct (R3 i k v Ek) as [-> _]. cbn [bind].
    destruct (append_ok al _ k HR) as (al' & -> & R'). cbn [bind fst]. exists al'. split; [reflexivity|].
    assert (En : nth_error (map fst kv) i = Some k) by (rewrite nth_error_map, Ek; reflexivity).
    replace (firstn (S i) (map fst kv)) with (firstn i (map fst kv) ++ [k]); [exact R'|]. clear -En. revert i En. generalize (map fst kv). induction l as [|a l IH]; intros [|i] E; try discriminate; cbn in *; [injection E as ->; reflexivity|]. f_equal. apply IH, E.
  - exists al. split; [exact E|]. cbn [Nat.add] in R. rewrite firstn_all2 in R by (rewrite map_length; lia). exact R.
Qed.

Lemma stores_slot {A} (al : alist A) l i a : stores al l -> nth_error l i = Some a -> slot (al_data al) i = Ok a.
Proof.
  intros [S1 S2] Hi. assert (Hlt : i < length l) by (apply nth_error_Some; congruence).
  assert (H : nth_error (firstn (al_size al) (al_data al)) i = Some (Some a)) by (rewrite S2, nth_error_map, Hi; reflexivity).
  rewrite nth_error_firstn in H. destruct (i <? al_size al); [|discriminate]. unfold slot. rewrite H. reflexivity.
Qed.
Lemma read_all_ok {V} (t : ptable V) al l : stores al l -> (forall c, In c l -> exists v, pt_deref t c = Ok v) -> read_all t al = Ok tt.
Proof.
  intros HS HD. unfold read_all. rewrite (proj1 HS).
  destruct (for_up_inv (fun _ _ => True) (fun i (_ : unit) => let! k := slot (al_data al) i in let! v := pt_deref t k in Ok tt) 0 (length l) tt I) as (u & -> & _).
  - intros i s Hi _. destruct (nth_error l i) as [c|] eqn:Ec; [|apply nth_error_None in Ec; lia]. rewrite (stores_slot al l i c HS Ec). cbn [bind].
    destruct (HD c (nth_error_In _ _ Ec)) as (v & ->). cbn [bind]. eauto.
  - destruct u. reflexivity.
Qed.

(** The sort by similarity of a list given by the caller never ends if no confidence is a number. *)
Lemma supplied_nan fuel core t kv al l : table t kv -> stores al l -> 3 <= length l -> length l <= length kv -> (Z.of_nat (length l) < 2147483648)%Z ->
  (forall x, In x kv -> fisnan (conf core (snd x)) = true) -> sort_by_similarity fuel t (Some al) core = Fuel.
Proof.
  intros HT [R1 R2] H3 Hl Hlt HN. unfold sort_by_similarity. rewrite R1.
  assert (Ei : exists al0 : alist f64, array_list_init (length l) = Ok al0) by (unfold array_list_init; destruct (Nat.ltb_spec 0 (length l)); [eauto|lia]).
  destruct Ei as (al0 & ->). cbn [bind]. rewrite (keys_conf core t kv (length l) HT Hl). cbn [bind].
  unfold sort_list. rewrite R1.
  assert (Hr : i32_of_u32 (u32 (Z.of_nat (length l) - 1)) = (Z.of_nat (length l) - 1)%Z).
  { unfold i32_of_u32, u32, M32. rewrite Z.mod_small by lia. destruct (Z.ltb_spec (Z.of_nat (length l) - 1) 2147483648); lia. }
  assert (Hd : length l <= length (al_data al)).
  { apply (f_equal (@List.length _)) in R2. rewrite firstn_length, map_length in R2. lia. }
  rewrite Hr. destruct (nth_error kv 0) as [x|] eqn:Ekv; [|apply nth_error_None in Ekv; lia].
  rewrite (C47_nan_pivot_never_terminates_refuted _ fuel _ _ 0 (Z.of_nat (length l) - 1)%Z (conf core (snd x))); [reflexivity|lia|lia|lia| | |].
  - rewrite firstn_length, map_length. lia.
  - change (Z.to_nat 0) with 0. rewrite nth_error_firstn. replace (0 <? length l) with true by (symmetry; apply Nat.ltb_lt; lia). rewrite nth_error_map, Ekv. reflexivity.
  - apply HN, (nth_error_In _ _ Ekv).
Qed.

(** ** The run, the two tables and the two lists *)

(** Every distance between two different rows is a number. *)
Definition distances_are_numbers (ds : dataset) (rows cols : nat) : Prop :=
  forall i j, i < j < rows -> fisnan (euclidean ds cols i j) = false.
(** The labels of a result, as the program reads them. *)
Definition label_list (r : results) : list Z := map Z.of_nat (r_labels r).

Section Prepared.
Variables (labels : list Z) (d : distance).
Hypotheses (HL : Forall label_ok labels) (HM : (Z.of_nat (length labels) <= 65536)%Z) (H5 : 5 <= length labels).
Hypothesis HC : forall i, i < length labels -> exists x, zget (d_core d) (Z.of_nat i) = Ok x /\ PropMinMax.nonneg x.
Hypothesis HD : forall i j, i < length labels -> j < length labels -> exists x, distance_get d (Z.of_nat i) (Z.of_nat j) = Ok x /\ PropMinMax.nonneg x.

Lemma tables : exists ct kc t kt, create_cluster_map labels 0 (Z.of_nat (length labels)) = Ok ct /\ table ct kc /\ get_min_max_distances d ct = Ok t /\ table t kt /\
  (forall c, In c (map fst kc) <-> In c labels) /\ Permutation (map fst kt) (map fst kc) /\
  (forall c, In c (map fst kc) -> exists al, pt_deref ct c = Ok al /\ al_size al = count_occ Z.eq_dec labels c) /\
  (forall c v, In (c, v) kt ->
     (forall i j, i <> j -> nth_error labels i = Some c -> nth_error labels j = Some c -> exists x, distance_get d (Z.of_nat i) (Z.of_nat j) = Ok x /\ is_zero x = true) ->
     v_max_dr v = D_MIN /\ v_min_dr v = D_MAX).
Proof.
  set (n := length labels) in *.
  destruct (create_ok labels 0 n HL ltac:(unfold M32; lia) ltac:(lia) ltac:(lia)) as (ct & m & E & HG & Hm & Hk). rewrite Nat.sub_0_r in Hm, Hk.
  change (Z.of_nat 0) with 0%Z in E.
  set (core := fun z => match zget (d_core d) z with Ok x => x | _ => fzero end).
  set (dist := fun z z' => match distance_get d z z' with Ok x => x | _ => fzero end).
  assert (HI : forall c x, In x (map Z.of_nat (indices labels 0 n c)) -> exists i, x = Z.of_nat i /\ i < n).
  { intros c x Hx. apply in_map_iff in Hx. destruct Hx as (i & <- & Hi). apply indices_in in Hi. exists i. split; [reflexivity|lia]. }
  destruct (minmax_ok d core dist ct m HG) as (t & m' & Et & Gt & Pt & Hv).
  { intros c a Hin. destruct (Hm c a Hin) as (al & Hal & Hrep). exists al, (map Z.of_nat (indices labels 0 n c)).
    split; [exact Hal|]. split; [exact Hrep|]. split.
    - assert (H : indices labels 0 n c <> []) by (apply Hk; apply (in_map fst) in Hin; exact Hin). destruct (indices labels 0 n c); [contradiction|discriminate].
    - split.
      + intros i Hi. destruct (HI c i Hi) as (k & -> & Hk'). unfold core. destruct (HC k Hk') as (x & -> & _). reflexivity.
      + intros i Hi. destruct (HI c i Hi) as (k & -> & Hk'). unfold core. destruct (HC k Hk') as (x & -> & Hx). exact Hx.
      + intros i j Hi Hj. destruct (HI c i Hi) as (k & -> & Hk'), (HI c j Hj) as (k2 & -> & Hk2). unfold dist. destruct (HD k k2 Hk' Hk2) as (x & -> & _). reflexivity.
      + intros i j Hi Hj. destruct (HI c i Hi) as (k & -> & Hk'), (HI c j Hj) as (k2 & -> & Hk2). unfold dist. destruct (HD k k2 Hk' Hk2) as (x & -> & Hx). exact Hx. }
  destruct (table_exists ct m HG) as (kc & Tc & Pc). destruct (table_exists t m' Gt) as (kt & Tt & Pt').
  exists ct, kc, t, kt. split; [exact E|]. split; [exact Tc|]. split; [exact Et|]. split; [exact Tt|]. split; [|split; [|split]].
  - intros c. assert (H : In c (map fst kc) <-> In c (map fst m)) by (split; apply Permutation_in; [|apply Permutation_sym]; exact Pc). rewrite H, Hk. split.
    + intros Hi. destruct (indices labels 0 n c) as [|i l] eqn:Ei; [contradiction|]. assert (Hin : In i (indices labels 0 n c)) by (rewrite Ei; left; reflexivity).
      apply indices_in in Hin. apply (nth_error_In _ _ (proj2 Hin)).
    + intros Hi H0. apply In_nth_error in Hi. destruct Hi as (i & Hi). assert (Hlt : i < n) by (apply nth_error_Some; congruence).
      assert (Hin : In i (indices labels 0 n c)) by (apply indices_in; split; [lia|exact Hi]). rewrite H0 in Hin. destruct Hin.
  - etransitivity; [exact Pt'|]. etransitivity; [exact Pt|]. apply Permutation_sym, Pc.
  - intros c Hc. apply (Permutation_in _ Pc) in Hc. apply in_map_iff in Hc. destruct Hc as ([c' a] & Ec & Hin). cbn [fst] in Ec. subst c'.
    destruct (Hm c a Hin) as (al & Hal & Hrep). exists al. split.
    + rewrite (pt_deref_ok ct m c HG (pg_lab _ _ HG _ _ Hin)), (proj2 (pfind_in m c a (pg_nd _ _ HG)) Hin). unfold aget. rewrite Hal. reflexivity.
    + destruct Hrep as (R1 & _). rewrite R1, map_length, indices_count by lia. unfold n. rewrite firstn_all. reflexivity.
  - intros c v Hcv Hz. assert (Hc : In c (map fst m)).
    { apply (Permutation_in _ Pt). apply (Permutation_in _ Pt'). change c with (fst (c, v)). apply in_map, Hcv. }
    apply in_map_iff in Hc. destruct Hc as ([c' a] & Ec & Hin). cbn [fst] in Ec. subst c'. destruct (Hm c a Hin) as (al & Hal & Hrep).
    destruct (Hv c a al _ Hin Hal Hrep) as (v' & first & Ev & _ & Hx).
    assert (v' = v).
    { apply In_nth_error in Hcv. destruct Hcv as (i & Hi). destruct Tt as (_ & (_ & _ & R3) & _). destruct (R3 i c v Hi) as [_ E2]. rewrite Ev in E2. injection E2 as ->. reflexivity. }
    subst v'.
    assert (Hb : forall x y, SpecStats.before (map Z.of_nat (indices labels 0 n c)) x y -> is_zero (dist x y) = true).
    { intros x y (p & q & Hpq & Hp & Hq). rewrite nth_error_map in Hp, Hq.
      destruct (nth_error (indices labels 0 n c) p) as [i|] eqn:Ep; [|discriminate]. destruct (nth_error (indices labels 0 n c) q) as [j|] eqn:Eq; [|discriminate].
      cbn in Hp, Hq. injection Hp as <-. injection Hq as <-.
      assert (Hij : i <> j).
      { intros <-. assert (p = q); [|lia]. apply (proj1 (NoDup_nth_error (indices labels 0 n c)) (NoDup_filter _ (seq_NoDup n 0))); [apply nth_error_Some; congruence|congruence]. }
      pose proof (proj1 (indices_in _ _ _ _ _) (nth_error_In _ _ Ep)) as [_ Hi]. pose proof (proj1 (indices_in _ _ _ _ _) (nth_error_In _ _ Eq)) as [_ Hj].
      destruct (Hz i j Hij Hi Hj) as (x & Ex & Zx). unfold dist. rewrite Ex. exact Zx. }
    split.
    + destruct (ex_max_dr_attained _ _ _ _ _ Hx) as [E1|(i & j & Hij & E1)]; [exact E1|]. exfalso. pose proof (ex_max_dr_low _ _ _ _ _ Hx) as Hlow.
      pose proof (Hb i j Hij) as Z0. rewrite <- E1 in Z0. destruct (v_max_dr v) as [sg|sg| |sg mm e B]; try discriminate Z0; destruct sg; try discriminate Z0; discriminate Hlow.
    + destruct (ex_min_dr_attained _ _ _ _ _ Hx) as [E1|(i & j & Hij & E1 & _)]; [exact E1|]. rewrite (Hb i j Hij) in E1. discriminate E1.
Qed.
End Prepared.

Lemma low_labels l : Forall (fun l => (0 <= l < 2147483648)%Z) l -> Forall label_ok l.
Proof. apply Forall_impl. intros a. unfold label_ok, M32. lia. Qed.
(** What a run leaves for the program. *)
Lemma run_ready ds rows cols m fuel s q : 5 <= rows -> (Z.of_nat rows <= 65536)%Z -> holds ds rows cols -> (2 <= m < M32)%Z -> 2 * rows - 1 <= fuel -> valid s -> sorts q ->
  distances_are_numbers ds rows cols ->
  exists o r d, fresh_run fuel s q m ds rows cols true = Ok o /\ o_res o = Some r /\ o_dist o = Some d /\ o_n o = rows /\ length (label_list r) = rows /\
    Forall (fun l => (0 <= l < 2147483648)%Z) (label_list r) /\
    (forall i, i < rows -> exists x, zget (d_core d) (Z.of_nat i) = Ok x /\ PropMinMax.nonneg x) /\
    (forall i j, i < rows -> j < rows -> distance_get d (Z.of_nat i) (Z.of_nat j) = Ok (if i =? j then fzero else euclidean ds cols (Nat.min i j) (Nat.max i j))) /\
    (forall i j, i < rows -> j < rows -> exists x, distance_get d (Z.of_nat i) (Z.of_nat j) = Ok x /\ PropMinMax.nonneg x).
Proof.
  intros Hr1 Hr HL Hm Hf Hs Hq HN.
  destruct (C69_cluster_sizes ds rows cols m fuel s q Hr1 Hr HL Hm Hf Hs Hq) as (o & r & E & Er & _ & _ & Hlt & _ & Hb).
  destruct (run_parts ds rows cols m fuel Hr1 Hr HL Hm Hf) as (d & P & Ed & HR & Hnn & H). destruct (H s q Hs Hq) as (labels & os & E' & HLl & _). clear H.
  assert (Ho : o_dist o = Some d /\ o_n o = rows /\ length (r_labels r) = rows).
  { rewrite E in E'. injection E' as E'. rewrite E' in Er |- *. cbn [o_res o_dist o_n] in *. injection Er as <-. auto. }
  destruct Ho as (O1 & O2 & HLr). clear E' HLl labels os P.
  assert (Hsmall : forall c, In c (r_labels r) -> (Z.of_nat c < 2147483648)%Z).
  { intros c Hc. specialize (Hlt c Hc). destruct (Nat.lt_ge_cases (length (r_clusters r)) 3) as [H3|H3]; [lia|]. specialize (Hb H3). clear -Hb Hlt Hr Hm. nia. }
  assert (Hk : (0 <= m - 1 < M32 - 1)%Z) by lia.
  destruct (C15_distance_get_euclidean ds rows cols (m - 1) ltac:(lia) Hr HL Hk) as (d' & Ed' & _ & _ & _ & Hget). rewrite Ed in Ed'. injection Ed' as <-.
  exists o, r, d. split; [exact E|]. split; [exact Er|]. split; [exact O1|]. split; [exact O2|]. split; [unfold label_list; rewrite map_length; exact HLr|]. split; [|split; [|split]].
  - apply Forall_forall. intros c Hc. apply in_map_iff in Hc. destruct Hc as (k & <- & Hk'). specialize (Hsmall k Hk'). lia.
  - intros i Hi. destruct (proj2 HR i Hi) as (x & Ex). exists x. split; [|apply (proj2 Hnn i x Hi Ex)]. unfold zget. replace (Z.of_nat i <? 0)%Z with false by lia. rewrite Nat2Z.id, Ex. reflexivity.
  - intros i j Hi Hj. apply (Hget i j Hi Hj).
  - intros i j Hi Hj. eexists. split; [apply (Hget i j Hi Hj)|]. destruct (Nat.eqb_spec i j) as [->|Hij]; [reflexivity|].
    destruct (proj1 Hnn i j _ Hi Hj (proj1 (Hget i j Hi Hj))) as [N|N]; replace (i =? j) with false in N by lia; [|exact N].
    rewrite (HN (Nat.min i j) (Nat.max i j)) in N by lia. discriminate N.
Qed.

Lemma prepare_ok fuel pow stats o r d ct kc t kt : o_res o = Some r -> o_dist o = Some d -> (Z.of_nat (length (label_list r)) <= 65536)%Z -> label_list r <> [] -> o_n o = length (label_list r) -> length (label_list r) <= fuel ->
  create_cluster_map (label_list r) 0 (Z.of_nat (length (label_list r))) = Ok ct -> table ct kc -> get_min_max_distances d ct = Ok t -> table t kt ->
  (forall c, In c (map fst kc) <-> In c (label_list r)) -> Permutation (map fst kt) (map fst kc) ->
  (forall c, In c (map fst kc) -> exists al, pt_deref ct c = Ok al /\ al_size al = count_occ Z.eq_dec (label_list r) c) ->
  exists t' mc md st al l, calculate_stats pow t stats = Ok (t', st) /\ statistics pow (sv_var (st_core stats)) (cores_of kt) (st_core st) /\ statistics pow (sv_var (st_intra stats)) (intras_of kt) (st_intra st) /\ table t' (map (with_conf mc md) kt) /\ prepare fuel pow stats o = Ok (mk_prepared ct t' st al) /\ rep al l /\
    md = fold_left pick (tl (intras_of kt)) (hd fzero (intras_of kt)) /\
    Permutation (map fst kc) l /\ length l = length kt /\ l <> [] /\ length l <= length (label_list r) /\ StronglySorted (fun c c' => count_occ Z.eq_dec (label_list r) c <= count_occ Z.eq_dec (label_list r) c') l.
Proof.
  intros Er Od HM Hne On Hf Ec Tc Et Tt Hk Pk Hlen.
  assert (Nc : NoDup (map fst kc)) by apply Tc.
  assert (Hkc : kc <> []).
  { destruct (label_list r) as [|c0 ls]; [contradiction|]. intros ->. apply (proj2 (Hk c0)). left. reflexivity. }
  assert (Lkc : length kc <= length (label_list r)).
  { rewrite <- (map_length fst). apply NoDup_incl_length; [exact Nc|]. intros c Hc. apply Hk, Hc. }
  assert (Lkt : length kt = length kc) by (apply Permutation_length in Pk; rewrite !map_length in Pk; exact Pk).
  assert (Hkt : kt <> []) by (intros ->; destruct kc; [contradiction|discriminate Lkt]).
  destruct (calc_ok pow t kt stats Tt Hkt ltac:(unfold M32; lia)) as (t' & sc & si & Es & Sc & Si & _ & Md & T').
  destruct (key_list_ok kc Tc Hkc) as (al0 & El & R0).
  destruct (sort_by_length_ok fuel ct al0 (map fst kc) (count_occ Z.eq_dec (label_list r)) R0) as (al & l & Eb & R & P & SS).
  { destruct kc; [contradiction|discriminate]. } { rewrite map_length. lia. } { rewrite map_length. lia. }
  { intros c Hc. destruct (Hlen c Hc) as (a & Ea & La). exists a. split; [exact Ea|]. split; [exact La|].
    pose proof (count_occ_bound Z.eq_dec c (label_list r)). lia. }
  exists t', (sv_max sc), (sv_max si), (mk_cstats (Z.of_nat (length kt)) sc si), al, l. split; [exact Es|]. cbn [st_core st_intra]. split; [exact Sc|]. split; [exact Si|]. split; [exact T'|]. split; [|split; [exact R|]].
  - unfold prepare. rewrite Er, Od, On. fold (label_list r). rewrite Ec. cbn [bind]. rewrite Et. cbn [bind]. rewrite Es. cbn [bind]. rewrite El. cbn [bind]. rewrite Eb. cbn [bind].
    rewrite (read_all_ok ct al l); [reflexivity| |].
    + apply rep_elements in R. split; tauto.
    + intros c Hc. apply (Permutation_in _ (Permutation_sym P)) in Hc. destruct (Hlen c Hc) as (a & Ea & _). eauto.
  - split; [exact Md|]. split; [exact P|]. pose proof (Permutation_length P) as PL. rewrite map_length in PL. split; [lia|]. split; [|split; [lia|exact SS]].
    intros ->. destruct kc; [contradiction|discriminate PL].
Qed.

(** C106.  After a run on numbers whose distances are numbers, the program groups the labels and
    lists every label that occurs once, smaller clusters first.  If the confidences are numbers,
    it also prints the same labels in the second order and a score, and releases every block of
    both tables exactly once. *)
Theorem C106_session : forall ds rows cols minPts fuel s qsort pow stats,
  5 <= rows -> (Z.of_nat rows <= 65536)%Z -> holds ds rows cols -> (2 <= minPts < M32)%Z -> 2 * rows - 1 <= fuel -> valid s -> sorts qsort ->
  distances_are_numbers ds rows cols ->
  exists o r p kv by_size, fresh_run fuel s qsort minPts ds rows cols true = Ok o /\ o_res o = Some r /\
    prepare fuel pow stats o = Ok p /\ reads (pr_distances p) kv /\ Permutation (map fst kv) by_size /\ stores (pr_sorted p) by_size /\
    NoDup by_size /\ (forall c, In c by_size <-> In c (label_list r)) /\
    StronglySorted (fun c c' => count_occ Z.eq_dec (label_list r) c <= count_occ Z.eq_dec (label_list r) c') by_size /\
    (forall c, In c by_size -> exists v, pt_deref (pr_distances p) c = Ok v) /\
    statistics pow (sv_var (st_core stats)) (map (fun x => core_ratio (snd x)) kv) (st_core (pr_stats p)) /\
    statistics pow (sv_var (st_intra stats)) (map (fun x => intra_ratio (snd x)) kv) (st_intra (pr_stats p)) /\
    ((forall c v, In c by_size -> pt_deref (pr_distances p) c = Ok v -> fisnan (v_dr_conf v) = false) ->
     exists al by_confidence ks score a b, session fuel pow stats o = Ok (al, score, (a, b)) /\ stores al by_confidence /\ Permutation by_size by_confidence /\
       (* the second order: the n-th label of the first list moves with the n-th confidence of the table *)
       length ks = length by_confidence /\ Permutation (combine by_size (map (fun x => v_dr_conf (snd x)) kv)) (combine by_confidence ks) /\
       (forall i j x y, i <= j -> nth_error ks i = Some x -> nth_error ks j = Some y -> fle x y = true) /\
       (-2 <= score <= 4)%Z /\ score = analyse_stats (pr_stats p) /\
       Permutation a (map Some (seq 0 (length (pt_mem (pr_distances p))))) /\ Permutation b (map Some (seq 0 (length (pt_mem (pr_clusters p)))))).
Proof.
  intros ds rows cols m fuel s q pow stats Hr1 Hr HL Hm Hf Hs Hq HN.
  destruct (run_ready ds rows cols m fuel s q Hr1 Hr HL Hm Hf Hs Hq HN) as (o & r & d & E & Er & Od & On & Ln & Lo & HC & _ & HD).
  destruct (tables (label_list r) d (low_labels _ Lo)) as (ct & kc & t & kt & Ec & Tc & Et & Tt & Hk & Pk & Hlen & _); [lia|lia|rewrite Ln; exact HC|rewrite Ln; exact HD|].
  destruct (prepare_ok fuel pow stats o r d ct kc t kt Er Od) as (t' & mc & md & st & al & l & Es & Sc & Si & T' & Ep & R & _ & P & Ll & Hl & Hle & SS); try assumption; [lia| |lia|lia|].
  { intros H. rewrite H in Ln. cbn in Ln. lia. }
  assert (HS : stores al l) by (apply rep_elements in R; split; tauto).
  assert (Kt : map fst (map (with_conf mc md) kt) = map fst kt) by (rewrite map_map; apply map_ext; intros x; reflexivity).
  assert (HV : forall c, In c l -> exists v, In (c, v) (map (with_conf mc md) kt) /\ pt_deref t' c = Ok v).
  { intros c Hc. apply (Permutation_in _ (Permutation_sym P)) in Hc. apply (Permutation_in _ (Permutation_sym Pk)) in Hc. rewrite <- Kt in Hc.
    apply in_map_iff in Hc. destruct Hc as ([c' v] & Ec' & Hin). cbn [fst] in Ec'. subst c'. exists v. split; [exact Hin|].
    apply In_nth_error in Hin. destruct Hin as (i & Hi). destruct T' as (_ & (_ & _ & R3) & _). apply (R3 i c v Hi). }
  exists o, r, (mk_prepared ct t' st al), (map (with_conf mc md) kt), l. cbn [pr_sorted pr_distances pr_clusters pr_stats]. split; [exact E|]. split; [exact Er|]. split; [exact Ep|].
  split; [apply T'|]. split; [rewrite Kt; etransitivity; [exact Pk|exact P]|]. split; [exact HS|].
  split; [apply (Permutation_NoDup P); apply Tc|]. split.
  { intros c. rewrite <- Hk. split; apply Permutation_in; [apply Permutation_sym|]; exact P. }
  split; [exact SS|]. split; [intros c Hc; destruct (HV c Hc) as (v & _ & Hv); eauto|].
  split; [rewrite map_map; exact Sc|]. split; [rewrite map_map; exact Si|].
  intros HNum. unfold session. rewrite Ep. cbn [bind]. unfold finish. cbn [pr_sorted pr_distances pr_clusters pr_stats].
  destruct (C49_supplied_list_uses_other_confidences fuel false t' (map (with_conf mc md) kt) al l T' R Hl) as (al' & l' & ks & E' & S' & L' & P' & Hks); [rewrite map_length; lia|lia|lia| |].
  { intros [c v] Hin. cbn [snd]. apply (HNum c v).
    - apply (Permutation_in _ P). apply (Permutation_in _ Pk). rewrite <- Kt. change c with (fst (c, v)). apply in_map, Hin.
    - apply In_nth_error in Hin. destruct Hin as (i & Hi). destruct T' as (_ & (_ & _ & R3) & _). apply (R3 i c v Hi). }
  rewrite E'. cbn [bind].
  assert (PP : Permutation l l').
  { pose proof (Permutation_map fst P') as P2. rewrite !map_fst_combine in P2 by (rewrite ?map_length; lia). exact P2. }
  rewrite (read_all_ok t' al' l' S'); [|intros c Hc; apply (Permutation_in _ (Permutation_sym PP)) in Hc; destruct (HV c Hc) as (v & _ & Hv); eauto]. cbn [bind].
  destruct T' as ((m1 & G1) & _). destruct Tc as ((m2 & G2) & _).
  destruct (destroy_ok t' m1 G1) as (a & -> & Pa). cbn [bind]. destruct (destroy_ok ct m2 G2) as (b & -> & Pb). cbn [bind].
  exists al', l', ks, (analyse_stats st), a, b. split; [reflexivity|]. split; [exact S'|]. split; [exact PP|]. split; [exact L'|]. split; [exact P'|]. split; [exact Hks|]. split; [|auto].
  destruct (C46_validity_score st) as (x & y & _ & H & _). exact H.
Qed.
Print Assumptions C106_session.

(** If the points of each label coincide, as with three places visited several times each,
    and there are three labels, the program never ends, whatever the time allowed. *)
Theorem C106_coinciding_points_refuted : forall ds rows cols minPts fuel s qsort,
  5 <= rows -> (Z.of_nat rows <= 65536)%Z -> holds ds rows cols -> (2 <= minPts < M32)%Z -> 2 * rows - 1 <= fuel -> valid s -> sorts qsort ->
  distances_are_numbers ds rows cols ->
  exists o r, fresh_run fuel s qsort minPts ds rows cols true = Ok o /\ o_res o = Some r /\
    ((forall i j c, i < j -> nth_error (r_labels r) i = Some c -> nth_error (r_labels r) j = Some c -> feq (euclidean ds cols i j) fzero = true) ->
     (exists a b c, In a (r_labels r) /\ In b (r_labels r) /\ In c (r_labels r) /\ a <> b /\ a <> c /\ b <> c) ->
     forall more pow stats, rows <= more -> session more pow stats o = Fuel).
Proof.
  intros ds rows cols m fuel s q Hr1 Hr HL Hm Hf Hs Hq HN.
  destruct (run_ready ds rows cols m fuel s q Hr1 Hr HL Hm Hf Hs Hq HN) as (o & r & d & E & Er & Od & On & Ln & Lo & HC & HG & HD).
  exists o, r. split; [exact E|]. split; [exact Er|]. intros HZ (a & b & c & Ha & Hb & Hc & Hab & Hac & Hbc) more pow stats Hmore.
  destruct (tables (label_list r) d (low_labels _ Lo)) as (ct & kc & t & kt & Ec & Tc & Et & Tt & Hk & Pk & Hlen & Hz); [lia|lia|rewrite Ln; exact HC|rewrite Ln; exact HD|].
  destruct (prepare_ok more pow stats o r d ct kc t kt Er Od) as (t' & mc & md & st & al & l & Es & Sc & Si & T' & Ep & R & Md & P & Ll & Hl & Hle & SS); try assumption; [lia| |lia|lia|].
  { intros H. rewrite H in Ln. cbn in Ln. lia. }
  assert (HS : stores al l) by (apply rep_elements in R; split; tauto).
  unfold session. rewrite Ep. cbn [bind]. unfold finish. cbn [pr_sorted pr_distances pr_clusters pr_stats].
  assert (Hlen' : length (r_labels r) = rows) by (unfold label_list in Ln; rewrite map_length in Ln; exact Ln).
  assert (HR : forall k v, In (k, v) kt -> intra_ratio v = fdiv D_MIN D_MAX).
  { intros k v Hin. unfold intra_ratio. destruct (Hz k v Hin) as [-> ->]; [|reflexivity].
    intros i j Hij Hi Hj. unfold label_list in Hi, Hj. rewrite nth_error_map in Hi, Hj.
    destruct (nth_error (r_labels r) i) as [ci|] eqn:Ei; [|discriminate]. destruct (nth_error (r_labels r) j) as [cj|] eqn:Ej; [|discriminate].
    cbn in Hi, Hj. injection Hi as Hi. injection Hj as Hj. assert (ci = cj) by lia. subst cj.
    assert (Hi' : i < rows) by (rewrite <- Hlen'; apply nth_error_Some; congruence). assert (Hj' : j < rows) by (rewrite <- Hlen'; apply nth_error_Some; congruence).
    eexists. split; [apply (HG i j Hi' Hj')|]. replace (i =? j) with false by lia. unfold is_zero.
    destruct (Nat.lt_ge_cases i j) as [Hlt|Hge]; [rewrite Nat.min_l, Nat.max_r by lia; apply (HZ i j ci Hlt Ei Ej)|].
    rewrite Nat.min_r, Nat.max_l by lia. apply (HZ j i ci); [lia|exact Ej|exact Ei]. }
  assert (Hpick : forall xs z, (forall x, In x (z :: xs) -> x = fdiv D_MIN D_MAX) -> fold_left pick xs z = fdiv D_MIN D_MAX).
  { induction xs as [|x xs IH]; intros z Hx; cbn [fold_left]; [apply Hx; left; reflexivity|]. apply IH. intros y [<-|Hy]; [|apply Hx; right; right; exact Hy].
    unfold pick. destruct (fgt x z); apply Hx; [right; left|left]; reflexivity. }
  assert (Emd : md = fdiv D_MIN D_MAX).
  { rewrite Md. destruct kt as [|[k v] kt']; [cbn in Ll; destruct l; [contradiction|discriminate Ll]|]. unfold intras_of. cbn [map tl hd snd]. apply Hpick.
    intros x Hx. change (In x (map (fun x => intra_ratio (snd x)) ((k, v) :: kt'))) in Hx. apply in_map_iff in Hx. destruct Hx as ([k' v'] & <- & Hin). apply (HR k' v' Hin). }
  rewrite (supplied_nan more false t' (map (with_conf mc md) kt) al l T' HS); [reflexivity| |rewrite map_length; lia|lia|].
  - assert (Hin : forall x, In x (r_labels r) -> In (Z.of_nat x) l).
    { intros x Hx. apply (Permutation_in _ P), Hk. apply in_map, Hx. }
    change 3 with (length [Z.of_nat a; Z.of_nat b; Z.of_nat c]). apply NoDup_incl_length.
    + repeat constructor; cbn [In]; intuition lia.
    + intros x [<-|[<-|[<-|[]]]]; apply Hin; assumption.
  - intros x Hx. apply in_map_iff in Hx. destruct Hx as ([k v] & <- & Hin). unfold with_conf. cbn [snd conf v_dr_conf]. rewrite (HR k v Hin), Emd. apply conf_zero; vm_compute; reflexivity.
Qed.
Print Assumptions C106_coinciding_points_refuted.

(** ** Concrete sessions: nine points on a line in three groups. *)
Definition line_data (l : list Z) : dataset := DDouble (map f_of_Z l).
Definition apart : list Z := [0; 1; 3; 10; 11; 14; 30; 31; 35]%Z.
Definition repeated : list Z := [0; 0; 0; 10; 10; 10; 30; 30; 30]%Z.
(** The labels of the run, and the second list and the score that the session prints. *)
Definition session_of (l : list Z) : res (list nat) * res (list (option Z) * Z) :=
  let run := fresh_run 17 in_turn insertion_sort 2 (line_data l) 9 1 true in
  (let! o := run in match o_res o with Some r => Ok (r_labels r) | None => UB end,
   let! o := run in let! r := session 17 pow34 blank o in Ok (firstn (al_size (fst (fst r))) (al_data (fst (fst r))), snd (fst r))).
Lemma line_numbers l : length l = 9 -> forallb (fun i => forallb (fun j => negb (fisnan (euclidean (line_data l) 1 i j))) (seq 0 9)) (seq 0 9) = true -> distances_are_numbers (line_data l) 9 1.
Proof.
  intros _ H i j Hij. rewrite forallb_forall in H. specialize (H i ltac:(apply in_seq; lia)). rewrite forallb_forall in H. specialize (H j ltac:(apply in_seq; lia)).
  apply negb_true_iff in H. exact H.
Qed.
(** Three groups of different points: the session ends, with the three labels in another order. *)
Example C106_apart : distances_are_numbers (line_data apart) 9 1 /\ holds (line_data apart) 9 1 /\
  session_of apart = (Ok [4; 4; 4; 5; 5; 5; 3; 3; 3], Ok ([Some 4; Some 3; Some 5]%Z, (-2)%Z)).
Proof. split; [apply line_numbers; [reflexivity|vm_compute; reflexivity]|]. split; [apply holds_double; vm_compute; reflexivity|]. vm_compute. reflexivity. Qed.
(** Three places, each visited three times: the hypotheses of the second theorem hold. *)
Example C106_repeated : distances_are_numbers (line_data repeated) 9 1 /\ holds (line_data repeated) 9 1 /\
  session_of repeated = (Ok [4; 4; 4; 5; 5; 5; 3; 3; 3], Fuel) /\
  (let labels := [4; 4; 4; 5; 5; 5; 3; 3; 3] in
   forall i j c, i < j -> nth_error labels i = Some c -> nth_error labels j = Some c -> feq (euclidean (line_data repeated) 1 i j) fzero = true).
Proof.
  split; [apply line_numbers; [reflexivity|vm_compute; reflexivity]|]. split; [apply holds_double; vm_compute; reflexivity|]. split; [vm_compute; reflexivity|].
  intros labels i j c Hij Hi Hj. assert (i < 9) by (change 9 with (length labels); apply nth_error_Some; congruence). assert (j < 9) by (change 9 with (length labels); apply nth_error_Some; congruence).
  assert (T : forallb (fun i => forallb (fun j => implb (match nth_error labels i, nth_error labels j with Some a, Some b => a =? b | _, _ => false end) (feq (euclidean (line_data repeated) 1 i j) fzero)) (seq 0 9)) (seq 0 9) = true) by (vm_compute; reflexivity).
  rewrite forallb_forall in T. specialize (T i ltac:(apply in_seq; lia)). rewrite forallb_forall in T. specialize (T j ltac:(apply in_seq; lia)).
  rewrite Hi, Hj, Nat.eqb_refl in T. exact T.
Qed.
