(** C107: what the C++ sample program does with a finished run, and how it differs from the C
    program of C106. *)
From Coq Require Import Sorted Permutation.
From Verif Require Import Base ListFacts F64 F64Facts F64Arith ModelArrayList SpecSeq ProofArrayList PropCollections ModelCells ModelHash
  ModelUtils ModelDistance ModelMap ModelMst ModelRun ModelCpp ModelSession ModelCppSession ProofMap PropClusterMap PropTandem SpecStats PropMinMax ProofStats PropStats ProofCpp PropCpp
  PropUtils PropDistance PropMst ProofHierEnd PropOutlier ProofRun PropRun PropSize PropSession.
From Coq Require Import ZifyBool ZifyNat.
Local Open Scope nat_scope.

Lemma reads_same {V} (t : ptable V) kv kv' : reads t kv -> reads t kv' -> kv = kv'.
Proof.
  intros (A1 & _ & A3) (B1 & _ & B3). assert (HL : length kv = length kv') by congruence.
  apply nth_error_ext. intros i. destruct (nth_error kv i) as [[k v]|] eqn:E, (nth_error kv' i) as [[k' v']|] eqn:E'; try reflexivity.
  - destruct (A3 i k v E) as [K1 V1], (B3 i k' v' E') as [K2 V2]. rewrite K1 in K2. injection K2 as <-. rewrite V1 in V2. injection V2 as <-. reflexivity.
  - apply nth_error_None in E'. assert (i < length kv) by (apply nth_error_Some; congruence). lia.
  - apply nth_error_None in E. assert (i < length kv') by (apply nth_error_Some; congruence). lia.
Qed.
Lemma cpp_read_all_ok {V} (m : smap V) l : ordered m -> (forall c, In c l -> exists v, In (c, v) m) -> cpp_read_all m l = Ok tt.
Proof.
  intros HO HD. unfold cpp_read_all.
  destruct (for_up_inv (fun _ _ => True) (fun i (_ : unit) => let! k := aget l i in let! v := sm_deref m k in Ok tt) 0 (length l) tt I) as (u & -> & _).
  - intros i s Hi _. destruct (aget_ok l i ltac:(lia)) as (c & -> & Ec). cbn [bind]. destruct (HD c (nth_error_In _ _ Ec)) as (v & Hv).
    unfold sm_deref. rewrite (proj2 (sm_find_in m c v HO) Hv). cbn [bind]. eauto.
  - destruct u. reflexivity.
Qed.
Lemma cpp_supplied_nan fuel core dm l : ordered dm -> 3 <= length l -> (Z.of_nat (length l) < 2147483648)%Z -> (forall c, In c l -> exists v, In (c, v) dm) ->
  (forall x, In x dm -> fisnan (conf core (snd x)) = true) -> cpp_sort_by_similarity fuel dm l core = Fuel.
Proof.
  intros HO H3 Hlt HD HN. unfold cpp_sort_by_similarity, cpp_sort_by. destruct l as [|c0 l0] eqn:El; [cbn in H3; lia|]. rewrite <- El in *. clear El.
  set (f := fun c => match sm_find dm c with Some v => if core then v_cr_conf v else v_dr_conf v | None => fzero end).
  rewrite (cpp_keys_ok dm (fun v => if core then v_cr_conf v else v_dr_conf v) l f).
  2: { intros c Hc. destruct (HD c Hc) as (v & Hv). exists v. apply (sm_find_in dm c v HO) in Hv. split; [exact Hv|]. unfold f. rewrite Hv. reflexivity. }
  cbn [bind fst snd]. unfold cpp_quick_sort.
  assert (Ei : forall T, exists al0 : alist T, array_list_init (length l) = Ok al0).
  { intros T. unfold array_list_init. destruct (Nat.ltb_spec 0 (length l)); [eauto|lia]. }
  destruct (Ei f64) as (a1 & ->), (Ei Z) as (a0 & ->). cbn [bind].
  rewrite (for_up_app (fun i => aget (map f l) i) (map f l) (length l) 0 []); [|intros i x Hx; apply aget_nth, Hx|apply map_length]. cbn [bind app].
  assert (Hr : i32_of_u32 (u32 (Z.of_nat (length l) - 1)) = (Z.of_nat (length l) - 1)%Z).
  { unfold i32_of_u32, u32, M32. rewrite Z.mod_small by lia. destruct (Z.ltb_spec (Z.of_nat (length l) - 1) 2147483648); lia. }
  rewrite Hr. change (i32_of_u32 0) with 0%Z. destruct (nth_error l 0) as [c|] eqn:Ec; [|apply nth_error_None in Ec; lia].
  rewrite (C47_nan_pivot_never_terminates_refuted _ fuel _ _ 0 (Z.of_nat (length l) - 1)%Z (f c)); [reflexivity|lia|lia|lia|rewrite map_length; lia| |].
  - change (Z.to_nat 0) with 0. rewrite nth_error_map, Ec. reflexivity.
  - destruct (HD c (nth_error_In _ _ Ec)) as (v & Hv). unfold f. rewrite (proj2 (sm_find_in dm c v HO) Hv). apply (HN (c, v) Hv).
Qed.

(** The two maps and the first list, next to those of the C program. *)
Lemma cpp_prepare_ok fuel pow stats o r d ct kc t kt : o_res o = Some r -> o_dist o = Some d -> (Z.of_nat (length (label_list r)) <= 65536)%Z -> 5 <= length (label_list r) -> o_n o = length (label_list r) ->
  length (label_list r) <= fuel -> Forall low_label (label_list r) ->
  (forall i, i < length (label_list r) -> exists x, zget (d_core d) (Z.of_nat i) = Ok x /\ PropMinMax.nonneg x) ->
  (forall i j, i < length (label_list r) -> j < length (label_list r) -> exists x, distance_get d (Z.of_nat i) (Z.of_nat j) = Ok x /\ PropMinMax.nonneg x) ->
  create_cluster_map (label_list r) 0 (Z.of_nat (length (label_list r))) = Ok ct -> table ct kc -> get_min_max_distances d ct = Ok t -> table t kt ->
  (forall c, In c (map fst kc) <-> In c (label_list r)) -> Permutation (map fst kt) (map fst kc) ->
  forall t' st mc md, calculate_stats pow t stats = Ok (t', st) -> table t' (map (with_conf mc md) kt) ->
  exists q, cpp_prepare fuel pow stats o = Ok q /\ cp_distances q = map (with_conf mc md) kt /\ cp_stats q = st /\ ordered (cp_distances q) /\
    Permutation (map fst kt) (cp_sorted q) /\
    StronglySorted (fun c c' => count_occ Z.eq_dec (label_list r) c <= count_occ Z.eq_dec (label_list r) c') (cp_sorted q).
Proof.
  intros Er Od HM H5 On Hf HL HC HD Ec Tc Et Tt Hk Pk t' st mc md Es T'. set (labels := label_list r) in *. set (n := length labels) in *.
  set (core := fun z => match zget (d_core d) z with Ok x => x | _ => fzero end).
  set (dist := fun z z' => match distance_get d z z' with Ok x => x | _ => fzero end).
  assert (C1 : forall i, 0 <= i < n -> zget (d_core d) (Z.of_nat i) = Ok (core (Z.of_nat i))) by (intros i Hi; unfold core; destruct (HC i) as (x & -> & _); [lia|reflexivity]).
  assert (D1 : forall i j, 0 <= i < n -> 0 <= j < n -> distance_get d (Z.of_nat i) (Z.of_nat j) = Ok (dist (Z.of_nat i) (Z.of_nat j))).
  { intros i j Hi Hj. unfold dist. destruct (HD i j) as (x & -> & _); [lia|lia|reflexivity]. }
  destruct (C59_same_results_as_c labels 0 n d core dist pow stats HL ltac:(unfold M32; lia) ltac:(lia) ltac:(lia) C1 D1)
    as (ct' & m & t1 & dm & t1' & dm' & s' & E1 & E2 & E3 & E4 & R1 & E5 & E6 & R2 & _).
  change (Z.of_nat 0) with 0%Z in E1, E2. rewrite Ec in E1. injection E1 as <-. rewrite Et in E3. injection E3 as <-. rewrite Es in E5. injection E5 as <- <-.
  assert (dm' = map (with_conf mc md) kt) by (apply (reads_same t'); [exact R2|apply T']). subst dm'.
  destruct (cpp_create_ok labels 0 n ltac:(lia)) as (m' & E2' & HLm). change (Z.of_nat 0) with 0%Z in E2'. rewrite E2 in E2'. injection E2' as <-. rewrite Nat.sub_0_r in HLm.
  pose proof HLm as [HO HI].
  assert (Hmk : forall c, In c (map fst m) <-> In c (map fst kc)).
  { intros c. rewrite Hk, (cpp_lists_keys _ _ _ _ _ HLm). split.
    - intros Hi. destruct (indices labels 0 n c) as [|i l] eqn:Ei; [contradiction|]. assert (Hin : In i (indices labels 0 n c)) by (rewrite Ei; left; reflexivity).
      apply indices_in in Hin. apply (nth_error_In _ _ (proj2 Hin)).
    - intros Hi H0. apply In_nth_error in Hi. destruct Hi as (i & Hi). assert (Hlt : i < n) by (apply nth_error_Some; congruence).
      assert (Hin : In i (indices labels 0 n c)) by (apply indices_in; split; [lia|exact Hi]). rewrite H0 in Hin. destruct Hin. }
  assert (Nm : NoDup (map fst m)).
  { clear -HO. unfold ordered in HO. induction HO as [|x l _ IH HF]; constructor; [|exact IH]. intros Hx. rewrite Forall_forall in HF. specialize (HF x Hx). lia. }
  assert (Pm : Permutation (map fst kt) (map fst m)).
  { etransitivity; [exact Pk|]. apply NoDup_Permutation; [apply Tc|exact Nm|]. intros c. symmetry. apply Hmk. }
  assert (Lm : length (map fst m) <= n).
  { apply NoDup_incl_length; [exact Nm|]. intros c Hc. apply Hk, Hmk, Hc. }
  assert (Hne : map fst m <> []).
  { destruct labels as [|c0 ls] eqn:E0; [unfold n in H5; cbn in H5; lia|]. intros H0. assert (Hin : In c0 (map fst m)) by (apply Hmk, Hk; left; reflexivity). rewrite H0 in Hin. destruct Hin. }
  assert (Hcount : forall c l, In (c, l) m -> length l = count_occ Z.eq_dec labels c).
  { intros c l Hin. apply HI in Hin. destruct Hin as [_ ->]. rewrite map_length, indices_count by lia. unfold n. rewrite firstn_all. reflexivity. }
  destruct (C60_cpp_sort_by_length fuel m [] HO) as (l & El & P & S); cbn [chosen] in *; [exact Hne|lia|lia|intros c Hc; exact Hc| |].
  { intros c x Hin. rewrite (Hcount c x Hin). pose proof (count_occ_bound Z.eq_dec c labels). lia. }
  assert (Hlist : forall c, In c l -> exists x, In (c, x) m).
  { intros c Hc. apply (Permutation_in _ (Permutation_sym P)) in Hc. apply in_map_iff in Hc. destruct Hc as ([c' x] & Ec' & Hin). cbn [fst] in Ec'. subst c'. eauto. }
  exists (mk_cpp_prepared m (map (with_conf mc md) kt) st l). cbn [cp_distances cp_stats cp_sorted]. split; [|split; [reflexivity|split; [reflexivity|split; [|split]]]].
  - unfold cpp_prepare. rewrite Er, Od, On. fold (label_list r). fold labels. fold n. rewrite E2. cbn [bind]. rewrite E4. cbn [bind]. rewrite E6. cbn [bind fst snd]. rewrite El. cbn [bind].
    rewrite (cpp_read_all_ok m l HO Hlist). reflexivity.
  - unfold ordered. destruct T' as (_ & _ & _ & SS). rewrite low_keys in SS; [exact SS|].
    assert (Kt : map fst (map (with_conf mc md) kt) = map fst kt) by (rewrite map_map; apply map_ext; intros x; reflexivity). rewrite Kt.
    apply Forall_forall. intros c Hc. apply (Permutation_in _ Pk) in Hc. apply Hk in Hc. rewrite Forall_forall in HL. apply HL, Hc.
  - etransitivity; [exact Pm|exact P].
  - clear -S Hlist Hcount. induction l as [|c l IH]; constructor.
    + apply IH; [|intros x Hx; apply Hlist; right; exact Hx]. intros i j x y u v Hij Hx Hy Hu Hv. apply (S (Datatypes.S i) (Datatypes.S j) x y u v); [lia|exact Hx|exact Hy|exact Hu|exact Hv].
    + apply Forall_forall. intros c' Hc'. destruct (Hlist c (or_introl eq_refl)) as (x & Hx). destruct (Hlist c' (or_intror Hc')) as (y & Hy).
      rewrite <- (Hcount c x Hx), <- (Hcount c' y Hy). apply In_nth_error in Hc'. destruct Hc' as (j & Hj). apply (S 0 (Datatypes.S j) c c' x y); [lia|reflexivity|exact Hj|exact Hx|exact Hy].
Qed.

(** C107.  The C++ program has the distances, the confidences and the statistics of the C
    program, and its first list is ordered by size as well.  If the confidences are numbers, its
    second list is ordered by the confidence of each label. *)
Theorem C107_cpp_session : forall ds rows cols minPts fuel s qsort pow stats,
  5 <= rows -> (Z.of_nat rows <= 65536)%Z -> holds ds rows cols -> (2 <= minPts < M32)%Z -> 2 * rows - 1 <= fuel -> valid s -> sorts qsort ->
  distances_are_numbers ds rows cols ->
  exists o r p q, fresh_run fuel s qsort minPts ds rows cols true = Ok o /\ o_res o = Some r /\
    prepare fuel pow stats o = Ok p /\ cpp_prepare fuel pow stats o = Ok q /\
    reads (pr_distances p) (cp_distances q) /\ cp_stats q = pr_stats p /\
    NoDup (cp_sorted q) /\ (forall c, In c (cp_sorted q) <-> In c (label_list r)) /\
    StronglySorted (fun c c' => count_occ Z.eq_dec (label_list r) c <= count_occ Z.eq_dec (label_list r) c') (cp_sorted q) /\
    ((forall c v, In (c, v) (cp_distances q) -> fisnan (v_dr_conf v) = false) ->
     exists l, cpp_session fuel pow stats o = Ok (l, analyse_stats (cp_stats q)) /\ Permutation (cp_sorted q) l /\
       forall i j c c' v v', i <= j -> nth_error l i = Some c -> nth_error l j = Some c' -> In (c, v) (cp_distances q) -> In (c', v') (cp_distances q) ->
         fle (v_dr_conf v) (v_dr_conf v') = true).
Proof.
  intros ds rows cols m fuel s q pow stats Hr1 Hr HL Hm Hf Hs Hq HN.
  destruct (run_ready ds rows cols m fuel s q Hr1 Hr HL Hm Hf Hs Hq HN) as (o & r & d & E & Er & Od & On & Ln & Lo & HC & _ & HD).
  destruct (tables (label_list r) d (low_labels _ Lo)) as (ct & kc & t & kt & Ec & Tc & Et & Tt & Hk & Pk & Hlen & _); [lia|lia|rewrite Ln; exact HC|rewrite Ln; exact HD|].
  destruct (prepare_ok fuel pow stats o r d ct kc t kt Er Od) as (t' & mc & md & st & al & l & Es & Sc & Si & T' & Ep & R & _ & P & Ll & Hl & Hle & SS); try assumption; [lia| |lia|lia|].
  { intros H. rewrite H in Ln. cbn in Ln. lia. }
  destruct (cpp_prepare_ok fuel pow stats o r d ct kc t kt Er Od ltac:(lia) ltac:(lia) ltac:(lia) ltac:(lia) Lo ltac:(rewrite Ln; exact HC) ltac:(rewrite Ln; exact HD) Ec Tc Et Tt Hk Pk t' st mc md Es T')
    as (qq & Eq & Q1 & Q2 & QO & QP & QS).
  exists o, r, (mk_prepared ct t' st al), qq. cbn [pr_distances pr_stats]. split; [exact E|]. split; [exact Er|]. split; [exact Ep|]. split; [exact Eq|].
  split; [rewrite Q1; apply T'|]. split; [exact Q2|]. split; [apply (Permutation_NoDup QP); apply Tt|]. split.
  { intros c. rewrite <- Hk. split; intros Hc.
    - apply (Permutation_in _ Pk). apply (Permutation_in _ (Permutation_sym QP)). exact Hc.
    - apply (Permutation_in _ QP). apply (Permutation_in _ (Permutation_sym Pk)). exact Hc. }
  split; [exact QS|]. intros HNum.
  assert (Kt : map fst (cp_distances qq) = map fst kt) by (rewrite Q1, map_map; apply map_ext; intros x; reflexivity).
  pose proof (Permutation_length QP) as QL. rewrite map_length in QL.
  assert (Hch : chosen (cp_distances qq) (cp_sorted qq) = cp_sorted qq) by (destruct (cp_sorted qq); [destruct l; [contradiction|cbn in *; lia]|reflexivity]).
  destruct (C60_cpp_sort_by_similarity fuel false (cp_distances qq) (cp_sorted qq) QO) as (l' & El & P' & S); rewrite ?Hch in *; [intros H0; rewrite H0 in QL; cbn in QL; destruct l; [contradiction|cbn in *; lia]|lia|lia| |exact HNum|].
  { intros c Hc. rewrite Kt. apply (Permutation_in _ (Permutation_sym QP)), Hc. }
  exists l'. split; [|split; [exact P'|exact S]]. unfold cpp_session. rewrite Eq. cbn [bind]. unfold cpp_finish. rewrite El. cbn [bind].
  rewrite (cpp_read_all_ok (cp_distances qq) l' QO); [reflexivity|]. intros c Hc. apply (Permutation_in _ (Permutation_sym P')) in Hc. apply (Permutation_in _ (Permutation_sym QP)) in Hc. rewrite <- Kt in Hc.
  apply in_map_iff in Hc. destruct Hc as ([c' v] & Ec' & Hin). cbn [fst] in Ec'. subst c'. eauto.
Qed.
Print Assumptions C107_cpp_session.

(** If the points of each label coincide and there are three labels, the C++ program never ends
    either. *)
Theorem C107_coinciding_points_refuted : forall ds rows cols minPts fuel s qsort,
  5 <= rows -> (Z.of_nat rows <= 65536)%Z -> holds ds rows cols -> (2 <= minPts < M32)%Z -> 2 * rows - 1 <= fuel -> valid s -> sorts qsort ->
  distances_are_numbers ds rows cols ->
  exists o r, fresh_run fuel s qsort minPts ds rows cols true = Ok o /\ o_res o = Some r /\
    ((forall i j c, i < j -> nth_error (r_labels r) i = Some c -> nth_error (r_labels r) j = Some c -> feq (euclidean ds cols i j) fzero = true) ->
     (exists a b c, In a (r_labels r) /\ In b (r_labels r) /\ In c (r_labels r) /\ a <> b /\ a <> c /\ b <> c) ->
     forall more pow stats, rows <= more -> cpp_session more pow stats o = Fuel).
Proof.
  intros ds rows cols m fuel s q Hr1 Hr HL Hm Hf Hs Hq HN.
  destruct (run_ready ds rows cols m fuel s q Hr1 Hr HL Hm Hf Hs Hq HN) as (o & r & d & E & Er & Od & On & Ln & Lo & HC & HG & HD).
  exists o, r. split; [exact E|]. split; [exact Er|]. intros HZ (a & b & c & Ha & Hb & Hc & Hab & Hac & Hbc) more pow stats Hmore.
  destruct (tables (label_list r) d (low_labels _ Lo)) as (ct & kc & t & kt & Ec & Tc & Et & Tt & Hk & Pk & Hlen & Hz); [lia|lia|rewrite Ln; exact HC|rewrite Ln; exact HD|].
  destruct (prepare_ok more pow stats o r d ct kc t kt Er Od) as (t' & mc & md & st & al & l & Es & Sc & Si & T' & Ep & R & Md & P & Ll & Hl & Hle & SS); try assumption; [lia| |lia|lia|].
  { intros H. rewrite H in Ln. cbn in Ln. lia. }
  destruct (cpp_prepare_ok more pow stats o r d ct kc t kt Er Od ltac:(lia) ltac:(lia) ltac:(lia) ltac:(lia) Lo ltac:(rewrite Ln; exact HC) ltac:(rewrite Ln; exact HD) Ec Tc Et Tt Hk Pk t' st mc md Es T')
    as (qq & Eq & Q1 & Q2 & QO & QP & QS).
  unfold cpp_session. rewrite Eq. cbn [bind]. unfold cpp_finish.
  assert (Hlen' : length (r_labels r) = rows) by (unfold label_list in Ln; rewrite map_length in Ln; exact Ln).
  assert (HR : forall k v, In (k, v) kt -> intra_ratio v = fdiv D_MIN D_MAX).
  { intros k v Hin. unfold intra_ratio. destruct (Hz k v Hin) as [-> ->]; [|reflexivity].
    intros i j Hij Hi Hj. unfold label_list in Hi, Hj. rewrite nth_error_map in Hi, Hj.
    destruct (nth_error (r_labels r) i) as [ci|] eqn:Ei; [|discriminate]. destruct (nth_error (r_labels r) j) as [cj|] eqn:Ej; [|discriminate].
    cbn in Hi, Hj. injection Hi as Hi. injection Hj as Hj. assert (ci = cj) by lia. subst cj.
    assert (Hi' : i < rows) by (rewrite <- Hlen'; apply nth_error_Some; congruence). assert (Hj' : j < rows) by (rewrite <- Hlen'; apply nth_error_Some; congruence).
    eexists. split; [apply (HG i j Hi' Hj')|]. replace (i =? j) with false by lia. unfold is_zero.
    destruct (Nat.lt_ge_cases i j) as [Hlt|Hge]; [rewrite Nat.min_l, Nat.max_r by lia; apply (HZ i j ci Hlt Ei Ej)|].
    rewrite Nat.min_r, Nat.max_l by lia. apply (HZ j i ci); [lia|exact Ej|exact Ei]. }
  assert (Hpick : forall xs z, (forall x, In x (z :: xs) -> x = fdiv D_MIN D_MAX) -> fold_left pick xs z = fdiv D_MIN D_MAX).
  { induction xs as [|x xs IH]; intros z Hx; cbn [fold_left]; [apply Hx; left; reflexivity|]. apply IH. intros y [<-|Hy]; [|apply Hx; right; right; exact Hy].
    unfold pick. destruct (fgt x z); apply Hx; [right; left|left]; reflexivity. }
  assert (Emd : md = fdiv D_MIN D_MAX).
  { rewrite Md. destruct kt as [|[k v] kt']; [cbn in Ll; destruct l; [contradiction|discriminate Ll]|]. unfold intras_of. cbn [map tl hd snd]. apply Hpick.
    intros x Hx. change (In x (map (fun x => intra_ratio (snd x)) ((k, v) :: kt'))) in Hx. apply in_map_iff in Hx. destruct Hx as ([k' v'] & <- & Hin). apply (HR k' v' Hin). }
  assert (Kt : map fst (cp_distances qq) = map fst kt) by (rewrite Q1, map_map; apply map_ext; intros x; reflexivity).
  pose proof (Permutation_length QP) as QL. rewrite map_length in QL.
  rewrite (cpp_supplied_nan more false (cp_distances qq) (cp_sorted qq) QO); [reflexivity| |lia| |].
  - assert (Hin : forall x, In x (r_labels r) -> In (Z.of_nat x) (cp_sorted qq)).
    { intros x Hx. apply (Permutation_in _ QP), (Permutation_in _ (Permutation_sym Pk)), Hk. apply in_map, Hx. }
    change 3 with (length [Z.of_nat a; Z.of_nat b; Z.of_nat c]). apply NoDup_incl_length.
    + repeat constructor; cbn [In]; intuition lia.
    + intros x [<-|[<-|[<-|[]]]]; apply Hin; assumption.
  - intros x Hx. apply (Permutation_in _ (Permutation_sym QP)) in Hx. rewrite <- Kt in Hx. apply in_map_iff in Hx. destruct Hx as ([c' v] & Ec' & Hin). cbn [fst] in Ec'. subst c'. eauto.
  - intros x Hx. rewrite Q1 in Hx. apply in_map_iff in Hx. destruct Hx as ([k v] & <- & Hin). unfold with_conf. cbn [snd conf v_dr_conf]. rewrite (HR k v Hin), Emd. apply conf_zero; vm_compute; reflexivity.
Qed.
Print Assumptions C107_coinciding_points_refuted.

(** ** Concrete sessions: the nine points of C106, whose runs meet the hypotheses. *)
Definition cpp_session_of (l : list Z) : res (list Z * Z) :=
  let! o := fresh_run 17 in_turn insertion_sort 2 (line_data l) 9 1 true in cpp_session 17 pow34 blank o.
(** The second lists differ: the C program prints 4, 3, 5 (C106_apart). *)
Example C107_apart : distances_are_numbers (line_data apart) 9 1 /\ holds (line_data apart) 9 1 /\ cpp_session_of apart = Ok ([3; 5; 4]%Z, (-2)%Z).
Proof. split; [apply C106_apart|]. split; [apply C106_apart|]. vm_compute. reflexivity. Qed.
Example C107_repeated : distances_are_numbers (line_data repeated) 9 1 /\ holds (line_data repeated) 9 1 /\ cpp_session_of repeated = Fuel.
Proof. split; [apply C106_repeated|]. split; [apply C106_repeated|]. vm_compute. reflexivity. Qed.

Lemma both_sessions (run : res hdb) (labels : res (list nat)) want score l score' :
  (let! o := run in match o_res o with Some r => Ok (r_labels r) | None => UB end,
   let! o := run in let! r := session 17 pow34 blank o in Ok (firstn (al_size (fst (fst r))) (al_data (fst (fst r))), snd (fst r))) = (labels, Ok (want, score)) ->
  (let! o := run in cpp_session 17 pow34 blank o) = Ok (l, score') ->
  exists o al blocks, run = Ok o /\ session 17 pow34 blank o = Ok (al, score, blocks) /\ cpp_session 17 pow34 blank o = Ok (l, score') /\ firstn (al_size al) (al_data al) = want.
Proof.
  intros ES EC. destruct run as [o| | |]; try discriminate EC. cbn [bind] in ES, EC. injection ES as _ ES.
  destruct (session 17 pow34 blank o) as [[[al sc] blocks]| | |] eqn:Es; try discriminate ES. cbn [bind fst snd] in ES. injection ES as E1 E2. subst sc.
  exists o, al, blocks. rewrite Es, EC. auto.
Qed.
(** The two programs do not print the same second list. *)
Local Opaque fresh_run session cpp_session.
Theorem C107_same_second_list_refuted :
  ~ (forall ds rows cols minPts fuel s qsort pow stats o al score blocks l score',
      5 <= rows -> (Z.of_nat rows <= 65536)%Z -> holds ds rows cols -> (2 <= minPts < M32)%Z -> 2 * rows - 1 <= fuel -> valid s -> sorts qsort ->
      distances_are_numbers ds rows cols -> fresh_run fuel s qsort minPts ds rows cols true = Ok o ->
      session fuel pow stats o = Ok (al, score, blocks) -> cpp_session fuel pow stats o = Ok (l, score') ->
      stores al l).
Proof.
  intros H. destruct C106_apart as (HN & HL & ES). destruct C107_apart as (_ & _ & EC).
  unfold session_of in ES. unfold cpp_session_of in EC. cbv zeta in ES.
  remember (fresh_run 17 in_turn insertion_sort 2 (line_data apart) 9 1 true) as run eqn:Er.
  destruct (both_sessions run _ _ _ _ _ ES EC) as (o & al & blocks & E & Es & Ec & E1). rewrite Er in E.
  specialize (H (line_data apart) 9 1 2%Z 17 in_turn insertion_sort pow34 blank o al _ blocks _ _ ltac:(lia) ltac:(lia) HL ltac:(unfold M32; lia) ltac:(lia)
    (proj1 schedules_valid) insertion_sort_sorts HN E Es Ec).
  destruct H as [_ H2]. rewrite E1 in H2. discriminate H2.
Qed.
Print Assumptions C107_same_second_list_refuted.
