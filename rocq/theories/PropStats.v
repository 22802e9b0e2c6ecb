(** C44, C45, C46, C48, C49: statistics and sorting of clusters. *)
From Coq Require Import Sorted Permutation.
From Verif Require Import Base ListFacts F64 F64Facts F64Arith ModelArrayList SpecSeq ProofArrayList PropCollections ModelCells ModelHash
  ModelUtils ModelDistance ModelMap ProofMap PropClusterMap PropTandem SpecStats PropMinMax ProofStats.
From Coq Require Import ZifyBool ZifyNat.
Local Open Scope nat_scope.

(** [table t kv] (ProofStats.v): a well-formed hashtable that lists the keys of [kv] in this
    order and finds these values.  The maps of C42 and C43 are such tables. *)
Lemma cluster_map_is_table labels first last :
  Forall label_ok labels -> (Z.of_nat (length labels) < M32)%Z -> first <= last <= length labels -> last - first = 0 \/ 3 <= last - first ->
  exists ct kv, create_cluster_map labels (Z.of_nat first) (Z.of_nat last) = Ok ct /\ table ct kv.
Proof.
  intros HL HM Hr Hn. destruct (create_ok labels first last HL HM Hr Hn) as (t & m & E & HG & _). destruct (table_exists t m HG) as (kv & HT & _). eauto.
Qed.
Lemma distance_map_is_table labels first last d core dist ct t :
  Forall label_ok labels -> (Z.of_nat (length labels) < M32)%Z -> first <= last <= length labels -> last - first = 0 \/ 3 <= last - first ->
  (forall i, first <= i < last -> zget (d_core d) (Z.of_nat i) = Ok (core (Z.of_nat i)) /\ nonneg (core (Z.of_nat i))) ->
  (forall i j, first <= i < last -> first <= j < last ->
     distance_get d (Z.of_nat i) (Z.of_nat j) = Ok (dist (Z.of_nat i) (Z.of_nat j)) /\ nonneg (dist (Z.of_nat i) (Z.of_nat j))) ->
  create_cluster_map labels (Z.of_nat first) (Z.of_nat last) = Ok ct -> get_min_max_distances d ct = Ok t -> exists kv, table t kv.
Proof.
  intros HL HM Hr Hn HC HD E Et. destruct (create_ok labels first last HL HM Hr Hn) as (ct' & m & E' & HG & Hm & Hk). rewrite E in E'. injection E' as <-.
  destruct (minmax_ok d core dist ct m HG) as (t' & m' & Et' & Gt & _ & _).
  { intros c a Hin. destruct (Hm c a Hin) as (al & Hal & Hrep). exists al, (map Z.of_nat (indices labels first (last - first) c)).
    split; [exact Hal|]. split; [exact Hrep|].
    assert (HI : forall x, In x (map Z.of_nat (indices labels first (last - first) c)) -> exists i, x = Z.of_nat i /\ first <= i < last).
    { intros x Hx. apply in_map_iff in Hx. destruct Hx as (i & <- & Hi). apply indices_in in Hi. exists i. split; [reflexivity|lia]. }
    split.
    - assert (H : indices labels first (last - first) c <> []) by (apply Hk; apply (in_map fst) in Hin; exact Hin). destruct (indices labels first (last - first) c); [contradiction|discriminate].
    - split.
      + intros i Hi. destruct (HI i Hi) as (k & -> & Hk'). apply (HC k Hk').
      + intros i Hi. destruct (HI i Hi) as (k & -> & Hk'). apply (HC k Hk').
      + intros i j Hi Hj. destruct (HI i Hi) as (k & -> & Hk'), (HI j Hj) as (k2 & -> & Hk2). apply (HD k k2 Hk' Hk2).
      + intros i j Hi Hj. destruct (HI i Hi) as (k & -> & Hk'), (HI j Hj) as (k2 & -> & Hk2). apply (HD k k2 Hk' Hk2). }
  rewrite Et in Et'. injection Et' as <-. destruct (table_exists t m' Gt) as (kv & HT & _). eauto.
Qed.

Lemma for_up_app {T} (f : nat -> res T) (g : list T) n : forall k acc,
  (forall i x, nth_error g i = Some x -> f (k + i) = Ok x) -> length g = n ->
  for_up k n (fun i l => let! x := f i in Ok (l ++ [x])) acc = Ok (acc ++ g).
Proof.
  revert g. induction n as [|n IH]; intros g k acc H Hl; destruct g as [|x g]; try discriminate; cbn [for_up]; [rewrite app_nil_r; reflexivity|].
  pose proof (H 0 x eq_refl) as H0. rewrite Nat.add_0_r in H0. rewrite H0. cbn [bind]. rewrite (IH g (S k)).
  - rewrite <- app_assoc. reflexivity.
  - intros i y Hy. replace (S k + i) with (k + S i) by lia. apply H. exact Hy.
  - cbn [length] in Hl. lia.
Qed.
Lemma for_up_ext {S} (f g : nat -> S -> res S) n : forall k s, (forall i s, k <= i < k + n -> f i s = g i s) -> for_up k n f s = for_up k n g s.
Proof.
  induction n as [|n IH]; intros k s H; cbn [for_up]; [reflexivity|]. rewrite H by lia. destruct (g k s); cbn [bind]; [|reflexivity..]. apply IH. intros i s' Hi. apply H. lia.
Qed.

Section Stats.
Variable pow : f64 -> f64 -> f64.

Definition cores_of (kv : list (Z * dvals)) : list f64 := map (fun x => core_ratio (snd x)) kv.
Definition intras_of (kv : list (Z * dvals)) : list f64 := map (fun x => intra_ratio (snd x)) kv.
(** An entry with new confidences. *)
Definition with_conf (mc md : f64) (x : Z * dvals) : Z * dvals :=
  (fst x, mk_dvals (v_min_cr (snd x)) (v_max_cr (snd x)) (confidence mc (core_ratio (snd x))) (v_max_dr (snd x)) (v_min_dr (snd x)) (confidence md (intra_ratio (snd x)))).

Lemma ratios_ok t kv : table t kv -> ratios t (length kv) = Ok (cores_of kv, intras_of kv).
Proof.
  intros (_ & (R1 & R2 & R3) & _). unfold ratios.
  destruct (for_up_inv (fun i cd => cd = (cores_of (firstn i kv), intras_of (firstn i kv)))
    (fun i cd => let! key := pt_key t i in let! v := pt_deref t key in Ok (fst cd ++ [fdiv (v_max_cr v) (v_min_cr v)], snd cd ++ [fdiv (v_max_dr v) (v_min_dr v)])) 0 (length kv) ([], [])) as (cd & E & K).
  - reflexivity.
  - intros i cd Hi ->. destruct (nth_error kv i) as [[k v]|] eqn:Ek; [|apply nth_error_None in Ek; lia].
    destruct (R3 i k v Ek) as [-> Hv]. cbn [bind]. rewrite Hv. cbn [bind]. eexists. split; [reflexivity|].
    assert (Hf : firstn (S i) kv = firstn i kv ++ [(k, v)]).
    { clear -Ek. revert kv Ek. induction i as [|i IH]; intros [|x kv] E; cbn in *; try discriminate; [congruence|]. f_equal. apply IH, E. }
    rewrite Hf. unfold cores_of, intras_of. rewrite !map_app. reflexivity.
  - rewrite E, K. cbn [Nat.add]. rewrite firstn_all. reflexivity.
Qed.

Lemma confidences_ok t kv mc md : table t kv ->
  exists t', for_up 0 (length kv) (confidence_step (cores_of kv) (intras_of kv) mc md) t = Ok t' /\ table t' (map (with_conf mc md) kv).
Proof.
  intros HT. destruct (for_up_inv (fun i t' => table t' (map (with_conf mc md) (firstn i kv) ++ skipn i kv)) (confidence_step (cores_of kv) (intras_of kv) mc md) 0 (length kv) t) as (t' & E & K).
  - exact HT.
  - intros i t1 Hi HT1. destruct (nth_error kv i) as [[k v]|] eqn:Ek; [|apply nth_error_None in Ek; lia].
    assert (Hli : length (map (with_conf mc md) (firstn i kv)) = i) by (rewrite map_length, firstn_length; lia).
    assert (Hsk : skipn i kv = (k, v) :: skipn (S i) kv).
    { clear -Ek. revert kv Ek. induction i as [|i IH]; intros [|x kv] E; cbn in *; try discriminate; [congruence|]. apply IH, E. }
    assert (Hn : nth_error (map (with_conf mc md) (firstn i kv) ++ skipn i kv) i = Some (k, v)).
    { rewrite nth_error_app2 by lia. rewrite Hli, Nat.sub_diag, Hsk. reflexivity. }
    destruct (table_store t1 _ i k v (snd (with_conf mc md (k, v))) HT1 Hn) as (a & t2 & F1 & F2 & F3 & F4).
    unfold confidence_step. destruct HT1 as (_ & (_ & _ & R3) & _). rewrite (proj1 (R3 i k v Hn)). cbn [bind]. rewrite F1. cbn [bind]. rewrite F2. cbn [bind].
    unfold cores_of, intras_of. rewrite (aget_nth _ i (core_ratio v)) by (rewrite nth_error_map, Ek; reflexivity). cbn [bind].
    rewrite (aget_nth _ i (intra_ratio v)) by (rewrite nth_error_map, Ek; reflexivity). cbn [bind].
    exists t2. split; [exact F3|].
    assert (Hf : firstn (S i) kv = firstn i kv ++ [(k, v)]).
    { clear -Ek. revert kv Ek. induction i as [|i IH]; intros [|x kv] E; cbn in *; try discriminate; [congruence|]. f_equal. apply IH, E. }
    rewrite Hf, map_app, <- app_assoc. cbn [map app]. rewrite Hsk in F4.
    assert (Hu : forall (a : list (Z * dvals)) x y b, upd (a ++ x :: b) (length a) y = a ++ y :: b) by (clear; induction a as [|z a IH]; intros; cbn; [reflexivity|f_equal; apply IH]).
    rewrite <- Hli in F4 at 3. rewrite Hu in F4. exact F4.
  - exists t'. split; [exact E|]. cbn [Nat.add] in K. rewrite firstn_all, skipn_all, app_nil_r in K. exact K.
Qed.

(** Everything hdbscan_calculate_stats does to a non-empty distance map. *)
Lemma calc_ok t kv s : table t kv -> kv <> [] -> (Z.of_nat (length kv) < M32)%Z ->
  exists t' c i, calculate_stats pow t s = Ok (t', mk_cstats (Z.of_nat (length kv)) c i) /\
    statistics pow (sv_var (st_core s)) (cores_of kv) c /\ statistics pow (sv_var (st_intra s)) (intras_of kv) i /\
    sv_max c = fold_left pick (tl (cores_of kv)) (hd fzero (cores_of kv)) /\ sv_max i = fold_left pick (tl (intras_of kv)) (hd fzero (intras_of kv)) /\
    table t' (map (with_conf (sv_max c) (sv_max i)) kv).
Proof.
  intros HT Hne HM. unfold calculate_stats. assert (Hs : pt_size t = length kv) by apply HT. rewrite Hs. rewrite (ratios_ok t kv HT). cbn [bind fst snd].
  assert (Eu : u32 (Z.of_nat (length kv)) = Z.of_nat (length kv)) by (unfold u32; apply Z.mod_small; lia). rewrite Eu.
  destruct kv as [|[k v] kv]; [contradiction|]. set (KV := (k, v) :: kv) in *.
  assert (L1 : length KV = length (core_ratio v :: cores_of kv)) by (cbn [length KV]; unfold cores_of; rewrite map_length; reflexivity).
  assert (L2 : length KV = length (intra_ratio v :: intras_of kv)) by (cbn [length KV]; unfold intras_of; rewrite map_length; reflexivity).
  destruct (series_ok pow (core_ratio v) (cores_of kv) (st_core s)) as (c & Ec & Sc & Mc); [rewrite <- L1; exact HM|].
  destruct (series_ok pow (intra_ratio v) (intras_of kv) (st_intra s)) as (i & Ei & Si & Mi); [rewrite <- L2; exact HM|].
  rewrite <- L1 in Ec. rewrite <- L2 in Ei. change (cores_of KV) with (core_ratio v :: cores_of kv). change (intras_of KV) with (intra_ratio v :: intras_of kv).
  rewrite Ec. cbn [bind]. rewrite Ei. cbn [bind].
  destruct (confidences_ok t KV (sv_max c) (sv_max i) HT) as (t' & Et & Tt). change (cores_of KV) with (core_ratio v :: cores_of kv) in Et. change (intras_of KV) with (intra_ratio v :: intras_of kv) in Et.
  rewrite Et. cbn [bind]. exists t', c, i. split; [reflexivity|]. auto 6.
Qed.
End Stats.

(** C44.  The statistics of the two series of ratios.  The count, the means and the maxima do
    not depend on the previous contents of the struct; the variance is added to what was
    there, and nothing else of the previous contents matters. *)
Theorem C44_statistics : forall pow t kv s, table t kv -> kv <> [] -> (Z.of_nat (length kv) < M32)%Z ->
  exists t' s', calculate_stats pow t s = Ok (t', s') /\ st_count s' = Z.of_nat (length kv) /\
    statistics pow (sv_var (st_core s)) (map (fun x => core_ratio (snd x)) kv) (st_core s') /\
    statistics pow (sv_var (st_intra s)) (map (fun x => intra_ratio (snd x)) kv) (st_intra s').
Proof.
  intros pow t kv s HT Hne HM. destruct (calc_ok pow t kv s HT Hne HM) as (t' & c & i & E & Sc & Si & _). eexists _, _. split; [exact E|]. cbn. auto.
Qed.
Print Assumptions C44_statistics.

Lemma svals_eq a b : sv_mean a = sv_mean b -> sv_sd a = sv_sd b -> sv_var a = sv_var b -> sv_max a = sv_max b -> sv_kurt a = sv_kurt b -> sv_skew a = sv_skew b -> a = b.
Proof. destruct a, b; cbn. intros. subst. reflexivity. Qed.
Theorem C44_previous_contents : forall pow t kv s1 s2, table t kv -> kv <> [] -> (Z.of_nat (length kv) < M32)%Z ->
  exists t' r1 r2, calculate_stats pow t s1 = Ok (t', r1) /\ calculate_stats pow t s2 = Ok (t', r2) /\
    st_count r1 = st_count r2 /\
    sv_mean (st_core r1) = sv_mean (st_core r2) /\ sv_max (st_core r1) = sv_max (st_core r2) /\
    sv_mean (st_intra r1) = sv_mean (st_intra r2) /\ sv_max (st_intra r1) = sv_max (st_intra r2) /\
    (sv_var (st_core s1) = sv_var (st_core s2) -> st_core r1 = st_core r2) /\
    (sv_var (st_intra s1) = sv_var (st_intra s2) -> st_intra r1 = st_intra r2).
Proof.
  intros pow t kv s1 s2 HT Hne HM.
  destruct (calc_ok pow t kv s1 HT Hne HM) as (t1 & c1 & i1 & E1 & [Sc1 Sc2 Sc3 Sc4 Sc5 Sc6] & [Si1 Si2 Si3 Si4 Si5 Si6] & Mc & Mi & _).
  destruct (calc_ok pow t kv s2 HT Hne HM) as (t2 & c2 & i2 & E2 & [Tc1 Tc2 Tc3 Tc4 Tc5 Tc6] & [Ti1 Ti2 Ti3 Ti4 Ti5 Ti6] & Nc & Ni & _).
  assert (t1 = t2).
  { unfold calculate_stats in E1, E2. destruct (ratios t (pt_size t)) as [cd| | |]; try discriminate. cbn [bind] in E1, E2.
    destruct (series_stats pow (fst cd) (u32 (Z.of_nat (pt_size t))) (st_core s1)) as [a1| | |]; try discriminate.
    destruct (series_stats pow (fst cd) (u32 (Z.of_nat (pt_size t))) (st_core s2)) as [a2| | |]; try discriminate. cbn [bind] in E1, E2.
    destruct (series_stats pow (snd cd) (u32 (Z.of_nat (pt_size t))) (st_intra s1)) as [b1| | |]; try discriminate.
    destruct (series_stats pow (snd cd) (u32 (Z.of_nat (pt_size t))) (st_intra s2)) as [b2| | |]; try discriminate. cbn [bind] in E1, E2.
    destruct (for_up 0 (pt_size t) (confidence_step (fst cd) (snd cd) (sv_max a1) (sv_max b1)) t) as [u1| | |] eqn:U1; try discriminate.
    destruct (for_up 0 (pt_size t) (confidence_step (fst cd) (snd cd) (sv_max a2) (sv_max b2)) t) as [u2| | |] eqn:U2; try discriminate. cbn [bind] in E1, E2.
    injection E1 as -> _ -> ->. injection E2 as -> _ -> ->. rewrite Mc, Mi in U1. rewrite Nc, Ni in U2. congruence. }
  subst t2. eexists t1, _, _. split; [exact E1|]. split; [exact E2|]. cbn [st_count st_core st_intra].
  split; [reflexivity|]. split; [congruence|]. split; [congruence|]. split; [congruence|]. split; [congruence|].
  split; intros Hv; rewrite Hv in *; apply svals_eq; congruence.
Qed.
Print Assumptions C44_previous_contents.

Lemma nan_add a b : fisnan a = true -> fisnan (fadd a b) = true. Proof. destruct a; try discriminate. reflexivity. Qed.
Lemma nan_div a b : fisnan a = true -> fisnan (fdiv a b) = true. Proof. destruct a; try discriminate. reflexivity. Qed.
Lemma nan_div_r a b : fisnan b = true -> fisnan (fdiv a b) = true. Proof. destruct b; try discriminate. destruct a; reflexivity. Qed.
Lemma nan_mul_r a b : fisnan b = true -> fisnan (fmul a b) = true. Proof. destruct b; try discriminate. destruct a; reflexivity. Qed.
Lemma nan_sub a b : fisnan a = true -> fisnan (fsub a b) = true. Proof. destruct a; try discriminate. reflexivity. Qed.
Lemma nan_sqrt a : fisnan a = true -> fisnan (fsqrt a) = true. Proof. destruct a; try discriminate. reflexivity. Qed.
Lemma nan_sum xs : forall z, fisnan z = true -> fisnan (sum_from z xs) = true.
Proof. induction xs as [|x xs IH]; intros z H; [exact H|]. apply IH, nan_add, H. Qed.

(** If the variance fields happen to hold NaN when the function is called, the variance, the
    deviation, the skewness and the kurtosis are NaN for every map, and the score is -2. *)
Theorem C44_uninitialised_variance_refuted : forall pow t kv s, table t kv -> kv <> [] -> (Z.of_nat (length kv) < M32)%Z ->
  (forall x y, fisnan x = true -> fisnan (pow x y) = true) ->
  fisnan (sv_var (st_core s)) = true -> fisnan (sv_var (st_intra s)) = true ->
  exists t' s', calculate_stats pow t s = Ok (t', s') /\ analyse_stats s' = (-2)%Z /\
    forall r, r = st_core s' \/ r = st_intra s' ->
      fisnan (sv_var r) = true /\ fisnan (sv_sd r) = true /\ fisnan (sv_skew r) = true /\ fisnan (sv_kurt r) = true.
Proof.
  intros pow t kv s HT Hne HM Hp H1 H2. destruct (C44_statistics pow t kv s HT Hne HM) as (t' & s' & E & _ & S1 & S2).
  assert (HN : forall z xs r, fisnan z = true -> statistics pow z xs r -> fisnan (sv_var r) = true /\ fisnan (sv_sd r) = true /\ fisnan (sv_skew r) = true /\ fisnan (sv_kurt r) = true).
  { intros z xs r Hz [_ _ -> -> -> ->]. assert (Hv : fisnan (variance_from z xs) = true) by (apply nan_div, nan_sum, Hz). pose proof (nan_sqrt _ Hv) as Hs.
    split; [exact Hv|]. split; [exact Hs|]. split; [apply nan_div_r, nan_mul_r, Hp, Hs|apply nan_sub, nan_div_r, nan_mul_r, Hp, Hs]. }
  pose proof (HN _ _ _ H1 S1) as N1. pose proof (HN _ _ _ H2 S2) as N2. exists t', s'. split; [exact E|]. split.
  - unfold analyse_stats, score_of, fgt. destruct N1 as (_ & _ & A1 & _), N2 as (_ & _ & A2 & _).
    fold (flt fzero (sv_skew (st_intra s'))). fold (flt fzero (sv_skew (st_core s'))).
    rewrite (flt_nan_r _ _ A1), (flt_nan_r _ _ A2), (flt_nan_l _ _ A1), (flt_nan_l _ _ A2). reflexivity.
  - intros r [->| ->]; assumption.
Qed.
Print Assumptions C44_uninitialised_variance_refuted.

(** An empty map: cr[0] of an array without elements is read. *)
Theorem C44_empty_map_refuted : forall pow t s, table t [] -> calculate_stats pow t s = UB.
Proof.
  intros pow t s HT. unfold calculate_stats. assert (Hs : pt_size t = 0) by apply HT. rewrite Hs. reflexivity.
Qed.
Print Assumptions C44_empty_map_refuted.

(** ** Confidence *)

(** The ratio and the confidence of the chosen kind. *)
Definition ratio (core : bool) (v : dvals) : f64 := if core then core_ratio v else intra_ratio v.
Definition conf (core : bool) (v : dvals) : f64 := if core then v_cr_conf v else v_dr_conf v.
(** The same clusters with the same distance extremes. *)
Definition same_extremes (x y : Z * dvals) : Prop :=
  fst x = fst y /\ v_min_cr (snd x) = v_min_cr (snd y) /\ v_max_cr (snd x) = v_max_cr (snd y) /\
  v_max_dr (snd x) = v_max_dr (snd y) /\ v_min_dr (snd x) = v_min_dr (snd y).

Lemma calc_conf pow t kv s : table t kv -> kv <> [] -> (Z.of_nat (length kv) < M32)%Z ->
  exists t' s' mc md, calculate_stats pow t s = Ok (t', s') /\ table t' (map (with_conf mc md) kv) /\
    mc = fold_left pick (tl (cores_of kv)) (hd fzero (cores_of kv)) /\ md = fold_left pick (tl (intras_of kv)) (hd fzero (intras_of kv)).
Proof.
  intros HT Hne HM. destruct (calc_ok pow t kv s HT Hne HM) as (t' & c & i & E & _ & _ & Mc & Mi & T'). eexists t', _, (sv_max c), (sv_max i). split; [exact E|]. auto.
Qed.
Lemma with_conf_same mc md kv : Forall2 same_extremes kv (map (with_conf mc md) kv).
Proof. induction kv as [|x kv IH]; cbn [map]; constructor; [|exact IH]. repeat split. Qed.
Lemma with_conf_conf core mc md x : conf core (snd (with_conf mc md x)) = confidence (if core then mc else md) (ratio core (snd x)).
Proof. destruct core; reflexivity. Qed.
Lemma with_conf_ratio core mc md x : ratio core (snd (with_conf mc md x)) = ratio core (snd x).
Proof. destruct core; reflexivity. Qed.
Definition rlist (core : bool) (kv : list (Z * dvals)) : list f64 := map (fun x => ratio core (snd x)) kv.
Lemma rlist_max (core : bool) kv mc md : mc = fold_left pick (tl (cores_of kv)) (hd fzero (cores_of kv)) -> md = fold_left pick (tl (intras_of kv)) (hd fzero (intras_of kv)) ->
  (if core then mc else md) = fold_left pick (tl (rlist core kv)) (hd fzero (rlist core kv)).
Proof. intros -> ->. destruct core; reflexivity. Qed.
Lemma rlist_largest core kv : kv <> [] -> (forall x, In x kv -> fisnan (ratio core (snd x)) = false) ->
  largest (rlist core kv) (fold_left pick (tl (rlist core kv)) (hd fzero (rlist core kv))).
Proof.
  intros Hne HN. destruct kv as [|x kv]; [contradiction|]. change (rlist core (x :: kv)) with (ratio core (snd x) :: rlist core kv). cbn [tl hd]. apply (pick_largest (fun a _ => a)). intros y Hy.
  assert (Hy' : In y (rlist core (x :: kv))) by exact Hy. clear Hy. rename Hy' into Hy. apply in_map_iff in Hy. destruct Hy as (z & <- & Hz). apply HN, Hz.
Qed.

(** C45.  When the ratios are finite and not negative and one of them is positive, every
    confidence lies between 0 and 100, a larger ratio never has a larger confidence, and the
    largest ratio has confidence 0. *)
Theorem C45_confidence_range : forall core pow t kv s, table t kv -> (Z.of_nat (length kv) < M32)%Z ->
  (forall x, In x kv -> fle fzero (ratio core (snd x)) = true /\ fle (ratio core (snd x)) D_MAX = true) ->
  (exists x, In x kv /\ flt fzero (ratio core (snd x)) = true) ->
  exists t' s' kv', calculate_stats pow t s = Ok (t', s') /\ table t' kv' /\ Forall2 same_extremes kv kv' /\
    (forall x, In x kv' -> fle fzero (conf core (snd x)) = true /\ fle (conf core (snd x)) (f_of_Z 100) = true) /\
    (forall x y, In x kv' -> In y kv' -> fle (ratio core (snd x)) (ratio core (snd y)) = true -> fle (conf core (snd y)) (conf core (snd x)) = true) /\
    (forall x, In x kv' -> (forall y, In y kv' -> fle (ratio core (snd y)) (ratio core (snd x)) = true) -> feq (conf core (snd x)) fzero = true).
Proof.
  intros core pow t kv s HT HM HR (p & Hp & Pp). assert (Hne : kv <> []) by (intros ->; destruct Hp).
  destruct (calc_conf pow t kv s HT Hne HM) as (t' & s' & mc & md & E & T' & Mc & Md). pose proof (rlist_max core kv mc md Mc Md) as Mx. set (mx := if core then mc else md) in *.
  destruct (rlist_largest core kv Hne) as [L1 L2]; [intros x Hx; apply (fle_true _ _ (proj1 (HR x Hx)))|]. rewrite <- Mx in L1, L2.
  assert (Nin : forall x, In x kv -> notnan (ratio core (snd x))) by (intros x Hx; apply (fle_true _ _ (proj1 (HR x Hx)))).
  apply in_map_iff in L1. destruct L1 as (q & Eq & Hq). pose proof (Nin q Hq) as Nm. rewrite Eq in Nm.
  assert (Hle : forall x, In x kv -> fle (ratio core (snd x)) mx = true).
  { intros x Hx. apply flt_not; [exact Nm|apply Nin, Hx|]. apply (L2 (ratio core (snd x))). apply in_map_iff. exists x. auto. }
  assert (Pm : flt fzero mx = true).
  { apply flt_true in Pp. destruct Pp as (A & B & K). pose proof (Hle p Hp) as H. apply fle_true in H. apply flt_intro; [exact A|exact Nm|]. clear -K H. destruct H as (_ & _ & H). lia. }
  assert (Fm : BinarySingleNaN.is_finite mx = true) by (rewrite <- Eq; apply (fle_fin_r _ D_MAX); [apply HR, Hq|apply HR, Hq|reflexivity]).
  exists t', s', (map (with_conf mc md) kv). split; [exact E|]. split; [exact T'|]. split; [apply with_conf_same|].
  assert (Hin : forall x', In x' (map (with_conf mc md) kv) -> exists x, In x kv /\ conf core (snd x') = confidence mx (ratio core (snd x)) /\ ratio core (snd x') = ratio core (snd x)).
  { intros x' Hx'. apply in_map_iff in Hx'. destruct Hx' as (x & <- & Hx). exists x. split; [exact Hx|]. split; [apply with_conf_conf|apply with_conf_ratio]. }
  split; [|split].
  - intros x' Hx'. destruct (Hin x' Hx') as (x & Hx & -> & _). apply conf_range; [exact Fm|exact Pm|apply HR, Hx|apply Hle, Hx].
  - intros x' y' Hx' Hy'. destruct (Hin x' Hx') as (x & Hx & -> & ->), (Hin y' Hy') as (y & Hy & -> & ->). intros Hxy.
    apply conf_mono; [exact Fm|exact Pm|apply HR, Hx|exact Hxy|apply Hle, Hy].
  - intros x' Hx' Htop. destruct (Hin x' Hx') as (x & Hx & -> & Er). apply conf_top; [exact Fm|exact Pm|].
    assert (H1 : fle mx (ratio core (snd x)) = true).
    { rewrite <- Eq, <- Er. rewrite <- (with_conf_ratio core mc md q). apply Htop. apply in_map, Hq. }
    pose proof (Hle x Hx) as H2. apply fle_true in H1, H2. apply feq_intro; [apply Nin, Hx|exact Nm|]. clear -H1 H2. destruct H1 as (_ & _ & H1), H2 as (_ & _ & H2). lia.
Qed.
Print Assumptions C45_confidence_range.

(** One infinite ratio (a cluster whose minimum distance is zero), or only zero ratios (only
    clusters of one point, or with coinciding points), makes every confidence NaN. *)
Theorem C45_nan_confidences_refuted : forall core pow t kv s, table t kv -> kv <> [] -> (Z.of_nat (length kv) < M32)%Z ->
  (forall x, In x kv -> fle fzero (ratio core (snd x)) = true) ->
  (exists x, In x kv /\ ratio core (snd x) = finf) \/ (forall x, In x kv -> is_zero (ratio core (snd x)) = true) ->
  exists t' s' kv', calculate_stats pow t s = Ok (t', s') /\ table t' kv' /\ Forall2 same_extremes kv kv' /\
    forall x, In x kv' -> fisnan (conf core (snd x)) = true.
Proof.
  intros core pow t kv s HT Hne HM HR Hc.
  destruct (calc_conf pow t kv s HT Hne HM) as (t' & s' & mc & md & E & T' & Mc & Md). pose proof (rlist_max core kv mc md Mc Md) as Mx. set (mx := if core then mc else md) in *.
  assert (Nin : forall x, In x kv -> notnan (ratio core (snd x))) by (intros x Hx; apply (fle_true _ _ (HR x Hx))).
  destruct (rlist_largest core kv Hne Nin) as [L1 L2]. rewrite <- Mx in L1, L2.
  apply in_map_iff in L1. destruct L1 as (q & Eq & Hq).
  exists t', s', (map (with_conf mc md) kv). split; [exact E|]. split; [exact T'|]. split; [apply with_conf_same|].
  intros x' Hx'. apply in_map_iff in Hx'. destruct Hx' as (x & <- & Hx). rewrite with_conf_conf. fold mx.
  destruct Hc as [(p & Hp & Ep)|Hz].
  - assert (mx = finf).
    { pose proof (L2 finf) as H. rewrite <- Ep in H. specialize (H (in_map (fun x => ratio core (snd x)) kv p Hp)). rewrite Ep in H.
      rewrite <- Eq in H |- *. pose proof (HR q Hq) as Gq. destruct (ge0_cases _ Gq) as [[F _]|E1]; [|exact E1]. exfalso.
      destruct (ratio core (snd q)) as [sg|sg| |sg m e B]; try discriminate F; try discriminate H; destruct sg; discriminate H. }
    rewrite H. apply conf_inf; [apply Nin, Hx|apply HR, Hx].
  - apply conf_zero; [rewrite <- Eq; apply Hz, Hq|apply Hz, Hx].
Qed.
Print Assumptions C45_nan_confidences_refuted.

(** ** The score *)

(** The contribution of one pair of skewness and kurtosis. *)
Inductive contribution (skew kurt : f64) : Z -> Prop :=
| both_positive : flt fzero skew = true -> flt fzero kurt = true -> contribution skew kurt 2
| skew_negative : flt skew fzero = true -> flt fzero kurt = true -> contribution skew kurt 1
| kurt_negative : flt fzero skew = true -> flt kurt fzero = true -> contribution skew kurt 0
| otherwise : (flt fzero kurt = true -> flt fzero skew = false /\ flt skew fzero = false) ->
    (flt kurt fzero = true -> flt fzero skew = false) -> contribution skew kurt (-1).

(** C46. *)
Theorem C46_validity_score : forall s, exists a b, analyse_stats s = (a + b)%Z /\ (-2 <= analyse_stats s <= 4)%Z /\
  contribution (sv_skew (st_intra s)) (sv_kurt (st_intra s)) a /\ contribution (sv_skew (st_core s)) (sv_kurt (st_core s)) b /\
  (fisnan (sv_skew (st_intra s)) = true \/ fisnan (sv_kurt (st_intra s)) = true -> a = (-1)%Z) /\
  (fisnan (sv_skew (st_core s)) = true \/ fisnan (sv_kurt (st_core s)) = true -> b = (-1)%Z).
Proof.
  intros s. assert (H : forall skew kurt, contribution skew kurt (score_of skew kurt) /\ (-1 <= score_of skew kurt <= 2)%Z /\ (fisnan skew = true \/ fisnan kurt = true -> score_of skew kurt = (-1)%Z)).
  { intros skew kurt. unfold score_of, fgt. fold (flt fzero skew). fold (flt fzero kurt). split; [|split].
    - destruct (flt fzero skew) eqn:E1, (flt fzero kurt) eqn:E2, (flt skew fzero) eqn:E3, (flt kurt fzero) eqn:E4; cbn [andb];
      first [apply both_positive; assumption|apply skew_negative; assumption|apply kurt_negative; assumption|apply otherwise; rewrite ?E1, ?E2, ?E3, ?E4; auto; discriminate].
    - destruct (flt fzero skew), (flt fzero kurt), (flt skew fzero), (flt kurt fzero); cbn; lia.
    - intros [N|N]; [rewrite (flt_nan_r _ _ N), (flt_nan_l _ _ N)|rewrite !(flt_nan_r _ _ N), (flt_nan_l _ _ N), !andb_false_r]; reflexivity. }
  destruct (H (sv_skew (st_intra s)) (sv_kurt (st_intra s))) as (A1 & A2 & A3). destruct (H (sv_skew (st_core s)) (sv_kurt (st_core s))) as (B1 & B2 & B3).
  eexists _, _. split; [reflexivity|]. split; [unfold analyse_stats; lia|]. auto.
Qed.
Print Assumptions C46_validity_score.
Example C46_example :
  let s a b c d := mk_cstats 3 (mk_svals fone fone fone fone a b) (mk_svals fone fone fone fone c d) in
  map analyse_stats [s fone fone fone fone; s fone minus_one minus_one minus_one; s fnan fone fone fone] = [4; 0; 1]%Z.
Proof. vm_compute. reflexivity. Qed.

(** ** Sorting by length *)
Lemma keys_follow (f : Z -> f64) l l' k' : length k' = length l' -> Permutation (combine l (map f l)) (combine l' k') -> k' = map f l' /\ Permutation l l'.
Proof.
  intros Hl HP. split.
  - assert (H : forall x y, In (x, y) (combine l' k') -> y = f x).
    { intros x y Hx. apply (Permutation_in _ (Permutation_sym HP)) in Hx. clear -Hx. induction l as [|a l IH]; [destruct Hx|]. destruct Hx as [Hx|Hx]; [congruence|apply IH, Hx]. }
    clear HP. revert l' Hl H. induction k' as [|y k' IH]; intros [|x l'] Hl H; try discriminate; [reflexivity|]. cbn [map]. f_equal; [apply H; left; reflexivity|].
    apply IH; [cbn [length] in Hl; lia|]. intros a b Hab. apply H. right. exact Hab.
  - apply (Permutation_map fst) in HP. assert (H : forall (a : list Z) (b : list f64), length b = length a -> map fst (combine a b) = a).
    { induction a as [|x a IH]; intros [|y b] E; try discriminate; [reflexivity|]. cbn. f_equal. apply IH. cbn in E. lia. }
    rewrite H in HP by (apply map_length). rewrite H in HP by exact Hl. exact HP.
Qed.

Lemma fle_of_Z a b : (0 <= a <= 2 ^ 53)%Z -> (0 <= b <= 2 ^ 53)%Z -> fle (f_of_Z a) (f_of_Z b) = true -> (a <= b)%Z.
Proof.
  intros Ha Hb H. destruct (f_of_Z_small a Ha) as [Fa Ra], (f_of_Z_small b Hb) as [Fb Rb]. apply fle_R in H; [|assumption|assumption]. rewrite Ra, Rb in H. apply Reals.RIneq.le_IZR. exact H.
Qed.

(** C48.  The labels come back ordered by the number of members of their clusters. *)
Lemma sort_by_length_ok fuel ct al l len : rep al l -> l <> [] -> (Z.of_nat (length l) < 2147483648)%Z -> length l <= fuel ->
  (forall c, In c l -> exists m, pt_deref ct c = Ok m /\ al_size m = len c /\ (Z.of_nat (len c) <= 2 ^ 53)%Z) ->
  exists al' l', sort_by_length fuel ct (Some al) = Ok al' /\ rep al' l' /\ Permutation l l' /\
    StronglySorted (fun c c' => len c <= len c') l'.
Proof.
  intros HR Hne Hlt Hf HD. unfold sort_by_length. assert (Hs : al_size al = length l) by apply HR. rewrite Hs.
  assert (Ei : exists al0 : alist f64, array_list_init (length l) = Ok al0).
  { unfold array_list_init. destruct (Nat.ltb_spec 0 (length l)); [eauto|]. destruct l; [contradiction|cbn in *; lia]. }
  destruct Ei as (al0 & ->). cbn [bind].
  set (f := fun c => f_of_Z (Z.of_nat (len c))).
  assert (Ek : for_up 0 (length l) (fun i ks => let! key := slot (al_data al) i in let! m := pt_deref ct key in Ok (ks ++ [f_of_Z (Z.of_nat (al_size m))])) [] = Ok (map f l)).
  { rewrite <- (app_nil_l (map f l)). rewrite <- (for_up_app (fun i => let! key := slot (al_data al) i in let! m := pt_deref ct key in Ok (f_of_Z (Z.of_nat (al_size m)))) (map f l) (length l) 0).
    - apply for_up_ext. intros i s _. destruct (slot (al_data al) i); cbn [bind]; [|reflexivity..]. destruct (pt_deref ct a); reflexivity.
    - intros i x Hx. cbn [Nat.add]. rewrite nth_error_map in Hx. destruct (nth_error l i) as [c|] eqn:Ec; [|discriminate]. cbn in Hx. injection Hx as <-.
      rewrite (slot_rep al l i c HR Ec). cbn [bind]. destruct (HD c (nth_error_In _ _ Ec)) as (m & -> & Hm & _). cbn [bind]. rewrite Hm. reflexivity.
    - apply map_length. }
  rewrite Ek. cbn [bind].
  destruct (sort_list_ok fuel al l (map f l) HR (map_length f l) Hlt Hf) as (al' & l' & k' & Es & R' & L' & P & S).
  { intros x Hx. apply in_map_iff in Hx. destruct Hx as (c & <- & Hc). destruct (HD c Hc) as (_ & _ & _ & Hb). apply fin_notnan. apply f_of_Z_small. lia. }
  destruct (keys_follow f l l' k' L' P) as [-> HP]. exists al', l'. split; [exact Es|]. split; [exact R'|]. split; [exact HP|].
  assert (Hb : forall c, In c l' -> (0 <= Z.of_nat (len c) <= 2 ^ 53)%Z).
  { intros c Hc. apply (Permutation_in _ (Permutation_sym HP)) in Hc. destruct (HD c Hc) as (_ & _ & _ & H). lia. }
  clear -S Hb. induction l' as [|c l' IH]; constructor.
  - apply IH; [|intros x Hx; apply Hb; right; exact Hx]. intros i j x y Hij Hx Hy. apply (S (Datatypes.S i) (Datatypes.S j) x y); [lia|exact Hx|exact Hy].
  - apply Forall_forall. intros c' Hc'. apply In_nth_error in Hc'. destruct Hc' as (j & Hj).
    assert (H : (Z.of_nat (len c) <= Z.of_nat (len c'))%Z); [|lia].
    apply fle_of_Z; [apply Hb; left; reflexivity|apply Hb; right; apply (nth_error_In _ _ Hj)|].
    apply (S 0 (Datatypes.S j)); [lia|reflexivity|]. cbn [map nth_error]. rewrite nth_error_map, Hj. reflexivity.
Qed.
Theorem C48_sorted_by_length : forall fuel ct al l len, rep al l -> l <> [] -> (Z.of_nat (length l) < 2147483648)%Z -> length l <= fuel ->
  (forall c, In c l -> exists m, pt_deref ct c = Ok m /\ al_size m = len c /\ (Z.of_nat (len c) <= 2 ^ 53)%Z) ->
  exists al' l', sort_by_length fuel ct (Some al) = Ok al' /\ stores al' l' /\ Permutation l l' /\
    StronglySorted (fun c c' => len c <= len c') l'.
Proof.
  intros fuel ct al l len HR Hne Hlt Hf HD. destruct (sort_by_length_ok fuel ct al l len HR Hne Hlt Hf HD) as (al' & l' & E & R' & H). exists al', l'. split; [exact E|]. split; [apply rep_elements in R'; split; tauto|exact H].
Qed.
Print Assumptions C48_sorted_by_length.

(** NULL fails the assertion, an empty list makes array_list_init abort, and a label that is
    not in the table dereferences NULL. *)
Theorem C48_bad_lists : forall fuel ct,
  sort_by_length fuel ct None = Abort /\
  (forall al, rep al [] -> sort_by_length fuel ct (Some al) = Abort) /\
  (forall kv al l, table ct kv -> rep al l -> Forall label_ok l -> (exists c, In c l /\ ~ In c (map fst kv)) -> sort_by_length fuel ct (Some al) = UB).
Proof.
  intros fuel ct. split; [reflexivity|]. split.
  - intros al (R1 & _). unfold sort_by_length. rewrite R1. reflexivity.
  - intros kv al l HT HR HL (c & Hc & Hn). unfold sort_by_length. assert (Hs : al_size al = length l) by apply HR. rewrite Hs.
    assert (Ei : exists al0 : alist f64, array_list_init (length l) = Ok al0).
    { unfold array_list_init. destruct (Nat.ltb_spec 0 (length l)); [eauto|]. destruct l; [destruct Hc|cbn in *; lia]. }
    destruct Ei as (al0 & ->). cbn [bind].
    assert (HD : forall x, In x l -> (exists m, pt_deref ct x = Ok m) \/ pt_deref ct x = UB).
    { intros x Hx. destruct HT as ((m & HG) & _). rewrite Forall_forall in HL. rewrite (pt_deref_ok ct m x HG (HL x Hx)). destruct (pfind m x) as [a|]; [|auto].
      unfold aget. destruct (nth_error (pt_mem ct) a); eauto. }
    assert (Hbad : pt_deref ct c = UB).
    { destruct HT as ((m & HG) & (R1 & R2 & R3) & _).
      rewrite Forall_forall in HL. rewrite (pt_deref_ok ct m c HG (HL c Hc)). destruct (pfind m c) as [a|] eqn:Ef; [|reflexivity]. exfalso.
      pose proof (proj1 (pfind_in m c a (pg_nd _ _ HG)) Ef) as Hin. destruct (pt_keys ct m HG) as (ls & K1 & K2 & _ & K4).
      assert (Hx : In c ls) by (apply (Permutation_in _ (Permutation_sym K2)); apply (in_map fst) in Hin; exact Hin). apply In_nth_error in Hx. destruct Hx as (i & Hi).
      assert (Hlt : i < length kv) by (rewrite <- R1, K1; apply nth_error_Some; congruence). destruct (nth_error kv i) as [[k v]|] eqn:Ek; [|apply nth_error_None in Ek; lia].
      destruct (R3 i k v Ek) as [Hk _]. rewrite (K4 i c Hi) in Hk. injection Hk as <-. apply Hn. change c with (fst (c, v)). apply in_map, (nth_error_In _ _ Ek). }
    match goal with |- (let! keys := ?X in _) = UB => assert (HU : X = UB) end; [|rewrite HU; reflexivity].
    apply In_nth_error in Hc. destruct Hc as (p & Hp). assert (Hpl : p < length l) by (apply nth_error_Some; congruence).
    assert (HG : forall n k ks, k <= p < k + n -> k + n <= length l ->
       for_up k n (fun i ks => let! key := slot (al_data al) i in let! m := pt_deref ct key in Ok (ks ++ [f_of_Z (Z.of_nat (al_size m))])) ks = UB).
    { induction n as [|n IH]; intros k ks H1 H2; [lia|]. cbn [for_up]. destruct (nth_error l k) as [x|] eqn:Ex; [|apply nth_error_None in Ex; lia].
      rewrite (slot_rep al l k x HR Ex). cbn [bind]. destruct (HD x (nth_error_In _ _ Ex)) as [(m & Em)|Eu]; [|rewrite Eu; reflexivity]. rewrite Em. cbn [bind].
      destruct (Nat.eq_dec k p) as [->|]; [|apply IH; lia]. exfalso. rewrite Hp in Ex. injection Ex as ->. congruence. }
    apply HG; lia.
Qed.
Print Assumptions C48_bad_lists.

(** ** Sorting by similarity *)
Lemma keys_conf (core : bool) t kv n : table t kv -> n <= length kv ->
  for_up 0 n (fun i ks => let! key := pt_key t i in let! v := pt_deref t key in Ok (ks ++ [if core then v_cr_conf v else v_dr_conf v])) [] =
  Ok (firstn n (map (fun x => conf core (snd x)) kv)).
Proof.
  intros HT Hn. rewrite <- (app_nil_l (firstn n _)).
  rewrite <- (for_up_app (fun i => let! key := pt_key t i in let! v := pt_deref t key in Ok (conf core v)) (firstn n (map (fun x => conf core (snd x)) kv)) n 0).
  - apply for_up_ext. intros i s _. destruct (pt_key t i); cbn [bind]; [|reflexivity..]. destruct (pt_deref t a); reflexivity.
  - intros i x Hx. cbn [Nat.add]. rewrite nth_error_firstn in Hx. destruct (i <? n); [|discriminate]. rewrite nth_error_map in Hx.
    destruct (nth_error kv i) as [[k v]|] eqn:Ek; [|discriminate]. cbn in Hx. injection Hx as <-. destruct HT as (_ & (_ & _ & R3) & _). destruct (R3 i k v Ek) as [-> Hv]. cbn [bind]. rewrite Hv. reflexivity.
  - rewrite firstn_length, map_length. lia.
Qed.

Lemma null_list (core : bool) t kv : table t kv -> kv <> [] -> exists al,
  (let! l := array_list_init (pt_size t) in
   let! distances := array_list_init (A := f64) (pt_size t) in
   for_up 0 (pt_size t) (fun i r => let! key := pt_key t i in let! v := pt_deref t key in
     let! a := array_list_append (fst r) key in Ok (fst a, snd r ++ [if core : bool then v_cr_conf v else v_dr_conf v])) (l, [])) = Ok (al, map (fun x => conf core (snd x)) kv) /\
  rep al (map fst kv).
Proof.
  intros HT Hne. assert (Hs : pt_size t = length kv) by apply HT. rewrite Hs.
  assert (Ei : forall T, exists al0 : alist T, array_list_init (length kv) = Ok al0).
  { intros T. unfold array_list_init. destruct (Nat.ltb_spec 0 (length kv)); [eauto|]. destruct kv; [contradiction|cbn in *; lia]. }
  destruct (Ei Z) as (a0 & E0), (Ei f64) as (a1 & E1). rewrite E0, E1. cbn [bind]. destruct (rep_init _ _ E0) as (R0 & _ & _).
  destruct (for_up_inv (fun i r => rep (fst r) (map fst (firstn i kv)) /\ snd r = map (fun x => conf core (snd x)) (firstn i kv))
    (fun i r => let! key := pt_key t i in let! v := pt_deref t key in
     let! a := array_list_append (fst r) key in Ok (fst a, snd r ++ [if core then v_cr_conf v else v_dr_conf v])) 0 (length kv) (a0, [])) as ([al ks] & E & K1 & K2).
  - split; [exact R0|reflexivity].
  - intros i [al ks] Hi [H1 H2]. cbn [fst snd] in *. destruct (nth_error kv i) as [[k v]|] eqn:Ek; [|apply nth_error_None in Ek; lia].
    destruct HT as (_ & (_ & _ & R3) & _). destruct (R3 i k v Ek) as [-> Hv]. cbn [bind]. rewrite Hv. cbn [bind].
    destruct (append_ok al _ k H1) as (al' & Ea & Ra). rewrite Ea. cbn [bind fst]. eexists. split; [reflexivity|]. cbn [fst snd].
    assert (Hf : firstn (S i) kv = firstn i kv ++ [(k, v)]).
    { clear -Ek. revert kv Ek. induction i as [|i IH]; intros [|x kv] E; cbn in *; try discriminate; [congruence|]. f_equal. apply IH, E. }
    rewrite Hf, !map_app. split; [exact Ra|]. rewrite H2. reflexivity.
  - cbn [fst snd Nat.add] in *. rewrite firstn_all in K1, K2. exists al. rewrite E. split; [f_equal; f_equal; exact K2|exact K1].
Qed.

(** C49, called with NULL: all labels, ordered by confidence. *)
Theorem C49_all_labels_by_confidence : forall fuel core t kv, table t kv -> kv <> [] -> (Z.of_nat (length kv) < 2147483648)%Z -> length kv <= fuel ->
  (forall x, In x kv -> fisnan (conf core (snd x)) = false) ->
  exists al l, sort_by_similarity fuel t None core = Ok al /\ stores al l /\ Permutation l (map fst kv) /\
    (forall i j c c' v v', i <= j -> nth_error l i = Some c -> nth_error l j = Some c' -> In (c, v) kv -> In (c', v') kv -> fle (conf core v) (conf core v') = true).
Proof.
  intros fuel core t kv HT Hne Hlt Hf HN. destruct (null_list core t kv HT Hne) as (al & E & HR). unfold sort_by_similarity.
  destruct (array_list_init (A := Z) (pt_size t)) as [l0| | |]; try discriminate. cbn [bind] in *.
  destruct (array_list_init (A := f64) (pt_size t)) as [l1| | |]; try discriminate. cbn [bind] in *. rewrite E. cbn [bind fst snd].
  destruct (sort_list_ok fuel al (map fst kv) (map (fun x => conf core (snd x)) kv) HR) as (al' & l' & k' & Es & R' & L' & P & S).
  { rewrite !map_length. reflexivity. } { rewrite map_length. exact Hlt. } { rewrite map_length. exact Hf. }
  { intros x Hx. apply in_map_iff in Hx. destruct Hx as (y & <- & Hy). apply HN, Hy. }
  destruct HT as (_ & (_ & Hnd & _) & _).
  set (f := fun c => match find (fun x => (fst x =? c)%Z) kv with Some x => conf core (snd x) | None => fzero end).
  assert (Hfv : forall c v, In (c, v) kv -> f c = conf core v).
  { intros c v Hin. unfold f. clear -Hin Hnd. induction kv as [|[k w] kv IH]; [destruct Hin|]. cbn [map fst] in Hnd. inversion Hnd as [|? ? Hn Hd]; subst. cbn [find fst].
    destruct Hin as [Hin|Hin]; [injection Hin as -> ->; rewrite Z.eqb_refl; reflexivity|]. destruct (Z.eqb_spec k c) as [->|]; [|apply IH; assumption].
    exfalso. apply Hn. change c with (fst (c, v)). apply in_map, Hin. }
  assert (Hm : map (fun x => conf core (snd x)) kv = map f (map fst kv)).
  { rewrite map_map. apply map_ext_in. intros [c v] Hin. cbn [fst snd]. symmetry. apply Hfv, Hin. }
  rewrite Hm in P. destruct (keys_follow f (map fst kv) l' k' L' P) as [-> HP]. exists al', l'. split; [exact Es|]. split; [apply rep_elements in R'; split; tauto|].
  split; [apply Permutation_sym, HP|]. intros i j c c' v v' Hij Hi Hj Hv Hv'. rewrite <- (Hfv c v Hv), <- (Hfv c' v' Hv').
  apply (S i j); [exact Hij| |]; rewrite nth_error_map; [rewrite Hi|rewrite Hj]; reflexivity.
Qed.
Print Assumptions C49_all_labels_by_confidence.

(** An empty map makes array_list_init abort. *)
Theorem C49_empty_map_aborts : forall fuel core t, table t [] -> sort_by_similarity fuel t None core = Abort.
Proof. intros fuel core t HT. unfold sort_by_similarity. assert (Hs : pt_size t = 0) by apply HT. rewrite Hs. reflexivity. Qed.
Print Assumptions C49_empty_map_aborts.

(** Called with a list of labels, the i-th label of the list is sorted by the confidence of
    the i-th key of the map, whatever its own confidence is. *)
Theorem C49_supplied_list_uses_other_confidences : forall fuel core t kv al l, table t kv -> rep al l -> l <> [] -> length l <= length kv ->
  (Z.of_nat (length l) < 2147483648)%Z -> length l <= fuel -> (forall x, In x kv -> fisnan (conf core (snd x)) = false) ->
  exists al' l' ks, sort_by_similarity fuel t (Some al) core = Ok al' /\ stores al' l' /\ length ks = length l' /\
    Permutation (combine l (map (fun x => conf core (snd x)) kv)) (combine l' ks) /\
    (forall i j x y, i <= j -> nth_error ks i = Some x -> nth_error ks j = Some y -> fle x y = true).
Proof.
  intros fuel core t kv al l HT HR Hne Hl Hlt Hf HN. unfold sort_by_similarity. assert (Hs : al_size al = length l) by apply HR. rewrite Hs.
  assert (Ei : exists al0 : alist f64, array_list_init (length l) = Ok al0).
  { unfold array_list_init. destruct (Nat.ltb_spec 0 (length l)); [eauto|]. destruct l; [contradiction|cbn in *; lia]. }
  destruct Ei as (al0 & ->). cbn [bind]. rewrite (keys_conf core t kv (length l) HT Hl). cbn [bind].
  destruct (sort_list_ok fuel al l (firstn (length l) (map (fun x => conf core (snd x)) kv)) HR) as (al' & l' & k' & Es & R' & L' & P & S).
  { rewrite firstn_length, map_length. lia. } { exact Hlt. } { exact Hf. }
  { intros x Hx. assert (In x (map (fun x => conf core (snd x)) kv)) by (rewrite <- (firstn_skipn (length l)); apply in_or_app; left; exact Hx).
    apply in_map_iff in H. destruct H as (y & <- & Hy). apply HN, Hy. }
  exists al', l', k'. split; [exact Es|]. split; [apply rep_elements in R'; split; tauto|]. split; [exact L'|]. split; [|exact S].
  assert (Hc : forall (a : list Z) (b : list f64), combine a (firstn (length a) b) = combine a b) by (induction a as [|x a IH]; intros [|y b]; cbn; try reflexivity; f_equal; apply IH).
  rewrite Hc in P. exact P.
Qed.
Print Assumptions C49_supplied_list_uses_other_confidences.

(** Two clusters k1 and k2 in the map, the second with the larger confidence: the list k2, k1
    comes back unchanged, with the larger confidence first. *)
Theorem C49_supplied_list_refuted : forall fuel core t k1 v1 k2 v2 al, table t [(k1, v1); (k2, v2)] -> rep al [k2; k1] -> 2 <= fuel ->
  flt (conf core v1) (conf core v2) = true ->
  exists al', sort_by_similarity fuel t (Some al) core = Ok al' /\ stores al' [k2; k1].
Proof.
  intros fuel core t k1 v1 k2 v2 al HT HR Hf Hlt. pose proof (flt_true _ _ Hlt) as (N1 & N2 & K).
  destruct (C49_supplied_list_uses_other_confidences fuel core t _ al [k2; k1] HT HR) as (al' & l' & ks & E & St & L & P & S); [discriminate|cbn; lia|cbn; lia|exact Hf| |].
  { intros x [<-|[<-|[]]]; cbn [snd]; assumption. }
  exists al'. split; [exact E|]. cbn [map snd combine] in P.
  assert (L2 : length l' = 2) by (apply Permutation_length in P; rewrite combine_length in P; cbn in P; lia).
  destruct l' as [|a [|b [|? ?]]]; try discriminate. destruct ks as [|x [|y [|? ?]]]; try discriminate. cbn [combine] in P.
  apply Permutation_length_2_inv in P. destruct P as [P|P]; injection P as -> -> -> ->; [exact St|].
  exfalso. pose proof (S 0 1 _ _ ltac:(lia) eq_refl eq_refl) as H. apply fle_true in H. destruct H as (_ & _ & H). lia.
Qed.
Print Assumptions C49_supplied_list_refuted.

(** With NaN confidences and three or more clusters the sort never ends. *)
Theorem C49_nan_confidences_never_terminate_refuted : forall fuel core t kv, table t kv -> 3 <= length kv -> (Z.of_nat (length kv) < 2147483648)%Z ->
  (forall x, In x kv -> fisnan (conf core (snd x)) = true) -> sort_by_similarity fuel t None core = Fuel.
Proof.
  intros fuel core t kv HT H3 Hlt HN. assert (Hne : kv <> []) by (intros ->; cbn in H3; lia). destruct (null_list core t kv HT Hne) as (al & E & HR). unfold sort_by_similarity.
  destruct (array_list_init (A := Z) (pt_size t)) as [l0| | |]; try discriminate. cbn [bind] in *.
  destruct (array_list_init (A := f64) (pt_size t)) as [l1| | |]; try discriminate. cbn [bind] in *. rewrite E. cbn [bind fst snd].
  destruct HR as (R1 & R2 & R3 & R4 & R5). rewrite map_length in R1, R4. unfold sort_list. rewrite R1.
  assert (Hr : i32_of_u32 (u32 (Z.of_nat (length kv) - 1)) = (Z.of_nat (length kv) - 1)%Z).
  { unfold i32_of_u32, u32, M32. rewrite Z.mod_small by lia. destruct (Z.ltb_spec (Z.of_nat (length kv) - 1) 2147483648); lia. }
  rewrite Hr. destruct (nth_error kv 0) as [x|] eqn:Ekv; [|apply nth_error_None in Ekv; lia].
  rewrite (C47_nan_pivot_never_terminates_refuted _ fuel _ _ 0 (Z.of_nat (length kv) - 1)%Z (conf core (snd x))); [reflexivity|lia|lia|lia| | |].
  - rewrite map_length. lia.
  - change (Z.to_nat 0) with 0. rewrite nth_error_map, Ekv. reflexivity.
  - apply HN, (nth_error_In _ _ Ekv).
Qed.
Print Assumptions C49_nan_confidences_never_terminate_refuted.

(** ** A concrete map: nine points on a line in three clusters, with the distances computed by
    the model of the library.  [pow] is only used with the exponents 3 and 4. *)
Definition pow34 (x y : f64) : f64 := if feq y (f_of_Z 3) then fmul x (fmul x x) else fmul (fmul x x) (fmul x x).
Definition map_of (data labels : list Z) : res (ptable dvals) :=
  let! d := distance_compute (DDouble (map f_of_Z data)) (length data) 1 2 in
  let! ct := create_cluster_map labels 0 (Z.of_nat (length labels)) in
  get_min_max_distances d ct.
Definition blank : cstats := mk_cstats 0 (mk_svals fzero fzero fzero fzero fzero fzero) (mk_svals fzero fzero fzero fzero fzero fzero).
(** Count, the checks of C45 and the sorted labels. *)
Definition summary (data labels : list Z) (fuel : nat) (core : bool) : res (Z * list bool * list (option Z)) :=
  let! t := map_of data labels in
  let! r := calculate_stats pow34 t blank in
  let! vs := for_up 0 (pt_size (fst r)) (fun i vs => let! k := pt_key (fst r) i in let! v := pt_deref (fst r) k in Ok (vs ++ [v])) [] in
  let! l := sort_by_similarity fuel (fst r) None core in
  Ok (st_count (snd r), map (fun v => fle fzero (conf core v) && fle (conf core v) (f_of_Z 100)) vs, firstn (al_size l) (al_data l)).
Example C44_C45_C49_example :
  summary [0; 1; 3; 10; 11; 14; 30; 31; 35]%Z [1; 1; 1; 2; 2; 2; 5; 5; 5]%Z 20 false = Ok (3, [true; true; true], [Some 5; Some 2; Some 1])%Z /\
  summary [0; 0; 0; 10; 11; 14; 30; 31; 35]%Z [1; 1; 1; 2; 2; 2; 5; 5; 5]%Z 20 true = Fuel.
Proof. vm_compute. split; reflexivity. Qed.
Example C48_example :
  (let! ct := create_cluster_map [7; 7; 7; 3; 3; 9]%Z 0 6 in
   let! l := array_list_init 3 in
   let! a := array_list_append l 7%Z in let! a := array_list_append (fst a) 9%Z in let! a := array_list_append (fst a) 3%Z in
   let! r := sort_by_length 10 ct (Some (fst a)) in Ok (firstn (al_size r) (al_data r))) = Ok [Some 9; Some 3; Some 7]%Z.
Proof. vm_compute. reflexivity. Qed.
