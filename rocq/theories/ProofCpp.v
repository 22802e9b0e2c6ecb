(** Lemmas about the C++ maps (ModelCpp.v) and their relation to the tables of ModelMap.v. *)
From Coq Require Import Sorted Permutation.
From Verif Require Import Base ListFacts F64 F64Facts ModelArrayList SpecSeq ProofArrayList ModelCells ModelHash
  ModelUtils ModelDistance ModelMap ProofMap PropClusterMap PropTandem SpecStats PropMinMax ProofStats PropStats ModelCpp.
From Coq Require Import ZifyBool ZifyNat.
Local Open Scope nat_scope.

(** ** std::map *)
Section Sm.
Context {V : Type}.
Implicit Types m : smap V.
Definition ordered m : Prop := StronglySorted Z.lt (map fst m).

Lemma ordered_cons k v m : ordered ((k, v) :: m) <-> ordered m /\ forall k', In k' (map fst m) -> (k < k')%Z.
Proof.
  unfold ordered. cbn [map fst]. split.
  - intros H. inversion H as [|? ? H1 H2]; subst. split; [exact H1|]. rewrite Forall_forall in H2. exact H2.
  - intros [H1 H2]. constructor; [exact H1|]. apply Forall_forall. exact H2.
Qed.
Lemma sm_find_in m k v : ordered m -> sm_find m k = Some v <-> In (k, v) m.
Proof.
  induction m as [|[k' v'] m IH]; intros HO; [split; [discriminate|intros []]|]. apply ordered_cons in HO. destruct HO as [HO HL]. cbn [sm_find In].
  destruct (Z.eqb_spec k k') as [->|Hne].
  - split; [intros E; injection E as ->; auto|]. intros [E|E]; [congruence|]. exfalso. apply (in_map fst) in E. specialize (HL _ E). cbn in HL. lia.
  - rewrite (IH HO). split; [auto|]. intros [E|E]; [congruence|exact E].
Qed.
Lemma sm_find_none m k : sm_find m k = None <-> ~ In k (map fst m).
Proof.
  induction m as [|[k' v'] m IH]; cbn [sm_find map fst In]; [tauto|]. destruct (Z.eqb_spec k k') as [->|Hne]; [split; [discriminate|tauto]|].
  rewrite IH. split; [intros H [E|E]; [congruence|tauto]|tauto].
Qed.
Lemma sm_put_keys m k v k' : In k' (map fst (sm_put m k v)) <-> k' = k \/ In k' (map fst m).
Proof.
  induction m as [|[k1 v1] m IH]; cbn [sm_put map fst In]; [intuition congruence|].
  destruct (Z.ltb_spec k k1); [cbn [map fst In]; intuition congruence|]. destruct (Z.eqb_spec k k1) as [->|]; cbn [map fst In]; [intuition congruence|]. rewrite IH. intuition congruence.
Qed.
Lemma sm_put_ordered m k v : ordered m -> ordered (sm_put m k v).
Proof.
  induction m as [|[k1 v1] m IH]; intros HO; cbn [sm_put].
  - apply ordered_cons. split; [exact HO|]. intros ? [].
  - pose proof HO as HO'. apply ordered_cons in HO. destruct HO as [HO HL]. destruct (Z.ltb_spec k k1) as [Hlt|Hge].
    + apply ordered_cons. split; [exact HO'|]. intros k' [<-|H]; [exact Hlt|]. specialize (HL _ H). cbn [fst]. lia.
    + destruct (Z.eqb_spec k k1) as [->|Hne].
      * apply ordered_cons. auto.
      * apply ordered_cons. split; [apply IH, HO|]. intros k' H. apply sm_put_keys in H. destruct H as [->|H]; [lia|apply HL, H].
Qed.
Lemma sm_put_in m k v k' v' : ordered m -> In (k', v') (sm_put m k v) <-> (k' = k /\ v' = v) \/ (k' <> k /\ In (k', v') m).
Proof.
  intros HO. rewrite <- (sm_find_in (sm_put m k v) k' v' (sm_put_ordered m k v HO)). rewrite <- (sm_find_in m k' v' HO).
  assert (E : sm_find (sm_put m k v) k' = if (k' =? k)%Z then Some v else sm_find m k').
  { clear HO. induction m as [|[k1 v1] m IH]; cbn [sm_put sm_find]; [reflexivity|].
    destruct (Z.ltb_spec k k1); cbn [sm_find]; [reflexivity|]. destruct (Z.eqb_spec k k1) as [->|]; cbn [sm_find].
    - destruct (Z.eqb_spec k' k1); reflexivity.
    - rewrite IH. destruct (Z.eqb_spec k' k1), (Z.eqb_spec k' k); try reflexivity; lia. }
  rewrite E. destruct (Z.eqb_spec k' k) as [->|]; split.
  - intros H. injection H as ->. auto.
  - intros [[_ ->]|[H _]]; [reflexivity|contradiction].
  - auto.
  - intros [[H _]|[_ H]]; [contradiction|exact H].
Qed.
Lemma sm_put_last m k v : (forall k', In k' (map fst m) -> (k' < k)%Z) -> sm_put m k v = m ++ [(k, v)].
Proof.
  induction m as [|[k1 v1] m IH]; intros H; cbn [sm_put app]; [reflexivity|].
  assert (k1 < k)%Z by (apply H; left; reflexivity). destruct (Z.ltb_spec k k1); [lia|]. destruct (Z.eqb_spec k k1); [lia|]. f_equal. apply IH. intros k' Hk. apply H. right. exact Hk.
Qed.
Lemma sm_put_at_end m k v w : (forall k', In k' (map fst m) -> (k' < k)%Z) -> sm_put (m ++ [(k, v)]) k w = m ++ [(k, w)].
Proof.
  induction m as [|[k1 v1] m IH]; intros H; cbn [sm_put app].
  - destruct (Z.ltb_spec k k); [lia|]. rewrite Z.eqb_refl. reflexivity.
  - assert (k1 < k)%Z by (apply H; left; reflexivity). destruct (Z.ltb_spec k k1); [lia|]. destruct (Z.eqb_spec k k1); [lia|]. f_equal. apply IH. intros k' Hk. apply H. right. exact Hk.
Qed.
Lemma sm_find_at_end m k v : (forall k', In k' (map fst m) -> (k' < k)%Z) -> sm_find (m ++ [(k, v)]) k = Some v.
Proof.
  induction m as [|[k1 v1] m IH]; intros H; cbn [sm_find app]; [rewrite Z.eqb_refl; reflexivity|].
  assert (k1 < k)%Z by (apply H; left; reflexivity). destruct (Z.eqb_spec k k1); [lia|]. apply IH. intros k' Hk. apply H. right. exact Hk.
Qed.
(** An ordered map is determined by its entries. *)
Lemma ordered_ext m m' : ordered m -> ordered m' -> (forall e, In e m <-> In e m') -> m = m'.
Proof.
  revert m'. induction m as [|[k v] m IH]; intros [|[k' v'] m'] H1 H2 HE.
  - reflexivity.
  - exfalso. apply (HE (k', v')). left. reflexivity.
  - exfalso. apply (HE (k, v)). left. reflexivity.
  - apply ordered_cons in H1, H2. destruct H1 as [O1 L1], H2 as [O2 L2].
    assert (E : (k, v) = (k', v')).
    { destruct (proj1 (HE (k, v)) (or_introl eq_refl)) as [E|E]; [auto|]. destruct (proj2 (HE (k', v')) (or_introl eq_refl)) as [E'|E']; [auto|].
      apply (in_map fst) in E, E'. specialize (L1 _ E'). specialize (L2 _ E). cbn in L1, L2. lia. }
    injection E as -> ->. f_equal. apply IH; [exact O1|exact O2|]. intros e. split; intros He.
    + destruct (proj1 (HE e) (or_intror He)) as [<-|H]; [|exact H]. apply (in_map fst) in He. specialize (L1 _ He). cbn in L1. lia.
    + destruct (proj2 (HE e) (or_intror He)) as [<-|H]; [|exact H]. apply (in_map fst) in He. specialize (L2 _ He). cbn in L2. lia.
Qed.
End Sm.

(** ** The cluster map *)
Definition cpp_lists (labels : list Z) (first n : nat) (m : smap (list Z)) : Prop :=
  ordered m /\ forall c l, In (c, l) m <-> indices labels first n c <> [] /\ l = map Z.of_nat (indices labels first n c).

Lemma cpp_step_ok labels first n m : first + n < length labels -> cpp_lists labels first n m ->
  exists m', cpp_map_step labels (first + n) m = Ok m' /\ cpp_lists labels first (S n) m'.
Proof.
  intros Hlt [HO HI]. unfold cpp_map_step. destruct (aget_ok labels (first + n) Hlt) as (lb & -> & Hlb). cbn [bind].
  assert (Hother : forall c, c <> lb -> indices labels first (S n) c = indices labels first n c).
  { intros c Hc. rewrite indices_S, Hlb. destruct (Z.eqb_spec lb c); [congruence|apply app_nil_r]. }
  assert (Hsame : indices labels first (S n) lb = indices labels first n lb ++ [first + n]) by (rewrite indices_S, Hlb, Z.eqb_refl; reflexivity).
  assert (Hold : match sm_find m lb with Some l => l | None => [] end = map Z.of_nat (indices labels first n lb)).
  { destruct (sm_find m lb) as [l|] eqn:E; [apply (sm_find_in m lb l HO) in E; apply HI in E; apply E|].
    destruct (indices labels first n lb) as [|i r] eqn:Ei; [reflexivity|]. exfalso. apply sm_find_none in E. apply E.
    change lb with (fst (lb, map Z.of_nat (i :: r))). apply in_map. apply HI. rewrite Ei. split; [discriminate|reflexivity]. }
  rewrite Hold. eexists. split; [reflexivity|]. split; [apply sm_put_ordered, HO|]. intros c l. rewrite (sm_put_in _ _ _ _ _ HO).
  destruct (Z.eq_dec c lb) as [->|Hc].
  - rewrite Hsame, map_app. cbn [map]. split.
    + intros [[_ ->]|[H _]]; [|contradiction]. split; [|reflexivity]. intros E. apply app_eq_nil in E. destruct E; discriminate.
    + intros [_ ->]. auto.
  - rewrite (Hother c Hc). rewrite HI. split; [intros [[H _]|[_ H]]; [contradiction|exact H]|auto].
Qed.

Lemma cpp_create_ok labels first last : first <= last <= length labels ->
  exists m, cpp_create_cluster_map labels (Z.of_nat first) (Z.of_nat last) = Ok m /\ cpp_lists labels first (last - first) m.
Proof.
  intros Hr. unfold cpp_create_cluster_map. rewrite Nat2Z.id. replace (Z.to_nat (Z.of_nat last - Z.of_nat first)) with (last - first) by lia.
  destruct (for_up_inv (fun i m => cpp_lists labels first (i - first) m) (cpp_map_step labels) first (last - first) []) as (m & E & H).
  - rewrite Nat.sub_diag. split; [constructor|]. intros c l. split; [intros []|]. intros [H _]. exfalso. apply H. reflexivity.
  - intros i m Hi HI. destruct (cpp_step_ok labels first (i - first) m ltac:(lia) HI) as (m' & E & H).
    replace (first + (i - first)) with i in E by lia. exists m'. split; [exact E|]. replace (S i - first) with (S (i - first)) by lia. exact H.
  - exists m. split; [exact E|]. replace (first + (last - first) - first) with (last - first) in H by lia. exact H.
Qed.

(** ** The distance map as a function of the members *)
Section Walk.
Variables (d : distance) (core : Z -> f64) (dist : Z -> Z -> f64).

Definition pair_walk (x : Z) (rest : list Z) (v : dvals) : dvals := fold_left (fun v y => add_pair (dist x y) v) rest v.
Fixpoint walk (l : list Z) (v : option dvals) : option dvals :=
  match l with
  | [] => v
  | x :: r => walk r (Some (pair_walk x r (match v with None => new_dvals (core x) | Some v => add_core (core x) v end)))
  end.

(** Reading without the sign conditions of [readable]. *)
Definition defined (l : list Z) : Prop :=
  (forall i, In i l -> zget (d_core d) i = Ok (core i)) /\ (forall i j, In i l -> In j l -> distance_get d i j = Ok (dist i j)).

Lemma walk_some l : forall v, (l <> [] \/ v <> None) -> exists w, walk l v = Some w.
Proof.
  induction l as [|x r IH]; intros v H; cbn [walk].
  - destruct v as [v|]; [eauto|]. destruct H as [H|H]; contradiction.
  - apply IH. right. discriminate.
Qed.

Lemma skipn_S {A} (l : list A) k x : nth_error l k = Some x -> skipn k l = x :: skipn (S k) l.
Proof. revert l. induction k as [|k IH]; intros [|y l] H; cbn in *; try discriminate; [congruence|apply IH, H]. Qed.

Lemma cpp_pairs_ok l x k v : defined l -> In x l -> cpp_pair_loop d l x k v = Ok (pair_walk x (skipn (S k) l) v).
Proof.
  intros [_ HD] Hx. unfold cpp_pair_loop.
  rewrite (for_up_ext _ (fun j v => let! y := aget l j in Ok (add_pair (dist x y) v))).
  - destruct (le_lt_dec (S k) (length l)) as [Hk|Hk].
    + rewrite (for_up_list (fun v y => add_pair (dist x y) v) l (length l - S k) (S k) v) by lia.
      rewrite firstn_all2 by (rewrite skipn_length; lia). reflexivity.
    + replace (length l - S k) with 0 by lia. rewrite skipn_all2 by lia. reflexivity.
  - intros j s Hj. destruct (aget_ok l j ltac:(lia)) as (y & -> & Hy). cbn [bind]. rewrite (HD x y Hx (nth_error_In _ _ Hy)). reflexivity.
Qed.
Lemma c_pairs l al x k v : rep al l -> pair_loop d al x k v = cpp_pair_loop d l x k v.
Proof.
  intros HR. unfold pair_loop, cpp_pair_loop. assert (Hs : al_size al = length l) by apply HR. rewrite Hs. apply for_up_ext. intros j s Hj.
  destruct (nth_error l j) as [y|] eqn:Ey; [|apply nth_error_None in Ey; lia]. rewrite (slot_rep al l j y HR Ey), (aget_nth _ _ _ Ey). reflexivity.
Qed.

(** hdbscan.cpp: the loop over the members of a cluster with a new, larger key. *)
Lemma cpp_members_ok l key pm : l <> [] -> defined l -> (forall k, In k (map fst pm) -> (k < key)%Z) ->
  exists v, walk l None = Some v /\ for_up 0 (length l) (cpp_member_step d key l) pm = Ok (pm ++ [(key, v)]).
Proof.
  intros Hl HD HK.
  assert (H1 : forall r k v, skipn k l = r -> k + length r = length l ->
    for_up k (length r) (cpp_member_step d key l) (pm ++ [(key, v)]) = match walk r (Some v) with Some w => Ok (pm ++ [(key, w)]) | None => UB end).
  { induction r as [|x r IH]; intros k v Hk Hn; cbn [length for_up walk]; [reflexivity|].
    assert (Hx : nth_error l k = Some x). { rewrite <- (Nat.add_0_r k). rewrite <- nth_error_skipn. rewrite Hk. reflexivity. }
    assert (Hr : skipn (S k) l = r) by (rewrite (skipn_S l k x Hx) in Hk; congruence).
    unfold cpp_member_step at 1. rewrite (aget_nth _ _ _ Hx). cbn [bind]. pose proof (nth_error_In _ _ Hx) as Ix. rewrite (proj1 HD x Ix). cbn [bind].
    rewrite (sm_find_at_end pm key v HK). rewrite (cpp_pairs_ok l x k _ HD Ix), Hr. cbn [bind]. rewrite (sm_put_at_end pm key v _ HK).
    apply IH; [exact Hr|cbn [length] in Hn; lia]. }
  destruct l as [|x r] eqn:El; [contradiction|]. rewrite <- El in *.
  destruct (walk_some l None (or_introl Hl)) as (v & Ev). exists v. split; [exact Ev|].
  rewrite El. cbn [length for_up]. rewrite <- El.
  assert (Hx : nth_error l 0 = Some x) by (rewrite El; reflexivity). pose proof (nth_error_In _ _ Hx) as Ix.
  unfold cpp_member_step at 1. rewrite (aget_nth _ _ _ Hx). cbn [bind]. rewrite (proj1 HD x Ix). cbn [bind].
  assert (Hf : sm_find pm key = None) by (apply sm_find_none; intros H; specialize (HK _ H); lia). rewrite Hf.
  rewrite (cpp_pairs_ok l x 0 _ HD Ix). cbn [bind]. rewrite (sm_put_last pm key _ HK).
  assert (Hr : skipn 1 l = r) by (rewrite El; reflexivity). rewrite Hr. rewrite (H1 r 1 _ Hr) by (rewrite El; reflexivity).
  rewrite El in Ev. cbn [walk] in Ev. rewrite Ev. reflexivity.
Qed.

(** hdbscan.c: the same loop. *)
Lemma c_members_ok l al key t m : pgood t m -> label_ok key -> pfind m key = None -> l <> [] -> rep al l -> defined l ->
  exists v t' p, walk l None = Some v /\ for_up 0 (al_size al) (member_step d key al) (t, None) = Ok (t', Some p) /\
    pgood t' ((key, length (pt_mem t)) :: m) /\ pt_mem t' = pt_mem t ++ [v].
Proof.
  intros HG Hk Hf Hl HR HD. assert (Hs : al_size al = length l) by apply HR. rewrite Hs. set (a := length (pt_mem t)).
  assert (Hupd : forall v w : dvals, upd (pt_mem t ++ [v]) a w = pt_mem t ++ [w]).
  { unfold a. clear. intros v w. induction (pt_mem t) as [|y ys IH]; [reflexivity|]. cbn [app length upd]. f_equal. exact IH. }
  assert (Hload : forall (t1 : ptable dvals) v, pt_mem t1 = pt_mem t ++ [v] -> pt_load t1 a = Ok v).
  { intros t1 v M1. unfold pt_load. apply aget_nth. rewrite M1, nth_error_app2 by (unfold a; lia). unfold a. rewrite Nat.sub_diag. reflexivity. }
  assert (Hstore : forall t1 v w, pgood t1 ((key, a) :: m) -> pt_mem t1 = pt_mem t ++ [v] -> exists t2, pt_store t1 a w = Ok t2 /\ pgood t2 ((key, a) :: m) /\ pt_mem t2 = pt_mem t ++ [w]).
  { intros t1 v w G1 M1. destruct (pt_store_ok t1 _ a w G1) as (t2 & E & G2 & M2); [rewrite M1, app_length; cbn [length]; unfold a; lia|].
    exists t2. split; [exact E|]. split; [exact G2|]. rewrite M2, M1. apply Hupd. }
  assert (H1 : forall r k v t1, skipn k l = r -> k + length r = length l -> pgood t1 ((key, a) :: m) -> pt_mem t1 = pt_mem t ++ [v] ->
    exists w t2, walk r (Some v) = Some w /\ for_up k (length r) (member_step d key al) (t1, Some a) = Ok (t2, Some a) /\ pgood t2 ((key, a) :: m) /\ pt_mem t2 = pt_mem t ++ [w]).
  { induction r as [|x r IH]; intros k v t1 Hkk Hn G1 M1; cbn [length for_up walk]; [exists v, t1; auto|].
    assert (Hx : nth_error l k = Some x). { rewrite <- (Nat.add_0_r k). rewrite <- nth_error_skipn. rewrite Hkk. reflexivity. }
    assert (Hr : skipn (S k) l = r) by (rewrite (skipn_S l k x Hx) in Hkk; congruence). pose proof (nth_error_In _ _ Hx) as Ix.
    unfold member_step at 1. rewrite (slot_rep al l k x HR Hx). cbn [bind]. rewrite (proj1 HD x Ix). cbn [bind].
    rewrite (Hload t1 v M1). cbn [bind]. destruct (Hstore t1 v (add_core (core x) v) G1 M1) as (t2 & -> & G2 & M2). cbn [bind].
    rewrite (Hload t2 _ M2). cbn [bind]. rewrite (c_pairs l al x k _ HR), (cpp_pairs_ok l x k _ HD Ix), Hr. cbn [bind].
    destruct (Hstore t2 _ (pair_walk x r (add_core (core x) v)) G2 M2) as (t3 & -> & G3 & M3). cbn [bind].
    apply (IH (S k) _ t3 Hr); [cbn [length] in Hn; lia|exact G3|exact M3]. }
  destruct l as [|x r] eqn:El; [contradiction|]. rewrite <- El in *. rewrite El. cbn [length for_up walk].
  assert (Hx : nth_error l 0 = Some x) by (rewrite El; reflexivity). pose proof (nth_error_In _ _ Hx) as Ix.
  unfold member_step at 1. rewrite (slot_rep al l 0 x HR Hx). cbn [bind]. rewrite (proj1 HD x Ix). cbn [bind].
  destruct (pt_insert_ok t m key (new_dvals (core x)) HG Hk Hf) as (t1 & E1 & G1 & M1). unfold pt_new in E1 |- *. cbn [fst snd] in E1. rewrite E1. cbn [bind]. fold a in G1 |- *.
  rewrite (Hload t1 _ M1). cbn [bind]. assert (Hr : skipn 1 l = r) by (rewrite El; reflexivity).
  rewrite (c_pairs l al x 0 _ HR), (cpp_pairs_ok l x 0 _ HD Ix), Hr. cbn [bind].
  destruct (Hstore t1 _ (pair_walk x r (new_dvals (core x))) G1 M1) as (t2 & -> & G2 & M2). cbn [bind].
  destruct (H1 r 1 _ t2 Hr ltac:(rewrite El; reflexivity) G2 M2) as (w & t3 & Ew & E3 & G3 & M3). exists w, t3, a. auto.
Qed.

(** What the loop computes are the extremes of the members. *)
Lemma walk_extremes l v : l <> [] -> readable d l core dist -> walk l None = Some v -> exists first, hd_error l = Some first /\ extremes core dist first l v.
Proof.
  intros Hl HD Ew.
  assert (HR : exists al, rep al l).
  { assert (H : forall r (al : alist Z) l0, rep al l0 -> exists al', rep al' (l0 ++ r)).
    { induction r as [|x r IH]; intros al l0 H; [exists al; rewrite app_nil_r; exact H|]. destruct (append_ok al l0 x H) as (al' & _ & R'). destruct (IH al' _ R') as (al2 & R2).
      exists al2. rewrite <- app_assoc in R2. exact R2. }
    destruct (rep_init (A := Z) 1 (AL (repeat None 1) 0 1) eq_refl) as (R & _ & _). apply (H l _ [] R). }
  destruct HR as (al & HR). destruct (pt_init_ok (V := dvals) 1) as (tab & _ & G0).
  assert (HK : label_ok 0) by (split; [lia|reflexivity]).
  destruct (members_ok d core dist l al 0 _ [] G0 HK eq_refl Hl HR HD) as (t' & p & E & m' & v' & _ & _ & M' & first & Hf & Hx).
  destruct (c_members_ok l al 0 _ [] G0 HK eq_refl Hl HR) as (v2 & t2 & p2 & E2 & E3 & _ & M2).
  { destruct HD as [D1 _ D3 _]. split; assumption. }
  rewrite E in E3. injection E3 as <- <-. rewrite M' in M2. apply app_inj_tail in M2. destruct M2 as [_ ->]. rewrite Ew in E2. injection E2 as <-.
  exists first. auto.
Qed.

(** Both functions on maps with the same entries. *)
Lemma cpp_minmax_ok ct : ordered ct -> (forall c l, In (c, l) ct -> l <> [] /\ defined l) ->
  exists dm, cpp_get_min_max_distances d ct = Ok dm /\ map fst dm = map fst ct /\
    forall i c l, nth_error ct i = Some (c, l) -> exists v, nth_error dm i = Some (c, v) /\ walk l None = Some v.
Proof.
  intros HO HD. unfold cpp_get_min_max_distances.
  destruct (for_up_inv (fun i dm => map fst dm = map fst (firstn i ct) /\ forall j c l, j < i -> nth_error ct j = Some (c, l) -> exists v, nth_error dm j = Some (c, v) /\ walk l None = Some v)
    (fun i pm => let! e := aget ct i in for_up 0 (length (snd e)) (cpp_member_step d (fst e) (snd e)) pm) 0 (length ct) []) as (dm & E & K1 & K2).
  - split; [reflexivity|]. intros; lia.
  - intros i dm Hi [H1 H2]. destruct (aget_ok ct i ltac:(lia)) as ([c l] & -> & He). cbn [bind fst snd]. destruct (HD c l (nth_error_In _ _ He)) as [Hne Hd].
    assert (Hf : firstn (S i) ct = firstn i ct ++ [(c, l)]).
    { clear -He. revert ct He. induction i as [|i IH]; intros [|x ct] E; cbn in *; try discriminate; [congruence|]. f_equal. apply IH, E. }
    destruct (cpp_members_ok l c dm Hne Hd) as (v & Ev & ->).
    { rewrite H1. clear -HO He. revert ct HO He. induction i as [|i IH]; intros [|[k w] ct] HO He k' Hk; cbn in He; try discriminate; cbn [firstn map fst In] in Hk; [destruct Hk|].
      apply ordered_cons in HO. destruct HO as [HO HL]. destruct Hk as [<-|Hk]; [apply HL; apply nth_error_In in He; apply (in_map fst) in He; exact He|apply (IH ct HO He k' Hk)]. }
    eexists. split; [reflexivity|]. split; [rewrite Hf, !map_app, H1; reflexivity|].
    assert (Hlen : length dm = i). { rewrite <- (map_length fst dm), H1, map_length, firstn_length. lia. }
    intros j c' l' Hj Hc. destruct (Nat.eq_dec j i) as [->|].
    + rewrite He in Hc. injection Hc as <- <-. exists v. split; [|exact Ev]. rewrite nth_error_app2 by lia. rewrite Hlen, Nat.sub_diag. reflexivity.
    + destruct (H2 j c' l' ltac:(lia) Hc) as (v' & E1 & E2). exists v'. split; [|exact E2]. rewrite nth_error_app1 by lia. exact E1.
  - cbn [Nat.add] in *. rewrite firstn_all in K1. exists dm. split; [exact E|]. split; [exact K1|]. intros i c l Hi. apply (K2 i c l); [|exact Hi]. apply nth_error_Some. congruence.
Qed.

Lemma c_minmax_ok ct m : pgood ct m ->
  (forall c a, In (c, a) m -> exists al l, nth_error (pt_mem ct) a = Some al /\ rep al l /\ l <> [] /\ defined l) ->
  exists t m', get_min_max_distances d ct = Ok t /\ pgood t m' /\ Permutation (map fst m') (map fst m) /\
    forall c a al l, In (c, a) m -> nth_error (pt_mem ct) a = Some al -> rep al l -> exists v, pt_deref t c = Ok v /\ walk l None = Some v.
Proof.
  intros HG Hm. unfold get_min_max_distances. destruct (pt_init_ok (V := dvals) (Z.to_nat (ht_size (pt_tab ct)))) as (tab & -> & G0). cbn [bind].
  destruct (pt_keys ct m HG) as (ls & K1 & K2 & _ & K4). rewrite K1.
  assert (Hnd : NoDup ls) by (eapply Permutation_NoDup; [apply Permutation_sym, K2|apply HG]).
  destruct (for_up_inv (fun i t => exists m', pgood t m' /\ (forall c, In c (map fst m') <-> upto ls i c) /\
     (forall c b, In (c, b) m' -> exists a al l v, In (c, a) m /\ nth_error (pt_mem ct) a = Some al /\ rep al l /\ nth_error (pt_mem t) b = Some v /\ walk l None = Some v))
    (cluster_step d ct) 0 (length ls) (mk_ptable tab [])) as (t & E & m' & G & Hk & Hv).
  - exists []. split; [exact G0|]. split; [|intros c b []]. intros c. split; [intros []|]. intros (a & Ha & _). lia.
  - intros i t Hi (m' & G & Hk & Hv). destruct (nth_error ls i) as [key|] eqn:Ek; [|apply nth_error_None in Ek; lia].
    unfold cluster_step. rewrite (K4 i key Ek). cbn [bind].
    assert (Hin : In key (map fst m)) by (apply (Permutation_in _ K2), (nth_error_In _ _ Ek)).
    apply in_map_iff in Hin. destruct Hin as ([c a] & Ec & Hin). cbn [fst] in Ec. subst c.
    pose proof (pg_lab _ _ HG _ _ Hin) as Hlab. rewrite (pt_deref_ok ct m key HG Hlab). rewrite (proj2 (pfind_in m key a (pg_nd _ _ HG)) Hin).
    destruct (Hm key a Hin) as (al & l & Hal & Hrep & Hne & Hrd). rewrite (aget_nth _ _ _ Hal). cbn [bind].
    assert (Hnone : pfind m' key = None).
    { apply pfind_none. rewrite Hk. intros (b & Hb & Eb). assert (b = i); [|lia]. apply (proj1 (NoDup_nth_error ls) Hnd); [apply nth_error_Some; congruence|congruence]. }
    rewrite (pt_find_ok t m' key G Hlab), Hnone. cbn [bind].
    destruct (c_members_ok l al key t m' G Hlab Hnone Hne Hrep Hrd) as (v & t' & p & Ev & E & G2 & M2). rewrite E. cbn [bind fst].
    exists t'. split; [reflexivity|]. exists ((key, length (pt_mem t)) :: m'). split; [exact G2|]. split.
    + intros c. cbn [map fst In]. rewrite Hk. split.
      * intros [<-|(b & Hb & Eb)]; [exists i; split; [lia|exact Ek]|exists b; split; [lia|exact Eb]].
      * intros (b & Hb & Eb). destruct (Nat.eq_dec b i) as [->|]; [left; congruence|right; exists b; split; [lia|exact Eb]].
    + intros c b [Hb|Hb].
      * injection Hb as <- <-. exists a, al, l, v. split; [exact Hin|]. split; [exact Hal|]. split; [exact Hrep|]. split; [|exact Ev]. rewrite M2, nth_error_app2, Nat.sub_diag by lia. reflexivity.
      * destruct (Hv c b Hb) as (a' & al' & l' & v' & H1 & H2 & H3 & H4 & H5). exists a', al', l', v'. split; [exact H1|]. split; [exact H2|]. split; [exact H3|]. split; [|exact H5].
        rewrite M2, nth_error_app1 by (apply nth_error_Some; congruence). exact H4.
  - cbn [Nat.add] in Hk. exists t, m'. split; [exact E|]. split; [exact G|]. split.
    + apply NoDup_Permutation; [apply G|apply HG|]. intros c. rewrite Hk. split.
      * intros (b & _ & Eb). apply (Permutation_in _ K2), (nth_error_In _ _ Eb).
      * intros H. apply (Permutation_in _ (Permutation_sym K2)) in H. apply In_nth_error in H. destruct H as (b & Eb). exists b. split; [apply nth_error_Some; congruence|exact Eb].
    + intros c a al l Hin Hal Hrep. pose proof (pg_lab _ _ HG _ _ Hin) as Hlab. rewrite (pt_deref_ok t m' c G Hlab).
      assert (Hc : In c (map fst m')).
      { apply Hk. assert (Hx : In c ls) by (apply (Permutation_in _ (Permutation_sym K2)); apply (in_map fst) in Hin; exact Hin).
        apply In_nth_error in Hx. destruct Hx as (b & Eb). exists b. split; [apply nth_error_Some; congruence|exact Eb]. }
      apply in_map_iff in Hc. destruct Hc as ([c' b] & Ec & Hb). cbn [fst] in Ec. subst c'. rewrite (proj2 (pfind_in m' c b (pg_nd _ _ G)) Hb).
      destruct (Hv c b Hb) as (a' & al' & l' & v & H1 & H2 & H3 & H4 & H5). rewrite (aget_nth _ _ _ H4).
      assert (a' = a). { apply (pfind_in m c a' (pg_nd _ _ HG)) in H1. apply (pfind_in m c a (pg_nd _ _ HG)) in Hin. congruence. } subst a'.
      assert (al' = al) by congruence. subst al'.
      assert (l' = l). { apply rep_elements in H3, Hrep. destruct H3 as [A _], Hrep as [B _]. rewrite A in B. clear -B. revert l B. induction l' as [|x l' IH]; intros [|y l] B; cbn [map] in B; try discriminate; [reflexivity|]. injection B as -> B. f_equal. apply IH, B. }
      subst l'. exists v. auto.
Qed.
End Walk.

(** ** Statistics *)
Lemma cpp_stats_ok pow dm s : dm <> [] -> (Z.of_nat (length dm) < M32)%Z ->
  forall t, table t dm -> exists t' dm' s', calculate_stats pow t s = Ok (t', s') /\ cpp_calculate_stats pow dm s = Ok (dm', s') /\ table t' dm'.
Proof.
  intros Hne HM t HT. unfold calculate_stats, cpp_calculate_stats. assert (Hs : pt_size t = length dm) by apply HT. rewrite Hs. rewrite (ratios_ok t dm HT). cbn [bind fst snd].
  destruct (calc_ok pow t dm s HT Hne HM) as (t' & c & i & E & _ & _ & _ & _ & HT'). unfold calculate_stats in E. rewrite Hs, (ratios_ok t dm HT) in E. cbn [bind fst snd] in E.
  change (map (fun e : Z * dvals => fdiv (v_max_cr (snd e)) (v_min_cr (snd e))) dm) with (cores_of dm).
  change (map (fun e : Z * dvals => fdiv (v_max_dr (snd e)) (v_min_dr (snd e))) dm) with (intras_of dm).
  destruct (series_stats pow (cores_of dm) (u32 (Z.of_nat (length dm))) (st_core s)) as [c'| | |]; try discriminate. cbn [bind] in E |- *.
  destruct (series_stats pow (intras_of dm) (u32 (Z.of_nat (length dm))) (st_intra s)) as [i'| | |]; try discriminate. cbn [bind] in E |- *.
  destruct (for_up 0 (length dm) (confidence_step (cores_of dm) (intras_of dm) (sv_max c') (sv_max i')) t) as [t1| | |]; try discriminate. cbn [bind] in E |- *.
  injection E as -> Eu -> ->.
  assert (EF : for_up 0 (length dm) (fun k dm0 => let! e := aget dm0 k in let! rc := aget (cores_of dm) k in let! rd := aget (intras_of dm) k in
     aset dm0 k (fst e, mk_dvals (v_min_cr (snd e)) (v_max_cr (snd e)) (confidence (sv_max c) rc) (v_max_dr (snd e)) (v_min_dr (snd e)) (confidence (sv_max i) rd))) dm = Ok (map (with_conf (sv_max c) (sv_max i)) dm)).
  { match goal with |- for_up 0 (length dm) ?f dm = _ => destruct (for_up_inv (fun k dm0 => dm0 = map (with_conf (sv_max c) (sv_max i)) (firstn k dm) ++ skipn k dm) f 0 (length dm) dm) as (r & Er & Kr) end.
    - reflexivity.
    - intros k dm0 Hk ->. destruct (nth_error dm k) as [[kk v]|] eqn:Ek; [|apply nth_error_None in Ek; lia].
      assert (Hli : length (map (with_conf (sv_max c) (sv_max i)) (firstn k dm)) = k) by (rewrite map_length, firstn_length; lia).
      pose proof (skipn_S dm k _ Ek) as Hsk.
      rewrite (aget_nth _ k (kk, v)) by (rewrite nth_error_app2 by lia; rewrite Hli, Nat.sub_diag, Hsk; reflexivity). cbn [bind fst snd].
      unfold cores_of, intras_of. rewrite (aget_nth _ k (core_ratio v)) by (rewrite nth_error_map, Ek; reflexivity). cbn [bind].
      rewrite (aget_nth _ k (intra_ratio v)) by (rewrite nth_error_map, Ek; reflexivity). cbn [bind].
      rewrite aset_ok by (rewrite app_length, skipn_length, Hli; lia). eexists. split; [reflexivity|].
      assert (Hf : firstn (S k) dm = firstn k dm ++ [(kk, v)]).
      { clear -Ek. revert dm Ek. induction k as [|k IH]; intros [|x dm] E; cbn in *; try discriminate; [congruence|]. f_equal. apply IH, E. }
      rewrite Hf, map_app, <- app_assoc. cbn [map app]. rewrite Hsk.
      assert (Hu : forall (a : list (Z * dvals)) x y b, upd (a ++ x :: b) (length a) y = a ++ y :: b) by (clear; induction a as [|z a IH]; intros; cbn; [reflexivity|f_equal; apply IH]).
      etransitivity; [|apply (Hu _ (kk, v))]. rewrite Hli. reflexivity.
    - rewrite Er, Kr. cbn [Nat.add]. rewrite firstn_all, skipn_all, app_nil_r. reflexivity. }
  rewrite EF. cbn [bind]. rewrite Eu. eexists _, _, _. split; [reflexivity|]. split; [reflexivity|]. exact HT'.
Qed.

(** ** Sorting *)
Lemma cpp_sort_ok fuel l keys : l <> [] -> length keys = length l -> (Z.of_nat (length l) < 2147483648)%Z -> length l <= fuel ->
  (forall x, In x keys -> fisnan x = false) ->
  exists l' keys', cpp_quick_sort fuel l keys 0 (u32 (Z.of_nat (length l) - 1)) = Ok (l', keys') /\ length keys' = length l' /\ Permutation (combine l keys) (combine l' keys') /\
    (forall i j x y, i <= j -> nth_error keys' i = Some x -> nth_error keys' j = Some y -> fle x y = true).
Proof.
  intros Hne Hk Hlt Hf HN. unfold cpp_quick_sort.
  assert (Ei : forall T, exists al0 : alist T, array_list_init (length l) = Ok al0).
  { intros T. unfold array_list_init. destruct (Nat.ltb_spec 0 (length l)); [eauto|]. destruct l; [contradiction|cbn in *; lia]. }
  destruct (Ei f64) as (a1 & ->), (Ei Z) as (a0 & ->). cbn [bind].
  assert (EK : for_up 0 (length l) (fun i ks => let! x := aget keys i in Ok (ks ++ [x])) [] = Ok keys).
  { rewrite (for_up_app (fun i => aget keys i) keys (length l) 0 []); [reflexivity| |exact Hk]. intros i x Hx. apply aget_nth, Hx. }
  rewrite EK. cbn [bind].
  assert (Hr : i32_of_u32 (u32 (Z.of_nat (length l) - 1)) = (Z.of_nat (length l) - 1)%Z).
  { unfold i32_of_u32, u32, M32. destruct (length l) as [|n] eqn:El; [destruct l; [contradiction|discriminate]|]. rewrite Z.mod_small by lia. destruct (Z.ltb_spec (Z.of_nat (S n) - 1) 2147483648); lia. }
  rewrite Hr. change (i32_of_u32 0) with 0%Z.
  destruct (C47_tandem_quicksort _ l keys 0 (Z.of_nat (length l) - 1)%Z fuel) as (c' & d' & E & L1 & L2 & P & O & S); [lia|lia|lia|lia| |].
  { intros k x _ Hx. apply HN, (nth_error_In _ _ Hx). }
  exists c', d'. split; [exact E|]. split; [lia|]. split; [exact P|]. intros i j x y Hij Hx Hy. apply (S i j x y); [lia|exact Hij| |exact Hx|exact Hy].
  assert (j < length d') by (apply nth_error_Some; congruence). lia.
Qed.

Lemma cpp_keys_ok {V} (m : smap V) (key_of : V -> f64) l f : (forall c, In c l -> exists v, sm_find m c = Some v /\ key_of v = f c) -> cpp_keys m key_of l = Ok (map f l).
Proof.
  intros HD. unfold cpp_keys. rewrite <- (app_nil_l (map f l)). rewrite <- (for_up_app (fun i => let! key := aget l i in let! v := sm_deref m key in Ok (key_of v)) (map f l) (length l) 0).
  - apply for_up_ext. intros i s _. destruct (aget l i); cbn [bind]; [|reflexivity..]. destruct (sm_deref m a); reflexivity.
  - intros i x Hx. cbn [Nat.add]. rewrite nth_error_map in Hx. destruct (nth_error l i) as [c|] eqn:Ec; [|discriminate]. cbn in Hx. injection Hx as <-.
    rewrite (aget_nth _ _ _ Ec). cbn [bind]. destruct (HD c (nth_error_In _ _ Ec)) as (v & Ev & <-). unfold sm_deref. rewrite Ev. reflexivity.
  - apply map_length.
Qed.
