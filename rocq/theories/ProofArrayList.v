(** ArrayList refines the sequence specification; set_t refines finite sets. *)
From Coq Require Import Sorted Permutation.
From Verif Require Import Base ListFacts ModelArrayList SpecSeq.
From Coq Require Import ZifyBool ZifyNat.
Ltac Zify.zify_post_hook ::= Z.to_euclidean_division_equations.

Section Proofs.
Context {A : Type}.
Notation alist := (alist A).


Definition rep (al : alist) (l : list A) : Prop :=
  al_size al = length l /\ length (al_data al) = al_max al /\ 0 < al_max al /\
  length l <= al_max al /\
  (forall i a, nth_error l i = Some a -> nth_error (al_data al) i = Some (Some a)).

Lemma highestPowerof2_gt n : n < highestPowerof2 n.
Proof.
  unfold highestPowerof2. destruct n as [|n]; [cbn; lia|].
  pose proof (Nat.log2_spec (S n) ltac:(lia)) as [_ H].
  rewrite Nat.add_1_r. exact H.
Qed.

Lemma realloc_length (d : list (option A)) n : length (realloc d n) = n.
Proof. unfold realloc. rewrite app_length, firstn_length, repeat_length. lia. Qed.

Lemma nth_error_realloc (d : list (option A)) n i :
  i < n -> i < length d -> nth_error (realloc d n) i = nth_error d i.
Proof.
  intros Hn Hd. unfold realloc.
  rewrite nth_error_app1 by (rewrite firstn_length; lia).
  rewrite nth_error_firstn. destruct (Nat.ltb_spec i n); [reflexivity|lia].
Qed.

Lemma nth_error_lt (l : list A) i a : nth_error l i = Some a -> i < length l.
Proof. intros H. apply nth_error_Some. congruence. Qed.

Lemma rep_grow al l : rep al l -> rep (array_list_grow al) l.
Proof.
  intros (Hs & Hd & Hm & Hl & Hn).
  pose proof (highestPowerof2_gt (al_max al * 2)) as Hg.
  unfold rep, array_list_grow; cbn [al_size al_data al_max].
  rewrite realloc_length. repeat split; try lia; auto.
  intros i a Hi. pose proof (nth_error_lt _ _ _ Hi).
  rewrite nth_error_realloc by lia. auto.
Qed.

Lemma grow_room al l :
  rep al l ->
  let al' := if al_size al =? al_max al then array_list_grow al else al in
  rep al' l /\ length l < al_max al'.
Proof.
  intros H al'. subst al'. destruct (Nat.eqb_spec (al_size al) (al_max al)) as [E|E].
  - split; [now apply rep_grow|].
    destruct H as (Hs & Hd & Hm & Hl & Hn).
    pose proof (highestPowerof2_gt (al_max al * 2)).
    cbn [array_list_grow al_max]. lia.
  - split; auto. destruct H as (Hs & Hd & Hm & Hl & Hn). lia.
Qed.

Lemma rep_init k al : array_list_init k = Ok al -> rep al [] /\ al_max al = k /\ 0 < k.
Proof.
  unfold array_list_init. destruct (Nat.ltb_spec 0 k); intros E; inversion E; subst.
  unfold rep; cbn. rewrite repeat_length. repeat split; try lia.
  intros [|i] a Hi; discriminate.
Qed.

Lemma slot_rep al l i a : rep al l -> nth_error l i = Some a -> slot (al_data al) i = Ok a.
Proof. intros (_ & _ & _ & _ & Hn) Hi. unfold slot. now rewrite (Hn _ _ Hi). Qed.

Lemma nth_error_memmove (d d' : list (option A)) dst src n :
  memmove d dst src n = Ok d' ->
  length d' = length d /\
  forall i, nth_error d' i =
    if (dst <=? i) && (i <? dst + n) then nth_error d (src + (i - dst)) else nth_error d i.
Proof.
  unfold memmove. destruct ((src + n <=? length d) && (dst + n <=? length d)) eqn:E;
    intros H; inversion H; subst; clear H.
  assert (src + n <= length d /\ dst + n <= length d) as [H1 H2] by lia.
  assert (Hmid : length (firstn n (skipn src d)) = n)
    by (rewrite firstn_length, skipn_length; lia).
  split.
  - rewrite !app_length, Hmid, firstn_length, skipn_length. lia.
  - intros i.
    destruct (Nat.leb_spec dst i) as [Hi|Hi]; cbn [andb].
    + rewrite nth_error_app2 by (rewrite firstn_length; lia).
      rewrite firstn_length, Nat.min_l by lia.
      destruct (Nat.ltb_spec i (dst + n)).
      * rewrite nth_error_app1 by lia. rewrite nth_error_firstn.
        destruct (Nat.ltb_spec (i - dst) n); [|lia].
        rewrite nth_error_skipn. reflexivity.
      * rewrite nth_error_app2 by lia. rewrite Hmid, nth_error_skipn. f_equal. lia.
    + rewrite nth_error_app1 by (rewrite firstn_length; lia).
      rewrite nth_error_firstn. destruct (Nat.ltb_spec i dst); [reflexivity|lia].
Qed.

Lemma memmove_ok (d : list (option A)) dst src n :
  src + n <= length d -> dst + n <= length d -> exists d', memmove d dst src n = Ok d'.
Proof.
  intros H1 H2. unfold memmove.
  destruct ((src + n <=? length d) && (dst + n <=? length d)) eqn:E; eauto. lia.
Qed.

Lemma append_ok al l x :
  rep al l -> exists al', array_list_append al x = Ok (al', 1%Z) /\ rep al' (l ++ [x]).
Proof.
  intros H. destruct (grow_room al l H) as [H1 Hroom].
  unfold array_list_append.
  set (al1 := if al_size al =? al_max al then array_list_grow al else al) in *.
  clearbody al1. clear H al. destruct H1 as (Hs & Hd & Hm & Hl & Hn).
  unfold array_list_insertion_helper. rewrite aset_ok by lia. cbn.
  eexists; split; [reflexivity|].
  unfold rep; cbn [al_size al_data al_max]. rewrite upd_length, app_length.
  cbn [length]. repeat split; try lia.
  intros i a Hi.
  destruct (Nat.lt_ge_cases i (length l)) as [Hlt|Hge].
  - rewrite nth_error_app1 in Hi by lia. rewrite nth_error_upd_neq by lia. auto.
  - rewrite nth_error_app2 in Hi by lia.
    assert (i = length l).
    { apply nth_error_lt in Hi. cbn in Hi. lia. }
    subst i. rewrite Nat.sub_diag in Hi. cbn in Hi. inversion Hi; subst.
    rewrite Hs. rewrite nth_error_upd_eq by lia. reflexivity.
Qed.

Lemma nth_error_insert (l : list A) p x i :
  p <= length l ->
  nth_error (firstn p l ++ x :: skipn p l) i =
  if i <? p then nth_error l i else if i =? p then Some x else nth_error l (i - 1).
Proof.
  intros Hp.
  destruct (Nat.ltb_spec i p).
  - rewrite nth_error_app1 by (rewrite firstn_length; lia).
    rewrite nth_error_firstn. destruct (Nat.ltb_spec i p); [reflexivity|lia].
  - rewrite nth_error_app2 by (rewrite firstn_length; lia).
    rewrite firstn_length, Nat.min_l by lia.
    destruct (Nat.eqb_spec i p).
    + subst. now rewrite Nat.sub_diag.
    + destruct (i - p) as [|k] eqn:E; [lia|]. cbn [nth_error].
      rewrite nth_error_skipn. f_equal. lia.
Qed.

Lemma nth_error_delete (l : list A) p i :
  p < length l ->
  nth_error (firstn p l ++ skipn (S p) l) i =
  if i <? p then nth_error l i else nth_error l (S i).
Proof.
  intros Hp.
  destruct (Nat.ltb_spec i p).
  - rewrite nth_error_app1 by (rewrite firstn_length; lia).
    rewrite nth_error_firstn. destruct (Nat.ltb_spec i p); [reflexivity|lia].
  - rewrite nth_error_app2 by (rewrite firstn_length; lia).
    rewrite firstn_length, Nat.min_l by lia.
    rewrite nth_error_skipn. f_equal. lia.
Qed.

Lemma insert_at_ok al l x p :
  rep al l -> p <= length l ->
  exists al', array_list_insert_at al x p = Ok (al', 1%Z) /\
              rep al' (firstn p l ++ x :: skipn p l).
Proof.
  intros H Hp. destruct (grow_room al l H) as [H1 Hroom].
  unfold array_list_insert_at.
  set (al1 := if al_size al =? al_max al then array_list_grow al else al) in *.
  clearbody al1. clear H al. destruct H1 as (Hs & Hd & Hm & Hl & Hn).
  destruct (Nat.ltb_spec (al_size al1) p); [lia|].
  destruct (memmove_ok (al_data al1) (p + 1) p (al_size al1 - p)) as [d' E]; try lia.
  rewrite E. cbn. apply nth_error_memmove in E. destruct E as [Hlen Hmv].
  unfold array_list_insertion_helper; cbn [al_data al_size al_max].
  rewrite aset_ok by lia. cbn. eexists; split; [reflexivity|].
  unfold rep; cbn [al_size al_data al_max].
  rewrite upd_length, app_length, firstn_length. cbn [length]. rewrite skipn_length.
  repeat split; try lia.
  intros i a Hi. rewrite nth_error_insert in Hi by lia.
  destruct (Nat.ltb_spec i p).
  - rewrite nth_error_upd_neq by lia. rewrite Hmv.
    destruct ((p + 1 <=? i) && _) eqn:Eb; [lia|]. auto.
  - destruct (Nat.eqb_spec i p).
    + subst. inversion Hi; subst. rewrite nth_error_upd_eq by lia. reflexivity.
    + rewrite nth_error_upd_neq by lia. rewrite Hmv.
      pose proof (nth_error_lt _ _ _ Hi).
      destruct ((p + 1 <=? i) && _) eqn:Eb; [|lia].
      replace (p + (i - (p + 1))) with (i - 1) by lia. auto.
Qed.

Lemma remove_at_ok al l p a :
  rep al l -> nth_error l p = Some a ->
  exists al', array_list_remove_at al p = Ok (al', (1%Z, Some a)) /\
              rep al' (firstn p l ++ skipn (S p) l).
Proof.
  intros H Hp. pose proof (slot_rep _ _ _ _ H Hp) as Hsl.
  pose proof (nth_error_lt _ _ _ Hp) as Hlt.
  destruct H as (Hs & Hd & Hm & Hl & Hn).
  unfold array_list_remove_at, array_list_value_at.
  destruct (Nat.leb_spec (al_size al) p); [lia|].
  rewrite Hsl. cbn [bind snd].
  destruct (memmove_ok (al_data al) p (p + 1) (al_size al - p - 1)) as [d' E]; try lia.
  rewrite E. cbn [bind]. apply nth_error_memmove in E. destruct E as [Hlen Hmv].
  eexists; split; [reflexivity|].
  unfold rep; cbn [al_size al_data al_max].
  rewrite app_length, firstn_length, skipn_length.
  repeat split; try lia.
  intros i b Hi. rewrite nth_error_delete in Hi by lia.
  rewrite Hmv.
  destruct (Nat.ltb_spec i p).
  - destruct ((p <=? i) && _) eqn:Eb; [lia|]. auto.
  - pose proof (nth_error_lt _ _ _ Hi).
    destruct ((p <=? i) && _) eqn:Eb; [|lia].
    replace (p + 1 + (i - p)) with (S i) by lia. auto.
Qed.

(** What an observer of the list sees. *)
Lemma rep_elements al l : rep al l -> firstn (al_size al) (al_data al) = map Some l /\ al_size al = length l.
Proof.
  intros (Hs & Hd & Hm & Hl & Hn). split; [|exact Hs].
  apply nth_error_ext. intros i. rewrite nth_error_firstn, nth_error_map.
  destruct (Nat.ltb_spec i (al_size al)).
  - destruct (nth_error l i) as [a|] eqn:E.
    + cbn. rewrite (Hn _ _ E). reflexivity.
    + apply nth_error_None in E. lia.
  - destruct (nth_error l i) as [a|] eqn:E; auto. apply nth_error_lt in E. lia.
Qed.

Variable compare : A -> A -> Z.
Definition eqv (y x : A) : bool := (compare y x =? 0)%Z.

Lemma index_of_lt (l : list A) x i : index_of eqv l x = Some i -> i < length l.
Proof.
  revert i; induction l as [|y l IH]; cbn; intros i H; [discriminate|].
  destruct (eqv y x); [inversion H; lia|].
  destruct (index_of eqv l x); inversion H; subst. specialize (IH _ eq_refl). lia.
Qed.

Lemma unordered_search_ok al l x :
  rep al l ->
  unordered_search compare al x =
  Ok (match index_of eqv l x with Some i => Z.of_nat i | None => (-1)%Z end).
Proof.
  intros H. unfold unordered_search.
  destruct H as (Hs & Hd & Hm & Hl & Hn). rewrite Hs.
  assert (G : forall l2 l1, l = l1 ++ l2 ->
    unordered_search_from compare (al_data al) x (length l1) (length l2) =
    Ok (match index_of eqv l2 x with Some i => Z.of_nat (length l1 + i) | None => (-1)%Z end)).
  { induction l2 as [|y l2 IH]; intros l1 E; cbn; [reflexivity|].
    assert (Hy : nth_error l (length l1) = Some y).
    { rewrite E, nth_error_app2, Nat.sub_diag by lia. reflexivity. }
    unfold slot. rewrite (Hn _ _ Hy). cbn [bind].
    change (eqv y x) with (compare y x =? 0)%Z.
    destruct (Z.eqb_spec (compare y x) 0).
    - now rewrite Nat.add_0_r.
    - specialize (IH (l1 ++ [y])). rewrite app_length in IH. cbn [length] in IH.
      replace (S (length l1)) with (length l1 + 1) by lia. rewrite IH.
      + destruct (index_of eqv l2 x) as [k|]; [|reflexivity].
        replace (length l1 + 1 + k) with (length l1 + S k) by lia. reflexivity.
      + now rewrite <- app_assoc. }
  specialize (G l [] eq_refl). cbn in G. exact G.
Qed.

Lemma lstep_ok al l o :
  rep al l -> seq_ok l o ->
  exists al', lstep compare al o = Ok (al', snd (seq_step eqv l o)) /\
              rep al' (fst (seq_step eqv l o)).
Proof.
  intros H Hok. pose proof H as (Hs & Hd & Hm & Hl & Hn).
  destruct o as [x|x p|x i|i|x| |i|x| | |b]; cbn [lstep seq_step seq_ok] in *.
  - destruct (append_ok al l x H) as [al' [E R]]. rewrite E. eexists; split; [reflexivity|exact R].
  - destruct (insert_at_ok al l x p H Hok) as [al' [E R]]. rewrite E. eexists; split; [reflexivity|exact R].
  - unfold array_list_replace_at. rewrite Hs.
    destruct (Nat.leb_spec (length l) i), (Nat.ltb_spec i (length l)); try lia.
    + eexists; split; [reflexivity|exact H].
    + unfold array_list_insertion_helper. rewrite aset_ok by lia. cbn [bind fst snd].
      eexists; split; [reflexivity|].
      unfold rep; cbn [al_size al_data al_max fst]. rewrite <- upd_app by lia.
      rewrite !upd_length. repeat split; try lia.
      intros j a Hj. rewrite nth_error_upd in Hj. rewrite nth_error_upd.
      destruct (Nat.eqb_spec i j); cbn [andb] in *.
      * destruct (Nat.ltb_spec j (length l)); [|lia].
        destruct (Nat.ltb_spec j (length (al_data al))); [|lia]. congruence.
      * auto.
  - destruct (nth_error l i) as [a|] eqn:E.
    + destruct (remove_at_ok al l i a H E) as [al' [E1 R]]. rewrite E1. eexists; split; [reflexivity|exact R].
    + unfold array_list_remove_at. apply nth_error_None in E.
      destruct (Nat.leb_spec (al_size al) i); [|lia]. cbn. eauto.
  - unfold array_list_remove, array_list_find. cbn [Z.eqb].
    rewrite (unordered_search_ok al l x H). cbn [bind].
    destruct (index_of eqv l x) as [i|] eqn:E.
    + destruct (Z.ltb_spec (Z.of_nat i) 0); [lia|]. rewrite Nat2Z.id.
      pose proof (index_of_lt _ _ _ E) as Hlt.
      destruct (nth_error l i) as [a|] eqn:Ea; [|apply nth_error_None in Ea; lia].
      destruct (remove_at_ok al l i a H Ea) as [al' [E1 R]]. rewrite E1. eexists; split; [reflexivity|exact R].
    + cbn. eauto.
  - unfold array_list_pop, array_list_empty. rewrite Hs.
    destruct (rev l) as [|a r] eqn:E.
    + apply (f_equal (@rev A)) in E. rewrite rev_involutive in E. subst l. cbn. eauto.
    + apply (f_equal (@rev A)) in E. rewrite rev_involutive in E. cbn in E. subst l.
      rewrite app_length; cbn [length].
      destruct (Nat.eqb_spec (length (rev r) + 1) 0); [lia|]. cbn [Z.eqb].
      assert (Ha : nth_error (rev r ++ [a]) (length (rev r) + 1 - 1) = Some a).
      { rewrite nth_error_app2 by lia.
        replace (length (rev r) + 1 - 1 - length (rev r)) with 0 by lia. reflexivity. }
      unfold array_list_value_at. rewrite app_length in Hs; cbn in Hs.
      destruct (Nat.leb_spec (al_size al) (length (rev r) + 1 - 1)); [lia|].
      rewrite (slot_rep _ _ _ _ H Ha). cbn.
      eexists; split; [reflexivity|].
      rewrite app_length in Hl; cbn in Hl.
      unfold rep; cbn [al_size al_data al_max]. repeat split; try lia.
      intros i b Hi. apply Hn. rewrite nth_error_app1; auto. now apply nth_error_lt in Hi.
  - unfold array_list_value_at.
    destruct (nth_error l i) as [a|] eqn:E.
    + pose proof (nth_error_lt _ _ _ E).
      destruct (Nat.leb_spec (al_size al) i); [lia|].
      rewrite (slot_rep _ _ _ _ H E). cbn. eauto.
    + apply nth_error_None in E.
      destruct (Nat.leb_spec (al_size al) i); [|lia]. cbn. eauto.
  - unfold array_list_find. cbn [Z.eqb]. rewrite (unordered_search_ok al l x H). cbn. eauto.
  - unfold array_list_size. rewrite Hs. cbn. eauto.
  - unfold array_list_empty. rewrite Hs. destruct l; cbn; eauto.
  - subst b. cbn. eexists; split; [reflexivity|].
    unfold rep; cbn. repeat split; try lia. intros [|i] a Hi; discriminate.
Qed.

Lemma lrun_ok ops : forall al l,
  rep al l -> hist_ok eqv l ops ->
  exists al', lrun compare al ops = Ok (al', snd (seq_run eqv l ops)) /\
              rep al' (fst (seq_run eqv l ops)).
Proof.
  induction ops as [|o ops IH]; intros al l H Hok; cbn.
  - eauto.
  - destruct Hok as [Ho Hrest].
    destruct (lstep_ok al l o H Ho) as [al1 [E1 R1]]. rewrite E1. cbn [bind fst snd].
    destruct (IH al1 _ R1 Hrest) as [al2 [E2 R2]]. rewrite E2. cbn. eauto.
Qed.

(** *** Sets *)
Hypothesis TO : total_order compare.
Notation before := (before compare).

Lemma before_irrefl a : ~ before a a.
Proof.
  unfold SpecSeq.before. destruct TO as [He _].
  pose proof (proj2 (He a a) eq_refl). lia.
Qed.
Lemma before_trans a b c : before a b -> before b c -> before a c.
Proof. destruct TO as (_ & _ & H). apply H. Qed.
Lemma compare_gt a b : (compare a b > 0)%Z <-> before b a.
Proof. unfold SpecSeq.before. destruct TO as (_ & H & _). rewrite (H b a). lia. Qed.

Lemma sorted_nth l : StronglySorted before l ->
  forall i j a b, i < j -> nth_error l i = Some a -> nth_error l j = Some b -> before a b.
Proof.
  induction 1 as [|x l Hs IH Hf]; intros i j a b Hij Hi Hj.
  - destruct i; discriminate.
  - destruct i as [|i], j as [|j]; try lia; cbn in *.
    + inversion Hi; subst. rewrite Forall_forall in Hf. apply Hf. eapply nth_error_In; eauto.
    + eapply IH; [|exact Hi|exact Hj]. lia.
Qed.

Lemma sorted_inj l i j a : StronglySorted before l ->
  nth_error l i = Some a -> nth_error l j = Some a -> i = j.
Proof.
  intros Hs Hi Hj. destruct (Nat.lt_trichotomy i j) as [H|[H|H]]; auto.
  - destruct (before_irrefl a). eapply sorted_nth; eauto.
  - destruct (before_irrefl a). eapply sorted_nth; eauto.
Qed.

(** [low] is the insertion point of [x]. *)
Definition ins_point (l : list A) (x : A) (p : nat) : Prop :=
  p <= length l /\
  (forall i a, i < p -> nth_error l i = Some a -> before a x) /\
  (forall i a, p <= i -> nth_error l i = Some a -> before x a).

Lemma set_search_ok al l x fuel low high :
  rep al l -> StronglySorted before l ->
  low < high <= length l -> high - low < fuel ->
  (forall i a, i < low -> nth_error l i = Some a -> before a x) ->
  (forall i a, high <= i -> nth_error l i = Some a -> before x a) ->
  (exists p, set_search compare fuel (al_data al) low high x = Ok (inl p) /\ ins_point l x p) \/
  (set_search compare fuel (al_data al) low high x = Ok (inr tt) /\ In x l).
Proof.
  intros R Hs. revert low high. induction fuel as [|f IH]; intros low high Hb Hf Hlow Hhigh; [lia|].
  cbn [set_search]. set (mid := low + (high - low) / 2).
  assert (Hmid : low <= mid < high) by (subst mid; lia).
  destruct (nth_error l mid) as [a|] eqn:Ea; [|apply nth_error_None in Ea; lia].
  rewrite (slot_rep _ _ _ _ R Ea). cbn [bind].
  destruct (Z.ltb_spec (compare a x) 0) as [Hc|Hc].
  - assert (Hlow' : forall i b, i < mid + 1 -> nth_error l i = Some b -> before b x).
    { intros i b Hi Hb'. destruct (Nat.eq_dec i mid) as [->|Hne].
      - rewrite Ea in Hb'. inversion Hb'; subst. exact Hc.
      - eapply before_trans; [|exact Hc]. eapply sorted_nth; [exact Hs| |exact Hb'|exact Ea]. lia. }
    destruct (Nat.ltb_spec (mid + 1) high).
    + apply IH; auto; lia.
    + left. exists (mid + 1). split; auto. split; [lia|]. split; auto.
      intros i b Hi. apply Hhigh. lia.
  - rewrite Z.gtb_ltb. destruct (Z.ltb_spec 0 (compare a x)) as [Hg|Hg].
    + assert (Hxa : before x a) by (apply compare_gt; lia).
      assert (Hhigh' : forall i b, mid <= i -> nth_error l i = Some b -> before x b).
      { intros i b Hi Hb'. destruct (Nat.eq_dec i mid) as [->|Hne].
        - rewrite Ea in Hb'. inversion Hb'; subst. exact Hxa.
        - eapply before_trans; [exact Hxa|]. eapply sorted_nth; [exact Hs| |exact Ea|exact Hb']. lia. }
      destruct (Nat.ltb_spec low mid).
      * apply IH; auto; lia.
      * left. exists low. split; auto. split; [lia|]. split; auto.
        intros i b Hi. apply Hhigh'. lia.
    + right. split; auto. assert (compare a x = 0%Z) by lia.
      destruct TO as [He _]. apply He in H. subst a. eapply nth_error_In; eauto.
Qed.

Lemma insert_sorted l x p :
  StronglySorted before l -> ins_point l x p ->
  StronglySorted before (firstn p l ++ x :: skipn p l).
Proof.
  intros Hs. revert p. induction Hs as [|y l Hs IH Hf]; intros p (Hp & Hlo & Hhi); cbn in Hp.
  - assert (p = 0) by lia. subst. cbn. constructor; constructor.
  - destruct p as [|p]; cbn.
    + constructor; [constructor; auto|]. apply Forall_forall. intros z Hz.
      apply In_nth_error in Hz. destruct Hz as [i Hi]. eapply Hhi; [|exact Hi]. lia.
    + constructor.
      * apply IH. split; [lia|]. split.
        -- intros i a Hi Ha. apply (Hlo (S i) a); auto. lia.
        -- intros i a Hi Ha. apply (Hhi (S i) a); auto. lia.
      * apply Forall_forall. intros z Hz. rewrite in_app_iff in Hz. cbn in Hz.
        rewrite Forall_forall in Hf.
        destruct Hz as [Hz|[Hz|Hz]].
        -- apply Hf. rewrite <- (firstn_skipn p l). apply in_or_app; auto.
        -- subst z. apply (Hlo 0 y); [lia|reflexivity].
        -- apply Hf. rewrite <- (firstn_skipn p l). apply in_or_app; auto.
Qed.

Lemma in_insert (l : list A) p x y :
  In y (firstn p l ++ x :: skipn p l) <-> In y l \/ y = x.
Proof.
  rewrite <- (firstn_skipn p l) at 3. rewrite !in_app_iff. cbn. split; intuition auto.
Qed.

Lemma ins_point_notin l x p : ins_point l x p -> ~ In x l.
Proof.
  intros (Hp & Hlo & Hhi) Hin. apply In_nth_error in Hin. destruct Hin as [i Hi].
  apply (before_irrefl x). destruct (Nat.lt_ge_cases i p); eauto.
Qed.

Lemma set_insert_ok al l x :
  rep al l -> StronglySorted before l ->
  (exists al' p, set_insert compare al x = Ok (al', 1%Z) /\ ins_point l x p /\
                 rep al' (firstn p l ++ x :: skipn p l)) \/
  (set_insert compare al x = Ok (al, 0%Z) /\ In x l).
Proof.
  intros R Hs. unfold set_insert. pose proof R as (Hsz & _).
  rewrite Hsz.
  destruct (Nat.ltb_spec 0 (length l)).
  - destruct (set_search_ok al l x (S (length l)) 0 (length l) R Hs) as [[p [E Hp]]|[E Hin]];
      try lia.
    + intros i a Hi Ha. apply nth_error_lt in Ha. lia.
    + rewrite E. cbn. left.
      destruct (insert_at_ok al l x p R) as [al' [E2 R2]]; [apply Hp|].
      exists al', p. auto.
    + rewrite E. cbn. right. auto.
  - left. assert (ins_point l x 0).
    { split; [lia|]. split; intros i a Hi Ha; apply nth_error_lt in Ha; lia. }
    destruct (insert_at_ok al l x 0 R) as [al' [E2 R2]]; [lia|].
    exists al', 0. auto.
Qed.

Lemma binary_search_ok al l x : forall fuel lo hi,
  rep al l -> StronglySorted before l ->
  (0 <= lo)%Z -> (lo <= hi + 1)%Z -> (hi < Z.of_nat (length l))%Z -> (hi - lo + 1 < Z.of_nat fuel)%Z ->
  (forall i a, (Z.of_nat i < lo)%Z -> nth_error l i = Some a -> before a x) ->
  (forall i a, (hi < Z.of_nat i)%Z -> nth_error l i = Some a -> before x a) ->
  (exists i, binary_search compare fuel (al_data al) lo hi x = Ok (Z.of_nat i) /\ nth_error l i = Some x) \/
  (binary_search compare fuel (al_data al) lo hi x = Ok (-1)%Z /\ ~ In x l).
Proof.
  induction fuel as [|f IH]; intros lo hi R Hs H0 H1 H2 Hf Hlo Hhi; [lia|].
  cbn [binary_search]. destruct (Z.leb_spec lo hi).
  - set (mid := (lo + Z.quot (hi - lo) 2)%Z).
    assert (Hmid : (lo <= mid <= hi)%Z).
    { subst mid. rewrite Z.quot_div_nonneg by lia. lia. }
    destruct (Z.ltb_spec mid 0); [lia|].
    destruct (nth_error l (Z.to_nat mid)) as [a|] eqn:Ea; [|apply nth_error_None in Ea; lia].
    rewrite (slot_rep _ _ _ _ R Ea). cbn [bind].
    destruct (Z.eqb_spec (compare a x) 0) as [Hc|Hc].
    + left. exists (Z.to_nat mid). rewrite Z2Nat.id by lia. split; auto.
      destruct TO as [He _]. apply He in Hc. now subst.
    + rewrite Z.gtb_ltb. destruct (Z.ltb_spec 0 (compare a x)) as [Hg|Hg].
      * apply IH; auto; try lia.
        intros i b Hi Hb. assert (Hxa : before x a) by (apply compare_gt; lia).
        destruct (Nat.eq_dec i (Z.to_nat mid)) as [->|Hne].
        -- rewrite Ea in Hb. inversion Hb; subst; auto.
        -- eapply before_trans; [exact Hxa|]. eapply sorted_nth; [exact Hs| |exact Ea|exact Hb]. lia.
      * assert (Hax : before a x) by (unfold SpecSeq.before; lia).
        apply IH; auto; try lia.
        intros i b Hi Hb.
        destruct (Nat.eq_dec i (Z.to_nat mid)) as [->|Hne].
        -- rewrite Ea in Hb. inversion Hb; subst; auto.
        -- eapply before_trans; [|exact Hax]. eapply sorted_nth; [exact Hs| |exact Hb|exact Ea]. lia.
  - right. split; auto. intros Hin. apply In_nth_error in Hin. destruct Hin as [i Hi].
    apply (before_irrefl x).
    destruct (Z.lt_ge_cases (Z.of_nat i) lo).
    + apply (Hlo i x); auto.
    + apply (Hhi i x); auto. lia.
Qed.

Lemma set_find_ok al l x :
  rep al l -> StronglySorted before l ->
  (exists i, set_find compare al x = Ok (Z.of_nat i) /\ nth_error l i = Some x) \/
  (set_find compare al x = Ok (-1)%Z /\ ~ In x l).
Proof.
  intros R Hs. unfold set_find, array_list_find. cbn [Z.eqb].
  pose proof R as (Hsz & _). rewrite Hsz. apply binary_search_ok; auto; try lia.
  intros i a Hi Ha. apply nth_error_lt in Ha. lia.
Qed.

Lemma delete_sorted l p :
  StronglySorted before l -> StronglySorted before (firstn p l ++ skipn (S p) l).
Proof.
  intros Hs. revert p. induction Hs as [|y l Hs IH Hf]; intros p.
  - rewrite firstn_nil. cbn. constructor.
  - destruct p as [|p]; cbn [firstn skipn app]; auto.
    constructor; [apply IH|]. apply Forall_forall. intros z Hz. rewrite Forall_forall in Hf.
    apply Hf. apply in_app_iff in Hz. rewrite <- (firstn_skipn p l). apply in_or_app.
    destruct Hz as [Hz|Hz]; auto. right.
    apply In_nth_error in Hz. destruct Hz as [i Hi].
    change (nth_error (skipn (S p) l) i = Some z) in Hi.
    rewrite nth_error_skipn in Hi.
    apply nth_error_In with (n := S i). rewrite nth_error_skipn.
    replace (p + S i) with (S p + i) by lia. exact Hi.
Qed.

Lemma in_delete l p a y :
  StronglySorted before l -> nth_error l p = Some a ->
  In y (firstn p l ++ skipn (S p) l) <-> In y l /\ y <> a.
Proof.
  intros Hs Hp. pose proof (nth_error_lt _ _ _ Hp) as Hlt. split.
  - intros Hin. apply In_nth_error in Hin. destruct Hin as [i Hi].
    rewrite nth_error_delete in Hi by lia.
    destruct (Nat.ltb_spec i p).
    + split; [eapply nth_error_In; eauto|]. intros ->.
      pose proof (sorted_inj l i p a Hs Hi Hp). lia.
    + split; [eapply nth_error_In; eauto|]. intros ->.
      pose proof (sorted_inj l (S i) p a Hs Hi Hp). lia.
  - intros [Hin Hne]. apply In_nth_error in Hin. destruct Hin as [i Hi].
    destruct (Nat.lt_trichotomy i p) as [H|[H|H]].
    + apply nth_error_In with (n := i). rewrite nth_error_delete by lia.
      destruct (Nat.ltb_spec i p); [auto|lia].
    + subst. congruence.
    + apply nth_error_In with (n := i - 1). rewrite nth_error_delete by lia.
      destruct (Nat.ltb_spec (i - 1) p); [lia|]. replace (S (i - 1)) with i by lia. auto.
Qed.

Lemma enumerates_In l : StronglySorted before l -> enumerates compare l (fun y => In y l).
Proof. intros H. split; [exact H|]. tauto. Qed.

Lemma sstep_ok al l o :
  rep al l -> StronglySorted before l ->
  exists al' l' P' out,
    sstep compare al o = Ok (al', out) /\ rep al' l' /\
    set_step l (fun x => In x l) o P' out /\ enumerates compare l' P'.
Proof.
  intros R Hs. pose proof R as (Hsz & _). pose proof (enumerates_In l Hs) as En.
  destruct o as [x|x|i|x|i| |]; cbn [sstep set_step].
  - destruct (set_insert_ok al l x R Hs) as [(al' & p & E & Hp & R')|[E Hin]]; rewrite E; cbn [bind fst snd].
    + exists al', (firstn p l ++ x :: skipn p l), (fun y => In y l \/ y = x), (1%Z, None).
      split; [reflexivity|]. split; [exact R'|]. split.
      * split; [tauto|]. left. split; auto. eapply ins_point_notin; eauto.
      * split; [now apply insert_sorted|]. intros y. apply in_insert.
    + exists al, l, (fun y => In y l), (0%Z, None).
      split; [reflexivity|]. split; [exact R|]. split; [|exact En].
      split; [|auto]. intros y; split; [auto|]. intros [Hy| ->]; auto.
  - unfold set_remove.
    destruct (set_find_ok al l x R Hs) as [(i & E & Hi)|[E Hin]]; rewrite E; cbn [bind].
    + destruct (Z.ltb_spec (Z.of_nat i) 0); [lia|]. rewrite Nat2Z.id. unfold set_remove_at.
      destruct (remove_at_ok al l i x R Hi) as [al' [E1 R1]]. rewrite E1.
      exists al', (firstn i l ++ skipn (S i) l), (fun y => In y l /\ y <> x), (1%Z, Some x).
      split; [reflexivity|]. split; [exact R1|]. split.
      * split; [tauto|]. left. split; auto. eapply nth_error_In; eauto.
      * split; [now apply delete_sorted|]. intros y. now apply in_delete.
    + exists al, l, (fun y => In y l), ((-1)%Z, None).
      split; [reflexivity|]. split; [exact R|]. split; [|exact En].
      split; [|auto]. intros y; split; [|tauto]. intros Hy. split; auto. intros ->. contradiction.
  - unfold set_remove_at. destruct (nth_error l i) as [a|] eqn:E.
    + destruct (remove_at_ok al l i a R E) as [al' [E1 R1]]. rewrite E1.
      exists al', (firstn i l ++ skipn (S i) l), (fun y => In y l /\ y <> a), (1%Z, Some a).
      split; [reflexivity|]. split; [exact R1|]. split.
      * split; [tauto|reflexivity].
      * split; [now apply delete_sorted|]. intros y. now apply in_delete.
    + unfold array_list_remove_at. apply nth_error_None in E.
      destruct (Nat.leb_spec (al_size al) i); [|lia].
      exists al, l, (fun y => In y l), (0%Z, None).
      split; [reflexivity|]. split; [exact R|]. split; [|exact En]. split; [tauto|reflexivity].
  - destruct (set_find_ok al l x R Hs) as [(i & E & Hi)|[E Hin]]; rewrite E; cbn [bind].
    + exists al, l, (fun y => In y l), (Z.of_nat i, None).
      split; [reflexivity|]. split; [exact R|]. split; [|exact En]. split; [tauto|].
      left. exists i. auto.
    + exists al, l, (fun y => In y l), ((-1)%Z, None).
      split; [reflexivity|]. split; [exact R|]. split; [|exact En]. split; [tauto|]. auto.
  - unfold set_value_at, array_list_value_at.
    destruct (nth_error l i) as [a|] eqn:E.
    + pose proof (nth_error_lt _ _ _ E).
      destruct (Nat.leb_spec (al_size al) i); [lia|].
      rewrite (slot_rep _ _ _ _ R E).
      exists al, l, (fun y => In y l), (1%Z, Some a).
      split; [reflexivity|]. split; [exact R|]. split; [|exact En]. split; [tauto|reflexivity].
    + apply nth_error_None in E.
      destruct (Nat.leb_spec (al_size al) i); [|lia].
      exists al, l, (fun y => In y l), (0%Z, None).
      split; [reflexivity|]. split; [exact R|]. split; [|exact En]. split; [tauto|reflexivity].
  - unfold set_size, array_list_size. rewrite Hsz.
    exists al, l, (fun y => In y l), (Z.of_nat (length l), None).
    split; [reflexivity|]. split; [exact R|]. split; [|exact En]. split; [tauto|reflexivity].
  - unfold set_empty, array_list_empty. rewrite Hsz.
    exists al, l, (fun y => In y l), (if length l =? 0 then 1%Z else 0%Z, None).
    split; [reflexivity|]. split; [exact R|]. split; [|exact En]. split; [tauto|].
    destruct l as [|a l].
    + left. auto.
    + right. split; auto. exists a. left; auto.
Qed.

Lemma srun_ok ops : forall al l,
  rep al l -> StronglySorted before l ->
  exists al' l' outs,
    srun compare al ops = Ok (al', outs) /\ rep al' l' /\ StronglySorted before l' /\
    set_history compare l ops outs l'.
Proof.
  induction ops as [|o ops IH]; intros al l R Hs; cbn [srun].
  - exists al, l, []. repeat split; auto; try apply R. constructor.
  - destruct (sstep_ok al l o R Hs) as (al1 & l1 & P1 & out & E1 & R1 & St & En).
    rewrite E1. cbn [bind fst snd].
    destruct (IH al1 l1 R1 (proj1 En)) as (al2 & l2 & outs & E2 & R2 & S2 & H2).
    rewrite E2. cbn. exists al2, l2, (out :: outs). repeat split; auto; try apply R2.
    econstructor; eauto.
Qed.

(** Two strictly increasing enumerations of the same set are equal. *)
Lemma enumerates_unique l1 l2 P :
  enumerates compare l1 P -> enumerates compare l2 P -> l1 = l2.
Proof.
  intros [S1 H1] [S2 H2].
  assert (Hin : forall x, In x l1 <-> In x l2) by (intros x; rewrite H1, H2; tauto).
  clear P H1 H2. revert l2 S2 Hin.
  induction S1 as [|a l1 S1 IH F1]; intros l2 S2 Hin.
  - destruct l2 as [|b l2]; auto. exfalso. apply (Hin b). left; auto.
  - destruct S2 as [|b l2 S2 F2].
    + exfalso. apply (Hin a). left; auto.
    + rewrite Forall_forall in F1, F2.
      assert (a = b).
      { destruct (proj1 (Hin a) (or_introl eq_refl)) as [<-|Ha]; auto.
        destruct (proj2 (Hin b) (or_introl eq_refl)) as [<-|Hb]; auto.
        destruct (before_irrefl a). eapply before_trans; [apply F1, Hb|apply F2, Ha]. }
      subst b. f_equal. apply IH; auto. intros x.
      destruct (Hin x) as [Hx1 Hx2]. split; intros Hx.
      * destruct (Hx1 (or_intror Hx)) as [<-|]; auto.
        destruct (before_irrefl a). now apply F1.
      * destruct (Hx2 (or_intror Hx)) as [<-|]; auto.
        destruct (before_irrefl a). now apply F2.
Qed.

Lemma set_insert_all_ok xs : forall al l,
  rep al l -> StronglySorted before l ->
  exists al' l', set_insert_all compare al xs = Ok al' /\ rep al' l' /\
    enumerates compare l' (fun y => In y l \/ In y xs).
Proof.
  induction xs as [|x xs IH]; intros al l R Hs; cbn [set_insert_all].
  - exists al, l. repeat split; auto; try apply R. intros [?|[]]; auto.
  - destruct (set_insert_ok al l x R Hs) as [(al1 & p & E & Hp & R1)|[E Hin]]; rewrite E; cbn [bind fst].
    + destruct (IH al1 _ R1 (insert_sorted l x p Hs Hp)) as (al2 & l2 & E2 & R2 & S2 & H2).
      exists al2, l2. repeat split; auto; try apply R2.
      * intros Hy. apply H2 in Hy. rewrite in_insert in Hy. cbn. intuition auto.
      * intros Hy. apply H2. rewrite in_insert. cbn in Hy. intuition auto.
    + destruct (IH al l R Hs) as (al2 & l2 & E2 & R2 & S2 & H2).
      exists al2, l2. repeat split; auto; try apply R2.
      * intros Hy. apply H2 in Hy. cbn. intuition auto.
      * intros Hy. apply H2. cbn in Hy. destruct Hy as [?|[<-|?]]; auto.
Qed.
End Proofs.

Section Clear.
Context {A : Type}.
Variable compare : A -> A -> Z.

Lemma lstep_max (al : alist A) o al' out :
  lstep (A := A) compare al o = Ok (al', out) -> al_max al <= al_max al'.
Proof.
  destruct al as [d s m].
  assert (Hg : al_max (AL d s m) <= al_max (if al_size (AL d s m) =? al_max (AL d s m)
            then array_list_grow (AL d s m) else AL d s m)).
  { destruct (_ =? _); auto. cbn [array_list_grow al_max].
    pose proof (highestPowerof2_gt (m * 2)). lia. }
  destruct o as [x|x p|x i|i|x| |i|x| | |b]; cbn [lstep].
  - unfold array_list_append, array_list_insertion_helper. revert Hg.
    generalize (if al_size (AL d s m) =? al_max (AL d s m) then array_list_grow (AL d s m) else AL d s m).
    intros a1 Hg. destruct (aset _ _ _); cbn; intros E; inversion E; subst; auto.
  - unfold array_list_insert_at, array_list_insertion_helper. revert Hg.
    generalize (if al_size (AL d s m) =? al_max (AL d s m) then array_list_grow (AL d s m) else AL d s m).
    intros a1 Hg. destruct (_ <? _); [discriminate|]. destruct (memmove _ _ _ _); try discriminate.
    cbn. destruct (aset _ _ _); cbn; intros E; inversion E; subst; auto.
  - unfold array_list_replace_at, array_list_insertion_helper. destruct (_ <=? _); cbn.
    + intros E; inversion E; auto.
    + destruct (aset _ _ _); cbn; intros E; inversion E; auto.
  - unfold array_list_remove_at. destruct (_ <=? _).
    + intros E; inversion E; auto.
    + destruct (array_list_value_at _ _); try discriminate. cbn [bind].
      destruct (memmove _ _ _ _); try discriminate. intros E; inversion E; auto.
  - unfold array_list_remove. destruct (array_list_find _ _ _ _) as [r| | |]; try discriminate. cbn [bind].
    destruct (_ <? _)%Z; [intros E; inversion E; auto|].
    unfold array_list_remove_at. destruct (_ <=? _).
    + intros E; inversion E; auto.
    + destruct (array_list_value_at _ _); try discriminate. cbn [bind].
      destruct (memmove _ _ _ _); try discriminate. intros E; inversion E; auto.
  - unfold array_list_pop. destruct (_ =? _)%Z; [intros E; inversion E; auto|].
    destruct (array_list_value_at _ _); try discriminate. intros E; inversion E; auto.
  - destruct (array_list_value_at _ _); try discriminate. intros E; inversion E; auto.
  - destruct (array_list_find _ _ _ _); try discriminate. intros E; inversion E; auto.
  - intros E; inversion E; auto.
  - intros E; inversion E; auto.
  - intros E; inversion E; subst. destruct b; auto.
Qed.

Lemma lrun_max ops : forall al al' outs,
  lrun (A := A) compare al ops = Ok (al', outs) -> al_max al <= al_max al'.
Proof.
  induction ops as [|o ops IH]; cbn; intros al al' outs H.
  - inversion H; auto.
  - destruct (lstep compare al o) as [[a1 o1]| | |] eqn:E; try discriminate. cbn in H.
    destruct (lrun compare a1 ops) as [[a2 o2]| | |] eqn:E2; try discriminate. inversion H; subst.
    apply lstep_max in E. apply IH in E2. lia.
Qed.

Lemma lrun_app ops1 ops2 : forall al,
  lrun (A := A) compare al (ops1 ++ ops2) =
  (let! r := lrun compare al ops1 in
   let! r' := lrun compare (fst r) ops2 in Ok (fst r', snd r ++ snd r')).
Proof.
  induction ops1 as [|o ops1 IH]; intros al; cbn.
  - destruct (lrun compare al ops2) as [[? ?]| | |]; reflexivity.
  - destruct (lstep compare al o) as [[a1 o1]| | |]; try reflexivity. cbn.
    rewrite IH. destruct (lrun compare a1 ops1) as [[a2 o2]| | |]; try reflexivity. cbn.
    destruct (lrun compare a2 ops2) as [[a3 o3]| | |]; reflexivity.
Qed.

Lemma realloc_one (d : list (option A)) : 0 < length d -> exists o, realloc d 1 = [o].
Proof.
  destruct d as [|o d]; cbn; [lia|]. intros _. exists o. reflexivity.
Qed.

(** After a resizing clear one append fits, the second is out of bounds. *)
Lemma clear_append1 (al : alist A) l x :
  rep al l -> 2 <= al_max al ->
  array_list_append (array_list_clear al true) x = Ok (AL [Some x] 1 (al_max al), 1%Z).
Proof.
  intros (Hs & Hd & Hm & Hl & Hn) H2.
  destruct (realloc_one (al_data al)) as [o Ho]; [lia|].
  unfold array_list_append, array_list_clear. rewrite Ho. cbn [al_size al_max].
  destruct (Nat.eqb_spec 0 (al_max al)); [lia|]. reflexivity.
Qed.

Lemma clear_append2 m (x y : A) : 2 <= m -> array_list_append (AL [Some x] 1 m) y = UB.
Proof.
  intros H. unfold array_list_append. cbn [al_size al_max].
  destruct (Nat.eqb_spec 1 m); [lia|]. reflexivity.
Qed.

Lemma insert_past_end al l x p : rep (A := A) al l -> length l < p -> array_list_insert_at al x p = UB.
Proof.
  intros H Hp. destruct (grow_room al l H) as [H1 Hroom]. unfold array_list_insert_at.
  set (al1 := if al_size al =? al_max al then array_list_grow al else al) in *.
  destruct H1 as (Hs & _). destruct (Nat.ltb_spec (al_size al1) p); [reflexivity|lia].
Qed.

Lemma set_clear_insert1 al l x :
  rep al l -> 2 <= al_max al ->
  set_insert compare (set_clear al) x = Ok (AL [Some x] 1 (al_max al), 1%Z).
Proof.
  intros (Hs & Hd & Hm & Hl & Hn) H2.
  destruct (realloc_one (al_data al)) as [o Ho]; [lia|].
  unfold set_insert, set_clear, array_list_clear. rewrite Ho. cbn [al_size].
  cbn [Nat.ltb Nat.leb]. unfold array_list_insert_at. cbn [al_size al_max].
  destruct (Nat.eqb_spec 0 (al_max al)); [lia|]. reflexivity.
Qed.

Lemma set_clear_insert2 m (x y : A) :
  total_order compare -> 2 <= m -> x <> y -> set_insert compare (AL [Some x] 1 m) y = UB.
Proof.
  intros [He _] Hm Hne. unfold set_insert. cbn [al_size al_data Nat.ltb Nat.leb set_search].
  cbn [slot nth_error bind Nat.add Nat.sub Nat.div Nat.divmod fst].
  destruct (Z.ltb_spec (compare x y) 0) as [H|H]; cbn [bind].
  - unfold array_list_insert_at. cbn [al_size al_max]. destruct (Nat.eqb_spec 1 m); [lia|]. reflexivity.
  - rewrite Z.gtb_ltb. destruct (Z.ltb_spec 0 (compare x y)) as [H1|H1]; cbn [bind].
    + unfold array_list_insert_at. cbn [al_size al_max]. destruct (Nat.eqb_spec 1 m); [lia|]. reflexivity.
    + exfalso. apply Hne. apply He. lia.
Qed.

Lemma set_insert_max (al : alist A) x al' r :
  set_insert compare al x = Ok (al', r) -> al_max al <= al_max al'.
Proof.
  assert (G : forall p, array_list_insert_at al x p = Ok (al', r) -> al_max al <= al_max al').
  { intros p H. apply (lstep_max al (LInsertAt x p) al' (r, None)). cbn. now rewrite H. }
  unfold set_insert. destruct (_ <? _); [|apply G].
  destruct (set_search _ _ _ _ _ _) as [[p|u]| | |]; try discriminate; cbn.
  - apply G.
  - intros E; inversion E; auto.
Qed.

Lemma sstep_max (al : alist A) o al' out : sstep compare al o = Ok (al', out) -> al_max al <= al_max al'.
Proof.
  assert (G : forall p, array_list_remove_at al p = Ok (al', out) -> al_max al <= al_max al').
  { intros p H. now apply (lstep_max al (LRemoveAt p) al' out). }
  destruct o as [x|x|i|x|i| |]; cbn [sstep].
  - destruct (set_insert compare al x) as [[a r]| | |] eqn:E; try discriminate. cbn.
    intros H; inversion H; subst. eapply set_insert_max; eauto.
  - unfold set_remove. destruct (set_find compare al x); try discriminate. cbn [bind].
    destruct (_ <? _)%Z; [intros H; inversion H; auto|apply G].
  - apply G.
  - destruct (set_find compare al x); try discriminate. intros H; inversion H; auto.
  - destruct (set_value_at al i); try discriminate. intros H; inversion H; auto.
  - intros H; inversion H; auto.
  - intros H; inversion H; auto.
Qed.

Lemma srun_max ops : forall (al al' : alist A) outs, srun compare al ops = Ok (al', outs) -> al_max al <= al_max al'.
Proof.
  induction ops as [|o ops IH]; cbn; intros al al' outs H.
  - inversion H; auto.
  - destruct (sstep compare al o) as [[a1 o1]| | |] eqn:E; try discriminate. cbn in H.
    destruct (srun compare a1 ops) as [[a2 o2]| | |] eqn:E2; try discriminate. inversion H; subst.
    apply sstep_max in E. apply IH in E2. lia.
Qed.
End Clear.
