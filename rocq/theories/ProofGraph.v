(** Lemmas about edge sorting and adjacency lists. *)
From Coq Require Import Permutation Sorted.
From Verif Require Import Base ListFacts F64 F64Facts ModelMst ModelGraph ProofMst ProofSort.
From Coq Require Import Lia.
Local Open Scope nat_scope.

Definition wf (m : nat) (e : edges) : Prop := length (e_a e) = m /\ length (e_b e) = m /\ length (e_w e) = m.
Definition wt (e : edges) (k : nat) : f64 := nth k (e_w e) D_MAX.

Lemma wt_edge e e' k k' : edge_at e k = edge_at e' k' -> wt e k = wt e' k'.
Proof. unfold edge_at, wt. congruence. Qed.

Lemma aset_ok_len {A} (l : list A) i x m : length l = m -> i < m -> aset l i x = Ok (upd l i x).
Proof. intros <-. apply aset_ok. Qed.

Lemma swap_ok m e i j : wf m e -> i < m -> j < m ->
  exists e', graph_swap_edges e i j = Ok e' /\ wf m e' /\ forall k, edge_at e' k = edge_at e (tr i j k).
Proof.
  intros (Ha & Hb & Hw) Hi Hj. unfold graph_swap_edges. destruct (Nat.eqb_spec i j) as [->|Hne].
  - exists e. split; [auto|]. split; [split; auto|]. intros k. unfold tr. destruct (Nat.eqb_spec k j); now subst.
  - rewrite (aget_in (e_a e) i 0), (aget_in (e_b e) i 0), (aget_in (e_w e) i D_MAX), (aget_in (e_a e) j 0) by lia.
    cbn [bind]. rewrite (aset_ok (e_a e)) by lia. cbn [bind].
    rewrite (aget_in (e_b e) j 0) by lia. cbn [bind]. rewrite (aset_ok (e_b e)) by lia. cbn [bind].
    rewrite (aget_in (e_w e) j D_MAX) by lia. cbn [bind]. rewrite (aset_ok (e_w e)) by lia. cbn [bind].
    rewrite (aset_ok_len _ j _ m) by (rewrite ?upd_length; lia). cbn [bind].
    rewrite (aset_ok_len _ j _ m) by (rewrite ?upd_length; lia). cbn [bind].
    rewrite (aset_ok_len _ j _ m) by (rewrite ?upd_length; lia). cbn [bind].
    eexists. split; [reflexivity|]. unfold wf. cbn [e_a e_b e_w]. rewrite !upd_length. split; [auto|].
    intros k. unfold edge_at. cbn [e_a e_b e_w].
    rewrite !nth_upd_in by (rewrite ?upd_length; lia). unfold tr. rewrite (Nat.eqb_sym k i), (Nat.eqb_sym k j).
    destruct (Nat.eqb_spec j k), (Nat.eqb_spec i k); subst; reflexivity || congruence.
Qed.

Lemma partition_ok m e s t p0 : wf m e -> s <= p0 <= t -> t < m ->
  exists e' p, graph_partition e s t p0 = Ok (e', p) /\ wf m e' /\ s <= p <= t /\
    rearr s t (edge_at e) (edge_at e') /\
    (forall k, s <= k < p -> flt (wt e' k) (wt e' p) = true) /\
    (forall k, p < k <= t -> flt (wt e' k) (wt e' p) = false).
Proof.
  intros Hwf Hp0 Ht. unfold graph_partition. pose proof Hwf as (_ & _ & Hw).
  rewrite (aget_in (e_w e) p0 D_MAX) by lia. cbn [bind]. change (nth p0 (e_w e) D_MAX) with (wt e p0).
  set (pv := wt e p0).
  destruct (swap_ok m e p0 t Hwf ltac:(lia) Ht) as (e1 & -> & Hwf1 & H1). cbn [bind].
  assert (Hpv1 : wt e1 t = pv).
  { apply wt_edge. rewrite H1. unfold tr. destruct (Nat.eqb_spec t p0); [now subst|]. now rewrite Nat.eqb_refl. }
  set (I := fun (i : nat) (st : edges * nat) => wf m (fst st) /\ s <= snd st <= i /\
    rearr s t (edge_at e1) (edge_at (fst st)) /\ wt (fst st) t = pv /\
    (forall k, s <= k < snd st -> flt (wt (fst st) k) pv = true) /\
    (forall k, snd st <= k < i -> flt (wt (fst st) k) pv = false)).
  destruct (for_up_inv I (partition_step pv) s (t - s) (e1, s)) as ((e2 & low) & -> & HI).
  { unfold I. cbn [fst snd]. split; [auto|]. split; [lia|]. split; [now apply rearr_refl|]. split; [auto|].
    split; intros; lia. }
  { intros i (e2 & low) Hi (Hwf2 & Hlow & Hre & Hlast & Hlt & Hge). cbn [fst snd] in *. unfold partition_step.
    pose proof Hwf2 as (_ & _ & Hw2).
    rewrite (aget_in (e_w e2) i D_MAX) by lia. cbn [bind]. change (nth i (e_w e2) D_MAX) with (wt e2 i).
    destruct (flt (wt e2 i) pv) eqn:E.
    - destruct (swap_ok m e2 i low Hwf2 ltac:(lia) ltac:(lia)) as (e3 & -> & Hwf3 & H3). cbn [bind].
      eexists. split; [reflexivity|]. unfold I. cbn [fst snd]. split; [auto|]. split; [lia|]. split; [|split; [|split]].
      + eapply rearr_trans; [exact Hre|]. eapply (rearr_swap s t i low); [lia|lia|auto].
      + rewrite <- Hlast. apply wt_edge. rewrite H3. unfold tr.
        destruct (Nat.eqb_spec t i); [lia|]. destruct (Nat.eqb_spec t low); [lia|auto].
      + intros k Hk. destruct (Nat.eq_dec k low) as [->|Hkl].
        * rewrite <- E. f_equal. apply wt_edge. rewrite H3. unfold tr. destruct (Nat.eqb_spec low i); [now subst|].
          now rewrite Nat.eqb_refl.
        * rewrite <- (Hlt k) by lia. f_equal. apply wt_edge. rewrite H3. unfold tr.
          destruct (Nat.eqb_spec k i); [lia|]. destruct (Nat.eqb_spec k low); [lia|auto].
      + intros k Hk. destruct (Nat.eq_dec k i) as [->|Hki].
        * rewrite <- (Hge low) by lia. f_equal. apply wt_edge. rewrite H3. unfold tr. now rewrite Nat.eqb_refl.
        * rewrite <- (Hge k) by lia. f_equal. apply wt_edge. rewrite H3. unfold tr.
          destruct (Nat.eqb_spec k i); [lia|]. destruct (Nat.eqb_spec k low); [lia|auto].
    - eexists. split; [reflexivity|]. unfold I. cbn [fst snd]. split; [auto|]. split; [lia|]. split; [auto|].
      split; [auto|]. split; [auto|]. intros k Hk. destruct (Nat.eq_dec k i) as [->|]; [auto|]. apply Hge. lia. }
  cbn [bind]. unfold I in HI. cbn [fst snd] in HI. clear I. destruct HI as (Hwf2 & Hlow & Hre & Hlast & Hlt & Hge).
  destruct (swap_ok m e2 low t Hwf2 ltac:(lia) ltac:(lia)) as (e3 & -> & Hwf3 & H3). cbn [bind].
  exists e3, low. split; [reflexivity|]. split; [auto|]. split; [lia|].
  assert (Hp3 : wt e3 low = pv).
  { rewrite <- Hlast. apply wt_edge. rewrite H3. unfold tr. now rewrite Nat.eqb_refl. }
  rewrite Hp3. split; [|split].
  - eapply rearr_trans; [eapply (rearr_swap s t p0 t); [lia|lia|exact H1]|].
    eapply rearr_trans; [exact Hre|]. eapply (rearr_swap s t low t); [lia|lia|exact H3].
  - intros k Hk. rewrite <- (Hlt k) by lia. f_equal. apply wt_edge. rewrite H3. unfold tr.
    destruct (Nat.eqb_spec k low); [lia|]. destruct (Nat.eqb_spec k t); [lia|auto].
  - intros k Hk. destruct (Nat.eq_dec k t) as [->|Hkt].
    + rewrite <- (Hge low) by lia. f_equal. apply wt_edge. rewrite H3. unfold tr.
      destruct (Nat.eqb_spec t low); [lia|]. now rewrite Nat.eqb_refl.
    + rewrite <- (Hge k) by lia. f_equal. apply wt_edge. rewrite H3. unfold tr.
      destruct (Nat.eqb_spec k low); [lia|]. destruct (Nat.eqb_spec k t); [lia|auto].
Qed.

Lemma pivot_start e s t : (s - t <= 1)%Z -> graph_select_pivot_index e s t = Ok s.
Proof. intros H. unfold graph_select_pivot_index. apply Z.leb_le in H. now rewrite H. Qed.

(** ** Order of weights *)
Definition nonan (m : nat) (e : edges) : Prop := forall k, k < m -> notnan (wt e k).
Lemma nonan_rearr m lo hi e e' : hi < m -> rearr lo hi (edge_at e) (edge_at e') -> nonan m e -> nonan m e'.
Proof.
  intros Hhi Hre Hn k Hk. destruct (Nat.le_gt_cases lo k); [destruct (Nat.le_gt_cases k hi)|].
  - destruct (rearr_inside _ _ _ _ k Hre) as (k' & Hk' & E); [lia|]. rewrite (wt_edge _ _ _ _ E). apply Hn. lia.
  - rewrite (wt_edge e' e k k); [auto|]. apply (rearr_outside lo hi); auto.
  - rewrite (wt_edge e' e k k); [auto|]. apply (rearr_outside lo hi); auto.
Qed.

Definition leq (e : edges) (i j : nat) : Prop := fle (wt e i) (wt e j) = true.
Lemma around_pivot m e s p t : nonan m e -> t < m -> s <= p <= t ->
  (forall k, s <= k < p -> flt (wt e k) (wt e p) = true) ->
  (forall k, p < k <= t -> flt (wt e k) (wt e p) = false) ->
  forall i j, s <= i -> i < j -> j <= t -> ~ (j < p) -> ~ (p < i) -> leq e i j.
Proof.
  intros Hn Ht Hp Hlo Hhi i j Hi Hij Hj Hjp Hpi. unfold leq.
  assert (Hni : notnan (wt e i)) by (apply Hn; lia). assert (Hnj : notnan (wt e j)) by (apply Hn; lia).
  assert (Hnp : notnan (wt e p)) by (apply Hn; lia).
  assert (H1 : (fkey (wt e i) <= fkey (wt e p))%Z).
  { destruct (Nat.eq_dec i p) as [->|]; [apply Z.le_refl|]. assert (Hip : s <= i < p) by lia.
    pose proof (flt_true _ _ (Hlo i Hip)) as (_ & _ & E). now apply Z.lt_le_incl. }
  assert (H2 : (fkey (wt e p) <= fkey (wt e j))%Z).
  { destruct (Nat.eq_dec j p) as [->|]; [apply Z.le_refl|]. assert (Hip : p < j <= t) by lia.
    pose proof (Hhi j Hip) as E. rewrite flt_key in E by auto. now apply Z.ltb_ge in E. }
  apply fle_intro; auto. eapply Z.le_trans; eauto.
Qed.

(** ** The explicit stack *)
Definition disj (x y : nat * nat) : Prop := snd x < fst y \/ snd y < fst x.
Fixpoint pw (l : list (nat * nat)) : Prop :=
  match l with [] => True | x :: r => Forall (disj x) r /\ pw r end.
Fixpoint total (l : list (nat * nat)) : nat :=
  match l with [] => 0 | x :: r => (snd x - fst x + 1) + total r end.
Definition segs_ok (m : nat) (l : list (nat * nat)) : Prop := Forall (fun x => fst x < snd x < m) l /\ pw l.

Lemma total_two m l : segs_ok m l -> 2 * length l <= total l.
Proof.
  intros [HF _]. induction HF as [|x l Hx HF IH]; cbn [total length]; [lia|]. lia.
Qed.

Definition ordered (m : nat) (e : edges) (segs : list (nat * nat)) : Prop :=
  forall i j, i < j -> j < m -> (forall x, In x segs -> ~ (fst x <= i /\ j <= snd x)) -> leq e i j.

Lemma push_ok (st : stack) segs x cap : length st = cap -> firstn (length segs) st = map Some (rev segs) ->
  length segs < cap ->
  exists st' : stack, push st (length segs) x = Ok st' /\ length st' = cap /\
    firstn (length (x :: segs)) st' = map Some (rev (x :: segs)).
Proof.
  intros HL Hf Hc. unfold push. rewrite aset_ok by lia. eexists. split; [reflexivity|].
  split; [now rewrite upd_length|]. cbn [length rev]. rewrite map_app, <- Hf. cbn [map].
  apply nth_error_ext. intros i. rewrite nth_error_firstn.
  destruct (Nat.ltb_spec i (S (length segs))) as [Hi|Hi].
  - rewrite nth_error_upd. destruct (Nat.eq_dec i (length segs)) as [->|Hne].
    + rewrite Nat.eqb_refl. replace (length segs <? length st) with true by (symmetry; apply Nat.ltb_lt; lia). cbn [andb].
      rewrite nth_error_app2 by (rewrite firstn_length; lia). rewrite firstn_length.
      replace (length segs - Nat.min (length segs) (length st)) with 0 by lia. reflexivity.
    + replace (length segs =? i) with false by (symmetry; apply Nat.eqb_neq; lia). cbn [andb].
      rewrite nth_error_app1 by (rewrite firstn_length; lia). rewrite nth_error_firstn.
      replace (i <? length segs) with true by (symmetry; apply Nat.ltb_lt; lia). reflexivity.
  - symmetry. apply nth_error_None. rewrite app_length, firstn_length. cbn [length]. lia.
Qed.

Lemma firstn_firstn_map {A B} (f : A -> B) (st : list B) l n : firstn n st = map f l -> forall k, k <= n -> firstn k st = map f (firstn k l).
Proof.
  intros H k Hk. rewrite <- firstn_map, <- H, firstn_firstn. f_equal. lia.
Qed.

Lemma sort_loop_ok m : forall fuel e (st : stack) segs,
  wf m e -> length st = m / 2 -> firstn (length segs) st = map Some (rev segs) -> segs_ok m segs ->
  total segs <= m -> total segs <= fuel ->
  exists e', sort_loop fuel e st (length segs) = Ok e' /\ wf m e' /\
    (m <> 0 -> rearr 0 (m - 1) (edge_at e) (edge_at e')) /\
    (nonan m e -> ordered m e segs -> ordered m e' []).
Proof.
  induction fuel as [|f IH]; intros e st segs Hwf HLst Hst Hok Hm Hfuel.
  - pose proof (total_two m segs Hok). destruct segs as [|x segs]; [|cbn [length] in *; lia].
    cbn [length sort_loop]. exists e. split; [auto|]. split; [auto|]. split; [intros; now apply rearr_refl|auto].
  - destruct segs as [|(s, t) segs].
    { cbn [length sort_loop]. exists e. split; [auto|]. split; [auto|]. split; [intros; now apply rearr_refl|auto]. }
    pose proof (total_two m _ Hok) as H2. destruct Hok as [HF [HD HPw]].
    inversion HF as [|x l Hseg HF' E]. subst. cbn [fst snd] in Hseg.
    cbn [length sort_loop]. unfold peek.
    assert (Htop : nth_error st (length segs) = Some (Some (s, t))).
    { assert (E : nth_error (firstn (length ((s, t) :: segs)) st) (length segs) = Some (Some (s, t))).
      { rewrite Hst. cbn [rev]. rewrite map_app, nth_error_app2 by (rewrite map_length, rev_length; lia).
        rewrite map_length, rev_length, Nat.sub_diag. reflexivity. }
      rewrite nth_error_firstn in E. destruct (_ <? _); [exact E|discriminate]. }
    rewrite (aget_nth _ _ _ Htop). cbn [bind].
    rewrite pivot_start by lia. cbn [bind]. rewrite Nat2Z.id.
    destruct (partition_ok m e s t s Hwf) as (e1 & p & -> & Hwf1 & Hp & Hre & Hlo & Hhi); try lia. cbn [bind].
    assert (Hst' : firstn (length segs) st = map Some (rev segs)).
    { rewrite (firstn_firstn_map Some st _ _ Hst) by (cbn [length]; lia). cbn [rev].
      rewrite firstn_app, rev_length, Nat.sub_diag. cbn [firstn]. rewrite app_nil_r, firstn_all2; [auto|rewrite rev_length; lia]. }
    cbn [length total fst snd] in *.
    assert (Hcap : forall x, 2 * x <= m -> x <= m / 2) by (intros x Hx; apply Nat.div_le_lower_bound; lia).
    (* first push *)
    set (segs1 := if S s <? p then (s, p - 1) :: segs else segs).
    assert (HP1 : exists st1 : stack, (if S s <? p then let! st1 := push st (length segs) (s, p - 1) in Ok (st1, S (length segs))
                    else Ok (st, length segs)) = Ok (st1, length segs1) /\ length st1 = m / 2 /\
                    firstn (length segs1) st1 = map Some (rev segs1)).
    { unfold segs1. destruct (S s <? p) eqn:E1.
      - destruct (push_ok st segs (s, p - 1) (m / 2)) as (st1 & -> & Hl1 & Hf1); auto.
        { apply (Nat.lt_le_trans _ (S (length segs))); [lia|]. apply Hcap. lia. }
        cbn [bind]. exists st1. auto.
      - exists st. auto. }
    destruct HP1 as (st1 & -> & HLst1 & Hst1). cbn [bind].
    set (segs2 := if S p <? t then (S p, t) :: segs1 else segs1).
    assert (Htot1 : total segs1 + (t - p) + 1 <= (t - s + 1) + total segs).
    { unfold segs1. destruct (Nat.ltb_spec (S s) p); cbn [total fst snd]; lia. }
    assert (Hin1 : forall x, In x segs1 -> In x segs \/ (x = (s, p - 1) /\ S s < p)).
    { unfold segs1. intros x. destruct (Nat.ltb_spec (S s) p); [|auto]. intros [<-|]; auto. }
    assert (Hok1 : segs_ok m segs1).
    { unfold segs1. destruct (Nat.ltb_spec (S s) p); [|split; auto]. split.
      - constructor; [cbn [fst snd]; lia|auto].
      - cbn [pw]. split; [|auto]. eapply Forall_impl; [|exact HD]. unfold disj. cbn [fst snd]. intros; lia. }
    assert (Hok2 : segs_ok m segs2).
    { unfold segs2. destruct (Nat.ltb_spec (S p) t); [|auto]. split.
      - constructor; [cbn [fst snd]; lia|apply Hok1].
      - cbn [pw]. split; [|apply Hok1]. apply Forall_forall. intros x Hx. apply Hin1 in Hx.
        destruct Hx as [Hx|[-> Hx]]; unfold disj; cbn [fst snd]; [|lia].
        rewrite Forall_forall in HD. specialize (HD x Hx). unfold disj in HD. cbn [fst snd] in HD. lia. }
    assert (Htot2 : total segs2 < (t - s + 1) + total segs).
    { unfold segs2. destruct (Nat.ltb_spec (S p) t); cbn [total fst snd]; lia. }
    assert (HP2 : exists st2 : stack, (if S p <? t then let! st2 := push st1 (length segs1) (S p, t) in Ok (st2, S (length segs1))
                    else Ok (st1, length segs1)) = Ok (st2, length segs2) /\ length st2 = m / 2 /\
                    firstn (length segs2) st2 = map Some (rev segs2)).
    { unfold segs2 in *. destruct (S p <? t) eqn:E1.
      - destruct (push_ok st1 segs1 (S p, t) (m / 2)) as (st2 & -> & Hl2 & Hf2); auto.
        { apply (Nat.lt_le_trans _ (S (length segs1))); [lia|]. apply Hcap.
          pose proof (total_two m _ Hok2) as HT. cbn [length] in HT. lia. }
        cbn [bind]. exists st2. auto.
      - exists st1. auto. }
    destruct HP2 as (st2 & -> & HLst2 & Hst2). cbn [bind].
    destruct (IH e1 st2 segs2) as (e' & -> & Hwf' & Hre' & Hord'); auto; try lia.
    exists e'. split; [reflexivity|]. split; [auto|]. split.
    { intros H0. eapply rearr_trans; [|exact (Hre' H0)]. eapply rearr_mono; [| |exact Hre]; lia. }
    intros Hn Hord. assert (Hn1 : nonan m e1) by (eapply nonan_rearr; [|exact Hre|exact Hn]; lia).
    apply Hord'; auto.
    (* the order invariant after one partition *)
    intros i j Hij Hjm Hnot.
    assert (Hnot2 : forall x, In x segs -> ~ (fst x <= i /\ j <= snd x)).
    { intros x Hx. apply Hnot. unfold segs2, segs1. destruct (S p <? t), (S s <? p); cbn [In]; auto. }
    assert (Hsub1 : S s < p -> ~ (s <= i /\ j <= p - 1)).
    { intros Hs. apply (Hnot (s, p - 1)). unfold segs2, segs1.
      replace (S s <? p) with true by (symmetry; now apply Nat.ltb_lt). destruct (S p <? t); cbn [In]; auto. }
    assert (Hsub2 : S p < t -> ~ (S p <= i /\ j <= t)).
    { intros Hs. apply (Hnot (S p, t)). unfold segs2.
      replace (S p <? t) with true by (symmetry; now apply Nat.ltb_lt). cbn [In]; auto. }
    rewrite Forall_forall in HD.
    destruct (Nat.le_gt_cases s i) as [Hsi|Hsi]; [destruct (Nat.le_gt_cases i t) as [Hit|Hit]|].
    + destruct (Nat.le_gt_cases j t) as [Hjt|Hjt].
      * apply (around_pivot m e1 s p t); auto; lia.
      * (* i inside, j to the right *)
        destruct (rearr_inside _ _ _ _ i Hre) as (i' & Hi' & Ei); [lia|].
        assert (Ej : edge_at e1 j = edge_at e j) by (apply (rearr_outside s t); auto).
        unfold leq. rewrite (wt_edge _ _ _ _ Ei), (wt_edge _ _ _ _ Ej). apply Hord; [lia|auto|].
        intros x [<-|Hx]; cbn [fst snd]; [lia|].
        specialize (HD x Hx). unfold disj in HD. cbn [fst snd] in HD. intros [H3 H4]. lia.
    + (* both outside *)
      assert (Ei : edge_at e1 i = edge_at e i) by (apply (rearr_outside s t); auto).
      assert (Ej : edge_at e1 j = edge_at e j) by (apply (rearr_outside s t); auto; lia).
      unfold leq. rewrite (wt_edge _ _ _ _ Ei), (wt_edge _ _ _ _ Ej). apply Hord; auto.
      intros x [<-|Hx]; cbn [fst snd]; [lia|auto].
    + assert (Ei : edge_at e1 i = edge_at e i) by (apply (rearr_outside s t); auto).
      destruct (Nat.le_gt_cases s j) as [Hsj|Hsj]; [destruct (Nat.le_gt_cases j t) as [Hjt|Hjt]|].
      * destruct (rearr_inside _ _ _ _ j Hre) as (j' & Hj' & Ej); [lia|].
        unfold leq. rewrite (wt_edge _ _ _ _ Ei), (wt_edge _ _ _ _ Ej). apply Hord; [lia|lia|].
        intros x [<-|Hx]; cbn [fst snd]; [lia|].
        specialize (HD x Hx). unfold disj in HD. cbn [fst snd] in HD. intros [H3 H4]. lia.
      * assert (Ej : edge_at e1 j = edge_at e j) by (apply (rearr_outside s t); auto).
        unfold leq. rewrite (wt_edge _ _ _ _ Ei), (wt_edge _ _ _ _ Ej). apply Hord; auto.
        intros x [<-|Hx]; cbn [fst snd]; [lia|auto].
      * assert (Ej : edge_at e1 j = edge_at e j) by (apply (rearr_outside s t); auto).
        unfold leq. rewrite (wt_edge _ _ _ _ Ei), (wt_edge _ _ _ _ Ej). apply Hord; auto.
        intros x [<-|Hx]; cbn [fst snd]; [lia|auto].
Qed.

Lemma quicksort_stack_ok m e : wf m e ->
  exists e', graph_quicksort_by_edge_weight e = Ok e' /\ wf m e' /\
    rearr 0 (m - 1) (edge_at e) (edge_at e') /\ (nonan m e -> ordered m e' []).
Proof.
  intros Hwf. pose proof Hwf as (_ & _ & Hw). unfold graph_quicksort_by_edge_weight. rewrite Hw.
  destruct (Nat.leb_spec m 1) as [Hm|Hm].
  - exists e. split; [auto|]. split; [auto|]. split; [now apply rearr_refl|]. intros _ i j Hij Hj. lia.
  - destruct (push_ok (repeat None (m / 2)) [] (0, m - 1) (m / 2)) as (st & E & HL & Hst).
    { apply repeat_length. } { reflexivity. }
    { cbn [length]. apply Nat.div_str_pos. lia. }
    cbn [length] in E. rewrite E. cbn [bind].
    destruct (sort_loop_ok m m e st [(0, m - 1)]) as (e' & E' & Hwf' & Hre & Hord); auto.
    { split; [constructor; [cbn [fst snd]; lia|constructor]|cbn [pw]; auto]. }
    { cbn [total fst snd]. lia. } { cbn [total fst snd]. lia. }
    cbn [length] in E'. exists e'. split; [exact E'|]. split; [auto|]. split; [apply Hre; lia|].
    intros Hn. apply Hord; auto. intros i j Hij Hj Hno. exfalso. apply (Hno (0, m - 1)); [now left|cbn [fst snd]; lia].
Qed.

(** ** The recursive version *)
Lemma quicksort_rec_ok m : forall fuel e s t, wf m e -> (0 <= s)%Z -> (t < Z.of_nat m)%Z -> (t - s < Z.of_nat fuel)%Z ->
  exists e', graph_quicksort fuel e s t = Ok e' /\ wf m e' /\
    ((s <= t)%Z -> rearr (Z.to_nat s) (Z.to_nat t) (edge_at e) (edge_at e')) /\ ((t < s)%Z -> e' = e) /\
    (nonan m e -> forall i j, Z.to_nat s <= i -> i < j -> (Z.of_nat j <= t)%Z -> leq e' i j).
Proof.
  induction fuel as [|f IH]; intros e s t Hwf Hs Ht Hf; cbn [graph_quicksort].
  - destruct (Z.ltb_spec s t); [lia|]. exists e. split; [auto|]. split; [auto|]. split; [intros; lia|]. split; [auto|].
    intros _ i j Hi Hij Hj. lia.
  - destruct (Z.ltb_spec s t) as [Hst|Hst].
    2:{ exists e. split; [auto|]. split; [auto|]. split; [intros; now apply rearr_refl|]. split; [auto|].
        intros _ i j Hi Hij Hj. lia. }
    rewrite pivot_start by lia. cbn [bind].
    destruct (partition_ok m e (Z.to_nat s) (Z.to_nat t) (Z.to_nat s) Hwf) as (e1 & p & -> & Hwf1 & Hp & Hre & Hlo & Hhi); try lia.
    cbn [bind].
    destruct (IH e1 s (Z.of_nat p - 1)%Z Hwf1) as (e2 & -> & Hwf2 & Hre2 & Hsame2 & Hord2); try lia. cbn [bind].
    destruct (IH e2 (Z.of_nat p + 1)%Z t Hwf2) as (e3 & -> & Hwf3 & Hre3 & Hsame3 & Hord3); try lia.
    exists e3. split; [reflexivity|]. split; [auto|].
    set (lo := Z.to_nat s) in *. set (hi := Z.to_nat t) in *.
    assert (R2 : rearr lo (p - 1) (edge_at e1) (edge_at e2)).
    { destruct (Z.le_gt_cases s (Z.of_nat p - 1)).
      - replace (p - 1) with (Z.to_nat (Z.of_nat p - 1)) by lia. auto.
      - rewrite Hsame2 by lia. now apply rearr_refl. }
    assert (R3 : rearr (S p) hi (edge_at e2) (edge_at e3)).
    { destruct (Z.le_gt_cases (Z.of_nat p + 1) t).
      - replace (S p) with (Z.to_nat (Z.of_nat p + 1)) by lia. auto.
      - rewrite Hsame3 by lia. now apply rearr_refl. }
    split; [|split; [intros; lia|]].
    { intros _. eapply rearr_trans; [exact Hre|]. eapply rearr_trans.
      - eapply rearr_mono; [| |exact R2]; lia.
      - eapply rearr_mono; [| |exact R3]; lia. }
    intros Hn i j Hi Hij Hj.
    assert (Hn1 : nonan m e1) by (eapply nonan_rearr; [|exact Hre|exact Hn]; lia).
    assert (Hn2 : nonan m e2) by (eapply nonan_rearr; [|exact R2|exact Hn1]; lia).
    (* positions relative to the pivot *)
    assert (Hleft : forall k, lo <= k < p -> wt e3 k = wt e2 k).
    { intros k Hk. apply wt_edge. apply (rearr_outside (S p) hi); auto. lia. }
    assert (Hsrc2 : forall k, lo <= k < p -> exists k', lo <= k' < p /\ wt e2 k = wt e1 k').
    { intros k Hk. destruct (rearr_inside _ _ _ _ k R2) as (k' & Hk' & E); [lia|]. exists k'. split; [lia|]. now apply wt_edge. }
    assert (Hpiv2 : wt e2 p = wt e1 p).
    { destruct (Nat.eq_dec p lo) as [->|Hpl].
      - rewrite Hsame2 by lia. reflexivity.
      - apply wt_edge. apply (rearr_outside lo (p - 1)); auto. lia. }
    assert (Hpiv : wt e3 p = wt e1 p).
    { rewrite <- Hpiv2. apply wt_edge. apply (rearr_outside (S p) hi); auto. }
    assert (Hright : forall k, p < k <= hi -> exists k', p < k' <= hi /\ wt e3 k = wt e1 k').
    { intros k Hk. destruct (rearr_inside _ _ _ _ k R3) as (k' & Hk' & E); [lia|]. exists k'. split; [lia|].
      rewrite (wt_edge _ _ _ _ E). apply wt_edge. apply (rearr_outside lo (p - 1)); auto. lia. }
    assert (Hn3 : nonan m e3) by (eapply nonan_rearr; [|exact R3|exact Hn2]; lia).
    destruct (Nat.lt_ge_cases j p) as [Hjp|Hjp].
    { unfold leq. rewrite !Hleft by lia. apply Hord2; auto; lia. }
    destruct (Nat.lt_ge_cases p i) as [Hpi|Hpi].
    { apply Hord3; auto; lia. }
    apply (around_pivot m e3 lo p hi); auto; try lia.
    + intros k Hk. rewrite (Hleft k Hk), Hpiv. destruct (Hsrc2 k Hk) as (k' & Hk' & ->). auto.
    + intros k Hk. rewrite Hpiv. destruct (Hright k Hk) as (k' & Hk' & ->). auto.
Qed.

(** ** Adjacency lists *)
Definition nbrs_of (a b v : nat) : list nat :=
  (if a =? v then [b] else []) ++ (if negb (a =? b) && (b =? v) then [a] else []).
Definition nbrs (ab : list (nat * nat)) (v : nat) : list nat := flat_map (fun x => nbrs_of (fst x) (snd x) v) ab.

Lemma append_to_ok adj v x : v < length adj ->
  exists adj', append_to adj v x = Ok adj' /\ length adj' = length adj /\
    forall u, nth u adj' [] = nth u adj [] ++ (if v =? u then [x] else []).
Proof.
  intros Hv. unfold append_to. rewrite (aget_in adj v []) by auto. cbn [bind]. rewrite aset_ok by auto.
  eexists. split; [reflexivity|]. rewrite upd_length. split; auto. intros u. rewrite nth_upd_in by auto.
  destruct (Nat.eqb_spec v u) as [->|]; [auto|now rewrite app_nil_r].
Qed.

Lemma graph_init_ok n e m : wf m e -> (forall i, i < m -> nth i (e_a e) 0 < n /\ nth i (e_b e) 0 < n) ->
  exists adj, graph_init n e = Ok adj /\ length adj = n /\
    forall v, nth v adj [] = nbrs (combine (e_a e) (e_b e)) v.
Proof.
  intros (Ha & Hb & _) Hr. unfold graph_init. rewrite Ha.
  set (ab := combine (e_a e) (e_b e)).
  assert (Hlab : length ab = m) by (unfold ab; rewrite combine_length; lia).
  destruct (for_up_inv (fun i adj => length adj = n /\ forall v, nth v adj [] = nbrs (firstn i ab) v)
    (graph_add e) 0 m (repeat [] n)) as (adj & -> & HL & H).
  - split; [apply repeat_length|]. intros v. cbn [firstn nbrs flat_map]. apply nth_repeat_all.
  - intros i adj Hi (HL & H). unfold graph_add. destruct (Hr i ltac:(lia)) as [H1 H2].
    rewrite (aget_in (e_a e) i 0), (aget_in (e_b e) i 0) by lia. cbn [bind].
    set (a := nth i (e_a e) 0) in *. set (b := nth i (e_b e) 0) in *.
    assert (Hnext : forall v, nbrs (firstn (S i) ab) v = nbrs (firstn i ab) v ++ nbrs_of a b v).
    { intros v. unfold nbrs.
      assert (E : firstn (S i) ab = firstn i ab ++ [(a, b)]).
      { apply nth_error_ext. intros k. rewrite nth_error_firstn.
        destruct (Nat.ltb_spec k (S i)).
        - destruct (Nat.eq_dec k i) as [->|].
          + rewrite nth_error_app2 by (rewrite firstn_length; lia). rewrite firstn_length.
            replace (i - Nat.min i (length ab)) with 0 by lia. cbn [nth_error].
            rewrite (nth_error_nth' _ (0, 0)) by lia. unfold ab. now rewrite combine_nth by lia.
          + rewrite nth_error_app1 by (rewrite firstn_length; lia). rewrite nth_error_firstn.
            now replace (k <? i) with true by (symmetry; apply Nat.ltb_lt; lia).
        - symmetry. apply nth_error_None. rewrite app_length, firstn_length. cbn [length]. lia. }
      rewrite E, flat_map_app. cbn [flat_map fst snd]. now rewrite app_nil_r. }
    destruct (append_to_ok adj a b) as (adj1 & -> & HL1 & E1); [lia|]. cbn [bind].
    destruct (Nat.eqb_spec a b) as [Eab|Hne].
    + exists adj1. split; [auto|]. split; [lia|]. intros v. rewrite E1, H, Hnext. unfold nbrs_of.
      rewrite (proj2 (Nat.eqb_eq a b) Eab). cbn [negb andb]. now rewrite app_nil_r.
    + destruct (append_to_ok adj1 b a) as (adj2 & -> & HL2 & E2); [lia|].
      exists adj2. split; [auto|]. split; [lia|]. intros v. rewrite E2, E1, H, Hnext. unfold nbrs_of.
      apply Nat.eqb_neq in Hne. rewrite Hne. cbn [negb andb]. now rewrite app_assoc.
  - exists adj. split; [auto|]. split; [auto|]. intros v. rewrite H. cbn [plus]. now rewrite firstn_all2 by lia.
Qed.

Lemma remove_first_count x y l : count_occ Nat.eq_dec (remove_first x l) y =
  if x =? y then count_occ Nat.eq_dec l y - 1 else count_occ Nat.eq_dec l y.
Proof.
  induction l as [|z l IH]; cbn [remove_first]; [destruct (x =? y); reflexivity|].
  destruct (Nat.eqb_spec x z) as [->|Hxz].
  - cbn [count_occ]. destruct (Nat.eq_dec z y) as [->|Hzy].
    + rewrite Nat.eqb_refl. lia.
    + now rewrite (proj2 (Nat.eqb_neq z y) Hzy).
  - cbn [count_occ]. rewrite IH. destruct (Nat.eq_dec z y) as [->|Hzy]; [|auto].
    now rewrite (proj2 (Nat.eqb_neq x y) Hxz).
Qed.

Lemma remove_edge_ok adj a b n : length adj = n -> a < n -> b < n ->
  exists adj', graph_remove_edge adj a b = Ok adj' /\ length adj' = n /\
    (a <> b -> forall v, nth v adj' [] = if a =? v then remove_first b (nth a adj [])
                                        else if b =? v then remove_first a (nth b adj []) else nth v adj []) /\
    (a = b -> forall v, nth v adj' [] = if a =? v then remove_first a (remove_first a (nth a adj [])) else nth v adj []).
Proof.
  intros HL Ha Hb. unfold graph_remove_edge. rewrite (aget_in adj a []) by lia. cbn [bind].
  rewrite aset_ok by lia. cbn [bind]. rewrite (aget_in _ b []) by (rewrite upd_length; lia). cbn [bind].
  rewrite aset_ok by (rewrite upd_length; lia). eexists. split; [reflexivity|]. rewrite !upd_length. split; [auto|].
  split.
  - intros Hne v. rewrite !nth_upd_in by (rewrite ?upd_length; lia). rewrite (proj2 (Nat.eqb_neq a b) Hne).
    destruct (Nat.eqb_spec b v), (Nat.eqb_spec a v); subst; reflexivity || congruence.
  - intros <- v. rewrite !nth_upd_in by (rewrite ?upd_length; lia). rewrite Nat.eqb_refl. now destruct (a =? v).
Qed.
