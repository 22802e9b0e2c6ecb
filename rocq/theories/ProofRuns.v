(** The hash table refines the runs of SpecRuns.v. *)
From Coq Require Import Permutation Sorted.
From Verif Require Import Base ListFacts ModelArrayList SpecSeq ProofArrayList
     ModelCells CellFacts ModelHash SpecMap ProofHash SpecRuns.
Local Open Scope nat_scope.

(** *** Cells *)
Section Cells.
Context {A : Type}.
Notation heap := (heap A).

(** Allocated cells. *)
Definition live (h : heap) : nat := length (filter (fun o => match o with Some _ => true | None => false end) h).

Lemma live_alloc (h : heap) c : live (h ++ [Some c]) = S (live h).
Proof. unfold live. rewrite filter_app, app_length. cbn. lia. Qed.

Lemma live_upd (h : heap) : forall a c0 c, nth_error h a = Some (Some c0) -> live (upd h a (Some c)) = live h.
Proof.
  unfold live. induction h as [|o h IH]; intros [|a] c0 c H; cbn in *; try discriminate.
  - inversion H; subst. reflexivity.
  - destruct o; cbn; rewrite (IH _ _ _ H); reflexivity.
Qed.

Lemma live_free (h : heap) : forall a c0, nth_error h a = Some (Some c0) -> S (live (upd h a None)) = live h.
Proof.
  unfold live. induction h as [|o h IH]; intros [|a] c0 H; cbn in *; try discriminate.
  - inversion H; subst. reflexivity.
  - destruct o; cbn; rewrite <- (IH _ _ H); reflexivity.
Qed.

Fixpoint prevs (h : heap) (pr : option nat) (r : list (nat * A)) : Prop :=
  match r with
  | [] => True
  | (a, _) :: t => (exists v n, nth_error h a = Some (Some (Cell v n pr))) /\ prevs h (Some a) t
  end.

Lemma prevs_app h pr l1 l2 : prevs h pr (l1 ++ l2) <-> prevs h pr l1 /\ prevs h (lastp pr l1) l2.
Proof.
  revert pr; induction l1 as [|[a v] t IH]; intros pr; cbn [app prevs lastp]; [tauto|]. rewrite IH. tauto.
Qed.

Lemma prevs_keep h h' r : forall pr,
  (forall a v n p, In a (map fst r) -> nth_error h a = Some (Some (Cell v n p)) ->
                   exists v' n', nth_error h' a = Some (Some (Cell v' n' p))) ->
  prevs h pr r -> prevs h' pr r.
Proof.
  induction r as [|[a x] t IH]; cbn; intros pr He H; auto.
  destruct H as [(v & n & H1) H2]. split; [apply (He _ _ _ _ (or_introl eq_refl) H1)|]. apply IH; auto.
  intros b v' n' p' Hb. apply He; auto.
Qed.

Lemma nseg_keep (h h' : heap) cs q :
  (forall a v n p, In a (map fst cs) -> nth_error h a = Some (Some (Cell v n p)) ->
                   exists p', nth_error h' a = Some (Some (Cell v n p'))) ->
  nseg h cs q -> nseg h' cs q.
Proof.
  induction cs as [|[a x] t IH]; cbn; intros He H; auto.
  destruct H as [[p H1] H2]. split; [apply (He _ _ _ _ (or_introl eq_refl) H1)|]. apply IH; auto.
  intros b v' n' p' Hb. apply He; auto.
Qed.

Lemma nseg_in (h : heap) cs q a x : nseg h cs q -> In (a, x) cs -> exists n p, nth_error h a = Some (Some (Cell x n p)).
Proof.
  induction cs as [|[b y] t IH]; cbn; intros H Hin; [destruct Hin|]. destruct Hin as [E|Hin].
  - inversion E; subst. destruct H as [[p H] _]. eauto.
  - apply IH; tauto.
Qed.

(** hashtable_remove's unlinking, cell by cell. *)
Lemma unlink_cells (h : heap) (table : list (option nat)) bucket a x n p :
  nth_error h a = Some (Some (Cell x n p)) ->
  (forall b, p = Some b -> b <> a /\ exists y n' p', nth_error h b = Some (Some (Cell y n' p'))) ->
  (forall b, n = Some b -> b <> a /\ p <> Some b /\ exists y n' p', nth_error h b = Some (Some (Cell y n' p'))) ->
  bucket < length table ->
  exists h' h'',
    (let! q :=
        (if negb (is_null p) then
           let! h := set_next h p n in
           let! h := set_prev h (Some a) None in
           Ok (h, table)
         else
           let! table := aset table bucket n in
           let! h := (if is_null n then Ok h else set_prev h n None) in
           Ok (h, table)) in
     let! c1 := hload (fst q) (Some a) in
     let! h :=
        (if negb (is_null (c_next c1)) then
           let! h := set_prev (fst q) (c_next c1) (c_prev c1) in
           set_next h (Some a) None
         else if negb (is_null (c_prev c1)) then set_next (fst q) (c_prev c1) None
         else Ok (fst q)) in
     Ok (h, snd q)) = Ok (h', if is_null p then upd table bucket n else table) /\
    hfree h' (Some a) = Ok h'' /\ length h'' = length h /\ S (live h'') = live h /\
    nth_error h'' a = Some None /\
    (forall b y n' p', p = Some b -> nth_error h b = Some (Some (Cell y n' p')) -> nth_error h'' b = Some (Some (Cell y n p'))) /\
    (forall b y n' p', n = Some b -> nth_error h b = Some (Some (Cell y n' p')) -> nth_error h'' b = Some (Some (Cell y n' None))) /\
    (forall b, b <> a -> p <> Some b -> n <> Some b -> nth_error h'' b = nth_error h b).
Proof.
  intros Ha Hp Hn Hb.
  assert (La : a < length h) by (eapply some_lt; eauto).
  destruct p as [b|]; cbn [is_null negb].
  - destruct (Hp b eq_refl) as (Nb & y & n' & p' & Eb).
    assert (Lb : b < length h) by (eapply some_lt; eauto).
    rewrite (set_next_eq _ _ _ _ _ n Eb). cbn [bind].
    set (h1 := upd h b (Some (Cell y n p'))).
    assert (E1 : nth_error h1 a = Some (Some (Cell x n (Some b)))) by (unfold h1; rewrite nth_error_upd_neq by auto; exact Ha).
    rewrite (set_prev_eq _ _ _ _ _ None E1). cbn [bind fst snd].
    set (h2 := upd h1 a (Some (Cell x n None))).
    assert (L1 : length h1 = length h) by (unfold h1; apply upd_length).
    assert (L2 : length h2 = length h) by (unfold h2; rewrite upd_length; exact L1).
    assert (E2 : nth_error h2 a = Some (Some (Cell x n None))) by (unfold h2; rewrite nth_error_upd_eq by lia; reflexivity).
    assert (V1 : live h1 = live h) by (unfold h1; eapply live_upd; eauto).
    assert (V2 : live h2 = live h) by (unfold h2; erewrite live_upd by eauto; exact V1).
    rewrite (hload_eq _ _ _ E2). cbn [bind c_next c_prev].
    destruct n as [c|]; cbn [is_null negb].
    + destruct (Hn c eq_refl) as (Nc & Nbc & z & n2 & p2 & Ec).
      assert (Hbc : b <> c) by congruence.
      assert (Lc : c < length h) by (eapply some_lt; eauto).
      assert (E3 : nth_error h2 c = Some (Some (Cell z n2 p2))).
      { unfold h2, h1. rewrite !nth_error_upd_neq by auto. exact Ec. }
      rewrite (set_prev_eq _ _ _ _ _ None E3). cbn [bind].
      set (h3 := upd h2 c (Some (Cell z n2 None))).
      assert (E4 : nth_error h3 a = Some (Some (Cell x (Some c) None))) by (unfold h3; rewrite nth_error_upd_neq by auto; exact E2).
      rewrite (set_next_eq _ _ _ _ _ None E4). cbn [bind].
      set (h4 := upd h3 a (Some (Cell x None None))).
      assert (L3 : length h3 = length h) by (unfold h3; rewrite upd_length; exact L2).
      assert (L4 : length h4 = length h) by (unfold h4; rewrite upd_length; exact L3).
      assert (E5 : nth_error h4 a = Some (Some (Cell x None None))) by (unfold h4; rewrite nth_error_upd_eq by lia; reflexivity).
      assert (V3 : live h3 = live h) by (unfold h3; erewrite live_upd by eauto; exact V2).
      assert (V4 : live h4 = live h) by (unfold h4; erewrite live_upd by eauto; exact V3).
      exists h4, (upd h4 a None). split; [reflexivity|]. split; [eapply hfree_eq; eauto|].
      split; [rewrite upd_length; exact L4|]. split; [erewrite live_free by eauto; exact V4|].
      split; [rewrite nth_error_upd_eq by lia; reflexivity|].
      split; [|split].
      * intros b0 y0 n0 p0 E0 Eb0. inversion E0; subst b0. rewrite Eb in Eb0. inversion Eb0; subst.
        unfold h4, h3, h2, h1. rewrite !nth_error_upd_neq by auto. rewrite nth_error_upd_eq by lia. reflexivity.
      * intros b0 y0 n0 p0 E0 Eb0. inversion E0; subst b0. rewrite Ec in Eb0. inversion Eb0; subst.
        unfold h4, h3. rewrite !nth_error_upd_neq by auto. rewrite nth_error_upd_eq by lia. reflexivity.
      * intros b0 N1 N2 N3. unfold h4, h3, h2, h1. rewrite !nth_error_upd_neq by congruence. reflexivity.
    + exists h2, (upd h2 a None). split; [reflexivity|]. split; [eapply hfree_eq; eauto|].
      split; [rewrite upd_length; exact L2|]. split; [erewrite live_free by eauto; exact V2|].
      split; [rewrite nth_error_upd_eq by lia; reflexivity|].
      split; [|split].
      * intros b0 y0 n0 p0 E0 Eb0. inversion E0; subst b0. rewrite Eb in Eb0. inversion Eb0; subst.
        unfold h2, h1. rewrite !nth_error_upd_neq by auto. rewrite nth_error_upd_eq by lia. reflexivity.
      * intros b0 y0 n0 p0 E0. discriminate.
      * intros b0 N1 N2 N3. unfold h2, h1. rewrite !nth_error_upd_neq by congruence. reflexivity.
  - rewrite (aset_ok _ _ _ Hb). cbn [bind].
    destruct n as [c|]; cbn [is_null negb].
    + destruct (Hn c eq_refl) as (Nc & _ & z & n2 & p2 & Ec).
      assert (Lc : c < length h) by (eapply some_lt; eauto).
      rewrite (set_prev_eq _ _ _ _ _ None Ec). cbn [bind fst snd].
      set (h1 := upd h c (Some (Cell z n2 None))).
      assert (E1 : nth_error h1 a = Some (Some (Cell x (Some c) None))) by (unfold h1; rewrite nth_error_upd_neq by auto; exact Ha).
      rewrite (hload_eq _ _ _ E1). cbn [bind c_next c_prev is_null negb].
      assert (L1 : length h1 = length h) by (unfold h1; apply upd_length).
      assert (E2 : nth_error h1 c = Some (Some (Cell z n2 None))) by (unfold h1; rewrite nth_error_upd_eq by lia; reflexivity).
      rewrite (set_prev_eq _ _ _ _ _ None E2). cbn [bind].
      set (h2 := upd h1 c (Some (Cell z n2 None))).
      assert (E3 : nth_error h2 a = Some (Some (Cell x (Some c) None))) by (unfold h2; rewrite nth_error_upd_neq by auto; exact E1).
      rewrite (set_next_eq _ _ _ _ _ None E3). cbn [bind].
      set (h3 := upd h2 a (Some (Cell x None None))).
      assert (L2 : length h2 = length h) by (unfold h2; rewrite upd_length; exact L1).
      assert (L3 : length h3 = length h) by (unfold h3; rewrite upd_length; exact L2).
      assert (E4 : nth_error h3 a = Some (Some (Cell x None None))) by (unfold h3; rewrite nth_error_upd_eq by lia; reflexivity).
      assert (V1 : live h1 = live h) by (unfold h1; eapply live_upd; eauto).
      assert (V2 : live h2 = live h) by (unfold h2; erewrite live_upd by eauto; exact V1).
      assert (V3 : live h3 = live h) by (unfold h3; erewrite live_upd by eauto; exact V2).
      exists h3, (upd h3 a None). split; [reflexivity|]. split; [eapply hfree_eq; eauto|].
      split; [rewrite upd_length; exact L3|]. split; [erewrite live_free by eauto; exact V3|].
      split; [rewrite nth_error_upd_eq by lia; reflexivity|].
      split; [|split].
      * intros b0 y0 n0 p0 E0. discriminate.
      * intros b0 y0 n0 p0 E0 Eb0. inversion E0; subst b0. rewrite Ec in Eb0. inversion Eb0; subst.
        unfold h3, h2. rewrite !nth_error_upd_neq by auto. rewrite nth_error_upd_eq by lia. reflexivity.
      * intros b0 N1 N2 N3. unfold h3, h2, h1. rewrite !nth_error_upd_neq by congruence. reflexivity.
    + cbn [bind fst snd]. rewrite (hload_eq _ _ _ Ha). cbn [bind c_next c_prev is_null negb].
      exists h, (upd h a None). split; [reflexivity|]. split; [eapply hfree_eq; eauto|].
      split; [rewrite upd_length; reflexivity|]. split; [eapply live_free; eauto|].
      split; [rewrite nth_error_upd_eq by lia; reflexivity|].
      split; [|split].
      * intros b0 y0 n0 p0 E0. discriminate.
      * intros b0 y0 n0 p0 E0. discriminate.
      * intros b0 N1 N2 N3. rewrite nth_error_upd_neq by congruence. reflexivity.
Qed.

(** hashtable_insert's linking of a fresh entry, cell by cell. *)
Lemma push_cells (h : heap) x front :
  (forall b, front = Some b -> exists y n p, nth_error h b = Some (Some (Cell y n p))) ->
  let (h1, e) := halloc h (Cell x None None) in
  exists h', (if is_null front then Ok h1
              else let! h := set_next h1 (Some e) front in set_prev h front (Some e)) = Ok h' /\
    e = length h /\ length h' = S (length h) /\ live h' = S (live h) /\
    nth_error h' e = Some (Some (Cell x front None)) /\
    (forall b y n p, front = Some b -> nth_error h b = Some (Some (Cell y n p)) -> nth_error h' b = Some (Some (Cell y n (Some e)))) /\
    (forall b, b < length h -> front <> Some b -> nth_error h' b = nth_error h b).
Proof.
  intros Hf. unfold halloc. set (h1 := h ++ [Some (Cell x None None)]).
  assert (L1 : length h1 = S (length h)) by (unfold h1; rewrite app_length; cbn; lia).
  assert (V1 : live h1 = S (live h)) by (unfold h1; apply live_alloc).
  assert (E1 : nth_error h1 (length h) = Some (Some (Cell x None None))).
  { unfold h1. rewrite nth_error_app2, Nat.sub_diag by lia. reflexivity. }
  assert (O1 : forall b, b < length h -> nth_error h1 b = nth_error h b).
  { intros b Hb. unfold h1. apply nth_error_app1. exact Hb. }
  destruct front as [b|]; cbn [is_null].
  - destruct (Hf b eq_refl) as (y & n & p & Eb).
    assert (Lb : b < length h) by (eapply some_lt; eauto).
    rewrite (set_next_eq _ _ _ _ _ (Some b) E1). cbn [bind].
    set (h2 := upd h1 (length h) (Some (Cell x (Some b) None))).
    assert (E2 : nth_error h2 b = Some (Some (Cell y n p))).
    { unfold h2. rewrite nth_error_upd_neq by lia. rewrite O1 by exact Lb. exact Eb. }
    rewrite (set_prev_eq _ _ _ _ _ (Some (length h)) E2).
    eexists; split; [reflexivity|]. split; [reflexivity|].
    split; [rewrite upd_length; unfold h2; rewrite upd_length; exact L1|].
    split; [erewrite live_upd by eauto; unfold h2; erewrite live_upd by eauto; exact V1|].
    split; [rewrite nth_error_upd_neq by lia; unfold h2; rewrite nth_error_upd_eq by lia; reflexivity|].
    split.
    + intros b0 y0 n0 p0 E0 Eb0. inversion E0; subst b0. rewrite Eb in Eb0. inversion Eb0; subst.
      rewrite nth_error_upd_eq; [reflexivity|]. unfold h2. rewrite upd_length. lia.
    + intros b0 Hb0 Nb. rewrite nth_error_upd_neq by congruence. unfold h2. rewrite nth_error_upd_neq by lia. apply O1. exact Hb0.
  - eexists; split; [reflexivity|]. split; [reflexivity|]. split; [exact L1|]. split; [exact V1|]. split; [exact E1|].
    split; [intros b y n p E0; discriminate|]. intros b Hb _. apply O1. exact Hb.
Qed.
End Cells.

Lemma option_eq_dec_nat (n : option nat) b : {n = Some b} + {n <> Some b}.
Proof. destruct n as [c|]; [|right; discriminate]. destruct (Nat.eq_dec c b) as [->|N]; [left; reflexivity|right; congruence]. Qed.

Lemma rev_case {A} (l : list A) : l = [] \/ exists l0 x, l = l0 ++ [x].
Proof.
  destruct l as [|y l]; [auto|right]. destruct (exists_last (l := y :: l)) as (l0 & x & E); [discriminate|eauto].
Qed.

Lemma nth_error_ext_eq {A} (l1 : list A) : forall l2, (forall i, nth_error l1 i = nth_error l2 i) -> l1 = l2.
Proof.
  induction l1 as [|x l1 IH]; intros [|y l2] H; [reflexivity|specialize (H 0); discriminate|specialize (H 0); discriminate|].
  pose proof (H 0) as H0. cbn in H0. inversion H0; subst. f_equal. apply IH. intros i. exact (H (S i)).
Qed.

Lemma NoDup_app_join {A} (l1 l2 : list A) : NoDup l1 -> NoDup l2 -> (forall x, In x l1 -> ~ In x l2) -> NoDup (l1 ++ l2).
Proof.
  induction l1 as [|x l1 IH]; intros H1 H2 Hd; [exact H2|]. inversion H1; subst. cbn. constructor.
  - rewrite in_app_iff. intros [H|H]; [contradiction|]. exact (Hd x (or_introl eq_refl) H).
  - apply IH; auto. intros y Hy. apply Hd. cbn. auto.
Qed.

Lemma flat_map_nil {A C} (f : A -> list C) l : (forall x, In x l -> f x = []) -> flat_map f l = [].
Proof. induction l as [|x l IH]; intros H; [reflexivity|]. cbn. rewrite (H x) by (cbn; auto). apply IH. intros y Hy. apply H. cbn. auto. Qed.

(** *** Runs *)
Section Runs.
Context {K : Type}.
Variable compare : K -> K -> Z.
Variable hash : K -> nat -> nat.
Hypothesis TO : total_order compare.
Hypothesis hash_lt : forall k b, 0 < b -> hash k b < b.
Notation before := (before compare).
Notation eqk := (eqk compare).
Notation entry := (nat * (K * bytes))%type.

Definition content (rs : list (list entry)) : list run := map (map snd) rs.
Definition addrs (rs : list (list entry)) : list nat := map fst (concat rs).
Definition ekey (x : entry) : K := fst (snd x).

Definition bucket_ok (h : heap (K * bytes)) (rs : list (list entry)) : Prop :=
  nseg h (concat rs) None /\ NoDup (addrs rs) /\ NoDup (map ekey (concat rs)) /\
  Forall (fun r => r <> [] /\ prevs h None r) rs.

Lemma bucket_ext h h' rs : (forall a, In a (addrs rs) -> nth_error h' a = nth_error h a) -> bucket_ok h rs -> bucket_ok h' rs.
Proof.
  intros He (H1 & H2 & H3 & H4). split; [exact (nseg_ext _ _ _ _ He H1)|]. split; [exact H2|]. split; [exact H3|].
  apply Forall_forall. intros r Hr. rewrite Forall_forall in H4. destruct (H4 r Hr) as [Hn Hp]. split; [exact Hn|].
  apply prevs_keep with (2 := Hp). intros a v n p Ha E. rewrite He; [eauto|].
  unfold addrs. rewrite in_map_iff in *. destruct Ha as (x & <- & Hx). exists x. split; [reflexivity|]. apply in_concat. eauto.
Qed.

Lemma bucket_lt h rs a : bucket_ok h rs -> In a (addrs rs) -> a < length h.
Proof. intros (H1 & _). apply nseg_lt with (q := None). exact H1. Qed.

Definition linv (t : htable K) (rs : nat -> list (list entry)) (lk : list K) : Prop :=
  let B := ht_buckets t in
  0 < B /\
  (forall i, i < B -> nth_error (ht_table t) i = Some (firstp (concat (rs i)) None)) /\
  (forall i, i < B -> bucket_ok (ht_heap t) (rs i)) /\
  (forall i j a, i < B -> j < B -> In a (addrs (rs i)) -> In a (addrs (rs j)) -> i = j) /\
  (forall i x, i < B -> In x (concat (rs i)) -> hash (ekey x) B = i /\ length (snd (snd x)) = ht_dsize t /\ In (ekey x) lk) /\
  rep (ht_keys t) lk /\ StronglySorted before lk /\
  ht_size t = Z.of_nat (live (ht_heap t)) /\ 2 <= al_max (ht_keys t).

Lemma linv_update t rs lk h' table' size' coll' al' lk' ks i0 rs' :
  linv t rs lk -> i0 < ht_buckets t ->
  length table' = ht_buckets t -> nth_error table' i0 = Some (firstp (concat rs') None) ->
  (forall i, i <> i0 -> nth_error table' i = nth_error (ht_table t) i) ->
  bucket_ok h' rs' ->
  (forall a, In a (addrs rs') -> In a (addrs (rs i0)) \/ length (ht_heap t) <= a) ->
  (forall a, ~ In a (addrs (rs i0)) -> a < length (ht_heap t) -> nth_error h' a = nth_error (ht_heap t) a) ->
  (forall x, In x (concat rs') -> hash (ekey x) (ht_buckets t) = i0 /\ length (snd (snd x)) = ht_dsize t /\ In (ekey x) lk') ->
  (forall i x, i < ht_buckets t -> i <> i0 -> In x (concat (rs i)) -> In (ekey x) lk') ->
  rep al' lk' -> StronglySorted before lk' -> size' = Z.of_nat (live h') -> 2 <= al_max al' ->
  linv (HT h' table' size' coll' al' ks (ht_dsize t)) (fun i => if Nat.eqb i i0 then rs' else rs i) lk'.
Proof.
  intros (HB & Ht & Hb & Hd & Hx & _) Hi Hlen Hn0 Hn Hok Had Hout Hx' Hx'' Hrep Hs Hsz Hmx.
  unfold linv. cbv zeta. unfold ht_buckets at 1 2 3 4 5 6. cbn [ht_table ht_heap ht_keys ht_size ht_dsize]. rewrite Hlen.
  assert (HBk : ht_buckets (HT h' table' size' coll' al' ks (ht_dsize t)) = ht_buckets t) by exact Hlen.
  assert (Hsep : forall i a, i < ht_buckets t -> i <> i0 -> In a (addrs (rs i)) -> ~ In a (addrs (rs i0)) /\ a < length (ht_heap t)).
  { intros i a Li Ni Ha. split; [|exact (bucket_lt _ _ _ (Hb i Li) Ha)]. intros Ha'. apply Ni. exact (Hd i i0 a Li Hi Ha Ha'). }
  split; [exact HB|]. split.
  { intros i Li. destruct (Nat.eqb_spec i i0) as [E|N]; [subst; exact Hn0|]. rewrite Hn by exact N. apply Ht. exact Li. }
  split.
  { intros i Li. destruct (Nat.eqb_spec i i0) as [E|N]; [exact Hok|]. apply bucket_ext with (2 := Hb i Li).
    intros a Ha. destruct (Hsep i a Li N Ha). apply Hout; assumption. }
  split.
  { intros i j a Li Lj. destruct (Nat.eqb_spec i i0) as [Ei|Ni], (Nat.eqb_spec j i0) as [Ej|Nj]; intros Hai Haj.
    - congruence.
    - destruct (Hsep j a Lj Nj Haj) as [N1 N2]. destruct (Had a Hai); [contradiction|lia].
    - destruct (Hsep i a Li Ni Hai) as [N1 N2]. destruct (Had a Haj); [contradiction|lia].
    - exact (Hd i j a Li Lj Hai Haj). }
  split.
  { intros i x Li Hin. rewrite HBk. destruct (Nat.eqb_spec i i0) as [E|N]; [subst; exact (Hx' x Hin)|].
    destruct (Hx i x Li Hin) as (E1 & E2 & _). split; [exact E1|]. split; [exact E2|]. exact (Hx'' i x Li N Hin). }
  auto.
Qed.

(** Finding an entry. *)
Lemma lookup_entry_loose t rs lk k : linv t rs lk ->
  hashtable_lookup_entry compare hash t k =
  Ok (option_map fst (find (fun x => eqk (ekey x) k) (concat (rs (hash k (ht_buckets t)))))).
Proof.
  intros (HB & Ht & Hb & _). pose proof (hash_lt k _ HB) as Hi.
  unfold hashtable_lookup_entry. rewrite (aget_nth _ _ _ (Ht _ Hi)). cbn [bind].
  destruct (Hb _ Hi) as (Hs & Hd & _). apply (find_cell_ok (fun kv => (compare (fst kv) k =? 0)%Z) _ _ Hs).
  pose proof (nseg_length _ _ _ Hs Hd). lia.
Qed.

Lemma find_content k (cs : list entry) :
  option_map snd (find (fun e : K * bytes => eqk (fst e) k) (map snd cs)) =
  option_map (fun x => snd (snd x)) (find (fun x => eqk (ekey x) k) cs).
Proof. induction cs as [|[a [k' v]] cs IH]; [reflexivity|]. cbn. destruct (eqk k' k); [reflexivity|exact IH]. Qed.

Lemma concat_content rs : concat (content rs) = map snd (concat rs).
Proof. unfold content. now rewrite concat_map. Qed.

(** An entry found in a bucket splits its runs. *)
Lemma in_runs (rs : list (list entry)) x : In x (concat rs) ->
  exists pre l1 l2 post, rs = pre ++ (l1 ++ x :: l2) :: post.
Proof.
  intros H. apply in_concat in H. destruct H as (r & Hr & Hx).
  apply in_split in Hr. destruct Hr as (pre & post & ->). apply in_split in Hx. destruct Hx as (l1 & l2 & ->). eauto.
Qed.

Definition open_run {A} (r : list A) : list (list A) := match r with [] => [] | _ => [r] end.
Lemma concat_open {A} (r : list A) : concat (open_run r) = r.
Proof. destruct r; [reflexivity|]. cbn. now rewrite app_nil_r. Qed.

Definition taken (pre : list (list entry)) (l1 l2 : list entry) (post : list (list entry)) : list (list entry) :=
  match l1 with [] => open_run l2 ++ post | _ => pre ++ l1 :: open_run l2 ++ post end.

Lemma cut_none k (r : run) : ~ In k (map fst r) -> cut eqk k r = None.
Proof.
  induction r as [|[k' v] r IH]; intros H; [reflexivity|]. cbn [cut fst]. cbn [map fst In] in H.
  destruct (eqk k' k) eqn:E; [apply (eqk_spec compare TO) in E; tauto|]. rewrite IH by tauto. reflexivity.
Qed.

Lemma cut_some k v (l1 l2 : run) : ~ In k (map fst l1) -> cut eqk k (l1 ++ (k, v) :: l2) = Some (l1, l2).
Proof.
  induction l1 as [|[k' w] r IH]; intros H; cbn [cut app fst].
  - rewrite (proj2 (eqk_spec compare TO k k) eq_refl). reflexivity.
  - cbn [map fst In] in H. destruct (eqk k' k) eqn:E; [apply (eqk_spec compare TO) in E; tauto|]. rewrite IH by tauto. reflexivity.
Qed.

Lemma open_content (l : list entry) : content (open_run l) = as_run (map snd l).
Proof. destruct l; reflexivity. Qed.

Lemma content_app a b : content (a ++ b) = content a ++ content b.
Proof. apply map_app. Qed.

Lemma ekeys_content (l : list entry) : map fst (map snd l) = map ekey l.
Proof. rewrite map_map. reflexivity. Qed.

Lemma take_out_content k v a pre l1 l2 post : forall front,
  NoDup (map ekey (concat (pre ++ (l1 ++ (a, (k, v)) :: l2) :: post))) ->
  take_out eqk k front (content (pre ++ (l1 ++ (a, (k, v)) :: l2) :: post)) =
  match l1 with [] => [] | _ => front end ++ content (taken pre l1 l2 post).
Proof.
  induction pre as [|r pre IH]; intros front Hd.
  - cbn [app content map take_out]. cbn [app concat] in Hd. rewrite map_app in Hd. apply NoDup_app_l in Hd.
    rewrite map_app in Hd. cbn [map ekey fst snd] in Hd. apply NoDup_remove_2 in Hd.
    rewrite map_app. cbn [map snd]. rewrite cut_some by (rewrite ekeys_content; intros Hin; apply Hd, in_or_app; auto).
    destruct l1 as [|x l1]; cbn [map taken app].
    + rewrite content_app, open_content. reflexivity.
    + f_equal. cbn [content map]. f_equal. rewrite map_app. f_equal. symmetry. apply open_content.
  - cbn [app content map take_out]. cbn [app concat] in Hd. rewrite map_app in Hd.
    rewrite cut_none.
    2: { rewrite ekeys_content. intros Hin. apply (NoDup_app_disj _ _ k Hd Hin).
         rewrite concat_mid, !map_app, !in_app_iff. cbn. auto. }
    fold (content (pre ++ (l1 ++ (a, (k, v)) :: l2) :: post)). rewrite IH by (eapply NoDup_app_r; eauto).
    destruct l1 as [|x l1]; cbn [taken app]; [reflexivity|]. rewrite <- app_assoc. reflexivity.
Qed.

Lemma cell_at h pre l1 a x l2 post : bucket_ok h (pre ++ (l1 ++ (a, x) :: l2) :: post) ->
  nth_error h a = Some (Some (Cell x (firstp (l2 ++ concat post) None) (lastp None l1))).
Proof.
  intros (Hn & _ & _ & Hr). rewrite concat_mid in Hn. rewrite <- app_assoc in Hn. cbn [app] in Hn.
  apply nseg_app in Hn. destruct Hn as [_ Hn]. apply nseg_app in Hn. destruct Hn as [_ [[p Hn] _]].
  rewrite Forall_forall in Hr. destruct (Hr (l1 ++ (a, x) :: l2)) as [_ Hp]; [apply in_or_app; cbn; auto|].
  apply prevs_app in Hp. destruct Hp as [_ [(v & n & Hp) _]]. rewrite Hn in Hp. inversion Hp; subst. exact Hn.
Qed.

Lemma lastp_in {A} (l : list (nat * A)) : forall pr b, lastp pr l = Some b -> pr = Some b \/ In b (map fst l).
Proof.
  induction l as [|[a v] l IH]; cbn; intros pr b H; [auto|]. destruct (IH _ _ H) as [E|Hin]; [inversion E; auto|auto].
Qed.

Lemma firstp_in {A} (l : list (nat * A)) b : firstp l None = Some b -> In b (map fst l).
Proof. destruct l as [|[a v] l]; cbn; intros H; inversion H; auto. Qed.

(** What removal does to the cells, see [unlink_cells]. *)
Definition unlinked (h h'' : heap (K * bytes)) (a : nat) (n p : option nat) : Prop :=
  (forall b y n' p', p = Some b -> nth_error h b = Some (Some (Cell y n' p')) -> nth_error h'' b = Some (Some (Cell y n p'))) /\
  (forall b y n' p', n = Some b -> nth_error h b = Some (Some (Cell y n' p')) -> nth_error h'' b = Some (Some (Cell y n' None))) /\
  (forall b, b <> a -> p <> Some b -> n <> Some b -> nth_error h'' b = nth_error h b).

Lemma prevs_cleared h h'' a n p q c y r : unlinked h h'' a n p -> n = Some c ->
  prevs h q ((c, y) :: r) -> ~ In a (map fst r) -> ~ In c (map fst r) -> (forall b, p = Some b -> ~ In b (map fst r)) ->
  prevs h'' None ((c, y) :: r).
Proof.
  intros (_ & U2 & U3) En [(v & m & H1) H2] Na Nc Np. cbn [prevs]. split.
  - exists v, m. exact (U2 c _ _ _ En H1).
  - apply prevs_keep with (2 := H2). intros b v' n' p' Hb E. exists v', n'. rewrite U3; [exact E| | |].
    + intros ->. contradiction.
    + intros Ep. exact (Np b Ep Hb).
    + intros Eb. rewrite En in Eb. inversion Eb; subst. contradiction.
Qed.

Lemma addrs_mid pre l1 a x l2 post :
  addrs (pre ++ (l1 ++ (a, x) :: l2) :: post) = (map fst (concat pre) ++ map fst l1) ++ a :: (map fst l2 ++ map fst (concat post)).
Proof. unfold addrs. rewrite concat_mid, !map_app. cbn [map fst]. rewrite <- !app_assoc. reflexivity. Qed.

Lemma taken_ok h h'' pre l1 a x l2 post :
  bucket_ok h (pre ++ (l1 ++ (a, x) :: l2) :: post) ->
  unlinked h h'' a (firstp (l2 ++ concat post) None) (lastp None l1) ->
  bucket_ok h'' (taken pre l1 l2 post).
Proof.
  intros Hok U. pose proof Hok as (Hn & Hd & Hk & Hr).
  rewrite addrs_mid in Hd. pose proof (NoDup_remove_1 _ _ _ Hd) as Hd1. pose proof (NoDup_remove_2 _ _ _ Hd) as Hd2.
  set (n := firstp (l2 ++ concat post) None) in *. set (p := lastp None l1) in *.
  assert (Hna : forall b, n = Some b -> In b (map fst l2 ++ map fst (concat post))).
  { intros b E. apply firstp_in in E. rewrite map_app in E. exact E. }
  assert (Hpa : forall b, p = Some b -> In b (map fst l1)).
  { intros b E. apply lastp_in in E. destruct E as [E|E]; [discriminate|exact E]. }
  assert (Hdisj : forall b, In b (map fst (concat pre) ++ map fst l1) -> ~ In b (map fst l2 ++ map fst (concat post))).
  { intros b Hb1 Hb2. exact (NoDup_app_disj _ _ b Hd1 Hb1 Hb2). }
  pose proof U as (U1 & U2 & U3).
  (* the part behind *)
  assert (Htail : nseg h'' (l2 ++ concat post) None).
  { rewrite concat_mid in Hn. rewrite <- app_assoc in Hn. cbn [app] in Hn.
    apply nseg_app in Hn. destruct Hn as [_ Hn]. apply nseg_app in Hn. destruct Hn as [_ [_ Hn]].
    apply nseg_keep with (2 := Hn). intros b v n' p' Hb E. rewrite map_app in Hb.
    destruct (option_eq_dec_nat n b) as [En|En].
    - exists None. exact (U2 b _ _ _ En E).
    - exists p'. rewrite U3; [exact E| | |exact En].
      + intros ->. apply Hd2. rewrite in_app_iff. auto.
      + intros Ep. apply (Hdisj b); [apply in_or_app; right; exact (Hpa b Ep)|exact Hb]. }
  assert (Hruns : Forall (fun r => r <> [] /\ prevs h'' None r) (open_run l2 ++ post)).
  { rewrite Forall_app in Hr. destruct Hr as [_ Hr]. inversion Hr as [|r0 rs0 [_ Hr1] Hr2]; subst r0 rs0.
    apply prevs_app in Hr1. destruct Hr1 as [_ [_ Hr1]].
    assert (Hother : forall r, In r post -> (forall b, n = Some b -> ~ In b (map fst r)) -> prevs h None r -> prevs h'' None r).
    { intros r Hin Hnr Hp. apply prevs_keep with (2 := Hp). intros b v n' p' Hb E. exists v, n'.
      assert (Hbp : In b (map fst (concat post))).
      { rewrite in_map_iff in *. destruct Hb as (z & <- & Hz). exists z. split; [reflexivity|]. apply in_concat. eauto. }
      rewrite U3; [exact E| | |].
      - intros ->. apply Hd2. rewrite !in_app_iff. auto.
      - intros Ep. apply (Hdisj b); [apply in_or_app; right; exact (Hpa b Ep)|apply in_or_app; auto].
      - intros En. exact (Hnr b En Hb). }
    assert (Hpost : NoDup (map fst l2 ++ map fst (concat post))) by (eapply NoDup_app_r; exact Hd1).
    destruct l2 as [|[c y] l2].
    - cbn [open_run app]. cbn [map app] in *.
      destruct post as [|r post]; [constructor|]. inversion Hr2 as [|r0 rs0 [Hr3 Hr4] Hr5]; subst r0 rs0.
      destruct r as [|[c y] r]; [congruence|].
      assert (En : n = Some c) by reflexivity.
      cbn [concat app map fst] in Hpost. rewrite map_app in Hpost. inversion Hpost as [|? ? Nc Hpost']; subst.
      rewrite in_app_iff in Nc. constructor.
      + split; [discriminate|]. apply (prevs_cleared h h'' a n p None c y r U En Hr4).
        * intros Ha. apply Hd2. apply in_or_app; right. cbn [concat app map fst In]. right. rewrite map_app, in_app_iff. auto.
        * tauto.
        * intros b Ep Hb. apply (Hdisj b); [apply in_or_app; right; exact (Hpa b Ep)|].
          cbn [concat app map fst In]. right. rewrite map_app, in_app_iff. auto.
      + apply Forall_forall. intros r' Hr'. rewrite Forall_forall in Hr5. destruct (Hr5 r' Hr') as [A1 A2]. split; [exact A1|].
        apply Hother; [cbn; auto| |exact A2]. intros b Eb Hb. rewrite En in Eb. inversion Eb; subst b. apply Nc. right.
        rewrite in_map_iff in *. destruct Hb as (z & <- & Hz). exists z. split; [reflexivity|]. apply in_concat. eauto.
    - cbn [open_run app]. assert (En : n = Some c) by reflexivity.
      cbn [map fst app] in Hpost. inversion Hpost as [|? ? Nc Hpost']; subst. rewrite in_app_iff in Nc. constructor.
      + split; [discriminate|]. apply (prevs_cleared h h'' a n p (Some a) c y l2 U En Hr1).
        * intros Ha. apply Hd2. apply in_or_app; right. cbn [map fst app In]. rewrite in_app_iff. auto.
        * tauto.
        * intros b Ep Hb. apply (Hdisj b); [apply in_or_app; right; exact (Hpa b Ep)|]. cbn [map fst app In]. rewrite in_app_iff. auto.
      + apply Forall_forall. intros r' Hr'. rewrite Forall_forall in Hr2. destruct (Hr2 r' Hr') as [A1 A2]. split; [exact A1|].
        apply Hother; [exact Hr'| |exact A2]. intros b Eb Hb. rewrite En in Eb. inversion Eb; subst b. apply Nc. right.
        rewrite in_map_iff in *. destruct Hb as (z & <- & Hz). exists z. split; [reflexivity|]. apply in_concat. eauto. }
  assert (Hkeys : NoDup (map ekey (concat pre) ++ map ekey l1 ++ map ekey l2 ++ map ekey (concat post))).
  { rewrite concat_mid, !map_app in Hk. cbn [map] in Hk. rewrite <- !app_assoc in Hk. cbn [app] in Hk. rewrite app_assoc in Hk.
    apply NoDup_remove_1 in Hk. rewrite <- app_assoc in Hk. exact Hk. }
  destruct (rev_case l1) as [E1|(l0 & [b1 w] & E1)].
  - subst l1. cbn [taken]. unfold bucket_ok, addrs. rewrite concat_app, concat_open, !map_app. cbn [map app] in *.
    split; [exact Htail|]. split; [eapply NoDup_app_r; exact Hd1|]. split; [|exact Hruns].
    eapply NoDup_app_r; exact Hkeys.
  - assert (Ep : p = Some b1) by (unfold p; rewrite E1, lastp_app; reflexivity).
    assert (Et : taken pre l1 l2 post = pre ++ l1 :: open_run l2 ++ post) by (rewrite E1; destruct l0; reflexivity).
    rewrite Et. unfold bucket_ok, addrs. rewrite concat_mid, concat_app, concat_open.
    assert (Hsame : forall b, In b (map fst (concat pre) ++ map fst l1) -> b <> b1 -> nth_error h'' b = nth_error h b).
    { intros b Hb Nb. apply U3.
      - intros ->. apply Hd2. apply in_or_app; auto.
      - rewrite Ep. congruence.
      - intros En. exact (Hdisj b Hb (Hna b En)). }
    assert (Hb1 : ~ In b1 (map fst (concat pre) ++ map fst l0) /\ In b1 (map fst l1)).
    { split; [|rewrite E1, map_app, in_app_iff; cbn; auto].
      rewrite E1, map_app in Hd1. cbn [map fst] in Hd1. rewrite <- !app_assoc in Hd1. cbn [app] in Hd1. rewrite app_assoc in Hd1.
      apply NoDup_remove_2 in Hd1. intros Hb. apply Hd1. apply in_or_app; auto. }
    destruct Hb1 as [Nb1 Ib1].
    split.
    { rewrite concat_mid in Hn. rewrite <- app_assoc in Hn. cbn [app] in Hn. rewrite app_assoc in Hn.
      apply nseg_app in Hn. destruct Hn as [Hn _]. cbn [firstp] in Hn. rewrite E1 in Hn. rewrite app_assoc in Hn.
      apply nseg_app in Hn. destruct Hn as [Hn1 [[q Hn2] _]]. cbn [firstp] in *.
      rewrite app_assoc. apply nseg_app. split; [|exact Htail].
      rewrite E1, app_assoc. apply nseg_app. cbn [firstp nseg]. split.
      - apply nseg_keep with (2 := Hn1). intros b v n' p' Hb E. exists p'. rewrite map_app in Hb. rewrite Hsame; [exact E| |].
        + rewrite E1, map_app, !in_app_iff. rewrite in_app_iff in Hb. tauto.
        + intros ->. contradiction.
      - split; [|exact I]. exists q. exact (U1 b1 _ _ _ Ep Hn2). }
    split.
    { rewrite !map_app. rewrite <- app_assoc in Hd1. exact Hd1. }
    split; [rewrite !map_app; exact Hkeys|].
    rewrite Forall_app in Hr. destruct Hr as [Hr1 Hr2]. inversion Hr2 as [|r0 rs0 [_ Hr3] _]; subst r0 rs0.
    assert (Hkeep : forall r, (forall b, In b (map fst r) -> In b (map fst (concat pre) ++ map fst l1)) -> prevs h None r -> prevs h'' None r).
    { intros r Hsub Hp. apply prevs_keep with (2 := Hp). intros b v n' p' Hb E.
      destruct (Nat.eq_dec b b1) as [->|Nb]; [exists v, n; exact (U1 b1 _ _ _ Ep E)|].
      exists v, n'. rewrite Hsame by auto. exact E. }
    apply Forall_app. split; [|constructor; [|exact Hruns]].
    + apply Forall_forall. intros r Hin. rewrite Forall_forall in Hr1. destruct (Hr1 r Hin) as [A1 A2]. split; [exact A1|].
      apply Hkeep; [|exact A2]. intros b Hb. apply in_or_app; left. rewrite in_map_iff in *. destruct Hb as (z & <- & Hz).
      exists z. split; [reflexivity|]. apply in_concat. eauto.
    + split; [rewrite E1; destruct l0; discriminate|]. apply Hkeep.
      * intros b Hb. apply in_or_app; auto.
      * apply prevs_app in Hr3. tauto.
Qed.

Definition add_entry (e : entry) (rs : list (list entry)) : list (list entry) :=
  match rs with [] => [[e]] | r :: rest => (e :: r) :: rest end.

Lemma concat_add e rs : concat (add_entry e rs) = e :: concat rs.
Proof. destruct rs; reflexivity. Qed.

Lemma content_add e rs : content (add_entry e rs) = add_front (snd e) (content rs).
Proof. destruct rs; reflexivity. Qed.

Lemma add_ok h h' rs e k v : bucket_ok h rs -> ~ In k (map ekey (concat rs)) -> e = length h ->
  nth_error h' e = Some (Some (Cell (k, v) (firstp (concat rs) None) None)) ->
  (forall b y n p, firstp (concat rs) None = Some b -> nth_error h b = Some (Some (Cell y n p)) -> nth_error h' b = Some (Some (Cell y n (Some e)))) ->
  (forall b, b < length h -> firstp (concat rs) None <> Some b -> nth_error h' b = nth_error h b) ->
  bucket_ok h' (add_entry (e, (k, v)) rs).
Proof.
  intros Hok Hk He E1 E2 E3. pose proof Hok as (Hn & Hd & Hkk & Hr).
  unfold bucket_ok, addrs. rewrite concat_add. cbn [map fst ekey snd].
  assert (Hlt : forall b, In b (addrs rs) -> b < length h) by (intros b; apply bucket_lt; exact Hok).
  split.
  { cbn [nseg]. split; [eauto|]. apply nseg_keep with (2 := Hn). intros b y n p Hb E.
    destruct (option_eq_dec_nat (firstp (concat rs) None) b) as [Ef|Nf].
    - exists (Some e). exact (E2 b _ _ _ Ef E).
    - exists p. rewrite E3; [exact E|apply Hlt; exact Hb|exact Nf]. }
  split.
  { constructor; [|exact Hd]. intros Hin. apply Hlt in Hin. lia. }
  split; [constructor; assumption|].
  destruct rs as [|r rest]; cbn [add_entry].
  { constructor; [|constructor]. split; [discriminate|]. cbn. eauto. }
  inversion Hr as [|r0 rs0 [A1 A2] A3]; subst r0 rs0.
  destruct r as [|[b y] r]; [congruence|]. cbn [concat app firstp] in *.
  unfold addrs in Hd. cbn [concat app map fst] in Hd. rewrite map_app in Hd. inversion Hd as [|? ? Nb Hd']; subst. rewrite in_app_iff in Nb.
  assert (Hlt' : forall c z, In (c, z) (concat (((b, y) :: r) :: rest)) -> c < length h).
  { intros c z Hin. apply Hlt. unfold addrs. change c with (fst (c, z)). apply in_map. exact Hin. }
  constructor.
  - split; [discriminate|]. cbn [prevs] in A2 |- *. destruct A2 as [(v0 & n0 & A2) A4]. split; [eauto|]. split.
    + exists v0, n0. exact (E2 b _ _ _ eq_refl A2).
    + apply prevs_keep with (2 := A4). intros c v1 n1 p1 Hc E. exists v1, n1.
      rewrite E3; [exact E| |intros Eb; inversion Eb; subst; tauto]. apply some_lt in E. exact E.
  - apply Forall_forall. intros r' Hr'. rewrite Forall_forall in A3. destruct (A3 r' Hr') as [B1 B2]. split; [exact B1|].
    apply prevs_keep with (2 := B2). intros c v1 n1 p1 Hc E. exists v1, n1.
    rewrite E3; [exact E|apply some_lt in E; exact E|]. intros Eb. inversion Eb; subst c. apply Nb. right.
    rewrite in_map_iff in *. destruct Hc as (z & Ez & Hz). exists z. split; [exact Ez|]. apply in_concat. eauto.
Qed.

(** Overwriting a value. *)
Lemma over_content k v (rs : list (list entry)) :
  content (map (map (fun x => if eqk (ekey x) k then (fst x, (ekey x, v)) else x)) rs) = overwrite eqk k v (content rs).
Proof.
  unfold content, overwrite. rewrite !map_map. apply map_ext. intros r. rewrite !map_map. apply map_ext.
  intros [a [k' w]]. unfold ekey. cbn. destruct (eqk k' k); reflexivity.
Qed.

Lemma over_concat k v (rs : list (list entry)) :
  concat (map (map (fun x => if eqk (ekey x) k then (fst x, (ekey x, v)) else x)) rs) =
  map (fun x => if eqk (ekey x) k then (fst x, (ekey x, v)) else x) (concat rs).
Proof. now rewrite concat_map. Qed.

Lemma over_fst k v (l : list entry) : map fst (map (fun x => if eqk (ekey x) k then (fst x, (ekey x, v)) else x) l) = map fst l.
Proof. rewrite map_map. apply map_ext. intros x. destruct (eqk (ekey x) k); reflexivity. Qed.
Lemma over_ekey k v (l : list entry) : map ekey (map (fun x => if eqk (ekey x) k then (fst x, (ekey x, v)) else x) l) = map ekey l.
Proof. rewrite map_map. apply map_ext. intros x. destruct (eqk (ekey x) k); reflexivity. Qed.

Lemma over_firstp k v (l : list entry) q : firstp (map (fun x => if eqk (ekey x) k then (fst x, (ekey x, v)) else x) l) q = firstp l q.
Proof. destruct l as [|[a y] l]; [reflexivity|]. cbn. destruct (eqk (ekey (a, y)) k); reflexivity. Qed.

Lemma over_nseg k v a w (h : heap (K * bytes)) n p : nth_error h a = Some (Some (Cell (k, w) n p)) ->
  forall l, nseg h l None -> (forall x, In x l -> (ekey x = k <-> fst x = a)) ->
  nseg (upd h a (Some (Cell (k, v) n p))) (map (fun x => if eqk (ekey x) k then (fst x, (ekey x, v)) else x) l) None.
Proof.
  intros Ha l. induction l as [|[b [k' u]] l IH]; intros Hn Hx; [exact I|]. cbn [map nseg] in *.
  destruct Hn as [[q Hb] Hn]. pose proof (Hx _ (or_introl eq_refl)) as Hb'. cbn [ekey fst snd] in Hb'.
  specialize (IH Hn (fun x Hin => Hx x (or_intror Hin))).
  destruct (eqk (ekey (b, (k', u))) k) eqn:Ek; cbn [fst].
  - apply (eqk_spec compare TO) in Ek. cbn in Ek. subst k'. destruct Hb' as [Hb' _]. specialize (Hb' eq_refl). subst b.
    split; [|exact IH]. exists p. rewrite nth_error_upd_eq by (eapply some_lt; eauto). rewrite over_firstp.
    rewrite Ha in Hb. inversion Hb; subst. reflexivity.
  - assert (Nb : a <> b). { intros ->. destruct Hb' as [_ Hb']. specialize (Hb' eq_refl). subst k'. cbn in Ek.
      rewrite (proj2 (eqk_spec compare TO k k) eq_refl) in Ek. discriminate. }
    split; [|exact IH]. exists q. rewrite nth_error_upd_neq by exact Nb. rewrite over_firstp. exact Hb.
Qed.

Lemma nodup_key_addr (l : list entry) x a v : NoDup (map fst l) -> NoDup (map ekey l) -> In x l -> In (a, v) l -> (ekey x = fst v <-> fst x = a).
Proof.
  intros Hd Hk Hx Ha. induction l as [|y l IH]; [destruct Hx|]. cbn [map] in Hd, Hk.
  inversion Hd as [|? ? N1 D1]; subst. inversion Hk as [|? ? N2 D2]; subst.
  destruct Hx as [->|Hx], Ha as [E|Ha].
  - subst x. cbn. tauto.
  - split; intros E.
    + destruct N2. rewrite E. change (fst v) with (ekey (a, v)). now apply in_map.
    + destruct N1. rewrite E. change a with (fst (a, v)). now apply in_map.
  - subst y. split; intros E.
    + destruct N2. cbn [ekey snd]. change (ekey (a, v)) with (fst v). rewrite <- E. now apply in_map.
    + destruct N1. cbn [fst]. rewrite <- E. now apply in_map.
  - apply IH; auto.
Qed.

Lemma over_ok h rs k w v a n p : bucket_ok h rs -> In (a, (k, w)) (concat rs) ->
  nth_error h a = Some (Some (Cell (k, w) n p)) ->
  bucket_ok (upd h a (Some (Cell (k, v) n p))) (map (map (fun x => if eqk (ekey x) k then (fst x, (ekey x, v)) else x)) rs).
Proof.
  intros (Hn & Hd & Hk & Hr) Hin Ha. unfold bucket_ok, addrs. rewrite over_concat, over_fst, over_ekey.
  split; [|split; [exact Hd|split; [exact Hk|]]].
  - apply over_nseg with (w := w); auto. intros x Hx. exact (nodup_key_addr _ x a (k, w) Hd Hk Hx Hin).
  - rewrite Forall_forall in *. intros r Hin'. apply in_map_iff in Hin'. destruct Hin' as (r0 & <- & Hr0).
    destruct (Hr r0 Hr0) as [A1 A2]. split; [destruct r0; [congruence|discriminate]|].
    assert (Hk' : forall pr l, prevs h pr l -> prevs (upd h a (Some (Cell (k, v) n p))) pr (map (fun x => if eqk (ekey x) k then (fst x, (ekey x, v)) else x) l)).
    { clear - Ha. intros pr l. revert pr. induction l as [|[b y] l IH]; intros pr H; [exact I|]. cbn [map].
      destruct H as [(v1 & n1 & H1) H2].
      assert (Hg : exists v2 n2, nth_error (upd h a (Some (Cell (k, v) n p))) b = Some (Some (Cell v2 n2 pr))).
      { destruct (Nat.eq_dec a b) as [->|Nb]; [|rewrite nth_error_upd_neq by exact Nb; eauto].
        rewrite nth_error_upd_eq by (eapply some_lt; eauto). rewrite Ha in H1. inversion H1; subst. eauto. }
      destruct (eqk (ekey (b, y)) k); cbn [fst prevs]; split; auto. }
    apply Hk'. exact A2.
Qed.

Definition sim (t : htable K) (s : shelf K) : Prop :=
  exists rs lk, linv t rs lk /\ (forall i, i < ht_buckets t -> runs s i = content (rs i)) /\
    NoDup (names s) /\ (forall k, In k (names s) <-> In k lk).

Lemma stored_find (t : htable K) (s : shelf K) rs k : 0 < ht_buckets t -> (forall i, i < ht_buckets t -> runs s i = content (rs i)) ->
  stored eqk (fun k => hash k (ht_buckets t)) s k =
  option_map (fun x => snd (snd x)) (find (fun x => eqk (ekey x) k) (concat (rs (hash k (ht_buckets t))))).
Proof.
  intros HB Hr. unfold stored. rewrite Hr by (apply hash_lt; exact HB). rewrite concat_content. apply find_content.
Qed.

Lemma found_in k (l : list entry) a k' v : find (fun x => eqk (ekey x) k) l = Some (a, (k', v)) -> k' = k /\ In (a, (k, v)) l.
Proof.
  intros E. apply find_some in E. destruct E as [Hin E]. cbn in E. apply (eqk_spec compare TO) in E. subst. auto.
Qed.
Lemma not_found k (l : list entry) : find (fun x => eqk (ekey x) k) l = None -> ~ In k (map ekey l).
Proof.
  intros E Hin. apply in_map_iff in Hin. destruct Hin as (x & Ex & Hx). apply (find_none _ _ E) in Hx.
  rewrite Ex, (proj2 (eqk_spec compare TO k k) eq_refl) in Hx. discriminate.
Qed.

Lemma before_nodup lk : StronglySorted before lk -> NoDup lk.
Proof.
  induction 1 as [|k l Hs IH Hf]; constructor; auto. intros Hin. rewrite Forall_forall in Hf. apply (before_irrefl compare TO k). auto.
Qed.

Lemma names_length (l1 l2 : list K) : NoDup l1 -> NoDup l2 -> (forall k, In k l1 <-> In k l2) -> length l1 = length l2.
Proof. intros H1 H2 H. apply Permutation_length. apply NoDup_Permutation; assumption. Qed.

Lemma add_name_spec k ks : NoDup ks -> NoDup (add_name eqk k ks) /\ forall x, In x (add_name eqk k ks) <-> In x ks \/ x = k.
Proof.
  intros Hd. unfold add_name. destruct (existsb (fun x => eqk x k) ks) eqn:E.
  - apply existsb_exists in E. destruct E as (y & Hy & E). apply (eqk_spec compare TO) in E. subst y. split; [exact Hd|].
    intros x. split; [auto|]. intros [H|H]; [exact H|subst; exact Hy].
  - assert (Nk : ~ In k ks).
    { intros Hk. assert (existsb (fun x => eqk x k) ks = true); [|congruence]. apply existsb_exists. exists k. split; [exact Hk|].
      apply (eqk_spec compare TO). reflexivity. }
    split; [constructor; assumption|]. intros x. cbn. intuition congruence.
Qed.

Lemma drop_name_spec k ks : NoDup ks -> NoDup (drop_name eqk k ks) /\ forall x, In x (drop_name eqk k ks) <-> In x ks /\ x <> k.
Proof.
  intros Hd. unfold drop_name. split; [now apply NoDup_filter|]. intros x. rewrite filter_In.
  destruct (eqk x k) eqn:E; cbn.
  - apply (eqk_spec compare TO) in E. subst. intuition congruence.
  - split; [|tauto]. intros [H _]. split; [exact H|]. intros ->. rewrite (proj2 (eqk_spec compare TO k k) eq_refl) in E. discriminate.
Qed.

Lemma sim_insert t s k v : sim t s -> length v = ht_dsize t ->
  let home := fun k => hash k (ht_buckets t) in
  exists t', hashtable_insert compare hash t k v = Ok (t', snd (shelf_step eqk home (ht_ksize t) s (HInsert k v))) /\
    sim t' (fst (shelf_step eqk home (ht_ksize t) s (HInsert k v))) /\
    ht_ksize t' = ht_ksize t /\ ht_dsize t' = ht_dsize t /\ ht_buckets t' = ht_buckets t.
Proof.
  intros (rs & lk & Hinv & Hr & Hnd & Hnm) Hv home.
  pose proof Hinv as (HB & Ht & Hb & Hdis & Hx & Hrep & Hs & Hsz & Hmx).
  pose proof (hash_lt k _ HB) as Hi.
  cbn [shelf_step]. pose proof (stored_find t s rs k HB Hr) as Est. change (fun k => hash k (ht_buckets t)) with home in Est. rewrite Est. clear Est. unfold hashtable_insert.
  rewrite (lookup_entry_loose t rs lk k Hinv). cbn [bind].
  set (i := hash k (ht_buckets t)) in *.
  destruct (find (fun x => eqk (ekey x) k) (concat (rs i))) as [[a [k' w]]|] eqn:Ef; cbn [option_map fst snd].
  - destruct (found_in _ _ _ _ _ Ef) as [-> Hin]. clear Ef.
    destruct (nseg_in _ _ _ _ _ (proj1 (Hb i Hi)) Hin) as (n & p & Ea).
    destruct (Hx i _ Hi Hin) as (Hh & Hw & Hlk). cbn [ekey snd fst] in Hw, Hlk.
    rewrite (hload_eq _ _ _ Ea). cbn [bind c_val snd fst].
    rewrite (memcpy_full hash hash_lt) by (rewrite ?malloc_length; auto). cbn [bind].
    rewrite (memcpy_full hash hash_lt) by congruence. cbn [bind].
    erewrite set_val_eq by exact Ea. cbn [bind].
    rewrite (memcpy_full hash hash_lt) by congruence. cbn [bind].
    eexists; split; [reflexivity|]. split; [|auto].
    exists (fun j => if Nat.eqb j i then map (map (fun x => if eqk (ekey x) k then (fst x, (ekey x, v)) else x)) (rs i) else rs j), lk.
    split.
    { apply linv_update with (rs := rs) (lk := lk); auto.
      - rewrite over_concat, over_firstp. apply Ht. exact Hi.
      - apply over_ok with (w := w); auto.
      - intros b Hb'. left. unfold addrs in *. rewrite over_concat, over_fst in Hb'. exact Hb'.
      - intros b Nb _. rewrite nth_error_upd_neq; [reflexivity|]. intros E. subst b. apply Nb.
        unfold addrs. change a with (fst (a, (k, w))). now apply in_map.
      - intros x Hin'. rewrite over_concat in Hin'. apply in_map_iff in Hin'. destruct Hin' as (y & <- & Hy).
        destruct (Hx i y Hi Hy) as (A1 & A2 & A3). destruct (eqk (ekey y) k); [|auto]. cbn. auto.
      - intros j x Hj _ Hin'. apply (Hx j x Hj Hin').
      - rewrite Hsz. f_equal. symmetry. eapply live_upd; eauto. }
    split; [|split; [exact Hnd|exact Hnm]].
    intros j Hj. change (ht_buckets _) with (ht_buckets t) in Hj. cbn [put runs]. unfold home. fold i.
    destruct (Nat.eqb_spec j i) as [->|Nj]; [|apply Hr; exact Hj]. rewrite (Hr i Hi). symmetry. apply over_content.
  - rewrite (memcpy_full hash hash_lt) by (rewrite ?malloc_length; auto). cbn [bind].
    assert (Hfr : forall b, firstp (concat (rs i)) None = Some b -> exists y n p, nth_error (ht_heap t) b = Some (Some (Cell y n p))).
    { intros b Eb. apply firstp_in in Eb. apply in_map_iff in Eb. destruct Eb as ([b' y] & Eb & Hin). cbn in Eb. subst b'.
      destruct (nseg_in _ _ _ _ _ (proj1 (Hb i Hi)) Hin) as (n & p & E). eauto. }
    pose proof (push_cells (ht_heap t) (k, v) (firstp (concat (rs i)) None) Hfr) as Hpf.
    unfold halloc in *. set (e := length (ht_heap t)) in *.
    destruct Hpf as (h' & Eh & Ee & Lh & Vh & N1 & N2 & N3).
    rewrite (aget_nth _ _ _ (Ht i Hi)). cbn [bind].
    match goal with |- context [bind ?q _] => replace q with (Ok (A := heap (K * bytes)) h') by (symmetry; exact Eh) end. cbn [bind].
    rewrite aset_ok by exact Hi. cbn [bind].
    pose proof (not_found _ _ Ef) as Nk.
    assert (Hset : exists al' r lk', set_insert compare (ht_keys t) k = Ok (al', r) /\ rep al' lk' /\ StronglySorted before lk' /\
                     2 <= al_max al' /\ forall x, In x lk' <-> In x lk \/ x = k).
    { destruct (set_insert_ok compare TO (ht_keys t) lk k Hrep Hs) as [(al' & q & Es & Hip & R')|[Es Hin]].
      - exists al', 1%Z, (firstn q lk ++ k :: skipn q lk). split; [exact Es|]. split; [exact R'|]. split; [now apply insert_sorted|].
        split; [pose proof (set_insert_max compare _ _ _ _ Es); lia|]. intros x. apply in_insert.
      - exists (ht_keys t), 0%Z, lk. split; [exact Es|]. split; [exact Hrep|]. split; [exact Hs|]. split; [exact Hmx|].
        intros x. split; [auto|]. intros [H|H]; [exact H|subst; exact Hin]. }
    destruct Hset as (al' & r & lk' & Es & R' & S' & M' & I').
    rewrite Es. cbn [bind fst].
    eexists; split; [reflexivity|]. split; [|unfold ht_buckets; cbn [ht_ksize ht_dsize ht_table]; rewrite upd_length; auto].
    exists (fun j => if Nat.eqb j i then add_entry (e, (k, v)) (rs i) else rs j), lk'.
    split.
    { apply linv_update with (rs := rs) (lk := lk); auto.
      - apply upd_length.
      - rewrite concat_add. cbn [firstp]. rewrite nth_error_upd_eq by exact Hi. reflexivity.
      - intros j Nj. rewrite nth_error_upd_neq by auto. reflexivity.
      - apply add_ok with (h := ht_heap t); auto.
      - intros b Hb'. unfold addrs in Hb'. rewrite concat_add in Hb'. cbn [map fst In] in Hb'. destruct Hb' as [E|Hb']; [right; lia|auto].
      - intros b Nb Lb. apply N3; [exact Lb|]. intros E. apply Nb. apply firstp_in. exact E.
      - intros x Hin. rewrite concat_add in Hin. destruct Hin as [<-|Hin].
        + cbn [ekey fst snd]. split; [reflexivity|]. split; [exact Hv|]. apply I'. auto.
        + destruct (Hx i x Hi Hin) as (A1 & A2 & A3). split; [exact A1|]. split; [exact A2|]. apply I'. auto.
      - intros j x Hj _ Hin. apply I'. left. apply (Hx j x Hj Hin).
      - rewrite Hsz, Vh. lia. }
    destruct (add_name_spec k (names s) Hnd) as [D1 D2].
    split; [|split; [exact D1|]].
    { intros j Hj. unfold ht_buckets in Hj. cbn [ht_table] in Hj. rewrite upd_length in Hj. cbn [fst put runs]. unfold home. fold i.
      destruct (Nat.eqb_spec j i) as [->|Nj]; [|apply Hr; exact Hj]. rewrite (Hr i Hi). symmetry. apply content_add. }
    { intros x. cbn [fst put names]. rewrite D2, I', Hnm. tauto. }
Qed.

Lemma sim_lookup t s k buf : sim t s -> length buf = ht_dsize t ->
  hashtable_lookup compare hash t k buf = Ok (snd (shelf_step eqk (fun k => hash k (ht_buckets t)) (ht_ksize t) s (HLookup k buf))).
Proof.
  intros (rs & lk & Hinv & Hr & Hnd & Hnm) Hb'.
  pose proof Hinv as (HB & Ht & Hb & Hdis & Hx & _).
  pose proof (hash_lt k _ HB) as Hi.
  cbn [shelf_step snd]. rewrite (stored_find t s rs k HB Hr). unfold hashtable_lookup.
  rewrite (lookup_entry_loose t rs lk k Hinv). cbn [bind].
  set (i := hash k (ht_buckets t)) in *.
  destruct (find (fun x => eqk (ekey x) k) (concat (rs i))) as [[a [k' w]]|] eqn:Ef; cbn [option_map fst snd]; [|reflexivity].
  destruct (found_in _ _ _ _ _ Ef) as [-> Hin]. clear Ef.
  destruct (nseg_in _ _ _ _ _ (proj1 (Hb i Hi)) Hin) as (n & p & Ea).
  destruct (Hx i _ Hi Hin) as (Hh & Hw & Hlk). cbn [ekey snd fst] in Hw.
  rewrite (hload_eq _ _ _ Ea). cbn [bind c_val snd]. rewrite (memcpy_full hash hash_lt) by congruence. reflexivity.
Qed.

Lemma live_positive (h : heap (K * bytes)) a c : nth_error h a = Some (Some c) -> 0 < live h.
Proof. intros H. pose proof (live_free h a c H). lia. Qed.

Lemma addrs_taken pre l1 a x l2 post b : In b (addrs (taken pre l1 l2 post)) -> In b (addrs (pre ++ (l1 ++ (a, x) :: l2) :: post)) /\ True.
Proof.
  intros H. split; [|exact I]. rewrite addrs_mid. unfold addrs in H. destruct l1 as [|y l1]; cbn [taken] in H.
  - rewrite concat_app, concat_open, map_app, in_app_iff in H. rewrite !in_app_iff. cbn [In]. rewrite in_app_iff. tauto.
  - rewrite concat_mid, concat_app, concat_open, !map_app, !in_app_iff in H. rewrite !in_app_iff. cbn [In]. rewrite in_app_iff. tauto.
Qed.

Lemma in_taken pre l1 l2 post y : In y (concat (taken pre l1 l2 post)) -> In y (concat pre ++ l1 ++ l2 ++ concat post).
Proof.
  intros H. destruct l1 as [|z l1]; cbn [taken] in H.
  - rewrite concat_app, concat_open in H. rewrite !in_app_iff in *. tauto.
  - rewrite concat_mid, concat_app, concat_open in H. exact H.
Qed.

Lemma sim_remove t s k buf : sim t s -> length buf = ht_dsize t -> ht_ksize t <= ht_dsize t ->
  let home := fun k => hash k (ht_buckets t) in
  exists t', hashtable_remove compare hash t k buf = Ok (t', snd (shelf_step eqk home (ht_ksize t) s (HRemove k buf))) /\
    sim t' (fst (shelf_step eqk home (ht_ksize t) s (HRemove k buf))) /\
    ht_ksize t' = ht_ksize t /\ ht_dsize t' = ht_dsize t /\ ht_buckets t' = ht_buckets t.
Proof.
  intros Hsim Hbuf Hks home. pose proof Hsim as (rs & lk & Hinv & Hr & Hnd & Hnm).
  pose proof Hinv as (HB & Ht & Hb & Hdis & Hx & Hrep & Hs & Hsz & Hmx).
  pose proof (hash_lt k _ HB) as Hi.
  cbn [shelf_step]. pose proof (stored_find t s rs k HB Hr) as Est. change (fun k => hash k (ht_buckets t)) with home in Est. rewrite Est. clear Est.
  set (i := hash k (ht_buckets t)) in *.
  destruct (find (fun x => eqk (ekey x) k) (concat (rs i))) as [[a [k' w]]|] eqn:Ef; cbn [option_map fst snd].
  - pose proof (found_in _ _ _ _ _ Ef) as [-> Hin].
    destruct (nseg_in _ _ _ _ _ (proj1 (Hb i Hi)) Hin) as (n0 & p0 & Ea0).
    unfold hashtable_remove, hashtable_empty.
    destruct (Z.eqb_spec (ht_size t) 0) as [E0|_].
    { exfalso. pose proof (live_positive _ _ _ Ea0). lia. }
    rewrite (lookup_entry_loose t rs lk k Hinv). fold i. rewrite Ef. cbn [bind option_map fst].
    destruct (Hx i _ Hi Hin) as (Hh & Hw & Hlk). cbn [ekey snd fst] in Hw, Hlk.
    destruct (in_runs _ _ Hin) as (pre & l1 & l2 & post & Er).
    pose proof (Hb i Hi) as Hbi. rewrite Er in Hbi.
    pose proof (cell_at _ _ _ _ _ _ _ Hbi) as Ea. rewrite Ea0 in Ea. inversion Ea; subst n0 p0. clear Ea. rename Ea0 into Ea.
    set (n := firstp (l2 ++ concat post) None) in *. set (p := lastp None l1) in *.
    pose proof (proj1 (proj2 Hbi)) as Hd. rewrite addrs_mid in Hd.
    pose proof (NoDup_remove_1 _ _ _ Hd) as Hd1. pose proof (NoDup_remove_2 _ _ _ Hd) as Hd2.
    assert (Hna : forall b, n = Some b -> In b (map fst l2 ++ map fst (concat post))).
    { intros b E. apply firstp_in in E. rewrite map_app in E. exact E. }
    assert (Hpa : forall b, p = Some b -> In b (map fst l1)).
    { intros b E. apply lastp_in in E. destruct E as [E|E]; [discriminate|exact E]. }
    assert (Hcell : forall b, In b (addrs (rs i)) -> exists y n' p', nth_error (ht_heap t) b = Some (Some (Cell y n' p'))).
    { intros b Hin'. apply in_map_iff in Hin'. destruct Hin' as ([b' y] & Eb & Hin'). cbn in Eb. subst b'.
      destruct (nseg_in _ _ _ _ _ (proj1 (Hb i Hi)) Hin') as (n1 & p1 & E). eauto. }
    assert (Haddr : addrs (rs i) = (map fst (concat pre) ++ map fst l1) ++ a :: map fst l2 ++ map fst (concat post)) by (rewrite Er; apply addrs_mid).
    destruct (unlink_cells (ht_heap t) (ht_table t) i a (k, w) n p Ea) as (h' & h'' & Eu & Efr & Lh & Vh & Na & U1 & U2 & U3).
    { intros b Eb. pose proof (Hpa b Eb) as Hb1. split.
      - intros ->. apply Hd2. rewrite !in_app_iff. auto.
      - apply Hcell. rewrite Haddr, !in_app_iff. auto. }
    { intros b Eb. pose proof (Hna b Eb) as Hb1. split; [|split].
      - intros ->. apply Hd2. apply in_or_app. auto.
      - intros Ep. pose proof (Hpa b Ep) as Hb2. apply (NoDup_app_disj _ _ b Hd1); [apply in_or_app; auto|exact Hb1].
      - apply Hcell. rewrite Haddr, in_app_iff. cbn [In]. auto. }
    { exact Hi. }
    rewrite (hload_eq _ _ _ Ea). cbn [bind c_prev c_next c_val snd].
    match type of Eu with bind ?q _ = _ => set (P := q) in * end.
    destruct P as [[h0 tb0]| | |]; try discriminate. cbn [bind fst snd] in *.
    destruct (hload h0 (Some a)) as [c1| | |]; try discriminate. cbn [bind] in *.
    match type of Eu with bind ?q _ = _ => set (Q := q) in * end.
    destruct Q as [hq| | |]; try discriminate. cbn [bind] in *. inversion Eu; subst hq tb0. clear Eu.
    rewrite memcpy_part by lia. cbn [bind]. rewrite Efr. cbn [bind].
    destruct (set_remove_ok compare hash TO hash_lt _ lk k Hrep Hs Hlk) as (al' & q & Esk & Hq & R' & Hmx').
    rewrite Esk. cbn [bind fst snd].
    eexists; split; [reflexivity|].
    assert (Htab : length (if is_null p then upd (ht_table t) i n else ht_table t) = ht_buckets t).
    { destruct (is_null p); [apply upd_length|reflexivity]. }
    split; [|unfold ht_buckets in *; cbn [ht_ksize ht_dsize ht_table]; rewrite ?Htab; auto].
    assert (Ilk : forall x, In x (firstn q lk ++ skipn (S q) lk) <-> In x lk /\ x <> k).
    { intros x. apply (in_delete compare TO lk q k x Hs Hq). }
    assert (Hkk : NoDup (map ekey (concat (rs i)))) by apply (Hb i Hi).
    assert (Hother : forall y, In y (concat pre ++ l1 ++ l2 ++ concat post) -> In y (concat (rs i)) /\ ekey y <> k).
    { intros y Hy. rewrite Er, concat_mid in Hkk |- *. rewrite !map_app in Hkk. cbn [map] in Hkk. rewrite <- !app_assoc in Hkk.
      cbn [app] in Hkk. rewrite app_assoc in Hkk. apply NoDup_remove_2 in Hkk. rewrite !in_app_iff in Hy. split.
      - rewrite !in_app_iff. cbn [In]. tauto.
      - intros E. apply Hkk. change (ekey (a, (k, w))) with k. rewrite <- E, !in_app_iff.
        destruct Hy as [Hy|[Hy|[Hy|Hy]]]; apply (in_map ekey) in Hy; auto. }
    exists (fun j => if Nat.eqb j i then taken pre l1 l2 post else rs j), (firstn q lk ++ skipn (S q) lk).
    split.
    { apply linv_update with (rs := rs) (lk := lk); auto.
      - destruct (rev_case l1) as [E1|(l0 & [b1 y1] & E1)].
        + subst l1. cbn [taken]. rewrite concat_app, concat_open. cbn [lastp] in p. subst p. cbn [is_null].
          rewrite nth_error_upd_eq by exact Hi. reflexivity.
        + assert (Ep : p = Some b1) by (unfold p; rewrite E1, lastp_app; reflexivity). rewrite Ep. cbn [is_null].
          assert (Et : taken pre l1 l2 post = pre ++ l1 :: open_run l2 ++ post) by (rewrite E1; destruct l0; reflexivity).
          rewrite Et, (Ht i Hi), Er, !concat_mid. f_equal. rewrite !firstp_app. rewrite E1, !firstp_app. cbn [firstp]. reflexivity.
      - intros j Nj. destruct (is_null p); [|reflexivity]. rewrite nth_error_upd_neq by auto. reflexivity.
      - apply taken_ok with (h := ht_heap t) (a := a) (x := (k, w)); [exact Hbi|]. split; [exact U1|]. split; [exact U2|exact U3].
      - intros b Hb'. left. rewrite Er. eapply addrs_taken; eauto.
      - intros b Nb Lb. rewrite Haddr in Nb. apply U3.
        + intros ->. apply Nb. rewrite in_app_iff. cbn. auto.
        + intros E. apply Nb. rewrite !in_app_iff. left; right. exact (Hpa b E).
        + intros E. apply Nb. apply in_or_app; right. cbn [In]. right. exact (Hna b E).
      - intros x Hin'. apply in_taken in Hin'. destruct (Hother x Hin') as [B1 B2].
        destruct (Hx i x Hi B1) as (A1 & A2 & A3). split; [exact A1|]. split; [exact A2|]. apply Ilk. auto.
      - intros j x Hj Nj Hin'. apply Ilk. destruct (Hx j x Hj Hin') as (A1 & _ & A3). split; [exact A3|].
        intros E. apply Nj. rewrite <- A1, E. reflexivity.
      - now apply delete_sorted.
      - rewrite Hsz. lia.
      - lia. }
    destruct (drop_name_spec k (names s) Hnd) as [D1 D2].
    split; [|split; [exact D1|]].
    { intros j Hj. unfold ht_buckets in Hj. cbn [ht_table] in Hj. rewrite Htab in Hj. cbn [fst put runs]. unfold home. fold i.
      destruct (Nat.eqb_spec j i) as [->|Nj]; [|apply Hr; exact Hj]. rewrite (Hr i Hi), Er.
      rewrite take_out_content by (rewrite <- Er; exact Hkk). destruct l1; reflexivity. }
    { intros x. cbn [fst put names]. rewrite D2, Ilk, Hnm. tauto. }
  - exists t. split; [|split; [exact Hsim|auto]].
    unfold hashtable_remove. destruct (hashtable_empty t); [reflexivity|].
    rewrite (lookup_entry_loose t rs lk k Hinv). fold i. rewrite Ef. reflexivity.
Qed.

Lemma sim_init b ks ds : exists t, hashtable_init_size b ks ds = Ok t /\ sim t empty_shelf /\
  ht_ksize t = ks /\ ht_dsize t = ds /\ ht_buckets t = if b <=? 0 then 37 else b.
Proof.
  unfold hashtable_init_size. cbn [bind set_init array_list_init Nat.ltb Nat.leb].
  set (n := if b <=? 0 then 37 else b).
  assert (Hn : 0 < n) by (unfold n; destruct (Nat.leb_spec b 0); lia).
  eexists; split; [reflexivity|].
  assert (HB : ht_buckets (HT (K := K) [] (repeat None n) 0 0 (AL (repeat None 2) 0 2) ks ds) = n) by apply repeat_length.
  split; [|split; [reflexivity|split; [reflexivity|exact HB]]].
  exists (fun _ => []), []. split; [|split; [reflexivity|split; [constructor|cbn; tauto]]].
  unfold linv. cbv zeta. rewrite HB. cbn [ht_table ht_heap ht_keys ht_size ht_dsize].
  split; [exact Hn|]. split.
  { intros i Hi. rewrite nth_error_repeat by exact Hi. reflexivity. }
  split. { intros i _. repeat split; constructor. }
  split. { intros i j a _ _ []. }
  split. { intros i x _ []. }
  destruct (rep_init 2 (AL (repeat (@None K) 2) 0 2) eq_refl) as (R & _).
  split; [exact R|]. split; [constructor|]. split; [reflexivity|]. cbn. lia.
Qed.

Lemma sim_step t s o : sim t s -> sized (ht_dsize t) o -> ht_ksize t <= ht_dsize t ->
  let home := fun k => hash k (ht_buckets t) in
  exists t', hstep compare hash t o = Ok (t', snd (shelf_step eqk home (ht_ksize t) s o)) /\
    sim t' (fst (shelf_step eqk home (ht_ksize t) s o)) /\
    ht_ksize t' = ht_ksize t /\ ht_dsize t' = ht_dsize t /\ ht_buckets t' = ht_buckets t.
Proof.
  intros Hsim Hsz Hks home. destruct o as [k v|k buf|k buf|]; cbn [hstep sized] in *.
  - apply sim_insert; assumption.
  - rewrite (sim_lookup t s k buf Hsim Hsz). cbn [bind]. exists t. split; [reflexivity|]. split; [exact Hsim|auto].
  - apply sim_remove; assumption.
  - exists t. cbn [shelf_step fst snd]. split; [|split; [exact Hsim|auto]].
    destruct Hsim as (rs & lk & (_ & _ & _ & _ & _ & Hrep & Hs & _) & _ & Hnd & Hnm).
    unfold hashtable_size. destruct Hrep as (-> & _).
    rewrite (names_length (names s) lk Hnd (before_nodup lk Hs) Hnm). reflexivity.
Qed.

Lemma sim_run ops : forall t s, sim t s -> Forall (sized (ht_dsize t)) ops -> ht_ksize t <= ht_dsize t ->
  let home := fun k => hash k (ht_buckets t) in
  exists t', hrun compare hash t ops = Ok (t', snd (shelf_run eqk home (ht_ksize t) s ops)) /\
    sim t' (fst (shelf_run eqk home (ht_ksize t) s ops)) /\
    ht_ksize t' = ht_ksize t /\ ht_dsize t' = ht_dsize t /\ ht_buckets t' = ht_buckets t.
Proof.
  induction ops as [|o ops IH]; intros t s Hsim Hsz Hks home; cbn [hrun shelf_run].
  - exists t. split; [reflexivity|]. split; [exact Hsim|auto].
  - inversion Hsz as [|? ? Ho Hrest]; subst.
    destruct (sim_step t s o Hsim Ho Hks) as (t1 & E1 & S1 & K1 & D1 & B1). rewrite E1. cbn [bind fst snd].
    destruct (IH t1 _ S1) as (t2 & E2 & S2 & K2 & D2 & B2); [rewrite D1; exact Hrest|lia|].
    rewrite K1, B1 in E2, S2. fold home in E2, S2. rewrite E2. cbn [bind fst snd].
    exists t2. split; [reflexivity|]. split; [exact S2|]. repeat split; congruence.
Qed.

(** *** Clearing *)
Lemma live_gone (cs : list nat) : forall h h' : heap (K * bytes), NoDup cs -> length h' = length h ->
  (forall a, In a cs -> exists c, nth_error h a = Some (Some c)) ->
  (forall a, In a cs -> nth_error h' a = Some None) -> (forall a, ~ In a cs -> nth_error h' a = nth_error h a) ->
  live h' + length cs = live h.
Proof.
  induction cs as [|a cs IH]; intros h h' Hd Hl Hc Hn Ho.
  - cbn. assert (E : h' = h); [|rewrite E; lia]. apply nth_error_ext_eq. intros a. apply Ho. auto.
  - inversion Hd as [|? ? Na Hd']; subst. destruct (Hc a (or_introl eq_refl)) as [c Ec].
    pose proof (live_free h a c Ec) as Lf. specialize (IH (upd h a None) h' Hd'). cbn [length].
    assert (live h' + length cs = live (upd h a None)); [|lia]. apply IH.
    + rewrite upd_length. exact Hl.
    + intros b Hb. destruct (Hc b (or_intror Hb)) as [cb Eb]. exists cb. rewrite nth_error_upd_neq; [exact Eb|]. intros ->. contradiction.
    + intros b Hb. apply Hn. cbn. auto.
    + intros b Hb. destruct (Nat.eq_dec a b) as [->|N].
      * rewrite nth_error_upd_eq by (eapply some_lt; eauto). apply Hn. cbn. auto.
      * rewrite nth_error_upd_neq by exact N. apply Ho. cbn. intros [E|E]; contradiction.
Qed.

Definition entries (rs : nat -> list (list entry)) (js : list nat) : list entry := flat_map (fun i => concat (rs i)) js.
Notation vals l := (map (fun x : entry => snd (snd x)) l).

Lemma sim_clear t rs lk : linv t rs lk -> 8 <= ht_dsize t ->
  exists t' klog vlog, hashtable_clear hash t = Ok (t', (klog, vlog)) /\
    Permutation vlog (filter nonnull (vals (entries rs (seq 0 (ht_buckets t))))) /\
    ht_table t' = repeat None (ht_buckets t) /\ ht_size t' = 0%Z /\
    live (ht_heap t') + length (entries rs (seq 0 (ht_buckets t))) = live (ht_heap t).
Proof.
  intros (HB & Ht & Hb & Hdis & Hx & Hrep & Hs & Hsz & Hmx) H8.
  set (B := ht_buckets t) in *.
  pose (rest := fun (js : list nat) i => if in_dec Nat.eq_dec i js then [] else rs i).
  pose (inv := fun (i : nat) (s : heap (K * bytes) * list (option nat) * bytes * list K * list bytes) =>
    let '(h, table, data, klog, vlog) := s in
    exists js, NoDup js /\ (forall j, In j js -> j < B) /\ length table = B /\
      (forall j, j < B -> nth_error table j = Some (firstp (concat (rest js j)) None)) /\
      length data = ht_dsize t /\ length h = length (ht_heap t) /\
      (forall j a, j < B -> ~ In j js -> In a (addrs (rs j)) -> nth_error h a = nth_error (ht_heap t) a) /\
      (forall j k, j < i -> nth_error lk j = Some k -> In (hash k B) js) /\
      vlog = filter nonnull (vals (entries rs js)) /\
      live h + length (entries rs js) = live (ht_heap t)).
  assert (Hlk : al_size (ht_keys t) = length lk) by apply Hrep.
  destruct (for_up_inv inv
    (fun i s =>
       let '(h, table, data, klog, vlog) := s in
       let! k := set_value_at (ht_keys t) i in
       match snd k with
       | None => UB
       | Some key =>
           let bucket := hash key (ht_buckets t) in
           let! entry := aget table bucket in
           let! table := aset table bucket None in
           match entry with
           | None => Ok (h, table, data, klog, vlog)
           | Some _ =>
               let! q := clear_chain (S (length (ht_heap t))) h entry key data (ht_dsize t) klog vlog in
               let '(h, data, klog, vlog) := q in
               Ok (h, table, data, klog, vlog)
           end
       end) 0 (al_size (ht_keys t)) (ht_heap t, ht_table t, malloc_bytes (ht_dsize t), [], []))
    as (s' & Es & Hs').
  { exists []. split; [constructor|]. split; [intros j []|]. split; [reflexivity|].
    split; [intros j Hj; cbn; apply Ht; exact Hj|]. split; [apply malloc_length|]. split; [reflexivity|].
    split; [reflexivity|]. split; [intros j k Hj; lia|]. split; [reflexivity|]. cbn. lia. }
  { intros i [[[[h table] data] klog] vlog] Hi (js & J1 & J2 & J3 & J4 & J5 & J6 & J7 & J8 & J9 & J10).
    destruct (nth_error lk i) as [key|] eqn:Ek; [|apply nth_error_None in Ek; lia].
    assert (Esv : set_value_at (ht_keys t) i = Ok (1%Z, Some key)).
    { unfold set_value_at, array_list_value_at. destruct (Nat.leb_spec (al_size (ht_keys t)) i); [lia|].
      rewrite (slot_rep _ _ _ _ Hrep Ek). reflexivity. }
    rewrite Esv. cbn [bind snd]. fold B. set (b := hash key B).
    assert (Lb : b < B) by (apply hash_lt; exact HB).
    rewrite (aget_nth _ _ _ (J4 b Lb)). cbn [bind]. rewrite aset_ok by lia. cbn [bind].
    assert (Hstep : forall j k, j < S i -> nth_error lk j = Some k -> j < i /\ nth_error lk j = Some k \/ k = key).
    { intros j k Hj Ej. destruct (Nat.eq_dec j i) as [->|N]; [right; congruence|left; split; [lia|exact Ej]]. }
    destruct (in_dec Nat.eq_dec b js) as [Hin|Hin].
    - assert (Er : rest js b = []) by (unfold rest; destruct (in_dec Nat.eq_dec b js); [reflexivity|contradiction]).
      rewrite Er. cbn [concat firstp].
      eexists; split; [reflexivity|]. exists js. split; [exact J1|]. split; [exact J2|]. split; [rewrite upd_length; exact J3|].
      split.
      { intros j Hj. destruct (Nat.eq_dec b j) as [<-|N].
        - rewrite nth_error_upd_eq by lia. rewrite Er. reflexivity.
        - rewrite nth_error_upd_neq by exact N. apply J4. exact Hj. }
      split; [exact J5|]. split; [exact J6|]. split; [exact J7|]. split; [|auto].
      intros j k Hj Ej. destruct (Hstep j k Hj Ej) as [[A1 A2]| ->]; [exact (J8 j k A1 A2)|exact Hin].
    - assert (Er : rest js b = rs b) by (unfold rest; destruct (in_dec Nat.eq_dec b js); [contradiction|reflexivity]).
      rewrite Er. destruct (Hb b Lb) as (C1 & C2 & _).
      set (cs := concat (rs b)) in *.
      assert (Hnew : forall h' d' klog' vlog', length d' = ht_dsize t -> length h' = length h ->
        (forall a, In a (map fst cs) -> nth_error h' a = Some None) ->
        (forall a, ~ In a (map fst cs) -> nth_error h' a = nth_error h a) ->
        vlog' = vlog ++ filter nonnull (vals cs) -> inv (S i) (h', upd table b None, d', klog', vlog')).
      { intros h' d' klog' vlog' F1 F2 F3 F4 F5. exists (js ++ [b]).
        split.
        { apply NoDup_Add with (a := b) (l := js ++ []); [apply Add_app|]. rewrite app_nil_r. auto. }
        split; [intros j Hj; apply in_app_or in Hj; destruct Hj as [Hj|[<-|[]]]; auto|].
        split; [rewrite upd_length; exact J3|].
        split.
        { intros j Hj. unfold rest. destruct (Nat.eq_dec b j) as [<-|N].
          - rewrite nth_error_upd_eq by lia. destruct (in_dec Nat.eq_dec b (js ++ [b])) as [_|N]; [reflexivity|].
            destruct N. apply in_or_app. cbn. auto.
          - rewrite nth_error_upd_neq by exact N. rewrite (J4 j Hj). unfold rest.
            destruct (in_dec Nat.eq_dec j js) as [A|A], (in_dec Nat.eq_dec j (js ++ [b])) as [A'|A']; try reflexivity.
            + destruct A'. apply in_or_app. auto.
            + apply in_app_or in A'. cbn in A'. destruct A' as [A'|[A'|[]]]; contradiction. }
        split; [exact F1|]. split; [congruence|].
        split.
        { intros j a Lj Nj Ha. rewrite F4.
          - apply (J7 j a Lj); [|exact Ha]. intros A. apply Nj, in_or_app. auto.
          - intros Ha'. apply Nj, in_or_app. right. left. exact (Hdis b j a Lb Lj Ha' Ha). }
        split.
        { intros j k Hj Ej. apply in_or_app. destruct (Hstep j k Hj Ej) as [[A1 A2]| ->]; [left; exact (J8 j k A1 A2)|right; cbn; auto]. }
        unfold entries. rewrite flat_map_app. cbn [flat_map]. rewrite app_nil_r. fold (entries rs js). fold cs. split.
        { rewrite map_app, filter_app, <- J9. exact F5. }
        rewrite app_length.
        assert (Hlv : live h' + length (map fst cs) = live h).
        { apply live_gone; auto. intros a Ha. rewrite (J7 b a Lb Hin Ha). apply in_map_iff in Ha. destruct Ha as ([a' y] & Ea & Hy). cbn in Ea. subst a'.
          destruct (nseg_in _ _ _ _ _ C1 Hy) as (n & p & E). eauto. }
        rewrite map_length in Hlv. lia. }
      assert (Hnh : nseg h cs None).
      { apply nseg_ext with (2 := C1). intros a Ha. exact (J7 b a Lb Hin Ha). }
      destruct cs as [|[a0 kv0] cs0] eqn:Ecs0.
      + cbn [firstp]. eexists; split; [reflexivity|]. apply Hnew; cbn; auto.
        * intros a [].
        * now rewrite app_nil_r.
      + rewrite <- Ecs0 in *. assert (Ef : firstp cs None = Some a0) by (rewrite Ecs0; reflexivity).
        rewrite Ef. rewrite <- Ef.
        destruct (clear_chain_ok hash hash_lt (ht_dsize t) cs h key data klog vlog (S (length (ht_heap t))))
          as (h' & d' & E & F1 & F2 & F3 & F4); auto.
        * intros x Hin'. apply (Hx b x Lb Hin').
        * apply nseg_length in Hnh; [|exact C2]. lia.
        * rewrite E. cbn [bind]. eexists; split; [reflexivity|]. apply Hnew; auto. }
  destruct s' as [[[[h table] data] klog] vlog].
  destruct Hs' as (js & J1 & J2 & J3 & J4 & J5 & J6 & J7 & J8 & J9 & J10).
  assert (Hempty : forall j, j < B -> ~ In j js -> concat (rs j) = []).
  { intros j Lj Nj. destruct (concat (rs j)) as [|x cs] eqn:E; [reflexivity|]. exfalso. apply Nj.
    destruct (Hx j x Lj) as (A1 & _ & A3); [rewrite E; cbn; auto|]. apply In_nth_error in A3. destruct A3 as [q Eq].
    rewrite <- A1. apply (J8 q _); [rewrite Hlk; eapply some_lt; eauto|exact Eq]. }
  assert (Hperm : Permutation (entries rs js) (entries rs (seq 0 B))).
  { assert (Hp : Permutation (seq 0 B) (js ++ filter (fun j => if in_dec Nat.eq_dec j js then false else true) (seq 0 B))).
    { apply NoDup_Permutation.
      - apply seq_NoDup.
      - apply NoDup_app_join; [exact J1|apply NoDup_filter, seq_NoDup|]. intros j Hj Hf. apply filter_In in Hf. destruct Hf as [_ Hf].
        destruct (in_dec Nat.eq_dec j js); [discriminate|contradiction].
      - intros j. rewrite in_app_iff, filter_In, in_seq. destruct (in_dec Nat.eq_dec j js) as [A|A]; [|intuition lia].
        pose proof (J2 j A). intuition lia. }
    apply Permutation_sym. eapply Permutation_trans; [apply Permutation_flat_map; exact Hp|].
    unfold entries. rewrite flat_map_app.
    assert (E0 : flat_map (fun i => concat (rs i)) (filter (fun j => if in_dec Nat.eq_dec j js then false else true) (seq 0 B)) = []).
    { apply flat_map_nil. intros j Hj. apply filter_In in Hj. destruct Hj as [Hj Hf]. apply in_seq in Hj.
      destruct (in_dec Nat.eq_dec j js); [discriminate|]. apply Hempty; [lia|assumption]. }
    rewrite E0, app_nil_r. apply Permutation_refl. }
  exists (HT h table 0 (ht_collisions t) (set_clear (ht_keys t)) (ht_ksize t) (ht_dsize t)), klog, vlog.
  split.
  { unfold hashtable_clear.
    match goal with |- bind ?x _ = _ =>
      replace x with (Ok (h, table, data, klog, vlog)) by (symmetry; exact Es) end. reflexivity. }
  split; [rewrite J9; apply filter_perm, Permutation_map; exact Hperm|].
  split.
  { cbn [ht_table]. apply nth_error_ext_eq. intros j. destruct (Nat.lt_ge_cases j B) as [Lj|Gj].
    - rewrite (J4 j Lj), nth_error_repeat by exact Lj. unfold rest.
      destruct (in_dec Nat.eq_dec j js) as [A|A]; [reflexivity|]. rewrite (Hempty j Lj A). reflexivity.
    - transitivity (@None (option nat)); [|symmetry]; apply nth_error_None; [lia|rewrite repeat_length; lia]. }
  split; [reflexivity|]. cbn [ht_heap]. rewrite <- (Permutation_length Hperm). exact J10.
Qed.

(** *** The runs against the finite map *)
Variable home : K -> nat.

Definition keys_once (s : shelf K) : Prop := forall i, NoDup (map fst (concat (runs s i))).

Lemma stored_in s k v : keys_once s -> (stored eqk home s k = Some v <-> In (k, v) (concat (runs s (home k)))).
Proof.
  intros Hs. apply (assoc_some eqk (eqk_spec compare TO)). apply Hs.
Qed.

Lemma cut_split k r l1 l2 : cut eqk k r = Some (l1, l2) -> exists v, r = l1 ++ (k, v) :: l2.
Proof.
  revert l1. induction r as [|[k' w] r IH]; intros l1 H; [discriminate|]. cbn [cut fst] in H.
  destruct (eqk k' k) eqn:E.
  - apply (eqk_spec compare TO) in E. subst. inversion H; subst. exists w. reflexivity.
  - destruct (cut eqk k r) as [[a b]|]; [|discriminate]. cbn in H. inversion H; subst. destruct (IH a eq_refl) as [v ->]. exists v. reflexivity.
Qed.

Lemma cut_missing k r : cut eqk k r = None -> ~ In k (map fst r).
Proof.
  induction r as [|[k' w] r IH]; intros H; [auto|]. cbn [cut fst] in H.
  destruct (eqk k' k) eqn:E; [discriminate|]. destruct (cut eqk k r) as [[a b]|]; [discriminate|].
  cbn [map fst In]. intros [->|Hin]; [|exact (IH eq_refl Hin)].
  rewrite (proj2 (eqk_spec compare TO k k) eq_refl) in E. discriminate.
Qed.

Lemma concat_as_run (r : @run K) : concat (as_run r) = r.
Proof. destruct r; [reflexivity|]. cbn. now rewrite app_nil_r. Qed.

Lemma take_out_spec k rest : forall front,
  NoDup (map fst (concat (front ++ rest))) -> ~ In k (map fst (concat front)) ->
  NoDup (map fst (concat (take_out eqk k front rest))) /\
  ~ In k (map fst (concat (take_out eqk k front rest))) /\
  (forall e, In e (concat (take_out eqk k front rest)) -> In e (concat (front ++ rest))).
Proof.
  induction rest as [|r rest IH]; intros front Hd Hk; cbn [take_out].
  - rewrite app_nil_r in *. auto.
  - destruct (cut eqk k r) as [[l1 l2]|] eqn:Ec.
    + apply cut_split in Ec. destruct Ec as [v ->]. rewrite concat_mid in *.
      rewrite !map_app in Hd. cbn [map fst] in Hd. rewrite <- !app_assoc in Hd. cbn [app] in Hd. rewrite app_assoc in Hd.
      pose proof (NoDup_remove_1 _ _ _ Hd) as D1. pose proof (NoDup_remove_2 _ _ _ Hd) as D2.
      rewrite <- app_assoc in D1. rewrite !in_app_iff in D2.
      destruct l1 as [|e1 l1].
      * rewrite concat_app, concat_as_run, map_app. split; [eapply NoDup_app_r; eapply NoDup_app_r; exact D1|].
        split; [rewrite in_app_iff; tauto|]. intros e. rewrite !in_app_iff. cbn [In]. tauto.
      * unfold run. rewrite concat_mid, concat_app, concat_as_run, !map_app. split; [exact D1|].
        split; [rewrite !in_app_iff; tauto|]. intros e. rewrite !in_app_iff. cbn [In]. tauto.
    + apply cut_missing in Ec.
      assert (Ea : front ++ r :: rest = (front ++ [r]) ++ rest) by (rewrite <- app_assoc; reflexivity).
      rewrite Ea in *. apply IH; [exact Hd|]. rewrite concat_app, map_app, in_app_iff. cbn [concat]. rewrite app_nil_r. tauto.
Qed.

Definition below (w : nat) (s : shelf K) (m : list (K * bytes)) : Prop :=
  keys_once s /\ NoDup (map fst m) /\
  (forall k v, stored eqk home s k = Some v -> assoc eqk m k = Some v /\ length v = w) /\
  (forall k, In k (map fst m) -> In k (names s)) /\ NoDup (names s).

Lemma stored_put s k rs ks x : stored eqk home (put home s k rs ks) x =
  if Nat.eqb (home x) (home k) then option_map snd (find (fun e => eqk (fst e) x) (concat rs)) else stored eqk home s x.
Proof. unfold stored, put. cbn [runs]. destruct (Nat.eqb (home x) (home k)); reflexivity. Qed.

Lemma overwrite_concat k v rs : concat (overwrite eqk k v rs) = map (fun e => if eqk (fst e) k then (fst e, v) else e) (concat rs).
Proof. unfold overwrite. now rewrite concat_map. Qed.

Lemma overwrite_find k v (l : list (K * bytes)) x :
  option_map snd (find (fun e => eqk (fst e) x) (map (fun e => if eqk (fst e) k then (fst e, v) else e) l)) =
  if eqk k x then option_map (fun _ => v) (find (fun e => eqk (fst e) x) l) else option_map snd (find (fun e => eqk (fst e) x) l).
Proof.
  induction l as [|[k' w] l IH]; cbn [map find]; [destruct (eqk k x); reflexivity|].
  destruct (eqk (fst (k', w)) k) eqn:E; cbn [fst] in *.
  - apply (eqk_spec compare TO) in E. subst k'. destruct (eqk k x) eqn:Ex; [reflexivity|]. rewrite IH. reflexivity.
  - destruct (eqk k' x) eqn:Ex.
    + apply (eqk_spec compare TO) in Ex. subst k'. destruct (eqk k x) eqn:Ey; [|reflexivity].
      apply (eqk_spec compare TO) in Ey. subst. rewrite (proj2 (eqk_spec compare TO x x) eq_refl) in E. discriminate.
    + exact IH.
Qed.

Lemma assoc_without m k x : x <> k -> assoc eqk (without eqk m k) x = assoc eqk m x.
Proof.
  intros N. unfold assoc, without. induction m as [|[k' w] m IH]; [reflexivity|]. cbn [filter find fst].
  destruct (eqk k' k) eqn:E; cbn [negb].
  - apply (eqk_spec compare TO) in E. subst k'. destruct (eqk k x) eqn:Ex; [apply (eqk_spec compare TO) in Ex; congruence|exact IH].
  - cbn [find fst]. destruct (eqk k' x); [reflexivity|exact IH].
Qed.

Lemma eqk_refl k : eqk k k = true.
Proof. apply (eqk_spec compare TO). reflexivity. Qed.

Lemma assoc_cons m k v x : assoc eqk ((k, v) :: m) x = if eqk k x then Some v else assoc eqk m x.
Proof. unfold assoc. cbn [find fst]. destruct (eqk k x); reflexivity. Qed.

Lemma eqk_neq a b : a <> b -> eqk a b = false.
Proof. intros N. destruct (eqk a b) eqn:E; [apply (eqk_spec compare TO) in E; contradiction|reflexivity]. Qed.

Lemma key_cases (a b : K) : a = b \/ a <> b.
Proof. destruct (eqk a b) eqn:E; [left; now apply (eqk_spec compare TO)|right; intros ->; rewrite eqk_refl in E; discriminate]. Qed.

Lemma below_step w s m o : below w s m -> sized w o ->
  below w (fst (shelf_step eqk home w s o)) (fst (hspec_step eqk m o)) /\
  no_worse_than o (snd (shelf_step eqk home w s o)) (snd (hspec_step eqk m o)).
Proof.
  intros (Hk & Hm & Hst & Hnm & Hnd) Hsz. destruct o as [k v|k buf|k buf|]; cbn [shelf_step hspec_step sized no_worse_than] in *.
  - destruct (stored eqk home s k) as [old|] eqn:Es.
    + destruct (Hst k old Es) as [Ea _]. rewrite Ea. cbn [fst snd]. split; [|auto].
      assert (Hkin : In k (map fst m)).
      { apply (assoc_some eqk (eqk_spec compare TO)) in Ea; [|exact Hm]. change k with (fst (k, old)). now apply in_map. }
      split; [|split; [|split; [|split; [|exact Hnd]]]].
      * intros i. cbn [put runs]. destruct (Nat.eqb i (home k)); [|apply Hk]. rewrite overwrite_concat, map_map.
        erewrite map_ext; [apply Hk|]. intros e. cbn. destruct (eqk (fst e) k); reflexivity.
      * cbn. constructor; [|now apply without_nodup]. rewrite (without_keys eqk (eqk_spec compare TO)). tauto.
      * intros x u. rewrite stored_put, overwrite_concat, overwrite_find, assoc_cons. destruct (key_cases k x) as [->|N].
        -- rewrite Nat.eqb_refl, eqk_refl. unfold stored in Es. destruct (find _ _); [|discriminate]. cbn. intros E. inversion E; subst. auto.
        -- rewrite (eqk_neq k x N). rewrite assoc_without by auto. intros E. apply Hst. unfold stored in *.
           destruct (Nat.eqb_spec (home x) (home k)) as [Eh|_]; [rewrite Eh; exact E|exact E].
      * intros x. cbn [map fst In put names]. rewrite (without_keys eqk (eqk_spec compare TO)). intros [<-|[H _]]; auto.
    + destruct (assoc eqk m k) as [old|] eqn:Ea; cbn [fst snd]; (split; [|auto]).
      all: destruct (add_name_spec k (names s) Hnd) as [D1 D2].
      all: assert (Hko : keys_once (put home s k (add_front (k, v) (runs s (home k))) (add_name eqk k (names s)))).
      1,3: intros i; cbn [put runs]; destruct (Nat.eqb_spec i (home k)) as [->|_]; [|apply Hk];
           assert (Ec : concat (add_front (k, v) (runs s (home k))) = (k, v) :: concat (runs s (home k))) by (destruct (runs s (home k)); reflexivity);
           rewrite Ec; cbn [map fst]; constructor; [|apply Hk]; apply (assoc_none eqk (eqk_spec compare TO)); exact Es.
      all: assert (Hnew : forall x u, stored eqk home (put home s k (add_front (k, v) (runs s (home k))) (add_name eqk k (names s))) x = Some u ->
                    (x = k /\ u = v) \/ (x <> k /\ stored eqk home s x = Some u)).
      1,3: intros x u; rewrite stored_put;
           assert (Ec : concat (add_front (k, v) (runs s (home k))) = (k, v) :: concat (runs s (home k))) by (destruct (runs s (home k)); reflexivity);
           rewrite Ec; cbn [find fst]; destruct (key_cases k x) as [<-|N];
           [rewrite Nat.eqb_refl, eqk_refl; cbn; intros E; inversion E; auto|];
           rewrite (eqk_neq k x N); intros E; right; split; [auto|]; unfold stored;
           destruct (Nat.eqb_spec (home x) (home k)) as [Eh|_]; [rewrite Eh; exact E|exact E].
      * split; [exact Hko|]. split; [cbn; constructor; [|now apply without_nodup]; rewrite (without_keys eqk (eqk_spec compare TO)); tauto|].
        split; [|split; [|exact D1]].
        -- intros x u E. rewrite assoc_cons. destruct (Hnew x u E) as [[-> ->]|[N E']]; [rewrite eqk_refl; auto|].
           rewrite (eqk_neq k x) by auto. rewrite assoc_without by auto. apply Hst. exact E'.
        -- intros x. cbn [map fst In put names]. rewrite (without_keys eqk (eqk_spec compare TO)), D2. intros [<-|[H _]]; auto.
      * split; [exact Hko|]. split; [cbn; constructor; [|exact Hm]; apply (assoc_none eqk (eqk_spec compare TO)); exact Ea|].
        split; [|split; [|exact D1]].
        -- intros x u E. rewrite assoc_cons. destruct (Hnew x u E) as [[-> ->]|[N E']]; [rewrite eqk_refl; auto|].
           rewrite (eqk_neq k x) by auto. apply Hst. exact E'.
        -- intros x. cbn [map fst In put names]. rewrite D2. intros [<-|H]; auto.
  - split; [repeat split; auto; apply (Hst k0 v H)|]. cbn [fst snd]. destruct (stored eqk home s k) as [v|] eqn:Es; [|auto].
    destruct (Hst k v Es) as [-> _]. auto.
  - destruct (stored eqk home s k) as [v|] eqn:Es.
    + destruct (Hst k v Es) as [Ea Lv]. rewrite Ea. cbn [fst snd].
      split; [|left; f_equal; rewrite firstn_all2, skipn_all2 by lia; apply app_nil_r].
      destruct (take_out_spec k (runs s (home k)) []) as (T1 & T2 & T3); [apply Hk|auto|].
      destruct (drop_name_spec k (names s) Hnd) as [D1 D2].
      assert (Hko : keys_once (put home s k (take_out eqk k [] (runs s (home k))) (drop_name eqk k (names s)))).
      { intros i. cbn [put runs]. destruct (Nat.eqb i (home k)); [exact T1|apply Hk]. }
      split; [exact Hko|]. split; [now apply without_nodup|]. split; [|split; [|exact D1]].
      * intros x u E. apply (stored_in _ x u Hko) in E. cbn [put runs] in E.
        assert (Hx : x <> k /\ stored eqk home s x = Some u).
        { destruct (Nat.eqb_spec (home x) (home k)) as [Eh|Nh].
          - split; [|apply stored_in; [exact Hk|]; rewrite Eh; apply T3; exact E].
            intros ->. apply T2. change k with (fst (k, u)). now apply in_map.
          - split; [congruence|]. apply stored_in; assumption. }
        destruct Hx as [N E']. rewrite assoc_without by exact N. apply Hst. exact E'.
      * intros x. rewrite (without_keys eqk (eqk_spec compare TO)). cbn [put names]. rewrite D2. intros [H1 H2]. auto.
    + destruct (assoc eqk m k) as [v|] eqn:Ea; cbn [fst snd]; (split; [|auto]).
      * split; [exact Hk|]. split; [now apply without_nodup|]. split; [|split; [|exact Hnd]].
        -- intros x u E. rewrite assoc_without by congruence. apply Hst. exact E.
        -- intros x. rewrite (without_keys eqk (eqk_spec compare TO)). intros [H _]. auto.
      * split; [exact Hk|]. auto.
  - cbn [fst snd]. split; [split; [exact Hk|auto]|]. split; [|reflexivity].
    apply inj_le. rewrite <- (map_length fst m). apply NoDup_incl_length; auto.
Qed.

Lemma below_run w ops : forall s m, below w s m -> Forall (sized w) ops ->
  all_no_worse ops (snd (shelf_run eqk home w s ops)) (snd (hspec_run eqk m ops)).
Proof.
  induction ops as [|o ops IH]; intros s m Hb Hsz; [exact I|]. inversion Hsz as [|? ? Ho Hrest]; subst.
  cbn [shelf_run hspec_run snd all_no_worse]. destruct (below_step w s m o Hb Ho) as [H1 H2]. split; [exact H2|]. apply IH; assumption.
Qed.
End Runs.
