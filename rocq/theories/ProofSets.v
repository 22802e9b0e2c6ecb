(** Facts about the ordered sets of ModelCluster.v. *)
From Verif Require Import Base ListFacts ModelCluster.
From Coq Require Import ZifyBool Sorting.Sorted.
Local Open Scope nat_scope.

Definition ssorted (l : list nat) : Prop := StronglySorted lt l.

Lemma ssorted_cons x l : ssorted (x :: l) <-> ssorted l /\ (forall y, In y l -> x < y).
Proof.
  unfold ssorted. split.
  - intros H. apply StronglySorted_inv in H. rewrite Forall_forall in H. exact H.
  - intros [H1 H2]. constructor; [exact H1|]. rewrite Forall_forall. exact H2.
Qed.

Lemma ssorted_nodup l : ssorted l -> NoDup l.
Proof.
  induction l as [|x l IH]; intros H; [constructor|].
  apply ssorted_cons in H. destruct H as [H1 H2]. constructor; [|auto].
  intros Hx. apply H2 in Hx. lia.
Qed.

Lemma ssorted_app l1 l2 : ssorted (l1 ++ l2) <-> ssorted l1 /\ ssorted l2 /\ (forall x y, In x l1 -> In y l2 -> x < y).
Proof.
  induction l1 as [|a l1 IH]; cbn [app].
  - split; [intros H|intros (_ & H & _); exact H]. split; [constructor|]. split; [exact H|]. intros x y [].
  - rewrite !ssorted_cons, IH. split.
    + intros ((H1 & H2 & H3) & H4). split; [split; [exact H1|]|split; [exact H2|]].
      * intros y Hy. apply H4. apply in_or_app. auto.
      * intros x y [<-|Hx] Hy; [apply H4; apply in_or_app; auto|auto].
    + intros ((H1 & H4) & H2 & H3). split; [split; [exact H1|split; [exact H2|]]|].
      * intros x y Hx Hy. apply H3; [right; exact Hx|exact Hy].
      * intros y Hy. apply in_app_or in Hy. destruct Hy as [Hy|Hy]; [auto|]. apply H3; [left; reflexivity|exact Hy].
Qed.

Lemma set_insert_spec x l b r : ssorted l -> set_insert x l = (b, r) ->
  ssorted r /\ (forall y, In y r <-> y = x \/ In y l) /\ (b = true <-> ~ In x l)
  /\ length r = length l + (if b then 1 else 0) /\ (b = false -> r = l).
Proof.
  revert b r. induction l as [|a l IH]; intros b r Hs H; cbn [set_insert] in H.
  - inversion H; subst b r. split; [apply ssorted_cons; split; [constructor|intros y []]|].
    split; [intros y; cbn; intuition|]. split; [split; [intros _ []|reflexivity]|]. split; [reflexivity|discriminate].
  - apply ssorted_cons in Hs. destruct Hs as [Hs Ha].
    destruct (x <? a) eqn:Hlt.
    + apply Nat.ltb_lt in Hlt. inversion H; subst b r. split.
      * apply ssorted_cons. split; [apply ssorted_cons; split; assumption|].
        intros y [<-|Hy]; [exact Hlt|]. apply Ha in Hy. lia.
      * split; [intros y; cbn; intuition|]. split.
        -- split; [|reflexivity]. intros _ [->|Hx]; [lia|]. apply Ha in Hx. lia.
        -- split; [cbn; lia|discriminate].
    + apply Nat.ltb_ge in Hlt. destruct (x =? a) eqn:Heq.
      * apply Nat.eqb_eq in Heq. subst a. inversion H; subst b r.
        split; [apply ssorted_cons; split; assumption|].
        split; [intros y; cbn; intuition|]. split; [split; [discriminate|intros Hn; exfalso; apply Hn; left; reflexivity]|].
        split; [lia|reflexivity].
      * apply Nat.eqb_neq in Heq. destruct (set_insert x l) as [b' r'] eqn:Hr.
        inversion H; subst b r. destruct (IH _ _ Hs eq_refl) as (I1 & I2 & I3 & I4 & I5).
        split; [apply ssorted_cons; split; [exact I1|]; intros y Hy; apply I2 in Hy; destruct Hy as [->|Hy]; [lia|auto]|].
        split; [intros y; cbn [In]; rewrite I2; intuition|].
        split; [rewrite I3; cbn [In]; split; [intros Hn [E|E]; [lia|exact (Hn E)]|intros Hn E; apply Hn; right; exact E]|].
        split; [cbn [length]; lia|]. intros Hb. rewrite (I5 Hb). reflexivity.
Qed.

Lemma snd_set_insert x l : ssorted l -> ssorted (snd (set_insert x l)) /\ (forall y, In y (snd (set_insert x l)) <-> y = x \/ In y l).
Proof.
  intros Hs. destruct (set_insert x l) as [b r] eqn:E. destruct (set_insert_spec x l b r Hs E) as (H1 & H2 & _). cbn. auto.
Qed.

Lemma set_remove_spec x l : ssorted l -> ssorted (set_remove x l) /\ (forall y, In y (set_remove x l) <-> In y l /\ y <> x).
Proof.
  induction l as [|a l IH]; intros Hs; cbn [set_remove].
  - split; [constructor|]. intros y; cbn; intuition.
  - apply ssorted_cons in Hs. destruct Hs as [Hs Ha]. destruct (x =? a) eqn:Heq.
    + apply Nat.eqb_eq in Heq. subst a. split; [exact Hs|]. intros y. cbn [In]. split.
      * intros Hy. split; [right; exact Hy|]. apply Ha in Hy. lia.
      * intros [[<-|Hy] Hn]; [lia|exact Hy].
    + apply Nat.eqb_neq in Heq. destruct (IH Hs) as [I1 I2]. split.
      * apply ssorted_cons. split; [exact I1|]. intros y Hy. apply I2 in Hy. apply Ha. apply Hy.
      * intros y. cbn [In]. rewrite I2. split; [intros [<-|[Hy Hn]]; split; auto; lia|intros [[<-|Hy] Hn]; auto].
Qed.

Lemma set_mem_In x l : set_mem x l = true <-> In x l.
Proof.
  unfold set_mem. rewrite existsb_exists. split.
  - intros [y [Hy E]]. apply Nat.eqb_eq in E. subst y. exact Hy.
  - intros H. exists x. split; [exact H|]. apply Nat.eqb_refl.
Qed.

Lemma list_pop_ok l : l <> [] -> exists x r, list_pop l = Ok (x, r) /\ l = r ++ [x].
Proof.
  intros H. unfold list_pop. destruct (rev l) as [|x r] eqn:E.
  - exfalso. apply H. rewrite <- (rev_involutive l), E. reflexivity.
  - exists x, (rev r). split; [reflexivity|]. rewrite <- (rev_involutive l), E. reflexivity.
Qed.

Lemma set_insert_all_spec l s : ssorted s -> ssorted (set_insert_all l s) /\ (forall y, In y (set_insert_all l s) <-> In y l \/ In y s).
Proof.
  unfold set_insert_all. revert s. induction l as [|x l IH]; intros s Hs; cbn [fold_left].
  - split; [exact Hs|]. intros y; cbn; intuition.
  - destruct (snd_set_insert x s Hs) as [H1 H2]. destruct (IH _ H1) as [I1 I2]. split; [exact I1|].
    intros y. rewrite I2, H2. cbn [In]. intuition.
Qed.

Lemma ssorted_ext l1 l2 : ssorted l1 -> ssorted l2 -> (forall y, In y l1 <-> In y l2) -> l1 = l2.
Proof.
  revert l2. induction l1 as [|a l1 IH]; intros [|b l2] H1 H2 H.
  - reflexivity.
  - exfalso. destruct (H b) as [_ Hb]. apply Hb. left. reflexivity.
  - exfalso. destruct (H a) as [Ha _]. apply Ha. left. reflexivity.
  - apply ssorted_cons in H1. apply ssorted_cons in H2. destruct H1 as [H1 Ha], H2 as [H2 Hb].
    assert (a = b).
    { destruct (proj1 (H a) (or_introl eq_refl)) as [E|E]; [congruence|].
      destruct (proj2 (H b) (or_introl eq_refl)) as [F|F]; [congruence|].
      apply Hb in E. apply Ha in F. lia. }
    subst b. f_equal. apply IH; [exact H1|exact H2|]. intros y. specialize (H y). cbn [In] in H. split; intros Hy.
    + destruct (proj1 H (or_intror Hy)) as [E|E]; [|exact E]. apply Ha in Hy. lia.
    + destruct (proj2 H (or_intror Hy)) as [E|E]; [|exact E]. apply Hb in Hy. lia.
Qed.

Lemma ssorted_length l n : ssorted l -> (forall y, In y l -> y < n) -> length l <= n.
Proof.
  intros H1 H2. apply ssorted_nodup in H1.
  assert (incl l (seq 0 n)) by (intros y Hy; apply in_seq; specialize (H2 y Hy); lia).
  pose proof (NoDup_incl_length H1 H). rewrite seq_length in H0. exact H0.
Qed.

Lemma NoDup_snoc {A} (l : list A) x : NoDup (l ++ [x]) <-> NoDup l /\ ~ In x l.
Proof.
  split.
  - intros H. split; [exact (NoDup_app_l _ _ H)|]. intros Hx. apply (NoDup_app_disj _ _ x H Hx). left. reflexivity.
  - intros [H Hx]. induction l as [|a l IH]; cbn [app]; [repeat constructor; intros []|].
    inversion H; subst. constructor.
    + intros Ha. apply in_app_or in Ha. destruct Ha as [Ha|[->|[]]]; [contradiction|]. apply Hx. left. reflexivity.
    + apply IH; [assumption|]. intros Hl. apply Hx. right. exact Hl.
Qed.
