(** Proofs about the labelling of points and the outlier scores (ModelSelect.v). *)
From Coq Require Import Permutation.
From Verif Require Import Base F64 F64Facts ListFacts ModelUtils ModelMst ModelGraph ModelCluster ModelHier ModelSelect SpecTree SpecHier.
From Coq Require Import ZifyBool ZifyNat.
Local Open Scope nat_scope.

(** ** Grouping *)
Definition groups (m : list (nat * list nat)) (o l : nat) : Prop := exists ls, In (o, ls) m /\ In l ls.
Definition nonempty (m : list (nat * list nat)) : Prop := forall o ls, In (o, ls) m -> exists l, In l ls.

Lemma sig_add_groups o l m o' l' : groups (sig_add o l m) o' l' <-> groups m o' l' \/ (o' = o /\ l' = l).
Proof.
  induction m as [|[k ls] m IH]; cbn [sig_add].
  - unfold groups. split.
    + intros (ls & [E|[]] & Hl). injection E as <- <-. destruct Hl as [<-|[]]. auto.
    + intros [(ls & [] & _)|[-> ->]]. exists [l]. split; left; reflexivity.
  - destruct (Nat.eqb_spec k o) as [->|Hne].
    + unfold groups. split.
      * intros (x & [E|Hin] & Hl).
        -- injection E as <- <-. apply in_app_or in Hl. destruct Hl as [Hl|[<-|[]]]; [|auto]. left. exists ls. split; [left; reflexivity|exact Hl].
        -- left. exists x. split; [right; exact Hin|exact Hl].
      * intros [(x & [E|Hin] & Hl)|[-> ->]].
        -- injection E as <- <-. exists (ls ++ [l]). split; [left; reflexivity|apply in_or_app; auto].
        -- exists x. split; [right; exact Hin|exact Hl].
        -- exists (ls ++ [l]). split; [left; reflexivity|apply in_or_app; right; left; reflexivity].
    + assert (Hc : forall m0, groups ((k, ls) :: m0) o' l' <-> (o' = k /\ In l' ls) \/ groups m0 o' l').
      { intros m0. unfold groups. split.
        - intros (x & [E|Hin] & Hl); [injection E as -> ->; auto|right; exists x; auto].
        - intros [[-> Hl]|(x & Hin & Hl)]; [exists ls; split; [left; reflexivity|exact Hl]|exists x; split; [right; exact Hin|exact Hl]]. }
      rewrite !Hc, IH. tauto.
Qed.
Lemma sig_add_nonempty o l m : nonempty m -> nonempty (sig_add o l m).
Proof.
  intros H. induction m as [|[k ls] m IH]; cbn [sig_add].
  - intros o' ls [E|[]]. injection E as <- <-. exists l. left. reflexivity.
  - destruct (k =? o).
    + intros o' x [E|Hin]; [injection E as <- <-; exists l; apply in_or_app; right; left; reflexivity|]. apply (H o' x). right. exact Hin.
    + intros o' x [E|Hin]; [injection E as <- <-; apply (H k ls); left; reflexivity|]. apply IH with o'; [|exact Hin]. intros o2 y Hy. apply (H o2 y). right. exact Hy.
Qed.

Lemma group_ok cs sol : (forall x, In x sol -> exists c, cget cs x = Ok c) -> forall order m, (forall i, In i order -> i < length sol) -> nonempty m ->
  exists m', group_solution cs sol order m = Ok m' /\ nonempty m' /\
    forall o l, groups m' o l <-> groups m o l \/ exists i x c, In i order /\ nth_error sol i = Some x /\ cget cs x = Ok c /\ o = c_offset c /\ l = c_label c.
Proof.
  intros HC. induction order as [|i order IH]; intros m Ho Hn.
  - exists m. split; [reflexivity|]. split; [exact Hn|]. intros o l. split; [auto|]. intros [H|(i & _ & _ & [] & _)]. exact H.
  - cbn [group_solution]. assert (Hi : i < length sol) by (apply Ho; left; reflexivity).
    destruct (nth_error sol i) as [x|] eqn:Ex; [|apply nth_error_None in Ex; lia]. rewrite (aget_nth _ _ _ Ex). cbn [bind].
    destruct (HC x (nth_error_In _ _ Ex)) as (c & Ec). rewrite Ec. cbn [bind].
    destruct (IH (sig_add (c_offset c) (c_label c) m)) as (m' & E & Hn' & HG).
    { intros j Hj. apply Ho. right. exact Hj. } { apply sig_add_nonempty. exact Hn. }
    exists m'. split; [exact E|]. split; [exact Hn'|]. intros o l. rewrite HG, sig_add_groups. split.
    + intros [[H|[-> ->]]|(j & y & d & Hj & H)].
      * left. exact H.
      * right. exists i, x, c. split; [left; reflexivity|]. auto.
      * right. exists j, y, d. split; [right; exact Hj|exact H].
    + intros [H|(j & y & d & [<-|Hj] & H)].
      * left. left. exact H.
      * left. right. destruct H as (H1 & H2 & -> & ->). rewrite Ex in H1. injection H1 as <-. rewrite Ec in H2. injection H2 as <-. auto.
      * right. exists j, y, d. auto.
Qed.

(** ** Labelling *)
Section Labels.
Variables (n : nat) (hier : entries) (m : list (nat * list nat)).
(** What step (i, j) writes. *)
Definition writes (i j l : nat) : Prop :=
  exists o ls w en, nth_error m i = Some (o, ls) /\ hget hier (S o) = Some (w, en) /\ nth_error en j = Some l /\ In l ls.
Hypothesis Hent : forall o ls, In (o, ls) m -> exists w en, hget hier (S o) = Some (w, en) /\ length en = n.
Hypothesis Huniq : forall j i i' l l', writes i j l -> writes i' j l' -> l = l'.

Lemma label_step labels i j : i < length m -> j < n -> length labels = n ->
  exists labels', label_point hier m labels i j = Ok labels' /\ length labels' = n /\
    ((exists l, writes i j l /\ labels' = upd labels j l) \/ ((forall l, ~ writes i j l) /\ labels' = labels)).
Proof.
  intros Hi Hj HL. unfold label_point. destruct (nth_error m i) as [[o ls]|] eqn:Em; [|apply nth_error_None in Em; lia].
  rewrite (aget_nth _ _ _ Em). cbn [bind fst snd]. destruct (Hent o ls (nth_error_In _ _ Em)) as (w & en & Eh & He). rewrite Eh.
  destruct (nth_error en j) as [l|] eqn:El; [|apply nth_error_None in El; lia]. cbn [snd]. rewrite (aget_nth _ _ _ El). cbn [bind].
  unfold set_mem. destruct (existsb (Nat.eqb l) ls) eqn:Es.
  - rewrite aset_ok by lia. eexists. split; [reflexivity|]. split; [rewrite upd_length; exact HL|]. left. exists l. split; [|reflexivity].
    apply existsb_exists in Es. destruct Es as (y & Hy & E). apply Nat.eqb_eq in E. subst y. exists o, ls, w, en. auto.
  - eexists. split; [reflexivity|]. split; [exact HL|]. right. split; [|reflexivity]. intros l' (o' & ls' & w' & en' & E1 & E2 & E3 & E4).
    rewrite Em in E1. injection E1 as <- <-. rewrite Eh in E2. injection E2 as <- <-. rewrite El in E3. injection E3 as <-.
    assert (existsb (Nat.eqb l) ls = true) by (apply existsb_exists; exists l; split; [exact E4|apply Nat.eqb_refl]). congruence.
Qed.

Lemma labels_ok : forall acts labels, (forall i j, In (i, j) acts -> i < length m /\ j < n) -> length labels = n ->
  exists labels', label_points hier m labels acts = Ok labels' /\ length labels' = n /\
    forall j, j < n -> (forall i l, In (i, j) acts -> writes i j l -> nth_error labels' j = Some l)
      /\ ((forall i l, In (i, j) acts -> ~ writes i j l) -> nth_error labels' j = nth_error labels j).
Proof.
  induction acts as [|[i j] acts IH]; intros labels Ha HL; cbn [label_points].
  - exists labels. split; [reflexivity|]. split; [exact HL|]. intros j Hj. split; [intros i l []|auto].
  - destruct (Ha i j (or_introl eq_refl)) as [Hi Hj]. destruct (label_step labels i j Hi Hj HL) as (l1 & -> & HL1 & HC). cbn [bind].
    destruct (IH l1) as (l2 & E & HL2 & HI); [intros a b Hab; apply Ha; right; exact Hab|exact HL1|].
    exists l2. split; [exact E|]. split; [exact HL2|]. intros q Hq. destruct (HI q Hq) as [I1 I2].
    assert (Hdec : (exists i' l, In (i', q) acts /\ writes i' q l) \/ (forall i' l, In (i', q) acts -> ~ writes i' q l)).
    { clear -HL Hent Huniq Ha Hq. assert (Ha' : forall i0 j0, In (i0, j0) acts -> i0 < length m /\ j0 < n) by (intros; apply Ha; right; assumption). clear Ha.
      induction acts as [|[a b] acts IHa]; [right; intros i' l []|]. destruct (IHa (fun i0 j0 H => Ha' i0 j0 (or_intror H))) as [(i' & l & H1 & H2)|H].
      - left. exists i', l. split; [right; exact H1|exact H2].
      - destruct (Nat.eq_dec b q) as [->|Hne].
        + destruct (Ha' a q (or_introl eq_refl)) as [Hx _]. destruct (label_step labels a q Hx Hq HL) as (_ & _ & _ & [(l & Hw & _)|[Hw _]]).
          * left. exists a, l. split; [left; reflexivity|exact Hw].
          * right. intros i' l [E|Hin]; [injection E as <-; apply Hw|apply H; exact Hin].
        + right. intros i' l [E|Hin]; [injection E as _ E; congruence|apply H; exact Hin]. }
    split.
    + intros i' l [E'|Hin] Hw; [|apply (I1 i' l Hin Hw)]. injection E' as <- <-.
      destruct Hdec as [(i2 & l' & H1 & H2)|Hno]; [rewrite (Huniq j i i2 l l' Hw H2); apply (I1 i2 l' H1 H2)|].
      rewrite (I2 Hno). destruct HC as [(l' & Hw' & ->)|[Hno' _]]; [|destruct (Hno' l Hw)]. rewrite (Huniq j i i l l' Hw Hw'). apply nth_error_upd_eq. lia.
    + intros Hno. rewrite I2 by (intros i' l Hin; apply Hno; right; exact Hin). destruct HC as [(l' & Hw' & ->)|[_ ->]]; [|reflexivity].
      destruct (Nat.eq_dec j q) as [->|Hne]; [destruct (Hno i l' (or_introl eq_refl) Hw')|]. apply nth_error_upd_neq. lia.
Qed.
End Labels.
