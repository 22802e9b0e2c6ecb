(** The exploration loops of the hierarchy code visit connected components. *)
From Verif Require Import Base F64 ListFacts ModelCluster ModelHier ProofSets SpecGraph.
From Coq Require Import ZifyBool Relations.
Local Open Scope nat_scope.

Section Explore.
Variable n : nat.
Variable adj : list (list nat).
Variable minPts : nat.
Definition nb (v : nat) : list nat := nth v adj [].
Definition step (a b : nat) : Prop := In b (nb a).
Definition conn : nat -> nat -> Prop := joined step.
Hypothesis Hlen : length adj = n.
Hypothesis Hlt : forall a b, step a b -> b < n.
Hypothesis Hsym : forall a b, step a b -> step b a.

Lemma step_lt a b : step a b -> a < n.
Proof. intros H. apply Hsym in H. apply Hlt in H. exact H. Qed.

Lemma conn_refl a : conn a a.
Proof. apply rst_refl. Qed.
Lemma conn_sym a b : conn a b -> conn b a.
Proof. apply rst_sym. Qed.
Lemma conn_trans a b c : conn a b -> conn b c -> conn a c.
Proof. apply rst_trans. Qed.
Lemma conn_step a b : step a b -> conn a b.
Proof. apply rst_step. Qed.

Lemma conn_lt a b : conn a b -> a < n <-> b < n.
Proof.
  intros H. unfold conn, joined in H. induction H as [a b H| | |].
  - pose proof (Hlt _ _ H). pose proof (step_lt _ _ H). tauto.
  - tauto.
  - tauto.
  - tauto.
Qed.

Lemma conn_closed (P : nat -> Prop) a b : (forall x y, P x -> step x y -> P y) -> conn a b -> P a <-> P b.
Proof.
  intros HP H. unfold conn, joined in H. induction H as [a b H| | |].
  - split; intros Hp; [exact (HP _ _ Hp H)|exact (HP _ _ Hp (Hsym _ _ H))].
  - tauto.
  - tauto.
  - tauto.
Qed.

Lemma nb_get v : v < n -> aget adj v = Ok (nb v).
Proof.
  intros H. unfold nb. rewrite <- Hlen in H. apply aget_nth. apply nth_error_nth'. exact H.
Qed.

(** A set of vertices reached from [r]; [un] are those whose neighbours are still to be added. *)
Definition reached (r : nat) (con un : list nat) : Prop :=
  ssorted con /\ In r con /\ (forall u, In u con -> conn r u) /\ NoDup un /\ incl un con
  /\ (forall u b, In u con -> ~ In u un -> step u b -> In b con).
Definition comp (r : nat) (l : list nat) : Prop := ssorted l /\ (forall u, In u l <-> conn r u).

Lemma reached_lt r con un : r < n -> reached r con un -> forall u, In u con -> u < n.
Proof. intros Hr (_ & _ & H & _) u Hu. apply (conn_lt r u); auto. Qed.

Lemma reached_comp r con : reached r con [] -> comp r con.
Proof.
  intros (H1 & H2 & H3 & _ & _ & H6). split; [exact H1|]. intros u. split; [apply H3|].
  intros Hc. apply (conn_closed (fun x => In x con) r u); [|exact Hc|exact H2].
  intros x y Hx Hy. apply (H6 x y); auto.
Qed.

Lemma reached_singleton r : reached r [r] [r].
Proof.
  split; [repeat constructor|]. split; [left; reflexivity|].
  split; [intros u [<-|[]]; apply conn_refl|].
  split; [repeat constructor; intros []|]. split; [intros x Hx; exact Hx|].
  intros u b Hu Hn. contradiction.
Qed.

Lemma comp_unique r l l' : comp r l -> comp r l' -> l = l'.
Proof. intros [H1 H2] [H3 H4]. apply ssorted_ext; auto. intros y. rewrite H2, H4. reflexivity. Qed.

Lemma comp_conn r r' l : conn r r' -> comp r l -> comp r' l.
Proof.
  intros H [H1 H2]. split; [exact H1|]. intros u. rewrite H2. split; intros Hu.
  - apply conn_trans with r; [apply conn_sym; exact H|exact Hu].
  - apply conn_trans with r'; assumption.
Qed.

(** Neighbours of one vertex. *)
Lemma fold_nbr nbs : forall x, ssorted (x_con x) -> ssorted (x_exam x) -> NoDup (x_un x) -> incl (x_un x) (x_con x) ->
  let x' := fold_left explore_nbr nbs x in
  ssorted (x_con x') /\ (forall y, In y (x_con x') <-> In y (x_con x) \/ In y nbs)
  /\ NoDup (x_un x') /\ (forall y, In y (x_un x') <-> In y (x_un x) \/ (In y nbs /\ ~ In y (x_con x)))
  /\ length (x_con x') + length (x_un x) = length (x_con x) + length (x_un x')
  /\ ssorted (x_exam x') /\ (forall y, In y (x_exam x') <-> In y (x_exam x) /\ ~ (In y nbs /\ ~ In y (x_con x)))
  /\ (x_any x' = true <-> x_any x = true \/ nbs <> [])
  /\ x_inc x' = x_inc x /\ x_nch x' = x_nch x /\ x_first x' = x_first x /\ x_unf x' = x_unf x.
Proof.
  induction nbs as [|b nbs IH]; intros x H1 H2 H3 H4; cbn [fold_left].
  - cbn zeta. split; [exact H1|]. split; [intros y; cbn; tauto|]. split; [exact H3|].
    split; [intros y; cbn; tauto|]. split; [lia|]. split; [exact H2|]. split; [intros y; cbn; tauto|].
    split; [split; [auto|intros [H|H]; [exact H|congruence]]|]. tauto.
  - assert (Ex : explore_nbr x b = explore_nbr x b) by reflexivity. unfold explore_nbr in Ex at 2.
    destruct (set_insert b (x_con x)) as [p con] eqn:Ei. rewrite Ex. clear Ex.
    destruct (set_insert_spec _ _ _ _ H1 Ei) as (I1 & I2 & I3 & I4 & I5).
    cbv iota. destruct p.
    + assert (Hb : ~ In b (x_con x)) by (apply I3; reflexivity).
      destruct (set_remove_spec b (x_exam x) H2) as [R1 R2].
      specialize (IH (mk_x con (x_un x ++ [b]) (set_remove b (x_exam x)) true (x_inc x) (x_nch x) (x_first x) (x_unf x))).
      cbn [x_con x_un x_exam x_any x_inc x_nch x_first x_unf] in IH.
      destruct IH as (J1 & J2 & J3 & J4 & J5 & J6 & J7 & J8 & J9).
      * exact I1.
      * exact R1.
      * apply NoDup_snoc. split; [exact H3|]. intros Hx. apply H4 in Hx. contradiction.
      * intros y Hy. apply in_app_or in Hy. apply I2. destruct Hy as [Hy|[<-|[]]]; auto.
      * cbn zeta. split; [exact J1|]. split; [intros y; rewrite J2, I2; cbn [In]; split; intuition congruence|].
        split; [exact J3|]. split.
        { intros y. rewrite J4, in_app_iff, I2. cbn [In]. split.
          - intros [[Hy|[<-|[]]]|[Hy Hn]]; auto. right. split; [right; exact Hy|]. intros Hc. apply Hn. auto.
          - intros [Hy|[[<-|Hy] Hn]]; auto.
            destruct (Nat.eq_dec y b) as [->|Hne]; [auto|]. right. split; [exact Hy|]. intros [E|E]; contradiction. }
        split; [rewrite app_length in J5; cbn [length] in J5; lia|].
        split; [exact J6|]. split.
        { intros y. rewrite J7, R2, I2. cbn [In]. split.
          - intros [[Hy Hne] Hn]. split; [exact Hy|]. intros [[E|E] Hc]; [congruence|]. apply Hn. split; [exact E|].
            intros [F|F]; contradiction.
          - intros [Hy Hn]. split; [split; [exact Hy|]|].
            + intros ->. apply Hn. auto.
            + intros [E F]. apply Hn. split; [right; exact E|]. intros G. apply F. right. exact G. }
        split; [rewrite J8; split; intros _; [right; discriminate|left; reflexivity]|]. exact J9.
    + assert (Hb : In b (x_con x)).
      { destruct (In_dec Nat.eq_dec b (x_con x)) as [Hi|Hi]; [exact Hi|]. apply I3 in Hi. discriminate. }
      specialize (IH (mk_x con (x_un x) (x_exam x) true (x_inc x) (x_nch x) (x_first x) (x_unf x))).
      rewrite (I5 eq_refl) in *.
      cbn [x_con x_un x_exam x_any x_inc x_nch x_first x_unf] in IH.
      destruct IH as (J1 & J2 & J3 & J4 & J5 & J6 & J7 & J8 & J9); auto.
      cbn zeta. split; [exact J1|]. split; [intros y; rewrite J2; cbn [In]; split; intuition congruence|].
      split; [exact J3|]. split.
      { intros y. rewrite J4. cbn [In]. split; [intros [Hy|[Hy Hn]]; auto|]. intros [Hy|[[<-|Hy] Hn]]; [auto|contradiction|auto]. }
      split; [exact J5|]. split; [exact J6|]. split.
      { intros y. rewrite J7. cbn [In]. split.
        - intros [Hy Hn]. split; [exact Hy|]. intros [[<-|E] Hc]; [contradiction|]. apply Hn. auto.
        - intros [Hy Hn]. split; [exact Hy|]. intros [E F]. apply Hn. auto. }
      split; [rewrite J8; split; intros _; [right; discriminate|left; reflexivity]|]. exact J9.
Qed.

(** [any]: some vertex whose neighbours were visited has a neighbour. *)
Definition anyP (con un : list nat) (any : bool) : Prop :=
  any = true <-> exists u, In u con /\ ~ In u un /\ nb u <> [].

Record einv (r : nat) (E0 : list nat) (x : expl) : Prop := {
  ei_reached : reached r (x_con x) (x_un x);
  ei_exam_s : ssorted (x_exam x);
  ei_exam : forall y, In y (x_exam x) <-> In y E0 /\ ~ In y (x_con x);
  ei_any : anyP (x_con x) (x_un x) (x_any x) }.

Definition good (con : list nat) (any : bool) : bool := (minPts <=? length con) && any.

Lemma pop_step r E0 x v un : r < n -> einv r E0 x -> x_un x = un ++ [v] ->
  let x1 := fold_left explore_nbr (nb v)
            (mk_x (x_con x) un (x_exam x) (x_any x) (x_inc x) (x_nch x) (x_first x) (x_unf x)) in
  einv r E0 x1 /\ length (x_con x1) + length un = length (x_con x) + length (x_un x1)
  /\ length (x_con x) <= length (x_con x1) /\ (x_any x = true -> x_any x1 = true)
  /\ x_inc x1 = x_inc x /\ x_nch x1 = x_nch x /\ x_first x1 = x_first x /\ x_unf x1 = x_unf x.
Proof.
  intros Hr [(C1 & C2 & C3 & C4 & C5 & C6) Es Ee Ea] Hun x1.
  rewrite Hun in C4, C5, C6, Ea. apply NoDup_snoc in C4. destruct C4 as [C4 C4'].
  assert (Hv : In v (x_con x)) by (apply C5; apply in_or_app; right; left; reflexivity).
  destruct (fold_nbr (nb v) (mk_x (x_con x) un (x_exam x) (x_any x) (x_inc x) (x_nch x) (x_first x) (x_unf x)))
    as (J1 & J2 & J3 & J4 & J5 & J6 & J7 & J8 & J9);
    cbn [x_con x_un x_exam x_any x_inc x_nch x_first x_unf] in *.
  { exact C1. } { exact Es. } { exact C4. } { intros y Hy. apply C5. apply in_or_app. auto. }
  fold x1 in J1, J2, J3, J4, J5, J6, J7, J8, J9.
  assert (Hlec : length (x_con x) <= length (x_con x1)).
  { apply NoDup_incl_length; [apply ssorted_nodup; exact C1|]. intros y Hy. apply J2. auto. }
  split; [constructor|].
  - split; [exact J1|]. split; [apply J2; auto|]. split.
    { intros u Hu. apply J2 in Hu. destruct Hu as [Hu|Hu]; [auto|].
      apply conn_trans with v; [auto|]. apply conn_step. exact Hu. }
    split; [exact J3|]. split.
    { intros y Hy. apply J4 in Hy. apply J2. destruct Hy as [Hy|[Hy _]]; [|auto].
      left. apply C5. apply in_or_app. auto. }
    intros u b Hu Hnu Hs. apply J2. apply J2 in Hu.
    destruct (In_dec Nat.eq_dec u (x_con x)) as [Hc|Hc].
    + destruct (Nat.eq_dec u v) as [->|Hne]; [right; exact Hs|].
      left. apply (C6 u b Hc); [|exact Hs]. intros Hi. apply in_app_or in Hi. destruct Hi as [Hi|[<-|[]]]; [|lia].
      apply Hnu. apply J4. auto.
    + destruct Hu as [Hu|Hu]; [contradiction|]. exfalso. apply Hnu. apply J4. auto.
  - exact J6.
  - intros y. rewrite J7, Ee, J2. split.
    + intros [[Hy Hn] Hn']. split; [exact Hy|]. intros [Hc|Hc]; [contradiction|]. apply Hn'. auto.
    + intros [Hy Hn]. split; [split; [exact Hy|]|]; intros H; apply Hn; [auto|right; apply H].
  - unfold anyP in *. rewrite J8, Ea. split.
    + intros [[u (Hu & Hnu & Hne)]|Hne].
      * exists u. split; [apply J2; auto|]. split; [|exact Hne]. intros Hi. apply J4 in Hi. apply Hnu.
        apply in_or_app. destruct Hi as [Hi|[_ Hi]]; [auto|contradiction].
      * exists v. split; [apply J2; auto|]. split; [|exact Hne]. intros Hi. apply J4 in Hi.
        destruct Hi as [Hi|[_ Hi]]; contradiction.
    + intros [u (Hu & Hnu & Hne)]. destruct (Nat.eq_dec u v) as [->|Huv]; [right; exact Hne|].
      left. exists u. apply J2 in Hu.
      destruct (In_dec Nat.eq_dec u (x_con x)) as [Hc|Hc].
      * split; [exact Hc|]. split; [|exact Hne]. intros Hi. apply in_app_or in Hi. destruct Hi as [Hi|[<-|[]]]; [|lia].
        apply Hnu. apply J4. auto.
      * exfalso. apply Hnu. apply J4. destruct Hu as [Hu|Hu]; [contradiction|auto].
  - split; [exact J5|]. split; [exact Hlec|]. split; [intros H; apply J8; auto|]. exact J9.
Qed.

Lemma explore_ok r E0 : r < n -> forall fuel x, einv r E0 x ->
  n + length (x_un x) < fuel + length (x_con x) ->
  x_inc x = good (x_con x) (x_any x) ->
  exists x', explore minPts adj fuel x = Ok x' /\ einv r E0 x' /\ (x_inc x = true -> good (x_con x') (x_any x') = true) /\
   ((x_un x' = [] /\ x_first x' = x_first x /\ x_unf x' = x_unf x
     /\ x_nch x' = x_nch x + (if negb (x_inc x) && good (x_con x') (x_any x') then 1 else 0)
     /\ (x_inc x = false -> good (x_con x') (x_any x') = true -> x_first x <> []))
    \/ (x_inc x = false /\ x_first x = [] /\ good (x_con x') (x_any x') = true /\ x_nch x' = S (x_nch x)
        /\ x_first x' = x_con x' /\ x_unf x' = set_insert_all (x_un x') (x_unf x))).
Proof.
  intros Hr. induction fuel as [|f IH]; intros x He Hf Hi.
  - assert (length (x_con x) <= n).
    { apply ssorted_length; [apply (ei_reached _ _ _ He)|]. apply (reached_lt r _ _ Hr (ei_reached _ _ _ He)). }
    lia.
  - cbn [explore]. destruct (x_un x) as [|a l] eqn:Eun.
    + exists x. split; [reflexivity|]. split; [exact He|]. split; [congruence|]. left. split; [exact Eun|].
      split; [reflexivity|]. split; [reflexivity|]. rewrite <- Hi. split; [destruct (x_inc x); cbn; lia|congruence].
    + rewrite <- Eun in *. destruct (list_pop_ok (x_un x)) as (v & un & Ep & Eu); [congruence|].
      rewrite Ep. cbn [bind]. clear Eun a l.
      assert (Hv : v < n).
      { apply (reached_lt r _ _ Hr (ei_reached _ _ _ He)). destruct (ei_reached _ _ _ He) as (_ & _ & _ & _ & H & _).
        apply H. rewrite Eu. apply in_or_app. right. left. reflexivity. }
      rewrite (nb_get v Hv). cbn [bind].
      destruct (pop_step r E0 x v un Hr He Eu) as (P1 & P2 & P3 & P4 & P5 & P6 & P7 & P8).
      remember (fold_left explore_nbr (nb v) _) as x1 eqn:Ex1. clear Ex1.
      assert (Hlu : length (x_un x) = S (length un)) by (rewrite Eu, app_length; cbn; lia).
      assert (Hmono : good (x_con x) (x_any x) = true -> good (x_con x1) (x_any x1) = true).
      { unfold good. rewrite !andb_true_iff, !Nat.leb_le. intros [G1 G2]. split; [lia|auto]. }
      rewrite <- andb_assoc. change ((minPts <=? length (x_con x1)) && x_any x1) with (good (x_con x1) (x_any x1)).
      destruct (negb (x_inc x1) && good (x_con x1) (x_any x1)) eqn:Et.
      * apply andb_true_iff in Et. destruct Et as [Et1 Et2]. apply negb_true_iff in Et1.
        destruct (x_first x1) as [|f1 fl] eqn:Ef.
        -- eexists. split; [reflexivity|]. split; [destruct P1; constructor; cbn; assumption|].
           split; [intros _; exact Et2|]. right. cbn [x_con x_un x_any x_nch x_first x_unf].
           split; [congruence|]. split; [congruence|]. split; [exact Et2|]. split; [lia|]. split.
           ++ apply ssorted_ext; [apply set_insert_all_spec; constructor|apply (ei_reached _ _ _ P1)|].
              intros y. destruct (set_insert_all_spec (x_con x1) []) as [_ H]; [constructor|]. rewrite H. cbn. tauto.
           ++ rewrite P8. reflexivity.
        -- edestruct (IH (mk_x (x_con x1) (x_un x1) (x_exam x1) (x_any x1) true (S (x_nch x1)) (f1 :: fl) (x_unf x1)))
             as (x' & R1 & R2 & HG & R3); cbn [x_con x_un x_exam x_any x_inc x_nch x_first x_unf] in *.
           { destruct P1; constructor; cbn; assumption. }
           { lia. }
           { congruence. }
           exists x'. split; [exact R1|]. split; [exact R2|]. specialize (HG eq_refl). split; [auto|].
           destruct R3 as [(S1 & S2 & S3 & S4 & S5)|(S1 & _)]; [|discriminate].
           left. split; [exact S1|]. split; [congruence|]. split; [congruence|].
           rewrite <- P5, Et1. cbn [negb andb].
           rewrite HG. split; [cbn in S4; lia|]. intros _ _. congruence.
      * destruct (IH x1) as (x' & R1 & R2 & HG & R3); [exact P1|lia| |].
        { destruct (x_inc x1) eqn:E1; cbn in Et; [|congruence]. symmetry. apply Hmono. congruence. }
        exists x'. split; [exact R1|]. split; [exact R2|]. rewrite P5 in HG. split; [exact HG|].
        rewrite P5, P6, P7, P8 in R3. exact R3.
Qed.

(** Completing the first child cluster. *)
Lemma fold_finish nbs : forall first unf, ssorted first -> ssorted unf -> incl unf first ->
  let st := fold_left finish_nbr nbs (first, unf) in
  ssorted (fst st) /\ (forall y, In y (fst st) <-> In y first \/ In y nbs)
  /\ ssorted (snd st) /\ (forall y, In y (snd st) <-> In y unf \/ (In y nbs /\ ~ In y first))
  /\ length (fst st) + length unf = length first + length (snd st).
Proof.
  induction nbs as [|b nbs IH]; intros first unf H1 H2 H3; cbn [fold_left].
  - cbn. split; [exact H1|]. split; [intros y; tauto|]. split; [exact H2|]. split; [intros y; tauto|]. lia.
  - assert (Ex : finish_nbr (first, unf) b = finish_nbr (first, unf) b) by reflexivity. unfold finish_nbr in Ex at 2.
    cbn [fst snd] in Ex.
    destruct (set_insert b first) as [p con] eqn:Ei. rewrite Ex. clear Ex.
    destruct (set_insert_spec _ _ _ _ H1 Ei) as (I1 & I2 & I3 & I4 & I5). destruct p.
    + assert (Hb : ~ In b first) by (apply I3; reflexivity).
      destruct (set_insert b unf) as [p' unf'] eqn:Ej. cbn [snd].
      destruct (set_insert_spec _ _ _ _ H2 Ej) as (K1 & K2 & K3 & K4 & K5).
      assert (p' = true) as -> by (apply K3; intros Hu; apply Hb; apply H3; exact Hu).
      destruct (IH con unf') as (J1 & J2 & J3 & J4 & J5); [exact I1|exact K1| |].
      { intros y Hy. apply K2 in Hy. apply I2. destruct Hy as [Hy|Hy]; auto. }
      split; [exact J1|]. split; [intros y; rewrite J2, I2; cbn [In]; split; intuition congruence|].
      split; [exact J3|]. split; [|lia].
      intros y. rewrite J4, K2, I2. cbn [In]. split.
      * intros [[Hy|Hy]|[Hy Hn]]; [subst y; auto|auto|]. right. split; [right; exact Hy|]. intros Hc. apply Hn. auto.
      * intros [Hy|[[<-|Hy] Hn]]; auto.
        destruct (Nat.eq_dec y b) as [->|Hne]; [auto|]. right. split; [exact Hy|]. intros [E|E]; contradiction.
    + assert (Hb : In b first).
      { destruct (In_dec Nat.eq_dec b first) as [Hi|Hi]; [exact Hi|]. apply I3 in Hi. discriminate. }
      rewrite (I5 eq_refl) in *.
      destruct (IH first unf) as (J1 & J2 & J3 & J4 & J5); [exact H1|exact H2|exact H3|].
      split; [exact J1|]. split; [intros y; rewrite J2; cbn [In]; split; intuition congruence|].
      split; [exact J3|]. split; [|exact J5].
      intros y. rewrite J4. cbn [In]. split; [intros [Hy|[Hy Hn]]; auto|]. intros [Hy|[[<-|Hy] Hn]]; [auto|contradiction|auto].
Qed.

Lemma finish_ok r : r < n -> forall fuel first unf, ssorted unf -> reached r first unf ->
  n + length unf < fuel + length first ->
  exists l, finish_first adj fuel first unf = Ok l /\ comp r l.
Proof.
  intros Hr. induction fuel as [|f IH]; intros first unf Hs He Hf.
  - assert (length first <= n).
    { apply ssorted_length; [apply He|]. apply (reached_lt r _ _ Hr He). }
    lia.
  - cbn [finish_first]. destruct unf as [|a l] eqn:Eun.
    + exists first. split; [reflexivity|]. apply reached_comp. exact He.
    + rewrite <- Eun in *. destruct (list_pop_ok unf) as (v & un & Ep & Eu); [congruence|].
      rewrite Ep. cbn [bind]. clear Eun a l.
      pose proof He as (C1 & C2 & C3 & C4 & C5 & C6).
      assert (Hvf : In v first) by (apply C5; rewrite Eu; apply in_or_app; right; left; reflexivity).
      assert (Hv : v < n) by (apply (reached_lt r _ _ Hr He); exact Hvf).
      rewrite (nb_get v Hv). cbn [bind].
      rewrite Eu in Hs. apply ssorted_app in Hs. destruct Hs as (Hs & _ & _).
      assert (Hlu : length unf = S (length un)) by (rewrite Eu, app_length; cbn; lia).
      destruct (fold_finish (nb v) first un) as (J1 & J2 & J3 & J4 & J5); [exact C1|exact Hs| |].
      { intros y Hy. apply C5. rewrite Eu. apply in_or_app. auto. }
      rewrite Eu in C4, C5, C6. apply NoDup_snoc in C4. destruct C4 as [C4 C4'].
      apply IH; [exact J3| |lia].
      split; [exact J1|]. split; [apply J2; auto|]. split.
      { intros u Hu. apply J2 in Hu. destruct Hu as [Hu|Hu]; [auto|].
        apply conn_trans with v; [auto|]. apply conn_step. exact Hu. }
      split; [apply ssorted_nodup; exact J3|]. split.
      { intros y Hy. apply J4 in Hy. apply J2. destruct Hy as [Hy|[Hy _]]; [|auto].
        left. apply C5. apply in_or_app. auto. }
      intros u b Hu Hnu Hst. apply J2. apply J2 in Hu.
      destruct (In_dec Nat.eq_dec u first) as [Hc|Hc].
      * destruct (Nat.eq_dec u v) as [->|Hne]; [right; exact Hst|].
        left. apply (C6 u b Hc); [|exact Hst]. intros Hi. apply in_app_or in Hi. destruct Hi as [Hi|[<-|[]]]; [|lia].
        apply Hnu. apply J4. auto.
      * destruct Hu as [Hu|Hu]; [contradiction|]. exfalso. apply Hnu. apply J4. auto.
Qed.

(** Every vertex has a component, so connectivity is decidable. *)
Lemma comp_ex r : r < n -> exists l, comp r l.
Proof.
  intros Hr. destruct (finish_ok r Hr (S n) [r] [r]) as (l & _ & H).
  - repeat constructor.
  - apply reached_singleton.
  - cbn. lia.
  - exists l. exact H.
Qed.

Lemma conn_dec a b : a < n -> conn a b \/ ~ conn a b.
Proof.
  intros Ha. destruct (comp_ex a Ha) as (l & _ & H). rewrite <- H.
  destruct (In_dec Nat.eq_dec b l); auto.
Qed.

(** A component is valid: it has at least [minPts] members and some edge. *)
Definition valid (r : nat) : Prop :=
  exists l, comp r l /\ minPts <= length l /\ exists u, In u l /\ nb u <> [].

Lemma valid_conn a b : conn a b -> valid a -> valid b.
Proof.
  intros H (l & H1 & H2 & H3). exists l. split; [apply comp_conn with a; assumption|]. auto.
Qed.

Lemma good_valid r con un any : r < n -> reached r con un -> anyP con un any -> good con any = true -> valid r.
Proof.
  intros Hr (C1 & C2 & C3 & C4 & C5 & C6) Ha Hg. unfold good in Hg. apply andb_true_iff in Hg. destruct Hg as [G1 G2].
  apply Nat.leb_le in G1. apply Ha in G2. destruct G2 as (u & Hu & _ & Hne).
  destruct (comp_ex r Hr) as (l & L1 & L2). exists l. split; [split; assumption|].
  assert (Hin : incl con l) by (intros y Hy; apply L2; apply C3; exact Hy).
  split.
  - pose proof (NoDup_incl_length (ssorted_nodup _ C1) Hin). lia.
  - exists u. split; [apply Hin; exact Hu|exact Hne].
Qed.

Lemma good_valid_iff r con any : comp r con -> anyP con [] any -> good con any = true <-> valid r.
Proof.
  intros Hc Ha. unfold anyP in Ha. unfold good. rewrite andb_true_iff, Nat.leb_le, Ha. split.
  - intros (H1 & u & H2 & _ & H3). exists con. split; [exact Hc|]. split; [exact H1|]. exists u. auto.
  - intros (l & H1 & H2 & u & H3 & H4). rewrite (comp_unique _ _ _ Hc H1) in *. split; [exact H2|]. exists u. auto.
Qed.

Lemma valid_dec r : r < n -> valid r \/ ~ valid r.
Proof.
  intros Hr. destruct (comp_ex r Hr) as (l & Hl).
  destruct (le_lt_dec minPts (length l)) as [H1|H1].
  - destruct (existsb (fun u => match nb u with [] => false | _ => true end) l) eqn:E.
    + left. exists l. split; [exact Hl|]. split; [exact H1|]. apply existsb_exists in E. destruct E as (u & Hu & He).
      exists u. split; [exact Hu|]. intros H. rewrite H in He. discriminate.
    + right. intros (l' & Hl' & _ & u & Hu & He). rewrite (comp_unique _ _ _ Hl' Hl) in Hu.
      assert (existsb (fun u => match nb u with [] => false | _ => true end) l = true).
      { apply existsb_exists. exists u. split; [exact Hu|]. destruct (nb u); congruence. }
      congruence.
  - right. intros (l' & Hl' & H2 & _). rewrite (comp_unique _ _ _ Hl' Hl) in H2. lia.
Qed.
End Explore.
