(** Consequences of ProofSelect.v: antichains, lowest death levels, optimal selections. *)
From Coq Require Import Permutation Sorted Reals Lra.
From Flocq Require Import Core.Raux Core.Zaux IEEE754.BinarySingleNaN.
From Verif Require Import Base F64 F64Facts F64Arith ListFacts ModelCluster ModelHier ModelSelect ProofSets SpecTree ProofSelect.
From Coq Require Import ZifyBool ZifyNat.
Local Open Scope nat_scope.

Lemma NoDup_app_intro {A} (l1 l2 : list A) : NoDup l1 -> NoDup l2 -> (forall x, In x l1 -> In x l2 -> False) -> NoDup (l1 ++ l2).
Proof.
  induction l1 as [|a l1 IH]; intros H1 H2 H; [exact H2|]. inversion H1 as [|? ? Hn H1']; subst. cbn [app]. constructor.
  - rewrite in_app_iff. intros [Hi|Hi]; [contradiction|]. apply (H a); [left; reflexivity|exact Hi].
  - apply IH; [exact H1'|exact H2|]. intros x Hx. apply H. right. exact Hx.
Qed.

(** ** The tree *)
Section Tree.
Variables (cs : clusters) (K : nat).
Hypothesis HT : tree cs K.
Definition g0 (x : nat) : cluster := match nth x cs None with Some c => c | None => cluster_new 0 None fzero 0 end.

Lemma tr_rep : rep cs g0 K.
Proof.
  destruct HT as (HL & HK & H0 & H). split; [exact HL|]. split; [exact H0|]. intros x Hx. destruct (H x Hx) as (c & Hc & _).
  unfold g0. unfold cluster_in in Hc. rewrite Hc. apply (nth_error_nth _ _ None) in Hc. rewrite Hc. reflexivity.
Qed.
Lemma tr_in k c : cluster_in cs k c <-> 1 <= k <= K /\ c = g0 k.
Proof. apply rep_in. apply tr_rep. Qed.
Lemma tr_kid k p : child_in cs k p <-> 1 <= k <= K /\ is_kid g0 p k = true.
Proof.
  unfold child_in, is_kid. split.
  - intros (c & Hc & Hp). apply tr_in in Hc. destruct Hc as [Hk ->]. split; [exact Hk|]. rewrite Hp. apply Nat.eqb_refl.
  - intros [Hk E]. exists (g0 k). split; [apply tr_in; auto|]. destruct (c_parent (g0 k)) as [q|]; [|discriminate]. apply Nat.eqb_eq in E. congruence.
Qed.
Lemma tr_k : 1 <= K. Proof. apply HT. Qed.
Lemma tr_all k : 1 <= k <= K -> c_label (g0 k) = k /\ (k = 1 -> c_parent (g0 k) = None) /\
  (2 <= k -> exists p, c_parent (g0 k) = Some p /\ 1 <= p < k) /\ (c_kids (g0 k) = true <-> exists j, 1 <= j <= K /\ is_kid g0 k j = true).
Proof.
  intros Hk. destruct HT as (_ & _ & _ & H). destruct (H k Hk) as (c & Hc & H1 & H2 & H3 & H4). apply tr_in in Hc. destruct Hc as [_ ->].
  split; [exact H1|]. split; [exact H2|]. split; [exact H3|]. rewrite H4. split; intros (j & Hj); exists j; apply tr_kid; exact Hj.
Qed.
Lemma tr_root : c_parent (g0 1) = None.
Proof. apply tr_all; [pose proof tr_k; lia|reflexivity]. Qed.
Lemma tr_par k : 2 <= k <= K -> exists p, c_parent (g0 k) = Some p /\ 1 <= p < k.
Proof. intros Hk. apply (tr_all k); lia. Qed.
Lemma tr_lab k : 1 <= k <= K -> c_label (g0 k) = k. Proof. apply tr_all. Qed.
Lemma tr_kids k : 1 <= k <= K -> c_kids (g0 k) = true <-> exists j, 1 <= j <= K /\ is_kid g0 k j = true. Proof. intros Hk. apply (tr_all k Hk). Qed.
Lemma tr_kid_lt p x : child_in cs x p -> 1 <= p < x /\ 2 <= x <= K.
Proof.
  intros H. apply tr_kid in H. destruct H as [Hx Hk]. pose proof (is_kid_lt K g0 tr_k tr_lab tr_root tr_par tr_kids p x Hx Hk). lia.
Qed.
Lemma child_fun x p q : child_in cs x p -> child_in cs x q -> p = q.
Proof. intros (c & Hc & Hp) (d & Hd & Hq). unfold cluster_in in *. rewrite Hc in Hd. injection Hd as <-. congruence. Qed.
Lemma has_parent x : 2 <= x <= K -> exists p, child_in cs x p.
Proof. intros Hx. destruct (tr_par x Hx) as (p & Hp & _). exists p, (g0 x). split; [apply tr_in; split; [lia|reflexivity]|exact Hp]. Qed.

Lemma under_le k a : under cs k a -> 1 <= a <= k /\ k <= K.
Proof.
  induction 1 as [k c Hc|k p a Hc Hu IH].
  - apply tr_in in Hc. lia.
  - apply tr_kid_lt in Hc. lia.
Qed.
Lemma under_refl k : 1 <= k <= K -> under cs k k.
Proof. intros Hk. apply under_self with (g0 k). apply tr_in. auto. Qed.
Lemma under_trans j k a : under cs j k -> under cs k a -> under cs j a.
Proof. induction 1 as [k0 c0 Hc0|k0 p a0 Hc Hu IH]; intros H1; [exact H1|]. apply under_step with p; [exact Hc|apply IH; exact H1]. Qed.
Lemma under_child x p : under cs x p -> x <> p -> exists c, child_in cs c p /\ under cs x c.
Proof.
  induction 1 as [|k q a Hc Hu IH]; intros Hne; [contradiction|].
  destruct (Nat.eq_dec q a) as [->|Hqa].
  - exists k. split; [exact Hc|]. apply under_refl. apply tr_kid in Hc. lia.
  - destruct (IH Hqa) as (c & H1 & H2). exists c. split; [exact H1|]. apply under_step with q; assumption.
Qed.
Lemma under_two x a b : under cs x a -> under cs x b -> under cs a b \/ under cs b a.
Proof.
  induction 1 as [k c Hc|k p a Hc Hu IH]; intros Hb; [auto|].
  inversion Hb as [? d Hd|? q ? Hq Hub]; subst.
  - right. apply under_step with p; assumption.
  - rewrite (child_fun _ _ _ Hq Hc) in Hub. apply IH. exact Hub.
Qed.
Lemma sib_under c d p : child_in cs c p -> child_in cs d p -> under cs c d -> c = d.
Proof.
  intros Hc Hd Hu. destruct (Nat.eq_dec c d) as [|Hne]; [assumption|exfalso].
  inversion Hu as [|? q ? Hq Hub]; subst; [contradiction|]. rewrite (child_fun _ _ _ Hq Hc) in Hub. apply under_le in Hub. apply tr_kid_lt in Hd. lia.
Qed.
Lemma under_root x : 1 <= x <= K -> under cs x 1.
Proof.
  induction x as [x IH] using (well_founded_induction Wf_nat.lt_wf). intros Hx.
  destruct (Nat.eq_dec x 1) as [->|Hne]; [apply under_refl; lia|].
  destruct (has_parent x ltac:(lia)) as (p & Hp). pose proof (tr_kid_lt _ _ Hp). apply under_step with p; [exact Hp|apply IH; lia].
Qed.

(** Decision procedure. *)
Fixpoint ancs (fuel x : nat) : list nat :=
  match fuel with O => [] | S f => x :: match c_parent (g0 x) with Some p => ancs f p | None => [] end end.
Definition underb (x a : nat) : bool := existsb (Nat.eqb a) (ancs x x).
Lemma ancs_ok : forall fuel x a, 1 <= x <= K -> x <= fuel -> In a (ancs fuel x) <-> under cs x a.
Proof.
  induction fuel as [|f IH]; intros x a Hx Hf; [lia|]. cbn [ancs]. split.
  - intros [->|Hin]; [apply under_refl; exact Hx|].
    destruct (Nat.eq_dec x 1) as [->|Hne]; [rewrite tr_root in Hin; contradiction|].
    destruct (tr_par x ltac:(lia)) as (p & Hp & Hpx). rewrite Hp in Hin.
    apply under_step with p; [exists (g0 x); split; [apply tr_in; auto|exact Hp]|]. apply IH; [lia|lia|exact Hin].
  - intros Hu. inversion Hu as [|? p ? Hp Hub]; subst; [left; reflexivity|right].
    pose proof (tr_kid_lt _ _ Hp). destruct Hp as (c & Hc & Ep). apply tr_in in Hc. destruct Hc as [_ ->]. rewrite Ep. apply IH; [lia|lia|exact Hub].
Qed.
Lemma underb_ok x a : 1 <= x <= K -> underb x a = true <-> under cs x a.
Proof.
  intros Hx. rewrite <- (ancs_ok x x a Hx (Nat.le_refl _)). unfold underb. rewrite existsb_exists. split.
  - intros (y & Hy & E). apply Nat.eqb_eq in E. subst y. exact Hy.
  - intros H. exists a. split; [exact H|apply Nat.eqb_refl].
Qed.

Definition kl (p : nat) : list nat := kidsl K g0 0 p.
Lemma in_kl p x : In x (kl p) <-> child_in cs x p.
Proof. unfold kl. rewrite (in_kidsl K g0 tr_k tr_lab tr_par tr_kids), tr_kid. split; intros [H1 H2]; split; try exact H2; lia. Qed.
Lemma nodup_kl p : NoDup (kl p).
Proof. unfold kl, kidsl. apply NoDup_filter. apply NoDup_rev. apply seq_NoDup. Qed.
Lemma leaf_kl k : 1 <= k <= K -> leaf cs k <-> c_kids (g0 k) = false.
Proof.
  intros Hk. pose proof (proj2 (proj2 (proj2 (tr_all k Hk)))) as Hkk. split.
  - intros [_ H]. destruct (c_kids (g0 k)) eqn:E; [|reflexivity]. destruct (proj1 Hkk eq_refl) as (j & Hj). exfalso. apply (H j). apply tr_kid. exact Hj.
  - intros E. split; [exists (g0 k); apply tr_in; auto|]. intros j Hj. apply tr_kid in Hj.
    assert (c_kids (g0 k) = true) by (apply Hkk; exists j; exact Hj). congruence.
Qed.

(** ** The result of propagation *)
Variable g : nat -> cluster.
Hypothesis HS : Stage K g0 0 g.

Definition dsc (x : nat) : list nat := snd (handed x (g x)).
Definition hst (x : nat) : f64 := snd (fst (handed x (g x))).

Lemma g_stat x : 1 <= x <= K -> c_label (g x) = c_label (g0 x) /\ c_death (g x) = c_death (g0 x) /\ c_stab (g x) = c_stab (g0 x) /\ c_parent (g x) = c_parent (g0 x) /\ c_kids (g x) = c_kids (g0 x)
  /\ c_nc (g x) = c_nc (g0 x) /\ c_offset (g x) = c_offset (g0 x).
Proof. intros Hx. apply statics_eq. apply (st_stat _ _ _ _ HS x Hx). Qed.

Lemma g_desc p : 1 <= p <= K -> c_desc (g p) = flat_map dsc (kl p).
Proof. intros Hp. apply (st_desc _ _ _ _ HS p Hp). Qed.

Lemma dsc_cases x : 1 <= x <= K -> (dsc x = [x] /\ hst x = c_stab (g0 x)) \/ (dsc x = c_desc (g x) /\ hst x = c_pstab (g x) /\ c_kids (g0 x) = true).
Proof.
  intros Hx. destruct (g_stat x Hx) as (_ & _ & E2 & _ & E1 & _). unfold dsc, hst, handed. rewrite <- E1, <- E2. destruct (c_kids (g x)); cbn [negb orb]; [|left; auto].
  destruct (c_pnc (g x) <? c_nc (g x))%Z; [left; auto|]. destruct (c_nc (g x) <? c_pnc (g x))%Z; [right; auto|].
  destruct (fge _ _); [left|right]; auto.
Qed.

Definition good_list (p : nat) (l : list nat) : Prop :=
  antichain cs l /\ (forall y, In y l -> under cs y p) /\ (forall z, leaf cs z -> under cs z p -> exists y, In y l /\ under cs z y).

Lemma antichain_flat (C : list nat) p : NoDup C -> (forall c, In c C -> child_in cs c p) -> (forall c, In c C -> good_list c (dsc c)) ->
  antichain cs (flat_map dsc C).
Proof.
  intros HN HC HG. assert (Hdisj : forall c d y z, In c C -> In d C -> In y (dsc c) -> In z (dsc d) -> under cs y z -> c = d).
  { intros c d y z Hc Hd Hy Hz Hu.
    assert (U1 : under cs y c) by (apply (HG c Hc); exact Hy). assert (U2 : under cs z d) by (apply (HG d Hd); exact Hz).
    destruct (under_two y c d U1 (under_trans _ _ _ Hu U2)) as [H|H].
    - apply (sib_under c d p); auto.
    - symmetry. apply (sib_under d c p); auto. }
  split.
  - clear -HN HG Hdisj HT. induction C as [|c C IH]; cbn [flat_map]; [constructor|]. inversion HN as [|? ? Hn HN']; subst.
    assert (Hin : forall y, In y (dsc c) -> 1 <= y <= K).
    { intros y Hy. pose proof (proj1 (proj2 (HG c (or_introl eq_refl))) y Hy) as H. apply under_le in H. lia. }
    apply NoDup_app_intro; [apply (HG c); left; reflexivity| |].
    + apply IH; [exact HN'|intros d Hd; apply HG; right; exact Hd|]. intros a b y z Ha Hb. apply Hdisj; right; assumption.
    + intros y Hy Hy'. apply in_flat_map in Hy'. destruct Hy' as (d & Hd & Hyd).
      apply Hn. rewrite (Hdisj c d y y); [exact Hd|left; reflexivity|right; exact Hd|exact Hy|exact Hyd|]. apply under_refl. apply Hin. exact Hy.
  - intros j k Hj Hk Hu. apply in_flat_map in Hj, Hk. destruct Hj as (c & Hc & Hj), Hk as (d & Hd & Hk).
    assert (c = d) by (apply (Hdisj c d j k); assumption). subst d. apply (HG c Hc); assumption.
Qed.

Lemma good_dsc : forall m k, K - k <= m -> 1 <= k <= K -> good_list k (dsc k) /\ (forall c, In c (kl k) -> good_list c (dsc c)).
Proof.
  induction m as [|m IH]; intros k Hm Hk.
  - assert (Hkl : kl k = []).
    { destruct (kl k) as [|c l] eqn:E; [reflexivity|]. assert (Hc : In c (kl k)) by (rewrite E; left; reflexivity). apply in_kl, tr_kid_lt in Hc. lia. }
    rewrite Hkl. split; [|intros c []].
    assert (Hlf : leaf cs k).
    { apply leaf_kl; [exact Hk|]. destruct (c_kids (g0 k)) eqn:E; [|reflexivity]. apply (proj2 (proj2 (proj2 (tr_all k Hk)))) in E. destruct E as (j & Hj).
      apply tr_kid in Hj. apply in_kl in Hj. rewrite Hkl in Hj. contradiction. }
    destruct (dsc_cases k Hk) as [[-> _]|(_ & _ & E)]; [|apply leaf_kl in Hlf; congruence].
    split; [|split].
    + split; [repeat constructor; intros []|]. intros j k0 [<-|[]] [<-|[]] _. reflexivity.
    + intros y [<-|[]]. apply under_refl. exact Hk.
    + intros z Hz Hu. exists k. split; [left; reflexivity|exact Hu].
  - assert (HG : forall c, In c (kl k) -> good_list c (dsc c)).
    { intros c Hc. apply in_kl, tr_kid_lt in Hc. apply IH; lia. }
    split; [|exact HG]. destruct (dsc_cases k Hk) as [[-> _]|(E & _ & Ek)].
    + split; [|split].
      * split; [repeat constructor; intros []|]. intros j k0 [<-|[]] [<-|[]] _. reflexivity.
      * intros y [<-|[]]. apply under_refl. exact Hk.
      * intros z Hz Hu. exists k. split; [left; reflexivity|exact Hu].
    + rewrite E, g_desc by exact Hk. split; [|split].
      * apply antichain_flat with k; [apply nodup_kl|intros c Hc; apply in_kl; exact Hc|exact HG].
      * intros y Hy. apply in_flat_map in Hy. destruct Hy as (c & Hc & Hy). pose proof (proj1 (proj2 (HG c Hc)) y Hy) as Hu.
        apply in_kl in Hc. apply under_trans with c; [exact Hu|]. apply under_step with k; [exact Hc|apply under_refl; exact Hk].
      * intros z Hz Hu. destruct (Nat.eq_dec z k) as [->|Hne]; [apply leaf_kl in Hz; [congruence|exact Hk]|].
        destruct (under_child z k Hu Hne) as (c & Hc & Huc). apply in_kl in Hc.
        destruct (proj2 (proj2 (HG c Hc)) z Hz Huc) as (y & Hy & Huy). exists y. split; [apply in_flat_map; exists c; auto|exact Huy].
Qed.

Lemma good_desc k : 1 <= k <= K -> antichain cs (c_desc (g k)) /\
  (forall y, In y (c_desc (g k)) -> under cs y k /\ y <> k) /\
  (forall z, leaf cs z -> under cs z k -> z <> k -> exists y, In y (c_desc (g k)) /\ under cs z y).
Proof.
  intros Hk. pose proof (proj2 (good_dsc (K - k) k (Nat.le_refl _) Hk)) as HG. rewrite g_desc by exact Hk. split; [|split].
  - apply antichain_flat with k; [apply nodup_kl|intros c Hc; apply in_kl; exact Hc|exact HG].
  - intros y Hy. apply in_flat_map in Hy. destruct Hy as (c & Hc & Hy). pose proof (proj1 (proj2 (HG c Hc)) y Hy) as Hu.
    apply in_kl in Hc. split.
    + apply under_trans with c; [exact Hu|]. apply under_step with k; [exact Hc|apply under_refl; exact Hk].
    + apply under_le in Hu. apply tr_kid_lt in Hc. lia.
  - intros z Hz Hu Hne. destruct (under_child z k Hu Hne) as (c & Hc & Huc). apply in_kl in Hc.
    destruct (proj2 (proj2 (HG c Hc)) z Hz Huc) as (y & Hy & Huy). exists y. split; [apply in_flat_map; exists c; auto|exact Huy].
Qed.

(** ** Lowest death levels *)
Lemma lowmin_spec l : forall m, notnan m -> (forall x, In x l -> notnan (c_plow (g x))) ->
  notnan (lowmin g l m) /\ (lowmin g l m = m \/ exists x, In x l /\ lowmin g l m = c_plow (g x)) /\
  (fkey (lowmin g l m) <= fkey m)%Z /\ (forall x, In x l -> (fkey (lowmin g l m) <= fkey (c_plow (g x)))%Z).
Proof.
  induction l as [|a l IH]; intros m Hm Hl.
  - cbn [lowmin fold_left]. split; [exact Hm|]. split; [auto|]. split; [apply Z.le_refl|]. intros x [].
  - assert (Ha : notnan (c_plow (g a))) by (apply Hl; left; reflexivity).
    assert (Hl' : forall x, In x l -> notnan (c_plow (g x))) by (intros x Hx; apply Hl; right; exact Hx).
    change (lowmin g (a :: l) m) with (lowmin g l (if flt (c_plow (g a)) m then c_plow (g a) else m)).
    rewrite flt_key by assumption. destruct (Z.ltb_spec (fkey (c_plow (g a))) (fkey m)) as [Hlt|Hge].
    + destruct (IH (c_plow (g a)) Ha Hl') as (N & C & L1 & L2). split; [exact N|]. split.
      * destruct C as [->|(x & Hx & ->)]; right; [exists a; split; [left; reflexivity|reflexivity]|exists x; split; [right; exact Hx|reflexivity]].
      * split; [apply Z.lt_le_incl; eapply Z.le_lt_trans; eassumption|]. intros x [<-|Hx]; [exact L1|apply L2; exact Hx].
    + destruct (IH m Hm Hl') as (N & C & L1 & L2). split; [exact N|]. split.
      * destruct C as [->|(x & Hx & ->)]; [left; reflexivity|right; exists x; split; [right; exact Hx|reflexivity]].
      * split; [exact L1|]. intros x [<-|Hx]; [eapply Z.le_trans; eassumption|apply L2; exact Hx].
Qed.

Hypothesis Hdeath : forall z, leaf cs z -> z <> 1 -> flt (c_death (g0 z)) D_MAX = true.

Definition low_ok (k : nat) (x : f64) : Prop :=
  (exists z, leaf cs z /\ under cs z k /\ x = c_death (g0 z)) /\
  (forall z, leaf cs z -> under cs z k -> fle x (c_death (g0 z)) = true).

Lemma low_below k x : 2 <= k -> low_ok k x -> flt x D_MAX = true.
Proof. intros Hk [(z & Hz & Hu & ->) _]. apply Hdeath; [exact Hz|]. apply under_le in Hu. lia. Qed.

Lemma low_inner k : 1 <= k <= K -> c_kids (g0 k) = true -> (forall c, In c (kl k) -> low_ok c (c_plow (g c))) ->
  low_ok k (lowmin g (kl k) D_MAX) /\ flt (lowmin g (kl k) D_MAX) D_MAX = true.
Proof.
  intros Hk Ek HL.
  assert (Hb : forall c, In c (kl k) -> flt (c_plow (g c)) D_MAX = true).
  { intros c Hc. pose proof (HL c Hc) as H. apply in_kl, tr_kid_lt in Hc. apply (low_below c); [lia|exact H]. }
  destruct (lowmin_spec (kl k) D_MAX D_MAX_notnan) as (N & C & L1 & L2).
  { intros c Hc. apply Hb, flt_true in Hc. apply Hc. }
  assert (Hlt : flt (lowmin g (kl k) D_MAX) D_MAX = true).
  { apply (proj2 (proj2 (proj2 (tr_all k Hk)))) in Ek. destruct Ek as (j & Hj). apply tr_kid, in_kl in Hj.
    pose proof (L2 j Hj) as H. apply Hb, flt_true in Hj. destruct Hj as (_ & _ & Hj). apply flt_intro; [exact N|apply D_MAX_notnan|].
    eapply Z.le_lt_trans; eassumption. }
  split; [|exact Hlt]. split.
  - destruct C as [C|(c & Hc & ->)].
    + exfalso. rewrite C in Hlt. apply flt_true in Hlt. destruct Hlt as (_ & _ & H). apply (Z.lt_irrefl _ H).
    + destruct (proj1 (HL c Hc)) as (z & Hz & Hu & ->). exists z. split; [exact Hz|]. split; [|reflexivity].
      apply in_kl in Hc. apply under_trans with c; [exact Hu|]. apply under_step with k; [exact Hc|apply under_refl; exact Hk].
  - intros z Hz Hu. destruct (Nat.eq_dec z k) as [->|Hne]; [apply leaf_kl in Hz; [congruence|exact Hk]|].
    destruct (under_child z k Hu Hne) as (c & Hc & Huc). apply in_kl in Hc. pose proof (proj2 (HL c Hc) z Hz Huc) as H.
    pose proof (L2 c Hc) as H2. apply fle_true in H. destruct H as (N1 & N2 & H). apply fle_intro; [exact N|exact N2|]. eapply Z.le_trans; eassumption.
Qed.

Lemma low_all : forall m k, K - k <= m -> 2 <= k <= K -> low_ok k (c_plow (g k)).
Proof.
  induction m as [|m IH]; intros k Hm Hk.
  all: assert (HL : forall c, In c (kl k) -> low_ok c (c_plow (g c))) by (intros c Hc; apply in_kl, tr_kid_lt in Hc; first [lia|apply IH; lia]).
  all: rewrite (st_plow _ _ _ _ HS k ltac:(lia)); cbn zeta; fold (kl k);
    replace (k <=? 0) with false by (symmetry; apply Nat.leb_gt; lia); replace (k =? 1) with false by (symmetry; apply Nat.eqb_neq; lia); cbn [orb].
  all: destruct (c_kids (g0 k)) eqn:Ek;
   [ destruct (low_inner k ltac:(lia) Ek HL) as [H1 H2]; apply flt_true in H2; destruct H2 as (N1 & N2 & Hlt);
     rewrite feq_key by assumption; replace (fkey (lowmin g (kl k) D_MAX) =? fkey D_MAX)%Z with false
       by (symmetry; apply Z.eqb_neq; intros E; rewrite E in Hlt; apply (Z.lt_irrefl _ Hlt)); exact H1
   | assert (Hkl : kl k = []) by
      (destruct (kl k) as [|c l] eqn:E; [reflexivity|]; assert (Hc : In c (kl k)) by (rewrite E; left; reflexivity);
       apply in_kl, tr_kid in Hc; assert (c_kids (g0 k) = true) by (apply (tr_all k ltac:(lia)); exists c; exact Hc); congruence);
     rewrite Hkl; cbn [lowmin fold_left]; rewrite feq_intro by (try apply D_MAX_notnan; reflexivity) ].
  all: assert (Hlf : leaf cs k) by (apply leaf_kl; [lia|exact Ek]).
  all: assert (Hun : forall z, under cs z k -> z = k) by
    (intros z Hu; destruct (Nat.eq_dec z k) as [|Hne]; [assumption|]; destruct (under_child z k Hu Hne) as (c & Hc & _); apply in_kl in Hc; rewrite Hkl in Hc; contradiction).
  all: split; [exists k; split; [exact Hlf|split; [apply under_refl; lia|reflexivity]]|].
  all: intros z Hz Hu; rewrite (Hun z Hu); pose proof (Hdeath k Hlf ltac:(lia)) as H; apply flt_true in H; apply fle_intro; [apply H|apply H|apply Z.le_refl].
Qed.

Lemma low_root : (leaf cs 1 -> c_plow (g 1) = D_MAX) /\ (~ leaf cs 1 -> low_ok 1 (c_plow (g 1))).
Proof.
  pose proof tr_k as HK. rewrite (st_plow _ _ _ _ HS 1 ltac:(lia)). cbn zeta. fold (kl 1). rewrite Nat.eqb_refl, Bool.orb_true_r. split.
  - intros [_ H]. destruct (kl 1) as [|c l] eqn:E; [reflexivity|]. assert (Hc : In c (kl 1)) by (rewrite E; left; reflexivity). apply in_kl in Hc. exfalso. apply (H c Hc).
  - intros Hn. assert (Ek : c_kids (g0 1) = true).
    { destruct (c_kids (g0 1)) eqn:E; [reflexivity|]. exfalso. apply Hn. apply leaf_kl; [lia|exact E]. }
    apply (low_inner 1 ltac:(lia) Ek). intros c Hc. apply in_kl, tr_kid_lt in Hc. apply (low_all (K - c)); lia.
Qed.
End Tree.

(** ** Optimal selections *)
Section Opt.
Local Open Scope R_scope.
Variables (cs : clusters) (K : nat).
Hypothesis HT : tree cs K.
Notation g0 := (g0 cs).
Variable g : nat -> cluster.
Hypothesis HS : Stage K g0 0 g.
Hypothesis Hnc : forall k, (1 <= k <= K)%nat -> c_nc (g0 k) = 0%Z /\ c_pnc (g k) = 0%Z.
Variable val : nat -> R.
Hypothesis Hval : forall k, (2 <= k <= K)%nat -> 0 <= val k.
Definition sumR (l : list nat) : R := fold_right (fun k s => val k + s) 0 l.
(** What the comparison of a cluster with its propagated stability decides. *)
Hypothesis Hdec : forall k, (2 <= k <= K)%nat -> c_kids (g0 k) = true ->
  fge (c_stab (g0 k)) (c_pstab (g k)) = true <-> sumR (c_desc (g k)) <= val k.

Lemma sumR_nil : sumR [] = 0. Proof. reflexivity. Qed.
Lemma sumR_cons x l : sumR (x :: l) = val x + sumR l. Proof. reflexivity. Qed.
Lemma sumR_app l l' : sumR (l ++ l') = sumR l + sumR l'.
Proof. induction l as [|x l IH]; cbn [app]; [rewrite sumR_nil; lra|]. rewrite !sumR_cons, IH. lra. Qed.
Lemma sumR_flat (f : nat -> list nat) (C : list nat) : sumR (flat_map f C) = fold_right (fun c s => sumR (f c) + s) 0 C.
Proof. induction C as [|c C IH]; cbn [flat_map fold_right]; [reflexivity|]. rewrite sumR_app, IH. reflexivity. Qed.
Lemma sumR_nonneg l : (forall k, In k l -> 2 <= k <= K)%nat -> 0 <= sumR l.
Proof.
  induction l as [|x l IH]; intros H; [rewrite sumR_nil; lra|]. rewrite sumR_cons.
  assert (0 <= val x) by (apply Hval, H; left; reflexivity). assert (0 <= sumR l) by (apply IH; intros k Hk; apply H; right; exact Hk). lra.
Qed.

Lemma sum_classes (P : nat -> nat -> bool) C : forall T, (forall t, In t T -> (2 <= t <= K)%nat /\ exists c, In c C /\ P c t = true) ->
  sumR T <= fold_right (fun c s => sumR (filter (P c) T) + s) 0 C.
Proof.
  induction T as [|t T IH]; intros H.
  - cbn [filter]. rewrite !sumR_nil. clear H. induction C as [|c C IHC]; cbn [fold_right]; lra.
  - specialize (IH (fun x Hx => H x (or_intror Hx))). destruct (H t (or_introl eq_refl)) as [Ht (c0 & Hc0 & Hp0)].
    rewrite sumR_cons.
    assert (Hv : 0 <= val t) by (apply Hval; exact Ht).
    assert (Hgen : forall D, fold_right (fun c s => sumR (filter (P c) T) + s) 0 D <= fold_right (fun c s => sumR (filter (P c) (t :: T)) + s) 0 D).
    { induction D as [|d D IHD]; cbn [fold_right]; [lra|]. change (filter (P d) (t :: T)) with (if P d t then t :: filter (P d) T else filter (P d) T). destruct (P d t); rewrite ?sumR_cons; lra. }
    assert (Hone : val t + fold_right (fun c s => sumR (filter (P c) T) + s) 0 C <= fold_right (fun c s => sumR (filter (P c) (t :: T)) + s) 0 C).
    { clear -Hc0 Hp0 Hgen Hv. induction C as [|d D IHD]; [contradiction|]. cbn [fold_right]. destruct Hc0 as [->|Hc0].
      - change (filter (P c0) (t :: T)) with (if P c0 t then t :: filter (P c0) T else filter (P c0) T). rewrite Hp0, sumR_cons. specialize (Hgen D). lra.
      - specialize (IHD Hc0). change (filter (P d) (t :: T)) with (if P d t then t :: filter (P d) T else filter (P d) T). destruct (P d t); rewrite ?sumR_cons; lra. }
    lra.
Qed.

Lemma handed_plain k : (1 <= k <= K)%nat -> dsc g k = if c_kids (g0 k) then (if fge (c_stab (g0 k)) (c_pstab (g k)) then [k] else c_desc (g k)) else [k].
Proof.
  intros Hk. destruct (g_stat cs K g HS k Hk) as (_ & _ & E1 & _ & E2 & E3 & _). destruct (Hnc k Hk) as [N1 N2].
  unfold dsc, handed. rewrite E2, E1, E3, N1, N2. destruct (c_kids (g0 k)); cbn [negb orb]; [|reflexivity].
  change (0 <? 0)%Z with false. destruct (fge _ _); reflexivity.
Qed.

Lemma fold_le (f h : nat -> R) C : (forall c, In c C -> f c <= h c) -> fold_right (fun c s => f c + s) 0 C <= fold_right (fun c s => h c + s) 0 C.
Proof.
  induction C as [|c C IH]; intros H; cbn [fold_right]; [lra|]. assert (f c <= h c) by (apply H; left; reflexivity).
  assert (fold_right (fun c s => f c + s) 0 C <= fold_right (fun c s => h c + s) 0 C) by (apply IH; intros d Hd; apply H; right; exact Hd). lra.
Qed.

(** Antichains strictly below [k], given the bound for its children. *)
Lemma opt_children k T : (1 <= k <= K)%nat -> antichain cs T -> (forall t, In t T -> under cs t k /\ t <> k) ->
  (forall c, In c (kl cs K k) -> forall T', antichain cs T' -> (forall t, In t T' -> under cs t c) -> sumR T' <= sumR (dsc g c)) ->
  sumR T <= sumR (c_desc (g k)).
Proof.
  intros Hk [HN HA] HU HC. rewrite (g_desc cs K g HS k Hk), sumR_flat.
  eapply Rle_trans; [apply (sum_classes (fun c t => underb cs t c) (kl cs K k) T)|].
  - intros t Ht. destruct (HU t Ht) as [Hu Hne]. destruct (under_child cs K HT t k Hu Hne) as (c & Hc & Huc).
    pose proof (under_le cs K HT _ _ Huc). pose proof (tr_kid_lt cs K HT _ _ Hc). split; [lia|]. exists c. split; [apply (in_kl cs K HT); exact Hc|apply (underb_ok cs K HT); [lia|exact Huc]].
  - apply fold_le. intros c Hc. apply HC; [exact Hc| |].
    + split; [apply NoDup_filter; exact HN|]. intros i j Hi Hj. apply filter_In in Hi, Hj. apply HA; tauto.
    + intros t Ht. apply filter_In in Ht. destruct Ht as [Ht Hb]. destruct (HU t Ht) as [Hu _]. pose proof (under_le cs K HT _ _ Hu).
      apply (underb_ok cs K HT) in Hb; [exact Hb|lia].
Qed.

Lemma opt_all : forall m k, (K - k <= m)%nat -> (2 <= k <= K)%nat -> forall T, antichain cs T -> (forall t, In t T -> under cs t k) -> sumR T <= sumR (dsc g k).
Proof.
  induction m as [|m IH]; intros k Hm Hk T HA HU.
  all: assert (HC : forall c, In c (kl cs K k) -> forall T', antichain cs T' -> (forall t, In t T' -> under cs t c) -> sumR T' <= sumR (dsc g c))
    by (intros c Hc; apply (in_kl cs K HT), (tr_kid_lt cs K HT) in Hc; first [lia|apply IH; lia]).
  all: assert (HB : sumR [k] <= sumR (dsc g k) /\ (c_kids (g0 k) = true -> sumR (c_desc (g k)) <= sumR (dsc g k)))
    by (rewrite (handed_plain k) by lia; destruct (c_kids (g0 k)) eqn:Ek; [|split; [lra|discriminate]];
        pose proof (Hdec k Hk Ek) as Hd; destruct (fge _ _);
        [ split; [lra|]; intros _; rewrite sumR_cons, sumR_nil; specialize (proj1 Hd eq_refl); lra
        | split; [|lra]; rewrite sumR_cons, sumR_nil; destruct (Rle_dec (sumR (c_desc (g k))) (val k)) as [Hle|Hle]; [specialize (proj2 Hd Hle); discriminate|lra] ]).
  all: destruct (in_dec Nat.eq_dec k T) as [i|i].
  1,3: assert (HTk : T = [k]) by
    (destruct HA as [HN HA]; assert (Hall : forall t, In t T -> t = k) by (intros t Ht; apply HA; auto);
     destruct T as [|a T]; [contradiction|]; destruct T as [|b T]; [rewrite (Hall a (or_introl eq_refl)); reflexivity|];
     exfalso; inversion HN as [|? ? Hn _]; apply Hn; left; rewrite (Hall a (or_introl eq_refl)), (Hall b (or_intror (or_introl eq_refl))); reflexivity);
    rewrite HTk; apply HB.
  all: destruct (c_kids (g0 k)) eqn:Ek.
  1,3: eapply Rle_trans; [|apply HB; reflexivity]; apply opt_children; [lia|exact HA| |exact HC];
    intros t Ht; split; [apply HU; exact Ht|intros ->; contradiction].
  all: assert (HTn : T = []) by
    (destruct T as [|t T]; [reflexivity|]; exfalso; assert (Hne : t <> k) by (intros ->; apply i; left; reflexivity);
     destruct (under_child cs K HT t k (HU t (or_introl eq_refl)) Hne) as (c & Hc & _); apply (tr_kid cs K HT) in Hc;
     assert (c_kids (g0 k) = true) by (apply (tr_all cs K HT k ltac:(lia)); exists c; exact Hc); congruence);
    rewrite HTn; eapply Rle_trans; [|exact (proj1 HB)]; apply Rle_trans with 0; [rewrite sumR_nil; lra|]; apply sumR_nonneg; intros x [<-|[]]; exact Hk.
Qed.

Lemma opt_root T : antichain cs T -> (forall t, In t T -> t <> 1%nat /\ exists c, cluster_in cs t c) -> sumR T <= sumR (c_desc (g 1)).
Proof.
  intros HA HU. pose proof (tr_k cs K HT). apply opt_children; [lia|exact HA| |].
  - intros t Ht. destruct (HU t Ht) as [Hne (c & Hc)]. apply (tr_in cs K HT) in Hc. split; [apply (under_root cs K HT); lia|exact Hne].
  - intros c Hc. apply (in_kl cs K HT), (tr_kid_lt cs K HT) in Hc. apply (opt_all (K - c)); lia.
Qed.
End Opt.

(** ** Optimality in double arithmetic *)
Lemma StronglySorted_snoc l x : StronglySorted gt l -> (forall y, In y l -> y > x) -> StronglySorted gt (l ++ [x]).
Proof.
  induction l as [|a l IH]; intros HS HL; cbn [app]; [repeat constructor|]. inversion HS as [|? ? H1 H2]; subst. constructor.
  - apply IH; [exact H1|]. intros y Hy. apply HL. right. exact Hy.
  - apply Forall_app. split; [exact H2|]. constructor; [apply HL; left; reflexivity|constructor].
Qed.
Lemma gt_sorted_unique l : forall l', StronglySorted gt l -> StronglySorted gt l' -> (forall x, In x l <-> In x l') -> l = l'.
Proof.
  induction l as [|a l IH]; intros [|b l'] H1 H2 HI.
  - reflexivity.
  - exfalso. apply (proj2 (HI b)). left. reflexivity.
  - exfalso. apply (proj1 (HI a)). left. reflexivity.
  - inversion H1 as [|? ? A1 A2]; inversion H2 as [|? ? B1 B2]; subst. rewrite Forall_forall in A2, B2.
    assert (a = b).
    { destruct (proj1 (HI a) (or_introl eq_refl)) as [E|E]; [auto|]. destruct (proj2 (HI b) (or_introl eq_refl)) as [E'|E']; [auto|].
      specialize (A2 _ E'). specialize (B2 _ E). lia. }
    subst b. f_equal. apply IH; [exact A1|exact B1|]. intros x. split; intros Hx.
    + destruct (proj1 (HI x) (or_intror Hx)) as [E|E]; [subst x; specialize (A2 _ Hx); lia|exact E].
    + destruct (proj2 (HI x) (or_intror Hx)) as [E|E]; [subst x; specialize (B2 _ Hx); lia|exact E].
Qed.

Section Machine.
Variables (cs : clusters) (K : nat).
Hypothesis HT : tree cs K.
Notation g0 := (g0 cs).
Variable g : nat -> cluster.
Hypothesis HS : Stage K g0 0 g.

Lemma kl_children k : children cs k (kl cs K k).
Proof.
  split; [intros x; apply (in_kl cs K HT)|]. unfold kl, kidsl.
  assert (H : StronglySorted gt (rev (seq 1 (K - 0)))).
  { generalize (K - 0), 1. induction n as [|n IH]; intros s; [constructor|]. cbn [seq rev].
    apply StronglySorted_snoc; [apply IH|]. intros y Hy. apply in_rev, in_seq in Hy. lia. }
  revert H. generalize (rev (seq 1 (K - 0))). induction l as [|x l IH]; intros H; [constructor|]. inversion H as [|? ? H1 H2]; subst. cbn [filter].
  destruct (is_kid g0 k x).
  - constructor; [apply IH; exact H1|]. rewrite Forall_forall in *. intros y Hy. apply filter_In in Hy. apply H2. apply Hy.
  - apply IH; exact H1.
Qed.
Lemma children_kl k l : children cs k l -> l = kl cs K k.
Proof. intros [H1 H2]. destruct (kl_children k) as [H3 H4]. apply gt_sorted_unique; [exact H2|exact H4|]. intros x. rewrite H1, H3. reflexivity. Qed.

Lemma g_pstab p : 1 <= p <= K -> c_pstab (g p) = fold_left fadd (map (hst g) (kl cs K p)) fzero.
Proof.
  intros Hp. rewrite (st_pstab _ _ _ _ HS p Hp). unfold sumstab. fold (kl cs K p). generalize fzero. induction (kl cs K p) as [|x l IH]; intros a; [reflexivity|].
  cbn [fold_left map]. apply IH.
Qed.

Hypothesis Hnc : forall k, 1 <= k <= K -> c_nc (g0 k) = 0%Z /\ c_pnc (g k) = 0%Z.
Hypothesis Hpos : forall k, 2 <= k <= K -> ge0 (c_stab (g0 k)).

Lemma hst_plain k : 1 <= k <= K -> hst g k = if c_kids (g0 k) then (if fge (c_stab (g0 k)) (c_pstab (g k)) then c_stab (g0 k) else c_pstab (g k)) else c_stab (g0 k).
Proof.
  intros Hk. destruct (g_stat cs K g HS k Hk) as (_ & _ & E1 & _ & E2 & E3 & _). destruct (Hnc k Hk) as [N1 N2].
  unfold hst, handed. rewrite E2, E1, E3, N1, N2. destruct (c_kids (g0 k)); cbn [negb orb]; [|reflexivity].
  change (0 <? 0)%Z with false. destruct (fge _ _); reflexivity.
Qed.

Lemma sums_ge0 l : Forall ge0 l -> forall a, ge0 a -> ge0 (fold_left fadd l a).
Proof. induction 1 as [|x l Hx Hl IH]; intros a Ha; [exact Ha|]. cbn [fold_left]. apply IH. apply fadd_ge0; assumption. Qed.
Lemma sums_mono (h : nat -> f64) l vs : Forall2 (fun x v => ge0 v /\ fle v (h x) = true) l vs -> forall a b, ge0 a -> fle a b = true ->
  fle (fold_left fadd vs a) (fold_left fadd (map h l) b) = true.
Proof.
  induction 1 as [|x v l vs [Hv Hle] Hl IH]; intros a b Ha Hab; [exact Hab|]. cbn [fold_left map]. apply IH; [apply fadd_ge0; assumption|apply fadd_mono; assumption].
Qed.

Lemma hst_facts : forall m k, K - k <= m -> 2 <= k <= K ->
  ge0 (hst g k) /\ ge0 (c_pstab (g k)) /\ fle (c_stab (g0 k)) (hst g k) = true /\ (c_kids (g0 k) = true -> fle (c_pstab (g k)) (hst g k) = true).
Proof.
  induction m as [|m IH]; intros k Hm Hk.
  all: assert (HP : ge0 (c_pstab (g k))) by
    (rewrite (g_pstab k) by lia; apply sums_ge0; [|reflexivity]; apply Forall_map, Forall_forall; intros c Hc;
     apply (in_kl cs K HT), (tr_kid_lt cs K HT) in Hc; first [lia|apply IH; lia]).
  all: pose proof (Hpos k Hk) as HS0; rewrite (hst_plain k) by lia.
  all: assert (R1 : fle (c_stab (g0 k)) (c_stab (g0 k)) = true) by (apply fle_refl, ge0_notnan; exact HS0).
  all: assert (R2 : fle (c_pstab (g k)) (c_pstab (g k)) = true) by (apply fle_refl, ge0_notnan; exact HP).
  all: destruct (c_kids (g0 k)); [|repeat split; [exact HS0|exact HP|exact R1|discriminate]].
  all: destruct (fge _ _) eqn:E; [repeat split; [exact HS0|exact HP|exact R1|intros _; exact E]|repeat split; [exact HP|exact HP| |intros _; exact R2]].
  all: unfold fge in E; fold (fle (c_pstab (g k)) (c_stab (g0 k))) in E; rewrite fle_key in E by (apply ge0_notnan; assumption);
    apply Z.leb_gt in E; apply fle_intro; [apply ge0_notnan; exact HS0|apply ge0_notnan; exact HP|apply Z.lt_le_incl; exact E].
Qed.

Lemma hst_ge0 k : 2 <= k <= K -> ge0 (hst g k).
Proof. intros Hk. apply (hst_facts (K - k)); [lia|exact Hk]. Qed.
Lemma pstab_ge0 k : 1 <= k <= K -> ge0 (c_pstab (g k)).
Proof.
  intros Hk. rewrite (g_pstab k Hk). apply sums_ge0; [|reflexivity]. apply Forall_map, Forall_forall. intros c Hc.
  apply (in_kl cs K HT), (tr_kid_lt cs K HT) in Hc. apply hst_ge0. lia.
Qed.

Lemma mt_children k T l vs : 1 <= k <= K -> children cs k l -> Forall2 (machine_total cs T) l vs ->
  (forall c v, In c (kl cs K k) -> machine_total cs T c v -> ge0 v /\ fle v (hst g c) = true) ->
  ge0 (fold_left fadd vs fzero) /\ fle (fold_left fadd vs fzero) (c_pstab (g k)) = true.
Proof.
  intros Hk Hl HF HC. apply children_kl in Hl. subst l.
  assert (HF' : Forall2 (fun x v => ge0 v /\ fle v (hst g x) = true) (kl cs K k) vs).
  { revert HF. assert (Hsub : forall c, In c (kl cs K k) -> In c (kl cs K k)) by auto. revert Hsub. generalize (kl cs K k) at 1 3 4. intros l. revert vs. induction l as [|x l IH]; intros vs Hsub HF; inversion HF; subst; constructor.
    - apply HC; [apply Hsub; left; reflexivity|assumption].
    - apply IH; [intros c Hc; apply Hsub; right; exact Hc|assumption]. }
  split.
  - apply sums_ge0; [|reflexivity]. clear -HF'. induction HF' as [|? ? ? ? [H _]]; constructor; assumption.
  - rewrite (g_pstab k Hk). apply sums_mono; [exact HF'|reflexivity|reflexivity].
Qed.

Lemma mt_bound T : forall m k, K - k <= m -> 2 <= k <= K -> forall v, machine_total cs T k v -> ge0 v /\ fle v (hst g k) = true.
Proof.
  induction m as [|m IH]; intros k Hm Hk v HV.
  all: destruct (hst_facts (K - k) k (Nat.le_refl _) Hk) as (F1 & F2 & F3 & F4).
  all: inversion HV as [? c Hc Hin|? l vs Hn Hl HF]; subst.
  1,3: apply (tr_in cs K HT) in Hc; destruct Hc as [_ ->]; split; [apply Hpos; exact Hk|exact F3].
  all: destruct (mt_children k T l vs ltac:(lia) Hl HF) as [G1 G2];
    [intros c v Hc; apply (in_kl cs K HT), (tr_kid_lt cs K HT) in Hc; first [lia|apply IH; lia]|].
  all: split; [exact G1|].
  all: destruct (c_kids (g0 k)) eqn:Ek; [apply fle_trans with (c_pstab (g k)); [exact G2|apply F4; reflexivity]|].
  all: assert (Hkl : kl cs K k = []) by
      (destruct (kl cs K k) as [|c l0] eqn:E; [reflexivity|]; assert (Hc : In c (kl cs K k)) by (rewrite E; left; reflexivity);
       apply (in_kl cs K HT), (tr_kid cs K HT) in Hc; assert (c_kids (g0 k) = true) by (apply (tr_kids cs K HT k ltac:(lia)); exists c; exact Hc); congruence).
  all: rewrite (g_pstab k) in G2 by lia; rewrite Hkl in G2; cbn [map fold_left] in G2; apply fle_trans with fzero; [exact G2|exact F1].
Qed.

Lemma mt_root T v : ~ In 1 T -> machine_total cs T 1 v -> fle v (c_pstab (g 1)) = true.
Proof.
  intros Hn HV. pose proof (tr_k cs K HT). inversion HV as [? c Hc Hin|? l vs Hn' Hl HF]; subst; [contradiction|].
  apply (mt_children 1 T l vs); [lia|exact Hl|exact HF|].
  intros c v Hc. apply (in_kl cs K HT), (tr_kid_lt cs K HT) in Hc. apply (mt_bound T (K - c)); lia.
Qed.

(** The selected clusters reach the bound. *)
Lemma dsc_disjoint k c y : 1 <= k <= K -> In c (kl cs K k) -> In y (flat_map (dsc g) (kl cs K k)) -> under cs y c -> In y (dsc g c).
Proof.
  intros Hk Hc Hy Hu. apply in_flat_map in Hy. destruct Hy as (d & Hd & Hyd).
  destruct (good_dsc cs K HT g HS (K - k) k (Nat.le_refl _) Hk) as [_ HG].
  pose proof (proj1 (proj2 (HG d Hd)) y Hyd) as Hud. pose proof (proj1 (in_kl cs K HT k c) Hc) as Hcc. pose proof (proj1 (in_kl cs K HT k d) Hd) as Hdd.
  assert (c = d); [|subst; exact Hyd].
  destruct (under_two cs y c d Hu Hud) as [H|H]; [apply (sib_under cs K HT c d k); assumption|symmetry; apply (sib_under cs K HT d c k); assumption].
Qed.

Lemma mt_kids T k : 1 <= k <= K -> ~ In k T -> (forall y, under cs y k -> y <> k -> In y T <-> In y (c_desc (g k))) ->
  (forall c, In c (kl cs K k) -> (forall y, under cs y c -> In y T <-> In y (dsc g c)) -> machine_total cs T c (hst g c)) ->
  machine_total cs T k (c_pstab (g k)).
Proof.
  intros Hk Hn HTk HC. rewrite (g_pstab k Hk). apply mt_sum with (kl cs K k); [exact Hn|apply kl_children|].
  assert (HA : forall c, In c (kl cs K k) -> machine_total cs T c (hst g c)).
  { intros c Hc. apply HC; [exact Hc|]. intros y Hy. pose proof (proj1 (in_kl cs K HT k c) Hc) as Hcc. pose proof (tr_kid_lt cs K HT _ _ Hcc). pose proof (under_le cs K HT _ _ Hy).
    rewrite HTk; [|apply under_trans with c; [exact Hy|apply under_step with k; [exact Hcc|apply (under_refl cs K HT); exact Hk]]|lia].
    rewrite (g_desc cs K g HS k Hk). split; intros Hi.
    - apply dsc_disjoint with k; assumption.
    - apply in_flat_map. exists c. auto. }
  revert HA. generalize (kl cs K k). induction l as [|x l IH]; intros HA; cbn [map]; constructor; [apply HA; left; reflexivity|apply IH; intros c Hc; apply HA; right; exact Hc].
Qed.

Lemma mt_dsc T : forall m k, K - k <= m -> 2 <= k <= K -> (forall y, under cs y k -> In y T <-> In y (dsc g k)) -> machine_total cs T k (hst g k).
Proof.
  induction m as [|m IH]; intros k Hm Hk HTk.
  all: destruct (dsc_cases cs K g HS k ltac:(lia)) as [[E1 E2]|(E1 & E2 & Ek)].
  1,3: rewrite E2; apply mt_chosen; [apply (tr_in cs K HT); split; [lia|reflexivity]|apply HTk; [apply (under_refl cs K HT); lia|rewrite E1; left; reflexivity]].
  all: rewrite E2; destruct (good_desc cs K HT g HS k ltac:(lia)) as (_ & HD & _).
  all: apply mt_kids; [lia| | |intros c Hc Hy; apply (in_kl cs K HT), (tr_kid_lt cs K HT) in Hc; first [lia|apply IH; [lia|lia|exact Hy]]].
  1,3: rewrite HTk by (apply (under_refl cs K HT); lia); rewrite E1; intros Hi; apply HD in Hi; apply (proj2 Hi); reflexivity.
  all: intros y Hu _; rewrite <- E1; apply HTk; exact Hu.
Qed.

Lemma mt_selected : machine_total cs (c_desc (g 1)) 1 (c_pstab (g 1)).
Proof.
  pose proof (tr_k cs K HT). apply mt_kids; [lia| |tauto|].
  - intros Hi. apply (good_desc cs K HT g HS 1) in Hi; [|lia]. apply (proj2 Hi). reflexivity.
  - intros c Hc Hy. apply (in_kl cs K HT), (tr_kid_lt cs K HT) in Hc. apply (mt_dsc _ (K - c)); [lia|lia|exact Hy].
Qed.
End Machine.

(** ** Stabilities on a grid: the sums are exact *)
Section Grid.
Variables (cs : clusters) (K : nat).
Hypothesis HT : tree cs K.
Notation g0 := (g0 cs).
Variable g : nat -> cluster.
Hypothesis HS : Stage K g0 0 g.
Hypothesis Hnc : forall k, 1 <= k <= K -> c_nc (g0 k) = 0%Z /\ c_pnc (g k) = 0%Z.
Variables (m : nat -> Z) (q : Z).
Hypothesis Hq : (-1074 <= q <= 900)%Z.
Hypothesis Hgrid : forall k, 2 <= k <= K -> (0 <= m k)%Z /\ is_finite (c_stab (g0 k)) = true /\ B2R (c_stab (g0 k)) = (IZR (m k) * bpow radix2 q)%R.
Hypothesis Hsum : (sumz m (seq 2 (K - 1)) <= 2 ^ 53)%Z.

Lemma sumz_app l l' : sumz m (l ++ l') = (sumz m l + sumz m l')%Z.
Proof. induction l as [|x l IH]; [reflexivity|]. cbn [app sumz fold_right]. fold (sumz m (l ++ l')). fold (sumz m l). rewrite IH. lia. Qed.
Lemma sumz_nonneg l : (forall k, In k l -> 2 <= k <= K) -> (0 <= sumz m l)%Z.
Proof.
  induction l as [|x l IH]; intros H; [cbn; lia|]. cbn [sumz fold_right]. fold (sumz m l).
  pose proof (proj1 (Hgrid x (H x (or_introl eq_refl)))). specialize (IH (fun k Hk => H k (or_intror Hk))). lia.
Qed.
Lemma sumz_incl l : forall l', NoDup l -> (forall k, In k l -> In k l') -> (forall k, In k l' -> 2 <= k <= K) -> (sumz m l <= sumz m l')%Z.
Proof.
  induction l as [|x l IH]; intros l' HN HI HR; [apply sumz_nonneg; exact HR|]. inversion HN as [|? ? Hn HN']; subst.
  destruct (in_split x l' (HI x (or_introl eq_refl))) as (l1 & l2 & ->).
  assert (H : (sumz m l <= sumz m (l1 ++ l2))%Z).
  { apply IH; [exact HN'| |].
    - intros k Hk. specialize (HI k (or_intror Hk)). rewrite in_app_iff in *. destruct HI as [Hi|[<-|Hi]]; auto. contradiction.
    - intros k Hk. apply HR. rewrite in_app_iff in *. cbn. tauto. }
  rewrite sumz_app in *. cbn [sumz fold_right]. fold (sumz m l). fold (sumz m l2). lia.
Qed.
Lemma sumz_bound l : NoDup l -> (forall k, In k l -> 2 <= k <= K) -> (0 <= sumz m l <= 2 ^ 53)%Z.
Proof.
  intros HN HR. split; [apply sumz_nonneg; exact HR|]. eapply Z.le_trans; [|exact Hsum]. apply sumz_incl; [exact HN| |]; intros k Hk; [apply in_seq; specialize (HR k Hk); lia|apply in_seq in Hk; lia].
Qed.

Definition ongrid (a : f64) (z : Z) : Prop := is_finite a = true /\ B2R a = (IZR z * bpow radix2 q)%R.

Lemma fold_grid l : forall a A, (0 <= A)%Z -> ongrid a A -> (forall c, In c l -> ongrid (hst g c) (sumz m (dsc g c)) /\ (0 <= sumz m (dsc g c))%Z) ->
  (A + sumz m (flat_map (dsc g) l) <= 2 ^ 53)%Z -> ongrid (fold_left fadd (map (hst g) l) a) (A + sumz m (flat_map (dsc g) l)).
Proof.
  induction l as [|x l IH]; intros a A HA Ha HC HB; cbn [map fold_left flat_map].
  - cbn [sumz fold_right]. rewrite Z.add_0_r. exact Ha.
  - cbn [flat_map] in HB. rewrite sumz_app in *. destruct (HC x (or_introl eq_refl)) as [[X1 X2] X3]. destruct Ha as [A1 A2].
    assert (Hrest : (0 <= sumz m (flat_map (dsc g) l))%Z).
    { clear IH HB. induction l as [|y l IH]; [cbn; lia|]. cbn [flat_map]. rewrite sumz_app. pose proof (proj2 (HC y (or_intror (or_introl eq_refl)))).
      assert (0 <= sumz m (flat_map (dsc g) l))%Z by (apply IH; intros c [->|Hc]; apply HC; [left|right; right]; auto). lia. }
    rewrite Z.add_assoc. apply IH; [lia| |intros c Hc; apply HC; right; exact Hc|lia].
    apply fadd_grid; try assumption. lia.
Qed.

Lemma range_dsc k : 2 <= k <= K -> NoDup (dsc g k) /\ forall y, In y (dsc g k) -> 2 <= y <= K.
Proof.
  intros Hk. destruct (good_dsc cs K HT g HS (K - k) k (Nat.le_refl _) ltac:(lia)) as [((HN & _) & HU & _) _]. split; [exact HN|].
  intros y Hy. apply HU, (under_le cs K HT) in Hy. lia.
Qed.
Lemma range_desc k : 1 <= k <= K -> NoDup (c_desc (g k)) /\ forall y, In y (c_desc (g k)) -> 2 <= y <= K.
Proof.
  intros Hk. destruct (good_desc cs K HT g HS k Hk) as ((HN & _) & HU & _). split; [exact HN|].
  intros y Hy. apply HU in Hy. destruct Hy as [Hy Hne]. apply (under_le cs K HT) in Hy. lia.
Qed.

Lemma pstab_step k : 1 <= k <= K -> (forall c, In c (kl cs K k) -> ongrid (hst g c) (sumz m (dsc g c))) -> ongrid (c_pstab (g k)) (sumz m (c_desc (g k))).
Proof.
  intros Hk HC. rewrite (g_pstab cs K g HS k Hk). pose proof (range_desc k Hk) as [RN RR]. rewrite (g_desc cs K g HS k Hk) in *. change (sumz m (flat_map (dsc g) (kl cs K k))) with (0 + sumz m (flat_map (dsc g) (kl cs K k)))%Z.
  apply fold_grid; [lia| | |].
  - split; [reflexivity|]. cbn. symmetry. apply Rmult_0_l.
  - intros c Hc. split; [apply HC; exact Hc|]. apply (in_kl cs K HT), (tr_kid_lt cs K HT) in Hc. destruct (range_dsc c ltac:(lia)) as [N R]. apply sumz_bound; assumption.
  - pose proof (sumz_bound _ RN RR). lia.
Qed.
Lemma hst_grid : forall n k, K - k <= n -> 2 <= k <= K -> ongrid (hst g k) (sumz m (dsc g k)).
Proof.
  induction n as [|n IH]; intros k Hn Hk.
  all: destruct (dsc_cases cs K g HS k ltac:(lia)) as [[-> ->]|(-> & -> & _)].
  1,3: cbn [sumz fold_right]; rewrite Z.add_0_r; split; apply (Hgrid k Hk).
  all: apply pstab_step; [lia|]; intros c Hc; apply (in_kl cs K HT), (tr_kid_lt cs K HT) in Hc; first [lia|apply IH; lia].
Qed.
Lemma pstab_grid k : 1 <= k <= K -> ongrid (c_pstab (g k)) (sumz m (c_desc (g k))).
Proof. intros Hk. apply pstab_step; [exact Hk|]. intros c Hc. apply (in_kl cs K HT), (tr_kid_lt cs K HT) in Hc. apply (hst_grid (K - c)); lia. Qed.

Lemma real_stab_g0 k : 1 <= k <= K -> real_stab cs k = B2R (c_stab (g0 k)).
Proof. intros Hk. unfold real_stab. pose proof (proj2 (tr_in cs K HT k (g0 k)) (conj Hk eq_refl)) as H. unfold cluster_in in H. rewrite H. reflexivity. Qed.
Lemma real_total_grid l : (forall k, In k l -> 2 <= k <= K) -> sumR (real_stab cs) l = (IZR (sumz m l) * bpow radix2 q)%R.
Proof.
  induction l as [|x l IH]; intros HR; [cbn; symmetry; apply Rmult_0_l|]. rewrite sumR_cons, IH by (intros k Hk; apply HR; right; exact Hk).
  pose proof (HR x (or_introl eq_refl)) as Hx. rewrite real_stab_g0 by lia. rewrite (proj2 (proj2 (Hgrid x Hx))). cbn [sumz fold_right]. fold (sumz m l). rewrite plus_IZR. lra.
Qed.
Lemma grid_dec k : 2 <= k <= K -> c_kids (g0 k) = true -> fge (c_stab (g0 k)) (c_pstab (g k)) = true <-> (sumR (real_stab cs) (c_desc (g k)) <= real_stab cs k)%R.
Proof.
  intros Hk _. rewrite real_total_grid by apply (range_desc k ltac:(lia)). rewrite real_stab_g0 by lia. destruct (pstab_grid k ltac:(lia)) as [F E]. rewrite <- E.
  unfold fge. apply fle_R; [exact F|apply (Hgrid k Hk)].
Qed.
Lemma grid_opt T : antichain cs T -> (forall t, In t T -> t <> 1 /\ exists c, cluster_in cs t c) -> (real_total cs T <= real_total cs (c_desc (g 1)))%R.
Proof.
  intros HA HU. apply (opt_root cs K HT g HS Hnc (real_stab cs)); [|exact grid_dec|exact HA|exact HU].
  intros k Hk. rewrite real_stab_g0 by lia. destruct (Hgrid k Hk) as (H1 & _ & ->). apply Rmult_le_pos; [apply IZR_le; exact H1|apply bpow_ge_0].
Qed.
End Grid.

(** ** The result does not depend on the order *)
Lemma statics_inj a b : statics a = statics b -> c_pstab a = c_pstab b -> c_plow a = c_plow b -> c_pnc a = c_pnc b -> c_desc a = c_desc b -> a = b.
Proof.
  destruct a as [a1 a2 a3 a4 a5 a6 a7 a8 a9 a10 a11 a12 a13 a14], b as [b1 b2 b3 b4 b5 b6 b7 b8 b9 b10 b11 b12 b13 b14]. unfold statics. cbn.
  intros H -> -> -> ->. injection H as -> -> -> -> -> -> -> -> -> ->. reflexivity.
Qed.
Section Unique.
Variables (cs : clusters) (K : nat).
Hypothesis HT : tree cs K.
Lemma stage_unique g1 g2 : Stage K (g0 cs) 0 g1 -> Stage K (g0 cs) 0 g2 -> forall m k, K - k <= m -> 1 <= k <= K -> g1 k = g2 k.
Proof.
  intros H1 H2. induction m as [|m IH]; intros k Hm Hk.
  all: assert (HC : forall c, In c (kl cs K k) -> g1 c = g2 c) by (intros c Hc; apply (in_kl cs K HT), (tr_kid_lt cs K HT) in Hc; first [lia|apply IH; lia]).
  all: apply statics_inj;
   [ rewrite (st_stat _ _ _ _ H1 k Hk), (st_stat _ _ _ _ H2 k Hk); reflexivity
   | rewrite (st_pstab _ _ _ _ H1 k Hk), (st_pstab _ _ _ _ H2 k Hk); fold (kl cs K k) in *; unfold sumstab; generalize fzero
   | rewrite (st_plow _ _ _ _ H1 k Hk), (st_plow _ _ _ _ H2 k Hk); fold (kl cs K k) in *; cbn zeta;
     assert (El : lowmin g1 (kl cs K k) D_MAX = lowmin g2 (kl cs K k) D_MAX); [unfold lowmin; generalize D_MAX|rewrite El; reflexivity]
   | rewrite (st_pnc _ _ _ _ H1 k Hk), (st_pnc _ _ _ _ H2 k Hk); fold (kl cs K k) in *; unfold sumnc; generalize (c_pnc (g0 cs k))
   | rewrite (st_desc _ _ _ _ H1 k Hk), (st_desc _ _ _ _ H2 k Hk); fold (kl cs K k) in *; unfold descs ].
  all: clear -HC; revert HC; generalize (kl cs K k); induction l as [|x l IHl]; intros HC; cbn [fold_left flat_map]; try reflexivity;
    rewrite (HC x (or_introl eq_refl)); intros; rewrite IHl by (intros c Hc; apply HC; right; exact Hc); reflexivity.
Qed.
Lemma rep_unique cs1 cs2 g1 g2 : rep cs1 g1 K -> rep cs2 g2 K -> (forall k, 1 <= k <= K -> g1 k = g2 k) -> cs1 = cs2.
Proof.
  intros (L1 & Z1 & R1) (L2 & Z2 & R2) HE. apply nth_error_ext. intros i. destruct (Nat.eq_dec i 0) as [->|Hi]; [congruence|].
  destruct (Nat.le_gt_cases i K) as [Hle|Hgt]; [rewrite R1, R2, HE by lia; reflexivity|].
  rewrite (proj2 (nth_error_None cs1 i)), (proj2 (nth_error_None cs2 i)) by lia. reflexivity.
Qed.

Lemma tree_run : fresh cs -> exists cs' g, rep cs' g K /\ Stage K (g0 cs) 0 g /\ forall order fuel, Permutation (seq 0 (S K)) order -> K <= fuel ->
  propagate_tree fuel cs order = Ok (existsb (fun x => feq (c_stab (g0 cs x)) D_MAX) (rev (seq 1 K)), cs', rev (seq 1 K)).
Proof.
  intros HF.
  assert (HF' : forall k, 1 <= k <= K -> c_plow (g0 cs k) = D_MAX /\ c_pstab (g0 cs k) = fzero /\ c_desc (g0 cs k) = []).
  { intros k Hk. apply (HF k). apply (tr_in cs K HT). auto. }
  pose proof (tree_stage K (g0 cs) (tr_k cs K HT) (tr_lab cs K HT) (tr_root cs K HT) (tr_par cs K HT) (tr_kids cs K HT) cs) as HG.
  destruct (HG (seq 0 (S K)) K (tr_rep cs K HT) HF' (Permutation_refl _) (Nat.le_refl _)) as (cs' & g & _ & HR & HS).
  exists cs', g. split; [exact HR|]. split; [exact HS|]. intros order fuel HP Hf.
  destruct (HG order fuel (tr_rep cs K HT) HF' HP Hf) as (cs2 & g2 & E & HR2 & HS2). rewrite E. repeat f_equal.
  apply (rep_unique _ _ _ _ HR2 HR). intros k Hk. apply (stage_unique g2 g HS2 HS (K - k)); [lia|exact Hk].
Qed.

Lemma pnc_zero g : no_constraints cs -> Stage K (g0 cs) 0 g -> forall k, 1 <= k <= K -> c_nc (g0 cs k) = 0%Z /\ c_pnc (g k) = 0%Z.
Proof.
  intros HN HS. assert (N0 : forall k, 1 <= k <= K -> c_nc (g0 cs k) = 0%Z /\ c_pnc (g0 cs k) = 0%Z).
  { intros k Hk. apply (HN k). apply (tr_in cs K HT). auto. }
  assert (H : forall m k, K - k <= m -> 1 <= k <= K -> c_pnc (g k) = 0%Z).
  { induction m as [|m IH]; intros k Hm Hk.
    all: rewrite (st_pnc _ _ _ _ HS k Hk); fold (kl cs K k); rewrite (proj2 (N0 k Hk)).
    all: assert (HC : forall c, In c (kl cs K k) -> fst (fst (handed c (g c))) = 0%Z);
      [ intros c Hc; apply (in_kl cs K HT), (tr_kid_lt cs K HT) in Hc; first [lia|
        destruct (g_stat cs K g HS c ltac:(lia)) as (_ & _ & _ & _ & _ & E & _); unfold handed; rewrite E, (proj1 (N0 c ltac:(lia))), (IH c) by lia;
        destruct (_ || _); [reflexivity|]; change (0 <? 0)%Z with false; destruct (fge _ _); reflexivity]
      | unfold sumnc; revert HC; generalize (kl cs K k); induction l as [|x l IHl]; intros HC; cbn [fold_left]; [reflexivity|];
        rewrite (HC x (or_introl eq_refl)); apply IHl; intros c Hc; apply HC; right; exact Hc ]. }
  intros k Hk. split; [apply N0; exact Hk|apply (H (K - k)); [lia|exact Hk]].
Qed.
End Unique.
