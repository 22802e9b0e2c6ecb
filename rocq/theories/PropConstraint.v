(** C89: the selection prefers satisfied constraints and decides ties by stability. *)
From Coq Require Import Permutation Sorted.
From Verif Require Import Base F64 F64Facts F64Arith ListFacts ModelCluster ModelHier ModelSelect SpecTree ProofSelect ProofTreeSel PropSelect ModelConstraint SpecConstraint.
From Coq Require Import ZifyBool ZifyNat.
Local Open Scope nat_scope.

Lemma u32_id z : (0 <= z < 2 ^ 32)%Z -> u32 z = z.
Proof. intros H. unfold u32. apply Z.mod_small. exact H. Qed.

Section Counts.
Variables (cs : clusters) (K : nat).
Hypothesis HT : tree cs K.
Notation g0 := (g0 cs).
Variable g : nat -> cluster.
Hypothesis HS : Stage K g0 0 g.
Hypothesis Hpos : forall k, 2 <= k <= K -> ge0 (c_stab (g0 k)).
Notation wo k := (c_nc (g0 k)).
Notation vi k := (c_pnc (g0 k)).
Hypothesis Hw : forall k, 1 <= k <= K -> (0 <= wo k)%Z /\ (0 <= vi k)%Z.
Definition weight (k : nat) : Z := (c_nc (g0 k) + c_pnc (g0 k))%Z.
Hypothesis Hsum : (sumz weight (seq 1 K) < 2 ^ 32)%Z.

Definition hnc (k : nat) : Z := fst (fst (handed k (g k))).

Lemma sz_cons (m : nat -> Z) x l : sumz m (x :: l) = (m x + sumz m l)%Z. Proof. reflexivity. Qed.
Lemma sz_app (m : nat -> Z) l l' : sumz m (l ++ l') = (sumz m l + sumz m l')%Z.
Proof. induction l as [|x l IH]; [reflexivity|]. cbn [app]. rewrite !sz_cons, IH. lia. Qed.
Lemma sz_filter (P : nat -> bool) l : (forall x, In x l -> 1 <= x <= K) -> (0 <= sumz weight (filter P l) <= sumz weight l)%Z.
Proof.
  induction l as [|x l IH]; intros H; [cbn; lia|]. cbn [filter]. specialize (IH (fun y Hy => H y (or_intror Hy))). destruct (Hw x (H x (or_introl eq_refl))).
  destruct (P x); rewrite ?sz_cons; unfold weight at 1 3 || unfold weight at 1; unfold weight in *; lia.
Qed.
Lemma one_class (P : nat -> bool) (z : Z) C : NoDup C -> (0 <= z)%Z -> (forall c d, In c C -> In d C -> P c = true -> P d = true -> c = d) ->
  (0 <= sumz (fun c => if P c then z else 0%Z) C <= z)%Z /\ ((forall c, In c C -> P c = false) -> sumz (fun c => if P c then z else 0%Z) C = 0%Z).
Proof.
  induction C as [|c C IH]; intros HN Hz HU; [cbn; split; [lia|reflexivity]|]. inversion HN as [|? ? Hn HN']; subst.
  destruct (IH HN' Hz) as [I1 I2]; [intros a b Ha Hb; apply HU; right; assumption|]. rewrite sz_cons. split.
  - destruct (P c) eqn:E; [|lia]. rewrite I2; [lia|]. intros d Hd. destruct (P d) eqn:Ed; [|reflexivity]. exfalso. apply Hn. rewrite (HU c d); auto; [left; reflexivity|right; exact Hd].
  - intros HA. rewrite (HA c (or_introl eq_refl)), I2; [reflexivity|]. intros d Hd. apply HA. right. exact Hd.
Qed.
Lemma classes (P : nat -> nat -> bool) (Q : nat -> bool) C : NoDup C -> forall L, (forall x, In x L -> 1 <= x <= K) ->
  (forall x c d, In x L -> In c C -> In d C -> P c x = true -> P d x = true -> c = d) -> (forall x c, In x L -> In c C -> P c x = true -> Q x = true) ->
  (sumz (fun c => sumz weight (filter (P c) L)) C <= sumz weight (filter Q L))%Z.
Proof.
  intros HN. induction L as [|x L IH]; intros HL HU HQ.
  - cbn [filter]. clear. induction C as [|c C IH]; [cbn; lia|]. rewrite sz_cons. cbn [sumz fold_right] in *. lia.
  - assert (E : sumz (fun c => sumz weight (filter (P c) (x :: L))) C = (sumz (fun c => if P c x then weight x else 0%Z) C + sumz (fun c => sumz weight (filter (P c) L)) C)%Z).
    { clear. induction C as [|c C IH]; [reflexivity|]. rewrite !sz_cons, IH. cbn [filter]. destruct (P c x); rewrite ?sz_cons; lia. }
    rewrite E. clear E. specialize (IH (fun y Hy => HL y (or_intror Hy)) (fun y c d Hy => HU y c d (or_intror Hy)) (fun y c Hy => HQ y c (or_intror Hy))).
    assert (W : (0 <= weight x)%Z) by (destruct (Hw x (HL x (or_introl eq_refl))); unfold weight; lia).
    destruct (one_class (fun c => P c x) (weight x) C HN W) as [O1 O2]; [intros c d Hc Hd; apply HU; auto; left; reflexivity|].
    cbn [filter]. destruct (Q x) eqn:Eq; [rewrite sz_cons; lia|]. rewrite O2; [lia|]. intros c Hc. destruct (P c x) eqn:Ep; [|reflexivity]. rewrite (HQ x c (or_introl eq_refl) Hc Ep) in Eq. discriminate.
Qed.

(** What is reported in the subtree of [k]. *)
Definition sub (k : nat) : Z := sumz weight (filter (fun x => underb cs x k) (seq 1 K)).
Lemma sub_kids k : 1 <= k <= K -> (weight k + sumz sub (kl cs K k) <= sub k)%Z.
Proof.
  intros Hk. set (P := fun c x => if c =? k then x =? k else underb cs x c).
  assert (Hin : forall x, In x (seq 1 K) -> 1 <= x <= K) by (intros x Hx; apply in_seq in Hx; lia).
  assert (Hkc : forall c, In c (kl cs K k) -> child_in cs c k /\ k < c <= K) by (intros c Hc; apply (in_kl cs K HT) in Hc; split; [exact Hc|apply (tr_kid_lt cs K HT) in Hc; lia]).
  assert (HC : (sumz (fun c => sumz weight (filter (P c) (seq 1 K))) (k :: kl cs K k) <= sub k)%Z).
  { apply classes.
    - constructor; [intros H; apply Hkc in H; lia|apply (nodup_kl cs K)].
    - exact Hin.
    - intros x c d Hx Hc Hd Pc Pd. unfold P in *. destruct Hc as [<-|Hc], Hd as [<-|Hd]; [reflexivity| | |].
      + rewrite Nat.eqb_refl in Pc. apply Nat.eqb_eq in Pc. subst x. destruct (Hkc d Hd) as [_ Hd2]. replace (d =? k) with false in Pd by (symmetry; apply Nat.eqb_neq; lia).
        apply (underb_ok cs K HT) in Pd; [|exact Hk]. apply (under_le cs K HT) in Pd. lia.
      + rewrite Nat.eqb_refl in Pd. apply Nat.eqb_eq in Pd. subst x. destruct (Hkc c Hc) as [_ Hd2]. replace (c =? k) with false in Pc by (symmetry; apply Nat.eqb_neq; lia).
        apply (underb_ok cs K HT) in Pc; [|exact Hk]. apply (under_le cs K HT) in Pc. lia.
      + destruct (Hkc c Hc) as [C1 C2], (Hkc d Hd) as [D1 D2]. replace (c =? k) with false in Pc by (symmetry; apply Nat.eqb_neq; lia). replace (d =? k) with false in Pd by (symmetry; apply Nat.eqb_neq; lia).
        apply (underb_ok cs K HT) in Pc, Pd; auto. destruct (under_two cs x c d Pc Pd) as [H|H]; [apply (sib_under cs K HT c d k); assumption|symmetry; apply (sib_under cs K HT d c k); assumption].
    - intros x c Hx Hc Pc. unfold P in Pc. destruct Hc as [<-|Hc].
      + rewrite Nat.eqb_refl in Pc. apply Nat.eqb_eq in Pc. subst x. apply (underb_ok cs K HT); [exact Hk|]. apply (under_refl cs K HT). exact Hk.
      + destruct (Hkc c Hc) as [C1 C2]. replace (c =? k) with false in Pc by (symmetry; apply Nat.eqb_neq; lia). apply (underb_ok cs K HT); [auto|]. apply (underb_ok cs K HT) in Pc; [|auto].
        apply under_trans with c; [exact Pc|]. apply under_step with k; [exact C1|]. apply (under_refl cs K HT). exact Hk. }
  rewrite sz_cons in HC.
  assert (E1 : (weight k <= sumz weight (filter (P k) (seq 1 K)))%Z).
  { assert (Hi : In k (seq 1 K)) by (apply in_seq; lia). revert Hi Hin. generalize (seq 1 K). induction l as [|x l IH]; intros Hi Hl; [contradiction|]. cbn [filter]. unfold P at 1. rewrite Nat.eqb_refl.
    assert (N : (0 <= sumz weight (filter (P k) l))%Z) by (apply sz_filter; intros y Hy; apply Hl; right; exact Hy).
    destruct (Nat.eqb_spec x k) as [->|Hne]; [rewrite sz_cons; lia|]. destruct Hi as [Hi|Hi]; [contradiction|]. apply IH; [exact Hi|intros y Hy; apply Hl; right; exact Hy]. }
  assert (E2 : sumz (fun c => sumz weight (filter (P c) (seq 1 K))) (kl cs K k) = sumz sub (kl cs K k)).
  { revert Hkc. clear. generalize (kl cs K k). induction l as [|c l IH]; intros Hkc; [reflexivity|]. rewrite !sz_cons, IH by (intros d Hd; apply Hkc; right; exact Hd). f_equal. unfold sub, P.
    destruct (Hkc c (or_introl eq_refl)) as [_ Hc]. replace (c =? k) with false by (symmetry; apply Nat.eqb_neq; lia). reflexivity. }
  lia.
Qed.
Lemma sub_small k : (0 <= sub k < 2 ^ 32)%Z.
Proof. assert (H := sz_filter (fun x => underb cs x k) (seq 1 K)). fold (sub k) in H. specialize (H (fun x Hx => ltac:(apply in_seq in Hx; lia))). lia. Qed.

Lemma sub_list l : (0 <= sumz sub l)%Z.
Proof. induction l as [|d l IH]; [cbn; lia|]. rewrite sz_cons. pose proof (sub_small d). lia. Qed.

(** The counts do not wrap around. *)
Lemma counts : forall m k, K - k <= m -> 1 <= k <= K ->
  c_pnc (g k) = (vi k + sumz hnc (kl cs K k))%Z /\ (0 <= hnc k <= sub k)%Z.
Proof.
  induction m as [|m IH]; intros k Hm Hk.
  all: assert (HC : forall c, In c (kl cs K k) -> (0 <= hnc c <= sub c)%Z) by (intros c Hc; apply (in_kl cs K HT), (tr_kid_lt cs K HT) in Hc; first [lia|apply IH; lia]).
  all: pose proof (sub_kids k Hk) as HB; pose proof (sub_small k) as HB2; destruct (Hw k Hk) as [W1 W2].
  all: assert (HF : forall l a, (0 <= a)%Z -> (forall c, In c l -> (0 <= hnc c <= sub c)%Z) -> (a + sumz sub l < 2 ^ 32)%Z -> sumnc g l a = (a + sumz hnc l)%Z /\ (0 <= sumz hnc l <= sumz sub l)%Z) by
    (induction l as [|c l IHl]; intros a Ha Hc Hb; [cbn; lia|]; rewrite !sz_cons in *; pose proof (Hc c (or_introl eq_refl)) as Hc0;
     pose proof (sub_list l) as Hn;
     unfold sumnc; cbn [fold_left]; fold (hnc c); rewrite (u32_id (a + hnc c)) by lia; fold (sumnc g l (a + hnc c));
     destruct (IHl (a + hnc c)%Z ltac:(lia) (fun d Hd => Hc d (or_intror Hd)) ltac:(lia)) as [E1 E2]; rewrite E1; lia).
  all: unfold weight in HB; destruct (HF (kl cs K k) (vi k) W2 HC ltac:(lia)) as [E1 E2].
  all: assert (EP : c_pnc (g k) = (vi k + sumz hnc (kl cs K k))%Z) by (rewrite (st_pnc _ _ _ _ HS k Hk); fold (kl cs K k); exact E1).
  all: split; [exact EP|]; destruct (g_stat cs K g HS k Hk) as (_ & _ & _ & _ & _ & E3 & _); unfold hnc, handed; rewrite E3, EP.
  all: destruct (_ || _); cbn [fst]; [lia|]; destruct (_ <? _)%Z; cbn [fst]; [lia|]; destruct (fge _ _); cbn [fst]; lia.
Qed.
Lemma pnc_eq k : 1 <= k <= K -> c_pnc (g k) = (vi k + sumz hnc (kl cs K k))%Z.
Proof. intros Hk. apply (counts (K - k)); [lia|exact Hk]. Qed.

Lemma hst_pos : forall m k, K - k <= m -> 2 <= k <= K -> ge0 (hst g k) /\ ge0 (c_pstab (g k)).
Proof.
  induction m as [|m IH]; intros k Hm Hk.
  all: assert (HP : ge0 (c_pstab (g k))) by
    (rewrite (g_pstab cs K g HS k) by lia; apply sums_ge0; [|reflexivity]; apply Forall_map, Forall_forall; intros c Hc;
     apply (in_kl cs K HT), (tr_kid_lt cs K HT) in Hc; first [lia|apply IH; lia]).
  all: split; [|exact HP]; destruct (dsc_cases cs K g HS k ltac:(lia)) as [[_ ->]|(_ & -> & _)]; [apply Hpos; lia|exact HP].
Qed.
Lemma pstab_pos k : 1 <= k <= K -> ge0 (c_pstab (g k)).
Proof.
  intros Hk. rewrite (g_pstab cs K g HS k) by lia; apply sums_ge0; [|reflexivity]; apply Forall_map, Forall_forall; intros c Hc.
  apply (in_kl cs K HT), (tr_kid_lt cs K HT) in Hc. apply (hst_pos (K - c)); lia.
Qed.

(** The decision takes the better of the two. *)
Lemma decision k : 2 <= k <= K -> at_most (wo k) (c_stab (g0 k)) (hnc k) (hst g k) /\
  (c_kids (g0 k) = true -> at_most (c_pnc (g k)) (c_pstab (g k)) (hnc k) (hst g k)).
Proof.
  intros Hk. destruct (g_stat cs K g HS k ltac:(lia)) as (_ & _ & E1 & _ & E2 & E3 & _). pose proof (Hpos k Hk) as P1. pose proof (pstab_pos k ltac:(lia)) as P2.
  assert (R1 : fle (c_stab (g0 k)) (c_stab (g0 k)) = true) by (apply fle_refl, ge0_notnan; exact P1).
  assert (R2 : fle (c_pstab (g k)) (c_pstab (g k)) = true) by (apply fle_refl, ge0_notnan; exact P2).
  unfold hnc, hst, handed, at_most. rewrite E1, E2, E3. destruct (c_kids (g0 k)); cbn [negb orb]; [|cbn [fst snd]; split; [right; auto|discriminate]].
  destruct (Z.ltb_spec (c_pnc (g k)) (wo k)) as [H1|H1]; cbn [fst snd]; [split; [right; auto|intros _; left; exact H1]|].
  destruct (Z.ltb_spec (wo k) (c_pnc (g k))) as [H2|H2]; cbn [fst snd]; [split; [left; exact H2|intros _; right; auto]|].
  destruct (fge _ _) eqn:E; cbn [fst snd].
  - split; [right; auto|]. intros _. right. split; [lia|exact E].
  - split; [|intros _; right; auto]. right. split; [lia|]. unfold fge in E. fold (fle (c_pstab (g k)) (c_stab (g0 k))) in E. rewrite fle_key in E by (apply ge0_notnan; assumption).
    apply Z.leb_gt in E. apply fle_intro; [apply ge0_notnan; exact P1|apply ge0_notnan; exact P2|apply Z.lt_le_incl; exact E].
Qed.
Lemma at_most_trans a b a1 b1 a2 b2 : at_most a b a1 b1 -> at_most a1 b1 a2 b2 -> at_most a b a2 b2.
Proof. intros [H|[H H']] [G|[G G']]; [left; lia|left; lia|left; lia|right]. split; [lia|]. apply fle_trans with b1; assumption. Qed.

Lemma lists_sum l : forall ns vs, length ns = length l -> length vs = length l ->
  (forall i x n s, nth_error l i = Some x -> nth_error ns i = Some n -> nth_error vs i = Some s -> ge0 s /\ at_most n s (hnc x) (hst g x)) ->
  forall a b, ge0 a -> fle a b = true -> ge0 (fold_left fadd vs a) /\ at_most (zsum ns) (fold_left fadd vs a) (sumz hnc l) (fold_left fadd (map (hst g) l) b).
Proof.
  induction l as [|x l IH]; intros [|n ns] [|s vs] H1 H2 HF a b Ha Hab; cbn [length] in *; try discriminate.
  - cbn. split; [exact Ha|]. right. auto.
  - destruct (HF 0 x n s eq_refl eq_refl eq_refl) as [S1 S2]. cbn [fold_left map]. cbn [zsum fold_right]. fold (zsum ns). rewrite sz_cons.
    assert (HF' : forall i y n0 s0, nth_error l i = Some y -> nth_error ns i = Some n0 -> nth_error vs i = Some s0 -> ge0 s0 /\ at_most n0 s0 (hnc y) (hst g y)) by (intros i y n0 s0 E1 E2 E3; apply (HF (S i)); assumption).
    assert (Ha' : ge0 (fadd a s)) by (apply fadd_ge0; assumption).
    destruct S2 as [S2|[S2 S3]].
    + destruct (IH ns vs ltac:(lia) ltac:(lia) HF' (fadd a s) (fadd a s) Ha' (fle_refl _ (ge0_notnan _ Ha'))) as [I1 I2]. split; [exact I1|]. left. destruct I2 as [I2|[I2 _]]; lia.
    + destruct (IH ns vs ltac:(lia) ltac:(lia) HF' (fadd a s) (fadd b (hst g x)) Ha') as [I1 I2]; [apply fadd_mono; assumption|]. split; [exact I1|].
      destruct I2 as [I2|[I2 I3]]; [left; lia|right]. split; [lia|exact I3].
Qed.
Lemma leaf_kids k : 1 <= k <= K -> c_kids (g0 k) = true <-> ~ leaf cs k.
Proof. intros Hk. rewrite (leaf_kl cs K HT k Hk). destruct (c_kids (g0 k)); split; intros H; congruence || (exfalso; apply H; reflexivity). Qed.

Lemma score_kids T k l ns vs : 1 <= k <= K -> children cs k l -> length ns = length l -> length vs = length l ->
  (forall i x n s, nth_error l i = Some x -> nth_error ns i = Some n -> nth_error vs i = Some s -> score cs (fun k => wo k) (fun k => vi k) T x n s) ->
  (forall c n s, In c (kl cs K k) -> score cs (fun k => wo k) (fun k => vi k) T c n s -> ge0 s /\ at_most n s (hnc c) (hst g c)) ->
  ge0 (fold_left fadd vs fzero) /\ at_most (vi k + zsum ns) (fold_left fadd vs fzero) (c_pnc (g k)) (c_pstab (g k)).
Proof.
  intros Hk Hl L1 L2 HF HC. apply (children_kl cs K HT) in Hl. subst l.
  destruct (lists_sum (kl cs K k) ns vs L1 L2) with (a := fzero) (b := fzero) as [S1 S2]; [|reflexivity|reflexivity|].
  - intros i x n s E1 E2 E3. apply HC; [eapply nth_error_In; exact E1|]. apply (HF i); assumption.
  - split; [exact S1|]. rewrite (pnc_eq k Hk), (g_pstab cs K g HS k Hk). destruct S2 as [S2|[S2 S3]]; [left; lia|right; split; [lia|exact S3]].
Qed.
Lemma score_bound T : forall m k, K - k <= m -> 2 <= k <= K -> forall n s, score cs (fun k => wo k) (fun k => vi k) T k n s -> ge0 s /\ at_most n s (hnc k) (hst g k).
Proof.
  induction m as [|m IH]; intros k Hm Hk n s HV.
  all: destruct (decision k Hk) as [D1 D2]; pose proof (Hpos k Hk) as P1; destruct (Hw k ltac:(lia)) as [W1 W2].
  all: inversion HV as [? c Hc Hin|? Hlf Hn|? l ns vs Hlf Hn Hl L1 L2 HF]; subst.
  1,4: apply (tr_in cs K HT) in Hc; destruct Hc as [_ ->]; split; [exact P1|exact D1].
  1,3: split; [reflexivity|]; apply at_most_trans with (wo k) (c_stab (g0 k)); [|exact D1]; destruct (Z.eq_dec (wo k) 0) as [E|E]; [right; split; [lia|exact P1]|left; lia].
  all: destruct (score_kids T k l ns vs ltac:(lia) Hl L1 L2 HF) as [S1 S2];
    [intros c n s Hc; apply (in_kl cs K HT), (tr_kid_lt cs K HT) in Hc; first [lia|apply IH; lia]|].
  all: split; [exact S1|]; apply at_most_trans with (c_pnc (g k)) (c_pstab (g k)); [exact S2|]; apply D2; apply leaf_kids; [lia|exact Hlf].
Qed.
Lemma score_root T n s : ~ leaf cs 1 -> ~ In 1 T -> score cs (fun k => wo k) (fun k => vi k) T 1 n s -> at_most n s (c_pnc (g 1)) (c_pstab (g 1)).
Proof.
  intros Hl1 Hn HV. pose proof (tr_k cs K HT). inversion HV as [? c Hc Hin|? Hlf Hn'|? l ns vs Hlf Hn' Hl L1 L2 HF]; subst; [contradiction|contradiction|].
  apply (score_kids T 1 l ns vs ltac:(lia) Hl L1 L2 HF). intros c n s Hc. apply (in_kl cs K HT), (tr_kid_lt cs K HT) in Hc. apply (score_bound T (K - c)); lia.
Qed.

Lemma zsum_map (l : list nat) : zsum (map hnc l) = sumz hnc l. Proof. induction l as [|x l IH]; [reflexivity|]. cbn [map zsum fold_right]. fold (zsum (map hnc l)). rewrite IH. reflexivity. Qed.
Lemma sel_kids T k : 1 <= k <= K -> ~ leaf cs k -> ~ In k T -> (forall y, under cs y k -> y <> k -> In y T <-> In y (c_desc (g k))) ->
  (forall c, In c (kl cs K k) -> (forall y, under cs y c -> In y T <-> In y (dsc g c)) -> score cs (fun k => wo k) (fun k => vi k) T c (hnc c) (hst g c)) ->
  score cs (fun k => wo k) (fun k => vi k) T k (c_pnc (g k)) (c_pstab (g k)).
Proof.
  intros Hk Hlf Hn HTk HC. rewrite (g_pstab cs K g HS k Hk), (pnc_eq k Hk), <- zsum_map.
  assert (HA : forall c, In c (kl cs K k) -> score cs (fun k => wo k) (fun k => vi k) T c (hnc c) (hst g c)).
  { intros c Hc. apply HC; [exact Hc|]. intros y Hy. pose proof (proj1 (in_kl cs K HT k c) Hc) as Hcc. pose proof (tr_kid_lt cs K HT _ _ Hcc). pose proof (under_le cs K HT _ _ Hy).
    rewrite HTk; [|apply under_trans with c; [exact Hy|apply under_step with k; [exact Hcc|apply (under_refl cs K HT); exact Hk]]|lia].
    rewrite (g_desc cs K g HS k Hk). split; intros Hi.
    - apply (dsc_disjoint cs K HT g HS) with k; assumption.
    - apply in_flat_map. exists c. auto. }
  apply (sc_inner cs (fun k => wo k) (fun k => vi k) T k (kl cs K k)); [exact Hlf|exact Hn|apply kl_children; exact HT|apply map_length|apply map_length|].
  intros i x n s E1 E2 E3. rewrite (map_nth_error _ _ _ E1) in E2. rewrite (map_nth_error _ _ _ E1) in E3. injection E2 as <-. injection E3 as <-. apply HA. eapply nth_error_In. exact E1.
Qed.
Lemma sel_dsc T : forall m k, K - k <= m -> 2 <= k <= K -> (forall y, under cs y k -> In y T <-> In y (dsc g k)) -> score cs (fun k => wo k) (fun k => vi k) T k (hnc k) (hst g k).
Proof.
  induction m as [|m IH]; intros k Hm Hk HTk.
  all: assert (HD : (dsc g k = [k] /\ hst g k = c_stab (g0 k) /\ hnc k = wo k) \/ (dsc g k = c_desc (g k) /\ hst g k = c_pstab (g k) /\ hnc k = c_pnc (g k) /\ c_kids (g0 k) = true)) by
    (destruct (g_stat cs K g HS k ltac:(lia)) as (_ & _ & E1 & _ & E2 & E3 & _); unfold dsc, hst, hnc, handed; rewrite E1, E2, E3; destruct (c_kids (g0 k)); cbn [negb orb]; [|left; auto];
     destruct (_ <? _)%Z; [left; auto|]; destruct (_ <? _)%Z; [right; auto|]; destruct (fge _ _); [left|right]; auto).
  all: destruct HD as [(E1 & E2 & E4)|(E1 & E2 & E4 & Ek)].
  1,3: rewrite E2, E4; apply (sc_chosen cs (fun k => wo k) (fun k => vi k)); [apply (tr_in cs K HT); split; [lia|reflexivity]|apply HTk; [apply (under_refl cs K HT); lia|rewrite E1; left; reflexivity]].
  all: rewrite E2, E4; destruct (good_desc cs K HT g HS k ltac:(lia)) as (_ & HD & _).
  all: apply sel_kids; [lia|apply leaf_kids; [lia|exact Ek]| | |intros c Hc Hy; apply (in_kl cs K HT), (tr_kid_lt cs K HT) in Hc; first [lia|apply IH; [lia|lia|exact Hy]]].
  1,3: rewrite HTk by (apply (under_refl cs K HT); lia); rewrite E1; intros Hi; apply HD in Hi; apply (proj2 Hi); reflexivity.
  all: intros y Hu _; rewrite <- E1; apply HTk; exact Hu.
Qed.
Lemma sel_root : ~ leaf cs 1 -> score cs (fun k => wo k) (fun k => vi k) (c_desc (g 1)) 1 (c_pnc (g 1)) (c_pstab (g 1)).
Proof.
  intros Hl. pose proof (tr_k cs K HT). apply sel_kids; [lia|exact Hl| |tauto|].
  - intros Hi. apply (good_desc cs K HT g HS 1) in Hi; [|lia]. apply (proj2 Hi). reflexivity.
  - intros c Hc Hy. apply (in_kl cs K HT), (tr_kid_lt cs K HT) in Hc. apply (sel_dsc _ (K - c)); [lia|lia|exact Hy].
Qed.
End Counts.

(** ** Reporting constraints *)
Definition with_counts (c : cluster) (n m : Z) : cluster :=
  mk_cluster (c_label c) (c_birth c) (c_death c) (c_num c) (c_offset c) (c_stab c) (c_pstab c) (c_plow c)
    n m (c_virtual c) (c_parent c) (c_desc c) (c_kids c).
Lemma own_bound l k : Forall (fun c => 0 <= reported c)%Z l -> (0 <= own l k)%Z /\ (0 <= virtual l k)%Z /\ (own l k + virtual l k <= all_reported l)%Z.
Proof.
  induction 1 as [|c l H F IH]; [cbn; lia|]. cbn [all_reported fold_right]. fold (all_reported l). destruct c as [j n|j n]; cbn [own virtual reported] in *; destruct (j =? k); lia.
Qed.
Lemma constrain_ok K l : forall cs, length cs = S K -> nth_error cs 0 = Some None -> (forall k, 1 <= k <= K -> exists c, cluster_in cs k c) ->
  Forall (fun c => 1 <= about c <= K /\ (0 <= reported c)%Z) l ->
  (forall k c, cluster_in cs k c -> (0 <= c_nc c)%Z /\ (0 <= c_pnc c)%Z /\ (c_nc c + all_reported l < 2 ^ 32)%Z /\ (c_pnc c + all_reported l < 2 ^ 32)%Z) ->
  exists cs1, constrain_all cs l = Ok cs1 /\ length cs1 = S K /\ nth_error cs1 0 = Some None /\
    forall k c, cluster_in cs k c -> cluster_in cs1 k (with_counts c (c_nc c + own l k) (c_pnc c + virtual l k)).
Proof.
  induction l as [|c l IH]; intros cs HL H0 HA HF HB.
  - exists cs. split; [reflexivity|]. split; [exact HL|]. split; [exact H0|]. intros k c Hc. cbn [own virtual]. rewrite !Z.add_0_r. destruct c; exact Hc.
  - inversion HF as [|? ? [F1 F2] F3]; subst. destruct (HA (about c) F1) as (x & Hx). destruct (HB _ _ Hx) as (B1 & B2 & B3 & B4).
    assert (EA : all_reported (c :: l) = (reported c + all_reported l)%Z) by reflexivity. rewrite EA in *.
    assert (NN : (0 <= all_reported l)%Z). { clear -F3. induction F3 as [|d l [_ H] F IH]; [cbn; lia|]. cbn [all_reported fold_right]. fold (all_reported l). lia. }
    set (x' := match c with Satisfied _ n => with_counts x (c_nc x + n) (c_pnc x) | VirtualSatisfied _ n => with_counts x (c_nc x) (c_pnc x + n) end).
    assert (E : constrain cs c = Ok (upd cs (about c) (Some x'))).
    { unfold constrain, cget, cset. destruct c as [j n|j n]; cbn [about reported] in *; rewrite (aget_nth _ _ _ Hx); cbn [bind]; rewrite aset_ok by lia; unfold add_own, add_left; rewrite u32_id by lia; reflexivity. }
    cbn [constrain_all]. rewrite E. cbn [bind].
    destruct (IH (upd cs (about c) (Some x'))) as (cs1 & E1 & L1 & Z1 & C1).
    + rewrite upd_length. exact HL.
    + rewrite nth_error_upd_neq by lia. exact H0.
    + intros k Hk. unfold cluster_in. destruct (Nat.eq_dec k (about c)) as [->|Hne]; [exists x'; apply nth_error_upd_eq; lia|]. rewrite nth_error_upd_neq by auto. apply HA. exact Hk.
    + exact F3.
    + intros k y Hy. unfold cluster_in in Hy. destruct (Nat.eq_dec k (about c)) as [->|Hne].
      * rewrite nth_error_upd_eq in Hy by lia. injection Hy as <-. unfold x'. destruct c as [j n|j n]; cbn [with_counts c_nc c_pnc reported] in *; lia.
      * rewrite nth_error_upd_neq in Hy by auto. destruct (HB _ _ Hy). lia.
    + exists cs1. split; [exact E1|]. split; [exact L1|]. split; [exact Z1|]. intros k y Hy. destruct (Nat.eq_dec k (about c)) as [->|Hne].
      * unfold cluster_in in Hx, Hy. rewrite Hx in Hy. injection Hy as <-. specialize (C1 (about c) x' ltac:(unfold cluster_in; apply nth_error_upd_eq; lia)).
        replace (with_counts x _ _) with (with_counts x' (c_nc x' + own l (about c)) (c_pnc x' + virtual l (about c))); [exact C1|].
        unfold x', with_counts. destruct c as [j n|j n]; cbn [about c_label c_birth c_death c_num c_offset c_stab c_pstab c_plow c_nc c_pnc c_virtual c_parent c_desc c_kids own virtual]; rewrite Nat.eqb_refl; f_equal; lia.
      * specialize (C1 k y ltac:(unfold cluster_in; rewrite nth_error_upd_neq by auto; exact Hy)).
        destruct c as [j n|j n]; cbn [about] in Hne; cbn [own virtual]; replace (j =? k) with false by (symmetry; apply Nat.eqb_neq; auto); exact C1.
Qed.

(** Only the counts differ. *)
Definition recount (cs cs1 : clusters) (a b : nat -> Z) (K : nat) : Prop :=
  length cs1 = S K /\ nth_error cs1 0 = Some None /\ forall k c, cluster_in cs k c -> cluster_in cs1 k (with_counts c (a k) (b k)).
Lemma recount_back cs cs1 a b K : tree cs K -> recount cs cs1 a b K -> forall k c1, cluster_in cs1 k c1 -> exists c, cluster_in cs k c /\ c1 = with_counts c (a k) (b k) /\ 1 <= k <= K.
Proof.
  intros HT (HL & H0 & HC) k c1 H1. assert (Hk : k < length cs1) by (apply nth_error_Some; unfold cluster_in in H1; congruence).
  destruct (Nat.eq_dec k 0) as [->|Hne]; [unfold cluster_in in H1; congruence|]. destruct HT as (_ & _ & _ & HT). destruct (HT k ltac:(lia)) as (c & Hc & _).
  exists c. split; [exact Hc|]. specialize (HC k c Hc). unfold cluster_in in *. split; [congruence|lia].
Qed.
Lemma recount_child cs cs1 a b K : tree cs K -> recount cs cs1 a b K -> forall k p, child_in cs1 k p <-> child_in cs k p.
Proof.
  intros HT HR k p. split.
  - intros (c1 & H1 & Hp). destruct (recount_back _ _ _ _ _ HT HR k c1 H1) as (c & Hc & -> & _). exists c. auto.
  - intros (c & Hc & Hp). exists (with_counts c (a k) (b k)). split; [apply HR; exact Hc|exact Hp].
Qed.
Lemma recount_leaf cs cs1 a b K : tree cs K -> recount cs cs1 a b K -> forall k, leaf cs1 k <-> leaf cs k.
Proof.
  intros HT HR k. unfold leaf. split; intros [[c Hc] HN].
  - split; [destruct (recount_back _ _ _ _ _ HT HR k c Hc) as (c0 & H0 & _); exists c0; exact H0|]. intros j Hj. apply (HN j). apply (recount_child _ _ _ _ _ HT HR). exact Hj.
  - split; [exists (with_counts c (a k) (b k)); apply HR; exact Hc|]. intros j Hj. apply (HN j). apply (recount_child _ _ _ _ _ HT HR). exact Hj.
Qed.
Lemma recount_tree cs cs1 a b K : tree cs K -> recount cs cs1 a b K -> tree cs1 K.
Proof.
  intros HT HR. pose proof HT as (_ & T2 & _ & T4). pose proof HR as (R1 & R2 & R3). split; [exact R1|]. split; [exact T2|]. split; [exact R2|]. intros k Hk.
  destruct (T4 k Hk) as (c & Hc & Hl & Hr & Hp & Hkid). exists (with_counts c (a k) (b k)). split; [apply R3; exact Hc|]. cbn [with_counts c_label c_parent c_kids]. split; [exact Hl|]. split; [exact Hr|]. split; [exact Hp|].
  rewrite Hkid. split; intros (j & Hj); exists j; apply (recount_child _ _ _ _ _ HT HR); exact Hj.
Qed.
Lemma recount_score cs cs1 a b K T w v : tree cs K -> recount cs cs1 a b K -> (forall k, 1 <= k <= K -> w k = a k /\ v k = b k) ->
  forall k n s, 1 <= k <= K -> score cs a b T k n s <-> score cs1 w v T k n s.
Proof.
  intros HT HR HE. assert (HT1 := recount_tree _ _ _ _ _ HT HR).
  assert (CE : forall k l, children cs1 k l <-> children cs k l).
  { intros k l. unfold children. split; intros [H1 H2]; (split; [|exact H2]); intros x; rewrite H1; [apply (recount_child _ _ _ _ _ HT HR)|symmetry; apply (recount_child _ _ _ _ _ HT HR)]. }
  assert (CK : forall k l i x, children cs k l -> nth_error l i = Some x -> 1 <= x <= K).
  { intros k l i x [H1 _] E. apply nth_error_In, H1 in E. apply (tr_kid_lt cs K HT) in E. lia. }
  intros k n s Hk. split.
  - intros H. revert Hk. induction H as [k c Hc Hin|k Hlf Hn|k l ns vs Hlf Hn Hl L1 L2 HF IH]; intros Hk.
    + rewrite <- (proj1 (HE k Hk)). change (c_stab c) with (c_stab (with_counts c (a k) (b k))). apply (sc_chosen cs1 w v T); [apply HR; exact Hc|exact Hin].
    + apply sc_leaf; [apply (recount_leaf _ _ _ _ _ HT HR); exact Hlf|exact Hn].
    + rewrite <- (proj2 (HE k Hk)). apply (sc_inner cs1 w v T k l); [rewrite (recount_leaf _ _ _ _ _ HT HR); exact Hlf|exact Hn|apply CE; exact Hl|exact L1|exact L2|].
      intros i x n s E1 E2 E3. apply (IH i x n s E1 E2 E3). apply (CK k l i x Hl E1).
  - intros H. revert Hk. induction H as [k c Hc Hin|k Hlf Hn|k l ns vs Hlf Hn Hl L1 L2 HF IH]; intros Hk.
    + rewrite (proj1 (HE k Hk)). destruct (recount_back _ _ _ _ _ HT HR k c Hc) as (c0 & H0 & -> & _). apply (sc_chosen cs a b T k c0); [exact H0|exact Hin].
    + apply sc_leaf; [apply (recount_leaf _ _ _ _ _ HT HR); exact Hlf|exact Hn].
    + rewrite (proj2 (HE k Hk)). apply CE in Hl. apply (sc_inner cs a b T k l); [rewrite <- (recount_leaf _ _ _ _ _ HT HR); exact Hlf|exact Hn|exact Hl|exact L1|exact L2|].
      intros i x n s E1 E2 E3. apply (IH i x n s E1 E2 E3). apply (CK k l i x Hl E1).
Qed.

Lemma sum_one (n : Z) j : forall m s, s <= j < s + m -> sumz (fun k => if j =? k then n else 0%Z) (seq s m) = n.
Proof.
  induction m as [|m IH]; intros s Hj; [lia|]. cbn [seq]. rewrite sz_cons. destruct (Nat.eqb_spec j s) as [->|Hne].
  - assert (E : forall m s', s < s' -> sumz (fun k => if s =? k then n else 0%Z) (seq s' m) = 0%Z).
    { clear. induction m as [|m IH]; intros s' H; [reflexivity|]. cbn [seq]. rewrite sz_cons, IH by lia. replace (s =? s') with false by (symmetry; apply Nat.eqb_neq; lia). reflexivity. }
    rewrite E by lia. lia.
  - rewrite IH by lia. lia.
Qed.
Lemma sz_add (f h : nat -> Z) l : sumz (fun k => (f k + h k)%Z) l = (sumz f l + sumz h l)%Z.
Proof. induction l as [|x l IH]; [reflexivity|]. rewrite !sz_cons, IH. lia. Qed.
Lemma sz_ext (f h : nat -> Z) l : (forall x, In x l -> f x = h x) -> sumz f l = sumz h l.
Proof. induction l as [|x l IH]; intros H; [reflexivity|]. rewrite !sz_cons, (H x (or_introl eq_refl)), IH; [reflexivity|]. intros y Hy. apply H. right. exact Hy. Qed.
Lemma total_reported K l : Forall (fun c => 1 <= about c <= K /\ (0 <= reported c)%Z) l -> sumz (fun k => (own l k + virtual l k)%Z) (seq 1 K) = all_reported l.
Proof.
  induction 1 as [|c l [H1 H2] F IH].
  - cbn [own virtual all_reported fold_right]. generalize (seq 1 K). induction l as [|x l IH]; [reflexivity|]. rewrite sz_cons, IH. reflexivity.
  - rewrite (sz_ext _ (fun k => ((if Nat.eqb (about c) k then reported c else 0) + (own l k + virtual l k))%Z)).
    + rewrite sz_add, sum_one, IH by lia. reflexivity.
    + intros k _. destruct c as [j n|j n]; cbn [own virtual about reported]; lia.
Qed.

(** C89.  After a hierarchy has been built, any reports of satisfied constraints (fewer than
    2^32 in total), and the propagation with its threads in any order: the clusters handed
    to the root have a score that no other choice of clusters exceeds, constraints first,
    then stability. *)
Theorem C89_constraints_before_stability : forall cs K calls,
  tree cs K -> fresh cs -> no_constraints cs -> ~ leaf cs 1 ->
  (forall k c, cluster_in cs k c -> k <> 1 -> fle fzero (c_stab c) = true) ->
  Forall (fun c => 1 <= about c <= K /\ (0 <= reported c)%Z) calls -> (all_reported calls < 2 ^ 32)%Z ->
  exists cs1, constrain_all cs calls = Ok cs1 /\
  forall order fuel, leaf_order K order -> K <= fuel ->
  exists inf cs' trace root, propagate_tree fuel cs1 order = Ok (inf, cs', trace) /\ cluster_in cs' 1 root /\
    antichain cs (c_desc root) /\ (forall k, In k (c_desc root) -> 2 <= k <= K) /\
    score cs (own calls) (virtual calls) (c_desc root) 1 (c_pnc root) (c_pstab root) /\
    forall T n s, ~ In 1 T -> score cs (own calls) (virtual calls) T 1 n s -> at_most n s (c_pnc root) (c_pstab root).
Proof.
  intros cs K calls HT HF HN Hlf Hpos HC Hsum. pose proof HT as (T1 & T2 & T3 & T4).
  assert (NN : (0 <= all_reported calls)%Z) by (destruct (own_bound calls 0); [eapply Forall_impl; [|exact HC]; cbn; tauto|lia]).
  destruct (constrain_ok K calls cs T1 T3) as (cs1 & E1 & L1 & Z1 & C1); [intros k Hk; destruct (T4 k Hk) as (c & Hc & _); exists c; exact Hc|exact HC| |].
  { intros k c Hc. destruct (HN k c Hc) as [-> ->]. lia. }
  assert (HR : recount cs cs1 (own calls) (virtual calls) K).
  { split; [exact L1|]. split; [exact Z1|]. intros k c Hc. specialize (C1 k c Hc). destruct (HN k c Hc) as [E2 E3]. rewrite E2, E3, !Z.add_0_l in C1. exact C1. }
  exists cs1. split; [exact E1|]. intros order fuel HO Hf. pose proof (recount_tree _ _ _ _ _ HT HR) as HT1.
  assert (HF1 : fresh cs1). { intros k c Hc. destruct (recount_back _ _ _ _ _ HT HR k c Hc) as (c0 & H0 & -> & _). apply (HF k c0 H0). }
  destruct (tree_run cs1 K HT1 HF1) as (cs' & g & HRep & HS & HG). specialize (HG order fuel HO Hf).
  assert (HE : forall k, 1 <= k <= K -> c_nc (g0 cs1 k) = own calls k /\ c_pnc (g0 cs1 k) = virtual calls k /\ exists c, cluster_in cs k c /\ c_stab (g0 cs1 k) = c_stab c).
  { intros k Hk. destruct (recount_back _ _ _ _ _ HT HR k (g0 cs1 k)) as (c & Hc & E & _); [apply (tr_in cs1 K HT1); auto|]. rewrite E. cbn [with_counts c_nc c_pnc c_stab]. split; [reflexivity|]. split; [reflexivity|]. exists c. auto. }
  assert (FR : Forall (fun c => 0 <= reported c)%Z calls) by (eapply Forall_impl; [|exact HC]; cbn; tauto).
  assert (Hpos1 : forall k, 2 <= k <= K -> ge0 (c_stab (g0 cs1 k))).
  { intros k Hk. destruct (HE k ltac:(lia)) as (_ & _ & c & Hc & ->). apply (Hpos k c Hc). lia. }
  assert (Hw1 : forall k, 1 <= k <= K -> (0 <= c_nc (g0 cs1 k))%Z /\ (0 <= c_pnc (g0 cs1 k))%Z).
  { intros k Hk. destruct (HE k Hk) as (-> & -> & _). destruct (own_bound calls k FR). lia. }
  assert (Hsum1 : (sumz (weight cs1) (seq 1 K) < 2 ^ 32)%Z).
  { rewrite (sz_ext (weight cs1) (fun k => (own calls k + virtual calls k)%Z)); [rewrite (total_reported K calls HC); exact Hsum|].
    intros k Hk. apply in_seq in Hk. unfold weight. destruct (HE k ltac:(lia)) as (-> & -> & _). reflexivity. }
  assert (Hlf1 : ~ leaf cs1 1) by (rewrite (recount_leaf _ _ _ _ _ HT HR); exact Hlf).
  assert (HE2 : forall k, 1 <= k <= K -> c_nc (g0 cs1 k) = own calls k /\ c_pnc (g0 cs1 k) = virtual calls k) by (intros k Hk; destruct (HE k Hk) as (A & B & _); auto).
  eexists _, cs', _, (g 1). split; [exact HG|]. split; [apply (rep_in _ _ _ _ _ HRep); split; [lia|reflexivity]|].
  destruct (good_desc cs1 K HT1 g HS 1 ltac:(lia)) as (A1 & A2 & _).
  assert (UE : forall x y, under cs x y -> under cs1 x y).
  { induction 1 as [x c Hx|x p y Hx Hu IH]; [eapply under_self; apply HR; exact Hx|eapply under_step; [apply (recount_child _ _ _ _ _ HT HR); exact Hx|exact IH]]. }
  split; [destruct A1 as [A0 A1]; split; [exact A0|intros j k Hj Hk Hu; apply A1; auto]|].
  split; [intros k Hk; apply A2 in Hk; destruct Hk as [Hk1 Hk2]; apply (under_le cs1 K HT1) in Hk1; lia|]. split.
  - apply (recount_score cs cs1 (own calls) (virtual calls) K _ (fun k => c_nc (g0 cs1 k)) (fun k => c_pnc (g0 cs1 k)) HT HR HE2); [lia|]. apply (sel_root cs1 K HT1 g HS Hpos1 Hw1 Hsum1 Hlf1).
  - intros T n s HnT Hsc. apply (score_root cs1 K HT1 g HS Hpos1 Hw1 Hsum1 T n s Hlf1 HnT).
    apply (recount_score cs cs1 (own calls) (virtual calls) K T (fun k => c_nc (g0 cs1 k)) (fun k => c_pnc (g0 cs1 k)) HT HR HE2); [lia|exact Hsc].
Qed.
Print Assumptions C89_constraints_before_stability.

(** The counters have 32 bits.  Without the bound on what is reported the claim fails: in
    the tree [five], with 2^31 constraints reported for each of 4 and 5 and one for their
    parent 2, the clusters handed to the root satisfy one constraint, another choice 2^32. *)
Definition many : list ccall := [Satisfied 4 (2 ^ 31); Satisfied 5 (2 ^ 31); Satisfied 2 1].
Theorem C89_counts_wrap_refuted :
  tree five 5 /\ fresh five /\ no_constraints five /\ Forall (fun c => 1 <= about c <= 5 /\ (0 <= reported c < 2 ^ 32)%Z) many /\
  exists cs1, constrain_all five many = Ok cs1 /\
  exists inf cs' trace root, propagate_tree 5 cs1 [0; 1; 2; 3; 4; 5] = Ok (inf, cs', trace) /\ cluster_in cs' 1 root /\
    c_desc root = [3; 2] /\ c_pnc root = 1%Z /\
    exists T s, ~ In 1 T /\ score five (own many) (virtual many) T 1 (2 ^ 32) s.
Proof.
  split; [apply five_tree|]. split; [apply five_fresh|]. split; [apply five_fresh|].
  split; [repeat (constructor; [cbn [about reported]; lia|]); constructor|].
  assert (R : match constrain_all five many with
    | Ok cs1 => match propagate_tree 5 cs1 [0; 1; 2; 3; 4; 5] with
                | Ok (_, cs', _) => match nth_error cs' 1 with Some (Some r) => c_desc r = [3; 2] /\ c_pnc r = 1%Z | _ => False end
                | _ => False end
    | _ => False end) by (vm_compute; split; reflexivity).
  destruct (constrain_all five many) as [cs1| | |]; try contradiction. exists cs1. split; [reflexivity|].
  destruct (propagate_tree 5 cs1 [0; 1; 2; 3; 4; 5]) as [[[inf cs'] trace]| | |]; try contradiction.
  destruct (nth_error cs' 1) as [[root|]|] eqn:Hr; try contradiction. destruct R as [R1 R2].
  exists inf, cs', trace, root. split; [reflexivity|]. split; [exact Hr|]. split; [exact R1|]. split; [exact R2|].
  assert (NL1 : ~ leaf five 1) by (intros [_ H]; apply (H 2), five_child; lia).
  assert (NL2 : ~ leaf five 2) by (intros [_ H]; apply (H 4), five_child; lia).
  assert (L3 : leaf five 3) by (split; [eexists; reflexivity|intros j Hj; apply five_child in Hj; lia]).
  assert (C1 : children five 1 [3; 2]).
  { split; [|repeat constructor]. intros x. rewrite five_child. cbn [In]. split; [intros [H|[H|[]]]; lia|]. intros H. lia. }
  assert (C2 : children five 2 [5; 4]).
  { split; [|repeat constructor]. intros x. rewrite five_child. cbn [In]. split; [intros [H|[H|[]]]; lia|]. intros H. lia. }
  exists [4; 5]. eexists. split; [cbn [In]; lia|].
  assert (S4 : score five (own many) (virtual many) [4; 5] 4 (2 ^ 31) (f_of_Z 1)).
  { exact (sc_chosen five (own many) (virtual many) [4; 5] 4 _ eq_refl ltac:(cbn; auto)). }
  assert (S5 : score five (own many) (virtual many) [4; 5] 5 (2 ^ 31) (f_of_Z 1)).
  { exact (sc_chosen five (own many) (virtual many) [4; 5] 5 _ eq_refl ltac:(cbn; auto)). }
  assert (S3 : score five (own many) (virtual many) [4; 5] 3 0 fzero) by (apply sc_leaf; [exact L3|cbn [In]; lia]).
  assert (S2 : score five (own many) (virtual many) [4; 5] 2 (2 ^ 32) (fold_left fadd [f_of_Z 1; f_of_Z 1] fzero)).
  { refine (sc_inner five (own many) (virtual many) [4; 5] 2 [5; 4] [2 ^ 31; 2 ^ 31]%Z [f_of_Z 1; f_of_Z 1] NL2 ltac:(cbn [In]; lia) C2 eq_refl eq_refl _).
    intros i x n s E1 E2 E3. destruct i as [|[|i]]; cbn [nth_error] in E1, E2, E3; [| |destruct i; discriminate].
    - injection E1 as <-. injection E2 as <-. injection E3 as <-. exact S5.
    - injection E1 as <-. injection E2 as <-. injection E3 as <-. exact S4. }
  refine (sc_inner five (own many) (virtual many) [4; 5] 1 [3; 2] [0; 2 ^ 32]%Z [fzero; fold_left fadd [f_of_Z 1; f_of_Z 1] fzero] NL1 ltac:(cbn [In]; lia) C1 eq_refl eq_refl _).
  intros i x n s E1 E2 E3. destruct i as [|[|i]]; cbn [nth_error] in E1, E2, E3; [| |destruct i; discriminate].
  - injection E1 as <-. injection E2 as <-. injection E3 as <-. exact S3.
  - injection E1 as <-. injection E2 as <-. injection E3 as <-. exact S2.
Qed.
Print Assumptions C89_counts_wrap_refuted.

(** One constraint satisfied by 4 outweighs the larger stability of its parent 2; with one
    for the virtual child of 1 in addition the root counts two. *)
Definition few : list ccall := [Satisfied 4 1; VirtualSatisfied 1 1].
Example C89_example :
  tree five 5 /\ fresh five /\ no_constraints five /\ ~ leaf five 1 /\ (forall k c, cluster_in five k c -> k <> 1 -> fle fzero (c_stab c) = true) /\
  Forall (fun c => 1 <= about c <= 5 /\ (0 <= reported c)%Z) few /\ (all_reported few < 2 ^ 32)%Z /\
  match constrain_all five few with
  | Ok cs1 => match propagate_tree 5 cs1 [3; 0; 5; 1; 4; 2] with
              | Ok (_, cs', _) => match nth_error cs' 1 with Some (Some r) => c_desc r = [3; 5; 4] /\ c_pnc r = 2%Z | _ => False end
              | _ => False end
  | _ => False end.
Proof.
  split; [apply five_tree|]. split; [apply five_fresh|]. split; [apply five_fresh|]. split; [intros [_ H]; apply (H 2), five_child; lia|]. split; [apply five_positive|].
  split; [repeat (constructor; [cbn [about reported]; lia|]); constructor|]. split; [vm_compute; reflexivity|]. vm_compute. repeat split.
Qed.
