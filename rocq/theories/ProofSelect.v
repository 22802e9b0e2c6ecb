(** Proofs about ModelSelect.v: what propagation computes. *)
From Coq Require Import Permutation.
From Verif Require Import Base F64 F64Facts ListFacts ModelCluster ModelHier ModelSelect ProofSets SpecTree.
From Coq Require Import ZifyBool ZifyNat.
Local Open Scope nat_scope.

Definition rep (cs : clusters) (g : nat -> cluster) (K : nat) : Prop :=
  length cs = S K /\ nth_error cs 0 = Some None /\ forall x, 1 <= x <= K -> nth_error cs x = Some (Some (g x)).

Lemma rep_cget cs g K x : rep cs g K -> 1 <= x <= K -> cget cs x = Ok (g x).
Proof. intros (_ & _ & H) Hx. unfold cget. rewrite (aget_nth _ _ _ (H x Hx)). reflexivity. Qed.

Lemma rep_cset cs g K x c : rep cs g K -> 1 <= x <= K ->
  exists cs', cset cs x c = Ok cs' /\ rep cs' (fun y => if y =? x then c else g y) K.
Proof.
  intros (HL & H0 & H) Hx. unfold cset. rewrite aset_ok by lia. eexists. split; [reflexivity|].
  split; [rewrite upd_length; exact HL|]. split; [rewrite nth_error_upd_neq by lia; exact H0|].
  intros y Hy. destruct (Nat.eqb_spec y x) as [->|Hne]; [apply nth_error_upd_eq; lia|].
  rewrite nth_error_upd_neq by lia. apply H. exact Hy.
Qed.

Lemma rep_in cs g K k c : rep cs g K -> cluster_in cs k c <-> 1 <= k <= K /\ c = g k.
Proof.
  intros (HL & H0 & H). unfold cluster_in. split.
  - intros E. assert (k < length cs) by (apply nth_error_Some; congruence).
    destruct (Nat.eq_dec k 0) as [->|Hk]; [congruence|]. split; [lia|]. rewrite H in E by lia. congruence.
  - intros [Hk ->]. apply H. exact Hk.
Qed.

(** The fields propagation does not touch. *)
Definition statics (c : cluster) : cluster :=
  mk_cluster (c_label c) (c_birth c) (c_death c) (c_num c) (c_offset c) (c_stab c) fzero fzero
    (c_nc c) 0 (c_virtual c) (c_parent c) [] (c_kids c).

Definition low1 (c : cluster) : cluster := if feq (c_plow c) D_MAX then set_plow c (c_death c) else c.
Definition low2 (c q : cluster) : cluster := if flt (c_plow c) (c_plow q) then set_plow q (c_plow c) else q.
Definition next (g : nat -> cluster) (k p : nat) : nat -> cluster := fun x =>
  if x =? p then (let '(nc, stab, ds) := handed k (low1 (g k)) in add_prop (low2 (low1 (g k)) (g p)) nc stab ds)
  else if x =? k then low1 (g k) else g x.

Lemma propagate_ok cs g K k p : rep cs g K -> 1 <= k <= K -> c_parent (g k) = Some p -> 1 <= p < k ->
  exists cs', cluster_propagate cs k = Ok cs' /\ rep cs' (next g k p) K.
Proof.
  intros HR Hk Hp Hpk. unfold cluster_propagate. rewrite (rep_cget _ _ _ _ HR Hk). cbn [bind]. rewrite Hp.
  fold (low1 (g k)).
  destruct (rep_cset cs g K k (low1 (g k)) HR Hk) as (cs1 & -> & HR1). cbn [bind].
  rewrite (rep_cget _ _ _ p HR1) by lia. cbn [bind]. replace (p =? k) with false by (symmetry; apply Nat.eqb_neq; lia).
  fold (low2 (low1 (g k)) (g p)).
  destruct (handed k (low1 (g k))) as [[nc stab] ds] eqn:Eh.
  destruct (rep_cset cs1 _ K p (add_prop (low2 (low1 (g k)) (g p)) nc stab ds) HR1 ltac:(lia)) as (cs2 & -> & HR2).
  exists cs2. split; [reflexivity|]. destruct HR2 as (L1 & L2 & L3). split; [exact L1|]. split; [exact L2|].
  intros x Hx. rewrite (L3 x Hx). unfold next. rewrite Eh. reflexivity.
Qed.

Lemma propagate_root cs g K k : rep cs g K -> 1 <= k <= K -> c_parent (g k) = None -> cluster_propagate cs k = Ok cs.
Proof. intros HR Hk Hp. unfold cluster_propagate. rewrite (rep_cget _ _ _ _ HR Hk). cbn [bind]. rewrite Hp. reflexivity. Qed.

Lemma statics_low1 c : statics (low1 c) = statics c.
Proof. unfold low1. destruct (feq _ _); reflexivity. Qed.
Lemma handed_low1 k c : handed k (low1 c) = handed k c.
Proof. unfold low1. destruct (feq _ _); reflexivity. Qed.

Lemma statics_eq c c' : statics c = statics c' ->
  c_label c = c_label c' /\ c_death c = c_death c' /\ c_stab c = c_stab c' /\ c_parent c = c_parent c' /\ c_kids c = c_kids c'
  /\ c_nc c = c_nc c' /\ c_offset c = c_offset c'.
Proof.
  intros H. split; [exact (f_equal c_label H)|]. split; [exact (f_equal c_death H)|]. split; [exact (f_equal c_stab H)|].
  split; [exact (f_equal c_parent H)|]. split; [exact (f_equal c_kids H)|]. split; [exact (f_equal c_nc H)|exact (f_equal c_offset H)].
Qed.

Section Propagation.
Variables (K : nat) (g0 : nat -> cluster).
Hypothesis HK : 1 <= K.
Hypothesis Hlab : forall k, 1 <= k <= K -> c_label (g0 k) = k.
Hypothesis Hroot : c_parent (g0 1) = None.
Hypothesis Hpar : forall k, 2 <= k <= K -> exists p, c_parent (g0 k) = Some p /\ 1 <= p < k.
Definition is_kid (p x : nat) : bool := match c_parent (g0 x) with Some q => q =? p | None => false end.
Hypothesis Hkids : forall k, 1 <= k <= K -> c_kids (g0 k) = true <-> exists j, 1 <= j <= K /\ is_kid k j = true.

(** The children of [p] above [j], largest first. *)
Definition kidsl (j p : nat) : list nat := filter (is_kid p) (rev (seq (S j) (K - j))).

Lemma kidsl_step j p : 1 <= j <= K -> kidsl (j - 1) p = kidsl j p ++ (if is_kid p j then [j] else []).
Proof.
  intros Hj. unfold kidsl. replace (S (j - 1)) with j by lia. replace (K - (j - 1)) with (S (K - j)) by lia.
  cbn [seq rev]. rewrite filter_app. f_equal.
Qed.
Lemma in_kidsl j p x : In x (kidsl j p) <-> j < x <= K /\ is_kid p x = true.
Proof. unfold kidsl. rewrite filter_In, <- in_rev, in_seq. intuition lia. Qed.
Lemma is_kid_lt p x : 1 <= x <= K -> is_kid p x = true -> 1 <= p < x.
Proof.
  intros Hx. unfold is_kid. destruct (Nat.eq_dec x 1) as [->|H1]; [rewrite Hroot; discriminate|].
  destruct (Hpar x ltac:(lia)) as (q & -> & Hq). intros E. apply Nat.eqb_eq in E. lia.
Qed.

Definition lowmin (g : nat -> cluster) (l : list nat) (m : f64) : f64 :=
  fold_left (fun m x => if flt (c_plow (g x)) m then c_plow (g x) else m) l m.
Definition sumstab (g : nat -> cluster) (l : list nat) (s : f64) : f64 :=
  fold_left (fun s x => fadd s (snd (fst (handed x (g x))))) l s.
Definition sumnc (g : nat -> cluster) (l : list nat) (s : Z) : Z :=
  fold_left (fun s x => u32 (s + fst (fst (handed x (g x))))) l s.
Definition descs (g : nat -> cluster) (l : list nat) : list nat := flat_map (fun x => snd (handed x (g x))) l.

(** The state when the clusters above [j] have been propagated. *)
Record Stage (j : nat) (g : nat -> cluster) : Prop := {
  st_stat : forall p, 1 <= p <= K -> statics (g p) = statics (g0 p);
  st_desc : forall p, 1 <= p <= K -> c_desc (g p) = descs g (kidsl j p);
  st_pstab : forall p, 1 <= p <= K -> c_pstab (g p) = sumstab g (kidsl j p) fzero;
  st_pnc : forall p, 1 <= p <= K -> c_pnc (g p) = sumnc g (kidsl j p) (c_pnc (g0 p));
  st_plow : forall p, 1 <= p <= K -> c_plow (g p) =
    (let l := lowmin g (kidsl j p) D_MAX in
     if (p <=? j) || (p =? 1) then l else if feq l D_MAX then c_death (g0 p) else l)
}.

Lemma fold_left_ext {A B} (f f' : A -> B -> A) l : (forall x, In x l -> forall a, f a x = f' a x) -> forall a, fold_left f l a = fold_left f' l a.
Proof.
  induction l as [|x l IH]; intros H a; [reflexivity|]. cbn [fold_left]. rewrite (H x (or_introl eq_refl)). apply IH.
  intros y Hy. apply H. right. exact Hy.
Qed.
Lemma lowmin_ext g g' l m : (forall x, In x l -> g' x = g x) -> lowmin g' l m = lowmin g l m.
Proof. intros H. apply fold_left_ext. intros x Hx a. rewrite (H x Hx). reflexivity. Qed.
Lemma sumstab_ext g g' l m : (forall x, In x l -> g' x = g x) -> sumstab g' l m = sumstab g l m.
Proof. intros H. apply fold_left_ext. intros x Hx a. rewrite (H x Hx). reflexivity. Qed.
Lemma sumnc_ext g g' l m : (forall x, In x l -> g' x = g x) -> sumnc g' l m = sumnc g l m.
Proof. intros H. apply fold_left_ext. intros x Hx a. rewrite (H x Hx). reflexivity. Qed.
Lemma descs_ext g g' l : (forall x, In x l -> g' x = g x) -> descs g' l = descs g l.
Proof. intros H. unfold descs. induction l as [|x l IH]; [reflexivity|]. cbn [flat_map]. rewrite (H x (or_introl eq_refl)), IH; auto. intros y Hy. apply H. right. exact Hy. Qed.

Lemma stage_step j g p : 2 <= j <= K -> c_parent (g0 j) = Some p -> Stage j g -> Stage (j - 1) (next g j p).
Proof.
  intros Hj Hp HS. assert (Hpj : 1 <= p < j) by (destruct (Hpar j Hj) as (q & E & Hq); congruence).
  assert (Hkid : is_kid p j = true) by (unfold is_kid; rewrite Hp; apply Nat.eqb_refl).
  assert (Hkid' : forall q, is_kid q j = true -> q = p) by (intros q; unfold is_kid; rewrite Hp; intros E; apply Nat.eqb_eq in E; congruence).
  set (g' := next g j p).
  assert (Gj : g' j = low1 (g j)).
  { unfold g', next. replace (j =? p) with false by (symmetry; apply Nat.eqb_neq; lia). rewrite Nat.eqb_refl. reflexivity. }
  assert (Go : forall x, x <> p -> x <> j -> g' x = g x).
  { intros x H1 H2. unfold g', next. apply Nat.eqb_neq in H1, H2. rewrite H1, H2. reflexivity. }
  assert (Gk : forall q x, In x (kidsl j q) -> g' x = g x).
  { intros q x Hx. apply in_kidsl in Hx. apply Go; lia. }
  assert (Hh : handed j (g' j) = handed j (g j)) by (rewrite Gj; apply handed_low1).
  assert (Gp : exists nc stab ds, handed j (g j) = (nc, stab, ds) /\ g' p = add_prop (low2 (low1 (g j)) (g p)) nc stab ds).
  { destruct (handed j (g j)) as [[nc stab] ds] eqn:E. exists nc, stab, ds. split; [reflexivity|].
    unfold g', next. rewrite Nat.eqb_refl, handed_low1, E. reflexivity. }
  destruct Gp as (nc & stab & ds & Eh & Gp).
  assert (Hlow2 : forall a b, statics (low2 a b) = statics b /\ c_desc (low2 a b) = c_desc b /\ c_pstab (low2 a b) = c_pstab b /\ c_pnc (low2 a b) = c_pnc b
     /\ c_plow (low2 a b) = if flt (c_plow a) (c_plow b) then c_plow a else c_plow b).
  { intros a b. unfold low2. destruct (flt _ _); repeat split; reflexivity. }
  destruct (Hlow2 (low1 (g j)) (g p)) as (A1 & A2 & A3 & A4 & A5).
  assert (Hl1 : c_desc (low1 (g j)) = c_desc (g j) /\ c_pstab (low1 (g j)) = c_pstab (g j) /\ c_pnc (low1 (g j)) = c_pnc (g j)).
  { unfold low1. destruct (feq _ _); repeat split; reflexivity. }
  assert (Hnokid : kidsl (j - 1) j = kidsl j j).
  { rewrite kidsl_step by lia. destruct (is_kid j j) eqn:E; [apply Hkid' in E; lia|apply app_nil_r]. }
  assert (Hkl : forall q, q <> p -> kidsl (j - 1) q = kidsl j q).
  { intros q Hq. rewrite kidsl_step by lia. destruct (is_kid q j) eqn:E; [apply Hkid' in E; contradiction|apply app_nil_r]. }
  assert (Hklp : kidsl (j - 1) p = kidsl j p ++ [j]) by (rewrite kidsl_step, Hkid by lia; reflexivity).
  constructor.
  - intros q Hq. destruct (Nat.eq_dec q p) as [->|Hne].
    + rewrite Gp. change (statics (add_prop (low2 (low1 (g j)) (g p)) nc stab ds)) with (statics (low2 (low1 (g j)) (g p))). rewrite A1. apply HS. exact Hq.
    + destruct (Nat.eq_dec q j) as [->|Hnj]; [rewrite Gj, statics_low1|rewrite Go by assumption]; apply HS; exact Hq.
  - intros q Hq. destruct (Nat.eq_dec q p) as [->|Hne].
    + rewrite Gp, Hklp. cbn [add_prop c_desc]. rewrite A2, (st_desc _ _ HS p Hq). unfold descs at 2. rewrite flat_map_app. cbn [flat_map]. rewrite app_nil_r, Hh, Eh.
      cbn [snd]. f_equal. symmetry. apply descs_ext. apply Gk.
    + rewrite Hkl by exact Hne. rewrite (descs_ext g g') by apply Gk. destruct (Nat.eq_dec q j) as [->|Hnj]; [rewrite Gj, (proj1 Hl1)|rewrite Go by assumption]; apply HS; exact Hq.
  - intros q Hq. destruct (Nat.eq_dec q p) as [->|Hne].
    + rewrite Gp, Hklp. cbn [add_prop c_pstab]. rewrite A3, (st_pstab _ _ HS p Hq). unfold sumstab at 2. rewrite fold_left_app. cbn [fold_left]. rewrite Hh, Eh.
      cbn [snd fst]. f_equal. symmetry. apply sumstab_ext. apply Gk.
    + rewrite Hkl by exact Hne. rewrite (sumstab_ext g g') by apply Gk. destruct (Nat.eq_dec q j) as [->|Hnj]; [rewrite Gj, (proj1 (proj2 Hl1))|rewrite Go by assumption]; apply HS; exact Hq.
  - intros q Hq. destruct (Nat.eq_dec q p) as [->|Hne].
    + rewrite Gp, Hklp. cbn [add_prop c_pnc]. rewrite A4, (st_pnc _ _ HS p Hq). unfold sumnc at 2. rewrite fold_left_app. cbn [fold_left]. rewrite Hh, Eh.
      cbn [snd fst]. f_equal. f_equal. symmetry. apply sumnc_ext. apply Gk.
    + rewrite Hkl by exact Hne. rewrite (sumnc_ext g g') by apply Gk. destruct (Nat.eq_dec q j) as [->|Hnj]; [rewrite Gj, (proj2 (proj2 Hl1))|rewrite Go by assumption]; apply HS; exact Hq.
  - intros q Hq. cbn zeta. destruct (Nat.eq_dec q p) as [->|Hne].
    + rewrite Gp, Hklp. cbn [add_prop c_plow]. rewrite A5, (st_plow _ _ HS p Hq). cbn zeta.
      replace (p <=? j) with true by (symmetry; apply Nat.leb_le; lia). replace (p <=? j - 1) with true by (symmetry; apply Nat.leb_le; lia). cbn [orb].
      unfold lowmin at 3. rewrite fold_left_app. cbn [fold_left]. rewrite Gj. fold (lowmin g' (kidsl j p) D_MAX). rewrite (lowmin_ext g g') by apply Gk. reflexivity.
    + rewrite Hkl by exact Hne. rewrite (lowmin_ext g g') by apply Gk. destruct (Nat.eq_dec q j) as [->|Hnj].
      * rewrite Gj. unfold low1. rewrite (st_plow _ _ HS j Hq). cbn zeta.
        rewrite Nat.leb_refl. cbn [orb]. replace (j <=? j - 1) with false by (symmetry; apply Nat.leb_gt; lia). replace (j =? 1) with false by (symmetry; apply Nat.eqb_neq; lia). cbn [orb].
        destruct (feq _ D_MAX).
        -- cbn [set_plow c_plow]. apply (statics_eq (g j) (g0 j)). apply HS. exact Hq.
        -- rewrite (st_plow _ _ HS j Hq). cbn zeta. rewrite Nat.leb_refl. reflexivity.
      * rewrite Go by assumption. rewrite (st_plow _ _ HS q Hq). cbn zeta.
        replace (q <=? j - 1) with (q <=? j); [reflexivity|]. destruct (Nat.leb_spec q j), (Nat.leb_spec q (j - 1)); try reflexivity; lia.
Qed.

Lemma stage_root g : Stage 1 g -> Stage 0 g.
Proof.
  intros HS. assert (Hk : forall q, kidsl 0 q = kidsl 1 q).
  { intros q. change (kidsl 0 q) with (kidsl (1 - 1) q). rewrite (kidsl_step 1 q) by lia. unfold is_kid. rewrite Hroot. apply app_nil_r. }
  constructor; intros q Hq; rewrite ?Hk; try (apply HS; exact Hq).
  rewrite (st_plow _ _ HS q Hq). cbn zeta. destruct (Nat.eqb_spec q 1) as [->|Hne]; [rewrite !Bool.orb_true_r; reflexivity|].
  replace (q <=? 1) with false by (symmetry; apply Nat.leb_gt; lia). replace (q <=? 0) with false by (symmetry; apply Nat.leb_gt; lia). reflexivity.
Qed.

(** The examination list. *)
Definition added_spec (j : nat) (added : list bool) : Prop :=
  length added = S K /\ forall x, 1 <= x <= K -> nth_error added x = Some true <-> (c_kids (g0 x) = false \/ exists y, j < y <= K /\ is_kid x y = true).
Definition set_spec (j : nat) (s : list nat) (added : list bool) : Prop :=
  ssorted s /\ forall x, In x s <-> 1 <= x <= j /\ nth_error added x = Some true.

Lemma top_in j s added : 1 <= j <= K -> added_spec j added -> set_spec j s added -> exists s', s = s' ++ [j] /\ list_pop s = Ok (j, s').
Proof.
  intros Hj [_ HA] [Hs Hin].
  assert (Hjs : In j s).
  { apply Hin. split; [lia|]. apply HA; [exact Hj|]. destruct (c_kids (g0 j)) eqn:E; [right|left; reflexivity].
    apply Hkids in E; [|exact Hj]. destruct E as (y & Hy & Hk). exists y. split; [|exact Hk]. pose proof (is_kid_lt j y Hy Hk). lia. }
  destruct (list_pop_ok s) as (x & r & Ep & ->); [intros ->; contradiction|].
  assert (x = j).
  { apply ssorted_app in Hs. destruct Hs as (_ & _ & Hlt). apply in_app_or in Hjs. destruct Hjs as [Hr|[->|[]]]; [|reflexivity].
    specialize (Hlt j x Hr (or_introl eq_refl)). assert (Hx : In x (r ++ [x])) by (apply in_or_app; right; left; reflexivity). apply Hin in Hx. lia. }
  subst x. exists r. auto.
Qed.

Lemma loop_stage : forall j fuel cs g s added inf, j <= K -> j <= fuel -> rep cs g K -> Stage j g -> added_spec j added -> set_spec j s added ->
  exists cs' g', propagate_loop fuel cs s added inf = Ok (inf || existsb (fun x => feq (c_stab (g0 x)) D_MAX) (rev (seq 1 j)), cs', rev (seq 1 j))
    /\ rep cs' g' K /\ Stage 0 g'.
Proof.
  induction j as [|j IH]; intros fuel cs g s added inf Hj Hf HR HS HA HI.
  - assert (s = []) as ->.
    { destruct s as [|x s]; [reflexivity|]. destruct HI as [_ HI]. destruct (proj1 (HI x) (or_introl eq_refl)). lia. }
    exists cs, g. destruct fuel; cbn [propagate_loop seq rev existsb]; rewrite Bool.orb_false_r; auto.
  - destruct (top_in (S j) s added ltac:(lia) HA HI) as (s' & Es & Ep).
    destruct fuel as [|fuel]; [lia|]. destruct s as [|s0 s1] eqn:Es0; [destruct s'; discriminate|]. rewrite <- Es0 in *. clear Es0.
    assert (Hsorted : ssorted s' /\ forall x, In x s' <-> 1 <= x <= j /\ nth_error added x = Some true).
    { destruct HI as [H1 H2]. rewrite Es in H1, H2. apply ssorted_app in H1. destruct H1 as (H1 & _ & H3). split; [exact H1|].
      intros x. split.
      - intros Hx. pose proof (H3 x (S j) Hx (or_introl eq_refl)). destruct (proj1 (H2 x) (in_or_app _ _ _ (or_introl Hx))) as [Ha Hb]. split; [lia|exact Hb].
      - intros [Ha Hb]. assert (Hx2 : 1 <= x <= S j) by lia. destruct (in_app_or _ _ _ (proj2 (H2 x) (conj Hx2 Hb))) as [Hx|[Hx|[]]]; [exact Hx|lia]. }
    assert (Hne : exists a b, s = a :: b) by (destruct s as [|a b]; [destruct s'; discriminate|eauto]). destruct Hne as (sa & sb & Hsab).
    assert (Hrev : rev (seq 1 (S j)) = S j :: rev (seq 1 j)) by (rewrite seq_S, rev_app_distr; reflexivity). rewrite Hrev. cbn [existsb].
    assert (Hst : c_stab (g0 (S j)) = c_stab (g (S j))) by (symmetry; apply (statics_eq (g (S j)) (g0 (S j))); apply HS; lia).
    assert (Hpr : c_parent (g (S j)) = c_parent (g0 (S j))) by (apply (statics_eq (g (S j)) (g0 (S j))); apply HS; lia).
    destruct (Nat.eq_dec j 0) as [->|Hj0].
    + (* the root *)
      destruct (IH fuel cs g s' added (inf || feq (c_stab (g0 1)) D_MAX)) as (cs' & g' & E & HR' & HS'); try assumption; try lia.
      { apply stage_root. exact HS. }
      { destruct HA as [HA1 HA2]. split; [exact HA1|]. intros x Hx. rewrite (HA2 x Hx). split; intros [H|(y & Hy & Hk)]; auto.
        - right. exists y. split; [lia|exact Hk].
        - destruct (Nat.eq_dec y 1) as [->|Hy1]; [|right; exists y; split; [lia|exact Hk]]. unfold is_kid in Hk. rewrite Hroot in Hk. discriminate. }
      exists cs', g'. split; [|split; assumption]. rewrite Hsab. cbn [propagate_loop]. rewrite <- Hsab, Ep. cbn [bind].
      rewrite (propagate_root cs g K 1 HR) by (try lia; rewrite Hpr; exact Hroot). cbn [bind].
      rewrite (rep_cget _ _ _ 1 HR) by lia. cbn [bind]. rewrite Hpr, Hroot. cbn [bind fst snd]. rewrite <- Hst, E. cbn [bind].
      rewrite Bool.orb_assoc. reflexivity.
    + destruct (Hpar (S j) ltac:(lia)) as (p & Hp & Hpj).
      destruct (propagate_ok cs g K (S j) p HR ltac:(lia) ltac:(rewrite Hpr; exact Hp) ltac:(lia)) as (cs1 & E1 & HR1).
      pose proof (stage_step (S j) g p ltac:(lia) Hp HS) as HS1. replace (S j - 1) with j in HS1 by lia.
      set (g1 := next g (S j) p) in *.
      assert (Hst1 : c_stab (g1 (S j)) = c_stab (g0 (S j)) /\ c_parent (g1 (S j)) = Some p).
      { pose proof (st_stat _ _ HS1 (S j) ltac:(lia)) as H. apply statics_eq in H. rewrite <- Hp. split; apply H. }
      assert (Hlabp : c_label (g1 p) = p).
      { pose proof (st_stat _ _ HS1 p ltac:(lia)) as H. apply statics_eq in H. destruct H as [H _]. rewrite H. apply Hlab. lia. }
      assert (Hkidp : is_kid p (S j) = true) by (unfold is_kid; rewrite Hp; apply Nat.eqb_refl).
      destruct HA as [HA1 HA2].
      assert (Hax : exists a, nth_error added p = Some a) by (destruct (nth_error added p) eqn:E; [eauto|apply nth_error_None in E; lia]).
      destruct Hax as [a Ha].
      set (sn := if a then s' else snd (set_insert p s')). set (an := if a then added else upd added p true).
      assert (HA' : added_spec j an).
      { split; [unfold an; destruct a; [exact HA1|rewrite upd_length; exact HA1]|]. intros x Hx.
        assert (Hup : nth_error an x = Some true <-> x = p \/ nth_error added x = Some true).
        { unfold an. destruct a.
          - split; [auto|]. intros [->|H]; assumption.
          - destruct (Nat.eq_dec x p) as [->|Hnp]; [rewrite nth_error_upd_eq by lia; split; auto|rewrite nth_error_upd_neq by lia]. split; [auto|]. intros [|]; [contradiction|assumption]. }
        rewrite Hup, (HA2 x Hx). split.
        - intros [->|[H|(y & Hy & Hk)]]; [right; exists (S j); split; [lia|exact Hkidp]|auto|right; exists y; split; [lia|exact Hk]].
        - intros [H|(y & Hy & Hk)]; [auto|]. destruct (Nat.eq_dec y (S j)) as [->|Hny]; [left|right; right; exists y; split; [lia|exact Hk]].
          unfold is_kid in Hk. rewrite Hp in Hk. apply Nat.eqb_eq in Hk. congruence. }
      assert (HI' : set_spec j sn an).
      { destruct Hsorted as [Hs1 Hs2]. unfold sn, an. destruct a; [split; assumption|].
        destruct (snd_set_insert p s' Hs1) as [Hq1 Hq2]. split; [exact Hq1|]. intros x. rewrite Hq2, Hs2.
        destruct (Nat.eq_dec x p) as [->|Hnp]; [rewrite nth_error_upd_eq by lia; split; [intros _; split; [lia|reflexivity]|auto]|].
        rewrite nth_error_upd_neq by lia. split; [intros [|]; [contradiction|assumption]|auto]. }
      destruct (IH fuel cs1 g1 sn an (inf || feq (c_stab (g0 (S j))) D_MAX)) as (cs' & g' & E & HR' & HS'); try assumption; try lia.
      exists cs', g'. split; [|split; assumption]. rewrite Hsab. cbn [propagate_loop]. rewrite <- Hsab, Ep. cbn [bind].
      rewrite E1. cbn [bind]. rewrite (rep_cget _ _ _ (S j) HR1) by lia. cbn [bind]. rewrite (proj2 Hst1), (proj1 Hst1).
      rewrite (rep_cget _ _ _ p HR1) by lia. cbn [bind]. rewrite Hlabp, (aget_nth _ _ _ Ha). cbn [bind].
      assert (Er : (if a then Ok (s', added) else let! added0 := aset added p true in Ok (snd (set_insert p s'), added0)) = Ok (sn, an)).
      { unfold sn, an. destruct a; [reflexivity|]. rewrite aset_ok by lia. reflexivity. }
      rewrite Er. cbn [bind fst snd]. rewrite E. cbn [bind]. rewrite Bool.orb_assoc. reflexivity.
Qed.

(** Collecting the leaves. *)
Lemma collect_ok cs : rep cs g0 K -> forall order s added, (forall i, In i order -> i <= K) -> ssorted s -> length added = S K ->
  (forall x, 1 <= x <= K -> In x s <-> nth_error added x = Some true) -> (forall x, In x s -> 1 <= x <= K) ->
  exists s' added', collect_leaves cs order s added = Ok (s', added') /\ ssorted s' /\ length added' = S K /\
    (forall x, 1 <= x <= K -> In x s' <-> nth_error added' x = Some true) /\ (forall x, In x s' -> 1 <= x <= K) /\
    (forall x, In x s' <-> In x s \/ (1 <= x <= K /\ In x order /\ c_kids (g0 x) = false)).
Proof.
  intros HR. induction order as [|i order IH]; intros s added Ho Hs HL Hiff Hb.
  - exists s, added. split; [reflexivity|]. split; [assumption|]. split; [assumption|]. split; [assumption|]. split; [assumption|].
    intros x. split; [auto|intros [H|(_ & [] & _)]; exact H].
  - cbn [collect_leaves]. assert (Hi : i <= K) by (apply Ho; left; reflexivity).
    assert (Ho' : forall j, In j order -> j <= K) by (intros j Hj; apply Ho; right; exact Hj).
    destruct (Nat.eq_dec i 0) as [->|Hi0].
    + rewrite (aget_nth _ _ _ (proj1 (proj2 HR))). cbn [bind].
      destruct (IH s added Ho' Hs HL Hiff Hb) as (s' & added' & E & Q1 & Q2 & Q3 & Q4 & Q5). exists s', added'.
      split; [exact E|]. split; [assumption|]. split; [assumption|]. split; [assumption|]. split; [assumption|].
      intros x. rewrite Q5. split; intros [H|(H1 & H2 & H3)]; auto; right; split; try assumption; split; try assumption.
      * right. assumption.
      * destruct H2 as [<-|H2]; [lia|exact H2].
    + rewrite (aget_nth _ _ _ (proj2 (proj2 HR) i ltac:(lia))). cbn [bind]. destruct (c_kids (g0 i)) eqn:Ek.
      * destruct (IH s added Ho' Hs HL Hiff Hb) as (s' & added' & E & Q1 & Q2 & Q3 & Q4 & Q5). exists s', added'.
        split; [exact E|]. split; [assumption|]. split; [assumption|]. split; [assumption|]. split; [assumption|].
        intros x. rewrite Q5. split; intros [H|(H1 & H2 & H3)]; auto; right; split; try assumption; split; try assumption.
        -- right. assumption.
        -- destruct H2 as [<-|H2]; [congruence|exact H2].
      * rewrite (Hlab i) by lia. rewrite aset_ok by lia. cbn [bind].
        destruct (snd_set_insert i s Hs) as [Hs' Hin].
        destruct (IH (snd (set_insert i s)) (upd added i true) Ho' Hs') as (s' & added' & E & Q1 & Q2 & Q3 & Q4 & Q5).
        { rewrite upd_length. exact HL. }
        { intros x Hx. rewrite Hin. destruct (Nat.eq_dec x i) as [->|Hne]; [rewrite nth_error_upd_eq by lia; split; auto|].
          rewrite nth_error_upd_neq by lia. rewrite <- (Hiff x Hx). split; [intros [|]; [contradiction|assumption]|auto]. }
        { intros x Hx. apply Hin in Hx. destruct Hx as [->|Hx]; [lia|apply Hb; exact Hx]. }
        exists s', added'. split; [exact E|]. split; [assumption|]. split; [assumption|]. split; [assumption|]. split; [assumption|].
        intros x. rewrite Q5, Hin. split.
        -- intros [[->|H]|(H1 & H2 & H3)]; [right; split; [lia|split; [left; reflexivity|exact Ek]]|auto|right; split; [exact H1|split; [right; exact H2|exact H3]]].
        -- intros [H|(H1 & [<-|H2] & H3)]; auto.
Qed.

Lemma tree_stage cs order fuel : rep cs g0 K -> (forall k, 1 <= k <= K -> c_plow (g0 k) = D_MAX /\ c_pstab (g0 k) = fzero /\ c_desc (g0 k) = []) ->
  Permutation (seq 0 (S K)) order -> K <= fuel ->
  exists cs' g', propagate_tree fuel cs order = Ok (existsb (fun x => feq (c_stab (g0 x)) D_MAX) (rev (seq 1 K)), cs', rev (seq 1 K))
    /\ rep cs' g' K /\ Stage 0 g'.
Proof.
  intros HR Hf HP Hfu. unfold propagate_tree. rewrite (proj1 HR).
  assert (Hord : forall i, In i order <-> i <= K).
  { intros i. split; intros H.
    - apply (Permutation_in _ (Permutation_sym HP)) in H. apply in_seq in H. lia.
    - apply (Permutation_in _ HP). apply in_seq. lia. }
  destruct (collect_ok cs HR order [] (repeat false (S K))) as (s & added & E & Q1 & Q2 & Q3 & Q4 & Q5).
  { intros i. apply Hord. } { constructor. } { apply repeat_length. }
  { intros x Hx. split; [intros []|]. intros H. apply nth_error_In in H. apply repeat_spec in H. discriminate. }
  { intros x []. }
  rewrite E. cbn [bind fst snd].
  destruct (loop_stage K fuel cs g0 s added false (Nat.le_refl _) Hfu HR) as (cs' & g' & E' & HR' & HS').
  - assert (Hk : forall p, kidsl K p = []) by (intros p; unfold kidsl; rewrite Nat.sub_diag; reflexivity).
    constructor; intros p Hp; rewrite ?Hk; destruct (Hf p Hp) as (F1 & F2 & F3); try assumption; try reflexivity.
    cbn zeta. replace (p <=? K) with true by (symmetry; apply Nat.leb_le; lia). exact F1.
  - split; [exact Q2|]. intros x Hx. rewrite <- (Q3 x Hx), Q5. split.
    + intros [[]|(_ & _ & H)]. left. exact H.
    + intros [H|(y & Hy & _)]; [right; split; [exact Hx|split; [apply Hord; lia|exact H]]|lia].
  - split; [exact Q1|]. intros x. split; [intros H; split; [apply Q4; exact H|apply Q3; [apply Q4; exact H|exact H]]|].
    intros [H1 H2]. apply Q3; [exact H1|exact H2].
  - exists cs', g'. split; [exact E'|]. split; assumption.
Qed.
End Propagation.
