(** C63: the clusters are exactly the dense components that split off. *)
From Coq Require Import Permutation Sorted Relations.
From Flocq Require Import IEEE754.BinarySingleNaN.
From Verif Require Import Base F64 F64Facts F64Arith ListFacts ModelUtils ModelDistance ModelMst ModelGraph ModelCluster ModelHier ModelRun SpecGraph SpecHier
  PropDistance PropMst PropGraph ProofExplore ProofTies ProofGraph ProofTree ProofHier ProofHierEnd PropHier.
From Coq Require Import ZifyBool ZifyNat.
Local Open Scope nat_scope.

Section Step.
Variables (n m minPts : nat) (e : edges) (compact : bool) (D : f64 -> f64 -> Prop).
Hypothesis Hn : (Z.of_nat n < M32)%Z.
Hypothesis Hwf : wf m e.
Hypothesis Hv : forall i, i < m -> va e i < n /\ vb e i < n.
Hypothesis HDt : forall a b c, D a b -> D b c -> D a c.
Hypothesis HDw : forall i j i', i < j -> j < m -> feq (ew e i) (ew e j) = false -> i' <= i -> D (ew e j) (ew e i').
Hypothesis Hm2 : 2 <= minPts.
Hypothesis Hn1 : 1 <= n.

Lemma inv_step' B k h : 0 < k -> feq (ew e (k - 1)) (ew e (k - 1)) = true -> Inv n m minPts e D B k h -> InvC n m minPts e k h ->
  exists k' h' B' A s', hier_level e minPts n compact k h = Ok (k', h') /\ Lev n minPts e compact D B k h A B' k' s' h'
    /\ Inv n m minPts e D B' k' h' /\ InvC n m minPts e k' h' /\ Evt n e B k h B' h'.
Proof.
  intros Hk Hnan [H1 H2 H3 H4] [C1 C2 C3].
  destruct (level_ok n m minPts e compact D Hn Hwf Hv HDt HDw B k h Hk Hnan H1) as (k' & h' & s' & B' & A & R & HL).
  exists k', h', B', A, s'. split; [exact R|]. split; [exact HL|]. split; [|split].
  - constructor.
    + eapply (core_step n m minPts e compact D); eassumption.
    + eapply (alive_step n m minPts e compact D); eassumption.
    + eapply (ent_step n m minPts e compact D); eassumption.
    + eapply (off_step n m minPts e compact D); eassumption.
  - constructor.
    + rewrite (oe_cur _ _ (le_off _ _ _ _ _ _ _ _ _ _ _ _ _ HL)). eapply (conn_step_L n m minPts e compact D); eassumption.
    + eapply (dead_step n m minPts e compact D); eassumption.
    + eapply (entc_step n m minPts e compact D); eassumption.
  - eapply (evt_step n m minPts e compact D); eassumption.
Qed.

(** What happens to the label of a point at one level. *)
Lemma step_label B k h k' h' B' A s' v : Core n m minPts e D B k h -> Lev n minPts e compact D B k h A B' k' s' h' -> k <= m ->
  v < n -> lab (h_l h') v <> 0 ->
  lab (h_l h) v <> 0 /\
  (lab (h_l h') v = lab (h_l h) v \/
   (l_next (h_l h) <= lab (h_l h') v < l_next (h_l h') /\ parentof (h_l h') (lab (h_l h') v) (lab (h_l h) v) /\
    exists x, x < n /\ lab (h_l h) x = lab (h_l h) v /\ big minPts e k' x /\ ~ joined (E e k') x v)).
Proof.
  intros HC HL Hkm Hvn Hne. rewrite (lab_h' _ _ _ _ _ _ _ _ _ _ _ _ _ HL) in *.
  assert (Hk' : k' < k) by apply (le_k _ _ _ _ _ _ _ _ _ _ _ _ _ HL).
  destruct (vcase n m minPts e compact D Hwf Hv B k h A B' k' s' h' HC HL v Hvn) as [[_ H]|[(a & _ & _ & _ & _ & H)|[(a & _ & _ & _ & H0 & H & _)|(a & _ & _ & _ & H0 & H1 & _ & H2 & (x & X1 & X2 & X3 & X4))]]].
  - split; [congruence|]. left. exact H.
  - congruence.
  - split; [exact H0|]. left. exact H.
  - split; [exact H0|]. right. rewrite (next_h' _ _ _ _ _ _ _ _ _ _ _ _ _ HL). split; [exact H1|]. split; [apply (par_h' _ _ _ _ _ _ _ _ _ _ _ _ _ HL); exact H2|].
    destruct (st_A n m minPts e compact D Hv B k h A B' k' s' h' HC HL x X1) as [Hxn _].
    exists x. split; [exact Hxn|]. split; [exact X2|]. split.
    + apply (valid_big n m minPts e D Hn Hwf Hv HDw Hm2 k' (h_adj h')); [lia|apply (le_adj _ _ _ _ _ _ _ _ _ _ _ _ _ HL)|exact Hxn|exact X3].
    + rewrite <- (st_conn n m minPts e compact D Hwf Hv B k h A B' k' s' h' HC HL). exact X4.
Qed.
End Step.

(** The level whose removal includes edge [i]. *)
Lemma levels_cross e minPts n compact i x z : levels e minPts n compact x z -> i < fst x -> fst z <= i ->
  exists y1 y2, levels e minPts n compact x y1 /\ 0 < fst y1 /\ hier_level e minPts n compact (fst y1) (snd y1) = Ok y2
    /\ levels e minPts n compact y2 z /\ fst y2 <= i < fst y1.
Proof.
  induction 1 as [x|x y z Hl IH Hk Hst]; intros H1 H2; [lia|].
  destruct (le_lt_dec (fst y) i) as [Hle|Hlt].
  - destruct (IH H1 Hle) as (y1 & y2 & Q1 & Q2 & Q3 & Q4 & Q5). exists y1, y2. split; [exact Q1|]. split; [exact Q2|]. split; [exact Q3|]. split; [|exact Q5]. apply levels_next with y; assumption.
  - exists y, z. split; [exact Hl|]. split; [exact Hk|]. split; [exact Hst|]. split; [apply levels_refl|lia].
Qed.

Lemma connects_covers n e minPts : 2 <= minPts <= n -> connects n e -> covers n e.
Proof.
  intros Hm Hcon v Hvn.
  assert (Hx : exists x, x < n /\ x <> v) by (destruct (Nat.eq_dec v 0) as [->|Hv0]; [exists 1; lia|exists 0; lia]).
  destruct Hx as (x & Hx & Hne). pose proof (Hcon v x Hvn Hx) as HJ.
  assert (Hgen : forall a b, joined (fun a b => exists w, In (a, b, w) (triples e)) a b -> a = b \/
     ((exists p q w, In (p, q, w) (triples e) /\ (p = a \/ q = a)) /\ (exists p q w, In (p, q, w) (triples e) /\ (p = b \/ q = b)))).
  { induction 1 as [a b (w & Hw)|a|a b _ IH|a b c _ IH1 _ IH2].
    - right. split; exists a, b, w; auto.
    - left. reflexivity.
    - destruct IH as [->|[H1 H2]]; auto.
    - destruct IH1 as [->|[H1 H2]]; [exact IH2|]. destruct IH2 as [<-|[H3 H4]]; auto. }
  destruct (Hgen v x HJ) as [->|[(p & q & w & H1 & H2) _]]; [congruence|]. exists p, q, w. auto.
Qed.

Section Cond.
Variables (n : nat) (e0 e : edges) (adj : list (list nat)).
Hypothesis HG : graph_input n e0 e adj.
Hypothesis Hcon : connects n e.
Hypothesis Hs : weights_sorted e.
Variable minPts : nat.
Hypothesis Hm : 2 <= minPts <= n.
Variable compact : bool.
Notation m := (length (e_w e)).
Notation upto := (edge_upto (triples e)).
Notation below := (edge_below (triples e)).
Hypothesis Hnan : no_nan e.

Let Hm2 : 2 <= minPts. Proof. apply Hm. Qed.
Let Hgw := gt_w e Hs.
Let Hn32 := in_n32 _ _ _ _ HG.
Let Hn1 := in_n1 _ _ _ _ HG.
Let Hwf := in_wf _ _ _ _ HG.
Let Hv := in_v _ _ _ _ HG.

Lemma ew_le i j : i <= j -> j < m -> fle (ew e i) (ew e j) = true.
Proof.
  intros Hij Hj. destruct (Nat.eq_dec i j) as [->|Hne]; [|apply (sorted_le e Hs); lia].
  pose proof (in_nan e Hnan j Hj) as Hx. apply feq_true in Hx. apply fle_intro; try apply Hx. apply Z.le_refl.
Qed.

Lemma E_upto k : 0 < k <= m -> k = m \/ feq (ew e (k - 1)) (ew e k) = false -> forall a b, joined (E e k) a b <-> joined (upto (ew e (k - 1))) a b.
Proof.
  intros Hk Hb. apply joined_ext.
  - intros a b (j & Hj & Hab).
    assert (He : upto (ew e (k - 1)) (va e j) (vb e j)).
    { exists (ew e j). split; [apply (triple_ew e _ _ _ _ Hwf); exists j; split; [lia|auto]|]. apply ew_le; lia. }
    destruct Hab as [[<- <-]|[<- <-]]; [apply rst_step; exact He|apply rst_sym, rst_step; exact He].
  - intros a b (w & Hin & Hle). apply (triple_ew e _ _ _ _ Hwf) in Hin. destruct Hin as (j & Hj & -> & -> & ->).
    apply rst_step. exists j. split; [|auto].
    destruct (le_lt_dec k j) as [Hge|Hlt]; [exfalso|exact Hlt].
    destruct Hb as [Hb|Hb]; [lia|].
    pose proof (ew_le k j Hge Hj) as Hkj.
    pose proof (Hgw (k - 1) k (k - 1) ltac:(lia) ltac:(lia) Hb (Nat.le_refl _)) as Hgt. unfold gtw in Hgt.
    apply flt_true in Hgt. apply fle_true in Hkj, Hle. destruct Hgt as (_ & _ & K1), Hkj as (_ & _ & K2), Hle as (_ & _ & K3).
    clear -K1 K2 K3. lia.
Qed.

Lemma E_below k' k : k' < k <= m -> (forall i, k' <= i < k -> feq (ew e i) (ew e (k - 1)) = true) ->
  (0 < k' -> feq (ew e (k' - 1)) (ew e (k - 1)) = false) -> forall a b, joined (E e k') a b <-> joined (below (ew e (k - 1))) a b.
Proof.
  intros Hk Ht Hb. apply joined_ext.
  - intros a b (j & Hj & Hab).
    assert (He : below (ew e (k - 1)) (va e j) (vb e j)).
    { exists (ew e j). split; [apply (triple_ew e _ _ _ _ Hwf); exists j; split; [lia|auto]|].
      apply (Hgw (k' - 1) (k - 1) j ltac:(lia) ltac:(lia) (Hb ltac:(lia)) ltac:(lia)). }
    destruct Hab as [[<- <-]|[<- <-]]; [apply rst_step; exact He|apply rst_sym, rst_step; exact He].
  - intros a b (w & Hin & Hlt). apply (triple_ew e _ _ _ _ Hwf) in Hin. destruct Hin as (j & Hj & -> & -> & ->).
    apply rst_step. exists j. split; [|auto].
    destruct (le_lt_dec k' j) as [Hge|Hlt']; [exfalso|exact Hlt'].
    pose proof (ew_le k' j Hge Hj) as Hkj. pose proof (Ht k' ltac:(lia)) as Hq.
    apply flt_true in Hlt. apply fle_true in Hkj. apply feq_true in Hq. destruct Hlt as (_ & _ & K1), Hkj as (_ & _ & K2), Hq as (_ & _ & K3).
    clear -K1 K2 K3. lia.
Qed.

(** Everything known about one level of the loop. *)
Record at_level (k : nat) (g : hstate) (k' : nat) (g' : hstate) (B B' : list (list nat)) : Prop := {
  al_k : k' < k <= m;
  al_inv : Inv n m minPts e gtw B k g;
  al_inv' : Inv n m minPts e gtw B' k' g';
  al_conn : InvC n m minPts e k g;
  al_conn' : InvC n m minPts e k' g';
  al_evt : Evt n e B k g B' g';
  al_tie : forall i, k' <= i < k -> feq (ew e i) (ew e (k - 1)) = true;
  al_upto : forall a b, joined (E e k) a b <-> joined (upto (ew e (k - 1))) a b;
  al_below : forall a b, joined (E e k') a b <-> joined (below (ew e (k - 1))) a b;
  al_label : forall v, v < n -> lab (h_l g') v <> 0 ->
     lab (h_l g) v <> 0 /\
     (lab (h_l g') v = lab (h_l g) v \/
      (l_next (h_l g) <= lab (h_l g') v < l_next (h_l g') /\ parentof (h_l g') (lab (h_l g') v) (lab (h_l g) v) /\
       exists x, x < n /\ lab (h_l g) x = lab (h_l g) v /\ big minPts e k' x /\ ~ joined (E e k') x v)) }.

Lemma level_facts k g k' g' : moment e adj minPts n compact k g -> 0 < k -> hier_level e minPts n compact k g = Ok (k', g') ->
  exists B B', at_level k g k' g' B B'.
Proof.
  intros Hg Hk Hst.
  destruct (moment_path n e0 e adj HG minPts compact Hm2 gtw gt_t Hgw k g Hnan Hg) as (B & P).
  pose proof (pa_conn _ _ _ _ _ _ _ _ _ _ _ P) as HC.
  specialize (HC (start_InvC n m minPts e gtw Hv Hgw Hm2 Hn1 adj (proj2 Hm) (connects_E n e _ Hwf Hcon))).
  pose proof (pa_inv _ _ _ _ _ _ _ _ _ _ _ P) as HI. pose proof (co_k _ _ _ _ _ _ _ _ (in_core _ _ _ _ _ _ _ _ HI)) as Hkm.
  destruct (inv_step' n m minPts e compact gtw Hn32 Hwf Hv gt_t Hgw Hm2 Hn1 B k g Hk (in_nan e Hnan (k - 1) ltac:(lia)) HI HC) as (k1 & g1 & B' & A & s' & R & HL & HI' & HC' & HE).
  rewrite R in Hst. injection Hst as <- <-. exists B, B'.
  pose proof (le_k _ _ _ _ _ _ _ _ _ _ _ _ _ HL) as Hk1.
  constructor; auto.
  - apply (le_tie _ _ _ _ _ _ _ _ _ _ _ _ _ HL).
  - apply E_upto; [lia|]. destruct (co_bd _ _ _ _ _ _ _ _ (in_core _ _ _ _ _ _ _ _ HI)) as [Hb|[_ Hb]]; [left; exact Hb|right; apply Hb; exact Hk].
  - apply E_below; [lia|apply (le_tie _ _ _ _ _ _ _ _ _ _ _ _ _ HL)|apply (le_bd _ _ _ _ _ _ _ _ _ _ _ _ _ HL)].
  - intros v Hvn Hne. apply (step_label n m minPts e compact gtw Hn32 Hwf Hv Hgw Hm2 Hn1 B k g k1 g1 B' A s' v); auto. apply HI.
Qed.

Variables (fuel : nat) (h : hstate).
Hypothesis Hok : compute_hierarchy fuel e n adj minPts compact = Ok h.

Lemma finish : exists g, moment e adj minPts n compact 0 g /\ h = hier_finish n g.
Proof. destruct (ok_moment n e0 e adj HG minPts compact Hm2 fuel h Hok) as (g & Hg & ->). exists g. auto. Qed.

Let Hcov : covers n e. Proof. exact (connects_covers n e minPts Hm Hcon). Qed.

(** A cluster that appears at a level: its points and its birth. *)
Lemma born_members k g k' g' B B' l c : at_level k g k' g' B B' -> moment e adj minPts n compact k' g' -> l_next (h_l g) <= l < l_next (h_l g') -> cluster_at h l c ->
  c_birth c = ew e (k - 1) /\ (forall v, member h l v <-> v < n /\ lab (h_l g') v = l).
Proof.
  intros HA Hg' Hl Hc. destruct finish as (gf & Hgf & ->).
  pose proof (moment_final n e adj minPts compact Hm2 k' g' gf Hg' Hgf) as Hlev.
  destruct (levels_path n m minPts e compact gtw Hn32 Hwf Hv gt_t Hgw Hm2 Hn1 (in_nan e Hnan) _ _ Hlev B' (al_inv' _ _ _ _ _ _ HA)) as (Bf & P).
  cbn [fst snd] in P. pose proof (pa_inv _ _ _ _ _ _ _ _ _ _ _ P) as HIf.
  pose proof (member_bk n e0 e adj HG minPts Hm2 gtw gt_t Hgw Bf gf HIf Hcov) as Hmem.
  destruct (ev_born _ _ _ _ _ _ _ (al_evt _ _ _ _ _ _ HA) l Hl) as (Hb1 & c1 & Hc1 & Hb2).
  destruct (pa_old _ _ _ _ _ _ _ _ _ _ _ P l c1 Hc1) as (c2 & Hc2 & _ & Hb3 & _).
  change (clus (h_l gf) l c) in Hc. rewrite (clus_fun _ _ _ _ Hc Hc2). split; [congruence|].
  assert (Hnx : 1 <= l < l_next (h_l gf)).
  { pose proof (pa_next _ _ _ _ _ _ _ _ _ _ _ P). destruct (co_inv0 _ _ _ _ _ _ _ _ (in_core _ _ _ _ _ _ _ _ (al_inv _ _ _ _ _ _ HA))) as [w0 HC].
    pose proof (ci_next _ _ _ _ _ _ _ HC). lia. }
  intros v. rewrite Hmem, (pa_bk _ _ _ _ _ _ _ _ _ _ _ P l) by lia. split.
  - intros [_ Hin]. assert (Hvn : v < n).
    { destruct (co_inv0 _ _ _ _ _ _ _ _ (in_core _ _ _ _ _ _ _ _ (al_inv' _ _ _ _ _ _ HA))) as [w0 HC]. apply (ci_born _ _ _ _ _ _ _ HC l). exact Hin. }
    split; [exact Hvn|]. apply Hb1; assumption.
  - intros [Hvn H]. split; [exact Hnx|]. apply Hb1; assumption.
Qed.

Lemma lab_nth g v : lab g v = nth v (l_cur g) 0. Proof. reflexivity. Qed.

(** Points carrying one label after a level are a component below it. *)
Lemma label_component k g k' g' B B' u : at_level k g k' g' B B' -> u < n -> lab (h_l g') u <> 0 ->
  many (below (ew e (k - 1))) minPts u /\ forall v, v < n /\ lab (h_l g') v = lab (h_l g') u <-> joined (below (ew e (k - 1))) u v.
Proof.
  intros HA Hu Hne. destruct (ic_conn _ _ _ _ _ _ (al_conn' _ _ _ _ _ _ HA)) as [HC1 HC2]. split.
  - apply (many_ext (E e k')); [apply (al_below _ _ _ _ _ _ HA)|]. apply HC1; assumption.
  - intros v. rewrite <- (al_below _ _ _ _ _ _ HA). split.
    + intros [Hvn Hl]. apply HC2; [exact Hu|exact Hvn|exact Hne|]. symmetry. exact Hl.
    + intros HJ. assert (Hvn : v < n) by (apply (joined_lt n m e Hv k' u v) in HJ; [tauto|pose proof (al_k _ _ _ _ _ _ HA); lia]).
      split; [exact Hvn|]. symmetry. apply HC2; assumption.
Qed.

Lemma clusters_split l c : 2 <= l -> cluster_at h l c ->
  exists u, u < n /\ splits_off upto below minPts (c_birth c) u /\ forall v, member h l v <-> joined (below (c_birth c)) u v.
Proof.
  intros Hl Hc. destruct finish as (gf & Hgf & Hh).
  assert (Hlt : l < l_next (h_l gf)).
  { destruct (moment_path n e0 e adj HG minPts compact Hm2 gtw gt_t Hgw 0 gf Hnan Hgf) as (B & P).
    destruct (co_inv0 _ _ _ _ _ _ _ _ (in_core _ _ _ _ _ _ _ _ (pa_inv _ _ _ _ _ _ _ _ _ _ _ P))) as [w0 HC].
    subst h. change (clus (h_l gf) l c) in Hc. apply clus_lt in Hc. rewrite (ci_cs _ _ _ _ _ _ _ HC) in Hc. exact Hc. }
  destruct (levels_born n m minPts e compact gtw Hv Hgw Hm2 Hn1 (in_nan e Hnan) _ _ Hgf [[]; seq 0 n] l (inv0 n e0 e adj HG minPts Hm2 gtw gt_t Hgw)) as ([k g] & [k' g'] & Q1 & Q2 & Q3 & Q4 & Q5).
  { cbn [snd]. cbn [hier_start h_l l_next]. lia. }
  cbn [fst snd] in *. destruct (level_facts k g k' g' Q1 Q2 Q3) as (B & B' & HA).
  assert (Hg' : moment e adj minPts n compact k' g') by (apply levels_next with (k, g); assumption).
  destruct (born_members k g k' g' B B' l c HA Hg' Q5 Hc) as [Hb Hmem].
  assert (Hex : exists u, u < n /\ lab (h_l g') u = l).
  { destruct (co_inv0 _ _ _ _ _ _ _ _ (in_core _ _ _ _ _ _ _ _ (al_inv' _ _ _ _ _ _ HA))) as [w0 HC].
    destruct (ci_c _ _ _ _ _ _ _ HC l ltac:(lia)) as (c1 & _ & Hgd). destruct (cg_nonroot _ _ _ _ _ _ _ _ Hgd Hl) as (_ & Hlen & _).
    destruct (bk B' l) as [|u us] eqn:Eb; [cbn in Hlen; lia|]. assert (Hin : In u (bk B' l)) by (rewrite Eb; left; reflexivity).
    pose proof (proj2 (ci_born _ _ _ _ _ _ _ HC l) u Hin) as Hu. exists u. split; [exact Hu|].
    apply (proj1 (ev_born _ _ _ _ _ _ _ (al_evt _ _ _ _ _ _ HA) l Q5)); assumption. }
  destruct Hex as (u & Hu & Hlu). exists u. split; [exact Hu|].
  destruct (label_component k g k' g' B B' u HA Hu ltac:(lia)) as [Hmany Hcomp]. rewrite Hb.
  split; [|intros v; rewrite Hmem, <- Hcomp, Hlu; reflexivity].
  split; [exact Hmany|].
  destruct (al_label _ _ _ _ _ _ HA u Hu ltac:(lia)) as [Hz [Hold|(_ & Hp & x & X1 & X2 & X3 & X4)]].
  { exfalso. destruct (co_inv0 _ _ _ _ _ _ _ _ (in_core _ _ _ _ _ _ _ _ (al_inv _ _ _ _ _ _ HA))) as [w0 HC].
    pose proof (proj1 (ci_lab _ _ _ _ _ _ _ HC u Hu)). lia. }
  exists x. split; [|split].
  - apply (al_upto _ _ _ _ _ _ HA). apply (ic_conn _ _ _ _ _ _ (al_conn _ _ _ _ _ _ HA)); [exact Hu|exact X1|exact Hz|]. symmetry. exact X2.
  - rewrite <- (al_below _ _ _ _ _ _ HA). intros HJ. apply X4. apply rst_sym. exact HJ.
  - apply (many_ext (E e k')); [apply (al_below _ _ _ _ _ _ HA)|]. exact X3.
Qed.

Lemma upto_feq w w' : feq w w' = true -> forall a b, upto w a b <-> upto w' a b.
Proof.
  intros Hq. apply feq_true in Hq. destruct Hq as (N1 & N2 & K). intros a b. unfold edge_upto.
  split; intros (x & H1 & H2); exists x; (split; [exact H1|]); apply fle_true in H2; destruct H2 as (M1 & M2 & K2); apply fle_intro; auto; lia.
Qed.
Lemma below_feq w w' : feq w w' = true -> forall a b, below w a b <-> below w' a b.
Proof.
  intros Hq. apply feq_true in Hq. destruct Hq as (N1 & N2 & K). intros a b. unfold edge_below.
  split; intros (x & H1 & H2); exists x; (split; [exact H1|]); apply flt_true in H2; destruct H2 as (M1 & M2 & K2); apply flt_intro; auto; lia.
Qed.
Lemma joined_iff (R S : nat -> nat -> Prop) : (forall a b, R a b <-> S a b) -> forall a b, joined R a b <-> joined S a b.
Proof. intros H. apply joined_ext; intros a b Hab; apply rst_step, H, Hab. Qed.

(** An edge weight equal to a level at which something changes. *)
Lemma changing_weight w a b : joined (upto w) a b -> ~ joined (below w) a b -> exists i, i < m /\ feq (ew e i) w = true.
Proof.
  intros H1 H2.
  assert (Hd : (exists i, i < m /\ feq (ew e i) w = true) \/ (forall i, i < m -> feq (ew e i) w = false)).
  { generalize m. induction n0 as [|k IH]; [right; lia|]. destruct (feq (ew e k) w) eqn:Ek; [left; exists k; auto|].
    destruct IH as [(i & Hi & Hq)|IH]; [left; exists i; auto|]. right. intros i Hi. destruct (Nat.eq_dec i k) as [->|Hne]; [exact Ek|apply IH; lia]. }
  destruct Hd as [Hd|Hd]; [exact Hd|]. exfalso. apply H2. revert H1. apply joined_mono. intros x y (z & Hz & Hle). exists z. split; [exact Hz|].
  apply (triple_ew e _ _ _ _ Hwf) in Hz. destruct Hz as (i & Hi & -> & -> & ->). specialize (Hd i Hi).
  apply fle_true in Hle. destruct Hle as (N1 & N2 & K). apply flt_intro; auto.
  destruct (Z.eq_dec (fkey (ew e i)) (fkey w)) as [Heq|Hne]; [|lia]. rewrite (feq_intro _ _ N1 N2 Heq) in Hd. discriminate.
Qed.

Lemma splits_cluster w u : u < n -> splits_off upto below minPts w u ->
  exists l c, 2 <= l /\ cluster_at h l c /\ feq (c_birth c) w = true /\ forall v, member h l v <-> joined (below w) u v.
Proof.
  intros Hu (Hmany & u' & HJ & HN & Hmany'). destruct (changing_weight w u u' HJ HN) as (i & Hi & Hq).
  destruct finish as (gf & Hgf & Hh).
  destruct (levels_cross e minPts n compact i _ _ Hgf Hi ltac:(cbn; lia)) as ([k g] & [k' g'] & Q1 & Q2 & Q3 & Q4 & Q5).
  cbn [fst snd] in *. destruct (level_facts k g k' g' Q1 Q2 Q3) as (B & B' & HA).
  assert (Hg' : moment e adj minPts n compact k' g') by (apply levels_next with (k, g); assumption).
  assert (Hqw : feq (ew e (k - 1)) w = true).
  { pose proof (al_tie _ _ _ _ _ _ HA i ltac:(lia)) as Ht. apply feq_true in Ht, Hq. destruct Ht as (N1 & N2 & K1), Hq as (N3 & N4 & K2).
    apply feq_intro; auto. lia. }
  pose proof (joined_iff _ _ (below_feq _ _ Hqw)) as Jb. pose proof (joined_iff _ _ (upto_feq _ _ Hqw)) as Ju.
  assert (Hu' : u' < n).
  { apply Ju, (al_upto _ _ _ _ _ _ HA) in HJ. apply (joined_lt n m e Hv k u u') in HJ; [tauto|]. pose proof (al_k _ _ _ _ _ _ HA). lia. }
  destruct (ic_conn _ _ _ _ _ _ (al_conn' _ _ _ _ _ _ HA)) as [HC1 HC2]. destruct (ic_conn _ _ _ _ _ _ (al_conn _ _ _ _ _ _ HA)) as [HD1 HD2].
  assert (Hb : forall x, many (below w) minPts x -> big minPts e k' x).
  { intros x Hx. apply (many_ext (E e k') (below w)); [|exact Hx]. intros a b. rewrite (al_below _ _ _ _ _ _ HA). apply Jb. }
  assert (Hl : lab (h_l g') u <> 0) by (apply HC1; auto). assert (Hl' : lab (h_l g') u' <> 0) by (apply HC1; auto).
  assert (Hne : lab (h_l g') u <> lab (h_l g') u').
  { intros Heq. apply HN, Jb, (al_below _ _ _ _ _ _ HA). apply HC2; auto. }
  destruct (al_label _ _ _ _ _ _ HA u Hu Hl) as [Hz Hcase]. destruct (al_label _ _ _ _ _ _ HA u' Hu' Hl') as [Hz' Hcase'].
  assert (Hsame : lab (h_l g) u = lab (h_l g) u').
  { apply HD2; auto. apply (al_upto _ _ _ _ _ _ HA), Ju. exact HJ. }
  assert (Hnew : l_next (h_l g) <= lab (h_l g') u < l_next (h_l g')).
  { destruct Hcase as [Hold|(H & _)]; [|exact H]. exfalso.
    destruct Hcase' as [Hold'|(_ & (c' & Hc' & Hp) & _)]; [congruence|].
    destruct (co_inv0 _ _ _ _ _ _ _ _ (in_core _ _ _ _ _ _ _ _ (al_inv' _ _ _ _ _ _ HA))) as [w0 HC].
    pose proof (proj1 (ci_lab _ _ _ _ _ _ _ HC u Hu)) as Hlt.
    destruct (ci_c _ _ _ _ _ _ _ HC (lab (h_l g') u) ltac:(lia)) as (cp & Hcp & Hgd).
    rewrite <- Hsame, <- Hold in Hp.
    destruct (ic_dead _ _ _ _ _ _ (al_conn' _ _ _ _ _ _ HA) _ _ c' cp Hc' Hp Hcp) as [Hnum _].
    rewrite (cg_num _ _ _ _ _ _ _ _ Hgd) in Hnum.
    assert (Hin : In (lab (h_l g') u) (l_cur (h_l g'))).
    { rewrite lab_nth. apply nth_In. rewrite (ci_cur _ _ _ _ _ _ _ HC). exact Hu. }
    apply (count_occ_In Nat.eq_dec) in Hin. unfold cnt in Hnum. clear -Hin Hnum. apply Nat2Z.inj with (m := 0) in Hnum. change (count_occ Nat.eq_dec (l_cur (h_l g')) (lab (h_l g') u) = 0) in Hnum. rewrite Hnum in Hin. inversion Hin. }
  destruct (C30_cluster_tree n e0 e adj minPts compact fuel h HG Hcov Hm2 Hok) as (K & HK & _ & _ & Hall & _).
  assert (Hlk : 1 <= lab (h_l g') u <= K).
  { pose proof (moment_final n e adj minPts compact Hm2 k' g' gf Hg' Hgf) as Hlev.
    destruct (levels_path n m minPts e compact gtw Hn32 Hwf Hv gt_t Hgw Hm2 Hn1 (in_nan e Hnan) _ _ Hlev B' (al_inv' _ _ _ _ _ _ HA)) as (Bf & P).
    cbn [fst snd] in P. pose proof (pa_next _ _ _ _ _ _ _ _ _ _ _ P) as Hnx.
    destruct (co_inv0 _ _ _ _ _ _ _ _ (in_core _ _ _ _ _ _ _ _ (pa_inv _ _ _ _ _ _ _ _ _ _ _ P))) as [w1 HC1'].
    subst h. change (l_cs (h_l (hier_finish n gf))) with (l_cs (h_l gf)) in HK. rewrite (ci_cs _ _ _ _ _ _ _ HC1') in HK. lia. }
  destruct (Hall (lab (h_l g') u) Hlk) as (c & Hc & _).
  destruct (born_members k g k' g' B B' _ c HA Hg' Hnew Hc) as [Hbirth Hmem].
  exists (lab (h_l g') u), c. split.
  { destruct (co_inv0 _ _ _ _ _ _ _ _ (in_core _ _ _ _ _ _ _ _ (al_inv _ _ _ _ _ _ HA))) as [w0 HC]. pose proof (ci_next _ _ _ _ _ _ _ HC). lia. }
  split; [exact Hc|]. split; [rewrite Hbirth; exact Hqw|].
  intros v. rewrite Hmem, <- Jb. apply (label_component k g k' g' B B' u HA Hu Hl).
Qed.

(** The level at which a point becomes noise. *)
Lemma noise_split v w : v < n -> noise_level h v w -> many (upto w) minPts v /\ ~ many (below w) minPts v.
Proof.
  intros Hvn Hw. destruct (C26_noise_level_and_last_cluster n e0 e adj minPts compact fuel h HG Hcov Hm2 Hok) as [H _].
  destruct (H v Hvn) as (k & g & k' & g' & w' & l & c & M1 & M2 & M3 & M4 & L1 & L2 & L3 & N1 & _).
  unfold noise_level in *. rewrite Hw in N1. injection N1 as <-.
  destruct (level_facts k g k' g' M1 M2 M3) as (B & B' & HA).
  destruct (ic_conn _ _ _ _ _ _ (al_conn' _ _ _ _ _ _ HA)) as [HC1 _]. destruct (ic_conn _ _ _ _ _ _ (al_conn _ _ _ _ _ _ HA)) as [HD1 _].
  assert (Ew : w = ew e (k - 1)) by (symmetry; apply nth_error_nth; exact M4). subst w. split.
  - apply (many_ext (E e k)); [apply (al_upto _ _ _ _ _ _ HA)|]. apply HD1; [exact Hvn|]. rewrite (nth_error_nth _ _ _ L1). exact L2.
  - intros Hx. apply (many_ext (E e k')) in Hx; [|apply (al_below _ _ _ _ _ _ HA)]. apply HC1 in Hx; [|exact Hvn]. rewrite (nth_error_nth _ _ _ L3) in Hx. congruence.
Qed.
End Cond.

(** ** C63 *)
(** The clusters other than the root are, each once, the dense components that split off. *)
Theorem C63_clusters_are_the_dense_components_that_split_off :
  forall n e0 e adj minPts compact fuel h,
  graph_input n e0 e adj -> connects n e -> weights_sorted e -> 2 <= minPts <= n ->
  compute_hierarchy fuel e n adj minPts compact = Ok h ->
  let below := edge_below (triples e) in let splits_off := splits_off (edge_upto (triples e)) below minPts in
  (forall l c, 2 <= l -> cluster_at h l c ->
     exists u, u < n /\ splits_off (c_birth c) u /\ forall v, member h l v <-> joined (below (c_birth c)) u v) /\
  (forall w u, u < n -> splits_off w u ->
     exists l c, 2 <= l /\ cluster_at h l c /\ feq (c_birth c) w = true /\ forall v, member h l v <-> joined (below w) u v) /\
  (forall l c l' c', 2 <= l -> 2 <= l' -> cluster_at h l c -> cluster_at h l' c' ->
     (forall v, member h l v <-> member h l' v) -> l = l').
Proof.
  intros n e0 e adj minPts compact fuel h HG Hcon Hs Hm Hok below sp.
  pose proof (ok_nonan n e0 e adj HG minPts compact (proj1 Hm) fuel h Hok) as Hnan.
  pose proof (clusters_split n e0 e adj HG Hcon Hs minPts Hm compact Hnan fuel h Hok) as H1.
  split; [exact H1|]. split; [apply (splits_cluster n e0 e adj HG Hcon Hs minPts Hm compact Hnan fuel h Hok)|].
  assert (Hord : forall l c l' c', 2 <= l -> 2 <= l' -> cluster_at h l c -> cluster_at h l' c' ->
     (forall v, member h l v <-> member h l' v) -> flt (c_birth c') (c_birth c) = true -> False).
  { intros l c l' c' Hl Hl' Hc Hc' Hmem Hlt.
    destruct (H1 l c Hl Hc) as (u & Hu & _ & Hmu). destruct (H1 l' c' Hl' Hc') as (x & Hx & (_ & x' & J1 & J2 & _) & Hmx).
    apply J2. apply Hmx, Hmem, Hmu. apply rst_trans with x; [apply Hmu, Hmem, Hmx, rst_refl|].
    revert J1. apply joined_mono. intros a b (z & Hz & Hle). exists z. split; [exact Hz|].
    apply flt_true in Hlt. apply fle_true in Hle. destruct Hlt as (N1 & N2 & K1), Hle as (N3 & N4 & K2). apply flt_intro; auto. lia. }
  intros l c l' c' Hl Hl' Hc Hc' Hmem.
  destruct (flt (c_birth c') (c_birth c)) eqn:F1; [exfalso; eapply (Hord l c l' c'); eauto|].
  destruct (flt (c_birth c) (c_birth c')) eqn:F2; [exfalso; apply (Hord l' c' l c); auto; intros v; symmetry; apply Hmem|].
  assert (Hcov : covers n e) by (apply (connects_covers n e minPts Hm Hcon)).
  destruct (C29_hierarchy_entries n e0 e adj minPts compact fuel h HG Hcov Hs (proj1 Hm) Hok) as (mm & _ & _ & _ & _ & Hdec & _ & (w1 & Hone & _) & _ & Hin).
  assert (Hoff : forall l c, 2 <= l -> cluster_at h l c -> 1 <= c_offset c /\ exists ls', entry h (c_offset c) (c_birth c) ls').
  { intros k ck Hk Hck. destruct (C32_cluster_entry n e0 e adj minPts compact fuel h HG Hcov (proj1 Hm) Hok k ck Hck Hk) as (_ & _ & _ & _ & _ & _ & _ & _ & _ & _ & _ & _ & _ & _ & _ & Hent & _).
    split; [|exact Hent]. destruct (c_offset ck) as [|o] eqn:Eo; [exfalso|lia].
    destruct (H1 k ck Hk Hck) as (u & _ & _ & Hmu). destruct (proj2 (Hmu u) (rst_refl _ _ _)) as (c0 & w & ls & M1 & M2 & M3).
    unfold cluster_at, entry in *. rewrite Hck in M1. injection M1 as <-. rewrite Eo, Hone in M2. injection M2 as _ <-.
    apply nth_error_repeat_in in M3. lia. }
  destruct (Hoff l c Hl Hc) as (O1 & ls1 & O2). destruct (Hoff l' c' Hl' Hc') as (O3 & ls2 & O4).
  assert (Heq : c_offset c = c_offset c').
  { destruct (lt_eq_lt_dec (c_offset c) (c_offset c')) as [[Hlt|Heq]|Hlt]; [exfalso|exact Heq|exfalso].
    - pose proof (Hdec _ _ _ _ _ _ (conj O1 Hlt) O2 O4). congruence.
    - pose proof (Hdec _ _ _ _ _ _ (conj O3 Hlt) O4 O2). congruence. }
  destruct (H1 l c Hl Hc) as (u & _ & _ & Hmu). pose proof (proj2 (Hmu u) (rst_refl _ _ _)) as Hm1. pose proof (proj1 (Hmem u) Hm1) as Hm2.
  destruct Hm1 as (c0 & w & ls & M1 & M2 & M3). destruct Hm2 as (c0' & w' & ls' & M1' & M2' & M3').
  unfold cluster_at, entry in *. rewrite Hc in M1. injection M1 as <-. rewrite Hc' in M1'. injection M1' as <-.
  rewrite Heq, M2' in M2. injection M2 as <- <-. congruence.
Qed.
Print Assumptions C63_clusters_are_the_dense_components_that_split_off.

(** A point becomes noise at the level at which its component stops being dense. *)
Theorem C63_noise_levels :
  forall n e0 e adj minPts compact fuel h,
  graph_input n e0 e adj -> connects n e -> weights_sorted e -> 2 <= minPts <= n ->
  compute_hierarchy fuel e n adj minPts compact = Ok h ->
  forall v, v < n -> exists w, noise_level h v w /\ many (edge_upto (triples e) w) minPts v /\ ~ many (edge_below (triples e) w) minPts v.
Proof.
  intros n e0 e adj minPts compact fuel h HG Hcon Hs Hm Hok v Hv.
  pose proof (ok_nonan n e0 e adj HG minPts compact (proj1 Hm) fuel h Hok) as Hnan.
  destruct (C26_noise_level_and_last_cluster n e0 e adj minPts compact fuel h HG (connects_covers n e minPts Hm Hcon) (proj1 Hm) Hok) as [H _].
  destruct (H v Hv) as (k & g & k' & g' & w & l & c & M1 & M2 & M3 & M4 & L1 & L2 & L3 & N1 & _).
  exists w. split; [exact N1|]. apply (noise_split n e0 e adj HG Hcon Hs minPts Hm compact Hnan fuel h Hok v w Hv N1).
Qed.
Print Assumptions C63_noise_levels.

(** ** The hypotheses are met *)
(** By the six points 0, 1, 3, 10, 12, 15, whose hierarchy has the clusters 2 and 3 (see
    six_hierarchy in PropHier.v). *)
Example six_condensed : exists e0 adj e h, graph_input 6 e0 e adj /\ connects 6 e /\ weights_sorted e /\ 2 <= 2 <= 6 /\
  compute_hierarchy 11 e 6 adj 2 false = Ok h /\ exists c, cluster_at h 3 c.
Proof.
  assert (H : match (let! d := six_distance in let! e0 := construct_mst d 6 true in let! adj := graph_init 6 e0 in let! e := graph_quicksort_by_edge_weight e0 in
                     compute_hierarchy 11 e 6 adj 2 false) with
              | Ok h => match nth_error (l_cs (h_l h)) 3 with Some (Some _) => true | _ => false end | _ => false end = true) by (vm_compute; reflexivity).
  destruct six_hypotheses as (d & e0 & adj & e & Ed & HR & HB & E1 & E2 & E3 & HG & Hcov & Hcon & _ & Hs).
  rewrite Ed in H. cbn [bind] in H. rewrite E1 in H. cbn [bind] in H. rewrite E2 in H. cbn [bind] in H. rewrite E3 in H. cbn [bind] in H.
  destruct (compute_hierarchy 11 e 6 adj 2 false) as [h| | |] eqn:Eh; [|discriminate H|discriminate H|discriminate H].
  exists e0, adj, e, h. do 3 (split; [assumption|]). split; [lia|]. split; [exact Eh|].
  unfold cluster_at. destruct (nth_error (l_cs (h_l h)) 3) as [[c|]|]; [|discriminate H|discriminate H]. exists c. reflexivity.
Qed.
