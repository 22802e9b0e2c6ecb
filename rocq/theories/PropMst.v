(** Theorems C20-C22: the spanning tree built by hdbscan_construct_mst. *)
From Coq Require Import Permutation Relations Reals.
From Flocq Require Import Core IEEE754.BinarySingleNaN.
From Verif Require Import Base ListFacts F64 F64Facts ModelDistance ProofDistance ProofCore PropDistance
  ModelMst SpecGraph ProofMst.
From Coq Require Import Lia.
Local Open Scope nat_scope.

(** All distances and core distances of points [0..n-1] can be read. *)
Definition readable (d : distance) (n : nat) : Prop :=
  (forall i j, i < n -> j < n -> exists x, distance_get d (Z.of_nat i) (Z.of_nat j) = Ok x) /\
  (forall i, i < n -> exists x, nth_error (d_core d) i = Some (Some x)).

(** [m] is the mutual reachability distance of [u] and [v]: it is one of the distance and
    the two core distances, and none of them exceeds it. *)
Definition is_mutual_reach (d : distance) (u v : nat) (m : f64) : Prop :=
  exists x cu cv,
    distance_get d (Z.of_nat u) (Z.of_nat v) = Ok x /\
    nth_error (d_core d) u = Some (Some cu) /\ nth_error (d_core d) v = Some (Some cv) /\
    (m = x \/ m = cu \/ m = cv) /\
    flt m x = false /\ flt m cu = false /\ flt m cv = false.

(** Distinct points whose distance and core distances are all at most [eps]: their mutual
    reachability distance is at most [eps]. *)
Definition close (d : distance) (n : nat) (eps : f64) (u v : nat) : Prop :=
  u < n /\ v < n /\ u <> v /\
  exists x cu cv,
    distance_get d (Z.of_nat u) (Z.of_nat v) = Ok x /\
    nth_error (d_core d) u = Some (Some cu) /\ nth_error (d_core d) v = Some (Some cv) /\
    fle x eps = true /\ fle cu eps = true /\ fle cv eps = true.

(** Every distance of two points and every core distance is below D_MAX (and not NaN). *)
Definition below_max (d : distance) (n : nat) : Prop :=
  (forall i j x, i < n -> j < n -> distance_get d (Z.of_nat i) (Z.of_nat j) = Ok x -> flt x D_MAX = true) /\
  (forall i x, i < n -> nth_error (d_core d) i = Some (Some x) -> flt x D_MAX = true).

(** The edges as triples (verticesA[i], verticesB[i], edgeWeights[i]). *)
Definition triples (e : edges) : list (nat * nat * f64) := combine (combine (e_a e) (e_b e)) (e_w e).

Definition gval (d : distance) (i j : nat) : f64 := match dget d i j with Ok x => x | _ => fnan end.
Definition cval (d : distance) (i : nat) : f64 := match dcore d i with Ok x => x | _ => fnan end.

Lemma dget_val d n i j : readable d n -> i < n -> j < n -> dget d i j = Ok (gval d i j).
Proof. intros [H _] Hi Hj. unfold gval. destruct (H i j Hi Hj) as (x & E). unfold dget. now rewrite E. Qed.

Lemma dcore_nth d i x : dcore d i = Ok x <-> nth_error (d_core d) i = Some (Some x).
Proof.
  unfold dcore, zget. replace (Z.of_nat i <? 0)%Z with false by (symmetry; apply Z.ltb_ge; lia).
  rewrite Nat2Z.id. destruct (nth_error (d_core d) i) as [[y|]|]; split; intros H; try discriminate; congruence.
Qed.
Lemma dcore_val d n i : readable d n -> i < n -> dcore d i = Ok (cval d i).
Proof.
  intros [_ H] Hi. unfold cval. destruct (H i Hi) as (x & E). apply dcore_nth in E. now rewrite E.
Qed.
Lemma dget_sym d i j : dget d i j = dget d j i.
Proof.
  unfold dget, distance_get. destruct (Z.ltb_spec (Z.of_nat i) (Z.of_nat j)), (Z.ltb_spec (Z.of_nat j) (Z.of_nat i)); try lia; auto.
  - replace (Z.of_nat j =? Z.of_nat i)%Z with false by (symmetry; apply Z.eqb_neq; lia). auto.
  - replace (Z.of_nat i =? Z.of_nat j)%Z with false by (symmetry; apply Z.eqb_neq; lia). auto.
  - assert (Z.of_nat i = Z.of_nat j) as -> by lia. auto.
Qed.
Lemma gval_sym d i j : gval d i j = gval d j i.
Proof. unfold gval. now rewrite dget_sym. Qed.

Lemma triples_nth e i u v w m : length (e_a e) = m -> length (e_b e) = m -> length (e_w e) = m -> i < m ->
  nth_error (triples e) i = Some (u, v, w) <-> edge_at e i = (u, v, w).
Proof.
  intros Ha Hb Hw Hi. unfold triples, edge_at.
  assert (H : nth_error (combine (combine (e_a e) (e_b e)) (e_w e)) i = Some (nth i (e_a e) 0, nth i (e_b e) 0, nth i (e_w e) D_MAX)).
  { rewrite (nth_error_nth' _ ((0, 0), D_MAX)) by (rewrite !combine_length; lia).
    rewrite combine_nth by (rewrite combine_length; lia). rewrite combine_nth by lia. reflexivity. }
  rewrite H. split; intros E; congruence.
Qed.
Lemma triples_length e m : length (e_a e) = m -> length (e_b e) = m -> length (e_w e) = m -> length (triples e) = m.
Proof. intros. unfold triples. rewrite !combine_length. lia. Qed.

Lemma chain_own g c n D N A v : chain g c n D N A -> In v A -> v <> n - 1 ->
  exists A', own g c D N A' v /\ chain g c n D N A' /\ ~ In v A' /\ okD (D v).
Proof.
  induction A as [|a A IH]; [intros _ []|]. intros [[-> ->]|(Hc & Hni & Ha & Ho & _ & Hok)] Hv Hne.
  - destruct Hv as [<-|[]]; congruence.
  - destruct Hv as [<-|Hv]; [exists A; auto|auto].
Qed.

Lemma flt_false_self a : flt a a = false.
Proof.
  destruct (flt a a) eqn:E; auto. apply flt_true in E. exfalso. destruct E as (_ & _ & E). exact (Z.lt_irrefl _ E).
Qed.
Lemma flt_notflt_trans a b x : flt a b = true -> flt a x = false -> fisnan x = true \/ flt b x = false.
Proof.
  intros H1 H2. destruct (fisnan x) eqn:En; auto. right. apply flt_true in H1.
  rewrite flt_key in H2 by tauto. rewrite flt_key by tauto. apply Z.ltb_ge in H2. apply Z.ltb_ge.
  eapply Z.le_trans; [exact H2|]. apply Z.lt_le_incl, H1.
Qed.

(** The maximum computed by the code. *)
Lemma mutual_reach_spec x cu cv m : m = mutual_reach x cu cv -> fisnan m = false ->
  (m = x \/ m = cu \/ m = cv) /\ flt m x = false /\ flt m cu = false /\ flt m cv = false.
Proof.
  intros -> Hn. unfold mutual_reach, fgt in *. change (@Bltb 53 1024) with flt in *.
  destruct (flt x cu) eqn:E1.
  - destruct (flt cu cv) eqn:E2.
    + split; [auto|]. pose proof (flt_true _ _ E1). pose proof (flt_true _ _ E2).
      split; [|split; [|apply flt_false_self]].
      * apply flt_false; try tauto. apply Z.lt_le_incl. eapply Z.lt_trans; [apply H|apply H0].
      * apply flt_false; try tauto. apply Z.lt_le_incl, H0.
    + split; [auto|]. pose proof (flt_true _ _ E1). split; [|split; [apply flt_false_self|auto]].
      apply flt_false; try tauto. apply Z.lt_le_incl, H.
  - destruct (flt x cv) eqn:E2.
    + split; [auto|]. pose proof (flt_true _ _ E2). split; [|split; [|apply flt_false_self]].
      * apply flt_false; try tauto. apply Z.lt_le_incl, H.
      * destruct (fisnan cu) eqn:Ecu; [now apply flt_nan_r|].
        rewrite flt_key in E1 by tauto. apply Z.ltb_ge in E1. apply flt_false; try tauto.
        eapply Z.le_trans; [exact E1|]. apply Z.lt_le_incl, H.
    + split; [auto|]. split; [apply flt_false_self|auto].
Qed.

(** ** C20 *)
Theorem C20_spanning_tree_construction :
  forall d n, 1 <= n -> readable d n ->
  exists e, construct_mst d n true = Ok e /\
    length (e_a e) = 2 * n - 1 /\ length (e_b e) = 2 * n - 1 /\ length (e_w e) = 2 * n - 1 /\
    (* slot i < n-1: the edge that attached point i *)
    (forall i, i < n - 1 -> exists a w,
       nth_error (triples e) i = Some (a, i, w) /\ a < n /\ fle w D_MAX = true /\
       (is_mutual_reach d a i w /\ a <> i /\ flt w D_MAX = true \/ a = 0 /\ w = D_MAX)) /\
    (* slot n-1+v: the self edge of v *)
    (forall v, v < n -> exists cv,
       nth_error (d_core d) v = Some (Some cv) /\ nth_error (triples e) (n - 1 + v) = Some (v, v, cv)).
Proof.
  intros d n Hn HR. unfold construct_mst.
  destruct (mst_edges_ok (dget d) (dcore d) (gval d) (cval d) n Hn) as
    (e & A & E & Ha & Hb & Hw & Hbi & Hself & HAl & HAin & D & N & Hch & HDN).
  { intros. eapply dget_val; eauto. }
  { intros. eapply dcore_val; eauto. }
  exists e. split; [exact E|]. split; [lia|]. split; [lia|]. split; [lia|]. split.
  - intros i Hi. exists (nth i (e_a e) 0), (nth i (e_w e) D_MAX).
    split; [apply (triples_nth e i _ _ _ (n - 1 + n)); auto; [lia|]; unfold edge_at; rewrite (Hbi i Hi); reflexivity|].
    destruct (HDN i Hi) as [ED EN]. rewrite <- ED, <- EN.
    destruct (chain_own _ _ _ _ _ _ i Hch) as (A' & Hown & Hch' & Hni & Hok); [apply HAin; lia|lia|].
    destruct Hok as [Hnn Hkk].
    assert (Hle : fle (D i) D_MAX = true) by (apply fle_intro; [exact Hnn|apply D_MAX_notnan|exact Hkk]).
    destruct Hown as [[HD HN]|(Hin & HD & Hlt)].
    + rewrite HN. split; [lia|]. split; [auto|]. right. auto.
    + assert (HNn : N i < n).
      { pose proof (chain_lt (gval d) (cval d) n n Hn ltac:(lia) D N A' Hch') as HF. rewrite Forall_forall in HF. auto. }
      split; [auto|]. split; [auto|]. left.
      split; [|split; [intros Heq; apply Hni; rewrite <- Heq; exact Hin|auto]].
      exists (gval d (N i) i), (cval d (N i)), (cval d i).
      split; [apply (dget_val d n); auto; lia|].
      split; [apply dcore_nth; apply (dcore_val d n); auto|].
      split; [apply dcore_nth; apply (dcore_val d n); auto; lia|].
      apply mutual_reach_spec; [|exact Hnn]. rewrite HD. unfold W. now rewrite gval_sym.
  - intros v Hv. exists (cval d v). split; [apply dcore_nth; eapply dcore_val; eauto|].
    apply (triples_nth e _ _ _ _ (n - 1 + n)); auto. lia.
Qed.
Print Assumptions C20_spanning_tree_construction.

(** ** C21 *)
Lemma W_within d n eps u v : readable d n -> below_max d n -> u < n -> v < n -> u <> v ->
  notnan eps ->
  fle (W (gval d) (cval d) u v) eps = true <-> close d n eps u v.
Proof.
  intros HR [HB HC] Hu Hv Hne He.
  pose proof (dget_val d n u v HR Hu Hv) as Eg. pose proof (dcore_val d n u HR Hu) as Eu. pose proof (dcore_val d n v HR Hv) as Ev.
  pose proof Eu as Eu'. pose proof Ev as Ev'. apply dcore_nth in Eu', Ev'.
  pose proof (flt_true _ _ (HB u v _ Hu Hv Eg)) as (Hgn & _ & Hgk).
  pose proof (flt_true _ _ (HC u _ Hu Eu')) as (Hun & _ & Huk).
  pose proof (flt_true _ _ (HC v _ Hv Ev')) as (Hvn & _ & Hvk).
  assert (HWn : notnan (W (gval d) (cval d) u v)).
  { unfold W. rewrite (gval_sym d v u). unfold mutual_reach. destruct (fgt (cval d u) (gval d u v)); destruct (fgt (cval d v) _); auto. }
  destruct (mutual_reach_spec (gval d u v) (cval d u) (cval d v) (W (gval d) (cval d) u v)) as (Hone & H1 & H2 & H3).
  { unfold W. now rewrite (gval_sym d v u). }
  { exact HWn. }
  rewrite flt_key in H1, H2, H3 by auto. apply Z.ltb_ge in H1, H2, H3.
  split.
  - intros Hle. apply fle_true in Hle. destruct Hle as (_ & _ & Hle).
    split; [auto|]. split; [auto|]. split; [auto|]. exists (gval d u v), (cval d u), (cval d v).
    split; [exact Eg|]. split; [auto|]. split; [auto|].
    split; [|split]; apply fle_intro; auto; (eapply Z.le_trans; [eassumption|exact Hle]).
  - intros (_ & _ & _ & x & cu & cv & Ex & Ecu & Ecv & L1 & L2 & L3).
    unfold dget in Eg. rewrite Eg in Ex. rewrite Eu' in Ecu. rewrite Ev' in Ecv.
    injection Ex as <-. injection Ecu as <-. injection Ecv as <-.
    destruct Hone as [->|[->| ->]]; auto.
Qed.

Lemma W_sym d n u v : readable d n -> below_max d n -> u < n -> v < n -> u <> v ->
  feq (W (gval d) (cval d) u v) (W (gval d) (cval d) v u) = true.
Proof.
  intros HR [HB HC] Hu Hv Hne.
  pose proof (dget_val d n u v HR Hu Hv) as Eg. pose proof (dcore_val d n u HR Hu) as Eu. pose proof (dcore_val d n v HR Hv) as Ev.
  apply dcore_nth in Eu, Ev.
  pose proof (flt_true _ _ (HB u v _ Hu Hv Eg)) as (Hgn & _ & Hgk).
  pose proof (flt_true _ _ (HC u _ Hu Eu)) as (Hun & _ & Huk).
  pose proof (flt_true _ _ (HC v _ Hv Ev)) as (Hvn & _ & Hvk).
  unfold W. rewrite (gval_sym d v u).
  set (x := gval d u v) in *. set (a := cval d u) in *. set (b := cval d v) in *. clearbody x a b.
  assert (Hn : forall p q, notnan p -> notnan q -> notnan (mutual_reach x p q)).
  { intros p q Hp Hq. unfold mutual_reach. destruct (fgt p x); destruct (fgt q _); auto. }
  destruct (mutual_reach_spec x a b _ eq_refl (Hn a b Hun Hvn)) as (O1 & A1 & A2 & A3).
  destruct (mutual_reach_spec x b a _ eq_refl (Hn b a Hvn Hun)) as (O2 & B1 & B2 & B3).
  pose proof (Hn a b Hun Hvn) as N1. pose proof (Hn b a Hvn Hun) as N2.
  rewrite flt_key in A1, A2, A3, B1, B2, B3 by auto. apply Z.ltb_ge in A1, A2, A3, B1, B2, B3.
  apply feq_intro; auto. apply Z.le_antisymm.
  - destruct O1 as [->|[->| ->]]; assumption.
  - destruct O2 as [->|[->| ->]]; assumption.
Qed.

Lemma joined_map (R S : nat -> nat -> Prop) : (forall u v, R u v -> joined S u v) ->
  forall u v, joined R u v -> joined S u v.
Proof.
  intros H u v. induction 1 as [u v HR|u|u v _ IH|u v w _ IH1 _ IH2].
  - auto.
  - apply rst_refl.
  - now apply rst_sym.
  - eapply rst_trans; eauto.
Qed.

Theorem C21_tree_preserves_density_connectivity :
  forall d n, 1 <= n -> readable d n -> below_max d n ->
  exists e, construct_mst d n true = Ok e /\
    (forall eps u v, fisnan eps = false ->
       joined (close d n eps) u v <-> joined (edge_upto (firstn (n - 1) (triples e)) eps) u v) /\
    (* all points are connected by the n-1 tree edges *)
    (forall u v, u < n -> v < n -> joined (edge_upto (firstn (n - 1) (triples e)) D_MAX) u v).
Proof.
  intros d n Hn HR HB. unfold construct_mst.
  destruct (mst_edges_ok (dget d) (dcore d) (gval d) (cval d) n Hn) as
    (e & A & E & Ha & Hb & Hw & Hbi & Hself & HAl & HAin & D & N & Hch & HDN).
  { intros. eapply dget_val; eauto. }
  { intros. eapply dcore_val; eauto. }
  exists e. split; [exact E|].
  assert (Hslot : forall v, v < n - 1 -> In (N v, v, D v) (firstn (n - 1) (triples e))).
  { intros v Hv. apply (nth_error_In _ v). rewrite nth_error_firstn.
    replace (v <? n - 1) with true by (symmetry; now apply Nat.ltb_lt).
    apply (triples_nth e v _ _ _ (n - 1 + n)); auto; [lia|]. unfold edge_at. destruct (HDN v Hv) as [-> ->].
    now rewrite (Hbi v Hv). }
  assert (Hslot' : forall u v w, In (u, v, w) (firstn (n - 1) (triples e)) -> v < n - 1 /\ u = N v /\ w = D v).
  { intros u v w Hin. apply In_nth_error in Hin. destruct Hin as (i & Hi). rewrite nth_error_firstn in Hi.
    destruct (Nat.ltb_spec i (n - 1)); [|discriminate].
    apply (triples_nth e i _ _ _ (n - 1 + n)) in Hi; auto; [|lia]. unfold edge_at in Hi. injection Hi as H1 H2 H3.
    rewrite (Hbi i) in H2 by auto. subst i. destruct (HDN v H) as [-> ->]. auto. }
  assert (HWmax : forall u v, u < n -> v < n -> u <> v -> flt (W (gval d) (cval d) u v) D_MAX = true).
  { intros u v Hu Hv Hne. destruct HB as [HB1 HB2].
    pose proof (dget_val d n v u HR Hv Hu) as Eg. pose proof (dcore_val d n u HR Hu) as Eu. pose proof (dcore_val d n v HR Hv) as Ev.
    apply dcore_nth in Eu, Ev. unfold W, mutual_reach.
    destruct (fgt (cval d u) _); destruct (fgt (cval d v) _); eauto. }
  assert (Hthr : forall eps u v, fisnan eps = false ->
       joined (close d n eps) u v <-> joined (edge_upto (firstn (n - 1) (triples e)) eps) u v).
  { intros eps u v Heps. split; apply joined_map; clear u v; intros u v.
    - intros Hcl. pose proof Hcl as (Hu & Hv & Hne & _).
      apply (W_within d n eps u v HR HB Hu Hv Hne Heps) in Hcl.
      pose proof (near_conn (gval d) (cval d) n n Hn ltac:(lia) D N eps Heps HWmax) as Hc.
      specialize (Hc ltac:(intros; apply (W_sym d n); auto) A Hch u v (HAin u Hu) (HAin v Hv) Hne Hcl).
      revert Hc. apply joined_map. intros p q (Hq & -> & Hle). apply rst_step. exists (D q). auto.
    - intros (w & Hin & Hle). apply Hslot' in Hin. destruct Hin as (Hv & -> & ->).
      destruct (chain_own _ _ _ _ _ _ v Hch) as (A' & Hown & Hch' & Hni & Hok); [apply HAin; lia|lia|].
      assert (HF : forall x, In x A' -> x < n).
      { pose proof (chain_lt (gval d) (cval d) n n Hn ltac:(lia) D N A' Hch') as HF. rewrite Forall_forall in HF. auto. }
      destruct Hown as [[HD HN]|(Hin & HD & Hlt)].
      + (* the edge is a real one: D_MAX would contradict the bound *)
        exfalso. destruct (chain_own _ _ _ _ _ _ v Hch) as (A2 & Hown2 & Hch2 & Hni2 & Hok2); [apply HAin; lia|lia|].
        assert (Hin2 : exists B, chain (gval d) (cval d) n D N (v :: B) /\ B <> []).
        { clear - Hch HAin Hv Hn. assert (Hin : In v A) by (apply HAin; lia). clear HAin. revert Hin Hch.
          induction A as [|a A IH]; [intros []|]. intros [->|Hin] Hch.
          - exists A. split; auto. destruct Hch as [[-> ->]|(Hc & _)]; [lia|]. intros ->. contradiction.
          - destruct Hch as [[-> _]|(Hc & _)]; [contradiction|]. auto. }
        destruct Hin2 as (B & HchB & HB0).
        destruct (attach_edge (gval d) (cval d) n n Hn ltac:(lia) D N HWmax B v HchB HB0) as (HinB & HDB & _ & HniB & _).
        assert (HNB : N v < n).
        { destruct HchB as [[-> _]|(HcB & _)]; [contradiction|].
          pose proof (chain_lt (gval d) (cval d) n n Hn ltac:(lia) D N B HcB) as HF2. rewrite Forall_forall in HF2. auto. }
        assert (flt (D v) D_MAX = true) as Hlt.
        { rewrite HDB. apply HWmax; auto; [lia|]. intros Heq. apply HniB. rewrite <- Heq at 1. exact HinB. }
        rewrite HD in Hlt. rewrite flt_false_self in Hlt. discriminate.
      + apply rst_step. apply (W_within d n eps (N v) v HR HB); auto; try lia.
        * intros Heq. apply Hni. rewrite <- Heq. exact Hin.
        * now rewrite <- HD. }
  split; [exact Hthr|].
  intros u v Hu Hv. apply Hthr; [reflexivity|]. destruct (Nat.eq_dec u v) as [->|Hne]; [apply rst_refl|].
  apply rst_step. apply (W_within d n D_MAX u v HR HB); auto; [reflexivity|].
  pose proof (flt_true _ _ (HWmax u v Hu Hv Hne)) as (Hn1 & _ & Hk). apply fle_intro; auto; [reflexivity|].
  apply Z.lt_le_incl. exact Hk.
Qed.
Print Assumptions C21_tree_preserves_density_connectivity.

(** ** C22 *)
Theorem C22_no_finite_reachability_no_tree :
  forall d n, 2 <= n -> readable d n ->
  (forall i, i < n -> nth_error (d_core d) i = Some (Some D_MAX)) ->
  exists e, construct_mst d n true = Ok e /\
    (forall i, i < n - 1 -> nth_error (triples e) i = Some (0, i, D_MAX)) /\
    (forall v, joined (fun a b => exists w, In (a, b, w) (triples e)) (n - 1) v -> v = n - 1).
Proof.
  intros d n Hn HR HC. unfold construct_mst.
  destruct (mst_edges_ok (dget d) (dcore d) (gval d) (cval d) n ltac:(lia)) as
    (e & A & E & Ha & Hb & Hw & Hbi & Hself & HAl & HAin & D & N & Hch & HDN).
  { intros. eapply dget_val; eauto. }
  { intros. eapply dcore_val; eauto. }
  exists e. split; [exact E|].
  assert (Hc : forall i, i < n -> cval d i = D_MAX).
  { intros i Hi. pose proof (HC i Hi) as H. apply dcore_nth in H. unfold cval. now rewrite H. }
  assert (Htree : forall i, i < n - 1 -> edge_at e i = (0, i, D_MAX)).
  { intros i Hi. unfold edge_at. rewrite (Hbi i Hi). destruct (HDN i Hi) as [<- <-].
    destruct (chain_own _ _ _ _ _ _ i Hch) as (A' & Hown & Hch' & Hni & Hok); [apply HAin; lia|lia|].
    destruct Hown as [[-> ->]|(Hin & HD & Hlt)]; auto. exfalso.
    assert (HNn : N i < n).
    { pose proof (chain_lt (gval d) (cval d) n n ltac:(lia) ltac:(lia) D N A' Hch') as HF. rewrite Forall_forall in HF. auto. }
    rewrite HD in Hlt. unfold W in Hlt. rewrite (Hc (N i)), (Hc i) in Hlt by lia.
    pose proof (flt_true _ _ Hlt) as (Hnn & _ & _).
    destruct (mutual_reach_spec (gval d i (N i)) D_MAX D_MAX _ eq_refl Hnn) as (_ & _ & Hm & _). congruence. }
  split. { intros i Hi. apply (triples_nth e i _ _ _ (n - 1 + n)); auto. lia. }
  assert (Hiso : forall a b w, In (a, b, w) (triples e) -> a = n - 1 \/ b = n - 1 -> a = b).
  { intros a b w Hin Hor. apply In_nth_error in Hin. destruct Hin as (i & Hi).
    assert (Hil : i < n - 1 + n).
    { rewrite <- (triples_length e (n - 1 + n)) by auto. apply nth_error_Some. congruence. }
    apply (triples_nth e i _ _ _ (n - 1 + n)) in Hi; auto.
    destruct (Nat.lt_ge_cases i (n - 1)) as [Hlo|Hhi].
    - rewrite (Htree i Hlo) in Hi. injection Hi as <- <- <-. lia.
    - replace i with (n - 1 + (i - (n - 1))) in Hi by lia. rewrite Hself in Hi by lia. congruence. }
  assert (Hgen : forall u v, joined (fun a b => exists w, In (a, b, w) (triples e)) u v -> u = n - 1 <-> v = n - 1).
  { induction 1 as [u v (w & Hin)|u|u v _ IH|u v w _ IH1 _ IH2].
    - split; intros Hx; [rewrite <- (Hiso u v w Hin)|rewrite (Hiso u v w Hin)]; auto.
    - reflexivity.
    - now symmetry.
    - now rewrite IH1. }
  intros v Hv. now apply (Hgen _ _ Hv).
Qed.
Print Assumptions C22_no_finite_reachability_no_tree.

(** More neighbours requested than there are points (minPoints = k + 1 > rows). *)
Theorem C22_min_points_exceeds_rows :
  forall d n, complete d -> d_rows d = Z.of_nat n -> (Z.of_nat n <= d_k d < M32 - 1)%Z -> 2 <= n ->
  exists d' e, distance_get_core_distances d = Ok d' /\
    construct_mst d' n true = Ok e /\
    (forall i, i < n -> nth_error (d_core d') i = Some (Some D_MAX)) /\
    (forall v, joined (fun a b => exists w, In (a, b, w) (triples e)) (n - 1) v -> v = n - 1).
Proof.
  intros d n HC Hr Hk Hn.
  assert (Hbs : buf_size (d_k d) = Z.to_nat (d_k d + 1)) by (unfold buf_size, u32; rewrite Z.mod_small; lia).
  assert (Hrn : Z.to_nat (d_rows d) = n) by lia.
  assert (Hcore : forall i, i < n -> core_of d i = Ok D_MAX).
  { intros i Hi. rewrite (core_of_row d i (fun j => gval d i j)).
    - apply core_row_few. rewrite map_length, seq_length, Hrn, Hbs. lia.
    - intros j Hj. rewrite Hrn in Hj. unfold gval, dget.
      destruct (proj2 HC (Z.of_nat i) (Z.of_nat j)) as (v & ->); auto; lia.
    - rewrite Hbs. lia. }
  pose proof (core_array d (fun _ => D_MAX) (proj1 HC)) as E. rewrite Hrn in E. specialize (E Hcore).
  set (d' := mk_distance _ _ _ _ _) in E.
  assert (HD : forall i, i < n -> nth_error (d_core d') i = Some (Some D_MAX)).
  { intros i Hi. cbn [d' d_core]. rewrite (map_nth_error (fun _ => Some D_MAX) i (seq 0 n) (d := i)); auto.
    rewrite (nth_error_nth' _ 0) by (rewrite seq_length; lia). now rewrite seq_nth. }
  assert (HR : readable d' n).
  { split.
    - intros i j Hi Hj. apply (proj2 HC); lia.
    - intros i Hi. rewrite HD by auto. eauto. }
  destruct (C22_no_finite_reachability_no_tree d' n Hn HR HD) as (e & Ee & _ & Hiso).
  exists d', e. auto.
Qed.
Print Assumptions C22_min_points_exceeds_rows.

(** ** The part of C19 about the spanning tree arrays *)
Theorem C19_no_self_edges_refuted :
  forall d n, 2 <= n -> readable d n -> construct_mst d n false = UB.
Proof.
  intros d n Hn HR. unfold construct_mst.
  apply (mst_edges_noself _ _ (gval d) (cval d)); auto; intros; [eapply dget_val|eapply dcore_val]; eauto.
Qed.
Print Assumptions C19_no_self_edges_refuted.

(** ** Examples *)
(** Five points 0, 1, 3, 10, 12 on a line with minPoints = 2. *)
Definition line5 : res distance := distance_compute (DDouble (map f_of_Z [0; 1; 3; 10; 12]%Z)) 5 1 1.
Example line5_tree :
  (let! d := line5 in let! e := construct_mst d 5 true in Ok (e_a e, e_b e, map fkey (e_w e))) =
  Ok ([1; 2; 3; 4; 0; 1; 2; 3; 4], [0; 1; 2; 3; 0; 1; 2; 3; 4],
      map fkey (map f_of_Z [1; 2; 7; 2; 1; 1; 2; 2; 2]%Z)).
Proof. vm_compute. reflexivity. Qed.

(** The hypotheses checked by computation. *)
Definition ready_check (d : distance) (n : nat) : bool :=
  forallb (fun i => forallb (fun j =>
    match distance_get d (Z.of_nat i) (Z.of_nat j) with Ok x => flt x D_MAX | _ => false end) (seq 0 n)) (seq 0 n) &&
  forallb (fun i => match nth_error (d_core d) i with Some (Some x) => flt x D_MAX | _ => false end) (seq 0 n).
Lemma ready_check_ok d n : ready_check d n = true -> readable d n /\ below_max d n.
Proof.
  unfold ready_check. rewrite Bool.andb_true_iff, !forallb_forall. intros [H1 H2].
  assert (G : forall i j, i < n -> j < n -> exists x, distance_get d (Z.of_nat i) (Z.of_nat j) = Ok x /\ flt x D_MAX = true).
  { intros i j Hi Hj. specialize (H1 i (proj2 (in_seq n 0 i) ltac:(lia))). rewrite forallb_forall in H1.
    specialize (H1 j (proj2 (in_seq n 0 j) ltac:(lia))).
    destruct (distance_get d (Z.of_nat i) (Z.of_nat j)); try discriminate. eauto. }
  assert (G2 : forall i, i < n -> exists x, nth_error (d_core d) i = Some (Some x) /\ flt x D_MAX = true).
  { intros i Hi. specialize (H2 i (proj2 (in_seq n 0 i) ltac:(lia))).
    destruct (nth_error (d_core d) i) as [[x|]|]; try discriminate. eauto. }
  split; split.
  - intros i j Hi Hj. destruct (G i j Hi Hj) as (x & E & _). eauto.
  - intros i Hi. destruct (G2 i Hi) as (x & E & _). eauto.
  - intros i j x Hi Hj E. destruct (G i j Hi Hj) as (y & E' & Hy). congruence.
  - intros i x Hi E. destruct (G2 i Hi) as (y & E' & Hy). congruence.
Qed.
Example line5_hypotheses : exists d, line5 = Ok d /\ readable d 5 /\ below_max d 5.
Proof.
  assert (H : match line5 with Ok d => ready_check d 5 | _ => false end = true) by (vm_compute; reflexivity).
  destruct line5 as [d| | |]; try discriminate. exists d. split; auto. now apply ready_check_ok.
Qed.

(** The same points with minPoints = 7: no tree. *)
Example line5_too_few :
  (let! d := distance_compute (DDouble (map f_of_Z [0; 1; 3; 10; 12]%Z)) 5 1 6 in
   let! e := construct_mst d 5 true in Ok (e_a e, e_b e, map (fun w => feq w D_MAX) (e_w e))) =
  Ok ([0; 0; 0; 0; 0; 1; 2; 3; 4], [0; 1; 2; 3; 0; 1; 2; 3; 4], repeat true 9) /\
  (let! d := line5 in construct_mst d 5 false) = UB.
Proof. split; vm_compute; reflexivity. Qed.
