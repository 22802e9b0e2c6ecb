(** C74: the hierarchy depends only on the order of the distances. *)
From Coq Require Import Permutation Sorted Relations.
From Flocq Require Import IEEE754.BinarySingleNaN.
From Verif Require Import Base F64 F64Facts F64Arith ListFacts ModelUtils ModelDistance ModelMst ModelGraph ModelCluster ModelHier ModelSelect ModelRun SpecGraph SpecHier SpecTree SpecMain
  PropUtils ProofDistance PropDistance PropMst PropGraph PropHier ProofSelect ProofTreeSel PropSelect PropOutlier ProofRun PropRun ProofSim ProofPair.
From Coq Require Import ZifyBool ZifyNat.
Local Open Scope nat_scope.

(** ** Specification *)

(** The distance between rows [i] and [j]. *)
Definition gap (ds : dataset) (cols i j : nat) : f64 :=
  if i =? j then fzero else if i <? j then euclidean ds cols i j else euclidean ds cols j i.
(** Two distances compare in the same way in both datasets. *)
Definition same_order (ds : dataset) (cols : nat) (ds' : dataset) (cols' rows : nat) : Prop :=
  forall i j k l, i < rows -> j < rows -> k < rows -> l < rows ->
    flt (gap ds cols i j) (gap ds cols k l) = flt (gap ds' cols' i j) (gap ds' cols' k l).
(** [x] and [x'] are the distances between the same two rows. *)
Definition same_pair (ds : dataset) (cols : nat) (ds' : dataset) (cols' rows : nat) (x x' : f64) : Prop :=
  exists i j, i < rows /\ j < rows /\ x = gap ds cols i j /\ x' = gap ds' cols' i j.

(** ** Proofs *)
Lemma gap_below ds cols rows i j : (forall i j, i < j -> j < rows -> flt (euclidean ds cols i j) D_MAX = true) -> i < rows -> j < rows -> flt (gap ds cols i j) D_MAX = true.
Proof. intros H Hi Hj. unfold gap. destruct (Nat.eqb_spec i j); [reflexivity|]. destruct (Nat.ltb_spec i j); apply H; lia. Qed.
Lemma by_lt x y : notnan x -> notnan y -> fle x y = negb (flt y x) /\ feq x y = negb (flt x y) && negb (flt y x).
Proof. intros A B. rewrite (fle_key x y), (feq_key x y), (flt_key x y), (flt_key y x) by assumption. clear. lia. Qed.
Lemma order_cmp ds cols ds' cols' rows : same_order ds cols ds' cols' rows ->
  (forall i j, i < j -> j < rows -> flt (euclidean ds cols i j) D_MAX = true) -> (forall i j, i < j -> j < rows -> flt (euclidean ds' cols' i j) D_MAX = true) ->
  same_cmp (fun x x' => same_pair ds cols ds' cols' rows x x' \/ x = D_MAX /\ x' = D_MAX).
Proof.
  intros HO H1 H2.
  assert (A : forall x x', same_pair ds cols ds' cols' rows x x' \/ x = D_MAX /\ x' = D_MAX -> notnan x /\ notnan x').
  { intros x x' [(i & j & Hi & Hj & -> & ->)|[-> ->]]; [|split; reflexivity]. pose proof (flt_true _ _ (gap_below ds cols rows i j H1 Hi Hj)). pose proof (flt_true _ _ (gap_below ds' cols' rows i j H2 Hi Hj)). tauto. }
  assert (B : forall x x' y y', same_pair ds cols ds' cols' rows x x' \/ x = D_MAX /\ x' = D_MAX -> same_pair ds cols ds' cols' rows y y' \/ y = D_MAX /\ y' = D_MAX -> flt x y = flt x' y').
  { intros x x' y y' [(i & j & Hi & Hj & -> & ->)|[-> ->]] [(k & l & Hk & Hl & -> & ->)|[-> ->]]; [apply HO; assumption| | |reflexivity].
    - rewrite (gap_below ds cols rows i j H1 Hi Hj), (gap_below ds' cols' rows i j H2 Hi Hj). reflexivity.
    - pose proof (gap_below ds cols rows k l H1 Hk Hl) as G1. pose proof (gap_below ds' cols' rows k l H2 Hk Hl) as G2. apply flt_true in G1, G2. rewrite !flt_key by tauto. clear -G1 G2. lia. }
  intros x x' y y' Hx Hy. split; [apply B; assumption|]. destruct (A x x' Hx) as [Nx Nx'], (A y y' Hy) as [Ny Ny']. destruct (by_lt x y Nx Ny) as [-> ->], (by_lt x' y' Nx' Ny') as [-> ->].
  rewrite (B x x' y y' Hx Hy), (B y y' x x' Hy Hx). split; reflexivity.
Qed.

(** ** C74.  When the distances of two datasets (of any types and widths) are ordered in the
    same way, the runs build the same hierarchy: the same clusters with the same points and the
    same tables of labels.  Each level of one run is the distance between the same two rows as
    in the other run, and so are the core distances. *)
Theorem C74_hierarchy_depends_on_order_only : forall ds ds' rows cols cols' minPts fuel s s' qsort qsort',
  5 <= rows -> (Z.of_nat rows <= 65536)%Z -> holds ds rows cols -> holds ds' rows cols' -> 2 <= minPts <= rows ->
  (forall i j, i < j -> j < rows -> flt (euclidean ds cols i j) D_MAX = true) -> (forall i j, i < j -> j < rows -> flt (euclidean ds' cols' i j) D_MAX = true) ->
  2 * rows - 1 <= fuel -> valid s -> valid s' -> sorts qsort -> sorts qsort' ->
  same_order ds cols ds' cols' rows ->
  exists d d' o o' r r',
    fresh_run fuel s qsort (Z.of_nat minPts) ds rows cols true = Ok o /\ o_res o = Some r /\ o_dist o = Some d /\
    fresh_run fuel s' qsort' (Z.of_nat minPts) ds' rows cols' true = Ok o' /\ o_res o' = Some r' /\ o_dist o' = Some d' /\
    (forall v, v < rows -> exists x x', nth_error (d_core d) v = Some (Some x) /\ nth_error (d_core d') v = Some (Some x') /\ same_pair ds cols ds' cols' rows x x') /\
    length (r_clusters r') = length (r_clusters r) /\
    (forall k c, cluster_in (r_clusters r) k c -> exists c', cluster_in (r_clusters r') k c' /\ c_label c' = c_label c /\ c_parent c' = c_parent c /\
       (2 <= k -> same_pair ds cols ds' cols' rows (c_birth c) (c_birth c')) /\ same_pair ds cols ds' cols' rows (c_death c) (c_death c')) /\
    (forall k v, point_of r k v <-> point_of r' k v) /\
    (forall key, match hget (r_hier r) key, hget (r_hier r') key with
       | Some (w, ls), Some (w', ls') => ls = ls' /\ same_pair ds cols ds' cols' rows w w'
       | None, None => True
       | _, _ => False
       end).
Proof.
  intros ds ds' rows cols cols' m fuel s s' q q' Hr1 Hr HL HL' Hm Hfin Hfin' Hf Hs Hs' Hq Hq' HO.
  set (SP := same_pair ds cols ds' cols' rows). set (W := fun x x' => SP x x' \/ x = D_MAX /\ x' = D_MAX).
  assert (HWz : W fzero fzero) by (left; exists 0, 0; split; [lia|]; split; [lia|]; split; reflexivity).
  destruct (paired_runs W ds ds' rows cols cols' m fuel) as (d & d' & P & P' & Ed & Ed' & HD & HB & HB' & HR & HR' & HH & H1 & H2); try assumption.
  { apply order_cmp; assumption. } { right; split; reflexivity. }
  { intros i j Hi Hj. left. exists i, j. split; [lia|]. split; [lia|]. unfold gap. replace (i =? j) with false by lia. replace (i <? j) with true by lia. split; reflexivity. }
  destruct (H1 s q Hs Hq) as (labels & os & E & _). destruct (H2 s' q' Hs' Hq') as (labels' & os' & E' & _). clear H1 H2.
  specialize (HH (fun _ _ => True) I (fun _ _ _ _ _ _ _ _ _ _ _ => I)).
  exists d, d'. do 4 eexists. split; [exact E|]. split; [reflexivity|]. split; [reflexivity|]. split; [exact E'|]. split; [reflexivity|]. split; [reflexivity|]. clear E E'. cbn [r_clusters r_hier].
  assert (HLev : forall x x', Lev W x x' -> SP x x') by (intros x x' [[H|[-> _]] [H0 _]]; [exact H|discriminate H0]).
  destruct (clusters_r d d' rows m fuel P P' _ _ (proj1 Hm) HH) as (_ & HT & HT' & _ & _ & HRc & g & g' & G1 & G2 & S1 & S2 & _). cbn zeta in *.
  pose proof (st_stat _ _ _ _ S1) as Z1. pose proof (st_stat _ _ _ _ S2) as Z2. split; [|split; [|split; [|split]]].
  - intros v Hv. destruct HD as (_ & _ & _ & HD). destruct HR as [_ HR]. destruct (HR v Hv) as (x & Hx). pose proof (F2_nth _ _ _ v HD) as X. rewrite Hx in X.
    destruct (nth_error (d_core d') v) as [[x'|]|] eqn:Ex; try contradiction. cbn in X. exists x, x'. split; [exact Hx|]. split; [reflexivity|]. apply HLev. split; [exact X|]. split; [eapply HB; eauto|eapply HB'; eauto].
  - rewrite (proj1 G1), (proj1 G2). reflexivity.
  - intros k c Hc. apply (rep_in _ _ _ _ _ G1) in Hc. destruct Hc as [Hk ->]. exists (g' k). split; [apply (rep_in _ _ _ _ _ G2); auto|]. pose proof (Z1 k Hk) as Q1. pose proof (Z2 k Hk) as Q2.
    assert (Hat : cluster_at (p_h _ _ _ _ P) k (g0 (l_cs (h_l (p_h _ _ _ _ P))) k)) by (apply (tr_in _ _ HT); auto).
    pose proof (fun Hk2 => births_real d rows m fuel P k _ (proj1 Hm) Hk2 Hat) as HN. specialize (HRc k Hk).
    pose proof (f_equal c_birth Q1) as B1. pose proof (f_equal c_birth Q2) as B2. apply statics_eq in Q1, Q2. cbn in B1, B2.
    destruct Q1 as (L1 & D1 & _ & A1 & _), Q2 as (L2 & D2 & _ & A2 & _). rewrite L1, D1, A1, B1, L2, D2, A2, B2.
    revert HN. destruct HRc as [lab b b' de de' nu of st st' pl nc pnc vi pa des ki XB XD XS]. cbn. intros HN.
    split; [reflexivity|]. split; [reflexivity|]. split; [|apply HLev; exact XD]. intros Hk2. destruct XB as [XB|[-> _]]; [apply HLev; exact XB|]. discriminate (HN Hk2).
  - intros k v. rewrite (member_in _ _ _ _ P labels os (proj1 Hm)), (member_in _ _ _ _ P' labels' os' (proj1 Hm)). split; [apply (member_r _ _ _ _ _ HH)|apply (member_l _ _ _ _ _ HH)].
  - intros key. destruct HH as (_ & _ & _ & _ & HE & _). pose proof (hget_r _ _ _ key HE) as Y.
    destruct (hget (h_hier (p_h _ _ _ _ P)) key) as [[w ls]|], (hget (h_hier (p_h _ _ _ _ P')) key) as [[w' ls']|]; try exact Y. destruct Y as [Y1 Y2]. split; [exact Y2|apply HLev; exact Y1].
Qed.
Print Assumptions C74_hierarchy_depends_on_order_only.

(** Six points on a line, and six points in the plane, far from a scaled copy: the hypotheses
    hold, and the hierarchy has two clusters below the root. *)
Definition line6 : dataset := DDouble (map f_of_Z [0; 2; 3; 20; 24; 27]%Z).
Definition plane6 : dataset := DDouble (map f_of_Z [0; 0; 9; 12; 15; 20; 231; 308; 264; 352; 279; 372]%Z).
Definition all4 (n : nat) (f : nat -> nat -> nat -> nat -> bool) : bool :=
  forallb (fun i => forallb (fun j => forallb (fun k => forallb (f i j k) (seq 0 n)) (seq 0 n)) (seq 0 n)) (seq 0 n).
Lemma all4_spec n f : all4 n f = true -> forall i j k l, i < n -> j < n -> k < n -> l < n -> f i j k l = true.
Proof.
  unfold all4. intros H i j k l Hi Hj Hk Hl. rewrite forallb_forall in H. specialize (H i ltac:(apply in_seq; lia)). rewrite forallb_forall in H. specialize (H j ltac:(apply in_seq; lia)).
  rewrite forallb_forall in H. specialize (H k ltac:(apply in_seq; lia)). rewrite forallb_forall in H. apply H. apply in_seq. lia.
Qed.
Example C74_example :
  holds line6 6 1 /\ holds plane6 6 2 /\ same_order line6 1 plane6 2 6 /\
  (forall i j, i < j -> j < 6 -> flt (euclidean line6 1 i j) D_MAX = true) /\ (forall i j, i < j -> j < 6 -> flt (euclidean plane6 2 i j) D_MAX = true) /\
  match fresh_run 11 (mk_schedule (fun k => seq 0 k) (fun k => seq 0 k) (fun k n => list_prod (seq 0 k) (seq 0 n))) (fun l => l) 2 line6 6 1 true with
  | Ok o => match o_res o with Some r => length (r_clusters r) = 4 | None => False end | _ => False end.
Proof.
  split; [apply holds_double; reflexivity|]. split; [apply holds_double; reflexivity|]. split.
  { intros i j k l Hi Hj Hk Hl. apply eqb_prop. revert i j k l Hi Hj Hk Hl. apply all4_spec. vm_compute. reflexivity. }
  assert (HA : forall ds cols, all4 6 (fun i j _ _ => flt (euclidean ds cols i j) D_MAX) = true -> forall i j, i < j -> j < 6 -> flt (euclidean ds cols i j) D_MAX = true).
  { intros ds cols H i j Hi Hj. apply (all4_spec _ _ H i j 0 0); lia. }
  split; [apply HA; vm_compute; reflexivity|]. split; [apply HA; vm_compute; reflexivity|]. vm_compute. reflexivity.
Qed.
