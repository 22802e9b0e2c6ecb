(** Theorem C95: what raising minPoints does to core distances and to the density graph. *)
From Coq Require Import Relations.
From Flocq Require Import IEEE754.BinarySingleNaN.
From Verif Require Import Base F64 F64Facts ListFacts ModelDistance ModelUtils ModelMst ModelGraph ModelCluster ModelHier ModelSelect ModelRun
  PropDistance PropCuda PropMst SpecGraph SpecHier PropHier ProofCore PropSelect PropOutlier ProofRun PropRun PropEnd PropAccuracy.
From Coq Require Import ZifyBool ZifyNat Lia.
Local Open Scope nat_scope.

(** No finite distance occurs twice in a row of the matrix, or minPoints is 2: the condition
    under which core distances are the k-th smallest (C17). *)
Definition no_ties (ds : dataset) (rows cols minPts : nat) : Prop :=
  minPts = 2 \/ forall i, i < rows -> NoDup (map fkey (finite_values (row_values ds rows cols i))).

Lemma core_kth ds rows cols m d i : 1 <= rows -> (Z.of_nat rows <= 65536)%Z -> holds ds rows cols -> 1 <= m -> (Z.of_nat m < M32)%Z ->
  no_ties ds rows cols m -> distance_compute ds rows cols (Z.of_nat m - 1) = Ok d -> i < rows ->
  exists c, nth_error (d_core d) i = Some (Some c) /\
    (m <= length (finite_values (row_values ds rows cols i)) -> kth_smallest m (row_values ds rows cols i) c /\ flt c D_MAX = true) /\
    (length (finite_values (row_values ds rows cols i)) < m -> c = D_MAX).
Proof.
  intros H1 Hr HD Hm HmM HN Ed Hi.
  destruct (C15_distance_get_euclidean ds rows cols (Z.of_nat m - 1) H1 Hr HD ltac:(lia)) as (d' & Ed' & HC & Hrows & _ & Hget).
  rewrite Ed in Ed'. injection Ed' as <-.
  destruct (compute_split ds rows cols (Z.of_nat m - 1) d HC Hrows Ed ltac:(lia)) as (d1 & C1 & R1 & K1 & Hc1 & G1).
  assert (Hrow : row_of d1 i (row_values ds rows cols i)).
  { split; [unfold row_values; rewrite map_length, seq_length, R1; lia|]. intros j Hj. rewrite R1 in Hj. rewrite G1.
    destruct (Hget i j Hi ltac:(lia)) as [-> _]. unfold row_values.
    set (g := fun j => if (i =? j)%nat then fzero else euclidean ds cols (Nat.min i j) (Nat.max i j)).
    rewrite (nth_indep _ fzero (g 0%nat)) by (rewrite map_length, seq_length; lia). rewrite map_nth, seq_nth by lia. reflexivity. }
  destruct (C17_core_distance_kth_smallest d1 i _ m C1 K1 ltac:(lia) ltac:(lia) ltac:(lia) Hrow) as (d2 & c & Ed2 & Hc & Hk & Hk').
  { destruct HN as [->|HN]; [right; reflexivity|left; apply HN; exact Hi]. }
  rewrite Hc1 in Ed2. injection Ed2 as <-. exists c. auto.
Qed.

Lemma filter_le {A} (f g : A -> bool) l : (forall x, f x = true -> g x = true) -> length (filter f l) <= length (filter g l).
Proof. intros H. induction l as [|x l IH]; cbn; [lia|]. destruct (f x) eqn:E; [rewrite (H x E); cbn; lia|]. destruct (g x); cbn; lia. Qed.

Lemma kth_le m m' row c c' : m <= m' -> notnan c -> notnan c' -> kth_smallest m row c -> kth_smallest m' row c' -> fle c c' = true.
Proof.
  intros Hm Nc Nc' (_ & H1 & _) (_ & _ & H2). destruct (fle c c') eqn:E; [reflexivity|]. exfalso.
  assert (K : (fkey c' < fkey c)%Z).
  { destruct (Z.lt_ge_cases (fkey c') (fkey c)) as [L|L]; [exact L|]. rewrite (fle_intro c c' Nc Nc' ltac:(lia)) in E. discriminate. }
  assert (Q : length (filter (fun v => fle v c') row) <= length (filter (fun v => flt v c) row)).
  { apply filter_le. intros x Hx. apply fle_true in Hx. destruct Hx as (Nx & _ & Kx). apply flt_intro; auto. lia. }
  lia.
Qed.

Lemma fle_dmax c : flt c D_MAX = true -> fle c D_MAX = true.
Proof. intros H. apply flt_true in H. destruct H as (N & N' & K). apply fle_intro; auto. lia. Qed.

(** Raising minPoints never lowers a core distance. *)
Theorem C95_core_distances_grow :
  forall ds rows cols m m' d d' i,
  1 <= rows -> (Z.of_nat rows <= 65536)%Z -> holds ds rows cols -> 1 <= m <= m' -> (Z.of_nat m' < M32)%Z ->
  no_ties ds rows cols m -> no_ties ds rows cols m' ->
  distance_compute ds rows cols (Z.of_nat m - 1) = Ok d -> distance_compute ds rows cols (Z.of_nat m' - 1) = Ok d' -> i < rows ->
  exists c c', nth_error (d_core d) i = Some (Some c) /\ nth_error (d_core d') i = Some (Some c') /\ fle c c' = true.
Proof.
  intros ds rows cols m m' d d' i H1 Hr HD Hm HM HN HN' Ed Ed' Hi.
  destruct (core_kth ds rows cols m d i H1 Hr HD ltac:(lia) ltac:(lia) HN Ed Hi) as (c & Ec & Hc & Hmax).
  destruct (core_kth ds rows cols m' d' i H1 Hr HD ltac:(lia) ltac:(lia) HN' Ed' Hi) as (c' & Ec' & Hc' & Hmax').
  exists c, c'. split; [exact Ec|]. split; [exact Ec'|].
  set (L := length (finite_values (row_values ds rows cols i))) in *.
  destruct (Nat.le_gt_cases m' L) as [G'|G'].
  - destruct (Hc ltac:(lia)) as [K F]. destruct (Hc' G') as [K' F']. apply (kth_le m m' (row_values ds rows cols i)); auto; [lia| |].
    + apply flt_true in F. apply F.
    + apply flt_true in F'. apply F'.
  - rewrite (Hmax' G'). destruct (Nat.le_gt_cases m L) as [G|G].
    + apply fle_dmax. apply Hc. exact G.
    + rewrite (Hmax G). reflexivity.
Qed.
Print Assumptions C95_core_distances_grow.

(** Hence at every level the dense groups for the larger minPoints lie inside those for the
    smaller one. *)
Theorem C95_dense_groups_shrink :
  forall ds rows cols m m' d d' w,
  1 <= rows -> (Z.of_nat rows <= 65536)%Z -> holds ds rows cols -> 1 <= m <= m' -> (Z.of_nat m' < M32)%Z ->
  no_ties ds rows cols m -> no_ties ds rows cols m' ->
  distance_compute ds rows cols (Z.of_nat m - 1) = Ok d -> distance_compute ds rows cols (Z.of_nat m' - 1) = Ok d' ->
  (forall u v, close d' rows w u v -> close d rows w u v) /\
  (forall u v, joined (close d' rows w) u v -> joined (close d rows w) u v).
Proof.
  intros ds rows cols m m' d d' w H1 Hr HD Hm HM HN HN' Ed Ed'.
  assert (S : forall u v, close d' rows w u v -> close d rows w u v).
  { intros u v (Hu & Hv & Hne & x & cu & cv & Hx & Hcu & Hcv & L1 & L2 & L3).
    destruct (C15_distance_get_euclidean ds rows cols (Z.of_nat m - 1) H1 Hr HD ltac:(lia)) as (e & Ee & _ & _ & _ & G). rewrite Ed in Ee. injection Ee as <-.
    destruct (C15_distance_get_euclidean ds rows cols (Z.of_nat m' - 1) H1 Hr HD ltac:(lia)) as (e & Ee & _ & _ & _ & G'). rewrite Ed' in Ee. injection Ee as <-.
    destruct (C95_core_distances_grow ds rows cols m m' d d' u H1 Hr HD Hm HM HN HN' Ed Ed' Hu) as (a & a' & A1 & A2 & A3).
    destruct (C95_core_distances_grow ds rows cols m m' d d' v H1 Hr HD Hm HM HN HN' Ed Ed' Hv) as (b & b' & B1 & B2 & B3).
    rewrite Hcu in A2. injection A2 as <-. rewrite Hcv in B2. injection B2 as <-.
    split; [exact Hu|]. split; [exact Hv|]. split; [exact Hne|]. exists x, a, b.
    destruct (G u v Hu Hv) as [E _]. destruct (G' u v Hu Hv) as [E' _]. rewrite E, <- E'.
    assert (T : forall p q r, fle p q = true -> fle q r = true -> fle p r = true).
    { intros p q r P Q. apply fle_true in P, Q. apply fle_intro; try tauto. lia. }
    repeat split; auto; eapply T; eassumption. }
  split; [exact S|]. apply joined_incl. exact S.
Qed.
Print Assumptions C95_dense_groups_shrink.

(** Every cluster of a run with the larger minPoints lies in one dense group of the smaller
    minPoints, at the level of the cluster. *)
Theorem C95_clusters_inside_dense_groups :
  forall ds rows cols m m' fuel s qsort d,
  5 <= rows -> (Z.of_nat rows <= 65536)%Z -> holds ds rows cols -> 2 <= m -> m <= m' <= rows ->
  (forall i j, i < j -> j < rows -> flt (euclidean ds cols i j) D_MAX = true) ->
  no_ties ds rows cols m -> no_ties ds rows cols m' -> 2 * rows - 1 <= fuel -> valid s -> sorts qsort ->
  distance_compute ds rows cols (Z.of_nat m - 1) = Ok d ->
  exists d' o r, distance_compute ds rows cols (Z.of_nat m' - 1) = Ok d' /\
    fresh_run fuel s qsort (Z.of_nat m') ds rows cols true = Ok o /\ o_res o = Some r /\
    forall u c, u < rows -> c <> 0 -> nth_error (r_labels r) u = Some c ->
      exists w, (forall v, v < rows -> nth_error (r_labels r) v = Some c <-> joined (close d' rows w) u v) /\
        (forall v, v < rows -> nth_error (r_labels r) v = Some c -> joined (close d rows w) u v).
Proof.
  intros ds rows cols m m' fuel s q d H5 Hr HD Hm Hm' HF HN HN' Hf Hs Hq Ed.
  destruct (C57_labels_are_dense_components ds rows cols m' fuel s q H5 Hr HD ltac:(lia) HF Hf Hs Hq) as (d' & o & r & Ed' & _ & Er & Eo & _ & Hlab).
  exists d', o, r. split; [exact Ed'|]. split; [exact Er|]. split; [exact Eo|]. intros u c Hu Hc Hn.
  destruct (Hlab u c Hu Hc Hn) as (w & _ & Hw). exists w. split; [exact Hw|]. intros v Hv Hl.
  apply (C95_dense_groups_shrink ds rows cols m m' d d' w ltac:(lia) Hr HD ltac:(lia) ltac:(unfold M32; lia) HN HN' Ed Ed').
  apply Hw; assumption.
Qed.
Print Assumptions C95_clusters_inside_dense_groups.

(** With ties raising minPoints from 3 to 4 can lower a core distance, from b to a < b, for
    every matrix with a row a, b, b, a, 0. *)
Local Ltac bs := progress (cbn -[flt feq fle fgt fne D_MAX fzero]; unfold fgt, fne; change (@Bltb 53 1024) with flt; change (@Beqb 53 1024) with feq).

Lemma tied_row a b : flt fzero a = true -> flt a b = true -> flt b D_MAX = true ->
  core_row 3 [a; b; b; a; fzero] = Ok b /\ core_row 4 [a; b; b; a; fzero] = Ok a.
Proof.
  intros H0 Hab HbM.
  pose proof (flt_true _ _ H0) as (_ & Na & K0). pose proof (flt_true _ _ Hab) as (_ & Nb & Kab).
  pose proof (flt_true _ _ HbM) as (_ & _ & KbM).
  assert (NZ : notnan fzero) by reflexivity. pose proof D_MAX_notnan as NM.
  assert (LT : forall x y, notnan x -> notnan y -> (fkey x < fkey y)%Z ->
    flt x y = true /\ flt y x = false /\ feq x y = false /\ feq y x = false).
  { intros x y Nx Ny L. split; [now apply flt_intro|]. split; [apply flt_false; auto; now apply Z.lt_le_incl|].
    split; apply feq_false; auto; intros E; rewrite E in L; now apply Z.lt_irrefl in L. }
  assert (RF : forall x, notnan x -> flt x x = false /\ feq x x = true).
  { intros x Nx. split; [apply flt_false; auto; apply Z.le_refl|now apply feq_intro]. }
  set (K := fkey) in *.
  assert (K0b : (K fzero < K b)%Z) by (eapply Z.lt_trans; eauto).
  assert (KaM : (K a < K D_MAX)%Z) by (eapply Z.lt_trans; eauto).
  pose proof (LT fzero a NZ Na K0) as (A1 & A2 & A3 & A4).
  pose proof (LT fzero b NZ Nb K0b) as (B1 & B2 & B3 & B4).
  pose proof (LT a b Na Nb Kab) as (D1 & D2 & D3 & D4).
  pose proof (LT b D_MAX Nb NM KbM) as (G1 & G2 & G3 & G4).
  pose proof (LT a D_MAX Na NM KaM) as (I1 & I2 & I3 & I4).
  pose proof (RF a Na) as (J1 & J2). pose proof (RF b Nb) as (L1 & L2).
  clear LT RF. unfold core_row.
  split; repeat (bs; rewrite ?A1, ?A2, ?A3, ?A4, ?B1, ?B2, ?B3, ?B4, ?D1, ?D2, ?D3, ?D4, ?G1, ?G2, ?G3, ?G4, ?I1, ?I2, ?I3, ?I4, ?J1, ?J2, ?L1, ?L2); reflexivity.
Qed.

Theorem C95_ties_refuted :
  forall d d' i a b, complete d -> complete d' -> d_k d = 2%Z -> d_k d' = 3%Z ->
  i < Z.to_nat (d_rows d) -> i < Z.to_nat (d_rows d') ->
  flt fzero a = true -> flt a b = true -> flt b D_MAX = true ->
  row_of d i [a; b; b; a; fzero] -> row_of d' i [a; b; b; a; fzero] ->
  exists e e', distance_get_core_distances d = Ok e /\ distance_get_core_distances d' = Ok e' /\
    nth_error (d_core e) i = Some (Some b) /\ nth_error (d_core e') i = Some (Some a).
Proof.
  intros d d' i a b HC HC' K K' Hi Hi' H0 Hab HbM R R'.
  destruct (tied_row a b H0 Hab HbM) as [T3 T4].
  destruct (core_spec d i HC ltac:(rewrite K; unfold M32; lia) Hi) as (e & row & c & E & _ & Hc & Hrow & Ec).
  destruct (core_spec d' i HC' ltac:(rewrite K'; unfold M32; lia) Hi') as (e' & row' & c' & E' & _ & Hc' & Hrow' & Ec').
  rewrite (row_unique _ _ _ _ Hrow R), K in Ec. rewrite (row_unique _ _ _ _ Hrow' R'), K' in Ec'.
  change (Z.to_nat (2 + 1)) with 3 in Ec. change (Z.to_nat (3 + 1)) with 4 in Ec'.
  exists e, e'. split; [exact E|]. split; [exact E'|]. split; congruence.
Qed.
Print Assumptions C95_ties_refuted.

(** ** Examples *)

(** The data of C94 meets the conditions for every minPoints. *)
Example C95_example : forall m, no_ties spread 6 1 m.
Proof.
  intros m. right. intros i Hi. assert (Hi' : i = 0 \/ i = 1 \/ i = 2 \/ i = 3 \/ i = 4 \/ i = 5) by lia.
  destruct Hi' as [-> |[-> |[-> |[-> |[-> | -> ]]]]]; vm_compute; repeat constructor; cbn; intuition discriminate.
Qed.

(** Core distances of spread for minPoints 2 and 4, point 0: 1 and 10. *)
Example C95_example_values :
  (let! d := distance_compute spread 6 1 1 in let! d' := distance_compute spread 6 1 3 in
   Ok (map (fun o => match o with Some c => feq c (f_of_Z 1) | None => false end) (firstn 1 (d_core d)),
       map (fun o => match o with Some c => feq c (f_of_Z 10) | None => false end) (firstn 1 (d_core d')))) = Ok ([true], [true]).
Proof. vm_compute. reflexivity. Qed.

(** Five different points of a line, 2, 3, -3, -2, 0: the core distance of the last one is 3
    for minPoints 3 and 2 for minPoints 4. *)
Example C95_ties_example :
  (let! d := distance_compute (DInt [2; 3; -3; -2; 0]%Z) 5 1 2 in let! d' := distance_compute (DInt [2; 3; -3; -2; 0]%Z) 5 1 3 in
   Ok (map (fun o => match o with Some c => feq c (f_of_Z 3) | None => false end) (skipn 4 (d_core d)),
       map (fun o => match o with Some c => feq c (f_of_Z 2) | None => false end) (skipn 4 (d_core d')))) = Ok ([true], [true]).
Proof. vm_compute. reflexivity. Qed.
