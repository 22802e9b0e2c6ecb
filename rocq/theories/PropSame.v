(** C66: identical rows get identical results. *)
From Coq Require Import Permutation Sorted Relations.
From Flocq Require Import Core.Zaux IEEE754.BinarySingleNaN.
From Verif Require Import Base F64 F64Facts F64Arith ListFacts ModelUtils ModelDistance ModelMst ModelGraph ModelCluster ModelHier ModelSelect ModelRun SpecGraph SpecHier SpecTree SpecMain
  PropUtils ProofDistance ProofCore PropDistance PropMst PropHier PropProminent PropOutlier ProofRun PropRun ProofSym PropMain.
From Coq Require Import ZifyBool ZifyNat.
Local Open Scope nat_scope.

(** Rows [i] and [j] hold the same values. *)
Definition equal_rows {A} (l : list A) (cols i j : nat) : Prop := forall k, k < cols -> nth_error l (i * cols + k) = nth_error l (j * cols + k).
Definition identical (ds : dataset) (cols i j : nat) : Prop :=
  match ds with
  | DDouble l => equal_rows l cols i j
  | DFloat l => equal_rows l cols i j
  | DInt l | DLong l | DShort l | DChar l => equal_rows l cols i j
  end.

(** The distance distance_get returns. *)
Definition dist (ds : dataset) (cols i j : nat) : f64 := if i =? j then fzero else euclidean ds cols i j.

Lemma dist_get ds rows cols k d : 1 <= rows -> (Z.of_nat rows <= 65536)%Z -> holds ds rows cols -> (0 <= k < M32 - 1)%Z -> distance_compute ds rows cols k = Ok d ->
  forall i j, i < rows -> j < rows -> distance_get d (Z.of_nat i) (Z.of_nat j) = Ok (dist ds cols i j).
Proof.
  intros Hr1 Hr HL Hk Ed i j Hi Hj. destruct (C15_distance_get_euclidean ds rows cols k Hr1 Hr HL Hk) as (d' & Ed' & _ & _ & _ & Hget).
  rewrite Ed in Ed'. injection Ed' as <-. rewrite (proj1 (Hget i j Hi Hj)). unfold dist. destruct (i =? j) eqn:E; [reflexivity|].
  apply Nat.eqb_neq in E. destruct (Nat.lt_ge_cases i j) as [H|H].
  - rewrite Nat.min_l, Nat.max_r by lia. reflexivity.
  - rewrite Nat.min_r, Nat.max_l by lia. f_equal. apply euclidean_sym.
Qed.

Lemma dist_core ds rows cols k d : 1 <= rows -> (Z.of_nat rows <= 65536)%Z -> holds ds rows cols -> (0 <= k < M32 - 1)%Z -> distance_compute ds rows cols k = Ok d ->
  forall i, i < rows -> exists c, nth_error (d_core d) i = Some (Some c) /\ core_row (Z.to_nat (k + 1)) (map (dist ds cols i) (seq 0 rows)) = Ok c.
Proof.
  intros Hr1 Hr HL Hk Ed i Hi. pose proof (dist_get ds rows cols k d Hr1 Hr HL Hk Ed) as Hg.
  destruct (C15_distance_get_euclidean ds rows cols k Hr1 Hr HL Hk) as (d' & Ed' & HC & Hrows & Hdk & _). rewrite Ed in Ed'. injection Ed' as <-.
  destruct (compute_split ds rows cols k d HC Hrows Ed Hk) as (d1 & C1 & R1 & K1 & Hc1 & G1).
  destruct (core_spec d1 i C1 ltac:(lia) ltac:(lia)) as (d2 & row & c & E2 & _ & Hcr & Hrow & Ec). rewrite Hc1 in E2. injection E2 as <-.
  exists c. split; [exact Hcr|]. rewrite K1 in Ec. rewrite <- Ec. f_equal.
  apply (row_unique d1 i); [|exact Hrow]. split; [rewrite map_length, seq_length; lia|].
  intros j Hj. rewrite R1 in Hj. rewrite G1, Hg by lia. f_equal.
  rewrite (nth_indep _ fzero (dist ds cols i 0)) by (rewrite map_length, seq_length; lia). rewrite map_nth, seq_nth by lia. reflexivity.
Qed.

Lemma nth_same {A} (l : list A) a b x : nth_error l a = nth_error l b -> nth a l x = nth b l x.
Proof.
  intros H. destruct (nth_error l b) as [y|] eqn:E.
  - rewrite (nth_error_nth _ _ x H), (nth_error_nth _ _ x E). reflexivity.
  - apply nth_error_None in H. apply nth_error_None in E. rewrite !nth_overflow by assumption. reflexivity.
Qed.

Lemma coord_same ds cols i j c k : identical ds cols i j -> k < cols -> coord_diff ds (i * cols + k) c = coord_diff ds (j * cols + k) c.
Proof.
  intros H Hk. destruct ds as [l|l|l|l|l|l]; cbn [identical coord_diff] in *; rewrite (nth_same l _ _ _ (H k Hk)); reflexivity.
Qed.

Lemma fold_ext_in {A B} (f g : A -> B -> A) l : (forall a x, In x l -> f a x = g a x) -> forall a, fold_left f l a = fold_left g l a.
Proof.
  induction l as [|x l IH]; intros H a; cbn [fold_left]; [reflexivity|]. rewrite (H a x) by (left; reflexivity). apply IH. intros b y Hy. apply H. right. exact Hy.
Qed.

Lemma euclidean_same ds cols i j k : identical ds cols i j -> euclidean ds cols i k = euclidean ds cols j k.
Proof.
  intros H. unfold euclidean. f_equal. apply fold_ext_in. intros a x Hx. apply in_seq in Hx. cbn zeta. rewrite (coord_same ds cols i j (k * cols + x) x H ltac:(lia)). reflexivity.
Qed.

Lemma minus_self p e Hp Hx (x : binary_float p e) : @Bminus p e Hp Hx mode_NE x x = B754_zero false \/ @Bminus p e Hp Hx mode_NE x x = B754_nan.
Proof.
  destruct x as [s|s| |s m ex B]; [left; destruct s; reflexivity|right; destruct s; reflexivity|right; reflexivity|left].
  unfold Bminus, Fplus_naive. cbv zeta. match goal with |- context [(?a + ?b)%Z] => replace (a + b)%Z with 0%Z end; [reflexivity|]. destruct s; cbn [cond_Zopp negb]; lia.
Qed.

Lemma coord_self ds a : coord_diff ds a a = fzero \/ coord_diff ds a a = fnan.
Proof.
  destruct ds as [l|l|l|l|l|l]; cbn [coord_diff].
  - apply minus_self.
  - unfold fsub32. destruct (minus_self 24 128 Hprec32 Hmax32 (nth a l (B754_zero false))) as [-> | ->]; [left|right]; reflexivity.
  - left. rewrite Z.sub_diag. reflexivity.
  - left. rewrite Z.sub_diag. reflexivity.
  - left. rewrite Z.sub_diag. reflexivity.
  - left. rewrite Z.sub_diag. reflexivity.
Qed.

Lemma euclidean_self ds cols i : euclidean ds cols i i = fzero \/ euclidean ds cols i i = fnan.
Proof.
  unfold euclidean.
  assert (H : forall l a, a = fzero \/ a = fnan ->
    let s := fold_left (fun sum k => let diff := coord_diff ds (i * cols + k) (i * cols + k) in fadd sum (fmul diff diff)) l a in s = fzero \/ s = fnan).
  { induction l as [|k l IH]; intros a Ha; cbn [fold_left]; [exact Ha|]. apply IH. cbn zeta.
    destruct (coord_self ds (i * cols + k)) as [-> | ->], Ha as [-> | ->]; (left; reflexivity) || (right; reflexivity). }
  destruct (H (seq 0 cols) fzero (or_introl eq_refl)) as [E|E]; cbn zeta in E; rewrite E; [left|right]; reflexivity.
Qed.

(** Nothing is joined with an isolated point. *)
Lemma isolated (R : nat -> nat -> Prop) i : (forall k, ~ R i k /\ ~ R k i) -> forall a b, joined R a b -> (a = i <-> b = i).
Proof.
  intros H a b J. induction J as [a b Hab|a|a b _ IH|a b c _ IH1 _ IH2]; [|tauto|tauto|tauto].
  split; intros ->; exfalso; [apply (proj1 (H b) Hab)|apply (proj2 (H a) Hab)].
Qed.

Lemma twin (R : nat -> nat -> Prop) m i j : 2 <= m -> (forall k, R i k \/ R k i -> R i j) -> many R m i -> joined R i j.
Proof.
  intros Hm H (l & Hnd & Hlen & Hl). apply Classical_Prop.NNPP. intros Hno.
  assert (Hiso : forall k, ~ R i k /\ ~ R k i).
  { intros k. split; intros Hk; apply Hno, rst_step, (H k); auto. }
  assert (Hall : forall x, In x l -> x = i) by (intros x Hx; apply (isolated R i Hiso i x (Hl x Hx)); reflexivity).
  destruct l as [|a [|b l]]; cbn in Hlen; try lia. inversion Hnd as [|? ? N _]. apply N. left. rewrite (Hall a), (Hall b); cbn; auto.
Qed.

Lemma many_move (R : nat -> nat -> Prop) m i j : joined R i j -> many R m i -> many R m j.
Proof. intros J (l & L1 & L2 & L3). exists l. split; [exact L1|]. split; [exact L2|]. intros x Hx. apply rst_trans with i; [apply rst_sym; exact J|apply L3, Hx]. Qed.

Section Twins.
Variables (d : distance) (n m i j : nat) (c : f64).
Hypothesis Hi : i < n.
Hypothesis Hj : j < n.
Hypothesis Hij : i <> j.
Hypothesis Hm : 2 <= m.
Hypothesis Hz : distance_get d (Z.of_nat i) (Z.of_nat j) = Ok fzero.
Hypothesis Hci : nth_error (d_core d) i = Some (Some c).
Hypothesis Hcj : nth_error (d_core d) j = Some (Some c).
Hypothesis Hc0 : fle fzero c = true.

Lemma close_twin w k : close d n w i k \/ close d n w k i -> close d n w i j.
Proof.
  intros H. assert (Hcw : fle c w = true).
  { destruct H as [(_ & _ & _ & x & cu & cv & _ & A & _ & _ & B & _)|(_ & _ & _ & x & cu & cv & _ & _ & A & _ & _ & B)]; rewrite Hci in A; injection A as <-; exact B. }
  split; [exact Hi|]. split; [exact Hj|]. split; [exact Hij|]. exists fzero, c, c. pose proof (fle_trans _ _ _ Hc0 Hcw). auto 10.
Qed.
Lemma closer_twin w k : closer d n w i k \/ closer d n w k i -> closer d n w i j.
Proof.
  intros H. assert (Hcw : flt c w = true).
  { destruct H as [(_ & _ & _ & x & cu & cv & _ & A & _ & _ & B & _)|(_ & _ & _ & x & cu & cv & _ & _ & A & _ & _ & B)]; rewrite Hci in A; injection A as <-; exact B. }
  split; [exact Hi|]. split; [exact Hj|]. split; [exact Hij|]. exists fzero, c, c. pose proof (fle_lt_lt _ _ _ Hc0 Hcw). auto 10.
Qed.
Lemma close_many w : many (close d n w) m i -> joined (close d n w) i j.
Proof. apply twin; [exact Hm|]. intros k. apply close_twin. Qed.
Lemma closer_many w : many (closer d n w) m i -> joined (closer d n w) i j.
Proof. apply twin; [exact Hm|]. intros k. apply closer_twin. Qed.

Lemma point_twin r l : condensed_tree d n m r -> point_of r l i -> point_of r l j.
Proof.
  intros (H0 & _ & H1 & H2 & _) Hp. destruct (Nat.eq_dec l 0) as [->|Hl0]; [destruct Hp as (x & w & ls & Hx & _); unfold cluster_in in Hx; congruence|].
  destruct (Nat.eq_dec l 1) as [->|Hl1]; [apply H1; exact Hj|].
  pose proof Hp as (x & _ & _ & Hx & _). destruct (H2 l x ltac:(lia) Hx) as (u & _ & [Hmany _] & Hmu).
  apply Hmu. apply Hmu in Hp. apply rst_trans with i; [exact Hp|]. apply closer_many. apply (many_move _ _ u i Hp Hmany).
Qed.
End Twins.

(** Numbers that compare equal give the same score. *)
Lemma both_le a b : fle a b = true -> fle b a = true -> a = b \/ exists s t, a = B754_zero s /\ b = B754_zero t.
Proof.
  intros H1 H2. apply fle_true in H1. apply fle_true in H2. destruct H1 as (N1 & N2 & K1), H2 as (_ & _ & K2).
  destruct (fkey_inj a b N1 N2 ltac:(lia)) as [H|H]; [left; exact H|right; apply H].
Qed.

Lemma score_same low low' w w' : fle low low' = true -> fle low' low = true -> fle w w' = true -> fle w' w = true ->
  (if feq w fzero then fzero else fsub fone (fdiv low w)) = (if feq w' fzero then fzero else fsub fone (fdiv low' w')).
Proof.
  intros L1 L2 W1 W2. destruct (both_le w w' W1 W2) as [<-|(s & t & -> & ->)]; [|destruct s, t; reflexivity].
  destruct (feq w fzero) eqn:Ez; [reflexivity|]. destruct (both_le low low' L1 L2) as [<-|(s & t & -> & ->)]; [reflexivity|].
  apply fle_true in W1. destruct W1 as (Nw & _). destruct w as [x|x| |x mw ew Bw]; [destruct x; discriminate| |discriminate|].
  - destruct s, t, x; reflexivity.
  - destruct s, t, x; reflexivity.
Qed.

Lemma glosh_same d n m i j c r s s' : i < n -> j < n -> i <> j -> 2 <= m -> fle fzero c = true ->
  distance_get d (Z.of_nat i) (Z.of_nat j) = Ok fzero -> distance_get d (Z.of_nat j) (Z.of_nat i) = Ok fzero ->
  nth_error (d_core d) i = Some (Some c) -> nth_error (d_core d) j = Some (Some c) ->
  condensed_tree d n m r -> glosh_score d n m r i s -> glosh_score d n m r j s' -> s = s'.
Proof.
  intros Hi Hj Hij Hm Hc0 Hz Hz' Hci Hcj HT (k & w & low & [K1 K2] & D1 & L1 & L2 & ->) (k' & w' & low' & [K1' K2'] & D1' & L1' & L2' & ->).
  assert (Hsub : forall u, point_of r k u -> point_of r k' u).
  { apply K2. apply (point_twin d n m j i c Hj Hi (not_eq_sym Hij) Hm Hz' Hcj Hci Hc0 r k' HT K1'). }
  assert (Hsub' : forall u, point_of r k' u -> point_of r k u).
  { apply K2'. apply (point_twin d n m i j c Hi Hj Hij Hm Hz Hci Hcj Hc0 r k HT K1). }
  assert (D2 : dense_from d n m j w).
  { destruct D1 as [D1 D2]. split; [apply (many_move _ _ i j); [apply (close_many d n m i j c)|]; assumption|].
    intros H. apply D2. apply (many_move _ _ j i); [apply (closer_many d n m j i c); auto|exact H]. }
  apply score_same; [| |apply (dense_le d n m j); assumption|apply (dense_le d n m j); assumption].
  - destruct (Nat.le_gt_cases 3 (length (r_clusters r))) as [H|H].
    + destruct (L1 H) as [_ A]. destruct (L1' H) as [(u & U1 & U2) _]. apply (A u); auto.
    + rewrite L2, L2' by lia. reflexivity.
  - destruct (Nat.le_gt_cases 3 (length (r_clusters r))) as [H|H].
    + destruct (L1' H) as [_ A]. destruct (L1 H) as [(u & U1 & U2) _]. apply (A u); auto.
    + rewrite L2, L2' by lia. reflexivity.
Qed.

Theorem C66_identical_rows_get_identical_results : forall ds rows cols minPts fuel s qsort,
  5 <= rows -> (Z.of_nat rows <= 65536)%Z -> holds ds rows cols -> 2 <= minPts <= rows ->
  (forall i j, i < j -> j < rows -> flt (euclidean ds cols i j) D_MAX = true) -> 2 * rows - 1 <= fuel -> valid s -> sorts qsort ->
  exists o r, fresh_run fuel s qsort (Z.of_nat minPts) ds rows cols true = Ok o /\ o_res o = Some r /\
    forall i j, i < rows -> j < rows -> i <> j -> identical ds cols i j ->
      nth_error (r_labels r) i = nth_error (r_labels r) j /\
      (forall x y, In x (r_outliers r) -> In y (r_outliers r) -> os_id x = Z.of_nat i -> os_id y = Z.of_nat j ->
         os_score x = os_score y /\ os_core x = os_core y).
Proof.
  intros ds rows cols m fuel s q Hr1 Hr HL Hm Hfin Hf Hs Hq. assert (HM : (M32 = 4294967296)%Z) by reflexivity.
  destruct (C64_run_is_hdbscan ds rows cols m fuel s q Hr1 Hr HL Hm Hfin Hf Hs Hq) as (d & o & r & chosen & best & Ed & _ & Eo & Er & HT & _ & HF).
  destruct (C65_scores_from_data ds rows cols m fuel s q Hr1 Hr HL Hm Hfin Hf Hs Hq) as (d' & o' & r' & Ed' & Eo' & Er' & _ & _ & HS).
  rewrite Ed in Ed'. injection Ed' as <-. rewrite Eo in Eo'. injection Eo' as <-. rewrite Er in Er'. injection Er' as <-.
  exists o, r. split; [exact Eo|]. split; [exact Er|].
  pose proof (dist_get ds rows cols (Z.of_nat m - 1)%Z d ltac:(lia) Hr HL ltac:(lia) Ed) as Hg. pose proof (dist_core ds rows cols (Z.of_nat m - 1)%Z d ltac:(lia) Hr HL ltac:(lia) Ed) as Hcore.
  destruct (data_ready ds rows cols (Z.of_nat m - 1) ltac:(lia) Hr HL ltac:(lia)) as (d' & Ed' & _ & HN & _). rewrite Ed in Ed'. injection Ed' as <-.
  assert (Hmain : forall i j, i < rows -> j < rows -> i <> j -> identical ds cols i j ->
    distance_get d (Z.of_nat i) (Z.of_nat j) = Ok fzero /\ exists c, nth_error (d_core d) i = Some (Some c) /\ nth_error (d_core d) j = Some (Some c) /\ fle fzero c = true).
  { intros i j Hi Hj Hij Hid.
    assert (E0 : euclidean ds cols i j = fzero).
    { assert (Hlt : flt (euclidean ds cols i j) D_MAX = true) by (destruct (Nat.lt_ge_cases i j); [apply Hfin; lia|rewrite euclidean_sym; apply Hfin; lia]).
      rewrite (euclidean_same ds cols i j j Hid) in Hlt |- *. destruct (euclidean_self ds cols j) as [E|E]; [exact E|rewrite E in Hlt; discriminate]. }
    split; [rewrite (Hg i j Hi Hj); unfold dist; replace (i =? j) with false by (symmetry; apply Nat.eqb_neq; exact Hij); rewrite E0; reflexivity|].
    destruct (Hcore i Hi) as (c & C1 & C2). destruct (Hcore j Hj) as (c' & C1' & C2').
    assert (Erow : map (dist ds cols i) (seq 0 rows) = map (dist ds cols j) (seq 0 rows)).
    { apply map_ext_in. intros k _. unfold dist. destruct (i =? k) eqn:E1, (j =? k) eqn:E2; [reflexivity| | |apply euclidean_same; exact Hid].
      - apply Nat.eqb_eq in E1. subst k. rewrite euclidean_sym. symmetry. exact E0.
      - apply Nat.eqb_eq in E2. subst k. exact E0. }
    rewrite Erow, C2' in C2. injection C2 as <-. exists c'. split; [exact C1|]. split; [exact C1'|]. apply (proj2 HN i c' Hi C1). }
  assert (Hlab : forall i j k, i < rows -> j < rows -> i <> j -> identical ds cols i j -> nth_error (r_labels r) i = Some k -> k <> 0 -> nth_error (r_labels r) j = Some k).
  { intros i j k Hi Hj Hij Hid Hk Hk0. destruct (Hmain i j Hi Hj Hij Hid) as (Hz & c & C1 & C2 & C3). destruct HF as (_ & HF & _).
    apply (HF j k Hj Hk0). apply (HF i k Hi Hk0) in Hk. split; [apply Hk|]. apply (point_twin d rows m i j c Hi Hj Hij (proj1 Hm) Hz C1 C2 C3 r k HT (proj2 Hk)). }
  assert (Hsym : forall i j, identical ds cols i j -> identical ds cols j i) by (intros i j H; destruct ds; intros k Hk; symmetry; apply H; exact Hk).
  intros i j Hi Hj Hij Hid. destruct (Hmain i j Hi Hj Hij Hid) as (Hz & c & C1 & C2 & C3). destruct (Hmain j i Hj Hi (not_eq_sym Hij) (Hsym i j Hid)) as (Hz' & _).
  split.
    + destruct HF as (HLn & _). destruct (nth_error (r_labels r) i) as [a|] eqn:Ea; [|apply nth_error_None in Ea; lia].
      destruct (Nat.eq_dec a 0) as [->|Ha]; [|symmetry; apply (Hlab i j a); assumption].
      destruct (nth_error (r_labels r) j) as [b|] eqn:Eb; [|apply nth_error_None in Eb; lia].
      destruct (Nat.eq_dec b 0) as [->|Hb]; [reflexivity|]. rewrite (Hlab j i b Hj Hi (not_eq_sym Hij) (Hsym i j Hid) Eb Hb) in Ea. congruence.
    + intros x y Hx Hy Ex Ey. destruct (HS x Hx) as (v & _ & V1 & V2 & V3). destruct (HS y Hy) as (v' & _ & V1' & V2' & V3').
      assert (v = i) by lia. assert (v' = j) by lia. subst v v'. split; [|congruence].
      apply (glosh_same d rows m i j c r); auto. apply Hm.
Qed.
Print Assumptions C66_identical_rows_get_identical_results.

(** Seven points, the second and the last identical. *)
Definition seven : list f64 := map f_of_Z [0; 1; 3; 10; 12; 15; 1]%Z.
Example seven_met : holds (DDouble seven) 7 1 /\ identical (DDouble seven) 1 1 6 /\
  forallb (fun j => forallb (fun i => flt (euclidean (DDouble seven) 1 i j) D_MAX) (seq 0 j)) (seq 0 7) = true /\
  match fresh_run 13 in_turn insertion_sort 2 (DDouble seven) 7 1 true with
  | Ok o => match o_res o with Some r => r_labels r | None => [] end | _ => [] end = [2; 2; 2; 3; 3; 3; 2].
Proof.
  split; [apply holds_double; reflexivity|]. split; [intros k Hk; replace k with 0 by lia; reflexivity|]. split; vm_compute; reflexivity.
Qed.
