(** C67: the order of the rows. *)
From Coq Require Import Permutation Sorted Relations FinFun.
From Flocq Require Import Core.Zaux IEEE754.BinarySingleNaN.
From Verif Require Import Base F64 F64Facts F64Arith ListFacts ModelUtils ModelDistance ModelMst ModelGraph ModelCluster ModelHier ModelSelect ModelRun SpecGraph SpecHier SpecTree SpecMain
  PropUtils ProofDistance ProofCore PropDistance PropMst PropHier PropProminent PropOutlier ProofRun PropRun ProofSym PropMain PropSame.
From Coq Require Import ZifyBool ZifyNat.
Local Open Scope nat_scope.

(** Row [i] of the first dataset is row [j] of the second. *)
Definition same_values {A} (l l' : list A) (cols i j : nat) : Prop := forall k, k < cols -> nth_error l (i * cols + k) = nth_error l' (j * cols + k).
Definition moved (ds ds' : dataset) (cols i j : nat) : Prop :=
  match ds, ds' with
  | DDouble l, DDouble l' => same_values l l' cols i j
  | DFloat l, DFloat l' => same_values l l' cols i j
  | DInt l, DInt l' | DLong l, DLong l' | DShort l, DShort l' | DChar l, DChar l' => same_values l l' cols i j
  | _, _ => False
  end.
(** [ds'] holds the rows of [ds] in another order: row [i] moves to [to i]. *)
Definition reordered (ds ds' : dataset) (rows cols : nat) (to : nat -> nat) : Prop :=
  (forall i, i < rows -> to i < rows) /\ (forall i j, i < rows -> j < rows -> to i = to j -> i = j) /\
  forall i, i < rows -> moved ds ds' cols i (to i).

(** No row of the distance matrix holds a finite value twice. *)
Definition distinct_distances (ds : dataset) (rows cols : nat) : Prop :=
  forall i, i < rows -> NoDup (map fkey (finite_values (map (dist ds cols i) (seq 0 rows)))).

(** ** Corresponding objects *)
(** Two distance objects that agree up to [to] (values may differ as +0 and -0 do). *)
Record agree (d d' : distance) (n : nat) (to : nat -> nat) : Prop := mk_agree {
  ag_d : forall i j, i < n -> j < n -> distance_get d (Z.of_nat i) (Z.of_nat j) = distance_get d' (Z.of_nat (to i)) (Z.of_nat (to j));
  ag_c : forall i c, i < n -> nth_error (d_core d) i = Some (Some c) -> exists c', nth_error (d_core d') (to i) = Some (Some c') /\ fle c c' = true /\ fle c' c = true }.

Section Moved.
Variables (d d' : distance) (n : nat) (to back : nat -> nat).
Hypothesis H1 : forall i, i < n -> to i < n.
Hypothesis H2 : forall i, i < n -> back i < n.
Hypothesis Hbt : forall i, i < n -> back (to i) = i.
Hypothesis Htb : forall i, i < n -> to (back i) = i.
Hypothesis Ha : agree d d' n to.

Lemma to_inj i j : i < n -> j < n -> to i = to j -> i = j.
Proof. intros Hi Hj E. rewrite <- (Hbt i Hi), <- (Hbt j Hj), E. reflexivity. Qed.
Lemma close_to w i j : close d n w i j -> close d' n w (to i) (to j).
Proof.
  intros (A1 & A2 & A3 & x & cu & cv & B1 & B2 & B3 & B4 & B5 & B6). destruct Ha as [G C]. rewrite (G i j A1 A2) in B1.
  destruct (C i cu A1 B2) as (cu' & U1 & U2 & U3). destruct (C j cv A2 B3) as (cv' & V1 & V2 & V3).
  split; [auto|]. split; [auto|]. split; [intros E; apply A3, to_inj; auto|]. exists x, cu', cv'. eauto 10 using fle_trans.
Qed.
Lemma closer_to w i j : closer d n w i j -> closer d' n w (to i) (to j).
Proof.
  intros (A1 & A2 & A3 & x & cu & cv & B1 & B2 & B3 & B4 & B5 & B6). destruct Ha as [G C]. rewrite (G i j A1 A2) in B1.
  destruct (C i cu A1 B2) as (cu' & U1 & U2 & U3). destruct (C j cv A2 B3) as (cv' & V1 & V2 & V3).
  split; [auto|]. split; [auto|]. split; [intros E; apply A3, to_inj; auto|]. exists x, cu', cv'. eauto 10 using fle_lt_lt.
Qed.
End Moved.

Lemma joined_map (R R' : nat -> nat -> Prop) f : (forall i j, R i j -> R' (f i) (f j)) -> forall i j, joined R i j -> joined R' (f i) (f j).
Proof.
  intros H i j J. induction J as [i j Hij|i|i j _ IH|i j k _ IH1 _ IH2]; [apply rst_step, H, Hij|apply rst_refl|apply rst_sym, IH|apply rst_trans with (f j); assumption].
Qed.
Lemma joined_in (R : nat -> nat -> Prop) n : (forall i j, R i j -> i < n /\ j < n) -> forall i j, joined R i j -> (i < n <-> j < n).
Proof. intros H i j J. induction J as [i j Hij|i|i j _ IH|i j k _ IH1 _ IH2]; [specialize (H i j Hij)| | |]; tauto. Qed.

Lemma many_map (R R' : nat -> nat -> Prop) n f m i : (forall i j, R i j -> i < n /\ j < n) -> (forall i j, R i j -> R' (f i) (f j)) ->
  (forall i j, i < n -> j < n -> f i = f j -> i = j) -> i < n -> many R m i -> many R' m (f i).
Proof.
  intros Hn HR Hinj Hi (l & L1 & L2 & L3). exists (map f l). split; [|split; [rewrite map_length; exact L2|]].
  - assert (Hl : forall x, In x l -> x < n) by (intros x Hx; apply (joined_in R n Hn i x (L3 x Hx)); exact Hi).
    clear L2 L3. induction L1 as [|x l Hx L1 IH]; cbn [map]; constructor.
    + intros Hin. apply in_map_iff in Hin. destruct Hin as (y & E & Hy). apply Hinj in E; [subst y; contradiction|apply Hl; right; exact Hy|apply Hl; left; reflexivity].
    + apply IH. intros y Hy. apply Hl. right. exact Hy.
  - intros x Hx. apply in_map_iff in Hx. destruct Hx as (y & <- & Hy). apply (joined_map R R' f HR). apply L3, Hy.
Qed.

Lemma close_in d n w i j : close d n w i j -> i < n /\ j < n.
Proof. intros (A & B & _). auto. Qed.
Lemma closer_in d n w i j : closer d n w i j -> i < n /\ j < n.
Proof. intros (A & B & _). auto. Qed.

(** A bijection of the points and its inverse. *)
Record paired (d d' : distance) (n : nat) (to back : nat -> nat) : Prop := mk_paired {
  pr_to : forall i, i < n -> to i < n; pr_back : forall i, i < n -> back i < n;
  pr_bt : forall i, i < n -> back (to i) = i; pr_tb : forall i, i < n -> to (back i) = i;
  pr_ag : agree d d' n to; pr_ga : agree d' d n back }.
Lemma paired_sym d d' n to back : paired d d' n to back -> paired d' d n back to.
Proof. intros []. constructor; assumption. Qed.

Section Pair.
Variables (d d' : distance) (n m : nat) (to back : nat -> nat).
Hypothesis HP : paired d d' n to back.

Lemma p_inj i j : i < n -> j < n -> to i = to j -> i = j.
Proof. destruct HP as [A1 A2 A3 A4 A5 A6]. intros Hi Hj E. rewrite <- (A3 i Hi), <- (A3 j Hj), E. reflexivity. Qed.
Lemma closer_joined w i j : i < n -> j < n -> joined (closer d n w) i j <-> joined (closer d' n w) (to i) (to j).
Proof.
  destruct HP as [A1 A2 A3 A4 A5 A6]. intros Hi Hj. split.
  - apply joined_map. apply (closer_to d d' n to back); assumption.
  - intros J. rewrite <- (A3 i Hi), <- (A3 j Hj). revert J. apply joined_map. apply (closer_to d' d n back to); assumption.
Qed.
Lemma close_joined w i j : joined (close d n w) i j -> joined (close d' n w) (to i) (to j).
Proof. destruct HP as [A1 A2 A3 A4 A5 A6]. apply joined_map. apply (close_to d d' n to back); assumption. Qed.
Lemma close_many_to w i : i < n -> many (close d n w) m i -> many (close d' n w) m (to i).
Proof. destruct HP as [A1 A2 A3 A4 A5 A6]. apply many_map with (n := n); [apply close_in|apply (close_to d d' n to back); assumption|exact p_inj]. Qed.
Lemma closer_many_to w i : i < n -> many (closer d n w) m i -> many (closer d' n w) m (to i).
Proof. destruct HP as [A1 A2 A3 A4 A5 A6]. apply many_map with (n := n); [apply closer_in|apply (closer_to d d' n to back); assumption|exact p_inj]. Qed.

Lemma splits_to w u : u < n -> splits_off (close d n) (closer d n) m w u -> splits_off (close d' n) (closer d' n) m w (to u).
Proof.
  intros Hu (S1 & u' & S2 & S3 & S4). assert (Hu' : u' < n) by (apply (joined_in _ n (close_in d n w) u u' S2); exact Hu).
  split; [apply closer_many_to; assumption|]. exists (to u'). split; [apply close_joined; exact S2|]. split; [|apply closer_many_to; assumption].
  intros J. apply S3. apply closer_joined; assumption.
Qed.
End Pair.

Lemma dense_to d d' n m to back w i : paired d d' n to back -> i < n -> dense_from d n m i w -> dense_from d' n m (to i) w.
Proof.
  intros HP Hi [D1 D2]. split; [apply (close_many_to d d' n m to back HP w i Hi D1)|]. intros H. apply D2.
  rewrite <- (pr_bt _ _ _ _ _ HP i Hi). apply (closer_many_to d' d n m back to (paired_sym _ _ _ _ _ HP) w (to i)); [apply (pr_to _ _ _ _ _ HP i Hi)|exact H].
Qed.

Lemma splits_notnan d n m w u : 2 <= m -> splits_off (close d n) (closer d n) m w u -> fisnan w = false.
Proof.
  intros Hm ((l & Hnd & Hlen & Hl) & _). destruct (fisnan w) eqn:Nw; [exfalso|reflexivity].
  assert (Hno : forall a b, joined (closer d n w) a b -> a = b).
  { intros a b H. induction H as [a b (_ & _ & _ & x & cu & cv & _ & _ & _ & H & _)|a|a b _ IH|a b c _ IH1 _ IH2]; [|reflexivity|auto|congruence].
    apply flt_true in H. destruct H as (_ & H & _). congruence. }
  destruct l as [|a [|b l]]; cbn in Hlen; try lia. inversion Hnd as [|? ? N1 _]. apply N1. left.
  rewrite <- (Hno u a), <- (Hno u b); [reflexivity|apply Hl; cbn; auto|apply Hl; cbn; auto].
Qed.

(** Every cluster of the one result is a cluster of the other. *)
Lemma cluster_to d d' n m to back r r' : 2 <= m -> paired d d' n to back -> condensed_tree d n m r -> condensed_tree d' n m r' ->
  forall l c, 2 <= l -> cluster_in (r_clusters r) l c -> exists l' c', 2 <= l' /\ cluster_in (r_clusters r') l' c' /\ feq (c_birth c) (c_birth c') = true /\
    forall v, v < n -> point_of r l v <-> point_of r' l' (to v).
Proof.
  intros Hm HP (_ & _ & _ & T1 & _) (_ & _ & _ & _ & T2 & _) l c Hl Hc.
  destruct (T1 l c Hl Hc) as (u & Hu & Hsp & Hmu). pose proof (splits_notnan d n m _ u Hm Hsp) as Nw.
  pose proof (splits_to d d' n m to back HP _ u Hu Hsp) as Hsp'.
  destruct (T2 (c_birth c) (to u) (pr_to _ _ _ _ _ HP u Hu) Nw Hsp') as (l' & c' & Hl' & Hc' & Hb & Hmu').
  exists l', c'. split; [exact Hl'|]. split; [exact Hc'|]. split.
  - apply feq_true in Hb. destruct Hb as (B1 & B2 & B3). apply feq_intro; auto.
  - intros v Hv. rewrite Hmu, Hmu'. apply (closer_joined d d' n to back HP); assumption.
Qed.

Lemma points_in d n m r : condensed_tree d n m r -> forall l v, point_of r l v -> 1 <= l /\ v < n.
Proof.
  intros (H0 & _ & H1 & H2 & _) l v Hp. destruct (Nat.eq_dec l 0) as [->|Hl0]; [destruct Hp as (x & w & ls & Hx & _); unfold cluster_in in Hx; congruence|]. split; [lia|].
  destruct (Nat.eq_dec l 1) as [->|Hl1]; [apply H1; exact Hp|].
  pose proof Hp as (x & _ & _ & Hx & _). destruct (H2 l x ltac:(lia) Hx) as (u & Hu & _ & Hmu). apply Hmu in Hp. apply (joined_in _ n (closer_in d n _) u v Hp). exact Hu.
Qed.

Lemma any_cluster_to d d' n m to back r r' : 2 <= m -> paired d d' n to back -> condensed_tree d n m r -> condensed_tree d' n m r' ->
  forall l v, point_of r l v -> exists l', forall v, v < n -> point_of r l v <-> point_of r' l' (to v).
Proof.
  intros Hm HP HT HT' l v Hv. destruct (points_in d n m r HT l v Hv) as [Hl _]. destruct (Nat.eq_dec l 1) as [->|Hl1].
  - exists 1. intros x Hx. destruct HT as (_ & _ & R & _), HT' as (_ & _ & R' & _). rewrite R, R'. pose proof (pr_to _ _ _ _ _ HP x Hx). tauto.
  - pose proof Hv as (c & _ & _ & Hc & _). destruct (cluster_to d d' n m to back r r' Hm HP HT HT' l c ltac:(lia) Hc) as (l' & c' & _ & _ & _ & H). exists l'. exact H.
Qed.

Lemma smallest_to d d' n m to back r r' i k k' : 2 <= m -> paired d d' n to back -> condensed_tree d n m r -> condensed_tree d' n m r' -> i < n ->
  smallest_cluster r i k -> smallest_cluster r' (to i) k' -> forall v, v < n -> point_of r' k' (to v) -> point_of r k v.
Proof.
  intros Hm HP HT HT' Hi [K1 K2] [K1' K2'] v Hv Hp.
  destruct (any_cluster_to d d' n m to back r r' Hm HP HT HT' k i K1) as (l & Hl). apply Hl; [exact Hv|].
  apply (K2' l); [apply Hl; assumption|exact Hp].
Qed.

Lemma more_clusters d d' n m to back r r' : 2 <= m -> paired d d' n to back -> condensed_tree d n m r -> condensed_tree d' n m r' ->
  3 <= length (r_clusters r) -> 3 <= length (r_clusters r').
Proof.
  intros Hm HP HT HT' H. pose proof HT as (_ & Hall & _). destruct (Hall 2 ltac:(lia)) as (c & Hc).
  destruct (cluster_to d d' n m to back r r' Hm HP HT HT' 2 c (le_n 2) Hc) as (l' & c' & Hl' & Hc' & _).
  assert (l' < length (r_clusters r')) by (apply nth_error_Some; unfold cluster_in in Hc'; congruence). lia.
Qed.

Lemma low_to d d' n m to back r r' i k k' low low' : 2 <= m -> paired d d' n to back -> condensed_tree d n m r -> condensed_tree d' n m r' -> i < n ->
  smallest_cluster r i k -> smallest_cluster r' (to i) k' ->
  (3 <= length (r_clusters r) -> lowest_level d n m r k low) -> (length (r_clusters r) <= 2 -> low = D_MAX) ->
  (3 <= length (r_clusters r') -> lowest_level d' n m r' k' low') -> (length (r_clusters r') <= 2 -> low' = D_MAX) -> fle low low' = true.
Proof.
  intros Hm HP HT HT' Hi HK HK' L1 L2 L1' L2'. pose proof (paired_sym _ _ _ _ _ HP) as HPs.
  destruct (Nat.le_gt_cases 3 (length (r_clusters r))) as [H|H].
  - pose proof (more_clusters d d' n m to back r r' Hm HP HT HT' H) as H'. destruct (L1 H) as [_ A]. destruct (L1' H') as [(u & U1 & U2) _].
    destruct (points_in d' n m r' HT' k' u U1) as [_ Hu]. apply (A (back u)).
    + apply (smallest_to d d' n m to back r r' i k k' Hm HP HT HT' Hi HK HK'); [apply (pr_back _ _ _ _ _ HP u Hu)|]. rewrite (pr_tb _ _ _ _ _ HP u Hu). exact U1.
    + apply (dense_to d' d n m back to low' u HPs Hu U2).
  - assert (H' : length (r_clusters r') <= 2).
    { destruct (Nat.le_gt_cases 3 (length (r_clusters r'))) as [X|X]; [pose proof (more_clusters d' d n m back to r' r Hm HPs HT' HT X)|]; lia. }
    rewrite (L2 ltac:(lia)), (L2' H'). reflexivity.
Qed.

Lemma glosh_to d d' n m to back r r' i s s' : 2 <= m -> paired d d' n to back -> condensed_tree d n m r -> condensed_tree d' n m r' -> i < n ->
  glosh_score d n m r i s -> glosh_score d' n m r' (to i) s' -> s = s'.
Proof.
  intros Hm HP HT HT' Hi (k & w & low & HK & D1 & L1 & L2 & ->) (k' & w' & low' & HK' & D1' & L1' & L2' & ->). pose proof (paired_sym _ _ _ _ _ HP) as HPs.
  pose proof (dense_to d d' n m to back w i HP Hi D1) as D2. pose proof (pr_to _ _ _ _ _ HP i Hi) as Hti.
  apply score_same; [| |apply (dense_le d' n m (to i)); assumption|apply (dense_le d' n m (to i)); assumption].
  - apply (low_to d d' n m to back r r' i k k'); assumption.
  - apply (low_to d' d n m back to r' r (to i) k' k); try assumption. rewrite (pr_bt _ _ _ _ _ HP i Hi). exact HK.
Qed.

(** ** Distances and core distances of reordered data *)
Lemma nth_same2 {A} (l l' : list A) a b x : nth_error l a = nth_error l' b -> nth a l x = nth b l' x.
Proof.
  intros H. destruct (nth_error l' b) as [y|] eqn:E.
  - rewrite (nth_error_nth _ _ x H), (nth_error_nth _ _ x E). reflexivity.
  - apply nth_error_None in H. apply nth_error_None in E. rewrite !nth_overflow by assumption. reflexivity.
Qed.
Lemma coord_moved ds ds' cols i j i' j' k : moved ds ds' cols i i' -> moved ds ds' cols j j' -> k < cols ->
  coord_diff ds (i * cols + k) (j * cols + k) = coord_diff ds' (i' * cols + k) (j' * cols + k).
Proof.
  intros H H' Hk. destruct ds as [l|l|l|l|l|l], ds' as [l'|l'|l'|l'|l'|l']; cbn [moved coord_diff] in *; try contradiction;
    rewrite (nth_same2 l l' _ _ _ (H k Hk)), (nth_same2 l l' _ _ _ (H' k Hk)); reflexivity.
Qed.
Lemma euclidean_moved ds ds' cols i j i' j' : moved ds ds' cols i i' -> moved ds ds' cols j j' -> euclidean ds cols i j = euclidean ds' cols i' j'.
Proof.
  intros H H'. unfold euclidean. f_equal. apply fold_ext_in. intros a x Hx. apply in_seq in Hx. cbn zeta.
  rewrite (coord_moved ds ds' cols i j i' j' x H H' ltac:(lia)). reflexivity.
Qed.
Lemma dist_moved ds ds' rows cols to i j : reordered ds ds' rows cols to -> i < rows -> j < rows -> dist ds cols i j = dist ds' cols (to i) (to j).
Proof.
  intros (R1 & R2 & R3) Hi Hj. unfold dist. destruct (i =? j) eqn:E.
  - apply Nat.eqb_eq in E. subst j. rewrite Nat.eqb_refl. reflexivity.
  - apply Nat.eqb_neq in E. replace (to i =? to j) with false by (symmetry; apply Nat.eqb_neq; intros X; apply E, R2; assumption).
    apply euclidean_moved; apply R3; assumption.
Qed.

Lemma perm_seq n to : (forall i, i < n -> to i < n) -> (forall i j, i < n -> j < n -> to i = to j -> i = j) -> Permutation (map to (seq 0 n)) (seq 0 n).
Proof.
  intros R1 R2. apply NoDup_Permutation_bis.
  - assert (H : forall l, (forall x, In x l -> x < n) -> NoDup l -> NoDup (map to l)).
    { induction l as [|x l IH]; intros Hl Hd; cbn [map]; [constructor|]. inversion Hd as [|? ? N1 N2]; subst. constructor; [|apply IH; [intros y Hy; apply Hl; right; exact Hy|exact N2]].
      intros Hin. apply in_map_iff in Hin. destruct Hin as (y & E & Hy). apply R2 in E; [subst y; contradiction|apply Hl; right; exact Hy|apply Hl; left; reflexivity]. }
    apply H; [intros x Hx; apply in_seq in Hx; lia|apply seq_NoDup].
  - rewrite map_length. lia.
  - intros x Hx. apply in_map_iff in Hx. destruct Hx as (y & <- & Hy). apply in_seq in Hy. apply in_seq. specialize (R1 y ltac:(lia)). lia.
Qed.
Lemma row_perm ds ds' rows cols to i : reordered ds ds' rows cols to -> i < rows ->
  Permutation (map (dist ds cols i) (seq 0 rows)) (map (dist ds' cols (to i)) (seq 0 rows)).
Proof.
  intros HR Hi. pose proof HR as (R1 & R2 & _).
  replace (map (dist ds cols i) (seq 0 rows)) with (map (dist ds' cols (to i)) (map to (seq 0 rows))).
  - apply Permutation_map. apply perm_seq; assumption.
  - rewrite map_map. apply map_ext_in. intros j Hj. apply in_seq in Hj. symmetry. apply (dist_moved ds ds' rows cols to); [exact HR|exact Hi|lia].
Qed.

Lemma perm_filter {A} (f : A -> bool) l l' : Permutation l l' -> Permutation (filter f l) (filter f l').
Proof.
  intros H. induction H as [|x l l' _ IH|x y l|l1 l2 l3 _ IH1 _ IH2]; cbn [filter].
  - constructor.
  - destruct (f x); [constructor; exact IH|exact IH].
  - destruct (f x), (f y); try reflexivity. apply perm_swap.
  - eapply Permutation_trans; eassumption.
Qed.
Lemma filter_le {A} (f g : A -> bool) l : (forall x, In x l -> f x = true -> g x = true) -> length (filter f l) <= length (filter g l).
Proof.
  induction l as [|x l IH]; intros H; cbn [filter]; [lia|]. specialize (IH (fun y Hy => H y (or_intror Hy))). specialize (H x (or_introl eq_refl)).
  destruct (f x); [rewrite (H eq_refl); cbn [length]; lia|destruct (g x); cbn [length]; lia].
Qed.
Lemma kth_le k row row' c c' : Permutation row row' -> notnan c -> notnan c' -> kth_smallest k row c -> kth_smallest k row' c' -> fle c c' = true.
Proof.
  intros P Nc Nc' (_ & K1 & _) (_ & _ & K2). destruct (fle c c') eqn:E; [reflexivity|exfalso].
  assert (Hlt : flt c' c = true).
  { apply flt_intro; [exact Nc'|exact Nc|]. destruct (Z.lt_ge_cases (fkey c') (fkey c)) as [H|H]; [exact H|]. rewrite fle_intro in E; [discriminate E|exact Nc|exact Nc'|exact H]. }
  pose proof (filter_le (fun v => fle v c') (fun v => flt v c) row') as HF.
  rewrite (Permutation_length (perm_filter (fun v => flt v c) row row' P)) in K1.
  assert (length (filter (fun v => fle v c') row') <= length (filter (fun v => flt v c) row')) by (apply HF; intros v _ Hv; apply (fle_lt_lt v c' c); assumption).
  lia.
Qed.

Lemma core_moved ds ds' rows cols to m d d' : 1 <= rows -> (Z.of_nat rows <= 65536)%Z -> holds ds rows cols -> holds ds' rows cols -> 2 <= m <= rows ->
  reordered ds ds' rows cols to -> distinct_distances ds rows cols \/ m = 2 ->
  distance_compute ds rows cols (Z.of_nat m - 1) = Ok d -> distance_compute ds' rows cols (Z.of_nat m - 1) = Ok d' ->
  forall i, i < rows -> exists c c', nth_error (d_core d) i = Some (Some c) /\ nth_error (d_core d') (to i) = Some (Some c') /\ fle c c' = true /\ fle c' c = true.
Proof.
  intros Hr1 Hr HL HL' Hm HR Hd Ed Ed' i Hi. assert (HM : (M32 = 4294967296)%Z) by reflexivity. pose proof HR as (R1 & _).
  destruct (dist_core ds rows cols (Z.of_nat m - 1)%Z d Hr1 Hr HL ltac:(lia) Ed i Hi) as (c & C1 & C2).
  destruct (dist_core ds' rows cols (Z.of_nat m - 1)%Z d' Hr1 Hr HL' ltac:(lia) Ed' (to i) (R1 i Hi)) as (c' & C1' & C2').
  exists c, c'. split; [exact C1|]. split; [exact C1'|]. replace (Z.to_nat (Z.of_nat m - 1 + 1)) with m in C2, C2' by lia.
  pose proof (row_perm ds ds' rows cols to i HR Hi) as P. pose proof (perm_filter below _ _ P) as PF.
  set (row := map (dist ds cols i) (seq 0 rows)) in *. set (row' := map (dist ds' cols (to i)) (seq 0 rows)) in *.
  assert (D1 : NoDup (map fkey (filter below row)) \/ m = 2) by (destruct Hd as [Hd|Hd]; [left; apply (Hd i Hi)|right; exact Hd]).
  assert (D2 : NoDup (map fkey (filter below row')) \/ m = 2) by (destruct D1 as [D|D]; [left; apply (Permutation_NoDup (Permutation_map fkey PF) D)|right; exact D]).
  destruct (core_row_kth m row ltac:(lia) ltac:(destruct D1; [left; assumption|right; lia])) as (x & X1 & X2 & X3). rewrite C2 in X1. injection X1 as <-.
  destruct (core_row_kth m row' ltac:(lia) ltac:(destruct D2; [left; assumption|right; lia])) as (x & Y1 & Y2 & Y3). rewrite C2' in Y1. injection Y1 as <-.
  pose proof (Permutation_length PF) as EL.
  destruct (Nat.le_gt_cases m (length (filter below row))) as [H|H].
  - destruct (X2 H) as (A1 & A2 & A3). rewrite EL in H. destruct (Y2 H) as (B1 & B2 & B3).
    assert (N1 : notnan c) by (apply flt_true in A2; apply A2). assert (N2 : notnan c') by (apply flt_true in B2; apply B2).
    split; [apply (kth_le m row row')|apply (kth_le m row' row)]; try assumption; try (split; assumption). apply Permutation_sym. exact P.
  - rewrite (X3 H). rewrite EL in H. rewrite (Y3 H). split; reflexivity.
Qed.

Lemma moved_sym ds ds' cols i j : moved ds ds' cols i j -> moved ds' ds cols j i.
Proof. intros H. destruct ds, ds'; cbn [moved] in *; try contradiction; intros k Hk; symmetry; apply H; exact Hk. Qed.
Lemma reordered_back ds ds' rows cols to : reordered ds ds' rows cols to ->
  exists back, reordered ds' ds rows cols back /\ forall i, i < rows -> back i < rows /\ back (to i) = i /\ to (back i) = i.
Proof.
  intros (R1 & R2 & R3). destruct (@bSurjective_bBijective rows to R1 (proj1 (@bInjective_bSurjective rows to R1) R2)) as (g & G1 & G2).
  exists g. split.
  - split; [exact G1|]. split; [intros i j Hi Hj E; rewrite <- (proj2 (G2 i Hi)), <- (proj2 (G2 j Hj)), E; reflexivity|].
    intros i Hi. apply moved_sym. rewrite <- (proj2 (G2 i Hi)) at 2. apply R3, G1, Hi.
  - intros i Hi. split; [apply G1, Hi|]. apply G2, Hi.
Qed.

Lemma agree_moved ds ds' rows cols to m d d' : 1 <= rows -> (Z.of_nat rows <= 65536)%Z -> holds ds rows cols -> holds ds' rows cols -> 2 <= m <= rows ->
  reordered ds ds' rows cols to -> distinct_distances ds rows cols \/ m = 2 ->
  distance_compute ds rows cols (Z.of_nat m - 1) = Ok d -> distance_compute ds' rows cols (Z.of_nat m - 1) = Ok d' -> agree d d' rows to.
Proof.
  intros Hr1 Hr HL HL' Hm HR Hd Ed Ed'. assert (HM : (M32 = 4294967296)%Z) by reflexivity. pose proof HR as (R1 & _). constructor.
  - intros i j Hi Hj. rewrite (dist_get ds rows cols (Z.of_nat m - 1)%Z d Hr1 Hr HL ltac:(lia) Ed i j Hi Hj).
    rewrite (dist_get ds' rows cols (Z.of_nat m - 1)%Z d' Hr1 Hr HL' ltac:(lia) Ed' _ _ (R1 i Hi) (R1 j Hj)). f_equal. apply (dist_moved ds ds' rows cols to); assumption.
  - intros i c Hi Hc. destruct (core_moved ds ds' rows cols to m d d' Hr1 Hr HL HL' Hm HR Hd Ed Ed' i Hi) as (c0 & c' & C1 & C2 & C3). rewrite Hc in C1. injection C1 as <-. exists c'. auto.
Qed.

Lemma distinct_moved ds ds' rows cols to : reordered ds ds' rows cols to -> distinct_distances ds rows cols -> distinct_distances ds' rows cols.
Proof.
  intros HR HD i Hi. destruct (reordered_back ds ds' rows cols to HR) as (g & _ & G). destruct (G i Hi) as (G1 & _ & G3).
  pose proof (row_perm ds ds' rows cols to (g i) HR G1) as P. rewrite G3 in P.
  apply (Permutation_NoDup (Permutation_map fkey (perm_filter (fun v => flt v D_MAX) _ _ P))). apply (HD (g i) G1).
Qed.

(** The rows in any order give the same clusters and the same scores. *)
Theorem C67_row_order : forall ds ds' rows cols to minPts fuel s qsort fuel' s' qsort',
  5 <= rows -> (Z.of_nat rows <= 65536)%Z -> holds ds rows cols -> holds ds' rows cols -> 2 <= minPts <= rows ->
  (forall i j, i < j -> j < rows -> flt (euclidean ds cols i j) D_MAX = true) ->
  2 * rows - 1 <= fuel -> valid s -> sorts qsort -> 2 * rows - 1 <= fuel' -> valid s' -> sorts qsort' ->
  reordered ds ds' rows cols to -> distinct_distances ds rows cols \/ minPts = 2 ->
  exists o r o' r', fresh_run fuel s qsort (Z.of_nat minPts) ds rows cols true = Ok o /\ o_res o = Some r /\
    fresh_run fuel' s' qsort' (Z.of_nat minPts) ds' rows cols true = Ok o' /\ o_res o' = Some r' /\
    (forall l c, 2 <= l -> cluster_in (r_clusters r) l c -> exists l' c', 2 <= l' /\ cluster_in (r_clusters r') l' c' /\ feq (c_birth c) (c_birth c') = true /\
       forall v, v < rows -> point_of r l v <-> point_of r' l' (to v)) /\
    (forall l' c', 2 <= l' -> cluster_in (r_clusters r') l' c' -> exists l c, 2 <= l /\ cluster_in (r_clusters r) l c /\ feq (c_birth c) (c_birth c') = true /\
       forall v, v < rows -> point_of r l v <-> point_of r' l' (to v)) /\
    (forall i x y, i < rows -> In x (r_outliers r) -> In y (r_outliers r') -> os_id x = Z.of_nat i -> os_id y = Z.of_nat (to i) ->
       os_score x = os_score y /\ feq (os_core x) (os_core y) = true).
Proof.
  intros ds ds' rows cols to m fuel s q fuel' s' q' Hr1 Hr HL HL' Hm Hfin Hf Hs Hq Hf' Hs' Hq' HR Hd.
  destruct (reordered_back ds ds' rows cols to HR) as (back & HRb & HB). pose proof HR as (R1 & R2 & R3).
  assert (Hfin' : forall i j, i < j -> j < rows -> flt (euclidean ds' cols i j) D_MAX = true).
  { pose proof HRb as (B1 & B2 & B3). intros i j Hij Hj. rewrite (euclidean_moved ds' ds cols i j (back i) (back j)) by (apply B3; lia).
    destruct (Nat.lt_trichotomy (back i) (back j)) as [H|[H|H]]; [apply Hfin; [exact H|apply B1; lia]|apply B2 in H; lia|rewrite euclidean_sym; apply Hfin; [exact H|apply B1; lia]]. }
  destruct (C64_run_is_hdbscan ds rows cols m fuel s q Hr1 Hr HL Hm Hfin Hf Hs Hq) as (d & o & r & _ & _ & Ed & _ & Eo & Er & HT & _ & _).
  destruct (C65_scores_from_data ds rows cols m fuel s q Hr1 Hr HL Hm Hfin Hf Hs Hq) as (d1 & o1 & r1 & Ed1 & Eo1 & Er1 & _ & _ & HS).
  rewrite Ed in Ed1. injection Ed1 as <-. rewrite Eo in Eo1. injection Eo1 as <-. rewrite Er in Er1. injection Er1 as <-.
  destruct (C64_run_is_hdbscan ds' rows cols m fuel' s' q' Hr1 Hr HL' Hm Hfin' Hf' Hs' Hq') as (d' & o' & r' & _ & _ & Ed' & _ & Eo' & Er' & HT' & _ & _).
  destruct (C65_scores_from_data ds' rows cols m fuel' s' q' Hr1 Hr HL' Hm Hfin' Hf' Hs' Hq') as (d1 & o1 & r1 & Ed1 & Eo1 & Er1 & _ & _ & HS').
  rewrite Ed' in Ed1. injection Ed1 as <-. rewrite Eo' in Eo1. injection Eo1 as <-. rewrite Er' in Er1. injection Er1 as <-.
  exists o, r, o', r'. split; [exact Eo|]. split; [exact Er|]. split; [exact Eo'|]. split; [exact Er'|].
  assert (Hd' : distinct_distances ds' rows cols \/ m = 2) by (destruct Hd as [H|H]; [left; apply (distinct_moved ds ds' rows cols to HR H)|right; exact H]).
  assert (HP : paired d d' rows to back).
  { constructor; [exact R1|intros i Hi; apply (HB i Hi)|intros i Hi; apply (HB i Hi)|intros i Hi; apply (HB i Hi)| |].
    - apply (agree_moved ds ds' rows cols to m); try assumption; lia.
    - apply (agree_moved ds' ds rows cols back m); try assumption; lia. }
  split; [|split].
  - apply (cluster_to d d' rows m to back r r'); [lia|assumption..].
  - intros l' c' Hl' Hc'. destruct (cluster_to d' d rows m back to r' r (proj1 Hm) (paired_sym _ _ _ _ _ HP) HT' HT l' c' Hl' Hc') as (l & c & L1 & L2 & L3 & L4).
    exists l, c. split; [exact L1|]. split; [exact L2|]. split; [apply feq_true in L3; destruct L3 as (B1 & B2 & B3); apply feq_intro; auto|].
    intros v Hv. rewrite (L4 (to v) (R1 v Hv)). rewrite (proj1 (proj2 (HB v Hv))). reflexivity.
  - intros i x y Hi Hx Hy Ex Ey. destruct (HS x Hx) as (v & _ & V1 & V2 & V3). destruct (HS' y Hy) as (v' & _ & V1' & V2' & V3').
    assert (v = i) by lia. assert (v' = to i) by lia. subst v v'. split; [apply (glosh_to d d' rows m to back r r' i); auto; lia|].
    destruct (core_moved ds ds' rows cols to m d d' ltac:(lia) Hr HL HL' Hm HR Hd Ed Ed' i Hi) as (c & c' & C1 & C2 & C3 & C4).
    rewrite V2 in C1. injection C1 as <-. rewrite V2' in C2. injection C2 as <-.
    apply fle_true in C3. apply fle_true in C4. destruct C3 as (N1 & N2 & C3), C4 as (_ & _ & C4). apply feq_intro; [exact N1|exact N2|]. clear -C3 C4. lia.
Qed.
Print Assumptions C67_row_order.

Definition labels_of (r : res hdb) : list nat := match r with Ok o => match o_res o with Some r => r_labels r | None => [] end | _ => [] end.
Definition line_of (l : list Z) : dataset := DDouble (map f_of_Z l).
Definition to_by (l : list nat) (i : nat) : nat := nth i l 0.

Definition reorderedb (l l' : list Z) (to : list nat) : bool :=
  (length l' =? length l) && forallb (fun i => (to_by to i <? length l) && (nth i l 0 =? nth (to_by to i) l' 0)%Z &&
    forallb (fun j => (i =? j) || negb (to_by to i =? to_by to j)) (seq 0 (length l))) (seq 0 (length l)).
Lemma reorderedb_spec l l' to : reorderedb l l' to = true -> reordered (line_of l) (line_of l') (length l) 1 (to_by to).
Proof.
  intros H. apply andb_true_iff in H. destruct H as [HL H]. apply Nat.eqb_eq in HL. rewrite forallb_forall in H.
  assert (H' : forall i, i < length l -> to_by to i < length l /\ nth i l 0%Z = nth (to_by to i) l' 0%Z /\ forall j, j < length l -> to_by to i = to_by to j -> i = j).
  { intros i Hi. specialize (H i ltac:(apply in_seq; lia)). apply andb_true_iff in H. destruct H as [H H3]. apply andb_true_iff in H. destruct H as [H1 H2].
    split; [apply Nat.ltb_lt; exact H1|]. split; [apply Z.eqb_eq; exact H2|]. intros j Hj E. rewrite forallb_forall in H3. specialize (H3 j ltac:(apply in_seq; lia)).
    rewrite E, Nat.eqb_refl in H3. cbn in H3. rewrite orb_false_r in H3. apply Nat.eqb_eq. exact H3. }
  split; [intros i Hi; apply H'; exact Hi|]. split; [intros i j Hi Hj E; apply (proj2 (proj2 (H' i Hi))); assumption|].
  intros i Hi k Hk. replace k with 0 by lia. rewrite !Nat.mul_1_r, !Nat.add_0_r. destruct (H' i Hi) as (A & B & _).
  rewrite (map_nth_error f_of_Z i l (nth_error_nth' l 0%Z Hi)). rewrite (map_nth_error f_of_Z _ l' (nth_error_nth' l' 0%Z (n := to_by to i) ltac:(lia))). rewrite B. reflexivity.
Qed.

(** Non-vacuity: six points in two orders. *)
Definition order_a : list Z := [0; 1; 3; 10; 12; 15]%Z.
Definition order_b : list Z := [12; 3; 0; 15; 1; 10]%Z.
Definition moved_ab : list nat := [2; 4; 1; 5; 0; 3].
Example order_met : holds (line_of order_a) 6 1 /\ holds (line_of order_b) 6 1 /\ reordered (line_of order_a) (line_of order_b) 6 1 (to_by moved_ab) /\
  forallb (fun j => forallb (fun i => flt (euclidean (line_of order_a) 1 i j) D_MAX) (seq 0 j)) (seq 0 6) = true /\
  distinct_distances (line_of order_a) 6 1 /\
  labels_of (fresh_run 11 in_turn insertion_sort 3 (line_of order_a) 6 1 true) = [2; 2; 2; 3; 3; 3].
Proof.
  split; [apply holds_double; reflexivity|]. split; [apply holds_double; reflexivity|]. split; [apply (reorderedb_spec order_a order_b moved_ab); reflexivity|].
  split; [vm_compute; reflexivity|]. split; [|vm_compute; reflexivity].
  intros i Hi. do 6 (destruct i as [|i]; [vm_compute; repeat constructor; cbn; intuition discriminate|]). lia.
Qed.

(** The labels may depend on the order of the rows.  The stability of a cluster is a sum of
    doubles in an order the rows determine, and where it ties with the sum of the cluster's
    descendants, rounding decides.  Eleven integers, minPts 2: rows 0 and 3 lie in two
    different clusters, and in one and the same cluster when the rows come in another order. *)
Definition tie_a : list Z := [44; 54; 34; 51; 40; 49; 11; 18; 46; 41; 17]%Z.
Definition tie_b : list Z := [49; 18; 40; 17; 44; 54; 51; 34; 41; 11; 46]%Z.
Definition tie_ab : list nat := [4; 5; 7; 6; 2; 0; 9; 1; 10; 8; 3].
Theorem C67_labels_depend_on_the_order_refuted :
  exists ds ds' to i j, holds ds 11 1 /\ holds ds' 11 1 /\ reordered ds ds' 11 1 to /\ i < 11 /\ j < 11 /\
    let la := labels_of (fresh_run 21 in_turn insertion_sort 2 ds 11 1 true) in
    let lb := labels_of (fresh_run 21 in_turn insertion_sort 2 ds' 11 1 true) in
    length la = 11 /\ length lb = 11 /\
    nth i la 0 <> 0 /\ nth j la 0 <> 0 /\ nth i la 0 <> nth j la 0 /\
    nth (to i) lb 0 <> 0 /\ nth (to i) lb 0 = nth (to j) lb 0.
Proof.
  exists (line_of tie_a), (line_of tie_b), (to_by tie_ab), 0, 3. split; [apply holds_double; reflexivity|]. split; [apply holds_double; reflexivity|].
  split; [apply (reorderedb_spec tie_a tie_b tie_ab); reflexivity|]. split; [lia|]. split; [lia|]. cbv zeta.
  assert (Ea : labels_of (fresh_run 21 in_turn insertion_sort 2 (line_of tie_a) 11 1 true) = [4; 0; 0; 5; 6; 5; 3; 3; 4; 6; 3]) by (vm_compute; reflexivity).
  assert (Eb : labels_of (fresh_run 21 in_turn insertion_sort 2 (line_of tie_b) 11 1 true) = [3; 2; 3; 2; 3; 3; 3; 3; 3; 2; 3]) by (vm_compute; reflexivity).
  rewrite Ea, Eb. cbn. repeat split; discriminate.
Qed.
Print Assumptions C67_labels_depend_on_the_order_refuted.

(** With equal distances in a row and minPts above 2 the core distances themselves depend on
    the order (C17).  Seven distinct integers, minPts 3: no cluster in one order, two in another. *)
Definition few_a : list Z := [0; 3; 11; 10; 6; 13; 5]%Z.
Definition few_b : list Z := [11; 3; 6; 13; 0; 5; 10]%Z.
Definition few_ab : list nat := [4; 1; 0; 6; 2; 3; 5].
Theorem C67_equal_distances_refuted :
  exists ds ds' to, holds ds 7 1 /\ holds ds' 7 1 /\ reordered ds ds' 7 1 to /\
    labels_of (fresh_run 13 in_turn insertion_sort 3 ds 7 1 true) = [0; 0; 0; 0; 0; 0; 0] /\
    labels_of (fresh_run 13 in_turn insertion_sort 3 ds' 7 1 true) = [3; 2; 2; 3; 0; 2; 3].
Proof.
  exists (line_of few_a), (line_of few_b), (to_by few_ab). split; [apply holds_double; reflexivity|]. split; [apply holds_double; reflexivity|].
  split; [apply (reorderedb_spec few_a few_b few_ab); reflexivity|]. split; vm_compute; reflexivity.
Qed.
Print Assumptions C67_equal_distances_refuted.
