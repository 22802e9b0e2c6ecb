(** C76: integer data; the results depend on the distances between the rows only. *)
From Coq Require Import Reals Lra Permutation Sorted.
From Flocq Require Import Core.Core IEEE754.BinarySingleNaN.
From Verif Require Import Base F64 F64Facts F64Arith ListFacts ModelUtils ModelDistance ModelMst ModelGraph ModelCluster ModelHier ModelSelect ModelRun SpecGraph SpecHier SpecTree SpecMain
  PropUtils ProofDistance PropDistance PropMst ProofRun PropRun PropInvariance ProofStab ProofPair F64Scale ProofScale PropScale.
From Coq Require Import ZifyBool ZifyNat.
Local Open Scope nat_scope.

(** ** Specification *)

(** The exact square of the distance of the rows [i] and [j] of integer data. *)
Definition sqdist (l : list Z) (cols i j : nat) : Z :=
  fold_right Z.add 0%Z (map (fun c => (nth (i * cols + c) l 0 - nth (j * cols + c) l 0) ^ 2)%Z (seq 0 cols)).
(** The double nearest to a real number (ties to even; doubles have 53 bits and exponents
    from -1074). *)
Definition nearest_double (r : R) : R := round radix2 (FLT_exp (-1074) 53) ZnearestE r.
(** The same object after a run, but for the width of the dataset it remembers. *)
Definition same_object (o o' : hdb) : Prop :=
  o_res o = o_res o' /\ o_min o = o_min o' /\ o_n o = o_n o' /\
  exists d d', o_dist o = Some d /\ o_dist o' = Some d' /\ d_core d = d_core d' /\ d_dist d = d_dist d' /\ d_rows d = d_rows d'.

(** ** Proofs *)
Lemma ints_diff e l a b : ints e = Some l -> coord_diff e a b = f_of_Z (nth a l 0 - nth b l 0)%Z.
Proof. unfold ints, coord_diff. destruct e; intros X; try discriminate X; injection X as ->; reflexivity. Qed.
Lemma rnd_Z z : (Z.abs z <= 2 ^ 53)%Z -> rnd (IZR z) = IZR z.
Proof.
  intros Hz. assert (H : forall y, (0 <= y <= 2 ^ 53)%Z -> rnd (IZR y) = IZR y).
  { intros y Hy. pose proof (grid_format y 0 Hy ltac:(lia)) as H. cbn [bpow] in H. rewrite Rmult_1_r in H. exact H. }
  destruct (Z_le_gt_dec 0 z) as [H0|H0]; [apply H; lia|]. replace z with (- (- z))%Z by lia. rewrite opp_IZR. unfold rnd. rewrite round_NE_opp. f_equal. apply H. lia.
Qed.
Lemma f_of_Z_exact z : (Z.abs z <= 2 ^ 53)%Z -> is_finite (f_of_Z z) = true /\ B2R (f_of_Z z) = IZR z.
Proof. intros Hz. destruct (f_of_Z_round z) as [F V]; [assert (2 ^ 53 <= 2 ^ 100)%Z by (vm_compute; discriminate); lia|]. rewrite rnd_Z in V by exact Hz. auto. Qed.
(** A double that is a natural number, with a plus sign. *)
Definition nat_double (x : f64) (z : Z) : Prop := is_finite x = true /\ B2R x = IZR z /\ Bsign x = false.
Lemma nat_double_eq x y z : nat_double x z -> nat_double y z -> x = y.
Proof. intros (F & V & S) (F' & V' & S'). apply B2R_Bsign_inj; congruence. Qed.
Lemma under53 z : (Z.abs z <= 2 ^ 53)%Z -> (Rabs (IZR z) < big)%R.
Proof.
  intros Hz. apply Rle_lt_trans with (p2 53); [rewrite <- abs_IZR; change (p2 53) with (IZR (2 ^ 53)); apply IZR_le; exact Hz|]. unfold big. apply bpow_lt. lia.
Qed.
Lemma square_exact z : (z ^ 2 <= 2 ^ 53)%Z -> nat_double (fmul (f_of_Z z) (f_of_Z z)) (z ^ 2).
Proof.
  intros Hz. assert (Ha : (Z.abs z <= 2 ^ 53)%Z) by nia. destruct (f_of_Z_exact z Ha) as [F V].
  pose proof (Bmult_correct 53 1024 Hprec Hmax mode_NE (f_of_Z z) (f_of_Z z)) as H. fold (fmul (f_of_Z z) (f_of_Z z)) in H. rewrite V, <- mult_IZR in H. fold (rnd (IZR (z * z))) in H. rewrite rnd_Z in H by nia.
  fold big in H. rewrite Rlt_bool_true in H by (apply under53; nia). rewrite F in H. destruct H as (H1 & H2 & H3).
  split; [exact H2|]. split; [rewrite H1; f_equal; ring|]. destruct (fsquare_unsigned (f_of_Z z)) as [HN|HS]; [|exact HS]. apply finite_nan in H2. unfold fisnan in HN. congruence.
Qed.
Lemma add_exact x y a b : nat_double x a -> nat_double y b -> (0 <= a)%Z -> (0 <= b)%Z -> (a + b <= 2 ^ 53)%Z -> nat_double (fadd x y) (a + b).
Proof.
  intros (F & V & S) (F' & V' & S') Ha Hb Hab.
  pose proof (Bplus_correct 53 1024 Hprec Hmax mode_NE x y F F') as H. fold (fadd x y) in H. rewrite V, V', <- plus_IZR in H. fold (rnd (IZR (a + b))) in H. rewrite rnd_Z in H by lia.
  fold big in H. rewrite Rlt_bool_true in H by (apply under53; lia). destruct H as (H1 & H2 & H3). split; [exact H2|]. split; [exact H1|].
  destruct (fadd_unsigned x y (or_intror S) (or_intror S')) as [HN|HS]; [|exact HS]. apply finite_nan in H2. unfold fisnan in HN. congruence.
Qed.
Lemma sum_squares (f : nat -> Z) : forall l, (0 <= fold_right Z.add 0 (map (fun c => f c ^ 2) l))%Z.
Proof. induction l as [|c l IH]; cbn [map fold_right]; nia. Qed.
Lemma euclid_exact ds l cols i j : ints ds = Some l -> (sqdist l cols i j <= 2 ^ 53)%Z ->
  exists x, nat_double x (sqdist l cols i j) /\ euclidean ds cols i j = fsqrt x.
Proof.
  intros HI. unfold euclidean, sqdist. set (f := fun c => (nth (i * cols + c) l 0 - nth (j * cols + c) l 0)%Z).
  assert (H : forall cs a x, nat_double x a -> (0 <= a)%Z -> (a + fold_right Z.add 0 (map (fun c => f c ^ 2) cs) <= 2 ^ 53)%Z ->
    nat_double (fold_left (fun sum k => let diff := coord_diff ds (i * cols + k) (j * cols + k) in fadd sum (fmul diff diff)) cs x) (a + fold_right Z.add 0 (map (fun c => f c ^ 2) cs))%Z).
  { induction cs as [|c cs IH]; intros a x Hx Ha Hs; cbn [map fold_right fold_left] in *; [rewrite Z.add_0_r; exact Hx|].
    pose proof (sum_squares f cs) as HP. rewrite Z.add_assoc in *. cbn zeta. rewrite (ints_diff ds l _ _ HI). fold (f c). apply IH; [|nia|exact Hs]. apply add_exact; [exact Hx|apply square_exact; nia|exact Ha|nia|nia]. }
  intros Hs. eexists. split; [|reflexivity]. apply (H (seq 0 cols) 0%Z fzero); [repeat split|lia|exact Hs].
Qed.
Lemma sqrt_exact x z : nat_double x z -> (0 <= z)%Z -> is_finite (fsqrt x) = true /\ B2R (fsqrt x) = nearest_double (sqrt (IZR z)).
Proof.
  intros (F & V & S) Hz. pose proof (Bsqrt_correct 53 1024 Hprec Hmax mode_NE x) as (H1 & H2 & _). fold (fsqrt x) in H1, H2. rewrite V in H1. split; [|exact H1].
  rewrite H2. destruct x as [s|s| |s m e B]; try discriminate F; [reflexivity|]. cbn in S. subst s. reflexivity.
Qed.

(** Runs on datasets whose distances are equal. *)
Lemma for_up_same {S} (body body' : nat -> S -> res S) : forall n k s, (forall i s, k <= i < k + n -> body i s = body' i s) -> for_up k n body s = for_up k n body' s.
Proof.
  induction n as [|n IH]; intros k s H; [reflexivity|]. cbn [for_up]. rewrite (H k s) by lia. destruct (body' k s); cbn [bind]; try reflexivity. apply IH. intros; apply H; lia.
Qed.
Lemma do_run_cols fuel s q d c a n sf r o : do_run fuel s q (mk_hdb a n sf (Some d) (Some []) r) = Ok o ->
  exists o', do_run fuel s q (mk_hdb a n sf (Some (mk_distance (d_rows d) c (d_k d) (d_dist d) (d_core d))) (Some []) r) = Ok o' /\
    o_res o = o_res o' /\ o_min o = o_min o' /\ o_n o = o_n o' /\ o_dist o = Some d /\ o_dist o' = Some (mk_distance (d_rows d) c (d_k d) (d_dist d) (d_core d)).
Proof.
  unfold do_run. cbn [o_dist o_clusters o_n o_self o_min]. destruct d as [r0 c0 k0 m0 co0]. cbn [d_rows d_k d_dist d_core].
  change (construct_mst (mk_distance r0 c k0 m0 co0) n sf) with (construct_mst (mk_distance r0 c0 k0 m0 co0) n sf).
  destruct (construct_mst _ n sf) as [e0| | |]; cbn [bind]; try (intros H; discriminate H).
  destruct (graph_init n e0) as [adj| | |]; cbn [bind]; try (intros H; discriminate H).
  destruct (graph_quicksort_by_edge_weight e0) as [e| | |]; cbn [bind]; try (intros H; discriminate H).
  destruct (compute_hierarchy_from _ _ _ _ _ _ _) as [h| | |]; cbn [bind]; try (intros H; discriminate H).
  destruct (propagate_tree _ _ _) as [[[inf cs] tr]| | |]; cbn [bind]; try (intros H; discriminate H).
  destruct (cget cs 1) as [root| | |]; cbn [bind]; try (intros H; discriminate H).
  destruct (find_prominent _ _ _ _ _) as [labels| | |]; cbn [bind]; try (intros H; discriminate H).
  destruct (outlier_scores _ _ _ _ _ _) as [os| | |]; cbn [bind]; try (intros H; discriminate H).
  intros H. injection H as <-. eexists. split; [reflexivity|]. cbn. repeat split; reflexivity.
Qed.
Lemma fill_same ds ds' rows cols cols' m : (forall i j, i < j -> j < rows -> pair_value ds cols i j = pair_value ds' cols' i j) -> fill_matrix ds rows cols m = fill_matrix ds' rows cols' m.
Proof.
  intros H. unfold fill_matrix. apply for_up_same. intros i s Hi. apply for_up_same. intros j s' Hj. unfold pair_step. rewrite H by lia. reflexivity.
Qed.
Lemma compute_same ds ds' rows cols cols' k d : (forall i j, i < j -> j < rows -> pair_value ds cols i j = pair_value ds' cols' i j) -> distance_compute ds rows cols k = Ok d ->
  distance_compute ds' rows cols' k = Ok (mk_distance (d_rows d) (Z.of_nat cols') (d_k d) (d_dist d) (d_core d)).
Proof.
  intros H. unfold distance_compute. rewrite (fill_same ds ds' rows cols cols' _ H). destruct (fill_matrix ds' rows cols' _) as [m| | |]; cbn [bind]; try (intros X; discriminate X).
  unfold distance_get_core_distances. cbn [d_rows d_cols d_k d_dist d_core].
  assert (E : forall c i, core_of (mk_distance (Z.of_nat rows) c k m (repeat None rows)) i = core_of (mk_distance (Z.of_nat rows) 0 k m (repeat None rows)) i) by reflexivity.
  rewrite (for_up_same _ (fun i core => let! c := core_of (mk_distance (Z.of_nat rows) 0 k m (repeat None rows)) i in zset core (Z.of_nat i) c)) by (intros; rewrite E; reflexivity).
  destruct (for_up 0 _ _ _) as [core| | |] eqn:EC; cbn [bind]; try (intros X; discriminate X). intros X. injection X as <-. cbn [d_rows d_k d_dist d_core].
  reflexivity.
Qed.
Lemma run_same fuel s q mp ds ds' rows cols cols' o : (forall i j, i < j -> j < rows -> pair_value ds cols i j = pair_value ds' cols' i j) ->
  fresh_run fuel s q mp ds rows cols true = Ok o -> exists o', fresh_run fuel s q mp ds' rows cols' true = Ok o' /\ same_object o o'.
Proof.
  intros H. unfold fresh_run. destruct (hdbscan_init mp) as [o0| | |]; cbn [bind]; try (intros X; discriminate X). unfold hdbscan_run.
  destruct (distance_compute ds rows cols _) as [d| | |] eqn:Ed; cbn [bind]; try (intros X; discriminate X). rewrite (compute_same _ _ _ _ _ _ _ H Ed). cbn [bind].
  change (dataset_size rows cols true) with rows. change (dataset_size rows cols' true) with rows. destruct (cluster_capacity rows =? 0); [intros X; discriminate X|].
  intros X. destruct (do_run_cols _ _ _ _ (Z.of_nat cols') _ _ _ _ _ X) as (o' & E & R1 & R2 & R3 & D1 & D2). exists o'. split; [exact E|]. split; [exact R1|]. split; [exact R2|]. split; [exact R3|].
  do 2 eexists. split; [exact D1|]. split; [exact D2|]. repeat split.
Qed.
Lemma pairs_same ds ds' rows cols cols' : holds ds rows cols -> holds ds' rows cols' -> (forall i j, i < j -> j < rows -> euclidean ds cols i j = euclidean ds' cols' i j) ->
  forall i j, i < j -> j < rows -> pair_value ds cols i j = pair_value ds' cols' i j.
Proof. intros HL HL' H i j Hi Hj. rewrite (pair_value_ok ds rows cols i j HL (conj Hi Hj)), (pair_value_ok ds' rows cols' i j HL' (conj Hi Hj)), H by assumption. reflexivity. Qed.
Lemma sq_opp x : fmul (f_of_Z (- x)) (f_of_Z (- x)) = fmul (f_of_Z x) (f_of_Z x) \/ ~ (Z.abs x <= 2 ^ 100)%Z.
Proof.
  destruct (Z_le_gt_dec (Z.abs x) (2 ^ 100)) as [Hx|Hx]; [left|right; lia].
  destruct (f_of_Z_round x Hx) as [F V]. destruct (f_of_Z_round (- x) ltac:(lia)) as [F' V']. rewrite opp_IZR in V'. replace (rnd (- IZR x)) with (- rnd (IZR x))%R in V' by (symmetry; apply round_NE_opp). rewrite <- V in V'.
  pose proof (Bmult_correct 53 1024 Hprec Hmax mode_NE (f_of_Z x) (f_of_Z x)) as H. fold (fmul (f_of_Z x) (f_of_Z x)) in H.
  pose proof (Bmult_correct 53 1024 Hprec Hmax mode_NE (f_of_Z (- x)) (f_of_Z (- x))) as H'. fold (fmul (f_of_Z (- x)) (f_of_Z (- x))) in H'. rewrite V' in H'.
  replace (- B2R (f_of_Z x) * - B2R (f_of_Z x))%R with (B2R (f_of_Z x) * B2R (f_of_Z x))%R in H' by ring.
  assert (HB : (Rabs (rnd (B2R (f_of_Z x) * B2R (f_of_Z x))) <= p2 200)%R).
  { apply rnd_bound; [lia|]. assert (B : (Rabs (B2R (f_of_Z x)) <= p2 100)%R).
    { rewrite V. apply rnd_bound; [lia|]. rewrite <- abs_IZR. change (p2 100) with (IZR (2 ^ 100)). apply IZR_le. exact Hx. }
    rewrite Rabs_mult. change 200%Z with (100 + 100)%Z. rewrite bpow_plus. apply Rmult_le_compat; try apply Rabs_pos; exact B. }
  fold (rnd (B2R (f_of_Z x) * B2R (f_of_Z x))) in H, H'. rewrite Rlt_bool_true in H by (apply (under_big0 _ _ HB); apply bpow_le; lia). rewrite Rlt_bool_true in H' by (apply (under_big0 _ _ HB); apply bpow_le; lia).
  rewrite F in H. rewrite F' in H'. destruct H as (H1 & H2 & _), H' as (H1' & H2' & _). apply B2R_Bsign_inj; [exact H2'|exact H2|congruence|].
  destruct (fsquare_unsigned (f_of_Z x)) as [HN|HS]; [apply finite_nan in H2; unfold fisnan in HN; cbn [andb] in *; congruence|].
  destruct (fsquare_unsigned (f_of_Z (- x))) as [HN|HS']; [apply finite_nan in H2'; unfold fisnan in HN; cbn [andb] in *; congruence|]. congruence.
Qed.

(** ** C76 *)
(** The distance [distance_get] returns for two rows of integers is the correctly rounded
    Euclidean distance, when its square is at most 2^53. *)
Theorem C76_integer_distances_are_exact ds l rows cols k :
  1 <= rows -> (Z.of_nat rows <= 65536)%Z -> ints ds = Some l -> holds ds rows cols -> (0 <= k < M32 - 1)%Z ->
  exists d, distance_compute ds rows cols k = Ok d /\
    forall i j, i < rows -> j < rows -> (sqdist l cols i j <= 2 ^ 53)%Z -> exists v, distance_get d (Z.of_nat i) (Z.of_nat j) = Ok v /\ is_finite v = true /\ B2R v = nearest_double (sqrt (IZR (sqdist l cols i j))).
Proof.
  intros H1 Hr HI HL Hk. destruct (C15_distance_get_euclidean ds rows cols k H1 Hr HL Hk) as (d & Ed & _ & _ & _ & HG). exists d. split; [exact Ed|]. intros i j Hi Hj Hs. destruct (HG i j Hi Hj) as [E _]. eexists. split; [exact E|].
  assert (HP : forall i j, (0 <= sqdist l cols i j)%Z) by (intros; apply (sum_squares (fun c => nth _ l 0 - nth _ l 0)%Z)).
  destruct (Nat.eqb_spec i j) as [->|Hn].
  - split; [reflexivity|]. replace (sqdist l cols j j) with 0%Z; [unfold nearest_double; rewrite sqrt_0, round_0; [reflexivity|typeclasses eauto]|].
    unfold sqdist. induction (seq 0 cols) as [|c cs IH]; [reflexivity|]. cbn [map fold_right]. rewrite <- IH, Z.sub_diag. reflexivity.
  - assert (HS : sqdist l cols (Nat.min i j) (Nat.max i j) = sqdist l cols i j).
    { unfold sqdist. destruct (Nat.le_ge_cases i j) as [Q|Q]; [rewrite Nat.min_l, Nat.max_r by exact Q; reflexivity|]. rewrite Nat.min_r, Nat.max_l by exact Q.
      induction (seq 0 cols) as [|c cs IH]; [reflexivity|]. cbn [map fold_right]. rewrite IH. f_equal. ring. }
    rewrite <- HS in *. destruct (euclid_exact ds l cols _ _ HI Hs) as (x & Hx & ->). apply sqrt_exact; [exact Hx|apply HP].
Qed.
Print Assumptions C76_integer_distances_are_exact.

(** Two integer datasets (of any integer types and widths) with the same exact distances:
    moved, mirrored, turned, with columns exchanged, or with constant columns added. *)
Theorem C76_isometric_integers fuel s qsort minPts ds ds' l l' rows cols cols' o :
  ints ds = Some l -> ints ds' = Some l' -> holds ds rows cols -> holds ds' rows cols' ->
  (forall i j, i < j -> j < rows -> sqdist l cols i j = sqdist l' cols' i j /\ (sqdist l cols i j <= 2 ^ 53)%Z) ->
  fresh_run fuel s qsort minPts ds rows cols true = Ok o ->
  exists o', fresh_run fuel s qsort minPts ds' rows cols' true = Ok o' /\ same_object o o'.
Proof.
  intros HI HI' HL HL' HS. apply run_same. apply pairs_same; [exact HL|exact HL'|]. intros i j Hi Hj. destruct (HS i j Hi Hj) as [E B].
  destruct (euclid_exact ds l cols i j HI B) as (x & Hx & ->). rewrite E in B, Hx. destruct (euclid_exact ds' l' cols' i j HI' B) as (x' & Hx' & ->). f_equal. apply (nat_double_eq _ _ _ Hx Hx').
Qed.
Print Assumptions C76_isometric_integers.

(** Without the bound on the distances: each column may be moved and mirrored. *)
Theorem C76_moved_and_mirrored_columns fuel s qsort minPts ds ds' l l' rows cols (t : nat -> Z) (mirrored : nat -> bool) o :
  ints ds = Some l -> ints ds' = Some l' -> holds ds rows cols -> holds ds' rows cols ->
  (forall i c, i < rows -> c < cols -> nth (i * cols + c) l' 0%Z = ((if mirrored c then - nth (i * cols + c) l 0 else nth (i * cols + c) l 0) + t c)%Z) ->
  fresh_run fuel s qsort minPts ds rows cols true = Ok o ->
  exists o', fresh_run fuel s qsort minPts ds' rows cols true = Ok o' /\ same_object o o'.
Proof.
  intros HI HI' HL HL' HS. apply run_same. apply pairs_same; [exact HL|exact HL'|]. intros i j Hi Hj. unfold euclidean. f_equal.
  assert (H : forall cs x, (forall c, In c cs -> c < cols) -> fold_left (fun sum k => let diff := coord_diff ds (i * cols + k) (j * cols + k) in fadd sum (fmul diff diff)) cs x =
    fold_left (fun sum k => let diff := coord_diff ds' (i * cols + k) (j * cols + k) in fadd sum (fmul diff diff)) cs x).
  { induction cs as [|c cs IH]; intros x Hc; [reflexivity|]. cbn [fold_left]. cbn zeta. rewrite (ints_diff ds l _ _ HI), (ints_diff ds' l' _ _ HI'). specialize (Hc c (or_introl eq_refl)) as Hcc.
    rewrite (HS i c ltac:(lia) Hcc), (HS j c Hj Hcc). rewrite IH by (intros; apply Hc; right; assumption). f_equal. f_equal.
    destruct HL as [_ HL]. specialize (HL l HI i j c (conj Hi Hj) Hcc). destruct (mirrored c).
    - replace (- nth (i * cols + c) l 0 + t c - (- nth (j * cols + c) l 0 + t c))%Z with (- (nth (i * cols + c) l 0 - nth (j * cols + c) l 0))%Z by ring.
      destruct (sq_opp (nth (i * cols + c) l 0 - nth (j * cols + c) l 0)%Z) as [E|E]; [symmetry; exact E|]. exfalso. apply E. assert (9223372036854775808 <= 2 ^ 100)%Z by (vm_compute; discriminate).
      unfold diff_fits in HL. destruct ds; lia.
    - replace (nth (i * cols + c) l 0 + t c - (nth (j * cols + c) l 0 + t c))%Z with (nth (i * cols + c) l 0 - nth (j * cols + c) l 0)%Z by ring. reflexivity. }
  apply H. intros c Hc. apply in_seq in Hc. lia.
Qed.
Print Assumptions C76_moved_and_mirrored_columns.

(** Six points on a line, as chars, and on a slanted line in the plane, as ints: the exact
    distances are equal, and a run finds three clusters. *)
Definition flat6 : list Z := [0; 10; 15; 100; 120; 125]%Z.
Definition slanted6 : list Z := [1000; -7; 1006; 1; 1009; 5; 1060; 73; 1072; 89; 1075; 93]%Z.
Example C76_example :
  holds (DChar flat6) 6 1 /\ holds (DInt slanted6) 6 2 /\
  (forall i j, i < j -> j < 6 -> sqdist flat6 1 i j = sqdist slanted6 2 i j /\ (sqdist flat6 1 i j <= 2 ^ 53)%Z) /\
  match fresh_run 11 (mk_schedule (fun k => seq 0 k) (fun k => seq 0 k) (fun k n => list_prod (seq 0 k) (seq 0 n))) (fun l => l) 2 (DChar flat6) 6 1 true with
  | Ok o => match o_res o with Some r => length (r_clusters r) = 4 | None => False end | _ => False end.
Proof.
  split; [|split; [|split]].
  - split; [reflexivity|]. intros l E. injection E as <-. intros i j c Hi Hc. unfold diff_fits. destruct i as [|[|[|[|[|[|?]]]]]], j as [|[|[|[|[|[|?]]]]]], c as [|?]; cbn; lia.
  - split; [reflexivity|]. intros l E. injection E as <-. intros i j c Hi Hc. unfold diff_fits. destruct i as [|[|[|[|[|[|?]]]]]], j as [|[|[|[|[|[|?]]]]]], c as [|[|?]]; cbn; lia.
  - intros i j Hi Hj. assert (P : forall a b : Z, (a =? b)%Z && (a <=? 2 ^ 53)%Z = true -> a = b /\ (a <= 2 ^ 53)%Z) by (intros; lia). apply P. clear P. revert j Hj Hi.
    assert (H : forallb (fun i => forallb (fun j => (sqdist flat6 1 i j =? sqdist slanted6 2 i j)%Z && (sqdist flat6 1 i j <=? 2 ^ 53)%Z) (seq 0 6)) (seq 0 6) = true) by (vm_compute; reflexivity).
    intros j Hj Hi. rewrite forallb_forall in H. specialize (H i ltac:(apply in_seq; lia)). rewrite forallb_forall in H. apply H. apply in_seq. lia.
  - vm_compute. reflexivity.
Qed.

(** For doubles moving the data can change the results: the sums are rounded. *)
Definition near6 : list f64 := map f_of_Z [0; 2; 3; 20; 24; 27]%Z.
Theorem C76_moved_doubles_refuted : exists t,
  is_finite t = true /\
  let s := mk_schedule (fun k => seq 0 k) (fun k => seq 0 k) (fun k n => list_prod (seq 0 k) (seq 0 n)) in
  match fresh_run 11 s (fun l => l) 2 (DDouble near6) 6 1 true, fresh_run 11 s (fun l => l) 2 (DDouble (map (fun x => fadd x t) near6)) 6 1 true with
  | Ok o, Ok o' => match o_res o, o_res o' with Some r, Some r' => r_labels r <> r_labels r' | _, _ => False end
  | _, _ => False
  end.
Proof.
  exists (f_of_Z (2 ^ 60)). split; [reflexivity|]. cbn zeta.
  vm_compute. intros E. discriminate E.
Qed.
Print Assumptions C76_moved_doubles_refuted.
