(** Theorems C14-C18 and C55: distance matrix and core distances. *)
From Coq Require Import Permutation Reals.
From Flocq Require Import Core IEEE754.BinarySingleNaN.
From Verif Require Import Base ListFacts F64 F64Facts ModelDistance ProofDistance ProofCore.
From Coq Require Import ZifyBool Lia.
Local Open Scope Z_scope.

(** ** C14: layout *)
Theorem C14_condensed_layout :
  forall n, 1 <= n <= 65536 ->
    2 * alloc_size n = n * (n - 1) /\
    (forall i j, 0 <= i < j -> j < n ->
       set_index n i j = get_index n i j /\ 0 <= get_index n i j < alloc_size n) /\
    (forall i j i' j', 0 <= i < j -> j < n -> 0 <= i' < j' -> j' < n ->
       get_index n i j = get_index n i' j' -> i = i' /\ j = j') /\
    (forall c, 0 <= c < alloc_size n -> exists i j, 0 <= i < j /\ j < n /\ get_index n i j = c).
Proof.
  intros n Hn. split; [now apply alloc_exact|]. split; [|split].
  - intros i j Hi Hj. split; [apply set_index_exact; lia|].
    split; [now apply get_index_exact|apply index_in_alloc; lia].
  - intros i j i' j' Hi Hj Hi' Hj' E. apply (index_inj n); auto. lia.
  - intros c Hc. now apply index_surj.
Qed.
Print Assumptions C14_condensed_layout.

Example C14_example : alloc_size 65536 = 2147450880 /\ get_index 65536 65534 65535 = 2147450879 /\
  get_index 5 1 3 = 5 /\ set_index 5 1 3 = 5.
Proof. vm_compute. auto. Qed.

(** ** C15: distance_get after distance_compute *)

(** The elements of an integer dataset. *)
Definition ints (ds : dataset) : option (list Z) :=
  match ds with DInt l | DLong l | DShort l | DChar l => Some l | _ => None end.
Definition dataset_length (ds : dataset) : nat :=
  match ds with DDouble l => length l | DFloat l => length l | DInt l | DLong l | DShort l | DChar l => length l end.
(** Does the difference of two elements fit the type it is computed in? *)
Definition diff_fits (ds : dataset) (z : Z) : Prop :=
  match ds with
  | DLong _ => -9223372036854775808 <= z <= 9223372036854775807
  | _ => -2147483648 <= z <= 2147483647
  end.
(** All coordinate differences the computation needs fit. *)
Definition all_diffs_fit (ds : dataset) (l : list Z) (rows cols : nat) : Prop :=
  forall i j c, (i < j < rows)%nat -> (c < cols)%nat ->
    diff_fits ds (nth (i * cols + c) l 0 - nth (j * cols + c) l 0).
(** A dataset of [rows] rows and [cols] columns; integer data whose differences do not overflow. *)
Definition holds (ds : dataset) (rows cols : nat) : Prop :=
  dataset_length ds = (rows * cols)%nat /\ forall l, ints ds = Some l -> all_diffs_fit ds l rows cols.
Lemma holds_double data rows cols : length data = (rows * cols)%nat -> holds (DDouble data) rows cols.
Proof. intros H. split; [exact H|discriminate]. Qed.
Lemma holds_float data rows cols : length data = (rows * cols)%nat -> holds (DFloat data) rows cols.
Proof. intros H. split; [exact H|discriminate]. Qed.

(** The difference of two elements, converted to double; the Euclidean distance of two rows,
    rounding each operation, summed from the first coordinate to the last. *)
Definition coord_diff (ds : dataset) (a b : nat) : f64 :=
  match ds with
  | DDouble l => fsub (nth a l fzero) (nth b l fzero)
  | DFloat l => f64_of_f32 (fsub32 (nth a l (B754_zero false)) (nth b l (B754_zero false)))
  | DInt l | DLong l | DShort l | DChar l => f_of_Z (nth a l 0 - nth b l 0)
  end.
Definition euclidean (ds : dataset) (cols i j : nat) : f64 :=
  fsqrt (fold_left (fun sum k => let diff := coord_diff ds (i * cols + k) (j * cols + k) in
                                 fadd sum (fmul diff diff)) (seq 0 cols) fzero).

(** A table all of whose entries can be read, with room for the core distances. *)
Definition complete (d : distance) : Prop :=
  length (d_core d) = Z.to_nat (d_rows d) /\
  forall i j, 0 <= i < d_rows d -> 0 <= j < d_rows d -> exists v, distance_get d i j = Ok v.

Lemma for_up_fold {S} (f : S -> nat -> S) body n : forall k s,
  (forall i s, (k <= i < k + n)%nat -> body i s = Ok (f s i)) ->
  for_up k n body s = Ok (fold_left f (seq k n) s).
Proof.
  induction n as [|n IH]; intros k s H; cbn [for_up seq fold_left]; [reflexivity|].
  rewrite H by lia. cbn [bind]. apply IH. intros; apply H; lia.
Qed.

Lemma ddiff_value ds rows cols i j k : holds ds rows cols -> (i < j < rows)%nat -> (k < cols)%nat ->
  ddiff ds (i * cols + k) (j * cols + k) = Ok (coord_diff ds (i * cols + k) (j * cols + k)).
Proof.
  intros [HL HI] Hij Hk.
  assert (B : forall a, (a < rows)%nat -> (a * cols + k < rows * cols)%nat) by (intros a Ha; nia).
  assert (G : forall (T : Type) (l : list T) (x : T) a, length l = (rows * cols)%nat -> (a < rows)%nat -> aget l (a * cols + k) = Ok (nth (a * cols + k) l x)).
  { intros T l x a Hl Ha. apply aget_nth. apply nth_error_nth'. rewrite Hl. apply B. exact Ha. }
  destruct ds as [l|l|l|l|l|l]; cbn [dataset_length] in HL; cbn [ddiff coord_diff];
    try (specialize (HI l eq_refl i j k Hij Hk); cbn [diff_fits] in HI).
  1: rewrite (G _ l fzero i HL) by lia; rewrite (G _ l fzero j HL) by lia; reflexivity.
  1: rewrite (G _ l (B754_zero false) i HL) by lia; rewrite (G _ l (B754_zero false) j HL) by lia; reflexivity.
  all: rewrite (G _ l 0 i HL) by lia; rewrite (G _ l 0 j HL) by lia; cbn [bind].
  all: match goal with |- (if ?c then _ else _) = _ => replace c with true by (unfold in_i32, in_i64; lia) end; reflexivity.
Qed.

Lemma pair_value_ok ds rows cols i j : holds ds rows cols -> (i < j < rows)%nat ->
  pair_value ds cols i j = Ok (euclidean ds cols i j).
Proof.
  intros HD Hij. unfold pair_value.
  rewrite (for_up_fold (fun sum k => let diff := coord_diff ds (i * cols + k) (j * cols + k) in
                                 fadd sum (fmul diff diff))).
  - reflexivity.
  - intros k s Hk. rewrite (ddiff_value ds rows) by (auto; lia). reflexivity.
Qed.

Lemma core_exists d : complete d -> 0 <= d_k d < M32 - 1 -> forall i, (i < Z.to_nat (d_rows d))%nat ->
  exists row c, length row = Z.to_nat (d_rows d) /\
    (forall j, (j < Z.to_nat (d_rows d))%nat -> distance_get d (Z.of_nat i) (Z.of_nat j) = Ok (nth j row fzero)) /\
    core_of d i = core_row (buf_size (d_k d)) row /\ core_row (buf_size (d_k d)) row = Ok c.
Proof.
  intros [HC HG] Hk i Hi.
  set (r := fun j : nat => match distance_get d (Z.of_nat i) (Z.of_nat j) with Ok v => v | _ => fzero end).
  assert (Hr : forall j, (j < Z.to_nat (d_rows d))%nat -> distance_get d (Z.of_nat i) (Z.of_nat j) = Ok (r j)).
  { intros j Hj. unfold r. destruct (HG (Z.of_nat i) (Z.of_nat j)) as (v & ->); try lia. reflexivity. }
  assert (Hs : (0 < buf_size (d_k d))%nat).
  { unfold buf_size, u32, M32 in *. rewrite Z.mod_small by lia. lia. }
  set (row := map r (seq 0 (Z.to_nat (d_rows d)))).
  destruct (core_row_safe (buf_size (d_k d)) row Hs) as (c & Ec & _).
  exists row, c. split; [unfold row; now rewrite map_length, seq_length|].
  split; [|split; [now apply core_of_row|exact Ec]].
  intros j Hj. rewrite Hr by auto. unfold row. f_equal.
  rewrite (nth_indep _ fzero (r 0%nat)) by (rewrite map_length, seq_length; auto).
  rewrite map_nth, seq_nth by auto. reflexivity.
Qed.

Lemma core_total d : complete d -> 0 <= d_k d < M32 - 1 ->
  exists c, distance_get_core_distances d =
    Ok (mk_distance (d_rows d) (d_cols d) (d_k d) (d_dist d) (map (fun i => Some (c i)) (seq 0 (Z.to_nat (d_rows d))))) /\
    forall i, (i < Z.to_nat (d_rows d))%nat -> core_of d i = Ok (c i).
Proof.
  intros HC Hk.
  set (c := fun i => match core_of d i with Ok v => v | _ => fzero end).
  assert (Hc : forall i, (i < Z.to_nat (d_rows d))%nat -> core_of d i = Ok (c i)).
  { intros i Hi. unfold c. destruct (core_exists d HC Hk i Hi) as (row & v & _ & _ & E & E'). now rewrite E, E'. }
  exists c. split; auto. apply core_array; auto. apply HC.
Qed.

Theorem C15_distance_get_euclidean :
  forall ds rows cols k,
    (1 <= rows)%nat -> Z.of_nat rows <= 65536 -> holds ds rows cols -> 0 <= k < M32 - 1 ->
    exists d, distance_compute ds rows cols k = Ok d /\ complete d /\
      d_rows d = Z.of_nat rows /\ d_k d = k /\
      forall i j, (i < rows)%nat -> (j < rows)%nat ->
        distance_get d (Z.of_nat i) (Z.of_nat j) =
          Ok (if (i =? j)%nat then fzero else euclidean ds cols (Nat.min i j) (Nat.max i j)) /\
        distance_get d (Z.of_nat i) (Z.of_nat j) = distance_get d (Z.of_nat j) (Z.of_nat i).
Proof.
  intros ds rows cols k H1 Hr HL Hk. unfold distance_compute.
  destruct (fill_ok ds rows cols (euclidean ds cols) H1 Hr) as (m & -> & Hm & HG).
  { intros i j Hij. apply (pair_value_ok ds rows); auto; lia. }
  cbn [bind].
  assert (HC : complete (mk_distance (Z.of_nat rows) (Z.of_nat cols) k m (repeat None rows))).
  { split; cbn [d_rows d_core]; [rewrite repeat_length; lia|].
    intros i j Hi Hj. rewrite <- (Z2Nat.id i), <- (Z2Nat.id j) by lia. eexists. apply HG; lia. }
  destruct (core_total _ HC Hk) as (c & -> & _). cbn [d_rows d_cols d_k d_dist].
  eexists. split; [reflexivity|]. split; [|split; [reflexivity|split; [reflexivity|]]].
  - split; cbn [d_rows d_core]; [now rewrite map_length, seq_length|].
    intros i j Hi Hj. rewrite <- (Z2Nat.id i), <- (Z2Nat.id j) by lia. eexists. apply HG; lia.
  - intros i j Hi Hj. rewrite !HG by auto. split; [reflexivity|].
    rewrite Nat.eqb_sym, Nat.min_comm, Nat.max_comm. reflexivity.
Qed.
Print Assumptions C15_distance_get_euclidean.

(** No distance is negative: it is NaN or at least zero. *)
Theorem C15_distance_not_negative :
  forall ds cols i j, fisnan (euclidean ds cols i j) = true \/ 0 <= fkey (euclidean ds cols i j).
Proof.
  intros. unfold euclidean, fsqrt.
  match goal with |- fisnan (Bsqrt _ ?y) = true \/ _ => generalize y; intros x end.
  destruct x as [s|[]| |[] m e H]; try (left; reflexivity); try (right; apply Z.le_refl); try (right; apply Z.pow_nonneg; lia).
  destruct (fisnan (Bsqrt mode_NE (B754_finite false m e H))) eqn:En; [left; first [reflexivity|exact En]|right].
  destruct (Bsqrt_correct 53 1024 Hprec Hmax mode_NE (B754_finite false m e H)) as (_ & _ & Hsign).
  specialize (Hsign En). clear En. cbn [Bsign] in Hsign.
  destruct (Bsqrt mode_NE (B754_finite false m e H)) as [s|s| |s m' e' Hb]; cbn [fkey]; try lia;
    cbn [Bsign] in Hsign; subst s; [lia|].
  apply Z.mul_nonneg_nonneg; [lia|apply Z.pow_nonneg; lia].
Qed.
Print Assumptions C15_distance_not_negative.

(** From 65537 rows on the matrix is too small and some write is out of bounds. *)
Theorem C14_too_many_rows_refuted :
  forall data rows cols k,
    65537 <= Z.of_nat rows < M32 -> length data = (rows * cols)%nat ->
    distance_compute (DDouble data) rows cols k = UB /\
    2 * alloc_size (Z.of_nat rows) < Z.of_nat rows * (Z.of_nat rows - 1).
Proof.
  intros data rows cols k Hr HL. destruct (alloc_too_small (Z.of_nat rows) Hr) as [Ha Hs]. split; auto.
  unfold distance_compute. rewrite fill_ub; [reflexivity|].
  exists (rows - 2)%nat, (rows - 1)%nat. split; [lia|]. right. rewrite repeat_length.
  replace (Z.of_nat (rows - 2)) with (Z.of_nat rows - 2) by lia.
  replace (Z.of_nat (rows - 1)) with (Z.of_nat rows - 1) by lia.
  assert (0 <= alloc_size (Z.of_nat rows)).
  { unfold alloc_size. apply Z.div_pos; [|lia]. unfold u32, M32. apply Z.mod_pos_bound. lia. }
  lia.
Qed.
Print Assumptions C14_too_many_rows_refuted.

Example C14_overflow_example : alloc_size 65537 = 32768.
Proof. reflexivity. Qed.

(** A small run: three points on a line. *)
Definition f2 : f64 := f_of_Z 2.
Definition f3 : f64 := f_of_Z 3.
Definition line3 : list f64 := [fzero; fone; f3].
Example C15_example :
  (let! d := distance_compute (DDouble line3) 3 1 1 in
   let! a := distance_get d 2 1 in let! b := distance_get d 1 2 in
   let! c := distance_get d 0 2 in Ok (feq a f2, feq b f2, feq c f3)) = Ok (true, true, true).
Proof. vm_compute. reflexivity. Qed.

(** ** C16: any schedule of the parallel loops *)

(** [l] is an interleaving of the threads [ls]: repeatedly one of the threads takes its
    next step. *)
Inductive interleaving {A} : list (list A) -> list A -> Prop :=
| il_done ls : Forall (fun l => l = []) ls -> interleaving ls []
| il_step ls1 x t ls2 l : interleaving (ls1 ++ t :: ls2) l -> interleaving (ls1 ++ (x :: t) :: ls2) (x :: l).

(** Executing a list of inner loop iterations (each: compute the private value, then one
    write). *)
Fixpoint exec_pairs (ds : dataset) (rows cols : nat) (l : list (nat * nat)) (m : list (option f64)) : res (list (option f64)) :=
  match l with
  | [] => Ok m
  | p :: l => let! m' := pair_step ds rows cols (fst p) (snd p) m in exec_pairs ds rows cols l m'
  end.
(** The inner iterations of the outer iteration [i], in program order. *)
Definition thread (rows i : nat) : list (nat * nat) := map (fun j => (i, j)) (seq (S i) (rows - S i)).

Lemma interleaving_perm {A} (ls : list (list A)) l : interleaving ls l -> Permutation (concat ls) l.
Proof.
  induction 1 as [ls H|ls1 x t ls2 l _ IH].
  - induction H as [|a ls -> _ IH]; cbn [concat app]; auto.
  - rewrite concat_app in *. cbn [concat] in *. cbn [app]. rewrite <- Permutation_middle. now constructor.
Qed.

Lemma exec_wrun ds rows cols l : forall m, exec_pairs ds rows cols l m = wrun (pidx rows) (pval ds cols) l m.
Proof.
  induction l as [|p l IH]; intros m; cbn [exec_pairs wrun]; [reflexivity|].
  change (pair_step ds rows cols (fst p) (snd p) m) with (wstep (pidx rows) (pval ds cols) p m).
  destruct (wstep _ _ p m); cbn [bind]; auto.
Qed.

(** The matrix, whatever the data (also when some value is undefined). *)
Theorem C16_matrix_schedule_independent :
  forall ds rows cols m schedule,
    Z.of_nat rows <= 65536 ->
    interleaving (map (thread rows) (seq 0 rows)) schedule ->
    exec_pairs ds rows cols schedule m = fill_matrix ds rows cols m.
Proof.
  intros ds rows cols m l Hr HI. rewrite exec_wrun, fill_matrix_run. symmetry.
  apply wrun_perm; [apply pval_ok| |now apply NoDup_pidx]. now apply interleaving_perm.
Qed.
Print Assumptions C16_matrix_schedule_independent.

(** The core distance loop: each iteration works on its private buffer and does one write. *)
Fixpoint exec_cores (d : distance) (l : list nat) (core : list (option f64)) : res (list (option f64)) :=
  match l with
  | [] => Ok core
  | i :: l => let! c := core_of d i in let! core' := zset core (Z.of_nat i) c in exec_cores d l core'
  end.
Theorem C16_core_schedule_independent :
  forall d order, complete d -> 0 <= d_k d < M32 - 1 ->
    Permutation (seq 0 (Z.to_nat (d_rows d))) order ->
    exists core, exec_cores d order (d_core d) = Ok core /\
      distance_get_core_distances d = Ok (mk_distance (d_rows d) (d_cols d) (d_k d) (d_dist d) core).
Proof.
  intros d order HC Hk HP. destruct (core_total d HC Hk) as (c & E & Hc). eexists. split; [|exact E].
  assert (Hw : forall l m, exec_cores d l m = wrun (fun i => Z.of_nat i) (core_of d) l m).
  { induction l as [|i l IH]; intros m; cbn [exec_cores wrun]; [reflexivity|]. unfold wstep.
    destruct (core_of d i); cbn [bind]; auto. destruct (zset m _ _); cbn [bind]; auto. }
  rewrite Hw.
  set (v := fun i => if (i <? Z.to_nat (d_rows d))%nat then core_of d i else UB).
  assert (Hv : forall l m, (forall i, In i l -> (i < Z.to_nat (d_rows d))%nat) ->
     wrun (fun i => Z.of_nat i) (core_of d) l m = wrun (fun i => Z.of_nat i) v l m).
  { induction l as [|i l IH]; intros m Hl; cbn [wrun]; [reflexivity|]. unfold wstep.
    assert (Evi : v i = core_of d i).
    { unfold v. destruct (Nat.ltb_spec i (Z.to_nat (d_rows d))); auto. specialize (Hl i (or_introl eq_refl)). lia. }
    rewrite Evi. destruct (core_of d i); cbn [bind]; auto. destruct (zset m _ _); cbn [bind]; auto.
    apply IH. intros k Hk'. apply Hl. now right. }
  assert (Hseq : forall i, In i (seq 0 (Z.to_nat (d_rows d))) -> (i < Z.to_nat (d_rows d))%nat).
  { intros i Hi. apply in_seq in Hi. lia. }
  rewrite Hv by (intros i Hi; apply Hseq; eapply Permutation_in; [symmetry; exact HP|auto]).
  rewrite <- (wrun_perm (fun i => Z.of_nat i) v) with (l := seq 0 (Z.to_nat (d_rows d))); auto.
  - rewrite <- Hv by auto. unfold distance_get_core_distances in E.
    change (fun i core => let! c0 := core_of d i in zset core (Z.of_nat i) c0)
      with (fun i core => wstep (fun i => Z.of_nat i) (core_of d) i core) in E.
    rewrite for_up_wrun in E. destruct (wrun _ _ _ (d_core d)); cbn [bind] in E; congruence.
  - intros i. unfold v. destruct (Nat.ltb_spec i (Z.to_nat (d_rows d))); [right|left; reflexivity]. eauto.
  - apply NoDup_map_inj; [|apply seq_NoDup]. intros x y _ _ Hxy. lia.
Qed.
Print Assumptions C16_core_schedule_independent.

Example C16_example :
  interleaving (map (thread 3) (seq 0 3)) [(1, 2); (0, 1); (0, 2)]%nat /\
  interleaving (map (thread 3) (seq 0 3)) [(0, 1); (1, 2); (0, 2)]%nat.
Proof.
  split.
  - apply (il_step [[(0, 1); (0, 2)]%nat] (1, 2)%nat [] [[]]).
    apply (il_step [] (0, 1)%nat [(0, 2)]%nat [[]; []]).
    apply (il_step [] (0, 2)%nat [] [[]; []]). apply il_done. repeat constructor.
  - apply (il_step [] (0, 1)%nat [(0, 2)]%nat [[(1, 2)%nat]; []]).
    apply (il_step [[(0, 2)]%nat] (1, 2)%nat [] [[]]).
    apply (il_step [] (0, 2)%nat [] [[]; []]). apply il_done. repeat constructor.
Qed.

(** ** C17 and C18: core distances *)

(** [row] lists the distances of point [i] to all points. *)
Definition row_of (d : distance) (i : nat) (row : list f64) : Prop :=
  length row = Z.to_nat (d_rows d) /\
  forall j, (j < Z.to_nat (d_rows d))%nat -> distance_get d (Z.of_nat i) (Z.of_nat j) = Ok (nth j row fzero).

(** [c] is the k-th smallest of [row]: fewer than k values are smaller, at least k values
    are not larger.  Comparisons of doubles: NaN counts as neither. *)
Definition kth_smallest (k : nat) (row : list f64) (c : f64) : Prop :=
  In c row /\
  (length (filter (fun v => flt v c) row) < k <= length (filter (fun v => fle v c) row))%nat.

Definition finite_values (row : list f64) : list f64 := filter (fun v => flt v D_MAX) row.

Lemma row_unique d i row row' : row_of d i row -> row_of d i row' -> row = row'.
Proof.
  intros [HL H] [HL' H']. apply (nth_ext _ _ fzero fzero); [congruence|].
  intros n Hn. rewrite HL in Hn. specialize (H n Hn). specialize (H' n Hn). congruence.
Qed.

Lemma core_spec d i : complete d -> 0 <= d_k d < M32 - 1 -> (i < Z.to_nat (d_rows d))%nat ->
  exists d' row c, distance_get_core_distances d = Ok d' /\ d_dist d' = d_dist d /\
    nth_error (d_core d') i = Some (Some c) /\ row_of d i row /\ core_row (Z.to_nat (d_k d + 1)) row = Ok c.
Proof.
  intros HC Hk Hi. destruct (core_total d HC Hk) as (c & E & Hc).
  destruct (core_exists d HC Hk i Hi) as (row & c' & HL & Hrow & E1 & E2).
  do 2 eexists; exists c'. split; [exact E|]. split; [reflexivity|]. cbn [d_core]. split.
  - rewrite nth_error_map, (nth_error_nth' _ 0%nat) by (rewrite seq_length; auto). cbn [option_map].
    rewrite seq_nth by auto. cbn [Nat.add]. specialize (Hc i Hi). congruence.
  - split; [split; eauto|]. rewrite <- E2. f_equal. unfold buf_size, u32, M32 in *.
    now rewrite Z.mod_small by lia.
Qed.

(** The k-th smallest, if no finite distance of the row occurs twice (or k <= 2; 2 is
    the smallest minPoints hdbscan_init allows). *)
Theorem C17_core_distance_kth_smallest :
  forall d i row k, complete d -> d_k d = Z.of_nat k - 1 -> (1 <= k)%nat -> Z.of_nat k < M32 ->
    (i < Z.to_nat (d_rows d))%nat -> row_of d i row ->
    NoDup (map fkey (finite_values row)) \/ (k <= 2)%nat ->
    exists d' c, distance_get_core_distances d = Ok d' /\ nth_error (d_core d') i = Some (Some c) /\
      ((k <= length (finite_values row))%nat -> kth_smallest k row c /\ flt c D_MAX = true) /\
      ((length (finite_values row) < k)%nat -> c = D_MAX).
Proof.
  intros d i row k HC Ek Hk1 Hk Hi Hrow Hd.
  destruct (core_spec d i HC ltac:(lia) Hi) as (d' & row' & c & E & _ & Hc & Hrow' & Ec).
  assert (row' = row) by (eapply row_unique; eauto). subst row'.
  exists d', c. split; auto. split; auto. rewrite Ek in Ec. replace (Z.to_nat (Z.of_nat k - 1 + 1)) with k in Ec by lia.
  destruct (core_row_kth k row ltac:(lia) Hd) as (c' & Ec' & H1 & H2).
  assert (c' = c) by congruence. subst c'. split; auto.
  intros Hge. destruct (H1 Hge) as (Ha & Hb & Hc'). split; [split; auto|auto].
Qed.
Print Assumptions C17_core_distance_kth_smallest.

Example C17_example :
  (let! d := distance_compute (DDouble line3) 3 1 1 in
   Ok (map (fun o => match o with Some c => fkey c =? fkey fone | None => false end) (d_core d))) =
   Ok [true; true; false] /\
  NoDup (map fkey (finite_values [fzero; fone; f3])).
Proof.
  split; [vm_compute; reflexivity|]. vm_compute.
  repeat constructor; cbn; intuition discriminate.
Qed.

(** With ties the result is wrong.  A whole family: two points at the same place, the
    other points at distance x or more with the first two of them tied and listed before
    the duplicate; minPoints = 3.  The core distance comes out 0 instead of x. *)
Theorem C17_ties_refuted :
  forall x rest, flt fzero x = true -> flt x D_MAX = true ->
    Forall (fun v => fle x v = true) rest ->
    let row := fzero :: x :: x :: fzero :: rest in
    core_row 3 row = Ok fzero /\ kth_smallest 3 row x /\ ~ kth_smallest 3 row fzero.
Proof.
  intros x rest H0 HM Hrest row.
  pose proof (flt_true _ _ H0) as (_ & Hn & Hk0). pose proof (flt_true _ _ HM) as (_ & _ & HkM).
  assert (NZ : notnan fzero) by reflexivity. pose proof D_MAX_notnan as NM.
  assert (ExM : flt D_MAX x = false) by (apply flt_false; auto; now apply Z.lt_le_incl).
  assert (Ex0 : flt x fzero = false) by (apply flt_false; auto; now apply Z.lt_le_incl).
  assert (Exx : flt x x = false) by (apply flt_false; auto; apply Z.le_refl).
  assert (QxM : feq D_MAX x = false) by (apply feq_false; auto; intros E; rewrite E in HkM; now apply Z.lt_irrefl in HkM).
  assert (Q0x : feq fzero x = false) by (apply feq_false; auto; intros E; rewrite E in Hk0; now apply Z.lt_irrefl in Hk0).
  assert (Qx0 : feq x fzero = false) by (apply feq_false; auto; intros E; rewrite E in Hk0; now apply Z.lt_irrefl in Hk0).
  assert (Qxx : feq x x = true) by (apply feq_intro; auto).
  assert (Hcnt : forall f, (forall v, fle x v = true -> f v = false) -> filter f rest = []).
  { intros f Hf. apply filter_none. intros v Hv. apply Hf. rewrite Forall_forall in Hrest. auto. }
  split; [|split].
  - unfold core_row, row. cbn [repeat buf_run].
    assert (S1 : buf_step 3 fzero [D_MAX; D_MAX; D_MAX] = Ok [fzero; D_MAX; D_MAX]) by reflexivity.
    rewrite S1. cbn [bind].
    assert (S2 : buf_step 3 x [fzero; D_MAX; D_MAX] = Ok [fzero; x; D_MAX]).
    { unfold buf_step. cbn. unfold fgt, fne. fold (flt D_MAX x). change (@Bltb 53 1024) with flt. change (@Beqb 53 1024) with feq.
      rewrite ExM. cbn. unfold fgt. change (@Bltb 53 1024) with flt. rewrite HM. cbn.
      rewrite Ex0, Q0x. cbn. rewrite QxM. reflexivity. }
    rewrite S2. cbn [bind].
    assert (S3 : buf_step 3 x [fzero; x; D_MAX] = Ok [x; fzero; x]).
    { unfold buf_step. cbn. unfold fgt, fne. change (@Bltb 53 1024) with flt. change (@Beqb 53 1024) with feq.
      rewrite ExM. cbn. unfold fgt. change (@Bltb 53 1024) with flt. rewrite Exx, Qxx. cbn. rewrite QxM. reflexivity. }
    rewrite S3. cbn [bind].
    assert (S4 : buf_step 3 fzero [x; fzero; x] = Ok [fzero; x; fzero]).
    { unfold buf_step. cbn. unfold fgt, fne. change (@Bltb 53 1024) with flt. change (@Beqb 53 1024) with feq.
      rewrite Ex0. cbn. rewrite Qx0. reflexivity. }
    rewrite S4. cbn [bind].
    assert (S5 : forall l, Forall (fun v => fle x v = true) l -> buf_run 3 l [fzero; x; fzero] = Ok [fzero; x; fzero]).
    { induction 1 as [|v l Hv _ IH]; cbn [buf_run]; [reflexivity|].
      assert (S6 : buf_step 3 v [fzero; x; fzero] = Ok [fzero; x; fzero]).
      { unfold buf_step. cbn. unfold fgt. change (@Bltb 53 1024) with flt.
        apply fle_true in Hv. destruct Hv as (_ & Hnv & Hkv).
        assert (E : flt fzero v = true) by (apply flt_intro; auto; eapply Z.lt_le_trans; eauto).
        now rewrite E. }
      rewrite S6. cbn [bind]. auto. }
    rewrite S5 by auto. reflexivity.
  - split; [right; left; reflexivity|]. unfold row. cbn [filter].
    rewrite H0, Exx. rewrite (Hcnt (fun v => flt v x)).
    2:{ intros v Hv. apply fle_true in Hv. destruct Hv as (Hxn & Hvn & Hxv). now apply flt_false. }
    assert (L0 : fle fzero x = true) by (apply fle_intro; auto; now apply Z.lt_le_incl).
    assert (Lx : fle x x = true) by (apply fle_intro; auto; apply Z.le_refl).
    rewrite L0, Lx. cbn [length]. clear. lia.
  - intros [_ [_ H]]. unfold row in H. cbn [filter] in H.
    assert (Lx0 : fle x fzero = false) by (now apply fle_false).
    assert (L00 : fle fzero fzero = true) by reflexivity.
    rewrite Lx0, L00 in H. rewrite (Hcnt (fun v => fle v fzero)) in H.
    2:{ intros v Hv. apply fle_true in Hv. destruct Hv as (Hxn & Hvn & Hxv). apply fle_false; auto. eapply Z.lt_le_trans; eauto. }
    cbn [length] in H. clear -H. lia.
Qed.
Print Assumptions C17_ties_refuted.

Local Ltac bs := progress (cbn -[flt feq fle fgt fne D_MAX fzero]; unfold fgt, fne; change (@Bltb 53 1024) with flt; change (@Beqb 53 1024) with feq).

(** The other direction, by an arbitrary factor: five distances with one tie, minPoints = 3,
    and any number of further points at distance c or more.  The core distance comes out c,
    the third smallest distance is b < c. *)
Theorem C17_ties_too_large_refuted :
  forall a b c rest, flt fzero a = true -> flt a b = true -> flt b c = true -> flt c D_MAX = true ->
    Forall (fun v => fle c v = true) rest ->
    let row := c :: b :: c :: fzero :: a :: rest in
    core_row 3 row = Ok c /\ kth_smallest 3 row b /\ ~ kth_smallest 3 row c.
Proof.
  intros a b c rest H0 Hab Hbc HM Hrest row.
  pose proof (flt_true _ _ H0) as (_ & Na & K0). pose proof (flt_true _ _ Hab) as (_ & Nb & Kab).
  pose proof (flt_true _ _ Hbc) as (_ & Nc & Kbc). pose proof (flt_true _ _ HM) as (_ & _ & KcM).
  assert (NZ : notnan fzero) by reflexivity. pose proof D_MAX_notnan as NM.
  assert (LT : forall x y, notnan x -> notnan y -> fkey x < fkey y ->
    flt x y = true /\ flt y x = false /\ feq x y = false /\ feq y x = false /\ fle x y = true /\ fle y x = false).
  { intros x y Nx Ny L. split; [now apply flt_intro|]. split; [apply flt_false; auto; now apply Z.lt_le_incl|].
    split; [apply feq_false; auto; intros E; rewrite E in L; now apply Z.lt_irrefl in L|].
    split; [apply feq_false; auto; intros E; rewrite E in L; now apply Z.lt_irrefl in L|].
    split; [apply fle_intro; auto; now apply Z.lt_le_incl|now apply fle_false]. }
  assert (RF : forall x, notnan x -> flt x x = false /\ feq x x = true /\ fle x x = true).
  { intros x Nx. split; [apply flt_false; auto; apply Z.le_refl|]. split; [now apply feq_intro|apply fle_intro; auto; apply Z.le_refl]. }
  set (K := fkey) in *.
  assert (K0b : K fzero < K b) by (eapply Z.lt_trans; eauto). assert (K0c : K fzero < K c) by (eapply Z.lt_trans; eauto).
  assert (Kac : K a < K c) by (eapply Z.lt_trans; eauto). assert (KbM : K b < K D_MAX) by (eapply Z.lt_trans; eauto).
  assert (K0M : K fzero < K D_MAX) by (eapply Z.lt_trans; eauto). assert (KaM : K a < K D_MAX) by (eapply Z.lt_trans; eauto).
  pose proof (LT fzero a NZ Na K0) as (A1 & A2 & A3 & A4 & A5 & A6).
  pose proof (LT fzero b NZ Nb K0b) as (B1 & B2 & B3 & B4 & B5 & B6).
  pose proof (LT fzero c NZ Nc K0c) as (C1 & C2 & C3 & C4 & C5 & C6).
  pose proof (LT a b Na Nb Kab) as (D1 & D2 & D3 & D4 & D5 & D6).
  pose proof (LT a c Na Nc Kac) as (E1 & E2 & E3 & E4 & E5 & E6).
  pose proof (LT b c Nb Nc Kbc) as (F1 & F2 & F3 & F4 & F5 & F6).
  pose proof (LT b D_MAX Nb NM KbM) as (G1 & G2 & G3 & G4 & _).
  pose proof (LT c D_MAX Nc NM KcM) as (I1 & I2 & I3 & I4 & _).
  pose proof (RF b Nb) as (J1 & J2 & J3). pose proof (RF c Nc) as (L1 & L2 & L3).
  assert (Hge : forall v, In v rest -> fle c v = true) by (apply Forall_forall, Hrest).
  clear LT RF.
  split; [|split].
  - unfold core_row, row. cbn [repeat buf_run].
    assert (S1 : buf_step 3 c [D_MAX; D_MAX; D_MAX] = Ok [c; D_MAX; D_MAX]).
    { unfold buf_step. repeat (bs; rewrite ?A1, ?A2, ?A3, ?A4, ?B1, ?B2, ?B3, ?B4, ?C1, ?C2, ?C3, ?C4, ?D1, ?D2, ?D3, ?D4, ?E1, ?E2, ?E3, ?E4, ?F1, ?F2, ?F3, ?F4, ?G1, ?G2, ?G3, ?G4, ?I1, ?I2, ?I3, ?I4, ?J1, ?J2, ?L1, ?L2). reflexivity. }
    rewrite S1. cbn [bind].
    assert (S2 : buf_step 3 b [c; D_MAX; D_MAX] = Ok [b; c; D_MAX]).
    { unfold buf_step. repeat (bs; rewrite ?A1, ?A2, ?A3, ?A4, ?B1, ?B2, ?B3, ?B4, ?C1, ?C2, ?C3, ?C4, ?D1, ?D2, ?D3, ?D4, ?E1, ?E2, ?E3, ?E4, ?F1, ?F2, ?F3, ?F4, ?G1, ?G2, ?G3, ?G4, ?I1, ?I2, ?I3, ?I4, ?J1, ?J2, ?L1, ?L2). reflexivity. }
    rewrite S2. cbn [bind].
    assert (S3 : buf_step 3 c [b; c; D_MAX] = Ok [c; b; c]).
    { unfold buf_step. repeat (bs; rewrite ?A1, ?A2, ?A3, ?A4, ?B1, ?B2, ?B3, ?B4, ?C1, ?C2, ?C3, ?C4, ?D1, ?D2, ?D3, ?D4, ?E1, ?E2, ?E3, ?E4, ?F1, ?F2, ?F3, ?F4, ?G1, ?G2, ?G3, ?G4, ?I1, ?I2, ?I3, ?I4, ?J1, ?J2, ?L1, ?L2). reflexivity. }
    rewrite S3. cbn [bind].
    assert (S4 : buf_step 3 fzero [c; b; c] = Ok [fzero; c; b]).
    { unfold buf_step. repeat (bs; rewrite ?A1, ?A2, ?A3, ?A4, ?B1, ?B2, ?B3, ?B4, ?C1, ?C2, ?C3, ?C4, ?D1, ?D2, ?D3, ?D4, ?E1, ?E2, ?E3, ?E4, ?F1, ?F2, ?F3, ?F4, ?G1, ?G2, ?G3, ?G4, ?I1, ?I2, ?I3, ?I4, ?J1, ?J2, ?L1, ?L2). reflexivity. }
    rewrite S4. cbn [bind].
    assert (S5 : buf_step 3 a [fzero; c; b] = Ok [fzero; a; c]).
    { unfold buf_step. repeat (bs; rewrite ?A1, ?A2, ?A3, ?A4, ?B1, ?B2, ?B3, ?B4, ?C1, ?C2, ?C3, ?C4, ?D1, ?D2, ?D3, ?D4, ?E1, ?E2, ?E3, ?E4, ?F1, ?F2, ?F3, ?F4, ?G1, ?G2, ?G3, ?G4, ?I1, ?I2, ?I3, ?I4, ?J1, ?J2, ?L1, ?L2). reflexivity. }
    rewrite S5. cbn [bind].
    assert (S6 : forall l, (forall v, In v l -> fle c v = true) -> buf_run 3 l [fzero; a; c] = Ok [fzero; a; c]).
    { induction l as [|v l IH]; intros Hl; cbn [buf_run]; [reflexivity|].
      assert (S7 : buf_step 3 v [fzero; a; c] = Ok [fzero; a; c]).
      { pose proof (Hl v (or_introl eq_refl)) as Hv. apply fle_true in Hv. destruct Hv as (_ & Nv & Kv).
        unfold buf_step. change (aget [fzero; a; c] (3 - 1)) with (Ok c). cbn [bind]. change (fgt v c) with (flt c v).
        destruct (flt c v) eqn:Ecv; [reflexivity|].
        assert (Ev : fkey v = fkey c).
        { destruct (Z.lt_ge_cases (fkey c) (fkey v)) as [G|G].
          - rewrite (flt_intro c v Nc Nv G) in Ecv. discriminate.
          - apply Z.le_antisymm; assumption. }
        destruct (find_pos 4 [fzero; a; c] v 0 3) as [low| | |] eqn:Ef.
        - cbn [bind]. unfold fne. change (@Beqb 53 1024) with feq. replace (feq c v) with true by (symmetry; apply feq_intro; auto).
          now rewrite Bool.andb_false_r.
        - exfalso. revert Ef. bs. repeat (match goal with |- context [if ?q then _ else _] => destruct q end; try bs); discriminate.
        - exfalso. revert Ef. bs. repeat (match goal with |- context [if ?q then _ else _] => destruct q end; try bs); discriminate.
        - exfalso. revert Ef. bs. repeat (match goal with |- context [if ?q then _ else _] => destruct q end; try bs); discriminate. }
      rewrite S7. cbn [bind]. apply IH. intros w Hw. apply Hl. now right. }
    rewrite S6 by auto. reflexivity.
  - split; [right; left; reflexivity|]. unfold row. cbn [filter].
    rewrite F2, J1, B1, D1, F6, J3, B5, D5.
    rewrite (filter_none (fun v => flt v b) rest).
    2:{ intros v Hv. apply Hge, fle_true in Hv. destruct Hv as (_ & Nv & Kv). apply flt_false; auto. apply Z.lt_le_incl. eapply Z.lt_le_trans; [exact Kbc|exact Kv]. }
    cbn [length]. clear. lia.
  - intros [_ [H _]]. unfold row in H. cbn [filter] in H. rewrite F1, L1, C1, E1 in H. cbn [length] in H. clear -H. lia.
Qed.
Print Assumptions C17_ties_too_large_refuted.

(** Five different points of a line, 4, 3, -4, 0, 2: the core distance of the point 0 comes
    out 4, the third smallest of its distances 4, 3, 4, 0, 2 is 3. *)
Example C17_ties_too_large_example :
  (let! d := distance_compute (DInt [4; 3; -4; 0; 2]) 5 1 2 in
   Ok (map (fun o => match o with Some c => feq c (f_of_Z 4) | None => false end) (skipn 3 (firstn 4 (d_core d))))) = Ok [true] /\
  flt fzero (f_of_Z 2) = true /\ flt (f_of_Z 2) (f_of_Z 3) = true /\ flt (f_of_Z 3) (f_of_Z 4) = true /\ flt (f_of_Z 4) D_MAX = true.
Proof. vm_compute. auto. Qed.

(** The same through the API: the points 0, 1, 1, 0, 1 with minPoints = 3 (first core
    distance 0, although the third smallest distance of that point is 1), and 14 points
    for which the first core distance comes out too large (6 instead of 3). *)
Definition zdata (l : list Z) : dataset := DInt l.
Example C17_ties_example :
  (let! d := distance_compute (DInt [0; 1; 1; 0; 1]) 5 1 2 in
   Ok (map (fun o => match o with Some c => feq c fzero | None => false end) (firstn 1 (d_core d)))) = Ok [true] /\
  (let! d := distance_compute (DInt [0; 3; 3; 1; 6; 1; 6; 2; 3; 3; 6; 3; 2; 6]) 14 1 6 in
   Ok (map (fun o => match o with Some c => feq c (f_of_Z 6) | None => false end) (firstn 1 (d_core d)))) = Ok [true].
Proof. split; vm_compute; reflexivity. Qed.

(** Never NaN, never +infinity, for any matrix (NaN, infinities and ties included). *)
Theorem C18_core_distance_finite :
  forall d, complete d -> 0 <= d_k d < M32 - 1 ->
    exists d', distance_get_core_distances d = Ok d' /\
      length (d_core d') = Z.to_nat (d_rows d) /\
      forall i row, (i < Z.to_nat (d_rows d))%nat -> row_of d i row ->
        exists c, nth_error (d_core d') i = Some (Some c) /\
          (c = D_MAX \/ (In c row /\ flt c D_MAX = true)) /\
          fisnan c = false /\ fle c D_MAX = true /\ c <> finf.
Proof.
  intros d HC Hk. destruct (core_total d HC Hk) as (cc & E & _). eexists. split; [exact E|].
  split; [cbn [d_core]; now rewrite map_length, seq_length|].
  intros i row Hi Hrow.
  destruct (core_spec d i HC Hk Hi) as (d' & row' & c & E' & _ & Hc & Hrow' & Ec).
  assert (row' = row) by (eapply row_unique; eauto). subst row'.
  assert (d' = mk_distance (d_rows d) (d_cols d) (d_k d) (d_dist d) (map (fun i => Some (cc i)) (seq 0 (Z.to_nat (d_rows d))))) by congruence.
  subst d'. exists c. split; auto.
  destruct (core_row_safe (Z.to_nat (d_k d + 1)) row ltac:(lia)) as (c' & Ec' & Hc').
  assert (c' = c) by congruence. subst c'. split; [exact Hc'|].
  destruct Hc' as [->|[_ Hb]].
  - split; [reflexivity|]. split; [reflexivity|]. discriminate.
  - apply below_key in Hb. destruct Hb as [Hn Hlt]. split; [exact Hn|].
    split; [rewrite fle_key by (auto; apply D_MAX_notnan); apply Z.leb_le; unfold KM in Hlt; lia|].
    intros ->. vm_compute in Hlt. discriminate.
Qed.
Print Assumptions C18_core_distance_finite.

(** The sentinel D_MAX appears exactly when the row has fewer finite distances than the
    [k + 1] neighbours asked for (the point itself included), ties or not. *)
Theorem C18_sentinel_iff_too_few_neighbours :
  forall d, complete d -> 0 <= d_k d < M32 - 1 ->
    exists d', distance_get_core_distances d = Ok d' /\ d_dist d' = d_dist d /\ d_rows d' = d_rows d /\
      forall i row, (i < Z.to_nat (d_rows d))%nat -> row_of d i row ->
        exists c, nth_error (d_core d') i = Some (Some c) /\
          ((d_k d < Z.of_nat (length (finite_values row))) -> flt c D_MAX = true) /\
          ((Z.of_nat (length (finite_values row)) <= d_k d) -> c = D_MAX).
Proof.
  intros d HC Hk. destruct (core_total d HC Hk) as (cc & E & _). eexists. split; [exact E|].
  split; [reflexivity|]. split; [reflexivity|]. intros i row Hi Hrow.
  destruct (core_spec d i HC Hk Hi) as (d' & row' & c & E' & _ & Hc & Hrow' & Ec).
  assert (row' = row) by (eapply row_unique; eauto). subst row'.
  assert (d' = mk_distance (d_rows d) (d_cols d) (d_k d) (d_dist d) (map (fun i => Some (cc i)) (seq 0 (Z.to_nat (d_rows d))))) by congruence.
  subst d'. exists c. split; [exact Hc|].
  destruct (core_row_enough (Z.to_nat (d_k d + 1)) row ltac:(lia)) as (c' & Ec' & H1 & H2).
  assert (c' = c) by congruence. subst c'. change (filter below row) with (finite_values row) in H1, H2.
  split; intros H; [apply H1|apply H2]; lia.
Qed.
Print Assumptions C18_sentinel_iff_too_few_neighbours.

(** Hence after distance_compute on doubles every core distance is a finite,
    non-negative number. *)
Theorem C18_core_distance_finite_after_compute :
  forall ds rows cols k, (1 <= rows)%nat -> Z.of_nat rows <= 65536 -> holds ds rows cols ->
    0 <= k < M32 - 1 ->
    exists d, distance_compute ds rows cols k = Ok d /\
      forall i, (i < rows)%nat -> exists c, nth_error (d_core d) i = Some (Some c) /\
        fle fzero c = true /\ fle c D_MAX = true.
Proof.
  intros ds rows cols k H1 Hr HL Hk. unfold distance_compute.
  destruct (fill_ok ds rows cols (euclidean ds cols) H1 Hr) as (m & -> & Hm & HG).
  { intros i j Hij. apply (pair_value_ok ds rows); auto; lia. }
  cbn [bind].
  set (d := mk_distance (Z.of_nat rows) (Z.of_nat cols) k m (repeat None rows)).
  assert (HC : complete d).
  { split; cbn [d d_rows d_core]; [rewrite repeat_length; lia|].
    intros i j Hi Hj. rewrite <- (Z2Nat.id i), <- (Z2Nat.id j) by lia. eexists. apply HG; lia. }
  destruct (C18_core_distance_finite d HC Hk) as (d' & E & _ & H). exists d'. split; auto.
  intros i Hi.
  set (row := map (fun j => if (i =? j)%nat then fzero else euclidean ds cols (Nat.min i j) (Nat.max i j)) (seq 0 rows)).
  assert (Hrow : row_of d i row).
  { split; [unfold row; rewrite map_length, seq_length; cbn [d d_rows]; lia|].
    cbn [d d_rows]. intros j Hj. unfold d. rewrite HG by lia. unfold row. f_equal.
    set (f := fun j => if (i =? j)%nat then fzero else euclidean ds cols (Nat.min i j) (Nat.max i j)).
    rewrite (nth_indep _ fzero (f 0%nat)) by (rewrite map_length, seq_length; lia).
    rewrite map_nth, seq_nth by lia. reflexivity. }
  destruct (H i row) as (c & Hc & Hor & Hn & Hle & _); auto; [cbn [d d_rows]; lia|].
  exists c. split; auto. split; auto.
  destruct Hor as [->|[Hin Hlt]]; [reflexivity|].
  rewrite fle_key by (auto; reflexivity). apply Z.leb_le. change (fkey fzero) with 0.
  unfold row in Hin. apply in_map_iff in Hin. destruct Hin as (j & <- & _).
  destruct (i =? j)%nat; [cbn; lia|].
  destruct (C15_distance_not_negative ds cols (Nat.min i j) (Nat.max i j)) as [E2|]; auto.
  unfold fisnan in *. congruence.
Qed.
Print Assumptions C18_core_distance_finite_after_compute.

Example C18_example :
  (let! d := distance_compute (DDouble [fzero; fnan; finf; fone; fzero]) 5 1 1 in
   Ok (forallb (fun o => match o with Some c => fle c D_MAX && fle fzero c | None => false end) (d_core d))) = Ok true.
Proof. vm_compute. reflexivity. Qed.

(** ** C55: integer data *)
Definition in_type (ds : dataset) : Prop :=
  match ds with
  | DInt l => Forall (fun z => -2147483648 <= z <= 2147483647) l
  | DLong l => Forall (fun z => -9223372036854775808 <= z <= 9223372036854775807) l
  | DShort l => Forall (fun z => -32768 <= z <= 32767) l
  | DChar l => Forall (fun z => -128 <= z <= 127) l
  | _ => True
  end.
Lemma f_of_Z_exact z : Z.abs z < 2 ^ 53 -> B2R (f_of_Z z) = IZR z /\ is_finite (f_of_Z z) = true.
Proof.
  intros Hz. unfold f_of_Z.
  pose proof (binary_normalize_correct 53 1024 Hprec Hmax mode_NE z 0 false) as H.
  assert (HF : F2R (Float radix2 z 0) = IZR z) by (unfold F2R; cbn; ring).
  rewrite HF in H. cbv zeta in H.
  assert (HG : generic_format radix2 (SpecFloat.fexp 53 1024) (IZR z)).
  { destruct (Z.eq_dec z 0) as [->|Hnz]; [apply generic_format_0|].
    rewrite <- HF. apply generic_format_F2R. intros _. cbn [Fnum Fexp] in *.
    unfold cexp, SpecFloat.fexp. rewrite HF.
    assert (Hm' : (Raux.mag radix2 (IZR z) <= 53)%Z).
    { apply mag_le_bpow; [now apply IZR_neq|]. rewrite <- abs_IZR. cbn [bpow].
      apply IZR_lt. exact Hz. }
    unfold SpecFloat.emin. lia. }
  match type of H with context [Generic_fmt.round ?a ?b ?c ?d] =>
    assert (HR : Generic_fmt.round a b c d = IZR z) by (apply round_generic; [apply valid_rnd_N|exact HG]) end.
  rewrite HR in H.
  assert (Hlt : (Rabs (IZR z) < bpow radix2 1024)%R).
  { rewrite <- abs_IZR. apply Rlt_trans with (bpow radix2 53).
    - cbn [bpow]. apply IZR_lt. exact Hz.
    - apply bpow_lt. lia. }
  rewrite Rlt_bool_true in H by exact Hlt. tauto.
Qed.

(** Each coordinate difference is exact whenever it fits, and undefined otherwise. *)
Theorem C55_integer_difference :
  forall ds l a b x y, ints ds = Some l -> nth_error l a = Some x -> nth_error l b = Some y ->
    (diff_fits ds (x - y) -> exists v, ddiff ds a b = Ok v /\
       (Z.abs (x - y) < 2 ^ 53 -> B2R v = IZR (x - y) /\ is_finite v = true)) /\
    (~ diff_fits ds (x - y) -> ddiff ds a b = UB).
Proof.
  intros ds l a b x y Hl Hx Hy.
  destruct ds as [m|m|m|m|m|m]; cbn in Hl; try discriminate; injection Hl as ->;
    unfold ddiff, diff_fits; rewrite (aget_nth _ _ _ Hx), (aget_nth _ _ _ Hy); cbn [bind];
    unfold in_i32, in_i64; split; intros H.
  all: try (match goal with |- exists v, (if ?c then _ else _) = Ok v /\ _ => replace c with true by lia;
         eexists; split; [reflexivity|apply f_of_Z_exact] end).
  all: match goal with |- (if ?c then _ else _) = UB => destruct c eqn:E; [exfalso; apply H; lia|reflexivity] end.
Qed.
Print Assumptions C55_integer_difference.

Lemma diff_fits_dec ds z : {diff_fits ds z} + {~ diff_fits ds z}.
Proof.
  destruct ds; cbn [diff_fits]; 
  (match goal with |- {?a <= z <= ?b} + {_} => destruct (Z_le_dec a z); destruct (Z_le_dec z b); [left|right|right|right]; lia end).
Qed.

Theorem C55_integer_data :
  forall ds l rows cols k, ints ds = Some l -> length l = (rows * cols)%nat ->
    (1 <= rows)%nat -> Z.of_nat rows <= 65536 -> 0 <= k < M32 - 1 ->
    (all_diffs_fit ds l rows cols -> exists d, distance_compute ds rows cols k = Ok d /\ complete d) /\
    (forall i j c, (i < j < rows)%nat -> (c < cols)%nat ->
       ~ diff_fits ds (nth (i * cols + c) l 0 - nth (j * cols + c) l 0) ->
       distance_compute ds rows cols k = UB) /\
    (in_type ds -> match ds with DShort _ | DChar _ => all_diffs_fit ds l rows cols | _ => True end).
Proof.
  intros ds l rows cols k Hl HL H1 Hr Hk.
  assert (Hd : forall i j c, (i < j < rows)%nat -> (c < cols)%nat ->
     (diff_fits ds (nth (i * cols + c) l 0 - nth (j * cols + c) l 0) ->
        exists v, ddiff ds (i * cols + c) (j * cols + c) = Ok v) /\
     (~ diff_fits ds (nth (i * cols + c) l 0 - nth (j * cols + c) l 0) ->
        ddiff ds (i * cols + c) (j * cols + c) = UB)).
  { intros i j c Hij Hc.
    destruct (C55_integer_difference ds l (i * cols + c) (j * cols + c)
      (nth (i * cols + c) l 0) (nth (j * cols + c) l 0)) as [Ha Hb]; auto;
      try (apply nth_error_nth'; nia).
    split; auto. intros H. destruct (Ha H) as (v & E & _). eauto. }
  split; [|split].
  - intros Hfit. unfold distance_compute.
    set (v := fun i j => match pair_value ds cols i j with Ok x => x | _ => fzero end).
    destruct (fill_ok ds rows cols v H1 Hr) as (m & -> & Hm & HG).
    { intros i j Hij. unfold v. unfold pair_value.
      destruct (for_up_inv (fun _ (_ : f64) => True) (fun k0 sum =>
        let! diff := ddiff ds (i * cols + k0) (j * cols + k0) in Ok (fadd sum (fmul diff diff))) 0 cols fzero I) as (s & -> & _).
      - intros c s Hc _. destruct (proj1 (Hd i j c Hij ltac:(lia)) (Hfit i j c Hij ltac:(lia))) as (x & ->).
        cbn [bind]. eauto.
      - reflexivity. }
    cbn [bind].
    assert (HC : complete (mk_distance (Z.of_nat rows) (Z.of_nat cols) k m (repeat None rows))).
    { split; cbn [d_rows d_core]; [rewrite repeat_length; lia|].
      intros i j Hi Hj. rewrite <- (Z2Nat.id i), <- (Z2Nat.id j) by lia. eexists. apply HG; lia. }
    destruct (core_total _ HC Hk) as (c & -> & _). cbn [d_rows d_cols d_k d_dist].
    eexists. split; [reflexivity|]. split; cbn [d_rows d_core]; [now rewrite map_length, seq_length|].
    intros i j Hi Hj. rewrite <- (Z2Nat.id i), <- (Z2Nat.id j) by lia. eexists. apply HG; lia.
  - intros i j c Hij Hc Hnf. unfold distance_compute. rewrite fill_ub; [reflexivity|].
    exists i, j. split; auto. left. unfold pair_value.
    assert (G : forall n k0 s, (k0 <= c < k0 + n)%nat -> (k0 + n <= cols)%nat ->
      for_up k0 n (fun k1 sum => let! diff := ddiff ds (i * cols + k1) (j * cols + k1) in Ok (fadd sum (fmul diff diff))) s = UB).
    { induction n as [|n IH]; intros k0 s Hk0 Hn; [lia|]. cbn [for_up].
      destruct (Nat.eq_dec k0 c) as [->|Hne].
      - rewrite (proj2 (Hd i j c Hij Hc) Hnf). reflexivity.
      - destruct (ddiff_ok ds (i * cols + k0) (j * cols + k0)) as [E|(x & E)]; rewrite E; cbn [bind]; [reflexivity|].
        apply IH; lia. }
    rewrite G by lia. reflexivity.
  - intros Ht. destruct ds as [m|m|m|m|m|m]; auto; cbn in Hl; injection Hl as ->; cbn [in_type] in Ht;
      intros i j c Hij Hc; cbn [diff_fits]; rewrite Forall_forall in Ht.
    + pose proof (Ht (nth (i * cols + c) l 0) ltac:(apply nth_In; nia)).
      pose proof (Ht (nth (j * cols + c) l 0) ltac:(apply nth_In; nia)). lia.
    + pose proof (Ht (nth (i * cols + c) l 0) ltac:(apply nth_In; nia)).
      pose proof (Ht (nth (j * cols + c) l 0) ltac:(apply nth_In; nia)). lia.
Qed.
Print Assumptions C55_integer_data.

Example C55_example :
  (let! d := distance_compute (DInt [3; -4; 10]) 3 1 1 in Ok (length (d_core d))) = Ok 3%nat /\
  distance_compute (DInt [2147483647; -1; 0]) 3 1 1 = UB /\
  (let! d := distance_compute (DShort [32767; -32768; 0]) 3 1 1 in Ok (length (d_core d))) = Ok 3%nat.
Proof. vm_compute. auto. Qed.
