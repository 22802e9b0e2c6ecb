(** Proofs about ModelDistance.v. *)
From Coq Require Import Permutation Sorted.
From Flocq Require Import IEEE754.BinarySingleNaN.
From Verif Require Import Base ListFacts F64 F64Facts ModelDistance.
From Coq Require Import ZifyBool.
Local Open Scope Z_scope.

(** ** Layout *)
Lemma tri_even i : exists t, 2 * t = (i + 1) * (i + 2).
Proof.
  destruct (Z.Even_or_Odd i) as [[k ->]|[k ->]].
  - exists ((2 * k + 1) * (k + 1)). ring.
  - exists ((k + 1) * (2 * k + 3)). ring.
Qed.

Lemma tri_small i : 0 <= i <= 65534 -> 2 * TRIANGULAR_H (i + 1) = (i + 1) * (i + 2).
Proof.
  intros Hi. unfold TRIANGULAR_H, u32, M32. destruct (tri_even i) as (t & Ht).
  replace ((i + 1) * (i + 1) + (i + 1)) with (t * 2) by lia.
  rewrite Z.mod_small by nia. rewrite Z.div_mul by lia. lia.
Qed.

Lemma get_index_exact n i j : n <= 65536 -> 0 <= i < j -> j < n ->
  2 * get_index n i j = 2 * n * i + 2 * j - (i + 1) * (i + 2) /\ 0 <= get_index n i j.
Proof.
  intros Hn Hi Hj. unfold get_index.
  assert (E1 : u32 (i + 1) = i + 1) by (unfold u32, M32; rewrite Z.mod_small; lia). rewrite E1.
  pose proof (tri_small i ltac:(lia)) as Ht.
  assert (E2 : u32 (n * i) = n * i) by (unfold u32, M32; rewrite Z.mod_small; nia). rewrite E2.
  assert (E3 : u32 (n * i + j) = n * i + j) by (unfold u32, M32; rewrite Z.mod_small; nia). rewrite E3.
  assert (0 <= n * i + j - TRIANGULAR_H (i + 1)) by nia.
  assert (E4 : u64 (n * i + j - TRIANGULAR_H (i + 1)) = n * i + j - TRIANGULAR_H (i + 1)).
  { unfold u64, M64. rewrite Z.mod_small; [reflexivity|]. nia. }
  rewrite E4. lia.
Qed.

Lemma set_index_exact n i j : n <= 65536 -> 0 <= i < j -> j < n ->
  set_index n i j = get_index n i j.
Proof.
  intros Hn Hi Hj. unfold set_index, get_index.
  assert (E0 : u32 i = i) by (unfold u32, M32; rewrite Z.mod_small; lia). rewrite E0.
  assert (E2 : u32 (n * i) = n * i) by (unfold u32, M32; rewrite Z.mod_small; nia). rewrite E2.
  assert (E3 : u32 (n * i + j) = n * i + j) by (unfold u32, M32; rewrite Z.mod_small; nia). rewrite E3.
  assert (E4 : u64 (i * n + j) = n * i + j) by (unfold u64, M64; rewrite Z.mod_small; nia). now rewrite E4.
Qed.

Lemma alloc_exact n : 1 <= n <= 65536 -> 2 * alloc_size n = n * (n - 1).
Proof.
  intros Hn. unfold alloc_size, u32, M32.
  destruct (tri_even (n - 2)) as (t & Ht). replace ((n - 2 + 1) * (n - 2 + 2)) with (n * (n - 1)) in Ht by ring.
  rewrite Zminus_mod_idemp_l. replace (n * n - n) with (t * 2) by lia.
  rewrite Z.mod_small by nia. rewrite Z.div_mul by lia. lia.
Qed.

Lemma index_in_alloc n i j : n <= 65536 -> 0 <= i < j -> j < n -> get_index n i j < alloc_size n.
Proof.
  intros Hn Hi Hj. pose proof (get_index_exact n i j Hn Hi Hj) as [H _].
  pose proof (alloc_exact n ltac:(lia)) as Ha. nia.
Qed.

Lemma index_lt n i j i' j' : n <= 65536 -> 0 <= i < j -> j < n -> i < i' < j' -> j' < n ->
  get_index n i j < get_index n i' j'.
Proof.
  intros Hn Hi Hj Hi' Hj'.
  pose proof (get_index_exact n i j Hn Hi Hj) as [H _].
  pose proof (get_index_exact n i' j' Hn ltac:(lia) Hj') as [H' _].
  assert (exists d, i' = i + d /\ 1 <= d) as (d & -> & Hd) by (exists (i' - i); lia). nia.
Qed.

Lemma index_inj n i j i' j' : n <= 65536 -> 0 <= i < j -> j < n -> 0 <= i' < j' -> j' < n ->
  get_index n i j = get_index n i' j' -> i = i' /\ j = j'.
Proof.
  intros Hn Hi Hj Hi' Hj' E.
  destruct (Z.lt_trichotomy i i') as [H|[H|H]].
  - pose proof (index_lt n i j i' j'). lia.
  - subst i'. pose proof (get_index_exact n i j Hn Hi Hj). pose proof (get_index_exact n i j' Hn Hi' Hj'). lia.
  - pose proof (index_lt n i' j' i j). lia.
Qed.

Lemma index_surj n c : 1 <= n <= 65536 -> 0 <= c < alloc_size n ->
  exists i j, 0 <= i < j /\ j < n /\ get_index n i j = c.
Proof.
  intros Hn Hc. pose proof (alloc_exact n Hn) as Ha.
  assert (H : forall m : nat, Z.of_nat m <= n - 1 ->
            2 * c < 2 * n * Z.of_nat m - Z.of_nat m * (Z.of_nat m + 1) ->
            exists i j, 0 <= i < j /\ j < n /\ get_index n i j = c).
  { induction m as [|m IH]; intros Hm Hlt; [lia|].
    destruct (Z.ltb_spec (2 * c) (2 * n * Z.of_nat m - Z.of_nat m * (Z.of_nat m + 1))); [apply IH; lia|].
    set (x := Z.of_nat m) in *. destruct (tri_even (x - 1)) as (t & Ht).
    replace ((x - 1 + 1) * (x - 1 + 2)) with (x * (x + 1)) in Ht by ring.
    set (j := c - (n * x - t) + x + 1).
    replace (Z.of_nat (S m)) with (x + 1) in * by lia.
    assert (Hj : 0 <= x < j /\ j < n) by (unfold j; nia).
    exists x, j. split; [tauto|]. split; [tauto|].
    pose proof (get_index_exact n x j ltac:(lia) ltac:(lia) ltac:(lia)) as [E _].
    assert (Ej : j = c - (n * x - t) + x + 1) by reflexivity. clearbody j. nia. }
  apply (H (Z.to_nat (n - 1))); nia.
Qed.

Lemma alloc_too_small n : 65537 <= n < M32 ->
  2 * alloc_size n < n * (n - 1) /\
  alloc_size n <= set_index n (n - 2) (n - 1).
Proof.
  unfold M32. intros Hn.
  assert (Ha : alloc_size n < 2147483648).
  { unfold alloc_size, u32, M32. apply Z.div_lt_upper_bound; [lia|].
    pose proof (Z.mod_pos_bound ((n * n) mod 4294967296 - n) 4294967296). lia. }
  split; [nia|]. unfold set_index.
  assert (Ht : 0 <= TRIANGULAR_H (u32 (u32 (n - 2) + 1)) < 2147483648).
  { unfold TRIANGULAR_H, u32, M32. match goal with |- 0 <= (?a mod _) / 2 < _ => set (q := a) end.
    pose proof (Z.mod_pos_bound q 4294967296).
    split; [apply Z.div_pos; lia|apply Z.div_lt_upper_bound; lia]. }
  set (T := TRIANGULAR_H _) in *.
  assert (E : u64 ((n - 2) * n + (n - 1)) = (n - 2) * n + (n - 1)).
  { unfold u64, M64. rewrite Z.mod_small; nia. }
  rewrite E.
  assert (E2 : u64 ((n - 2) * n + (n - 1) - T) = (n - 2) * n + (n - 1) - T).
  { unfold u64, M64. rewrite Z.mod_small; nia. }
  rewrite E2. nia.
Qed.

(** ** Writes into distinct slots *)
Section Writes.
Context {A B : Type}.
Variable idx : A -> Z.
Variable val : A -> res B.

Definition wstep (a : A) (m : list (option B)) : res (list (option B)) :=
  let! v := val a in zset m (idx a) v.
Fixpoint wrun (l : list A) (m : list (option B)) : res (list (option B)) :=
  match l with
  | [] => Ok m
  | a :: l => let! m' := wstep a m in wrun l m'
  end.

Lemma zset_length (m m' : list (option B)) i v : zset m i v = Ok m' -> length m' = length m.
Proof. unfold zset. destruct (_ && _); [|discriminate]. intros [= <-]. apply upd_length. Qed.

Lemma wrun_app l1 l2 m : wrun (l1 ++ l2) m = let! m' := wrun l1 m in wrun l2 m'.
Proof.
  revert m. induction l1 as [|a l1 IH]; intros m; cbn [app wrun]; [reflexivity|].
  destruct (wstep a m); cbn [bind]; auto.
Qed.

Lemma upd_comm {C} (m : list C) i j x y : i <> j -> upd (upd m i x) j y = upd (upd m j y) i x.
Proof.
  revert i j. induction m as [|h m IH]; intros [|i] [|j] H; cbn [upd]; try reflexivity; try lia.
  f_equal. apply IH. lia.
Qed.

Hypothesis val_ok : forall a, val a = UB \/ exists v, val a = Ok v.

Lemma wstep_comm a b m : idx a <> idx b ->
  (let! m' := wstep a m in wstep b m') = (let! m' := wstep b m in wstep a m').
Proof.
  intros H. unfold wstep.
  destruct (val_ok a) as [Ea|(va & Ea)], (val_ok b) as [Eb|(vb & Eb)]; rewrite Ea, Eb; cbn [bind]; try reflexivity.
  - unfold zset. destruct (_ && _); cbn [bind]; reflexivity.
  - unfold zset. destruct ((0 <=? idx a) && _); cbn [bind]; reflexivity.
  - unfold zset.
    destruct ((0 <=? idx a) && (idx a <? Z.of_nat (length m))) eqn:E1;
    destruct ((0 <=? idx b) && (idx b <? Z.of_nat (length m))) eqn:E2; cbn [bind];
      rewrite ?upd_length, ?E1, ?E2; try reflexivity.
    rewrite upd_comm by lia. reflexivity.
Qed.

Lemma wrun_perm l l' : Permutation l l' -> NoDup (map idx l) -> forall m, wrun l m = wrun l' m.
Proof.
  induction 1 as [|a l l' HP IH|a b l|l l' l'' HP1 IH1 HP2 IH2]; intros Hnd m.
  - reflexivity.
  - cbn [wrun map] in *. inversion Hnd; subst. destruct (wstep a m); cbn [bind]; auto.
  - cbn [wrun map] in *.
    assert (H : idx a <> idx b). { inversion Hnd; subst. cbn [In] in *. intuition. }
    pose proof (wstep_comm b a m ltac:(auto)) as E.
    assert (G : forall x y, (let! m' := wstep x m in let! m'' := wstep y m' in wrun l m'') =
                          (let! m'' := (let! m' := wstep x m in wstep y m') in wrun l m'')).
    { intros x y. destruct (wstep x m); reflexivity. }
    rewrite !G, E. reflexivity.
  - rewrite IH1 by auto. apply IH2. eapply Permutation_NoDup; [|exact Hnd]. now apply Permutation_map.
Qed.

(** When every value is defined and every slot in range. *)
Lemma wrun_ok (v : A -> B) l : forall m,
  (forall a, In a l -> val a = Ok (v a) /\ 0 <= idx a < Z.of_nat (length m)) ->
  NoDup (map idx l) ->
  exists m', wrun l m = Ok m' /\ length m' = length m /\
    (forall a, In a l -> nth_error m' (Z.to_nat (idx a)) = Some (Some (v a))) /\
    (forall i, (forall a, In a l -> Z.to_nat (idx a) <> i) -> nth_error m' i = nth_error m i).
Proof.
  induction l as [|a l IH]; intros m Hok Hnd.
  - exists m. cbn [wrun]. repeat split; auto. intros a [].
  - cbn [wrun]. destruct (Hok a (or_introl eq_refl)) as [Ev Hi].
    unfold wstep at 1. rewrite Ev. cbn [bind]. unfold zset.
    replace ((0 <=? idx a) && (idx a <? Z.of_nat (length m))) with true by lia. cbn [bind].
    cbn [map] in Hnd. inversion Hnd as [|? ? Hni Hnd']; subst.
    destruct (IH (upd m (Z.to_nat (idx a)) (Some (v a)))) as (m' & E & HL & H1 & H2).
    + intros b Hb. rewrite upd_length. apply Hok. now right.
    + auto.
    + exists m'. rewrite upd_length in HL. split; [auto|]. split; [auto|]. split.
      * intros b [<-|Hb]; auto.
        rewrite H2.
        -- rewrite nth_error_upd_eq; [reflexivity|lia].
        -- intros c Hc Heq. apply Hni. destruct (Hok c (or_intror Hc)).
           replace (idx a) with (idx c) by lia. now apply in_map.
      * intros i Hn. rewrite H2.
        -- apply nth_error_upd_neq. intros Heq. apply (Hn a); [now left|congruence].
        -- intros b Hb. apply Hn. now right.
Qed.

(** When a value is undefined or a slot is out of range the run is undefined. *)
Lemma wrun_ub l : forall m, (exists a, In a l /\ (val a = UB \/ ~ (0 <= idx a < Z.of_nat (length m)))) ->
  wrun l m = UB.
Proof.
  induction l as [|a l IH]; intros m (b & Hb & Hub); [destruct Hb|].
  cbn [wrun]. unfold wstep at 1. destruct (val_ok a) as [Ea|(va & Ea)]; rewrite Ea; cbn [bind]; [reflexivity|].
  unfold zset. destruct ((0 <=? idx a) && (idx a <? Z.of_nat (length m))) eqn:E; cbn [bind]; [|reflexivity].
  apply IH. exists b. rewrite upd_length. destruct Hb as [<-|Hb]; [|auto].
  exfalso. destruct Hub as [Hub|Hub]; [congruence|]. apply Hub. lia.
Qed.
End Writes.

Lemma for_up_wrun {B} idx (val : nat -> res B) n : forall k m,
  for_up k n (fun a m => wstep idx val a m) m = wrun idx val (seq k n) m.
Proof.
  induction n as [|n IH]; intros k m; cbn [for_up seq wrun]; [reflexivity|].
  destruct (wstep idx val k m); cbn [bind]; auto.
Qed.

(** ** The matrix as a list of writes *)
Definition row_pairs (rows i : nat) : list (nat * nat) := map (fun j => (i, j)) (seq (S i) (rows - S i)).
Definition all_pairs (rows : nat) : list (nat * nat) := concat (map (row_pairs rows) (seq 0 rows)).

Definition pidx (rows : nat) (p : nat * nat) : Z := set_index (Z.of_nat rows) (Z.of_nat (fst p)) (Z.of_nat (snd p)).
Definition pval (ds : dataset) (cols : nat) (p : nat * nat) : res f64 := pair_value ds cols (fst p) (snd p).

Lemma for_up_ext {S} body body' n : forall k (s : S), (forall i s, k <= i < k + n -> body i s = body' i s)%nat ->
  for_up k n body s = for_up k n body' s.
Proof.
  induction n as [|n IH]; intros k s H; cbn [for_up]; [reflexivity|].
  rewrite H by lia. destruct (body' k s); cbn [bind]; auto. apply IH. intros; apply H; lia.
Qed.

Lemma row_run ds rows cols i : forall n k m,
  for_up k n (fun j m => pair_step ds rows cols i j m) m =
  wrun (pidx rows) (pval ds cols) (map (fun j => (i, j)) (seq k n)) m.
Proof.
  induction n as [|n IH]; intros k m; cbn [for_up seq map wrun]; [reflexivity|].
  unfold pair_step, wstep, pval, pidx. cbn [fst snd].
  destruct (pair_value ds cols i k); cbn [bind]; auto.
  destruct (zset m _ _); cbn [bind]; auto.
Qed.

Lemma fill_matrix_run ds rows cols m :
  fill_matrix ds rows cols m = wrun (pidx rows) (pval ds cols) (all_pairs rows) m.
Proof.
  unfold fill_matrix, all_pairs.
  assert (H : forall n k m, for_up k n (fun i m => for_up (S i) (rows - S i) (fun j m => pair_step ds rows cols i j m) m) m =
            wrun (pidx rows) (pval ds cols) (concat (map (row_pairs rows) (seq k n))) m).
  { induction n as [|n IH]; intros k m'; cbn [for_up seq map concat wrun]; [reflexivity|].
    rewrite wrun_app. rewrite row_run.
    change (row_pairs rows k) with (map (fun j => (k, j)) (seq (S k) (rows - S k))).
    match goal with |- bind ?a _ = bind ?b _ => change b with a; destruct a end; cbn [bind]; auto. }
  apply H.
Qed.

Lemma in_all_pairs rows i j : In (i, j) (all_pairs rows) <-> (i < j < rows)%nat.
Proof.
  unfold all_pairs. rewrite in_concat. split.
  - intros (l & Hl & Hin). apply in_map_iff in Hl. destruct Hl as (a & <- & Ha). apply in_seq in Ha.
    unfold row_pairs in Hin. apply in_map_iff in Hin. destruct Hin as (b & E & Hb). injection E as -> ->.
    apply in_seq in Hb. lia.
  - intros H. exists (row_pairs rows i). split.
    + apply in_map. apply in_seq. lia.
    + unfold row_pairs. apply in_map. apply in_seq. lia.
Qed.

Lemma NoDup_app_intro {A} (l1 l2 : list A) :
  NoDup l1 -> NoDup l2 -> (forall x, In x l1 -> ~ In x l2) -> NoDup (l1 ++ l2).
Proof.
  induction l1 as [|a l1 IH]; intros H1 H2 H; cbn [app]; auto.
  inversion H1; subst. constructor.
  - rewrite in_app_iff. intros [Hi|Hi]; auto. apply (H a); auto. now left.
  - apply IH; auto. intros x Hx. apply H. now right.
Qed.

Lemma NoDup_map_inj {A B} (f : A -> B) l :
  (forall x y, In x l -> In y l -> f x = f y -> x = y) -> NoDup l -> NoDup (map f l).
Proof.
  induction l as [|a l IH]; intros Hf H; cbn [map]; constructor; inversion H; subst.
  - intros Hin. apply in_map_iff in Hin. destruct Hin as (y & E & Hy).
    assert (y = a) by (apply Hf; auto; [now right|now left]). now subst.
  - apply IH; auto. intros x y Hx Hy. apply Hf; now right.
Qed.

Lemma NoDup_concat_pairs rows n : forall k, NoDup (concat (map (row_pairs rows) (seq k n))).
Proof.
  induction n as [|n IH]; intros k; cbn [seq map concat]; [constructor|].
  apply NoDup_app_intro; auto.
  - apply NoDup_map_inj; [|apply seq_NoDup]. intros x y _ _ E. now injection E.
  - intros [a b] H1 H2. unfold row_pairs in H1. apply in_map_iff in H1. destruct H1 as (j & E & _).
    injection E as <- <-.
    apply in_concat in H2. destruct H2 as (l & Hl & Hin). apply in_map_iff in Hl. destruct Hl as (c & <- & Hc).
    unfold row_pairs in Hin. apply in_map_iff in Hin. destruct Hin as (d & E & _). injection E as -> _.
    apply in_seq in Hc. lia.
Qed.

Lemma NoDup_all_pairs rows : NoDup (all_pairs rows).
Proof. apply NoDup_concat_pairs. Qed.

Lemma NoDup_pidx rows : Z.of_nat rows <= 65536 -> NoDup (map (pidx rows) (all_pairs rows)).
Proof.
  intros Hr. apply NoDup_map_inj; [|apply NoDup_all_pairs].
  intros [i j] [i' j'] H H' E. apply in_all_pairs in H, H'. unfold pidx in E. cbn [fst snd] in E.
  rewrite !set_index_exact in E by lia. apply index_inj in E; try lia. f_equal; lia.
Qed.

Lemma ddiff_ok ds a b : ddiff ds a b = UB \/ exists v, ddiff ds a b = Ok v.
Proof.
  assert (G : forall {C} (l : list C) i, aget l i = UB \/ exists v, aget l i = Ok v).
  { intros C l i. unfold aget. destruct (nth_error l i); eauto. }
  unfold ddiff. destruct ds as [l|l|l|l|l|l];
    (destruct (G _ l a) as [E|(x & E)]; rewrite E; cbn [bind]; [auto|]);
    (destruct (G _ l b) as [E'|(y & E')]; rewrite E'; cbn [bind]; [auto|]); eauto;
    try (destruct (in_i32 _)); try (destruct (in_i64 _)); eauto.
Qed.

Lemma for_up_ok_or_ub {S} body n : (forall i (s : S), body i s = UB \/ exists v, body i s = Ok v) ->
  forall k s, for_up k n body s = UB \/ exists v, for_up k n body s = Ok v.
Proof.
  intros H. induction n as [|n IH]; intros k s; cbn [for_up]; [eauto|].
  destruct (H k s) as [E|(v & E)]; rewrite E; cbn [bind]; auto.
Qed.

Lemma pair_value_ok ds cols i j : pair_value ds cols i j = UB \/ exists v, pair_value ds cols i j = Ok v.
Proof.
  unfold pair_value.
  match goal with |- context [for_up 0 cols ?b fzero] =>
    destruct (for_up_ok_or_ub b cols) with (k := 0%nat) (s := fzero) as [E|(v & E)] end.
  - intros k s. destruct (ddiff_ok ds (i * cols + k) (j * cols + k)) as [E|(v & E)]; rewrite E; cbn [bind]; eauto.
  - rewrite E. auto.
  - rewrite E. cbn [bind]. eauto.
Qed.

Lemma pval_ok ds cols p : pval ds cols p = UB \/ exists v, pval ds cols p = Ok v.
Proof. apply pair_value_ok. Qed.

(** Filling succeeds iff every pair has a value; then distance_get reads it back. *)
Lemma fill_ok ds rows cols v :
  (1 <= rows)%nat -> Z.of_nat rows <= 65536 ->
  (forall i j, (i < j < rows)%nat -> pair_value ds cols i j = Ok (v i j)) ->
  exists m, fill_matrix ds rows cols (repeat None (Z.to_nat (alloc_size (Z.of_nat rows)))) = Ok m /\
    Z.of_nat (length m) = alloc_size (Z.of_nat rows) /\
    (forall k core i j, (i < rows)%nat -> (j < rows)%nat ->
      distance_get (mk_distance (Z.of_nat rows) (Z.of_nat cols) k m core) (Z.of_nat i) (Z.of_nat j) =
      Ok (if (i =? j)%nat then fzero else v (Nat.min i j) (Nat.max i j))).
Proof.
  intros H1 Hr Hv. rewrite fill_matrix_run.
  pose proof (alloc_exact (Z.of_nat rows) ltac:(lia)) as Ha.
  set (m0 := repeat None (Z.to_nat (alloc_size (Z.of_nat rows)))).
  assert (HL : Z.of_nat (length m0) = alloc_size (Z.of_nat rows)) by (unfold m0; rewrite repeat_length; nia).
  destruct (wrun_ok (pidx rows) (pval ds cols) (fun p => v (fst p) (snd p)) (all_pairs rows) m0)
    as (m & E & HL' & Hget & _).
  - intros [i j] Hin. apply in_all_pairs in Hin. split; [now apply Hv|].
    unfold pidx. cbn [fst snd]. rewrite set_index_exact by lia.
    pose proof (get_index_exact (Z.of_nat rows) (Z.of_nat i) (Z.of_nat j) ltac:(lia) ltac:(lia) ltac:(lia)).
    pose proof (index_in_alloc (Z.of_nat rows) (Z.of_nat i) (Z.of_nat j)). lia.
  - now apply NoDup_pidx.
  - exists m. split; [auto|]. split; [congruence|].
    intros k core i j Hi Hj.
    assert (G : forall a b, (a < b < rows)%nat -> zget m (get_index (Z.of_nat rows) (Z.of_nat a) (Z.of_nat b)) = Ok (v a b)).
    { intros a b Hab. unfold zget.
      pose proof (get_index_exact (Z.of_nat rows) (Z.of_nat a) (Z.of_nat b) ltac:(lia) ltac:(lia) ltac:(lia)) as [_ Hp].
      replace (_ <? 0) with false by lia.
      specialize (Hget (a, b)). unfold pidx in Hget. cbn [fst snd] in Hget. rewrite set_index_exact in Hget by lia.
      rewrite Hget; [reflexivity|]. now apply in_all_pairs. }
    unfold distance_get. cbn [d_rows d_dist].
    destruct (Nat.eqb_spec i j) as [->|Hne].
    + rewrite Z.ltb_irrefl, Z.eqb_refl. reflexivity.
    + destruct (Z.ltb_spec (Z.of_nat i) (Z.of_nat j)).
      * rewrite G by lia. f_equal. f_equal; lia.
      * replace (Z.of_nat i =? Z.of_nat j) with false by lia. rewrite G by lia. f_equal. f_equal; lia.
Qed.

Lemma fill_ub ds rows cols m :
  (exists i j, (i < j < rows)%nat /\
     (pair_value ds cols i j = UB \/ ~ (0 <= set_index (Z.of_nat rows) (Z.of_nat i) (Z.of_nat j) < Z.of_nat (length m)))) ->
  fill_matrix ds rows cols m = UB.
Proof.
  intros (i & j & Hij & H). rewrite fill_matrix_run. apply wrun_ub; [apply pval_ok|].
  exists (i, j). split; [now apply in_all_pairs|]. exact H.
Qed.
