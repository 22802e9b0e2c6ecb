(** Generic list lemmas used across the development. *)
From Coq Require Import Sorted Permutation.
From Verif Require Import Base.

Lemma upd_length {A} (l : list A) i x : length (upd l i x) = length l.
Proof. revert i; induction l as [|h t IH]; intros [|i]; cbn; auto. Qed.

Lemma nth_error_upd {A} (l : list A) i j x :
  nth_error (upd l i x) j =
  if (i =? j) && (j <? length l) then Some x else nth_error l j.
Proof.
  revert i j; induction l as [|h t IH]; intros i j; cbn [upd length].
  - destruct j; cbn; rewrite andb_false_r; reflexivity.
  - destruct i as [|i], j as [|j]; cbn [nth_error]; auto.
    rewrite IH. reflexivity.
Qed.

Lemma nth_error_upd_eq {A} (l : list A) i x :
  i < length l -> nth_error (upd l i x) i = Some x.
Proof.
  intros H. rewrite nth_error_upd, Nat.eqb_refl.
  destruct (Nat.ltb_spec i (length l)); [reflexivity|lia].
Qed.

Lemma nth_error_upd_neq {A} (l : list A) i j x :
  i <> j -> nth_error (upd l i x) j = nth_error l j.
Proof. intros H. rewrite nth_error_upd. apply Nat.eqb_neq in H. now rewrite H. Qed.

Lemma upd_app {A} (l : list A) i x :
  i < length l -> upd l i x = firstn i l ++ x :: skipn (S i) l.
Proof.
  revert i; induction l as [|h t IH]; intros [|i] H; cbn in *; try lia; auto.
  f_equal. apply IH. lia.
Qed.

Lemma aget_ok {A} (l : list A) i : i < length l -> exists a, aget l i = Ok a /\ nth_error l i = Some a.
Proof.
  intros H. unfold aget. destruct (nth_error l i) eqn:E; eauto.
  apply nth_error_None in E. lia.
Qed.

Lemma aget_nth {A} (l : list A) i a : nth_error l i = Some a -> aget l i = Ok a.
Proof. unfold aget. now intros ->. Qed.

Lemma aget_inv {A} (l : list A) i a : aget l i = Ok a -> nth_error l i = Some a.
Proof. unfold aget. destruct (nth_error l i); congruence. Qed.

Lemma aset_ok {A} (l : list A) i x : i < length l -> aset l i x = Ok (upd l i x).
Proof. intros H. unfold aset. apply Nat.ltb_lt in H. now rewrite H. Qed.

Lemma aset_inv {A} (l l' : list A) i x : aset l i x = Ok l' -> i < length l /\ l' = upd l i x.
Proof. unfold aset. destruct (Nat.ltb_spec i (length l)); intros E; inversion E; auto. Qed.

Lemma nth_error_firstn {A} (l : list A) n i :
  nth_error (firstn n l) i = if i <? n then nth_error l i else None.
Proof.
  revert n i; induction l as [|h t IH]; intros [|n] [|i]; cbn [firstn nth_error]; auto.
  - destruct (Nat.ltb_spec (S i) (S n)); reflexivity.
  - rewrite IH. reflexivity.
Qed.

Lemma nth_error_skipn {A} (l : list A) n i : nth_error (skipn n l) i = nth_error l (n + i).
Proof. revert l; induction n as [|n IH]; intros [|h t]; cbn; auto. destruct i; reflexivity. Qed.

Lemma nth_error_ext {A} (l l' : list A) :
  (forall i, nth_error l i = nth_error l' i) -> l = l'.
Proof.
  revert l'; induction l as [|h t IH]; intros [|h' t'] H; auto.
  - specialize (H 0); discriminate.
  - specialize (H 0); discriminate.
  - f_equal.
    + specialize (H 0). cbn in H. congruence.
    + apply IH. intros i. exact (H (S i)).
Qed.

Lemma bind_ok {A B} (m : res A) (f : A -> res B) b :
  bind m f = Ok b -> exists a, m = Ok a /\ f a = Ok b.
Proof. destruct m; cbn; intros H; try discriminate. eauto. Qed.

Lemma for_up_inv {S} (P : nat -> S -> Prop) body k n s :
  P k s ->
  (forall i s, k <= i < k + n -> P i s -> exists s', body i s = Ok s' /\ P (Datatypes.S i) s') ->
  exists s', for_up k n body s = Ok s' /\ P (k + n) s'.
Proof.
  revert k s; induction n as [|n IH]; intros k s H0 Hstep; cbn.
  - exists s. rewrite Nat.add_0_r. auto.
  - destruct (Hstep k s ltac:(lia) H0) as [s1 [E1 H1]]. rewrite E1. cbn.
    destruct (IH (Datatypes.S k) s1 H1) as [s2 [E2 H2]].
    + intros i s3 Hi. apply Hstep. lia.
    + exists s2. split; auto. replace (k + Datatypes.S n) with (Datatypes.S k + n) by lia. auto.
Qed.

Lemma list_last_cases {A} (l : list A) : l = [] \/ exists l' a, l = l' ++ [a].
Proof.
  destruct l as [|x l]; [auto|]. right.
  destruct (exists_last (l := x :: l)) as (l' & a & E); [discriminate|]. eauto.
Qed.

Lemma NoDup_app_l {A} (l1 l2 : list A) : NoDup (l1 ++ l2) -> NoDup l1.
Proof.
  induction l1 as [|x l1 IH]; cbn; intros H; [constructor|].
  inversion H; subst. constructor; auto. rewrite in_app_iff in *. tauto.
Qed.

Lemma NoDup_app_r {A} (l1 l2 : list A) : NoDup (l1 ++ l2) -> NoDup l2.
Proof. induction l1 as [|x l1 IH]; cbn; intros H; auto. inversion H; auto. Qed.

Lemma NoDup_app_disj {A} (l1 l2 : list A) x : NoDup (l1 ++ l2) -> In x l1 -> In x l2 -> False.
Proof.
  induction l1 as [|y l1 IH]; cbn; intros H H1 H2; [tauto|].
  inversion H; subst. rewrite in_app_iff in *. destruct H1 as [->|H1]; auto.
Qed.
