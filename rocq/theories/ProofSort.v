(** Rearranging a range of an array. *)
From Coq Require Import Permutation.
From Verif Require Import Base ListFacts ProofMst.
From Coq Require Import Lia.
Local Open Scope nat_scope.

Section Rearr.
Context {T : Type}.

(** [g] is [f] with the entries of positions lo..hi permuted. *)
Definition rearr (lo hi : nat) (f g : nat -> T) : Prop :=
  exists p, (forall k, g k = f (p k)) /\ (forall k k', p k = p k' -> k = k') /\
    forall k, (lo <= k <= hi -> lo <= p k <= hi) /\ (k < lo \/ hi < k -> p k = k).

Lemma rearr_refl lo hi f g : (forall k, g k = f k) -> rearr lo hi f g.
Proof. intros H. exists (fun k => k). auto. Qed.

Lemma rearr_trans lo hi f g h : rearr lo hi f g -> rearr lo hi g h -> rearr lo hi f h.
Proof.
  intros (p & Hp & Ip & Rp) (q & Hq & Iq & Rq). exists (fun k => p (q k)). split; [|split].
  - intros k. now rewrite Hq, Hp.
  - intros k k' E. auto.
  - intros k. split.
    + intros Hk. apply Rp. now apply Rq.
    + intros Hk. rewrite (proj2 (Rq k) Hk). now apply Rp.
Qed.

Definition tr (i j k : nat) : nat := if k =? i then j else if k =? j then i else k.
Lemma rearr_swap lo hi i j f g : lo <= i <= hi -> lo <= j <= hi -> (forall k, g k = f (tr i j k)) -> rearr lo hi f g.
Proof.
  intros Hi Hj H. exists (tr i j). split; [auto|]. unfold tr. split.
  - intros k k'. repeat match goal with |- context [?a =? ?b] => destruct (Nat.eqb_spec a b) end; lia.
  - intros k. repeat match goal with |- context [?a =? ?b] => destruct (Nat.eqb_spec a b) end; lia.
Qed.

Lemma rearr_mono lo hi lo' hi' f g : lo' <= lo -> hi <= hi' -> rearr lo hi f g -> rearr lo' hi' f g.
Proof.
  intros H1 H2 (p & Hp & Ip & Rp). exists p. split; [auto|]. split; [auto|]. intros k.
  destruct (Rp k) as [R1 R2]. split.
  - intros Hk. destruct (Nat.le_gt_cases lo k); [destruct (Nat.le_gt_cases k hi)|].
    + specialize (R1 ltac:(lia)). lia.
    + rewrite R2; lia.
    + rewrite R2; lia.
  - intros Hk. apply R2. lia.
Qed.

Lemma rearr_outside lo hi f g k : rearr lo hi f g -> k < lo \/ hi < k -> g k = f k.
Proof. intros (p & Hp & _ & Rp) Hk. rewrite Hp. f_equal. now apply Rp. Qed.
Lemma rearr_inside lo hi f g k : rearr lo hi f g -> lo <= k <= hi -> exists k', lo <= k' <= hi /\ g k = f k'.
Proof. intros (p & Hp & _ & Rp) Hk. exists (p k). split; [now apply Rp|auto]. Qed.

Lemma rearr_perm lo hi f g n : rearr lo hi f g -> hi < n -> Permutation (map f (seq 0 n)) (map g (seq 0 n)).
Proof.
  intros (p & Hp & Ip & Rp) Hn.
  rewrite (map_ext g (fun k => f (p k)) Hp). rewrite <- (map_map p f). apply Permutation_map.
  apply Permutation_sym. apply NoDup_Permutation_bis.
  - apply FinFun.Injective_map_NoDup; [exact Ip|apply seq_NoDup].
  - now rewrite map_length.
  - intros x Hx. apply in_map_iff in Hx. destruct Hx as (k & <- & Hk). apply in_seq in Hk. apply in_seq.
    destruct (Rp k) as [R1 R2]. destruct (Nat.le_gt_cases lo k); [destruct (Nat.le_gt_cases k hi)|].
    + specialize (R1 ltac:(lia)). lia.
    + rewrite R2; lia.
    + rewrite R2; lia.
Qed.
End Rearr.
