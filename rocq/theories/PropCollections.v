(** Theorems C01-C05: ArrayList and set_t.  Specification: SpecSeq.v. *)
From Coq Require Import Sorted Permutation.
From Verif Require Import Base ListFacts ModelArrayList SpecSeq ProofArrayList.

(** "Matches" in the sense of the comparison callback. *)
Definition matches {A} (compare : A -> A -> Z) (y x : A) : bool := (compare y x =? 0)%Z.

(** [al] stores exactly the sequence [l] in its first [size] slots. *)
Definition stores {A} (al : alist A) (l : list A) : Prop :=
  al_size al = length l /\ firstn (al_size al) (al_data al) = map Some l.

(** C01: every history is answered as by the mathematical sequence, which is what
    the list stores at the end. *)
Theorem C01_arraylist_is_a_sequence :
  forall (A : Type) (compare : A -> A -> Z) (k : nat) (ops : list (lop A)),
    0 < k -> hist_ok (matches compare) [] ops ->
    exists al0 al',
      array_list_init k = Ok al0 /\
      lrun compare al0 ops = Ok (al', snd (seq_run (matches compare) [] ops)) /\
      stores al' (fst (seq_run (matches compare) [] ops)).
Proof.
  intros A compare k ops Hk Hops.
  exists (AL (repeat None k) 0 k).
  assert (E : array_list_init k = Ok (AL (repeat (@None A) k) 0 k)).
  { unfold array_list_init. apply Nat.ltb_lt in Hk. now rewrite Hk. }
  destruct (rep_init _ _ E) as (R & _ & _).
  destruct (lrun_ok compare ops _ [] R Hops) as (al' & E' & R').
  exists al'. split; [exact E|]. split; [exact E'|].
  apply rep_elements in R'. split; tauto.
Qed.
Print Assumptions C01_arraylist_is_a_sequence.

Definition zcmp (a b : Z) : Z := (a - b)%Z.

Example C01_example :
  let ops := [LAppend 5%Z; LAppend 7%Z; LInsertAt 6%Z 1; LRemove 5%Z; LPop; LAppend 9%Z; LFind 9%Z] in
  hist_ok (matches zcmp) [] ops /\
  (let! al := array_list_init 1 in let! r := lrun zcmp al ops in Ok (snd r)) =
  Ok [(1, None); (1, None); (1, None); (1, Some 5); (1, Some 7); (1, None); (1, None)]%Z /\
  fst (seq_run (matches zcmp) [] ops) = [6; 9]%Z.
Proof. vm_compute. repeat split; auto. Qed.

(** C02: no operation of such a history leaves the allocated block ([UB] is the
    outcome of any out-of-block access in the model) ... *)
Theorem C02_arraylist_memory_safe :
  forall (A : Type) (compare : A -> A -> Z) (k : nat) (ops : list (lop A)),
    0 < k -> hist_ok (matches compare) [] ops ->
    exists al0 al' outs, array_list_init k = Ok al0 /\ lrun compare al0 ops = Ok (al', outs) /\
      length (al_data al') = al_max al' /\ al_size al' <= al_max al'.
Proof.
  intros A compare k ops Hk Hops.
  exists (AL (repeat None k) 0 k).
  assert (E : array_list_init k = Ok (AL (repeat (@None A) k) 0 k)).
  { unfold array_list_init. apply Nat.ltb_lt in Hk. now rewrite Hk. }
  destruct (rep_init _ _ E) as (R & _ & _).
  destruct (lrun_ok compare ops _ [] R Hops) as (al' & E' & R').
  exists al', (snd (seq_run (matches compare) [] ops)).
  destruct R' as (H1 & H2 & H3 & H4 & _).
  repeat split; auto. rewrite H1. exact H4.
Qed.
Print Assumptions C02_arraylist_memory_safe.

(** ... and it is false for insert_at past the end ... *)
Theorem C02_insert_past_end_refuted :
  forall (A : Type) (compare : A -> A -> Z) k (ops : list (lop A)) x p,
    0 < k -> hist_ok (matches compare) [] ops ->
    length (fst (seq_run (matches compare) [] ops)) < p ->
    (let! al := array_list_init k in lrun compare al (ops ++ [LInsertAt x p])) = UB.
Proof.
  intros A compare k ops x p Hk Hops Hp.
  assert (E : array_list_init k = Ok (AL (repeat (@None A) k) 0 k)).
  { unfold array_list_init. apply Nat.ltb_lt in Hk. now rewrite Hk. }
  rewrite E. destruct (rep_init _ _ E) as (R & _ & _).
  destruct (lrun_ok compare ops _ [] R Hops) as (al' & E' & R').
  cbn [bind]. rewrite lrun_app, E'. cbn [bind fst lrun lstep].
  now rewrite (insert_past_end compare al' _ x p R' Hp).
Qed.
Print Assumptions C02_insert_past_end_refuted.

(** ... and for a resizing clear: afterwards one append fits, the second one writes
    outside the block, whatever the history before. *)
Theorem C02_clear_resize_refuted :
  forall (A : Type) (compare : A -> A -> Z) k (ops : list (lop A)) x y,
    2 <= k -> hist_ok (matches compare) [] ops ->
    (exists al outs, (let! al := array_list_init k in
        lrun compare al (ops ++ [LClear true; LAppend x])) = Ok (al, outs) /\ stores al [x]) /\
    (let! al := array_list_init k in
     lrun compare al (ops ++ [LClear true; LAppend x; LAppend y])) = UB.
Proof.
  intros A compare k ops x y Hk Hops.
  assert (E : array_list_init k = Ok (AL (repeat (@None A) k) 0 k)).
  { unfold array_list_init. destruct (Nat.ltb_spec 0 k); [reflexivity|lia]. }
  rewrite E. destruct (rep_init _ _ E) as (R & _ & _).
  destruct (lrun_ok compare ops _ [] R Hops) as (al' & E' & R').
  pose proof (lrun_max _ _ _ _ _ E') as Hmax. cbn [al_max] in Hmax.
  cbn [bind]. rewrite !lrun_app, E'. cbn [bind fst snd lrun lstep].
  rewrite (clear_append1 compare al' _ x R') by lia. cbn [bind fst snd].
  rewrite (clear_append2 compare) by lia. split; [|reflexivity].
  eexists _, _. split; [reflexivity|]. split; reflexivity.
Qed.
Print Assumptions C02_clear_resize_refuted.

Example C02_clear_example :
  (let! al := array_list_init 2 in
   lrun zcmp al ([LAppend 1%Z; LAppend 2%Z; LAppend 3%Z] ++ [LClear true; LAppend 4%Z; LAppend 5%Z])) = UB.
Proof. reflexivity. Qed.

(** C03: set histories are those of a mathematical finite set, enumerated in
    increasing order ([set_history] in SpecSeq.v). *)
Theorem C03_set_is_a_sorted_finite_set :
  forall (A : Type) (compare : A -> A -> Z) (ops : list (sop A)),
    total_order compare ->
    exists s0 s' l outs,
      set_init = Ok s0 /\ srun compare s0 ops = Ok (s', outs) /\ stores s' l /\
      StronglySorted (before compare) l /\ set_history compare [] ops outs l.
Proof.
  intros A compare ops TO.
  exists (AL (repeat None 2) 0 2).
  assert (E : set_init = Ok (AL (repeat (@None A) 2) 0 2)) by reflexivity.
  destruct (rep_init 2 _ E) as (R & _ & _).
  destruct (srun_ok compare TO ops _ [] R) as (al' & l' & outs & E' & R' & S' & H'); [constructor|].
  exists al', l', outs. split; [exact E|]. split; [exact E'|].
  apply rep_elements in R'. repeat split; tauto.
Qed.
Print Assumptions C03_set_is_a_sorted_finite_set.

Lemma zcmp_total_order : total_order zcmp.
Proof. unfold total_order, zcmp. repeat split; intros; lia. Qed.

Example C03_example :
  (let! s := set_init in let! r := srun zcmp s [SInsert 4; SInsert 2; SInsert 9; SInsert 4; SRemove 2; SFind 9; SRemove 7]%Z in
   Ok (al_size (fst r), firstn 2 (al_data (fst r)), snd r)) =
  Ok (2, [Some 4; Some 9]%Z, [(1, None); (1, None); (1, None); (0, None); (1, Some 2); (1, None); (-1, None)]%Z).
Proof. reflexivity. Qed.

(** C04: the stored array after inserting a family of elements does not depend on the
    order in which the critical section admits them. *)
Theorem C04_insert_order_irrelevant :
  forall (A : Type) (compare : A -> A -> Z) (ops : list (sop A)) (xs ys : list A),
    total_order compare -> Permutation xs ys ->
    exists s0 s1 outs sx sy l,
      set_init = Ok s0 /\ srun compare s0 ops = Ok (s1, outs) /\
      set_insert_all compare s1 xs = Ok sx /\ set_insert_all compare s1 ys = Ok sy /\
      stores sx l /\ stores sy l.
Proof.
  intros A compare ops xs ys TO Hp.
  assert (E : set_init = Ok (AL (repeat (@None A) 2) 0 2)) by reflexivity.
  destruct (rep_init 2 _ E) as (R & _ & _).
  destruct (srun_ok compare TO ops _ [] R) as (s1 & l1 & outs & E1 & R1 & S1 & _); [constructor|].
  destruct (set_insert_all_ok compare TO xs s1 l1 R1 S1) as (sx & lx & Ex & Rx & Hx).
  destruct (set_insert_all_ok compare TO ys s1 l1 R1 S1) as (sy & ly & Ey & Ry & Hy).
  assert (lx = ly).
  { apply (enumerates_unique compare TO lx ly (fun y => In y l1 \/ In y xs)); auto.
    destruct Hy as [Hy1 Hy2]. split; auto. intros z. rewrite Hy2.
    split; intros [?|Hz]; auto; right.
    - now apply Permutation_sym in Hp; apply (Permutation_in _ Hp).
    - now apply (Permutation_in _ Hp). }
  subst ly. exists (AL (repeat None 2) 0 2), s1, outs, sx, sy, lx.
  apply rep_elements in Rx. apply rep_elements in Ry.
  unfold stores. tauto.
Qed.
Print Assumptions C04_insert_order_irrelevant.

Example C04_example :
  (let! s := set_init in let! t := set_insert_all zcmp s [3; 1; 2; 3]%Z in Ok (firstn 3 (al_data t))) =
  (let! s := set_init in let! t := set_insert_all zcmp s [3; 3; 2; 1]%Z in Ok (firstn 3 (al_data t))) /\
  Permutation [3; 1; 2; 3]%Z [3; 3; 2; 1]%Z.
Proof.
  split; [reflexivity|]. constructor.
  apply (Permutation_trans (l' := [1; 3; 2]%Z)); [constructor; constructor|].
  apply (Permutation_trans (l' := [3; 1; 2]%Z)); constructor; constructor.
Qed.

(** C05: a cleared set takes one element; inserting a second, different one writes
    outside the heap block.  This holds for the set after every history, so the
    property "a cleared set can be used again" is refuted in full generality. *)
Theorem C05_cleared_set_overflows_refuted :
  forall (A : Type) (compare : A -> A -> Z) (ops : list (sop A)) (x y : A),
    total_order compare ->
    exists s0 s1 outs s2,
      set_init = Ok s0 /\ srun compare s0 ops = Ok (s1, outs) /\
      set_insert compare (set_clear s1) x = Ok (s2, 1%Z) /\ stores s2 [x] /\
      (x <> y -> set_insert compare s2 y = UB).
Proof.
  intros A compare ops x y TO.
  assert (E : set_init = Ok (AL (repeat (@None A) 2) 0 2)) by reflexivity.
  destruct (rep_init 2 _ E) as (R & _ & _).
  destruct (srun_ok compare TO ops _ [] R) as (s1 & l1 & outs & E1 & R1 & S1 & _); [constructor|].
  pose proof (srun_max _ _ _ _ _ E1) as Hm. cbn [al_max] in Hm.
  exists (AL (repeat None 2) 0 2), s1, outs, (AL [Some x] 1 (al_max s1)).
  split; [exact E|]. split; [exact E1|]. split; [now apply (set_clear_insert1 compare s1 l1)|].
  split; [split; reflexivity|]. intros Hne. now apply set_clear_insert2.
Qed.
Print Assumptions C05_cleared_set_overflows_refuted.

Example C05_example :
  (let! s := set_init in let! r := srun zcmp s [SInsert 4; SInsert 2; SInsert 9]%Z in
   set_insert_all zcmp (set_clear (fst r)) [1; 2]%Z) = UB.
Proof. reflexivity. Qed.
