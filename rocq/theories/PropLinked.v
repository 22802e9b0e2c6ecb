(** Theorem C10: the doubly linked list.  Specification: SpecLinked.v. *)
From Verif Require Import Base ListFacts ModelArrayList SpecSeq ModelCells ModelLinked SpecLinked
     ProofLinked PropCollections.

(** C10: adds, reads, clears (and removals of the front element) are answered as by the
    mathematical sequence. *)
Theorem C10_linkedlist_is_a_sequence :
  forall (A : Type) (compare : A -> A -> Z) (ops : list (dop A)),
    dhist_ok (matches compare) [] ops ->
    exists ll, drun compare linkedlist_init ops = Ok (ll, snd (dspec_run (matches compare) [] ops)).
Proof.
  intros A compare ops Hok. destruct (drun_ok compare ops _ [] lrep_init Hok) as (ll & E & _). eauto.
Qed.
Print Assumptions C10_linkedlist_is_a_sequence.

Example C10_example :
  let ops := [DTail 5; DFront 4; DTail 6; DValueAt 1; DLast; DRemove 4; DLookup 6; DHead; DClear; DNonEmpty; DTail 1; DLast]%Z in
  dhist_ok (matches zcmp) [] ops /\
  (let! r := drun zcmp linkedlist_init ops in Ok (snd r)) =
  Ok [(1, None); (1, None); (1, None); (1, Some 5); (1, Some 6); (1, None); (1, Some 6); (1, Some 5);
      (0, None); (0, None); (1, None); (1, Some 1)]%Z.
Proof. split; [vm_compute; tauto|]. vm_compute. reflexivity. Qed.

(** Refuted, removing the last element: whatever the history before, in a list of at
    least two elements the tail is lost and the next tail add dereferences NULL. *)
Theorem C10_remove_last_refuted :
  forall (A : Type) (compare : A -> A -> Z) (ops : list (dop A)) (l0 : list A) (x y z : A),
    dhist_ok (matches compare) [] ops ->
    fst (dspec_run (matches compare) [] ops) = l0 ++ [x] -> l0 <> [] ->
    index_of (matches compare) (l0 ++ [x]) z = Some (length l0) ->
    exists ll outs ll',
      drun compare linkedlist_init ops = Ok (ll, outs) /\
      linkedlist_remove compare ll z = Ok (ll', 1%Z) /\
      linkedlist_tail ll' = Ok (0%Z, None) /\ linkedlist_tail_add ll' y = UB.
Proof.
  intros A compare ops l0 x y z Hok Hl Hne Hi.
  destruct (drun_ok compare ops _ [] lrep_init Hok) as (ll & E & R).
  change (leqv compare) with (matches compare) in R. rewrite Hl in R.
  destruct (remove_last_breaks compare ll l0 x y z R Hne Hi) as (ll' & E1 & E2 & E3).
  eexists ll, _, ll'. repeat split; eauto.
Qed.
Print Assumptions C10_remove_last_refuted.

(** Refuted, removing an inner element [m] and then its successor [s]: the list claims
    to hold the remaining elements but none of those in front of [m] can be found. *)
Theorem C10_remove_middle_refuted :
  forall (A : Type) (compare : A -> A -> Z) (ops : list (dop A)) (l1 l2 : list A) (m s : A),
    dhist_ok (matches compare) [] ops ->
    fst (dspec_run (matches compare) [] ops) = l1 ++ m :: s :: l2 -> l1 <> [] ->
    index_of (matches compare) (l1 ++ m :: s :: l2) m = Some (length l1) ->
    index_of (matches compare) (l1 ++ s :: l2) s = Some (length l1) ->
    exists ll outs ll1 ll2,
      drun compare linkedlist_init ops = Ok (ll, outs) /\
      linkedlist_remove compare ll m = Ok (ll1, 1%Z) /\
      linkedlist_remove compare ll1 s = Ok (ll2, 1%Z) /\
      ll_size ll2 = Z.of_nat (length (l1 ++ l2)) /\
      (forall x, In x l1 -> index_of (matches compare) l2 x = None ->
         linkedlist_lookup compare ll2 x 0 = Ok (ll2, (0%Z, None))).
Proof.
  intros A compare ops l1 l2 m s Hok Hl Hne Hi1 Hi2.
  destruct (drun_ok compare ops _ [] lrep_init Hok) as (ll & E & R).
  change (leqv compare) with (matches compare) in R. rewrite Hl in R.
  destruct (remove_middle_breaks compare ll l1 m s l2 R Hne Hi1 Hi2) as (ll1 & ll2 & E1 & E2 & E3 & E4).
  eexists ll, _, ll1, ll2. split; [exact E|]. split; [exact E1|]. split; [exact E2|]. split; [exact E3|].
  intros x _ Hx. now apply E4.
Qed.
Print Assumptions C10_remove_middle_refuted.

Example C10_refuted_example :
  (let! r := drun zcmp linkedlist_init [DTail 1; DTail 2; DTail 3; DTail 4; DRemove 2; DRemove 3; DLookup 1; DHead]%Z in Ok (snd r)) =
  Ok [(1, None); (1, None); (1, None); (1, None); (1, None); (1, None); (0, None); (1, Some 4)]%Z /\
  drun zcmp linkedlist_init [DTail 1; DTail 2; DRemove 2; DTail 3]%Z = UB.
Proof. split; reflexivity. Qed.
