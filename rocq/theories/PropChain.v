(** Theorem C96: the linked list under every history of calls, removals included.
    Specification: SpecChain.v. *)
From Verif Require Import Base ListFacts ModelArrayList SpecSeq ModelCells ModelLinked SpecLinked PropCollections SpecChain ProofChain.
From Coq Require Import ZifyBool ZifyNat.
Local Open Scope nat_scope.

(** Every answer, the number of elements the list reports and the exact histories with
    undefined behaviour. *)
Theorem C96_every_history :
  forall (A : Type) (compare : A -> A -> Z) (ops : list (dop A)),
    match chain_run (matches compare) empty_chain ops with
    | Some (s, outs) => exists ll, drun compare linkedlist_init ops = Ok (ll, outs) /\ ll_size ll = Z.of_nat (count s)
    | None => drun compare linkedlist_init ops = UB
    end.
Proof.
  intros A compare ops. pose proof (chain_run_ok compare ops _ _ crep_init) as H. change (ceqv compare) with (matches compare) in H.
  destruct (chain_run (matches compare) empty_chain ops) as [[s outs]|]; [|exact H].
  destruct H as (ll & E & cs & HR). exists ll. split; [exact E|]. apply HR.
Qed.
Print Assumptions C96_every_history.

(** Memory: a list owns one node for every element it counts, plus those taken out with
    linkedlist_lookup; linkedlist_delete frees all but the lost and the taken ones. *)
Theorem C96_memory :
  forall (A : Type) (compare : A -> A -> Z) (ops : list (dop A)) s outs,
    chain_run (matches compare) empty_chain ops = Some (s, outs) ->
    exists ll h, drun compare linkedlist_init ops = Ok (ll, outs) /\ nodes (ll_heap ll) = count s + taken s /\
      linkedlist_delete ll = Ok h /\ nodes h = lost s + taken s.
Proof.
  intros A compare ops s outs E. pose proof (chain_run_ok compare ops _ _ crep_init) as H. change (ceqv compare) with (matches compare) in H.
  rewrite E in H. destruct H as (ll & Er & HR).
  pose proof (chain_step_ok compare ll s DClear HR) as Hc. cbn [chain_step dstep] in Hc. destruct Hc as (ll' & Ec & HR').
  destruct HR as (cs & HR). exists ll, (ll_heap ll'). split; [exact Er|]. split; [apply HR|].
  unfold linkedlist_delete. destruct (linkedlist_clear ll) as [l1| | |]; try discriminate. cbn [bind] in *. injection Ec as ->.
  split; [reflexivity|]. destruct HR' as (cs' & _ & _ & _ & _ & _ & _ & Hn). rewrite Hn. reflexivity.
Qed.
Print Assumptions C96_memory.

(** *** Against the sequence a user expects *)
Section Expected.
Context {A : Type}.
Variable eqv : A -> A -> bool.

Lemma part_refl (l : list A) : part_of l l.
Proof. induction l; constructor; auto. Qed.
Lemma part_nil_l (l : list A) : part_of [] l.
Proof. induction l; constructor; auto. Qed.
Lemma part_trans (a b c : list A) : part_of a b -> part_of b c -> part_of a c.
Proof.
  intros H1 H2. revert a H1. induction H2 as [|x l l' _ IH|x l l' _ IH]; intros a H1.
  - exact H1.
  - inversion H1; subst; [apply part_keep|apply part_skip]; apply IH; assumption.
  - apply part_skip. apply IH. exact H1.
Qed.
Lemma part_length (a b : list A) : part_of a b -> length a <= length b.
Proof. induction 1; cbn; lia. Qed.
Lemma part_app (a b c d : list A) : part_of a b -> part_of c d -> part_of (a ++ c) (b ++ d).
Proof. intros H1 H2. induction H1; cbn; [exact H2|apply part_keep; auto|apply part_skip; auto]. Qed.
Lemma part_delete (l : list A) : forall i, part_of (delete_at l i) l.
Proof.
  unfold delete_at. induction l as [|x l IH]; intros [|i]; cbn; try apply part_nil.
  - apply part_skip, part_refl.
  - apply part_keep. apply IH.
Qed.
Lemma part_skipn (l : list A) : forall i, part_of (skipn i l) l.
Proof. induction l as [|x l IH]; intros [|i]; cbn; try apply part_nil; [apply part_refl|apply part_skip, IH]. Qed.
Lemma part_index (c e : list A) : part_of c e -> forall x,
  match index_of eqv c x, index_of eqv e x with
  | Some i, Some j => part_of (delete_at c i) (delete_at e j)
  | Some _, None => False
  | None, Some j => part_of c (delete_at e j)
  | None, None => True
  end.
Proof.
  unfold delete_at. induction 1 as [|y c e H IH|y c e H IH]; intros x; cbn [index_of]; [exact I| |].
  - destruct (eqv y x); [exact H|]. specialize (IH x). destruct (index_of eqv c x), (index_of eqv e x); auto; cbn [firstn skipn app]; apply part_keep; exact IH.
  - specialize (IH x). destruct (eqv y x).
    + destruct (index_of eqv c x) as [i|]; cbn [firstn skipn app]; [|exact H]. apply part_trans with c; [apply (part_delete c i)|exact H].
    + destruct (index_of eqv c x), (index_of eqv e x); auto; cbn [firstn skipn app]; apply part_skip; exact IH.
Qed.

Lemma values_forget (l : list (A * bool)) : map fst (forget_prev l) = map fst l.
Proof. destruct l as [|[x b] t]; reflexivity. Qed.
Lemma values_know (l : list (A * bool)) : map fst (know_prev l) = map fst l.
Proof. destruct l as [|[x b] t]; reflexivity. Qed.

Lemma values_unchain (s : chain A) i n : i < length (items s) ->
  part_of (values (unchain s i n)) (delete_at (values s) i) /\ S (count (unchain s i n)) = count s /\
  (lost (unchain s i n) = 0 -> lost s = 0 /\ values (unchain s i n) = delete_at (values s) i).
Proof.
  intros Hi. destruct (nth_error (items s) i) as [x|] eqn:Ex; [|apply nth_error_None in Ex; lia].
  destruct (nth_error_split _ _ Ex) as (l1 & l2 & El & Hl).
  split; [|split].
  - unfold unchain, values, delete_at. rewrite Ex. rewrite firstn_map, skipn_map. destruct x as [v [|]]; cbn [items].
    + rewrite map_app, values_forget. apply part_refl.
    + rewrite values_forget. apply (part_app [] _ _ _ (part_nil_l _) (part_refl _)).
  - rewrite <- Hl. apply (count_unchain s l1 x l2). exact El.
  - unfold unchain, values, delete_at. rewrite Ex, firstn_map, skipn_map. destruct x as [v [|]]; cbn [items lost].
    + rewrite map_app, values_forget. auto.
    + intros H. assert (E0 : i = 0) by lia. rewrite E0, values_forget. split; [lia|reflexivity].
Qed.

Lemma index_lt (l : list A) x i : index_of eqv l x = Some i -> i < length l.
Proof.
  revert i. induction l as [|y l IH]; cbn; [discriminate|]. intros i. destruct (eqv y x); [intros E; injection E as <-; lia|].
  destruct (index_of eqv l x) as [k|]; [|discriminate]. intros E. injection E as <-. specialize (IH k eq_refl). lia.
Qed.
Lemma delete_length (l : list A) i : i < length l -> S (length (delete_at l i)) = length l.
Proof. intros H. unfold delete_at. rewrite app_length, firstn_length, skipn_length. lia. Qed.

Lemma expected_step (s : chain A) e o s' out : chain_step eqv s o = Some (s', out) ->
  part_of (values s) e -> length e <= count s ->
  part_of (values s') (fst (dspec_step eqv e o)) /\ length (fst (dspec_step eqv e o)) <= count s' /\
  (lost s' = 0 -> (o <> DClear -> lost s = 0) /\ (lost s = 0 -> values s = e -> values s' = fst (dspec_step eqv e o))).
Proof.
  intros E Hp Hl. destruct o as [x|x|x|x|x| | |pos| | ]; cbn [chain_step dspec_step fst] in *.
  - unfold values, count in *. destruct (items s) as [|i0 l0] eqn:Ei; [destruct (lost s) eqn:El|]; try discriminate; injection E as <- <-; cbn [items lost map fst length].
    + cbn in Hl. destruct e; [|cbn in Hl; lia]. split; [apply part_refl|]; split; [cbn; lia|]; auto.
    + destruct i0 as [v b]. cbn [know_prev map fst length] in *. split; [apply part_keep; exact Hp|]. split; [lia|].
      intros H. split; [auto|]. intros _ Hv. rewrite <- Hv. reflexivity.
  - unfold values, count in *. destruct (items s) as [|i0 l0] eqn:Ei; [destruct (lost s) eqn:El|destruct (tail_known s)]; try discriminate; injection E as <- <-; cbn [items lost].
    + cbn in Hl. destruct e; [|cbn in Hl; lia]. split; [apply part_refl|]; split; [cbn; lia|]; auto.
    + cbn [map length app] in *. rewrite map_app, !app_length. cbn [length map fst].
      split; [apply (part_app (fst i0 :: map fst l0) e [x] [x]); [exact Hp|apply part_refl]|]. split; [lia|].
      intros H. split; [auto|]. intros _ Hv. rewrite <- Hv. reflexivity.
  - injection E as <- <-. auto.
  - pose proof (part_index _ _ Hp x) as Hi. destruct (index_of eqv (values s) x) as [i|] eqn:Ei.
    + destruct (index_of eqv e x) as [j|] eqn:Ej; [|destruct Hi]. injection E as <- <-.
      pose proof (index_lt _ _ _ Ei) as Li. unfold values in Li. rewrite map_length in Li. destruct (values_unchain s i 1 Li) as (P1 & P2 & P3).
      pose proof (delete_length e j (index_lt _ _ _ Ej)). cbn [fst]. split; [eapply part_trans; eassumption|]. split; [lia|].
      intros H0. destruct (P3 H0) as [P4 P5]. split; [auto|]. intros _ Hv. rewrite P5. subst e. congruence.
    + injection E as <- <-. destruct (index_of eqv e x) as [j|] eqn:Ej; cbn [fst].
      * pose proof (delete_length e j (index_lt _ _ _ Ej)). split; [exact Hi|]. split; [lia|]. intros H0. split; [auto|]. intros _ Hv. subst e. congruence.
      * auto.
  - pose proof (part_index _ _ Hp x) as Hi. destruct (index_of eqv (values s) x) as [i|] eqn:Ei.
    + destruct (index_of eqv e x) as [j|] eqn:Ej; [|destruct Hi]. injection E as <- <-.
      pose proof (index_lt _ _ _ Ei) as Li. unfold values in Li. rewrite map_length in Li. destruct (values_unchain s i 0 Li) as (P1 & P2 & P3).
      pose proof (delete_length e j (index_lt _ _ _ Ej)). cbn [fst]. split; [eapply part_trans; eassumption|]. split; [lia|].
      intros H0. destruct (P3 H0) as [P4 P5]. split; [auto|]. intros _ Hv. rewrite P5. subst e. congruence.
    + injection E as <- <-. destruct (index_of eqv e x) as [j|] eqn:Ej; cbn [fst].
      * pose proof (delete_length e j (index_lt _ _ _ Ej)). split; [exact Hi|]. split; [lia|]. intros H0. split; [auto|]. intros _ Hv. subst e. congruence.
      * auto.
  - injection E as <- <-. auto.
  - injection E as <- <-. auto.
  - injection E as <- <-. auto.
  - injection E as <- <-. auto.
  - injection E as <- <-. unfold values. cbn. split; [apply part_nil|]. split; [lia|]. intros H. split; [congruence|]. auto.
Qed.

Lemma lost_step (s : chain A) o s' out : chain_step eqv s o = Some (s', out) -> lost s <= lost s'.
Proof.
  intros E. destruct o as [x|x|x|x|x| | |pos| | ]; cbn [chain_step] in E.
  - destruct (items s); [destruct (lost s) eqn:El|]; try discriminate; injection E as <- <-; cbn; lia.
  - destruct (items s); [destruct (lost s) eqn:El|destruct (tail_known s)]; try discriminate; injection E as <- <-; cbn; lia.
  - injection E as <- <-. lia.
  - destruct (index_of eqv (values s) x); injection E as <- <-; [|lia]. unfold unchain. destruct (nth_error (items s) n) as [[w [|]]|]; cbn; lia.
  - destruct (index_of eqv (values s) x); injection E as <- <-; [|lia]. unfold unchain. destruct (nth_error (items s) n) as [[w [|]]|]; cbn; lia.
  - injection E as <- <-. lia.
  - injection E as <- <-. lia.
  - injection E as <- <-. lia.
  - injection E as <- <-. lia.
  - injection E as <- <-. cbn. lia.
Qed.
Lemma lost_run ops : forall (s s' : chain A) outs, chain_run eqv s ops = Some (s', outs) -> lost s <= lost s'.
Proof.
  induction ops as [|o ops IH]; intros s s' outs E; cbn [chain_run] in E; [injection E as <- <-; lia|].
  destruct (chain_step eqv s o) as [[s1 out]|] eqn:E1; [|discriminate]. destruct (chain_run eqv s1 ops) as [[s2 outs2]|] eqn:E2; [|discriminate].
  injection E as <- <-. apply lost_step in E1. apply IH in E2. lia.
Qed.

Lemma expected_run ops : forall (s s' : chain A) e outs, chain_run eqv s ops = Some (s', outs) ->
  part_of (values s) e -> length e <= count s ->
  part_of (values s') (fst (dspec_run eqv e ops)) /\ length (fst (dspec_run eqv e ops)) <= count s' /\
  (lost s' = 0 -> values s = e -> values s' = fst (dspec_run eqv e ops)).
Proof.
  induction ops as [|o ops IH]; intros s s' e outs E Hp Hl; cbn [chain_run dspec_run] in *.
  - injection E as <- <-. auto.
  - destruct (chain_step eqv s o) as [[s1 out]|] eqn:E1; [|discriminate]. destruct (chain_run eqv s1 ops) as [[s2 outs2]|] eqn:E2; [|discriminate].
    injection E as <- <-. destruct (expected_step s e o s1 out E1 Hp Hl) as (P1 & P2 & P3).
    destruct (IH s1 s2 _ outs2 E2 P1 P2) as (Q1 & Q2 & Q3). cbn [fst]. split; [exact Q1|]. split; [exact Q2|].
    intros H0 Hv. pose proof (lost_run _ _ _ _ E2). pose proof (lost_step _ _ _ _ E1).
    apply Q3; [exact H0|]. apply P3; [lia|lia|exact Hv].
Qed.
End Expected.

(** The reachable elements are a part of the expected sequence, in its order: nothing is ever
    found that should be absent; the size is never too small; and as long as no element has
    been lost the list holds exactly the expected sequence. *)
Theorem C96_part_of_the_expected :
  forall (A : Type) (eqv : A -> A -> bool) (ops : list (dop A)) s outs,
    chain_run eqv empty_chain ops = Some (s, outs) ->
    let expected := fst (dspec_run eqv [] ops) in
    part_of (values s) expected /\ length expected <= count s /\ (lost s = 0 -> values s = expected).
Proof.
  intros A eqv ops s outs E. destruct (expected_run eqv ops empty_chain s [] outs E) as (H1 & H2 & H3).
  - apply part_nil.
  - cbn. lia.
  - split; [exact H1|]. split; [exact H2|]. intros H. apply H3; auto.
Qed.
Print Assumptions C96_part_of_the_expected.

(** Refuted: five calls after which the list reports an element that no read can reach, every
    further add is undefined even after linkedlist_clear, and linkedlist_delete leaks it. *)
Theorem C96_three_adds_two_removes_refuted :
  forall (A : Type) (compare : A -> A -> Z) (x y z w : A),
    compare y y = 0%Z -> compare z z = 0%Z -> compare x y <> 0%Z -> compare x z <> 0%Z ->
    let ops := [DTail x; DTail y; DTail z; DRemove y; DRemove z] in
    drun compare linkedlist_init (ops ++ [DFront w]) = UB /\ drun compare linkedlist_init (ops ++ [DTail w]) = UB /\
    drun compare linkedlist_init (ops ++ [DClear; DFront w]) = UB /\ drun compare linkedlist_init (ops ++ [DClear; DTail w]) = UB /\
    exists ll outs h, drun compare linkedlist_init (ops ++ [DNonEmpty; DHead; DLookup x; DValueAt 0]) =
        Ok (ll, outs ++ [(1, None); (0, None); (0, None); (-1, None)]%Z) /\
      linkedlist_delete ll = Ok h /\ nodes h = 1.
Proof.
  intros A compare x y z w Hy Hz Hxy Hxz ops.
  assert (Q1 : matches compare y y = true) by (unfold matches; lia). assert (Q2 : matches compare z z = true) by (unfold matches; lia).
  assert (Q3 : matches compare x y = false) by (unfold matches; lia). assert (Q4 : matches compare x z = false) by (unfold matches; lia).
  assert (R : forall tl, chain_run (matches compare) empty_chain (ops ++ tl) =
     match chain_run (matches compare) (Chain [] false 1 0) tl with Some (s, outs) => Some (s, [(1, None); (1, None); (1, None); (1, None); (1, None)]%Z ++ outs) | None => None end).
  { intros tl. unfold ops. cbn. unfold unchain. rewrite Q3, Q1. cbn. rewrite Q4, Q2. cbn. destruct (chain_run _ _ tl) as [[s outs]|]; reflexivity. }
  assert (U : forall tl, chain_run (matches compare) (Chain [] false 1 0) tl = None -> drun compare linkedlist_init (ops ++ tl) = UB).
  { intros tl E. pose proof (C96_every_history A compare (ops ++ tl)) as H. rewrite R, E in H. exact H. }
  split; [apply U; reflexivity|]. split; [apply U; reflexivity|]. split; [apply U; reflexivity|]. split; [apply U; reflexivity|].
  destruct (C96_memory A compare (ops ++ [DNonEmpty; DHead; DLookup x; DValueAt 0]) (Chain [] false 1 0)
     ([(1, None); (1, None); (1, None); (1, None); (1, None)] ++ [(1, None); (0, None); (0, None); (-1, None)])%Z) as (ll & h & E & _ & Ed & Hn).
  { rewrite R. reflexivity. }
  exists ll. eexists. exists h. split; [exact E|]. split; [exact Ed|]. rewrite Hn. reflexivity.
Qed.
Print Assumptions C96_three_adds_two_removes_refuted.

(** ** Examples *)
Example C96_example :
  let ops := [DTail 1; DTail 2; DTail 3; DTail 4; DFront 0; DRemove 2; DValueAt 2; DRemove 3; DHead; DTail 5; DLast; DTake 4; DNonEmpty; DRemove 5; DLast; DClear; DNonEmpty]%Z in
  option_map snd (chain_run (matches zcmp) empty_chain ops) =
    Some [(1, None); (1, None); (1, None); (1, None); (1, None); (1, None); (2, Some 3); (1, None); (1, Some 4); (1, None); (1, Some 5); (1, Some 4); (1, None);
          (1, None); (0, None); (0, None); (1, None)]%Z /\
  drun zcmp linkedlist_init [DTail 1; DTail 2; DRemove 2; DTail 3]%Z = UB /\
  chain_run (matches zcmp) empty_chain [DTail 1; DTail 2; DRemove 2; DTail 3]%Z = None.
Proof. split; [vm_compute; reflexivity|]. split; reflexivity. Qed.

Example C96_refuted_example : zcmp 2 2 = 0%Z /\ zcmp 3 3 = 0%Z /\ zcmp 1 2 <> 0%Z /\ zcmp 1 3 <> 0%Z.
Proof. repeat split; vm_compute; discriminate. Qed.
