(** C103: what happens when a request for memory is refused, for every pattern of refusals.
    Specification: SpecOom.v for the memory, SpecSeq.v for sequences and sets. *)
From Coq Require Import Sorted Permutation.
From Verif Require Import Base ListFacts F64 ModelArrayList SpecSeq ProofArrayList PropCollections ModelLife ModelLedger ModelHash SpecMap PropMap ModelOom SpecOom ProofOom.
From Verif Require ModelLinked ProofLinked ModelCells.
From Coq Require Import ZifyBool ZifyNat.
Local Open Scope nat_scope.

(** A new list is empty and owns two blocks, which array_list_delete gives back; or the answer
    is NULL, a request was refused, and no memory is kept. *)
Theorem C103_list_or_null : forall (A : Type) (grants : nat -> bool) k h, 0 < k -> orderly h ->
  match oom_list_init (A := A) grants k h with
  | Ok (None, h') => hp_live h' = hp_live h /\ ~ lasts grants 2 h
  | Ok (Some l, h') => stores (ol_val l) [] /\ lasts grants 2 h /\ length (hp_live h') = 2 + length (hp_live h) /\
      exists h'', oom_delete l h' = Ok h'' /\ hp_live h'' = hp_live h
  | _ => False
  end.
Proof.
  intros A grants k h K O. destruct (init_cases grants (A := A) k h K O) as [(l & h' & E & V & H & _ & G1 & G2)|(h' & E & L & _ & G)]; rewrite E.
  - split; [rewrite V; split; reflexivity|]. split.
    { intros i Hi. assert (i = hp_next h \/ i = S (hp_next h)) as [->| ->] by lia; assumption. }
    split; [destruct H as (_ & d & _ & Lv); rewrite Lv; reflexivity|].
    destruct (delete_holds l h' _ H) as (h'' & E2 & L2 & _). eauto.
  - split; [exact L|]. intros C. destruct G as [G|G].
    + red in G. rewrite (C (hp_next h)) in G by lia. discriminate.
    + rewrite (C (S (hp_next h))) in G by lia. discriminate.
Qed.
Print Assumptions C103_list_or_null.

(** Every history of calls on a list answers as the sequence does, up to the first call that
    needs memory and is refused it: an append, which answers 0, or an insertion, whose behaviour
    is undefined.  Until then deleting the list gives all its memory back. *)
Theorem C103_list_calls_until_refused : forall (A : Type) (compare : A -> A -> Z) (grants : nat -> bool) k h (ops : list (lop A)) l h0,
  0 < k -> orderly h -> hist_ok (matches compare) [] ops -> oom_list_init grants k h = Ok (Some l, h0) ->
  exists pre post l' h', ops = pre ++ post /\
    oom_lrun grants compare l h0 pre = Ok (l', h', snd (seq_run (matches compare) [] pre)) /\
    stores (ol_val l') (fst (seq_run (matches compare) [] pre)) /\
    (exists h'', oom_delete l' h' = Ok h'' /\ hp_live h'' = hp_live h) /\
    (post = [] \/
     (refused grants h' /\ exists x rest l2 h2, post = LAppend x :: rest /\ oom_lstep grants compare l' h' (LAppend x) = Ok (l2, h2, (0%Z, None))) \/
     (refused grants h' /\ exists x p rest, post = LInsertAt x p :: rest /\ oom_lstep grants compare l' h' (LInsertAt x p) = UB)).
Proof.
  intros A compare grants k h ops l h0 K O HO E.
  destruct (init_cases grants (A := A) k h K O) as [(l1 & h1 & E1 & V & H & _)|(h1 & E1 & _)]; rewrite E1 in E; [|discriminate].
  assert (l1 = l) as -> by congruence. assert (h1 = h0) as -> by congruence.
  assert (R : rep (ol_val l) []).
  { rewrite V. apply (rep_init k). unfold array_list_init. destruct (Nat.ltb_spec 0 k); [reflexivity|lia]. }
  destruct (oom_lrun_ok grants compare ops l h0 _ [] H R HO) as (pre & post & l' & h' & Eo & Er & H' & R' & _ & Q).
  exists pre, post, l', h'. split; [exact Eo|]. split; [exact Er|]. split; [apply rep_elements in R'; split; tauto|].
  split. { destruct (delete_holds l' h' _ H') as (h'' & E2 & L2 & _). eauto. }
  destruct Q as [Q|(o & rest & Ep & G & F & N)]; [now left|]. right.
  destruct o; cbn in G; try contradiction.
  - left. split; [exact N|]. exists x, rest. cbn [oom_lstep]. rewrite (append_refused grants l' h' _ x H' F N). cbn [bind]. eauto.
  - right. split; [exact N|]. exists x, pos, rest. split; [exact Ep|]. cbn [oom_lstep]. now rewrite (insert_refused grants l' h' _ x pos H' F N).
Qed.
Print Assumptions C103_list_calls_until_refused.

(** An append that answers 0 has destroyed the list, whatever it held: its size is what it was,
    but reading, searching and popping are undefined; deleting it leaves one block behind; and
    when memory is available again an append succeeds, makes the list one longer, and the old
    elements stay lost. *)
Theorem C103_refused_append_keeps_the_list_refuted : forall (A : Type) (compare : A -> A -> Z) (grants : nat -> bool) k h (ops : list (lop A)) l h0 l' h' outs x l2 h2,
  0 < k -> orderly h -> hist_ok (matches compare) [] ops -> oom_list_init grants k h = Ok (Some l, h0) ->
  oom_lrun grants compare l h0 ops = Ok (l', h', outs) -> outs = snd (seq_run (matches compare) [] ops) ->
  oom_lstep grants compare l' h' (LAppend x) = Ok (l2, h2, (0%Z, None)) ->
  let n := length (fst (seq_run (matches compare) [] ops)) in
  0 < n /\
  oom_lstep grants compare l2 h2 LSize = Ok (l2, h2, (Z.of_nat n, None)) /\
  (forall i, i < n -> oom_lstep grants compare l2 h2 (LValueAt i) = UB) /\
  oom_lstep grants compare l2 h2 LPop = UB /\ (forall y, oom_lstep grants compare l2 h2 (LFind y) = UB) /\
  (exists h3 b, oom_delete l2 h2 = Ok h3 /\ hp_live h3 = b :: hp_live h) /\
  (~ refused grants h2 -> forall y, exists l3 h3, oom_lstep grants compare l2 h2 (LAppend y) = Ok (l3, h3, (1%Z, None)) /\
     oom_lstep grants compare l3 h3 LSize = Ok (l3, h3, (Z.of_nat n + 1, None))%Z /\
     (forall i, i < n -> oom_lstep grants compare l3 h3 (LValueAt i) = UB)).
Proof.
  intros A compare grants k h ops l h0 l' h' outs x l2 h2 K O HO E Er Eo Ex n.
  destruct (init_cases grants (A := A) k h K O) as [(l1 & h1 & E1 & V & H & _)|(h1 & E1 & _)]; rewrite E1 in E; [|discriminate].
  assert (l1 = l) as -> by congruence. assert (h1 = h0) as -> by congruence.
  assert (R : rep (ol_val l) []).
  { rewrite V. apply (rep_init k). unfold array_list_init. destruct (Nat.ltb_spec 0 k); [reflexivity|lia]. }
  assert (Q : holds l' h' (hp_live h) /\ rep (ol_val l') (fst (seq_run (matches compare) [] ops))).
  { clear E E1 V Ex. subst outs. clear - H R HO Er. revert Er H R HO. generalize (@nil A) as s. generalize (hp_live h) as L. intros L s. revert l h0 s.
    induction ops as [|o ops IH]; intros l h0 s Er H R HO.
    - cbn [oom_lrun seq_run snd fst] in *. assert (l = l') as -> by congruence. assert (h0 = h') as -> by congruence. auto.
    - destruct HO as [HO1 HO2]. cbn [oom_lrun seq_run] in *.
      destruct (oom_lstep_ok grants compare l h0 L s o H R HO1) as [(l1 & h1 & E1 & H1 & R1)|(G & F & N)].
      + rewrite E1 in Er. cbn [bind fst snd] in Er.
        destruct (oom_lrun grants compare l1 h1 ops) as [[[l3 h3] o3]| | |] eqn:E3; cbn [bind fst snd] in Er; try discriminate.
        cbn [fst snd]. apply (IH l1 h1 (fst (seq_step (matches compare) s o))); auto. rewrite E3. cbn [snd] in Er. congruence.
      + exfalso. destruct o; cbn in G; try contradiction.
        * cbn [oom_lstep] in Er. rewrite (append_refused grants l h0 L x H F N) in Er. cbn [bind fst snd] in Er.
          match type of Er with bind ?X _ = _ => destruct X as [r| | |] end; cbn [bind fst snd seq_step] in Er; congruence.
        * cbn [oom_lstep] in Er. rewrite (insert_refused grants l h0 L x pos H F N) in Er. discriminate. }
  destruct Q as [H' R'].
  destruct (oom_lstep_ok grants compare l' h' _ _ (LAppend x) H' R' I) as [(l1 & h1 & E2 & _)|(_ & F & N)].
  { rewrite E2 in Ex. cbn [seq_step snd] in Ex. congruence. }
  cbn [oom_lstep] in Ex. rewrite (append_refused grants l' h' _ x H' F N) in Ex. cbn [bind] in Ex.
  assert (l2 = ruined l') as -> by congruence. assert (h2 = mk_heap (S (hp_next h')) (hp_live h')) as -> by congruence. clear Ex.
  pose proof R' as (Sz & _ & Mx & _). fold n in Sz. red in F.
  assert (Hn : 0 < n) by lia. split; [exact Hn|].
  assert (Szr : al_size (ol_val (ruined l')) = n) by exact Sz.
  split. { unfold oom_lstep. cbn [lstep]. unfold array_list_size. rewrite Szr. reflexivity. }
  split. { intros i Hi. unfold oom_lstep. cbn [lstep]. unfold array_list_value_at. rewrite Szr.
           destruct (Nat.leb_spec n i); [lia|]. now rewrite ruined_slot. }
  split. { unfold oom_lstep. cbn [lstep]. unfold array_list_pop, array_list_empty, array_list_value_at. rewrite Szr.
           destruct (Nat.eqb_spec n 0); [lia|]. change (0 =? 1)%Z with false. cbn iota.
           destruct (Nat.leb_spec n (n - 1)); [lia|]. now rewrite ruined_slot. }
  split. { intros y. unfold oom_lstep. cbn [lstep]. unfold array_list_find. change (0 =? 1)%Z with false. cbn iota. unfold unordered_search. rewrite Szr.
           destruct n; [lia|]. cbn [unordered_search_from]. now rewrite ruined_slot. }
  split. { destruct H' as (Oh & d & Ed & Lv). unfold oom_delete. cbn [ruined ol_blk ol_hdr bind]. destruct h' as [m lv]. cbn [hp_live hp_next] in *. subst lv.
           destruct (orderly_cons _ _ _ Oh) as [O1 N1]. destruct (orderly_cons _ _ _ O1) as [O2 N2].
           rewrite free1_second; [|intros ->; apply N1; now left|exact N2]. do 2 eexists. split; reflexivity. }
  intros G y. unfold refused in G. cbn [hp_next] in G.
  destruct (grants (S (hp_next h'))) eqn:G2; [|congruence].
  destruct (ruined_retry grants l' (mk_heap (S (hp_next h')) (hp_live h')) y F G2) as (l3 & h3 & E3 & S3 & L3).
  exists l3, h3. split; [cbn [oom_lstep]; rewrite E3; reflexivity|]. rewrite Sz in S3, L3.
  split.
  - unfold oom_lstep. cbn [lstep bind fst snd]. unfold array_list_size. rewrite S3. destruct l3 as [hd bk [dt sz mx]].
    unfold with_val. cbn [ol_hdr ol_blk ol_val]. repeat f_equal. lia.
  - intros i Hi. unfold oom_lstep. cbn [lstep]. unfold array_list_value_at. rewrite S3.
    destruct (Nat.leb_spec (S n) i); [lia|]. now rewrite (L3 i Hi).
Qed.
Print Assumptions C103_refused_append_keeps_the_list_refuted.

(** With one element of room, and with room for an append and an insertion. *)
Definition numbers (k : nat) (n : nat) : bool := n <? k.
Definition empty_memory : heap := mk_heap 0 [].
Lemma empty_orderly : orderly empty_memory.
Proof. split; [constructor|]. intros b []. Qed.
Example C103_list_example :
  let g := numbers 2 in
  hist_ok (matches zcmp) [] [LAppend 5%Z; LValueAt 0] /\
  (let! r := oom_list_init g 1 empty_memory in
   match fst r with
   | None => UB
   | Some l =>
       let! s := oom_lrun g zcmp l (snd r) [LAppend 5%Z; LValueAt 0; LAppend 6%Z; LSize] in
       let! e := oom_delete (fst (fst s)) (snd (fst s)) in
       Ok (snd s, hp_live e)
   end) = Ok ([(1, None); (1, Some 5); (0, None); (1, None)]%Z, [1]) /\
  (let! r := oom_list_init g 1 empty_memory in
   match fst r with None => UB | Some l => let! s := oom_lrun g zcmp l (snd r) [LAppend 5%Z; LAppend 6%Z; LValueAt 0] in Ok (snd s) end) = UB /\
  (let! r := oom_list_init g 1 empty_memory in
   match fst r with None => UB | Some l => let! s := oom_lrun g zcmp l (snd r) [LAppend 5%Z; LInsertAt 6%Z 0] in Ok (snd s) end) = UB.
Proof. vm_compute. repeat split; auto. Qed.

(** Every history of calls on a set answers as the finite set does, up to the first insertion of
    a new element that needs memory and is refused it: this one is undefined. *)
Theorem C103_set_calls_until_refused : forall (A : Type) (compare : A -> A -> Z) (grants : nat -> bool) h (ops : list (sop A)) l h0,
  total_order compare -> orderly h -> oom_list_init grants 2 h = Ok (Some l, h0) ->
  exists pre post l' h' outs s, ops = pre ++ post /\
    oom_srun grants compare l h0 pre = Ok (l', h', outs) /\ stores (ol_val l') s /\
    StronglySorted (before compare) s /\ set_history compare [] pre outs s /\
    (exists h'', oom_delete l' h' = Ok h'' /\ hp_live h'' = hp_live h) /\
    (post = [] \/ (refused grants h' /\ exists x rest, post = SInsert x :: rest /\ ~ In x s /\ oom_sstep grants compare l' h' (SInsert x) = UB)).
Proof.
  intros A compare grants h ops l h0 TO O E.
  destruct (init_cases grants (A := A) 2 h ltac:(lia) O) as [(l1 & h1 & E1 & V & H & _)|(h1 & E1 & _)]; rewrite E1 in E; [|discriminate].
  assert (l1 = l) as -> by congruence. assert (h1 = h0) as -> by congruence.
  assert (R : rep (ol_val l) []).
  { rewrite V. apply (rep_init 2). reflexivity. }
  destruct (oom_srun_ok grants compare TO ops l h0 _ [] H R (SSorted_nil _)) as (pre & post & l' & h' & outs & s & Eo & Er & H' & R' & S' & Hi & Q).
  exists pre, post, l', h', outs, s. split; [exact Eo|]. split; [exact Er|]. split; [apply rep_elements in R'; split; tauto|].
  split; [exact S'|]. split; [exact Hi|]. split. { destruct (delete_holds l' h' _ H') as (h'' & E2 & L2 & _). eauto. }
  destruct Q as [Q|(x & rest & Ep & N & _ & G & U)]; [now left|]. right. split; [exact G|]. exists x, rest. auto.
Qed.
Print Assumptions C103_set_calls_until_refused.

Example C103_set_example :
  let g := numbers 2 in
  (let! r := oom_list_init g 2 empty_memory in
   match fst r with None => UB | Some l => let! s := oom_srun g zcmp l (snd r) [SInsert 5; SInsert 3; SInsert 5; SFind 5]%Z in Ok (snd s) end) =
    Ok [(1, None); (1, None); (0, None); (1, None)]%Z /\
  (let! r := oom_list_init g 2 empty_memory in
   match fst r with None => UB | Some l => let! s := oom_srun g zcmp l (snd r) [SInsert 5; SInsert 3; SInsert 4]%Z in Ok (snd s) end) = UB.
Proof. vm_compute. auto. Qed.

Lemma set_history : forall (A : Type) (compare : A -> A -> Z) (grants : nat -> bool) h (ops : list (sop A)) l h0 l' h' outs,
  total_order compare -> orderly h -> oom_list_init grants 2 h = Ok (Some l, h0) ->
  oom_srun grants compare l h0 ops = Ok (l', h', outs) -> exists s, holds l' h' (hp_live h) /\ rep (ol_val l') s.
Proof.
  intros A compare grants h ops l h0 l' h' outs TO O E Er.
  destruct (init_cases grants (A := A) 2 h ltac:(lia) O) as [(l1 & h1 & E1 & V & H & _)|(h1 & E1 & _)]; rewrite E1 in E; [|discriminate].
  assert (l1 = l) as -> by congruence. assert (h1 = h0) as -> by congruence.
  assert (R : rep (ol_val l) []).
  { rewrite V. apply (rep_init 2). reflexivity. }
  destruct (oom_srun_ok grants compare TO ops l h0 _ [] H R (SSorted_nil _)) as (pre & post & l2 & h2 & outs2 & s & Eo & Er2 & H' & R' & S' & Hi & Q).
    destruct Q as [->|(x & rest & -> & _ & _ & _ & U)].
    - rewrite app_nil_r in Eo. subst pre. rewrite Er2 in Er. exists s. assert (l2 = l') as -> by congruence. assert (h2 = h') as -> by congruence. auto.
    - exfalso. subst ops. clear - Er Er2 U. revert l h0 outs outs2 Er Er2. induction pre as [|o pre IH]; intros l h0 outs outs2 Er Er2; cbn [app oom_srun] in *.
      + assert (l = l2) as -> by congruence. assert (h0 = h2) as -> by congruence. rewrite U in Er. discriminate.
      + destruct (oom_sstep grants compare l h0 o) as [[[l1 h1] o1]| | |]; cbn [bind fst snd] in *; try discriminate.
        destruct (oom_srun grants compare l1 h1 (pre ++ SInsert x :: rest)) as [[[l3 h3] o3]| | |] eqn:E3; cbn [bind fst snd] in *; try discriminate.
        destruct (oom_srun grants compare l1 h1 pre) as [[[l4 h4] o4]| | |] eqn:E4; cbn [bind fst snd] in *; try discriminate.
        assert (l4 = l2) as -> by congruence. assert (h4 = h2) as -> by congruence. assert (l3 = l') as -> by congruence. assert (h3 = h') as -> by congruence.
        eapply (IH l1 h1); eauto.
Qed.

(** Clearing a set asks for memory too (for a smaller block).  When that is refused, nothing is
    reported, the next insertion is undefined, and deleting the set leaves a block behind. *)
Theorem C103_refused_clear_refuted : forall (A : Type) (compare : A -> A -> Z) (grants : nat -> bool) h (ops : list (sop A)) l h0 l' h' outs,
  total_order compare -> orderly h -> oom_list_init grants 2 h = Ok (Some l, h0) ->
  oom_srun grants compare l h0 ops = Ok (l', h', outs) -> refused grants h' ->
  exists l2 h2, oom_clear grants l' true h' = Ok (l2, h2) /\ (forall x, oom_sstep grants compare l2 h2 (SInsert x) = UB) /\
    exists h3 b, oom_delete l2 h2 = Ok h3 /\ hp_live h3 = b :: hp_live h.
Proof.
  intros A compare grants h ops l h0 l' h' outs TO O E Er G.
  destruct (set_history A compare grants h ops l h0 l' h' outs TO O E Er) as (s & H' & R').
  unfold oom_clear. rewrite (again_refused grants l' h' _ H' G). cbn [bind fst snd].
  do 2 eexists. split; [reflexivity|]. split.
  - intros x. cbn [oom_sstep]. unfold oom_set_insert. cbn [ol_val al_size]. change (0 <? 0) with false. cbn iota.
    unfold oom_insert_at, oom_room. cbn [ol_val al_size al_max]. destruct R' as (_ & _ & Mx & _).
    destruct (Nat.eqb_spec 0 (al_max (ol_val l'))); [lia|]. cbn [bind ol_val al_size al_data]. reflexivity.
  - destruct H' as (Oh & d & Ed & Lv). unfold oom_delete. cbn [ol_blk ol_hdr bind]. destruct h' as [m lv]. cbn [hp_live hp_next] in *. subst lv.
    destruct (orderly_cons _ _ _ Oh) as [O1 N1]. destruct (orderly_cons _ _ _ O1) as [O2 N2].
    rewrite free1_second; [|intros ->; apply N1; now left|exact N2]. do 2 eexists. split; reflexivity.
Qed.
Print Assumptions C103_refused_clear_refuted.

(** When it is granted the set is empty, and deleting it gives back all its memory. *)
Theorem C103_granted_clear : forall (A : Type) (compare : A -> A -> Z) (grants : nat -> bool) h (ops : list (sop A)) l h0 l' h' outs,
  total_order compare -> orderly h -> oom_list_init grants 2 h = Ok (Some l, h0) ->
  oom_srun grants compare l h0 ops = Ok (l', h', outs) -> grants (hp_next h') = true ->
  exists l2 h2, oom_clear grants l' true h' = Ok (l2, h2) /\ ol_val l2 = array_list_clear (ol_val l') true /\ stores (ol_val l2) [] /\
    exists h3, oom_delete l2 h2 = Ok h3 /\ hp_live h3 = hp_live h.
Proof.
  intros A compare grants h ops l h0 l' h' outs TO O E Er G.
  destruct (set_history A compare grants h ops l h0 l' h' outs TO O E Er) as (s & H' & R').
  unfold oom_clear. destruct (again_granted grants l' h' _ H' G) as (h2 & E2 & O2 & L2 & _). rewrite E2. cbn [bind fst snd].
  do 2 eexists. split; [reflexivity|]. cbn [ol_val]. split; [reflexivity|]. split; [split; reflexivity|].
  edestruct (delete_holds (mk_olist (ol_hdr l') (Some (hp_next h')) (array_list_clear (ol_val l') true)) h2 (hp_live h)) as (h3 & E3 & L3 & _); [|eauto].
  split; [exact O2|]. exists (hp_next h'). split; [reflexivity|exact L2].
Qed.
Print Assumptions C103_granted_clear.

(** *** Linked lists *)
(** The sequence after a history of additions, of which those that answered 1 took place. *)
Fixpoint added {A} (l : list A) (ops : list (bool * A)) (codes : list Z) : list A :=
  match ops, codes with
  | (front, x) :: ops', c :: codes' => added (if (c =? 1)%Z then (if front then x :: l else l ++ [x]) else l) ops' codes'
  | _, _ => l
  end.

(** Every history of additions: an addition whose node is refused answers 0 and leaves the list
    as it is; one whose node is granted and whose data is refused is undefined. *)
Theorem C103_linked_list_additions : forall (A : Type) (grants : nat -> bool) h (ops : list (bool * A)),
  match oom_linked_adds grants ModelLinked.linkedlist_init h ops with
  | Ok (l, h', codes) => ProofLinked.lrep l (added [] ops codes) /\ length codes = length ops /\
      Forall (fun c => c = 0 \/ c = 1)%Z codes /\
      length (hp_live h') = length (hp_live h) + 2 * count_occ Z.eq_dec codes 1%Z
  | UB => exists n, hp_next h <= n /\ grants n = true /\ grants (S n) = false
  | _ => False
  end.
Proof.
  intros A grants h ops. pose proof (@ProofLinked.lrep_init A) as R. revert R.
  generalize (@nil A) as s. generalize (@ModelLinked.linkedlist_init A) as l. revert h.
  induction ops as [|[front x] ops IH]; intros h l s R; cbn [oom_linked_adds].
  - cbn. repeat split; auto; lia.
  - unfold oom_linked_add, oom_node. destruct (grants (hp_next h)) eqn:G1.
    + rewrite (ask_granted grants h G1). destruct (grants (S (hp_next h))) eqn:G2.
      * rewrite ask_granted by exact G2. cbn [bind fst snd hp_next hp_live].
        set (h2 := mk_heap _ _).
        assert (Q : exists l', (if front then ModelLinked.linkedlist_front_add l x else ModelLinked.linkedlist_tail_add l x) = Ok (l', 1%Z) /\
                    ProofLinked.lrep l' (if front then x :: s else s ++ [x])).
        { destruct R as (cs & <- & Rc). destruct front.
          - destruct (ProofLinked.front_add_ok l cs x Rc) as (l' & E & R'). exists l'. split; [exact E|]. eexists. split; [|exact R']. reflexivity.
          - destruct (ProofLinked.tail_add_ok l cs x Rc) as (l' & E & R'). exists l'. split; [exact E|]. eexists. split; [|exact R']. rewrite map_app. reflexivity. }
        destruct Q as (l' & E & R'). rewrite E. cbn [bind fst snd].
        specialize (IH h2 l' _ R'). destruct (oom_linked_adds grants l' h2 ops) as [[[l3 h3] codes]| | |]; cbn [bind fst snd].
        -- destruct IH as (I1 & I2 & I3 & I4). cbn [added length]. change (1 =? 1)%Z with true. cbn iota. split; [exact I1|].
           split; [now rewrite I2|]. split; [constructor; auto|]. rewrite I4. cbn [count_occ]. destruct (Z.eq_dec 1 1); [|congruence]. unfold h2. cbn [hp_live length]. lia.
        -- destruct IH as (n & N1 & N2). exists n. split; [|exact N2]. unfold h2 in N1. cbn in N1. lia.
        -- exact IH.
        -- exact IH.
      * rewrite ask_refused by exact G2. cbn [bind]. exists (hp_next h). auto.
    + rewrite (ask_refused grants h G1). cbn [bind fst snd]. set (h2 := mk_heap _ _).
      specialize (IH h2 l s R). destruct (oom_linked_adds grants l h2 ops) as [[[l3 h3] codes]| | |]; cbn [bind fst snd].
      * destruct IH as (I1 & I2 & I3 & I4). cbn [added length]. change (0 =? 1)%Z with false. cbn iota. split; [exact I1|].
        split; [now rewrite I2|]. split; [constructor; auto|]. rewrite I4. cbn [count_occ]. destruct (Z.eq_dec 0 1); [discriminate|]. unfold h2. cbn [hp_live]. lia.
      * destruct IH as (n & N1 & N2). exists n. split; [|exact N2]. unfold h2 in N1. cbn in N1. lia.
      * exact IH.
      * exact IH.
Qed.
Print Assumptions C103_linked_list_additions.

(** ... on every list. *)
Theorem C103_linked_list_data_refuted : forall (A : Type) (grants : nat -> bool) front (l : ModelLinked.llist A) x h,
  grants (hp_next h) = true -> grants (S (hp_next h)) = false -> oom_linked_add grants front l x h = UB.
Proof.
  intros A grants front l x h G1 G2. unfold oom_linked_add, oom_node. rewrite (ask_granted grants h G1), ask_refused by exact G2. reflexivity.
Qed.
Print Assumptions C103_linked_list_data_refuted.

Example C103_linked_list_example :
  (let! r := oom_linked_adds (fun n => negb (n =? 2)) ModelLinked.linkedlist_init empty_memory [(true, 5); (false, 6); (false, 7)]%Z in
   Ok (snd r, ModelLinked.ll_size (fst (fst r)))) = Ok ([1; 0; 1]%Z, 2%Z) /\
  added [] [(true, 5); (false, 6); (false, 7)]%Z [1; 0; 1]%Z = [5; 7]%Z.
Proof. vm_compute. auto. Qed.

(** *** Hash tables *)
(** NULL keeps no memory.  A table can be had although its set of keys was refused; counting its
    keys, and inserting any key, are undefined then. *)
Theorem C103_table_or_null : forall (K : Type) (compare : K -> K -> Z) (hash : K -> nat -> nat) (grants : nat -> bool) buckets ksize dsize h, orderly h ->
  match oom_table_init (K := K) grants buckets ksize dsize h with
  | Ok (None, h') => hp_live h' = hp_live h /\ ~ lasts grants 2 h
  | Ok (Some t, h') => lasts grants 2 h /\ hashtable_init_size buckets ksize dsize = Ok (ot_val t) /\
      (~ lasts grants 4 h -> oom_size t = UB /\ (hash_in_range hash -> forall k v h2, oom_insert grants compare hash t k v h2 = UB))
  | _ => False
  end.
Proof.
  intros K compare hash grants buckets ksize dsize h O. unfold oom_table_init.
  destruct (grants (hp_next h)) eqn:G1.
  - rewrite (ask_granted grants h G1). pose proof (orderly_ask grants h O) as O1. destruct (grants (S (hp_next h))) eqn:G2.
    + rewrite ask_granted by exact G2. pose proof (orderly_ask grants _ O1) as O2. cbn [hp_next hp_live] in O2 |- *.
      unfold hashtable_init_size at 1. cbn [set_init array_list_init Nat.ltb Nat.leb bind].
      assert (L2 : lasts grants 2 h).
      { intros i Hi. assert (i = hp_next h \/ i = S (hp_next h)) as [->| ->] by lia; assumption. }
      destruct (init_cases grants (A := K) 2 _ ltac:(lia) O2) as [(l & h' & E & V & H & _ & G3 & G4)|(h' & E & L & _ & G)]; rewrite E; cbn [bind fst snd].
      * split; [exact L2|]. split; [reflexivity|]. intros N. exfalso. apply N. intros i Hi. cbn [hp_next] in G3, G4.
        assert (i = hp_next h \/ i = S (hp_next h) \/ i = S (S (hp_next h)) \/ i = S (S (S (hp_next h)))) as [->|[->|[->| ->]]] by lia; assumption.
      * split; [exact L2|]. split; [reflexivity|]. intros _. split; [reflexivity|]. intros HR k v h2. unfold oom_insert. cbn [ot_val ot_keys].
        set (b := if buckets <=? 0 then 37 else buckets). assert (Hb : 0 < b) by (unfold b; destruct (Nat.leb_spec buckets 0); lia).
        unfold hashtable_lookup_entry, ht_buckets. cbn [ht_table ht_heap]. rewrite repeat_length.
        unfold aget. rewrite nth_error_repeat by (now apply HR). cbn [bind ModelCells.find_cell length].
        destruct (ask grants h2) as [a h3]. destruct (ask grants h3) as [a2 h4]. destruct (ask grants h4) as [a3 h5].
        destruct a, a2, a3; reflexivity.
    + rewrite ask_refused by exact G2. cbn [hp_next hp_live]. rewrite free1_first by (now apply orderly_fresh). cbn [bind].
      split; [reflexivity|]. intros C. rewrite (C (S (hp_next h))) in G2 by lia. discriminate.
  - rewrite (ask_refused grants h G1). split; [reflexivity|]. intros C. rewrite (C (hp_next h)) in G1 by lia. discriminate.
Qed.
Print Assumptions C103_table_or_null.

(** While memory lasts, every history of insertions, lookups and counts answers as the finite
    map does; the table owns four blocks and three for every key. *)
Theorem C103_tables_while_memory_lasts : forall (K : Type) (compare : K -> K -> Z) (hash : K -> nat -> nat) (grants : nat -> bool) buckets ksize dsize h (ops : list (hcall K)),
  total_order compare -> hash_in_range hash -> orderly h -> plenty grants h -> Forall (sized dsize) (map as_hop ops) ->
  exists t h0 t' h', oom_table_init grants buckets ksize dsize h = Ok (Some t, h0) /\
    oom_hrun grants compare hash t h0 ops = Ok (t', h', snd (hspec_run (same compare) [] (map as_hop ops))) /\
    length (hp_live h') = length (hp_live h) + 4 + 3 * new_keys ops (snd (hspec_run (same compare) [] (map as_hop ops))).
Proof.
  intros K compare hash grants buckets ksize dsize h ops TO HR O P Sz.
  destruct (C06_hashtable_is_a_finite_map K compare hash buckets ksize dsize (map as_hop ops) TO HR Sz) as (t & keys & Eh & _).
  { apply Forall_forall. intros o I. apply in_map_iff in I. destruct I as (c & <- & _). destruct c; exact I. }
  unfold history in Eh. destruct (hashtable_init_size buckets ksize dsize) as [t0| | |] eqn:E0; cbn [bind] in Eh; try discriminate.
  assert (Q : exists ot h0, oom_table_init grants buckets ksize dsize h = Ok (Some ot, h0) /\ ot_val ot = t0 /\ usable ot h0 /\ plenty grants h0 /\ length (hp_live h0) = length (hp_live h) + 4).
  { unfold oom_table_init. rewrite (ask_granted grants h) by (apply P; lia). rewrite ask_granted by (apply P; cbn; lia). cbn [hp_next hp_live].
    rewrite E0. cbn [bind]. pose proof (orderly_ask grants _ (orderly_ask grants h O)) as O2. cbn [hp_next hp_live] in O2.
    destruct (init_cases grants (A := K) 2 _ ltac:(lia) O2) as [(l & h' & E & V & H & N & G3 & G4)|(h' & E & L & _ & G)].
    - rewrite E. cbn [bind fst snd]. do 2 eexists. split; [reflexivity|]. split; [reflexivity|].
      destruct H as (Oh & d & Ed & Lv). split.
      + split; [exact Oh|]. cbn [ot_keys]. exists (ol_hdr l), d. rewrite Ed, Lv. split; [reflexivity|now left].
      + split; [intros n Hn; apply P; rewrite N in Hn; cbn in Hn; lia|]. rewrite Lv. cbn [hp_live length]. lia.
    - exfalso. unfold refused in G. cbn [hp_next] in G. rewrite !P in G by lia. destruct G; discriminate. }
  destruct Q as (ot & h0 & E1 & V1 & U1 & P1 & M1). subst t0.
  destruct (oom_hrun_ok grants compare hash ops ot h0 t _ U1 P1 Eh) as (ot' & h' & E2 & _ & _ & _ & M2).
  exists ot, h0, ot', h'. split; [exact E1|]. split; [exact E2|]. rewrite M2, M1. reflexivity.
Qed.
Print Assumptions C103_tables_while_memory_lasts.

(** An insertion that is refused memory is undefined: for a key that is not in the table, when
    one of three requests is refused; for a key that is, when the next request is. *)
Theorem C103_refused_insertion_refuted : forall (K : Type) (compare : K -> K -> Z) (hash : K -> nat -> nat) (grants : nat -> bool) (t : otable K) k v buf code out h,
  oom_lookup compare hash t k buf = Ok (code, out) ->
  (code = 0%Z /\ ~ lasts grants 3 h) \/ (code = 1%Z /\ refused grants h) ->
  oom_insert grants compare hash t k v h = UB.
Proof.
  intros K compare hash grants t k v buf code out h E C. unfold oom_lookup, hashtable_lookup in E.
  destruct (hashtable_lookup_entry compare hash (ot_val t) k) as [e| | |] eqn:El; cbn [bind] in E; try discriminate.
  destruct e as [e|].
  - destruct (ModelCells.hload (ht_heap (ot_val t)) (Some e)) as [c| | |]; cbn [bind] in E; try discriminate.
    destruct (memcpy buf (snd (ModelCells.c_val c)) (ht_dsize (ot_val t))) as [d| | |]; cbn [bind] in E; try discriminate.
    destruct C as [[C _]|[_ C]]; [congruence|]. now apply (oom_insert_old_refused grants compare hash t h k v e).
  - destruct C as [[_ C]|[C _]]; [|congruence]. apply oom_insert_new_refused; [exact El|].
    destruct (grants (hp_next h)) eqn:G1; [|exists (hp_next h); split; [lia|exact G1]].
    destruct (grants (S (hp_next h))) eqn:G2; [|exists (S (hp_next h)); split; [lia|exact G2]].
    destruct (grants (S (S (hp_next h)))) eqn:G3; [|exists (S (S (hp_next h))); split; [lia|exact G3]].
    exfalso. apply C. intros i Hi. assert (i = hp_next h \/ i = S (hp_next h) \/ i = S (S (hp_next h))) as [->|[->| ->]] by lia; assumption.
Qed.
Print Assumptions C103_refused_insertion_refuted.

Example C103_table_example :
  let hist g ops :=
    (let! r := oom_table_init g 3 4 1 empty_memory in
     match fst r with None => UB | Some t => let! s := oom_hrun g zcmp zmod_hash t (snd r) ops in Ok (snd s) end) in
  hist (fun _ => true) [CInsert 5 [7]; CInsert 5 [8]; CLookup 5 [0]; CSize]%Z = Ok [(1, [7]); (-1, [7]); (1, [8]); (1, [])]%Z /\
  hist (numbers 3) [CLookup 5 [0]]%Z = Ok [(0, [0])]%Z /\
  hist (numbers 3) [CSize]%Z = UB /\ hist (numbers 7) [CInsert 5 [7]; CInsert 5 [8]]%Z = UB /\ hist (numbers 9) [CInsert 5 [7]; CInsert 6 [8]]%Z = UB.
Proof. vm_compute. auto. Qed.

(** *** Scores, constraints and clusters *)
(** The answer is NULL exactly when no memory was given and the request was refused, and then no
    memory is kept; otherwise the fields are the arguments, and destroying an object that was not
    given gives its memory back.  An object that was given must not be destroyed. *)
Theorem C103_objects : forall (grants : nat -> bool) given score core id a b ty h, orderly h ->
  (let (r, h1) := oom_score grants given score core id h in
   match r with
   | None => given = false /\ refused grants h /\ hp_live h1 = hp_live h /\ oom_free None h1 = Ok h1
   | Some (p, o) => so_score o = score /\ so_core o = core /\ so_id o = id /\
       (if given then h1 = h /\ oom_free (Some p) h1 = UB else exists h2, oom_free (Some p) h1 = Ok h2 /\ hp_live h2 = hp_live h)
   end) /\
  (let (r, h1) := oom_constraint grants given a b ty h in
   match r with
   | None => given = false /\ refused grants h /\ hp_live h1 = hp_live h /\ oom_free None h1 = Ok h1
   | Some (p, o) => co_a o = a /\ co_b o = b /\ co_type o = ty /\
       (if given then h1 = h /\ oom_free (Some p) h1 = UB else exists h2, oom_free (Some p) h1 = Ok h2 /\ hp_live h2 = hp_live h)
   end).
Proof.
  intros grants given score core id a b ty h O. unfold oom_score, oom_constraint, oom_struct. destruct given; cbn [so_score so_core so_id co_a co_b co_type].
  - auto 10.
  - destruct (grants (hp_next h)) eqn:G.
    + rewrite (ask_granted grants h G). cbn [oom_free so_score so_core so_id co_a co_b co_type]. rewrite free1_first by (now apply orderly_fresh). eauto 12.
    + rewrite (ask_refused grants h G). auto 12.
Qed.
Print Assumptions C103_objects.

Example C103_objects_example :
  fst (oom_constraint (numbers 0) false 1 2 MustLink empty_memory) = None /\
  fst (oom_constraint (numbers 0) true 1 2 MustLink empty_memory) = Some (Given, mk_con_obj 1 2 MustLink) /\
  fst (oom_constraint (numbers 1) false 1 2 MustLink empty_memory) = Some (Block 0, mk_con_obj 1 2 MustLink).
Proof. vm_compute. auto. Qed.

(** A cluster asks five times.  NULL when the first request is refused; undefined when the second
    or third is; otherwise a cluster which cluster_destroy gives back, with or without a list of
    descendants. *)
Theorem C103_clusters : forall (grants : nat -> bool) h, orderly h ->
  match oom_cluster_init grants h with
  | Ok (None, h1) => refused grants h /\ hp_live h1 = hp_live h
  | Ok (Some c, h1) => lasts grants 3 h /\ (oc_desc c = None <-> ~ lasts grants 5 h) /\
      exists h2, oom_cluster_destroy c h1 = Ok h2 /\ hp_live h2 = hp_live h
  | UB => grants (hp_next h) = true /\ ~ lasts grants 3 h
  | _ => False
  end.
Proof.
  intros grants h O. unfold oom_cluster_init. destruct (grants (hp_next h)) eqn:G.
  2:{ rewrite (ask_refused grants h G). auto. }
  rewrite (ask_granted grants h G). pose proof (orderly_ask grants h O) as O1.
  destruct (init_cases grants (A := nat) 2 _ ltac:(lia) O1) as [(l & h1 & E & V & H & Nx & G1 & G2)|(h1 & E & L & _ & Gr)]; rewrite E; cbn [bind fst snd].
  2:{ split; [reflexivity|]. intros C. unfold refused in Gr. cbn [hp_next] in Gr. rewrite !C in Gr by lia. destruct Gr; discriminate. }
  cbn [hp_next hp_live] in *. assert (L3 : lasts grants 3 h).
  { intros i Hi. assert (i = hp_next h \/ i = S (hp_next h) \/ i = S (S (hp_next h))) as [->|[->| ->]] by lia; assumption. }
  assert (Oh1 : orderly h1) by apply H.
  destruct (init_cases grants (A := nat) 1 h1 ltac:(lia) Oh1) as [(l2 & h2 & E2 & V2 & H2 & Nx2 & G3 & G4)|(h2 & E2 & L2 & N2 & Gr)]; rewrite E2; cbn [bind fst snd oc_desc].
  - split; [exact L3|]. split.
    { split; [discriminate|]. intros C. exfalso. apply C. intros i Hi. rewrite Nx in G3, G4.
      assert (i < hp_next h + 3 \/ i = S (hp_next h) + 2 \/ i = S (S (hp_next h) + 2)) as [Q|[->| ->]] by lia; [apply L3; lia|assumption|assumption]. }
    unfold oom_cluster_destroy. cbn [oc_set oc_desc oc_blk].
    destruct H as (_ & d & Ed & Lv). destruct H2 as (O2 & d2 & Ed2 & Lv2). rewrite Lv in Lv2.
    unfold oom_delete at 1. rewrite Ed. destruct h2 as [n2 lv2]. cbn in Lv2. subst lv2.
    pose proof O2 as (ND & _). cbn [hp_live] in ND.
    assert (D : d2 <> d /\ ol_hdr l2 <> d /\ ol_hdr l <> d /\ hp_next h <> d /\ ~ In d (hp_live h) /\
                d2 <> ol_hdr l /\ ol_hdr l2 <> ol_hdr l /\ hp_next h <> ol_hdr l /\ ~ In (ol_hdr l) (hp_live h) /\
                d2 <> ol_hdr l2 /\ ~ In d2 (hp_next h :: hp_live h) /\ ~ In (ol_hdr l2) (hp_next h :: hp_live h) /\ ~ In (hp_next h) (hp_live h)).
    { inversion ND as [|x1 y1 I1 ND1]; subst. inversion ND1 as [|x2 y2 I2 ND2]; subst. inversion ND2 as [|x3 y3 I3 ND3]; subst.
      inversion ND3 as [|x4 y4 I4 ND4]; subst. inversion ND4 as [|x5 y5 I5 ND5]; subst. cbn [In] in *. intuition congruence. }
    destruct D as (D1 & D2 & D3 & D4 & D5 & D6 & D7 & D8 & D9 & D10 & D11 & D12 & D13).
    assert (F1 : free1 d (mk_heap n2 (d2 :: ol_hdr l2 :: d :: ol_hdr l :: hp_next h :: hp_live h)) = Ok (mk_heap n2 (d2 :: ol_hdr l2 :: ol_hdr l :: hp_next h :: hp_live h))).
    { unfold free1. cbn [hp_live hp_next]. rewrite (proj2 (existsb_in d _)) by (cbn; tauto). cbn [filter].
      destruct (Nat.eqb_spec d2 d); [contradiction|]. destruct (Nat.eqb_spec (ol_hdr l2) d); [contradiction|]. rewrite Nat.eqb_refl.
      destruct (Nat.eqb_spec (ol_hdr l) d); [contradiction|]. destruct (Nat.eqb_spec (hp_next h) d); [contradiction|]. cbn [negb]. rewrite filter_notin by exact D5. reflexivity. }
    assert (F2 : free1 (ol_hdr l) (mk_heap n2 (d2 :: ol_hdr l2 :: ol_hdr l :: hp_next h :: hp_live h)) = Ok (mk_heap n2 (d2 :: ol_hdr l2 :: hp_next h :: hp_live h))).
    { unfold free1. cbn [hp_live hp_next]. rewrite (proj2 (existsb_in (ol_hdr l) _)) by (cbn; tauto). cbn [filter].
      destruct (Nat.eqb_spec d2 (ol_hdr l)); [contradiction|]. destruct (Nat.eqb_spec (ol_hdr l2) (ol_hdr l)); [contradiction|]. rewrite Nat.eqb_refl.
      destruct (Nat.eqb_spec (hp_next h) (ol_hdr l)); [contradiction|]. cbn [negb]. rewrite filter_notin by exact D9. reflexivity. }
    cbn [app]. rewrite F1. cbn [bind]. rewrite F2. cbn [bind]. unfold oom_delete. rewrite Ed2.
    rewrite free1_first by (cbn [In] in *; intuition congruence). cbn [bind]. rewrite free1_first by exact D12. cbn [bind].
    rewrite free1_first by exact D13. eauto.
  - split; [exact L3|]. split.
    { split; [intros _|reflexivity]. intros C. unfold refused in Gr. rewrite Nx in Gr. rewrite !C in Gr by lia. destruct Gr; discriminate. }
    unfold oom_cluster_destroy. cbn [oc_set oc_desc oc_blk].
    assert (H' : holds l h2 (hp_next h :: hp_live h)).
    { destruct H as (_ & d & Ed & Lv). split; [|exists d; split; [exact Ed|congruence]].
      destruct Oh1 as [ND B]. split; [now rewrite L2|]. intros b Ib. rewrite L2 in Ib. specialize (B b Ib). lia. }
    destruct (delete_holds l h2 _ H') as (h3 & E3 & L3' & O3). rewrite E3. cbn [bind].
    destruct h3 as [n3 lv3]. cbn in L3'. subst lv3. rewrite free1_first by (now apply orderly_fresh). eauto.
Qed.
Print Assumptions C103_clusters.

Example C103_clusters_example :
  (let! r := oom_cluster_init (numbers 0) empty_memory in Ok (fst r)) = Ok None /\
  oom_cluster_init (numbers 2) empty_memory = UB /\
  (let! r := oom_cluster_init (numbers 3) empty_memory in Ok (match fst r with Some c => match oc_desc c with None => true | _ => false end | None => false end)) = Ok true.
Proof. vm_compute. auto. Qed.

(** *** Graphs *)
(** The neighbours of a vertex, in the order of the edges. *)
Fixpoint adjacent (v : nat) (es : list (nat * nat)) : list nat :=
  match es with
  | [] => []
  | (a, b) :: es' =>
      if (v =? a) && (v =? b) then v :: adjacent v es'
      else if v =? a then b :: adjacent v es'
      else if v =? b then a :: adjacent v es'
      else adjacent v es'
  end.

(** While memory lasts a graph has the neighbours of every vertex. *)
Theorem C103_graph_while_memory_lasts : forall (grants : nat -> bool) given n es h,
  orderly h -> plenty grants h -> Forall (fun e => fst e < n /\ snd e < n) es ->
  exists g h', oom_graph_init grants given n es h = Ok (Some g, h') /\
    forall v, v < n -> oom_neighbours g v = Ok (adjacent v es).
Proof.
  intros grants given n es h O P F. unfold oom_graph_init.
  assert (Q : exists p h1, oom_struct grants given h = (Some p, h1) /\ orderly h1 /\ plenty grants h1).
  { unfold oom_struct. destruct given; [eauto|]. rewrite (ask_granted grants h) by (apply P; lia). do 2 eexists. split; [reflexivity|].
    split; [now apply orderly_ask|]. intros k Hk. cbn in Hk. apply P. lia. }
  destruct Q as (p & h1 & E1 & O1 & P1). rewrite E1. rewrite (ask_granted grants h1) by (apply P1; lia).
  set (h2 := mk_heap _ _). assert (O2 : orderly h2) by (now apply orderly_ask).
  assert (P2 : plenty grants h2) by (intros k Hk; cbn in Hk; apply P1; lia).
  destruct (oom_lists_ok grants n h2 O2 P2) as (ls & h3 & E3 & L3 & A3 & P3 & C3 & _). rewrite E3. cbn [bind fst snd].
  destruct (oom_edges_ok grants es ls h3 _ A3 C3 P3) as (ls4 & h4 & E4 & L4 & C4); [now rewrite L3|]. rewrite E4. cbn [bind fst snd].
  do 2 eexists. split; [reflexivity|]. intros v V. destruct (nth_error ls4 v) as [l|] eqn:El; [|apply nth_error_None in El; lia].
  erewrite neighbours_ok; [|exact El|exact (C4 v l El)]. f_equal. cbn [app]. clear. induction es as [|[a b] es IH]; [reflexivity|].
  cbn [flat_map adjacent]. rewrite IH. unfold ends. cbn [fst snd].
  destruct (Nat.eqb_spec v a), (Nat.eqb_spec v b), (Nat.eqb_spec a b); cbn [andb negb app]; subst; try reflexivity; congruence.
Qed.
Print Assumptions C103_graph_while_memory_lasts.

(** Refusals before the first edge: of the struct, NULL and nothing kept; of the array of lists,
    NULL, and a struct that was not given is lost; of a list, undefined. *)
Theorem C103_graph_refusals : forall (grants : nat -> bool) (given : bool) n es h, orderly h ->
  let first := if given then 0 else 1 in
  (refused grants h -> given = false -> exists h', oom_graph_init grants given n es h = Ok (None, h') /\ hp_live h' = hp_live h) /\
  (lasts grants first h -> grants (hp_next h + first) = false ->
     exists h', oom_graph_init grants given n es h = Ok (None, h') /\ length (hp_live h') = length (hp_live h) + first) /\
  (lasts grants (first + 1) h -> ~ lasts grants (first + 1 + 2 * n) h -> oom_graph_init grants given n es h = UB).
Proof.
  intros grants given n es h O first. split; [|split].
  - intros R ->. unfold oom_graph_init, oom_struct. rewrite (ask_refused grants h R). eauto.
  - unfold first, oom_graph_init, oom_struct. destruct given; intros L G.
    + rewrite Nat.add_0_r in G. rewrite (ask_refused grants h G). eexists. split; [reflexivity|]. cbn [hp_live]. lia.
    + rewrite (ask_granted grants h) by (apply L; lia). rewrite ask_refused by (cbn [hp_next]; now rewrite Nat.add_1_r in G).
      eexists. split; [reflexivity|]. cbn [hp_live length]. lia.
  - unfold first, oom_graph_init, oom_struct. destruct given; intros L N.
    + rewrite (ask_granted grants h) by (apply L; lia). rewrite oom_lists_refused; [reflexivity|now apply orderly_ask|].
      intros C. apply N. intros i Hi. destruct (Nat.eq_dec i (hp_next h)) as [->|]; [apply L; lia|]. apply C. cbn [hp_next]. lia.
    + rewrite (ask_granted grants h) by (apply L; lia). rewrite ask_granted by (apply L; cbn [hp_next]; lia).
      rewrite oom_lists_refused; [reflexivity|apply (orderly_ask grants (mk_heap _ _)); now apply orderly_ask|]. intros C. apply N. intros i Hi.
      destruct (Nat.eq_dec i (hp_next h)) as [->|]; [apply L; lia|]. destruct (Nat.eq_dec i (S (hp_next h))) as [->|]; [apply L; lia|].
      apply C. cbn [hp_next] in *. lia.
Qed.
Print Assumptions C103_graph_refusals.

(** So a NULL from graph_init does not mean that nothing was kept ... *)
Theorem C103_null_graph_keeps_nothing_refuted :
  ~ (forall (grants : nat -> bool) n es h h', orderly h -> oom_graph_init grants false n es h = Ok (None, h') -> hp_live h' = hp_live h).
Proof.
  intros C. specialize (C (numbers 1) 2 [] empty_memory (mk_heap 2 [0]) empty_orderly eq_refl). discriminate.
Qed.
Print Assumptions C103_null_graph_keeps_nothing_refuted.

(** ... and a graph from graph_init need not have its edges: the seventeenth neighbour of a vertex
    is refused its memory, graph_init answers with a graph, and reading the neighbours of the
    vertex is undefined. *)
Definition star (n : nat) : list (nat * nat) := map (fun i => (0, S i)) (seq 0 n).
Theorem C103_graph_has_its_edges_refuted :
  exists (grants : nat -> bool) g h', oom_graph_init grants false 18 (star 17) empty_memory = Ok (Some g, h') /\
    oom_neighbours g 0 = UB /\ oom_neighbours g 1 = Ok [0].
Proof.
  exists (fun i => negb (i =? 38)).
  destruct (oom_graph_init (fun i => negb (i =? 38)) false 18 (star 17) empty_memory) as [[[g|] h']| | |] eqn:E; vm_compute in E; try discriminate.
  exists g, h'. split; [reflexivity|]. injection E as <- _. vm_compute. auto.
Qed.
Print Assumptions C103_graph_has_its_edges_refuted.

Example C103_graph_example :
  (let! r := oom_graph_init (fun _ => true) false 3 [(0, 1); (2, 0); (1, 1)] empty_memory in
   match fst r with Some g => let! a := oom_neighbours g 0 in let! b := oom_neighbours g 1 in Ok (a, b) | None => UB end) = Ok ([1; 2], [0; 1]) /\
  adjacent 0 [(0, 1); (2, 0); (1, 1)] = [1; 2] /\ adjacent 1 [(0, 1); (2, 0); (1, 1)] = [0; 1] /\
  oom_graph_init (numbers 5) false 3 [] empty_memory = UB.
Proof. vm_compute. auto. Qed.
