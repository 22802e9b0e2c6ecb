(** C98: lists that are sorted and searched. *)
From Coq Require Import Sorted Permutation.
From Verif Require Import Base ListFacts ModelArrayList SpecSeq ProofArrayList PropCollections ModelSortList SpecSortList.
From Coq Require Import ZifyBool ZifyNat.
Local Open Scope nat_scope.

Section Proofs.
Context {A : Type}.
Variable compare : A -> A -> Z.
Variable q : list A -> list A.
Hypothesis WO : weak_order compare.
Hypothesis HQ : sorting compare q.

Lemma elements_ok l : forall d : list (option A), (forall i a, nth_error l i = Some a -> nth_error d i = Some (Some a)) -> elements d (length l) = Ok l.
Proof.
  induction l as [|a l IH]; intros d H; cbn [elements length]; [reflexivity|]. destruct d as [|o d]; [specialize (H 0 a eq_refl); discriminate|].
  specialize (H 0 a eq_refl) as H0. cbn in H0. injection H0 as ->. cbn [slot aget nth_error bind]. unfold slot. cbn [aget nth_error bind tl].
  unfold aget. cbn [nth_error bind]. rewrite (IH d); [reflexivity|]. intros i b Hi. apply (H (S i) b Hi).
Qed.
Lemma sort_rep al l : rep al l -> exists al', array_list_sort q al = Ok al' /\ rep al' (q l) /\ al_max al' = al_max al.
Proof.
  intros R. pose proof R as (Hs & Hd & Hm & Hl & Hn). unfold array_list_sort. rewrite Hs, (elements_ok l _ Hn). cbn [bind].
  eexists. split; [reflexivity|]. split; [|reflexivity]. destruct (HQ l) as [HP _]. pose proof (Permutation_length HP) as HL. unfold rep. cbn [al_size al_data al_max].
  split; [exact HL|]. split; [rewrite app_length, map_length, skipn_length; lia|]. split; [exact Hm|]. split; [lia|].
  intros i a Hi. pose proof (nth_error_lt _ _ _ Hi). rewrite nth_error_app1 by (rewrite map_length; exact H). rewrite nth_error_map, Hi. reflexivity.
Qed.

Lemma arranged_nth l : StronglySorted (fun a b => (compare a b <= 0)%Z) l -> forall i j a b, i < j -> nth_error l i = Some a -> nth_error l j = Some b -> (compare a b <= 0)%Z.
Proof.
  induction 1 as [|c l HS IH HF]; intros i j a b Hij Ha Hb; [destruct i; discriminate|]. destruct j as [|j]; [lia|]. destruct i as [|i]; cbn in *.
  - injection Ha as <-. rewrite Forall_forall in HF. apply HF. eapply nth_error_In; exact Hb.
  - apply (IH i j a b); auto. lia.
Qed.
(** Any list: the search is defined, and what it finds is there. *)
Lemma search_sound al l x : rep al l -> forall fuel lo hi, (0 <= lo)%Z -> (hi < Z.of_nat (length l))%Z -> (hi - lo + 1 < Z.of_nat fuel)%Z -> (0 < fuel) ->
  exists r, binary_search compare fuel (al_data al) lo hi x = Ok r /\
    ((exists i a, nth_error l i = Some a /\ compare a x = 0%Z /\ r = Z.of_nat i) \/
     (r = (-1)%Z /\ (StronglySorted (fun a b => (compare a b <= 0)%Z) l ->
        (forall i a, (Z.of_nat i < lo)%Z -> nth_error l i = Some a -> (compare a x < 0)%Z) ->
        (forall i a, (hi < Z.of_nat i)%Z -> nth_error l i = Some a -> (compare a x > 0)%Z) -> forall a, In a l -> compare a x <> 0%Z))).
Proof.
  intros R. destruct WO as [Wa Wt]. induction fuel as [|f IH]; intros lo hi H0 H2 Hf Hp; [lia|].
  cbn [binary_search]. destruct (Z.leb_spec lo hi).
  - set (mid := (lo + Z.quot (hi - lo) 2)%Z).
    assert (Hmid : (lo <= mid <= hi)%Z) by (subst mid; rewrite Z.quot_div_nonneg by lia; lia). clearbody mid.
    destruct (Z.ltb_spec mid 0); [lia|].
    destruct (nth_error l (Z.to_nat mid)) as [a|] eqn:Ea; [|apply nth_error_None in Ea; lia].
    rewrite (slot_rep _ _ _ _ R Ea). cbn [bind]. destruct (Z.eqb_spec (compare a x) 0) as [Hc|Hc].
    + eexists. split; [reflexivity|]. left. exists (Z.to_nat mid), a. split; [exact Ea|]. split; [exact Hc|lia].
    + rewrite Z.gtb_ltb. destruct (Z.ltb_spec 0 (compare a x)) as [Hg|Hg].
      * destruct (IH lo (mid - 1)%Z) as (r & E & [HF|[Er HN]]); try lia; exists r; (split; [exact E|]); [left; exact HF|right]. split; [exact Er|].
        intros HS Hlo Hhi. apply HN; auto. intros i b Hi Hb. destruct (Nat.eq_dec i (Z.to_nat mid)) as [->|Hne]; [rewrite Ea in Hb; injection Hb as <-; lia|].
        assert (Hab : (compare a b <= 0)%Z) by (apply (arranged_nth l HS (Z.to_nat mid) i); auto; lia).
        destruct (Z.lt_ge_cases 0 (compare b x)); [lia|]. exfalso. pose proof (Wt a b x Hab ltac:(lia)). lia.
      * destruct (IH (mid + 1)%Z hi) as (r & E & [HF|[Er HN]]); try lia; exists r; (split; [exact E|]); [left; exact HF|right]. split; [exact Er|].
        intros HS Hlo Hhi. apply HN; auto. intros i b Hi Hb. destruct (Nat.eq_dec i (Z.to_nat mid)) as [->|Hne]; [rewrite Ea in Hb; injection Hb as <-; lia|].
        assert (Hba : (compare b a <= 0)%Z) by (apply (arranged_nth l HS i (Z.to_nat mid)); auto; lia).
        assert (Hxa : (compare x a > 0)%Z) by (apply Wa; lia).
        destruct (Z.lt_ge_cases (compare b x) 0); [assumption|]. exfalso.
        assert (Hxb : (compare x b <= 0)%Z) by (destruct (Z.lt_ge_cases 0 (compare x b)) as [Hx|Hx]; [assert ((compare b x < 0)%Z) by (apply Wa; lia); lia|exact Hx]).
        pose proof (Wt x b a Hxb Hba). lia.
  - eexists. split; [reflexivity|]. right. split; [reflexivity|]. intros HS Hlo Hhi a Ha. apply In_nth_error in Ha as [i Hi].
    destruct (Z.lt_ge_cases (Z.of_nat i) lo); [specialize (Hlo i a ltac:(assumption) Hi); lia|]. specialize (Hhi i a ltac:(lia) Hi). lia.
Qed.
Lemma find_sorted_ok al l x : rep al l -> exists r, array_list_find compare al x 1 = Ok r /\ search_answer compare l x r.
Proof.
  intros R. unfold array_list_find. cbn [Z.eqb]. pose proof R as (Hs & _). rewrite Hs. replace (1 =? 1)%Z with true by reflexivity.
  destruct (search_sound al l x R (S (length l)) 0%Z (Z.of_nat (length l) - 1)%Z) as (r & E & H); try lia. exists r. split; [exact E|].
  destruct H as [H|[Er H]]; [left; exact H|right]. split; [exact Er|]. intros HS. apply H; auto; intros i a Hi Ha; [lia|]. apply nth_error_lt in Ha. lia.
Qed.
Lemma xrun_ok ops : forall al l, rep al l -> sort_ok compare l ops -> exists al' outs l', xrun compare q al ops = Ok (al', outs) /\ rep al' l' /\ sort_history compare l ops outs l'.
Proof.
  induction ops as [|o ops IH]; intros al l R Hok; cbn [xrun].
  - exists al, [], l. split; [reflexivity|]. split; [exact R|constructor].
  - destruct o as [o| |x]; cbn [sort_ok xstep] in *.
    + destruct Hok as [Ho Hr]. destruct (lstep_ok compare al l o R Ho) as (al1 & E1 & R1). rewrite E1. cbn [bind fst snd].
      destruct (IH al1 _ R1 Hr) as (al2 & outs & l2 & E2 & R2 & HH). rewrite E2. cbn [bind fst snd]. exists al2, (snd (seq_step (eqv compare) l o) :: outs), l2. split; [reflexivity|]. split; [exact R2|]. apply xh_op. exact HH.
    + destruct (sort_rep al l R) as (al1 & E1 & R1 & _). rewrite E1. cbn [bind fst snd].
      destruct (IH al1 _ R1 (Hok _ (HQ l))) as (al2 & outs & l2 & E2 & R2 & HH). rewrite E2. cbn [bind fst snd]. eexists _, _, l2. split; [reflexivity|]. split; [exact R2|]. apply xh_sort with (q l); [apply HQ|exact HH].
    + destruct (find_sorted_ok al l x R) as (r & E1 & HA). rewrite E1. cbn [bind fst snd].
      destruct (IH al l R Hok) as (al2 & outs & l2 & E2 & R2 & HH). rewrite E2. cbn [bind fst snd]. eexists _, _, l2. split; [reflexivity|]. split; [exact R2|]. apply xh_find; assumption.
Qed.
End Proofs.

(** C98 Every history of list operations, sorts and sorted searches, with every comparison that
    orders the elements and every qsort that sorts: nothing is undefined, a sort rearranges the
    elements in order and everything else sees the list so arranged, a sorted search finds an
    equal element whenever the list is sorted and holds one, and never finds what is not
    there. *)
Theorem C98_sorted_lists :
  forall (A : Type) (compare : A -> A -> Z) (qsort : list A -> list A) (k : nat) (ops : list (xop A)),
    weak_order compare -> sorting compare qsort -> 0 < k -> sort_ok compare [] ops ->
    exists al0 al' outs l,
      array_list_init k = Ok al0 /\ xrun compare qsort al0 ops = Ok (al', outs) /\
      stores al' l /\ sort_history compare [] ops outs l.
Proof.
  intros A compare q k ops WO HQ Hk Hok. exists (AL (repeat None k) 0 k).
  assert (E : array_list_init k = Ok (AL (repeat (@None A) k) 0 k)) by (unfold array_list_init; apply Nat.ltb_lt in Hk; now rewrite Hk).
  destruct (rep_init _ _ E) as (R & _ & _). destruct (xrun_ok compare q WO HQ ops _ [] R Hok) as (al' & outs & l & E' & R' & HH).
  exists al', outs, l. split; [exact E|]. split; [exact E'|]. apply rep_elements in R'. split; [split; tauto|exact HH].
Qed.
Print Assumptions C98_sorted_lists.

Lemma sorted_perm_unique {A} (compare : A -> A -> Z) (TO : total_order compare) l l' :
  StronglySorted (before compare) l -> Permutation l l' -> StronglySorted (fun a b => (compare a b <= 0)%Z) l' -> l' = l.
Proof.
  destruct TO as (He & Ha & Ht). intros HS. revert l'. induction HS as [|a l HS IH HF]; intros l' HP HS'.
  - apply Permutation_nil in HP. exact HP.
  - destruct HS' as [|b l' HS' HF']; [symmetry in HP; apply Permutation_nil in HP; discriminate|].
    assert (a = b).
    { assert (Hb : In b (a :: l)) by (apply (Permutation_in b (Permutation_sym HP)); left; reflexivity). destruct Hb as [Hb|Hb]; [exact Hb|].
      assert (Hain : In a (b :: l')) by (apply (Permutation_in a HP); left; reflexivity). destruct Hain as [Hb'|Hain]; [congruence|].
      rewrite Forall_forall in HF, HF'. specialize (HF b Hb). specialize (HF' a Hain). unfold before in HF. apply Ha in HF. lia. }
    subst b. f_equal. apply IH; [eapply Permutation_cons_inv; exact HP|exact HS'].
Qed.
(** Sorting a set leaves it as it is, after every history. *)
Theorem C98_sorting_a_set_does_nothing :
  forall (A : Type) (compare : A -> A -> Z) (qsort : list A -> list A) (ops : list (sop A)),
    total_order compare -> sorting compare qsort ->
    exists s0 s' outs, set_init = Ok s0 /\ srun compare s0 ops = Ok (s', outs) /\ set_sort qsort s' = Ok s'.
Proof.
  intros A compare q ops TO HQ. exists (AL (repeat None 2) 0 2).
  assert (E : set_init = Ok (AL (repeat (@None A) 2) 0 2)) by reflexivity. destruct (rep_init 2 _ E) as (R & _ & _).
  destruct (srun_ok compare TO ops _ [] R) as (al' & l' & outs & E' & R' & S' & H'); [constructor|].
  exists al', outs. split; [exact E|]. split; [exact E'|]. pose proof R' as (Hs & Hd & Hm & Hl & Hn).
  destruct (HQ l') as [HP HS]. unfold set_sort, array_list_sort. rewrite Hs, (elements_ok l' _ Hn). cbn [bind]. rewrite (sorted_perm_unique compare TO l' (q l') S' HP HS).
  apply rep_elements in R' as [R1 _]. rewrite Hs in R1. rewrite <- R1, firstn_skipn. destruct al'; cbn in *. subst. reflexivity.
Qed.
Print Assumptions C98_sorting_a_set_does_nothing.

(** Refuted: "array_list_find with sorted = 1 finds every element". In a list that is not sorted
    it misses the second of two elements out of order, which the plain search finds. *)
Theorem C98_unsorted_search_misses_refuted :
  forall (A : Type) (compare : A -> A -> Z) (qsort : list A -> list A) (k : nat) (a b : A),
    total_order compare -> before compare a b -> 0 < k ->
    exists al0 al', array_list_init k = Ok al0 /\
      xrun compare qsort al0 [XOp (LAppend b); XOp (LAppend a); XFindSorted a; XOp (LFind a)] =
        Ok (al', [(1%Z, None); (1%Z, None); ((-1)%Z, None); (1%Z, None)]).
Proof.
  intros A compare q k a b (He & Ha & Ht) Hab Hk. exists (AL (repeat None k) 0 k).
  assert (E : array_list_init k = Ok (AL (repeat (@None A) k) 0 k)) by (unfold array_list_init; apply Nat.ltb_lt in Hk; now rewrite Hk).
  destruct (rep_init _ _ E) as (R & _ & _).
  destruct (lstep_ok compare _ [] (LAppend b) R I) as (al1 & E1 & R1). destruct (lstep_ok compare _ _ (LAppend a) R1 I) as (al2 & E2 & R2).
  destruct (lstep_ok compare _ _ (LFind a) R2 I) as (al3 & E3 & R3).
  cbn [seq_step fst snd app] in *. exists al3. split; [exact E|]. cbn [xrun xstep]. rewrite E1. cbn [bind fst snd]. rewrite E2. cbn [bind fst snd].
  assert (Hba : (compare b a > 0)%Z) by (apply Ha; exact Hab).
  assert (EF : array_list_find compare al2 a 1 = Ok (-1)%Z).
  { unfold array_list_find. replace (1 =? 1)%Z with true by reflexivity. pose proof R2 as (Hs & _). rewrite Hs. cbn [length binary_search].
    change (0 <=? Z.of_nat 2 - 1)%Z with true. change (0 + Z.quot (Z.of_nat 2 - 1 - 0) 2)%Z with 0%Z. change (0 <? 0)%Z with false. change (Z.to_nat 0) with 0. cbv iota.
    rewrite (slot_rep _ _ _ _ R2 (eq_refl : nth_error [b; a] 0 = Some b)). cbn [bind].
    destruct (Z.eqb_spec (compare b a) 0); [lia|]. destruct (Z.gtb_spec (compare b a) 0); [|lia]. reflexivity. }
  rewrite EF. cbn [bind fst snd]. rewrite E3. cbn [bind fst snd]. unfold index_of, eqv.
  destruct (Z.eqb_spec (compare b a) 0); [lia|]. rewrite (proj2 (Z.eqb_eq _ _) (proj2 (He a a) eq_refl)). reflexivity.
Qed.
Print Assumptions C98_unsorted_search_misses_refuted.

(** A qsort: insertion sort on integers. *)
Fixpoint put (x : Z) (l : list Z) : list Z := match l with [] => [x] | y :: r => if (x <=? y)%Z then x :: l else y :: put x r end.
Definition isort (l : list Z) : list Z := fold_right put [] l.
Lemma put_perm x l : Permutation (x :: l) (put x l).
Proof. induction l as [|y l IH]; cbn [put]; [constructor; constructor|]. destruct (x <=? y)%Z; [reflexivity|]. rewrite perm_swap, IH. reflexivity. Qed.
Lemma put_sorted x l : StronglySorted (fun a b => (zcmp a b <= 0)%Z) l -> StronglySorted (fun a b => (zcmp a b <= 0)%Z) (put x l).
Proof.
  induction 1 as [|y l HS IH HF]; cbn [put]; [repeat constructor|]. destruct (Z.leb_spec x y).
  - constructor; [constructor; assumption|]. constructor; [unfold zcmp; lia|]. eapply Forall_impl; [|exact HF]. intros a Ha. cbv beta in *. unfold zcmp in *. lia.
  - constructor; [exact IH|]. apply (Permutation_Forall (put_perm x l)). constructor; [unfold zcmp; lia|exact HF].
Qed.
Lemma isort_sorts : sorting zcmp isort.
Proof.
  intros l. unfold isort, arranged. induction l as [|x l [IP IS]]; cbn [fold_right]; [split; constructor|].
  split; [rewrite <- put_perm; constructor; exact IP|apply put_sorted; exact IS].
Qed.
Lemma zcmp_weak : weak_order zcmp. Proof. unfold weak_order, zcmp. split; intros; lia. Qed.
Example C98_example :
  weak_order zcmp /\ sorting zcmp isort /\
  sort_ok zcmp [] [XOp (LAppend 7%Z); XOp (LAppend 3%Z); XOp (LAppend 5%Z); XFindSorted 7%Z; XSort; XFindSorted 7%Z; XOp (LAppend 1%Z); XFindSorted 4%Z; XOp LPop] /\
  (let! al := array_list_init 1 in let! r := xrun zcmp isort al [XOp (LAppend 7%Z); XOp (LAppend 3%Z); XOp (LAppend 5%Z); XFindSorted 7%Z; XSort; XFindSorted 7%Z; XOp (LAppend 1%Z); XFindSorted 4%Z; XOp LPop] in
   Ok (firstn (al_size (fst r)) (al_data (fst r)), snd r)) =
  Ok ([Some 3; Some 5; Some 7]%Z, [(1, None); (1, None); (1, None); (-1, None); (0, None); (2, None); (1, None); (-1, None); (1, Some 1)]%Z).
Proof. split; [exact zcmp_weak|]. split; [exact isort_sorts|]. split; [cbn; intuition|vm_compute; reflexivity]. Qed.
Example C98_refuted_example : total_order zcmp /\ before zcmp 1%Z 2%Z. Proof. split; [exact zcmp_total_order|unfold before, zcmp; lia]. Qed.
