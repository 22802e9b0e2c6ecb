(** The containers of ModelConcrete.v hold the sequences of ModelHier.v. *)
From Coq Require Import Sorted.
From Verif Require Import Base F64 ListFacts SpecSeq ModelArrayList ProofArrayList ModelUtils ModelMst ModelGraph ModelConcrete.
From Verif Require ModelCluster ModelHier ProofSets.
From Coq Require Import ZifyBool ZifyNat.
Local Open Scope nat_scope.

(** ** The comparison *)
Definition small (x : nat) : Prop := (Z.of_nat x < 2147483648)%Z.
Definition ncmp (a b : nat) : Z := int_compare (Z.of_nat a) (Z.of_nat b).

Lemma vcmp_small a b : small a -> small b -> vcmp a b = ncmp a b.
Proof.
  unfold small, vcmp, ncmp, int_compare_u32. intros Ha Hb.
  assert (E : forall x, (Z.of_nat x < 2147483648)%Z -> i32_of_u32 (Z.of_nat x) = Z.of_nat x).
  { intros x Hx. unfold i32_of_u32. destruct (Z.ltb_spec (Z.of_nat x) 2147483648); lia. }
  rewrite (E a Ha), (E b Hb). reflexivity.
Qed.
Lemma ncmp_total : total_order ncmp.
Proof.
  unfold total_order, ncmp, int_compare. repeat split; intros; repeat match goal with |- context [if ?b then _ else _] => destruct b eqn:? | H : context [if ?b then _ else _] |- _ => destruct b eqn:? end; lia.
Qed.
Lemma before_lt a b : before ncmp a b <-> a < b.
Proof.
  unfold before, ncmp, int_compare. destruct (Z.of_nat a >? Z.of_nat b)%Z eqn:E; [lia|]. destruct (Z.of_nat a =? Z.of_nat b)%Z eqn:E2; lia.
Qed.
Lemma sorted_before l : StronglySorted lt l <-> StronglySorted (before ncmp) l.
Proof.
  split; intros H; induction H as [|x l Hs IH Hf]; constructor; auto; eapply Forall_impl; [|exact Hf| |exact Hf]; intros a; apply before_lt.
Qed.

(** Searches depend on the comparisons with stored elements only. *)
Lemma set_search_ext (c1 c2 : nat -> nat -> Z) d x N : (forall i a, i < N -> slot d i = Ok a -> c1 a x = c2 a x) ->
  forall fuel low high, low < high <= N -> set_search c1 fuel d low high x = set_search c2 fuel d low high x.
Proof.
  intros H. induction fuel as [|f IH]; intros low high Hb; [reflexivity|]. cbn [set_search].
  assert (Hq : (high - low) / 2 < high - low) by (apply Nat.div_lt; lia).
  destruct (slot d (low + (high - low) / 2)) as [a| | |] eqn:E; try reflexivity. cbn [bind].
  rewrite (H (low + (high - low) / 2) a ltac:(lia) E).
  destruct (c2 a x <? 0)%Z.
  - destruct (Nat.ltb_spec (low + (high - low) / 2 + 1) high); [apply IH; lia|reflexivity].
  - destruct (c2 a x >? 0)%Z; [|reflexivity]. destruct (Nat.ltb_spec low (low + (high - low) / 2)); [apply IH; lia|reflexivity].
Qed.
Lemma binary_search_ext (c1 c2 : nat -> nat -> Z) d x N : (forall i a, i < N -> slot d i = Ok a -> c1 a x = c2 a x) ->
  forall fuel lo hi, (0 <= lo)%Z -> (hi < Z.of_nat N)%Z -> binary_search c1 fuel d lo hi x = binary_search c2 fuel d lo hi x.
Proof.
  intros H. induction fuel as [|f IH]; intros lo hi H0 Hb; [reflexivity|]. cbn [binary_search].
  destruct (Z.leb_spec lo hi) as [Hl|]; [|reflexivity].
  assert (Hq : (0 <= Z.quot (hi - lo) 2 <= hi - lo)%Z) by lia.
  set (mid := (lo + Z.quot (hi - lo) 2)%Z) in *. destruct (Z.ltb_spec mid 0); [reflexivity|].
  destruct (slot d (Z.to_nat mid)) as [a| | |] eqn:E; try reflexivity. cbn [bind].
  rewrite (H (Z.to_nat mid) a ltac:(lia) E). destruct (c2 a x =? 0)%Z; [reflexivity|]. destruct (c2 a x >? 0)%Z; apply IH; lia.
Qed.
Lemma unordered_search_ext (c1 c2 : nat -> nat -> Z) d x N : (forall i a, i < N -> slot d i = Ok a -> c1 a x = c2 a x) ->
  forall n i, i + n <= N -> unordered_search_from c1 d x i n = unordered_search_from c2 d x i n.
Proof.
  intros H. induction n as [|n IH]; intros i Hb; [reflexivity|]. cbn [unordered_search_from].
  destruct (slot d i) as [a| | |] eqn:E; try reflexivity. cbn [bind]. rewrite (H i a ltac:(lia) E).
  destruct (c2 a x =? 0)%Z; [reflexivity|apply IH; lia].
Qed.

Definition lvec (v : vec) (l : list nat) : Prop := rep v l /\ Forall small l.
Definition svec (v : vec) (l : list nat) : Prop := lvec v l /\ StronglySorted lt l.

Lemma rep_slot {A} (v : alist A) l i a : rep v l -> i < al_size v -> slot (al_data v) i = Ok a -> nth_error l i = Some a.
Proof.
  intros (Hs & _ & _ & _ & Hn) Hi Hsl. destruct (nth_error l i) as [b|] eqn:E.
  - apply Hn in E. unfold slot in Hsl. rewrite E in Hsl. congruence.
  - apply nth_error_None in E. lia.
Qed.
Lemma stored v l x : lvec v l -> small x -> forall i a, i < al_size v -> slot (al_data v) i = Ok a -> vcmp a x = ncmp a x.
Proof.
  intros [R F] Hx i a Hi Hsl. apply vcmp_small; [|exact Hx]. rewrite Forall_forall in F. apply F. apply nth_error_In with i. exact (rep_slot v l i a R Hi Hsl).
Qed.
Lemma set_insert_vn v l x : lvec v l -> small x -> set_insert vcmp v x = set_insert ncmp v x.
Proof.
  intros H Hx. unfold ModelArrayList.set_insert. destruct (Nat.ltb_spec 0 (al_size v)); [|reflexivity].
  rewrite (set_search_ext vcmp ncmp (al_data v) x (al_size v)); [reflexivity|exact (stored v l x H Hx)|lia].
Qed.
Lemma set_find_vn v l x : lvec v l -> small x -> set_find vcmp v x = set_find ncmp v x.
Proof.
  intros H Hx. unfold set_find, array_list_find. cbn [Z.eqb]. apply binary_search_ext with (al_size v); [exact (stored v l x H Hx)|lia|lia].
Qed.
Lemma list_remove_vn v l x : lvec v l -> small x -> array_list_remove vcmp v x = array_list_remove ncmp v x.
Proof.
  intros H Hx. unfold array_list_remove, array_list_find, unordered_search. cbn [Z.eqb].
  rewrite (unordered_search_ext vcmp ncmp (al_data v) x (al_size v)); [reflexivity|exact (stored v l x H Hx)|lia].
Qed.

(** ** Operations *)
Lemma small_insert x l : small x -> Forall small l -> Forall small (snd (ModelCluster.set_insert x l)).
Proof.
  intros Hx. induction l as [|y l IH]; intros F; cbn [ModelCluster.set_insert]; [repeat constructor; exact Hx|].
  inversion F; subst. destruct (x <? y); [repeat constructor; auto|]. destruct (x =? y); [exact F|].
  destruct (ModelCluster.set_insert x l) as [b r] eqn:E. cbn [snd] in *. constructor; auto.
Qed.
Lemma sv_insert v l x : svec v l -> small x ->
  exists v', set_insert vcmp v x = Ok (v', if fst (ModelCluster.set_insert x l) then 1%Z else 0%Z) /\ svec v' (snd (ModelCluster.set_insert x l)).
Proof.
  intros [[R F] HS] Hx. rewrite (set_insert_vn v l x (conj R F) Hx).
  pose proof (ProofSets.set_insert_spec x l (fst (ModelCluster.set_insert x l)) (snd (ModelCluster.set_insert x l)) HS (surjective_pairing _)) as (H1 & H2 & H3 & H4 & H5).
  pose proof (small_insert x l Hx F) as H6.
  destruct (set_insert_ok ncmp ncmp_total v l x R (proj1 (sorted_before l) HS)) as [(v' & p & E & HP & R')|(E & Hin)].
  - exists v'. assert (Hb : fst (ModelCluster.set_insert x l) = true) by (apply H3; exact (ins_point_notin ncmp ncmp_total l x p HP)).
    rewrite E, Hb. split; [reflexivity|].
    assert (El : firstn p l ++ x :: skipn p l = snd (ModelCluster.set_insert x l)).
    { apply ProofSets.ssorted_ext; [|exact H1|].
      - apply sorted_before. apply (insert_sorted ncmp); [apply sorted_before; exact HS|exact HP].
      - intros y. rewrite in_insert, H2. tauto. }
    rewrite <- El in *. repeat split; assumption || apply R'.
  - exists v. assert (Hb : fst (ModelCluster.set_insert x l) = false).
    { destruct (fst (ModelCluster.set_insert x l)) eqn:Eb; [|reflexivity]. exfalso. apply (proj1 H3 eq_refl). exact Hin. }
    rewrite E, Hb. split; [reflexivity|]. rewrite (H5 Hb). exact (conj (conj R F) HS).
Qed.
Lemma sv_remove v l x : svec v l -> small x -> exists v' o, set_remove vcmp v x = Ok (v', o) /\ svec v' (ModelCluster.set_remove x l).
Proof.
  intros [[R F] HS] Hx. unfold ModelArrayList.set_remove. rewrite (set_find_vn v l x (conj R F) Hx).
  pose proof (ProofSets.set_remove_spec x l HS) as [H1 H2].
  assert (Hf : Forall small (ModelCluster.set_remove x l)). { rewrite Forall_forall in *. intros y Hy. apply F. apply H2. exact Hy. }
  pose proof (proj1 (sorted_before l) HS) as S'.
  destruct (set_find_ok ncmp ncmp_total v l x R S') as [(i & E & Hi)|(E & Hn)]; rewrite E; cbn [bind].
  - destruct (Z.ltb_spec (Z.of_nat i) 0); [lia|]. rewrite Nat2Z.id. unfold set_remove_at.
    destruct (remove_at_ok v l i x R Hi) as (v' & Er & R'). rewrite Er. exists v'. eexists. split; [reflexivity|].
    assert (El : firstn i l ++ skipn (S i) l = ModelCluster.set_remove x l).
    { apply ProofSets.ssorted_ext; [|exact H1|].
      - apply sorted_before. apply (delete_sorted ncmp). exact S'.
      - intros y. rewrite (in_delete ncmp ncmp_total l i x y S' Hi), H2. tauto. }
    rewrite <- El in *. exact (conj (conj R' Hf) H1).
  - cbn [Z.ltb Z.compare]. exists v. eexists. split; [reflexivity|].
    assert (El : ModelCluster.set_remove x l = l).
    { apply ProofSets.ssorted_ext; [exact H1|exact HS|]. intros y. rewrite H2. split; [tauto|]. intros Hy. split; [exact Hy|]. congruence. }
    rewrite El. exact (conj (conj R F) HS).
Qed.
Lemma sv_find v l x : svec v l -> small x -> exists z, set_find vcmp v x = Ok z /\ (-1 <? z)%Z = ModelCluster.set_mem x l.
Proof.
  intros [[R F] HS] Hx. rewrite (set_find_vn v l x (conj R F) Hx).
  destruct (set_find_ok ncmp ncmp_total v l x R (proj1 (sorted_before l) HS)) as [(i & E & Hi)|(E & Hn)]; rewrite E; eexists; (split; [reflexivity|]).
  - apply nth_error_In in Hi. apply ProofSets.set_mem_In in Hi. rewrite Hi. lia.
  - destruct (ModelCluster.set_mem x l) eqn:Em; [|reflexivity]. apply ProofSets.set_mem_In in Em. contradiction.
Qed.
Lemma sv_pop v l x r : svec v l -> ModelCluster.list_pop l = Ok (x, r) ->
  exists v', set_remove_at v (al_size v - 1) = Ok (v', (1%Z, Some x)) /\ svec v' r /\ small x.
Proof.
  intros [[R F] HS] E. assert (Hl : l = r ++ [x]).
  { unfold ModelCluster.list_pop in E. destruct (rev l) as [|y t] eqn:Er; [discriminate|]. injection E as -> <-. rewrite <- (rev_involutive l), Er. reflexivity. }
  subst l. pose proof R as (Hs & _). rewrite app_length in Hs. cbn [length] in Hs.
  destruct (remove_at_ok v (r ++ [x]) (al_size v - 1) x R) as (v' & Ev & R').
  { rewrite nth_error_app2 by lia. replace (al_size v - 1 - length r) with 0 by lia. reflexivity. }
  exists v'. split; [exact Ev|]. apply Forall_app in F. destruct F as [F1 F2]. apply ProofSets.ssorted_app in HS. inversion F2; subst.
  rewrite firstn_app, skipn_all2 in R' by (rewrite app_length; cbn [length]; lia).
  replace (al_size v - 1 - length r) with 0 in R' by lia. rewrite firstn_all2 in R' by lia. cbn [firstn] in R'. rewrite !app_nil_r in R'.
  split; [split; [split|]|]; tauto.
Qed.
Lemma lv_pop v l x r : lvec v l -> ModelCluster.list_pop l = Ok (x, r) ->
  exists v', array_list_pop v = Ok (v', (1%Z, Some x)) /\ lvec v' r /\ small x.
Proof.
  intros [R F] E. assert (Hl : l = r ++ [x]).
  { unfold ModelCluster.list_pop in E. destruct (rev l) as [|y t] eqn:Er; [discriminate|]. injection E as -> <-. rewrite <- (rev_involutive l), Er. reflexivity. }
  subst l. pose proof R as (Hs & Hd & Hm & Hl & Hn). rewrite app_length in Hs, Hl. cbn [length] in Hs, Hl.
  unfold array_list_pop, array_list_empty. destruct (Nat.eqb_spec (al_size v) 0); [lia|]. cbn [Z.eqb]. unfold array_list_value_at.
  destruct (Nat.leb_spec (al_size v) (al_size v - 1)); [lia|].
  rewrite (slot_rep v (r ++ [x]) (al_size v - 1) x R) by (rewrite nth_error_app2 by lia; replace (al_size v - 1 - length r) with 0 by lia; reflexivity).
  cbn [bind snd]. eexists. split; [reflexivity|]. apply Forall_app in F. destruct F as [F1 F2]. inversion F2; subst.
  split; [|assumption]. split; [|assumption]. unfold rep; cbn [al_size al_data al_max]. repeat split; try lia.
  intros i a Hi. apply Hn. rewrite nth_error_app1; [exact Hi|]. apply nth_error_Some. congruence.
Qed.
Lemma lv_append v l x : lvec v l -> small x -> exists v', array_list_append v x = Ok (v', 1%Z) /\ lvec v' (l ++ [x]).
Proof.
  intros [R F] Hx. destruct (append_ok v l x R) as (v' & E & R'). exists v'. split; [exact E|]. split; [exact R'|]. apply Forall_app. auto.
Qed.
Lemma lv_remove v l x : lvec v l -> small x -> exists v' o, array_list_remove vcmp v x = Ok (v', o) /\ lvec v' (remove_first x l).
Proof.
  intros H Hx. rewrite (list_remove_vn v l x H Hx). destruct H as [R F].
  destruct (lstep_ok ncmp v l (LRemove x) R I) as (v' & E & R'). cbn [lstep seq_step] in E, R'.
  exists v'. eexists. split; [exact E|].
  assert (El : fst (match index_of (eqv ncmp) l x with Some i => (firstn i l ++ skipn (S i) l, (1%Z, nth_error l i)) | None => (l, ((-1)%Z, None)) end) = remove_first x l).
  { clear. induction l as [|y l IH]; [reflexivity|]. cbn [index_of remove_first].
    assert (Eq : eqv ncmp y x = (x =? y)) by (unfold eqv, ncmp, int_compare; destruct (Z.of_nat y >? Z.of_nat x)%Z eqn:E1; [lia|]; destruct (Z.of_nat y =? Z.of_nat x)%Z eqn:E2; lia).
    rewrite Eq. destruct (x =? y); [reflexivity|]. destruct (index_of (eqv ncmp) l x) as [i|]; cbn [fst firstn skipn app] in *; rewrite <- IH; reflexivity. }
  rewrite El in R'. split; [exact R'|]. clear -F. induction F as [|y l Hy F IH]; cbn [remove_first]; [constructor|]. destruct (x =? y); [exact F|constructor; assumption].
Qed.
Lemma rep_reset {A} (v : alist A) l : rep v l -> rep (AL (al_data v) 0 (al_max v)) [].
Proof. intros (Hs & Hd & Hm & Hl & Hn). unfold rep; cbn. repeat split; try lia. intros [|i] a Hi; discriminate. Qed.
Lemma sv_nil v : rep v [] -> svec v [].
Proof. intros H. split; [split; [exact H|]|]; constructor. Qed.
Lemma lv_nil v : rep v [] -> lvec v [].
Proof. intros H. split; [exact H|]. constructor. Qed.
Lemma sv_size v l : svec v l -> al_size v = length l. Proof. intros [[(H & _) _] _]. exact H. Qed.
Lemma lv_size v l : lvec v l -> al_size v = length l. Proof. intros [(H & _) _]. exact H. Qed.

(** ** Loops over a container *)
Fixpoint rfold {T} (body : nat -> T -> res T) (l : list nat) (st : T) : res T :=
  match l with [] => Ok st | x :: r => let! st := body x st in rfold body r st end.
Lemma each_rfold {T} (body : nat -> T -> res T) v l st : rep v l -> each v body st = rfold body l st.
Proof.
  intros R. unfold each. pose proof R as (Hs & _). rewrite Hs.
  assert (H : forall pre : list nat, (forall i a, nth_error l i = Some a -> nth_error (al_data v) (length pre + i) = Some (Some a)) -> forall st,
    for_up (length pre) (length l) (fun i st => let! d := slot (al_data v) i in body d st) st = rfold body l st).
  { clear Hs R st. induction l as [|x l IH]; intros pre H st; [reflexivity|]. cbn [length for_up rfold].
    assert (E : slot (al_data v) (length pre) = Ok x). { unfold slot. specialize (H 0 x eq_refl). rewrite Nat.add_0_r in H. rewrite H. reflexivity. }
    rewrite E. cbn [bind]. destruct (body x st) as [st'| | |]; try reflexivity. cbn [bind].
    replace (S (length pre)) with (length (pre ++ [x])) by (rewrite app_length; cbn; lia). apply IH.
    intros i a Hi. specialize (H (S i) a Hi). rewrite app_length. cbn [length]. replace (length pre + 1 + i) with (length pre + S i) by lia. exact H. }
  apply (H []). intros i a Hi. destruct R as (_ & _ & _ & _ & Hn). apply Hn. exact Hi.
Qed.
Lemma rfold_sim {U T} (R : U -> T -> Prop) (body : nat -> U -> res U) (f : T -> nat -> T) l :
  (forall x st t, In x l -> R st t -> exists st', body x st = Ok st' /\ R st' (f t x)) ->
  forall st t, R st t -> exists st', rfold body l st = Ok st' /\ R st' (fold_left f l t).
Proof.
  induction l as [|x l IH]; intros H st t HR; [exists st; auto|]. cbn [rfold fold_left].
  destruct (H x st t (or_introl eq_refl) HR) as (st' & E & HR'). rewrite E. cbn [bind]. apply IH; [|exact HR'].
  intros y s u Hy. apply H. right. exact Hy.
Qed.
Lemma sv_insert_into v l x : svec v l -> small x -> exists v', insert_into x v = Ok v' /\ svec v' (snd (ModelCluster.set_insert x l)).
Proof. intros H Hx. unfold insert_into. destruct (sv_insert v l x H Hx) as (v' & E & H'). rewrite E. cbn [bind fst]. eauto. Qed.
Lemma sv_insert_all v l w k : svec v l -> lvec w k -> exists v', each w insert_into v = Ok v' /\ svec v' (ModelCluster.set_insert_all k l).
Proof.
  intros H [R F]. rewrite (each_rfold _ w k v R). unfold ModelCluster.set_insert_all. apply (rfold_sim svec); [|exact H].
  intros x st t Hx Hs. rewrite Forall_forall in F. apply sv_insert_into; [exact Hs|]. apply F. exact Hx.
Qed.
