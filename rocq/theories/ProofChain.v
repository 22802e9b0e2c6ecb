(** The linked list refines the chains of SpecChain.v. *)
From Coq Require Import Permutation.
From Verif Require Import Base ListFacts ModelCells ModelLinked SpecSeq SpecLinked CellFacts SpecChain.
From Coq Require Import ZifyBool ZifyNat.
Local Open Scope nat_scope.

Lemma last_case {A} (l : list A) : l = [] \/ exists l0 x, l = l0 ++ [x].
Proof.
  destruct l as [|y l]; [auto|right]. destruct (exists_last (l := y :: l)) as (l0 & x & E); [discriminate|eauto].
Qed.

Section Proofs.
Context {A : Type}.
Notation llist := (llist A).
Notation link := (nat * (A * bool))%type.

Lemma nodes_alloc (h : heap A) c : nodes (h ++ [Some c]) = S (nodes h).
Proof. unfold nodes. rewrite filter_app, app_length. cbn. lia. Qed.
Lemma nodes_upd (h : heap A) : forall a c0 c, nth_error h a = Some (Some c0) -> nodes (upd h a (Some c)) = nodes h.
Proof.
  unfold nodes. induction h as [|o h IH]; intros [|a] c0 c H; cbn in *; try discriminate.
  - inversion H; subst. reflexivity.
  - destruct o; cbn; rewrite (IH _ _ _ H); reflexivity.
Qed.
Lemma nodes_free (h : heap A) : forall a c0, nth_error h a = Some (Some c0) -> S (nodes (upd h a None)) = nodes h.
Proof.
  unfold nodes. induction h as [|o h IH]; intros [|a] c0 H; cbn in *; try discriminate.
  - inversion H; subst. reflexivity.
  - destruct o; cbn; rewrite <- (IH _ _ H); reflexivity.
Qed.

Definition fst_addr (cs : list link) (q : option nat) : option nat := match cs with [] => q | (a, _) :: _ => Some a end.
Fixpoint last_addr (pr : option nat) (cs : list link) : option nat := match cs with [] => pr | (a, _) :: t => last_addr (Some a) t end.

Fixpoint chained (h : heap A) (pr : option nat) (cs : list link) (q : option nat) : Prop :=
  match cs with
  | [] => True
  | (a, (v, b)) :: t => nth_error h a = Some (Some (Cell v (fst_addr t q) (if b then pr else None))) /\ chained h (Some a) t q
  end.

Lemma fst_addr_app l1 l2 q : fst_addr (l1 ++ l2) q = fst_addr l1 (fst_addr l2 q).
Proof. destruct l1 as [|[a v] t]; reflexivity. Qed.
Lemma last_addr_app l1 l2 : forall pr, last_addr pr (l1 ++ l2) = last_addr (last_addr pr l1) l2.
Proof. induction l1 as [|[a v] t IH]; intros pr; cbn; auto. Qed.

Lemma chained_app h l1 l2 q : forall pr, chained h pr (l1 ++ l2) q <-> chained h pr l1 (fst_addr l2 q) /\ chained h (last_addr pr l1) l2 q.
Proof.
  induction l1 as [|[a [v b]] t IH]; intros pr; cbn [app chained last_addr]; [tauto|]. rewrite IH, fst_addr_app. tauto.
Qed.

Lemma chained_ext h h' cs q : forall pr, (forall a, In a (map fst cs) -> nth_error h' a = nth_error h a) -> chained h pr cs q -> chained h' pr cs q.
Proof.
  induction cs as [|[a [v b]] t IH]; cbn; intros pr He H; auto. destruct H as [H1 H2].
  split; [rewrite He by auto; exact H1|]. apply IH; auto.
Qed.

Lemma chained_in h cs q a v b : forall pr, chained h pr cs q -> In (a, (v, b)) cs -> exists n p, nth_error h a = Some (Some (Cell v n p)).
Proof.
  induction cs as [|[c [w d]] t IH]; cbn; intros pr H Hin; [destruct Hin|]. destruct H as [H1 H2]. destruct Hin as [E|Hin].
  - inversion E; subst. eauto.
  - eapply IH; eauto.
Qed.

Lemma chained_lt h cs q a : forall pr, chained h pr cs q -> In a (map fst cs) -> a < length h.
Proof.
  intros pr H Hin. apply in_map_iff in Hin. destruct Hin as ((a' & (v & b)) & E & Hin). cbn in E. subst a'.
  destruct (chained_in _ _ _ _ _ _ _ H Hin) as (n & p & E). eapply some_lt; eauto.
Qed.

Definition plain (cs : list link) : list (nat * A) := map (fun c => (fst c, fst (snd c))) cs.
Lemma plain_first cs q : firstp (plain cs) q = fst_addr cs q.
Proof. destruct cs as [|[a [v b]] t]; reflexivity. Qed.
Lemma plain_nseg h cs q : forall pr, chained h pr cs q -> nseg h (plain cs) q.
Proof.
  induction cs as [|[a [v b]] t IH]; intros pr; cbn [chained plain map nseg fst snd]; [auto|]. intros [H1 H2].
  fold (plain t). rewrite plain_first. split; eauto.
Qed.
Lemma plain_addrs cs : map fst (plain cs) = map fst cs.
Proof. unfold plain. rewrite map_map. reflexivity. Qed.

(** *** Unhooking, cell by cell *)
Lemma unhook_cells (ll : llist) a x n p :
  (0 < ll_size ll)%Z ->
  nth_error (ll_heap ll) a = Some (Some (Cell x n p)) ->
  (forall b, p = Some b -> b <> a /\ exists y n' p', nth_error (ll_heap ll) b = Some (Some (Cell y n' p'))) ->
  (forall b, n = Some b -> b <> a /\ p <> Some b /\ exists y n' p', nth_error (ll_heap ll) b = Some (Some (Cell y n' p'))) ->
  exists h', linkedlist_node_unhook ll (Some a) =
      Ok (LL h' (ll_size ll - 1) (if is_null p then n else ll_head ll) (if is_null n then None else ll_tail ll)) /\
    length h' = length (ll_heap ll) /\ nodes h' = nodes (ll_heap ll) /\
    nth_error h' a = Some (Some (Cell x None None)) /\
    (forall b y n' p', p = Some b -> nth_error (ll_heap ll) b = Some (Some (Cell y n' p')) -> nth_error h' b = Some (Some (Cell y n p'))) /\
    (forall b y n' p', n = Some b -> nth_error (ll_heap ll) b = Some (Some (Cell y n' p')) -> nth_error h' b = Some (Some (Cell y n' None))) /\
    (forall b, b <> a -> p <> Some b -> n <> Some b -> nth_error h' b = nth_error (ll_heap ll) b).
Proof.
  intros Hz Ha Hp Hn. set (h := ll_heap ll) in *.
  assert (La : a < length h) by (eapply some_lt; eauto).
  unfold linkedlist_node_unhook. cbn [is_null orb]. destruct (Z.eqb_spec (ll_size ll) 0) as [E0|_]; [lia|].
  fold h. rewrite (hload_eq _ _ _ Ha). cbn [bind c_prev c_next c_val].
  destruct p as [b|]; cbn [is_null negb].
  - destruct (Hp b eq_refl) as (Nb & y & n' & p' & Eb).
    assert (Lb : b < length h) by (eapply some_lt; eauto).
    rewrite (set_next_eq _ _ _ _ _ n Eb). cbn [bind].
    set (h1 := upd h b (Some (Cell y n p'))).
    assert (E1 : nth_error h1 a = Some (Some (Cell x n (Some b)))) by (unfold h1; rewrite nth_error_upd_neq by auto; exact Ha).
    rewrite (set_prev_eq _ _ _ _ _ None E1). cbn [bind ll_heap ll_size ll_head ll_tail].
    set (h2 := upd h1 a (Some (Cell x n None))).
    assert (L1 : length h1 = length h) by (unfold h1; apply upd_length).
    assert (L2 : length h2 = length h) by (unfold h2; rewrite upd_length; exact L1).
    assert (E2 : nth_error h2 a = Some (Some (Cell x n None))) by (unfold h2; rewrite nth_error_upd_eq by lia; reflexivity).
    assert (V1 : nodes h1 = nodes h) by (unfold h1; eapply nodes_upd; eauto).
    assert (V2 : nodes h2 = nodes h) by (unfold h2; erewrite nodes_upd by eauto; exact V1).
    rewrite (hload_eq _ _ _ E2). cbn [bind c_next c_prev].
    destruct n as [c|]; cbn [is_null negb].
    + destruct (Hn c eq_refl) as (Nc & Nbc & z & n2 & p2 & Ec).
      assert (Hbc : b <> c) by congruence.
      assert (Lc : c < length h) by (eapply some_lt; eauto).
      assert (E3 : nth_error h2 c = Some (Some (Cell z n2 p2))).
      { unfold h2, h1. rewrite !nth_error_upd_neq by auto. exact Ec. }
      rewrite (set_prev_eq _ _ _ _ _ None E3). cbn [bind].
      set (h3 := upd h2 c (Some (Cell z n2 None))).
      assert (E4 : nth_error h3 a = Some (Some (Cell x (Some c) None))) by (unfold h3; rewrite nth_error_upd_neq by auto; exact E2).
      rewrite (set_next_eq _ _ _ _ _ None E4). cbn [bind ll_heap ll_size ll_head ll_tail].
      set (h4 := upd h3 a (Some (Cell x None None))).
      assert (L3 : length h3 = length h) by (unfold h3; rewrite upd_length; exact L2).
      assert (L4 : length h4 = length h) by (unfold h4; rewrite upd_length; exact L3).
      assert (E5 : nth_error h4 a = Some (Some (Cell x None None))) by (unfold h4; rewrite nth_error_upd_eq by lia; reflexivity).
      assert (V3 : nodes h3 = nodes h) by (unfold h3; erewrite nodes_upd by eauto; exact V2).
      assert (V4 : nodes h4 = nodes h) by (unfold h4; erewrite nodes_upd by eauto; exact V3).
      exists h4. split; [reflexivity|]. split; [exact L4|]. split; [exact V4|]. split; [exact E5|]. split; [|split].
      * intros b0 y0 n0 p0 E0 Eb0. inversion E0; subst b0. rewrite Eb in Eb0. inversion Eb0; subst.
        unfold h4, h3, h2, h1. rewrite !nth_error_upd_neq by auto. rewrite nth_error_upd_eq by lia. reflexivity.
      * intros b0 y0 n0 p0 E0 Eb0. inversion E0; subst b0. rewrite Ec in Eb0. inversion Eb0; subst.
        unfold h4, h3. rewrite !nth_error_upd_neq by auto. rewrite nth_error_upd_eq by lia. reflexivity.
      * intros b0 N1 N2 N3. unfold h4, h3, h2, h1. rewrite !nth_error_upd_neq by congruence. reflexivity.
    + cbn [bind ll_heap ll_size ll_head ll_tail]. exists h2. split; [reflexivity|]. split; [exact L2|]. split; [exact V2|]. split; [exact E2|]. split; [|split].
      * intros b0 y0 n0 p0 E0 Eb0. inversion E0; subst b0. rewrite Eb in Eb0. inversion Eb0; subst.
        unfold h2, h1. rewrite !nth_error_upd_neq by auto. rewrite nth_error_upd_eq by lia. reflexivity.
      * intros b0 y0 n0 p0 E0. discriminate.
      * intros b0 N1 N2 N3. unfold h2, h1. rewrite !nth_error_upd_neq by congruence. reflexivity.
  - destruct n as [c|]; cbn [is_null negb].
    + destruct (Hn c eq_refl) as (Nc & _ & z & n2 & p2 & Ec).
      assert (Lc : c < length h) by (eapply some_lt; eauto).
      rewrite (set_prev_eq _ _ _ _ _ None Ec). cbn [bind ll_heap ll_size ll_head ll_tail].
      set (h1 := upd h c (Some (Cell z n2 None))).
      assert (E1 : nth_error h1 a = Some (Some (Cell x (Some c) None))) by (unfold h1; rewrite nth_error_upd_neq by auto; exact Ha).
      rewrite (hload_eq _ _ _ E1). cbn [bind c_next c_prev is_null negb].
      assert (L1 : length h1 = length h) by (unfold h1; apply upd_length).
      assert (E2 : nth_error h1 c = Some (Some (Cell z n2 None))) by (unfold h1; rewrite nth_error_upd_eq by lia; reflexivity).
      rewrite (set_prev_eq _ _ _ _ _ None E2). cbn [bind].
      set (h2 := upd h1 c (Some (Cell z n2 None))).
      assert (E3 : nth_error h2 a = Some (Some (Cell x (Some c) None))) by (unfold h2; rewrite nth_error_upd_neq by auto; exact E1).
      rewrite (set_next_eq _ _ _ _ _ None E3). cbn [bind ll_heap ll_size ll_head ll_tail].
      set (h3 := upd h2 a (Some (Cell x None None))).
      assert (L2 : length h2 = length h) by (unfold h2; rewrite upd_length; exact L1).
      assert (L3 : length h3 = length h) by (unfold h3; rewrite upd_length; exact L2).
      assert (E4 : nth_error h3 a = Some (Some (Cell x None None))) by (unfold h3; rewrite nth_error_upd_eq by lia; reflexivity).
      assert (V1 : nodes h1 = nodes h) by (unfold h1; eapply nodes_upd; eauto).
      assert (V2 : nodes h2 = nodes h) by (unfold h2; erewrite nodes_upd by eauto; exact V1).
      assert (V3 : nodes h3 = nodes h) by (unfold h3; erewrite nodes_upd by eauto; exact V2).
      exists h3. split; [reflexivity|]. split; [exact L3|]. split; [exact V3|]. split; [exact E4|]. split; [|split].
      * intros b0 y0 n0 p0 E0. discriminate.
      * intros b0 y0 n0 p0 E0 Eb0. inversion E0; subst b0. rewrite Ec in Eb0. inversion Eb0; subst.
        unfold h3, h2. rewrite !nth_error_upd_neq by auto. rewrite nth_error_upd_eq by lia. reflexivity.
      * intros b0 N1 N2 N3. unfold h3, h2, h1. rewrite !nth_error_upd_neq by congruence. reflexivity.
    + cbn [bind ll_heap ll_size ll_head ll_tail]. rewrite (hload_eq _ _ _ Ha). cbn [bind c_next c_prev is_null negb ll_heap ll_size ll_head ll_tail].
      exists h. split; [reflexivity|]. split; [reflexivity|]. split; [reflexivity|]. split; [exact Ha|]. split; [|split].
      * intros b0 y0 n0 p0 E0. discriminate.
      * intros b0 y0 n0 p0 E0. discriminate.
      * intros b0 N1 N2 N3. reflexivity.
Qed.

(** *** Representation *)
Definition crep_at (ll : llist) (cs : list link) (s : chain A) : Prop :=
  map snd cs = items s /\ NoDup (map fst cs) /\ chained (ll_heap ll) None cs None /\
  ll_head ll = fst_addr cs None /\ ll_tail ll = (if tail_known s then last_addr None cs else None) /\
  ll_size ll = Z.of_nat (count s) /\ nodes (ll_heap ll) = count s + taken s.
Definition crep (ll : llist) (s : chain A) : Prop := exists cs, crep_at ll cs s.

Lemma crep_init : crep linkedlist_init (empty_chain).
Proof. exists []. repeat split; auto. constructor. Qed.

Lemma crep_len ll cs s : crep_at ll cs s -> length cs = length (items s).
Proof. intros (E & _). rewrite <- E, map_length. reflexivity. Qed.

Lemma front_chain ll s x : crep ll s ->
  match chain_step (fun _ _ => false) s (DFront x) with
  | Some (s', out) => exists ll', linkedlist_front_add ll x = Ok (ll', fst out) /\ crep ll' s' /\ snd out = None
  | None => linkedlist_front_add ll x = UB
  end.
Proof.
  intros (cs & HR). pose proof (crep_len _ _ _ HR) as HL. destruct HR as (Hi & Hd & Hc & Hh & Ht & Hz & Hn).
  assert (Hfresh : ~ In (length (ll_heap ll)) (map fst cs)) by (intros H; apply (chained_lt _ _ _ _ _ Hc) in H; lia).
  cbn [chain_step]. unfold linkedlist_front_add, halloc. unfold count in *.
  destruct cs as [|[b [w d]] t].
  - cbn [map] in Hi. rewrite <- Hi in *. cbn [length] in *. destruct (lost s) as [|k] eqn:El.
    + rewrite Hz. cbn [Z.of_nat Nat.add Z.gtb Z.compare]. eexists. split; [reflexivity|]. split; [|reflexivity].
      exists [(length (ll_heap ll), (x, false))]. unfold crep_at. cbn -[nodes]. split; [reflexivity|]. split; [repeat constructor; auto|].
      split; [split; auto; rewrite nth_error_app2, Nat.sub_diag by lia; reflexivity|]. repeat split; auto.
      rewrite nodes_alloc. lia.
    + destruct (Z.gtb_spec (ll_size ll) 0) as [Hgt|Hle]; [|lia]. rewrite Hh. reflexivity.
  - cbn [map snd] in Hi. destruct (items s) as [|[w' d'] l'] eqn:Ei; [discriminate|]. injection Hi as -> -> Hi.
    destruct (Z.gtb_spec (ll_size ll) 0) as [Hgt|Hle]; [|cbn [length] in *; lia].
    rewrite Hh. cbn [fst_addr]. cbn [chained] in Hc. destruct Hc as [Hb Hc].
    assert (Lb : b < length (ll_heap ll)) by (eapply some_lt; eauto).
    set (h1 := ll_heap ll ++ [Some (Cell x None None)]).
    assert (O1 : forall a, a < length (ll_heap ll) -> nth_error h1 a = nth_error (ll_heap ll) a) by (intros a Ha; apply nth_error_app1; exact Ha).
    assert (E1 : nth_error h1 b = Some (Some (Cell w' (fst_addr t None) (if d' then None else None)))) by (rewrite O1 by exact Lb; exact Hb).
    rewrite (set_prev_eq _ _ _ _ _ (Some (length (ll_heap ll))) E1). cbn [bind].
    set (h2 := upd h1 b _).
    assert (L1 : length h1 = S (length (ll_heap ll))) by (unfold h1; rewrite app_length; cbn; lia).
    assert (E2 : nth_error h2 (length (ll_heap ll)) = Some (Some (Cell x None None))).
    { unfold h2. rewrite nth_error_upd_neq by lia. unfold h1. rewrite nth_error_app2, Nat.sub_diag by lia. reflexivity. }
    rewrite (set_next_eq _ _ _ _ _ (Some b) E2). cbn [bind fst snd].
    eexists. split; [reflexivity|]. split; [|reflexivity].
    exists ((length (ll_heap ll), (x, false)) :: (b, (w', true)) :: t). unfold crep_at. cbn [ll_heap ll_size ll_head ll_tail items tail_known lost taken].
    split; [cbn; rewrite Hi; reflexivity|]. split; [constructor; [exact Hfresh|exact Hd]|].
    inversion Hd as [|? ? Hnb Hdt]; subst.
    split; [|split; [reflexivity|]].
    + cbn [chained fst_addr]. split; [rewrite nth_error_upd_eq; [reflexivity|unfold h2; rewrite upd_length; lia]|].
      split.
      * rewrite nth_error_upd_neq by lia. unfold h2. rewrite nth_error_upd_eq by lia. reflexivity.
      * apply (chained_ext (ll_heap ll)); [|exact Hc]. intros a Ha.
        assert (La : a < length (ll_heap ll)) by (eapply chained_lt; eauto).
        rewrite nth_error_upd_neq by lia. unfold h2. rewrite nth_error_upd_neq by (intros ->; contradiction). apply O1. exact La.
    + split; [rewrite Ht; reflexivity|]. unfold count. cbn [items lost taken know_prev length] in *. split; [lia|].
      erewrite nodes_upd by exact E2. unfold h2. erewrite nodes_upd by exact E1. unfold h1. rewrite nodes_alloc. lia.
Qed.

Lemma tail_chain ll s x : crep ll s ->
  match chain_step (fun _ _ => false) s (DTail x) with
  | Some (s', out) => exists ll', linkedlist_tail_add ll x = Ok (ll', fst out) /\ crep ll' s' /\ snd out = None
  | None => linkedlist_tail_add ll x = UB
  end.
Proof.
  intros (cs & HR). pose proof (crep_len _ _ _ HR) as HL. destruct HR as (Hi & Hd & Hc & Hh & Ht & Hz & Hn).
  assert (Hfresh : ~ In (length (ll_heap ll)) (map fst cs)) by (intros H; apply (chained_lt _ _ _ _ _ Hc) in H; lia).
  cbn [chain_step]. unfold linkedlist_tail_add, halloc. unfold count in *.
  destruct (last_case cs) as [->|(l & (b & (w & d)) & ->)].
  - cbn [map] in Hi. rewrite <- Hi in *. cbn [length] in *. destruct (lost s) as [|k] eqn:El.
    + rewrite Hz. cbn [Z.of_nat Nat.add Z.gtb Z.compare]. eexists. split; [reflexivity|]. split; [|reflexivity].
      exists [(length (ll_heap ll), (x, false))]. unfold crep_at. cbn -[nodes]. split; [reflexivity|]. split; [repeat constructor; auto|].
      split; [split; auto; rewrite nth_error_app2, Nat.sub_diag by lia; reflexivity|]. repeat split; auto.
      rewrite nodes_alloc. lia.
    + destruct (Z.gtb_spec (ll_size ll) 0) as [Hgt|Hle]; [|lia]. rewrite Ht. cbn. destruct (tail_known s); reflexivity.
  - rewrite app_length in HL. cbn [length] in HL. destruct (Z.gtb_spec (ll_size ll) 0) as [Hgt|Hle]; [|lia].
    destruct (items s) as [|i0 l0] eqn:Ei; [cbn in HL; lia|]. rewrite <- Ei in *. clear i0 l0 Ei. rewrite Ht.
    destruct (tail_known s); [|reflexivity].
    rewrite last_addr_app. cbn [last_addr]. apply chained_app in Hc. cbn [chained fst_addr] in Hc. destruct Hc as (C1 & Hb & _).
    assert (Lb : b < length (ll_heap ll)) by (eapply some_lt; eauto).
    set (h1 := ll_heap ll ++ [Some (Cell x None None)]).
    assert (O1 : forall a, a < length (ll_heap ll) -> nth_error h1 a = nth_error (ll_heap ll) a) by (intros a Ha; apply nth_error_app1; exact Ha).
    pose proof Hb as E1. rewrite <- O1 in E1 by exact Lb.
    rewrite (set_next_eq _ _ _ _ _ (Some (length (ll_heap ll))) E1). cbn [bind].
    set (h2 := upd h1 b _).
    assert (L1 : length h1 = S (length (ll_heap ll))) by (unfold h1; rewrite app_length; cbn; lia).
    assert (E2 : nth_error h2 (length (ll_heap ll)) = Some (Some (Cell x None None))).
    { unfold h2. rewrite nth_error_upd_neq by lia. unfold h1. rewrite nth_error_app2, Nat.sub_diag by lia. reflexivity. }
    rewrite (set_prev_eq _ _ _ _ _ (Some b) E2). cbn [bind fst snd].
    eexists. split; [reflexivity|]. split; [|reflexivity].
    exists ((l ++ [(b, (w, d))]) ++ [(length (ll_heap ll), (x, true))]). unfold crep_at. cbn [ll_heap ll_size ll_head ll_tail items tail_known lost taken].
    split; [rewrite map_app, Hi; reflexivity|].
    split. { rewrite map_app. cbn [map fst]. apply NoDup_Add with (a := length (ll_heap ll)) (l := map fst (l ++ [(b, (w, d))])); [|split; auto].
      rewrite <- (app_nil_r (map fst (l ++ [(b, (w, d))]))) at 1. apply Add_app. }
    rewrite map_app in Hd. cbn [map fst] in Hd. apply NoDup_remove_2 in Hd. rewrite app_nil_r in Hd.
    split.
    + rewrite !chained_app. cbn [chained fst_addr]. split; [split|].
      * apply (chained_ext (ll_heap ll)); [|exact C1]. intros a Ha.
        assert (La : a < length (ll_heap ll)) by (eapply chained_lt; eauto).
        rewrite nth_error_upd_neq by lia. unfold h2. rewrite nth_error_upd_neq by (intros ->; contradiction). apply O1. exact La.
      * split; [|exact I]. rewrite nth_error_upd_neq by lia. unfold h2. rewrite nth_error_upd_eq by lia. reflexivity.
      * split; [|exact I]. rewrite last_addr_app. cbn [last_addr]. rewrite nth_error_upd_eq; [reflexivity|]. unfold h2. rewrite upd_length. lia.
    + split; [rewrite Hh; destruct l as [|[? ?] ?]; reflexivity|]. split; [rewrite last_addr_app; reflexivity|].
      unfold count. cbn [items lost taken]. rewrite app_length. cbn [length]. split; [lia|].
      erewrite nodes_upd by exact E2. unfold h2. erewrite nodes_upd by exact E1. unfold h1. rewrite nodes_alloc. lia.
Qed.

Definition forget_link (cs : list link) : list link := match cs with [] => [] | (a, (v, _)) :: t => (a, (v, false)) :: t end.
Lemma forget_snd cs : map snd (forget_link cs) = forget_prev (map snd cs).
Proof. destruct cs as [|[a [v b]] t]; reflexivity. Qed.
Lemma forget_fst cs : map fst (forget_link cs) = map fst cs.
Proof. destruct cs as [|[a [v b]] t]; reflexivity. Qed.
Lemma forget_addr cs q : fst_addr (forget_link cs) q = fst_addr cs q.
Proof. destruct cs as [|[a [v b]] t]; reflexivity. Qed.
Lemma forget_last cs : forall pr, last_addr pr (forget_link cs) = last_addr pr cs.
Proof. intros pr. destruct cs as [|[a [v b]] t]; reflexivity. Qed.
Lemma forget_length (l : list (A * bool)) : length (forget_prev l) = length l.
Proof. destruct l as [|[v b] t]; reflexivity. Qed.

Lemma fst_in cs a : fst_addr cs None = Some a -> In a (map fst cs).
Proof. destruct cs as [|[c v] t]; cbn; [discriminate|]. intros E. injection E as <-. auto. Qed.
Lemma last_in cs a : forall pr, last_addr pr cs = Some a -> pr = Some a \/ In a (map fst cs).
Proof.
  induction cs as [|[c v] t IH]; cbn; intros pr E; [auto|]. destruct (IH _ E) as [H|H]; [injection H as <-; auto|auto].
Qed.
Lemma in_links (cs : list link) a : In a (map fst cs) -> exists v b, In (a, (v, b)) cs.
Proof. intros H. apply in_map_iff in H. destruct H as ((a' & (v & b)) & E & H). cbn in E. subst a'. eauto. Qed.

Lemma count_unchain (s : chain A) l1 x l2 n : items s = l1 ++ x :: l2 -> S (count (unchain s (length l1) n)) = count s.
Proof.
  intros E. unfold unchain, count. rewrite E, nth_error_app2, Nat.sub_diag by lia. cbn [nth_error].
  rewrite firstn_app, Nat.sub_diag, firstn_all, firstn_O, app_nil_r.
  replace (skipn (S (length l1)) (l1 ++ x :: l2)) with l2 by (rewrite skipn_app, skipn_all2 by lia; replace (S (length l1) - length l1) with 1 by lia; reflexivity).
  destruct x as [v [|]]; cbn [items lost]; rewrite ?app_length, ?forget_length; cbn [length]; lia.
Qed.

Lemma unhook_chain ll l1 a v b l2 s :
  crep_at ll (l1 ++ (a, (v, b)) :: l2) s ->
  exists ll' cs', linkedlist_node_unhook ll (Some a) = Ok ll' /\
    nth_error (ll_heap ll') a = Some (Some (Cell v None None)) /\ ~ In a (map fst cs') /\
    length (ll_heap ll') = length (ll_heap ll) /\
    (l1 = [] -> cs' = forget_link l2) /\
    crep_at ll' cs' (unchain s (length l1) 1).
Proof.
  intros (Hi & Hd & Hc & Hh & Ht & Hz & Hn).
  rewrite map_app in Hd. cbn [map fst] in Hd.
  pose proof (NoDup_remove_1 _ _ _ Hd) as Hd12. pose proof (NoDup_remove_2 _ _ _ Hd) as Hna.
  assert (Hna1 : ~ In a (map fst l1)) by (intros H; apply Hna; rewrite in_app_iff; auto).
  assert (Hna2 : ~ In a (map fst l2)) by (intros H; apply Hna; rewrite in_app_iff; auto).
  assert (H12 : forall c, In c (map fst l1) -> ~ In c (map fst l2)).
  { intros c H1 H2. clear - Hd12 H1 H2. induction l1 as [|[e y] l IH]; [destruct H1|]. cbn in *. inversion Hd12; subst.
    destruct H1 as [->|H1]; [apply H3; rewrite in_app_iff; auto|auto]. }
  pose proof Hc as Hall. apply chained_app in Hc. cbn [fst_addr chained] in Hc. destruct Hc as (C1 & Ca & C2).
  rewrite map_app in Hi. cbn [map snd] in Hi.
  assert (Hcnt : 0 < count s) by (unfold count; rewrite <- Hi, app_length; cbn; lia).
  pose proof (count_unchain s (map snd l1) (v, b) (map snd l2) 1 (eq_sym Hi)) as Hcu. rewrite map_length in Hcu.
  set (p := if b then last_addr None l1 else None) in *. set (n := fst_addr l2 None) in *.
  destruct (unhook_cells ll a v n p ltac:(lia) Ca) as (h' & E & L & V & Ea & Ep & En & Eo).
  { intros c Ec. unfold p in Ec. destruct b; [|discriminate]. apply last_in in Ec. destruct Ec as [Ec|Ec]; [discriminate|].
    split; [intros ->; contradiction|]. destruct (in_links _ _ Ec) as (y & d & Hy).
    destruct (chained_in _ _ _ _ _ _ _ C1 Hy) as (n' & p' & Hn'). eauto. }
  { intros c Ec. unfold n in Ec. pose proof (fst_in _ _ Ec) as Hin. split; [intros ->; contradiction|]. split.
    - unfold p. destruct b; [|discriminate]. intros Ep. apply last_in in Ep. destruct Ep as [Ep|Ep]; [discriminate|]. exact (H12 _ Ep Hin).
    - destruct (in_links _ _ Hin) as (y & d & Hy). destruct (chained_in _ _ _ _ _ _ _ C2 Hy) as (n' & p' & Hn'). eauto. }
  (* the part behind *)
  assert (C2' : forall pr, chained h' pr (forget_link l2) None).
  { intros pr. destruct l2 as [|[c [w e]] t]; [exact I|]. cbn [forget_link chained] in *. destruct C2 as [Cc Ct]. split.
    - rewrite (En c w _ _ eq_refl Cc). reflexivity.
    - apply (chained_ext (ll_heap ll)); [|exact Ct]. intros f Hf. apply Eo.
      + intros ->. apply Hna2. cbn. auto.
      + unfold p. destruct b; [|discriminate]. intros Ef. apply last_in in Ef. destruct Ef as [Ef|Ef]; [discriminate|]. apply (H12 _ Ef). cbn. auto.
      + unfold n. cbn. intros Ef. injection Ef as ->. rewrite map_app in Hd12 || idtac.
        apply NoDup_remove_2 in Hd12. apply Hd12. rewrite in_app_iff. auto. }
  assert (Hitem : nth_error (items s) (length l1) = Some (v, b)).
  { rewrite <- Hi, nth_error_app2 by (rewrite map_length; lia). rewrite map_length, Nat.sub_diag. reflexivity. }
  assert (Hbeh : skipn (S (length l1)) (items s) = map snd l2).
  { rewrite <- Hi, skipn_app, skipn_all2 by (rewrite map_length; lia). rewrite map_length. replace (S (length l1) - length l1) with 1 by lia. reflexivity. }
  assert (Hfront : firstn (length l1) (items s) = map snd l1).
  { rewrite <- Hi, firstn_app, map_length, Nat.sub_diag, firstn_O, app_nil_r. apply firstn_all2. rewrite map_length. lia. }
  assert (Htail : (if is_null n then None else ll_tail ll) =
     (if match map snd l2 with [] => false | _ => tail_known s end then last_addr None (forget_link l2) else None)).
  { unfold n. rewrite Ht. destruct l2 as [|[c [w e]] t]; [reflexivity|]. cbn [fst_addr is_null map snd].
    destruct (tail_known s); [|reflexivity]. rewrite last_addr_app. reflexivity. }
  assert (Hzc : (ll_size ll - 1 = Z.of_nat (count (unchain s (length l1) 1)))%Z) by lia.
  assert (Htk : taken (unchain s (length l1) 1) = S (taken s)).
  { unfold unchain. rewrite Hitem. destruct b; cbn [taken]; lia. }
  assert (Hnn : nodes h' = count (unchain s (length l1) 1) + taken (unchain s (length l1) 1)) by (rewrite Htk; lia).
  destruct (b && negb (match l1 with [] => true | _ => false end)) eqn:Eb.
  - (* linked to a predecessor *)
    destruct b; [|discriminate]. destruct (last_case l1) as [->|(l & (c & (w & e)) & El)]; [discriminate|].
    assert (Ep' : p = Some c) by (unfold p; rewrite El, last_addr_app; reflexivity).
    eexists. exists (l1 ++ forget_link l2). split; [exact E|]. cbn [ll_heap]. split; [exact Ea|].
    split; [rewrite map_app, forget_fst; exact Hna|]. split; [exact L|]. split; [intros ->; destruct l; discriminate|].
    split; [unfold unchain; rewrite Hitem, Hfront, Hbeh; cbn [items]; rewrite map_app, forget_snd; reflexivity|].
    cbn [ll_heap ll_size ll_head ll_tail].
    split; [rewrite map_app, forget_fst; exact Hd12|].
    split.
    + apply chained_app. split; [|apply C2']. rewrite forget_addr. fold n.
      rewrite El in C1, Hna1, H12, Hd12 |- *. apply chained_app in C1. cbn [chained fst_addr] in C1. destruct C1 as (Cl & Cc & _).
      apply chained_app. cbn [chained fst_addr]. split; [|split; [exact (Ep _ _ _ _ Ep' Cc)|exact I]].
      apply (chained_ext (ll_heap ll)); [|exact Cl]. intros f Hf. apply Eo.
      * intros ->. apply Hna1. rewrite map_app, in_app_iff. auto.
      * rewrite Ep'. intros Ef. injection Ef as ->. rewrite map_app in Hd12. cbn [map fst] in Hd12. rewrite <- app_assoc in Hd12. cbn [app] in Hd12.
        apply NoDup_remove_2 in Hd12. apply Hd12. rewrite in_app_iff. auto.
      * intros Ef. apply (H12 f); [rewrite map_app, in_app_iff; auto|apply fst_in; exact Ef].
    + split; [rewrite Ep'; cbn [is_null]; rewrite Hh, El; destruct l as [|[? ?] ?]; reflexivity|].
      split; [|split; [exact Hzc|exact Hnn]].
      rewrite Htail. unfold unchain. rewrite Hitem, Hbeh. cbn [tail_known].
      destruct l2 as [|[c2 [w2 e2]] t2]; [reflexivity|]. cbn [map snd]. destruct (tail_known s); [|reflexivity]. rewrite last_addr_app. reflexivity.
  - (* no predecessor known *)
    assert (Ep' : p = None) by (unfold p; destruct b; [|reflexivity]; destruct l1; [reflexivity|discriminate]).
    assert (Eu : items (unchain s (length l1) 1) = forget_prev (map snd l2) /\
                 tail_known (unchain s (length l1) 1) = match map snd l2 with [] => false | _ => tail_known s end).
    { unfold unchain. rewrite Hitem, Hbeh. destruct b; [|split; reflexivity]. destruct l1; [|discriminate]. cbn [length firstn app]. split; reflexivity. }
    destruct Eu as [Ei Et].
    eexists. exists (forget_link l2). split; [exact E|]. cbn [ll_heap]. split; [exact Ea|].
    split; [rewrite forget_fst; exact Hna2|]. split; [exact L|]. split; [reflexivity|].
    split; [rewrite Ei, forget_snd; reflexivity|]. cbn [ll_heap ll_size ll_head ll_tail].
    split; [rewrite forget_fst; clear - Hd12; induction l1 as [|[? ?] ? IH]; [exact Hd12|inversion Hd12; subst; auto]|].
    split; [apply C2'|]. split; [rewrite Ep'; cbn [is_null]; rewrite forget_addr; reflexivity|].
    split; [rewrite Et; exact Htail|]. split; [exact Hzc|exact Hnn].
Qed.

(** Freeing the unhooked node. *)
Lemma free_chain ll cs s i v :
  forall a, crep_at ll cs (unchain s i 1) -> nth_error (ll_heap ll) a = Some (Some (Cell v None None)) -> ~ In a (map fst cs) ->
  exists h, hfree (ll_heap ll) (Some a) = Ok h /\ length h = length (ll_heap ll) /\ crep_at (LL h (ll_size ll) (ll_head ll) (ll_tail ll)) cs (unchain s i 0).
Proof.
  intros a (Hi & Hd & Hc & Hh & Ht & Hz & Hn) Ea Hna. exists (upd (ll_heap ll) a None). split; [eapply hfree_eq; eauto|]. split; [apply upd_length|].
  assert (Eq : items (unchain s i 0) = items (unchain s i 1) /\ tail_known (unchain s i 0) = tail_known (unchain s i 1) /\
    lost (unchain s i 0) = lost (unchain s i 1) /\ taken (unchain s i 1) = S (taken (unchain s i 0))).
  { unfold unchain. destruct (nth_error (items s) i) as [[w [|]]|]; cbn; repeat split; lia. }
  destruct Eq as (E1 & E2 & E3 & E4). unfold crep_at. cbn [ll_heap ll_size ll_head ll_tail]. unfold count in *. rewrite E1, E2, E3.
  repeat split; auto.
  - apply (chained_ext (ll_heap ll)); [|exact Hc]. intros c Hc'. rewrite nth_error_upd_neq; [reflexivity|]. intros ->. contradiction.
  - pose proof (nodes_free _ _ _ Ea). lia.
Qed.
End Proofs.

Section Steps.
Context {A : Type}.
Variable compare : A -> A -> Z.
Notation llist := (llist A).
Notation link := (nat * (A * bool))%type.
Definition ceqv (y x : A) : bool := (compare y x =? 0)%Z.

Lemma find_links x (cs : list link) :
  match find (fun c => ceqv (snd c) x) (plain cs) with
  | None => index_of ceqv (map fst (map snd cs)) x = None
  | Some (a, v) => exists l1 b l2, cs = l1 ++ (a, (v, b)) :: l2 /\ index_of ceqv (map fst (map snd cs)) x = Some (length l1)
  end.
Proof.
  induction cs as [|[a [v b]] t IH]; cbn [plain map find fst snd index_of]; [reflexivity|].
  destruct (ceqv v x); [exists [], b, t; split; reflexivity|]. fold (plain t).
  destruct (find _ (plain t)) as [[a' v']|].
  - destruct IH as (l1 & b' & l2 & -> & E). exists ((a, (v, b)) :: l1), b', l2. split; [reflexivity|]. rewrite E. reflexivity.
  - rewrite IH. reflexivity.
Qed.

Lemma helper_chain ll cs s x : crep_at ll cs s ->
  linkedlist_lookup_helper compare ll x = Ok (option_map fst (find (fun c => ceqv (snd c) x) (plain cs))).
Proof.
  intros (Hi & Hd & Hc & Hh & _). unfold linkedlist_lookup_helper. rewrite Hh, <- plain_first.
  pose proof (plain_nseg _ _ _ _ Hc) as Hs. apply (find_cell_ok (fun v => ceqv v x)); [exact Hs|].
  apply (nseg_length (ll_heap ll)) in Hs; [lia|]. rewrite plain_addrs. exact Hd.
Qed.

Lemma nth_values (s : chain A) (cs l1 : list link) a v b l2 : map snd cs = items s -> cs = l1 ++ (a, (v, b)) :: l2 ->
  nth_error (values s) (length l1) = Some v.
Proof.
  intros Hi ->. unfold values. rewrite <- Hi. rewrite !map_app, nth_error_app2; rewrite ?map_length; [|lia].
  rewrite Nat.sub_diag. reflexivity.
Qed.

Lemma value_chain ll (cs : list link) pos : forall i pr fuel, chained (ll_heap ll) pr cs None -> length cs < fuel ->
  linkedlist_value_loop fuel (ll_heap ll) (fst_addr cs None) i pos =
  Ok (if (i <=? pos)%Z && (pos <? i + Z.of_nat (length cs))%Z then (pos, nth_error (map fst (map snd cs)) (Z.to_nat (pos - i))) else ((-1)%Z, None)).
Proof.
  induction cs as [|[a [v b]] t IH]; intros i pr fuel Hc Hf.
  - destruct fuel; [lia|]. cbn [linkedlist_value_loop fst_addr]. cbn [length]. destruct (_ && _) eqn:E; [lia|reflexivity].
  - destruct fuel as [|f]; [lia|]. cbn [chained] in Hc. destruct Hc as [Ha Ht]. cbn [linkedlist_value_loop fst_addr].
    rewrite (hload_eq _ _ _ Ha). cbn [bind c_val c_next]. destruct (Z.eqb_spec i pos) as [->|N].
    + cbn [length]. replace ((pos <=? pos)%Z && (pos <? pos + Z.of_nat (S (length t)))%Z) with true by lia. rewrite Z.sub_diag. reflexivity.
    + rewrite (IH (i + 1)%Z (Some a) f Ht) by (cbn [length] in Hf; lia). cbn [length map fst snd].
      destruct ((i + 1 <=? pos)%Z && (pos <? i + 1 + Z.of_nat (length t))%Z) eqn:E1.
      * replace ((i <=? pos)%Z && (pos <? i + Z.of_nat (S (length t)))%Z) with true by lia.
        replace (Z.to_nat (pos - i)) with (S (Z.to_nat (pos - (i + 1)))) by lia. reflexivity.
      * replace ((i <=? pos)%Z && (pos <? i + Z.of_nat (S (length t)))%Z) with false by lia. reflexivity.
Qed.

Lemma unchain_front (s : chain A) n :
  lost (unchain s 0 n) = lost s /\ taken (unchain s 0 n) = taken s + n.
Proof. unfold unchain. destruct (nth_error (items s) 0) as [[w [|]]|]; cbn; lia. Qed.

Lemma clear_chain : forall n (cs : list link) ll s fuel, length cs = n -> crep_at ll cs s -> n < fuel ->
  exists ll', linkedlist_clear_loop fuel ll (fst_addr cs None) = Ok ll' /\ crep_at ll' [] (Chain [] false (lost s) (taken s)).
Proof.
  induction n as [|n IH]; intros cs ll s fuel Hlen HR Hf.
  - destruct cs; [|discriminate]. destruct fuel; [lia|]. destruct HR as (Hi & Hd & Hc & Hh & Ht & Hz & Hn). cbn [fst_addr linkedlist_clear_loop].
    eexists. split; [reflexivity|]. unfold crep_at, count in *. cbn [ll_heap ll_size ll_head ll_tail items lost taken tail_known length].
    rewrite <- Hi in *. cbn [map length] in *. repeat split; auto.
  - destruct cs as [|[a [v b]] t]; [discriminate|]. destruct fuel as [|f]; [lia|]. cbn [fst_addr linkedlist_clear_loop].
    pose proof HR as HR0. destruct HR0 as (Hi & _ & Hc & _). cbn [chained] in Hc. destruct Hc as [Ha _]. rewrite (hload_eq _ _ _ Ha). cbn [bind c_next].
    destruct (unhook_chain ll [] a v b t s HR) as (ll1 & cs1 & E & Ea & Hna & HL & Hcs & HR1). rewrite (Hcs eq_refl) in *. cbn [length] in HR1.
    rewrite E. cbn [bind].
    destruct (free_chain ll1 _ s 0 v a HR1 Ea Hna) as (h & Ef & Lf & HR2). rewrite Ef. cbn [bind].
    rewrite <- (forget_addr t).
    assert (Hl' : length (forget_link t) = n) by (destruct t as [|[? [? ?]] ?]; cbn in *; lia).
    destruct (IH _ _ _ f Hl' HR2 ltac:(lia)) as (ll' & E' & HR'). exists ll'. split; [exact E'|].
    destruct (unchain_front s 0) as [U1 U2]. rewrite U1, U2, Nat.add_0_r in HR'. exact HR'.
Qed.

Lemma chain_step_ok ll s o : crep ll s ->
  match chain_step ceqv s o with
  | Some (s', out) => exists ll', dstep compare ll o = Ok (ll', out) /\ crep ll' s'
  | None => dstep compare ll o = UB
  end.
Proof.
  intros HR. destruct o as [x|x|x|x|x| | |pos| | ].
  - pose proof (front_chain ll s x HR) as H. cbn [chain_step dstep] in *.
    destruct (items s); [destruct (lost s)|].
    + destruct H as (ll' & E & HR' & _). rewrite E. cbn. eauto.
    + rewrite H. reflexivity.
    + destruct H as (ll' & E & HR' & _). rewrite E. cbn. eauto.
  - pose proof (tail_chain ll s x HR) as H. cbn [chain_step dstep] in *.
    destruct (items s); [destruct (lost s)|destruct (tail_known s)].
    + destruct H as (ll' & E & HR' & _). rewrite E. cbn. eauto.
    + rewrite H. reflexivity.
    + destruct H as (ll' & E & HR' & _). rewrite E. cbn. eauto.
    + rewrite H. reflexivity.
  - destruct HR as (cs & HR). pose proof (helper_chain ll cs s x HR) as E. pose proof (find_links x cs) as F. pose proof HR as (Hi & _ & Hc & _).
    cbn [chain_step dstep]. unfold linkedlist_lookup. rewrite E. cbn [bind Z.eqb].
    unfold values. rewrite <- Hi. destruct (find _ (plain cs)) as [[a v]|].
    + destruct F as (l1 & b & l2 & Ecs & Ei). rewrite Ei. cbn [option_map fst].
      assert (Hin : In (a, (v, b)) cs) by (rewrite Ecs; apply in_elt).
      destruct (chained_in _ _ _ _ _ _ _ Hc Hin) as (n & p & Ha). rewrite (hload_eq _ _ _ Ha). cbn [bind c_val].
      exists ll. split; [|exists cs; exact HR]. f_equal. f_equal. f_equal. pose proof (nth_values s cs l1 a v b l2 Hi Ecs) as Hv.
      unfold values in Hv. rewrite <- Hi in Hv. symmetry. exact Hv.
    + rewrite F. cbn [option_map]. exists ll. split; [reflexivity|]. exists cs; exact HR.
  - destruct HR as (cs & HR). pose proof (helper_chain ll cs s x HR) as E. pose proof (find_links x cs) as F. pose proof HR as (Hi & _ & Hc & _).
    cbn [chain_step dstep]. unfold linkedlist_lookup. rewrite E. cbn [bind Z.eqb Pos.eqb].
    replace (values s) with (map fst (map snd cs)) by (unfold values; rewrite <- Hi; reflexivity).
    destruct (find _ (plain cs)) as [[a v]|].
    + destruct F as (l1 & b & l2 & Ecs & Ei). rewrite Ei. cbn [option_map fst].
      pose proof (nth_values s cs l1 a v b l2 Hi Ecs) as Hv. unfold values in Hv. rewrite <- Hi in Hv. rewrite Hv.
      rewrite Ecs in HR. destruct (unhook_chain ll l1 a v b l2 s HR) as (ll1 & cs1 & Eu & Ea & _ & _ & _ & HR1).
      rewrite Eu. cbn [bind]. rewrite (hload_eq _ _ _ Ea). cbn [bind c_val]. exists ll1. split; [reflexivity|]. exists cs1. exact HR1.
    + rewrite F. cbn [option_map]. cbn [linkedlist_node_unhook is_null orb bind]. exists ll. split; [reflexivity|]. exists cs; exact HR.
  - destruct HR as (cs & HR). pose proof (helper_chain ll cs s x HR) as E. pose proof (find_links x cs) as F. pose proof HR as (Hi & _ & Hc & _).
    cbn [chain_step dstep]. unfold linkedlist_remove. rewrite E. cbn [bind].
    replace (values s) with (map fst (map snd cs)) by (unfold values; rewrite <- Hi; reflexivity).
    destruct (find _ (plain cs)) as [[a v]|].
    + destruct F as (l1 & b & l2 & Ecs & Ei). rewrite Ei. cbn [option_map fst].
      rewrite Ecs in HR. destruct (unhook_chain ll l1 a v b l2 s HR) as (ll1 & cs1 & Eu & Ea & Hna & _ & _ & HR1).
      rewrite Eu. cbn [bind]. destruct (free_chain ll1 cs1 s (length l1) v a HR1 Ea Hna) as (h & Ef & _ & HR2). rewrite Ef. cbn [bind fst snd].
      eexists. split; [reflexivity|]. exists cs1. exact HR2.
    + rewrite F. cbn [option_map bind fst snd]. exists ll. split; [reflexivity|]. exists cs; exact HR.
  - destruct HR as (cs & HR). pose proof HR as (Hi & _ & Hc & Hh & _ & Hz & _). cbn [chain_step dstep]. unfold linkedlist_head, linkedlist_empty.
    unfold values. rewrite <- Hi. unfold count in Hz. rewrite <- Hi in Hz. rewrite Hh. destruct cs as [|[a [v b]] t].
    + cbn [map fst_addr is_null]. rewrite Bool.orb_true_r. exists ll. split; [reflexivity|]. exists []. exact HR.
    + cbn [map snd length] in Hz. destruct (Z.leb_spec (ll_size ll) 0); [lia|]. cbn [fst_addr is_null orb Z.eqb map fst snd].
      cbn [chained] in Hc. rewrite (hload_eq _ _ _ (proj1 Hc)). cbn [bind c_val]. exists ll. split; [reflexivity|]. eexists. exact HR.
  - destruct HR as (cs & HR). pose proof HR as (Hi & _ & Hc & _ & Ht & Hz & _). cbn [chain_step dstep]. unfold linkedlist_tail, linkedlist_empty.
    unfold values. rewrite <- Hi. unfold count in Hz. rewrite <- Hi in Hz. rewrite Ht. destruct (tail_known s).
    + destruct (last_case cs) as [->|(l & (a & (v & b)) & ->)].
      * cbn [map rev last_addr is_null]. rewrite Bool.orb_true_r. exists ll. split; [reflexivity|]. exists []. exact HR.
      * rewrite map_length, app_length in Hz. cbn [length] in Hz. destruct (Z.leb_spec (ll_size ll) 0); [lia|].
        rewrite last_addr_app. cbn [last_addr is_null orb Z.eqb]. rewrite !map_app, rev_app_distr. cbn [map rev app fst snd].
        apply chained_app in Hc. cbn [chained] in Hc. rewrite (hload_eq _ _ _ (proj1 (proj2 Hc))). cbn [bind c_val].
        exists ll. split; [reflexivity|]. eexists. exact HR.
    + cbn [is_null]. rewrite Bool.orb_true_r. exists ll. split; [reflexivity|]. eexists. exact HR.
  - destruct HR as (cs & HR). pose proof HR as (Hi & Hd & Hc & Hh & _ & Hz & _). cbn [chain_step dstep]. unfold linkedlist_value_at.
    unfold values. rewrite <- Hi. unfold count in Hz. rewrite <- Hi in Hz. rewrite map_length in *.
    pose proof (plain_nseg _ _ _ _ Hc) as Hs. apply (nseg_length (ll_heap ll)) in Hs; [|rewrite plain_addrs; exact Hd]. unfold plain in Hs. rewrite map_length in Hs.
    destruct (Z.geb_spec pos (ll_size ll)) as [G|G].
    + cbn [bind]. exists ll. split; [|exists cs; exact HR]. replace ((0 <=? pos)%Z && (pos <? Z.of_nat (length cs))%Z) with false by lia. reflexivity.
    + rewrite Hh, (value_chain ll cs pos 0%Z None) by (auto; lia). cbn [bind]. exists ll. split; [|exists cs; exact HR].
      rewrite Z.add_0_l, Z.sub_0_r. reflexivity.
  - destruct HR as (cs & HR). pose proof HR as (_ & _ & _ & _ & _ & Hz & _). cbn [chain_step dstep]. unfold linkedlist_empty.
    exists ll. split; [|exists cs; exact HR]. destruct (Z.leb_spec (ll_size ll) 0), (Nat.eqb_spec (count s) 0); try lia; reflexivity.
  - destruct HR as (cs & HR). pose proof HR as (_ & Hd & Hc & Hh & _). cbn [chain_step dstep]. unfold linkedlist_clear. rewrite Hh.
    pose proof (plain_nseg _ _ _ _ Hc) as Hs. apply (nseg_length (ll_heap ll)) in Hs; [|rewrite plain_addrs; exact Hd]. unfold plain in Hs. rewrite map_length in Hs.
    destruct (clear_chain (length cs) cs ll s (S (length (ll_heap ll))) eq_refl HR ltac:(lia)) as (ll' & E & HR').
    rewrite E. cbn [bind]. exists ll'. split; [reflexivity|]. exists []. exact HR'.
Qed.

Lemma chain_run_ok ops : forall ll s, crep ll s ->
  match chain_run ceqv s ops with
  | Some (s', outs) => exists ll', drun compare ll ops = Ok (ll', outs) /\ crep ll' s'
  | None => drun compare ll ops = UB
  end.
Proof.
  induction ops as [|o ops IH]; intros ll s HR; cbn [chain_run drun]; [eauto|].
  pose proof (chain_step_ok ll s o HR) as H. destruct (chain_step ceqv s o) as [[s' out]|].
  - destruct H as (ll' & E & HR'). rewrite E. cbn [bind fst snd]. specialize (IH ll' s' HR').
    destruct (chain_run ceqv s' ops) as [[s'' outs]|].
    + destruct IH as (ll'' & E' & HR''). rewrite E'. cbn [bind fst snd]. eauto.
    + rewrite IH. reflexivity.
  - rewrite H. reflexivity.
Qed.
End Steps.
