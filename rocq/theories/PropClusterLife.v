(** C91: cluster objects over their life. *)
From Coq Require Import Permutation Sorted.
From Verif Require Import Base ListFacts F64 ModelCluster ProofSets ModelLife SpecLife PropLife ModelGraphLife SpecGraphLife PropGraphLife ModelClusterLife SpecClusterLife.
From Verif Require ProofArrayList.
From Coq Require Import ZifyBool ZifyNat.
Local Open Scope nat_scope.

(** What may have happened to the heap: blocks once freed do not come back. *)
Definition later (h h' : heap) : Prop := hp_next h <= hp_next h' /\ forall x, x < hp_next h -> In x (hp_live h') -> In x (hp_live h).
Lemma later_refl h : later h h. Proof. split; auto. Qed.
Lemma later_trans a b c : later a b -> later b c -> later a c.
Proof. intros [H1 H2] [H3 H4]. split; [lia|]. intros x Hx Hc. apply H2; [exact Hx|]. apply H4; [lia|exact Hc]. Qed.
Lemma later_alloc n h : later h (snd (alloc n h)).
Proof. unfold alloc. cbn [snd hp_next hp_live]. split; cbn [hp_next hp_live]; [lia|]. intros x Hx Hi. apply in_app_or in Hi. destruct Hi as [Hi|Hi]; [apply in_seq in Hi; lia|exact Hi]. Qed.
Lemma later_free b h h' : free1 b h = Ok h' -> later h h'.
Proof. unfold free1. destruct (existsb _ _); [|discriminate]. intros E. injection E as <-. split; cbn [hp_next hp_live]; [lia|]. intros x _ Hx. apply filter_In in Hx. tauto. Qed.
Lemma later_free_all bs : forall h h', free_all bs h = Ok h' -> later h h'.
Proof.
  induction bs as [|b bs IH]; intros h h' E; cbn [free_all] in E; [injection E as <-; apply later_refl|].
  destruct (free1 b h) as [h1| | |] eqn:Eb; cbn [bind] in E; try discriminate. apply (later_trans _ h1); [apply (later_free b); exact Eb|apply IH; exact E].
Qed.

Definition oblocks (o : cobj) : list nat := [o_blk o] ++ blocks_of (o_set o) ++ blocks_of (o_desc o).
Definition piece (o : cobj) (k : known) : list nat := if k_there k then oblocks o else [].
Fixpoint pieces (os : list cobj) (s : list known) : list nat :=
  match os, s with o :: os', k :: s' => piece o k ++ pieces os' s' | _, _ => [] end.
Definition same (h : heap) (o : cobj) (k : known) : Prop :=
  o_parent o = k_parent k /\ o_blk o < hp_next h /\
  (k_there k = true -> roomy (o_set o) /\ ssorted (v_vals (o_set o)) /\ forall x, In x (v_vals (o_set o)) <-> In x (k_points k)) /\
  (k_there k = false -> ~ In (o_blk o) (hp_live h)).
Definition inv (L : list nat) (h : heap) (os : list cobj) (s : list known) : Prop :=
  SpecLife.wf h /\ Forall2 (same h) os s /\ forall x, cnt (pieces os s) x + cnt L x = cnt (hp_live h) x.

Lemma same_later h h' o k : later h h' -> same h o k -> same h' o k.
Proof. intros [H1 H2] (A & B & C & D). split; [exact A|]. split; [lia|]. split; [exact C|]. intros E Hi. apply (D E). apply H2; assumption. Qed.
Lemma all_later h h' os s : later h h' -> Forall2 (same h) os s -> Forall2 (same h') os s.
Proof. intros H. induction 1; constructor; [eapply same_later; eassumption|assumption]. Qed.
Lemma both_at h os s c k : Forall2 (same h) os s -> nth_error s c = Some k -> exists o, nth_error os c = Some o /\ same h o k.
Proof. intros H. revert c. induction H as [|o k' os s H1 H2 IH]; intros [|c] E; try discriminate; cbn [nth_error] in *; [injection E as <-; eauto|auto]. Qed.
Lemma pieces_upd os s c o k o' k' : length os = length s -> nth_error os c = Some o -> nth_error s c = Some k ->
  forall x, cnt (pieces (upd os c o') (upd s c k')) x + cnt (piece o k) x = cnt (pieces os s) x + cnt (piece o' k') x.
Proof.
  revert s c. induction os as [|o1 os IH]; intros [|k1 s] [|c] HL E1 E2 x; try discriminate; cbn [nth_error upd pieces length] in *.
  - injection E1 as <-. injection E2 as <-. rewrite !cnt_app. lia.
  - injection HL as HL. rewrite !cnt_app. specialize (IH s c HL E1 E2 x). lia.
Qed.
Lemma Forall2_upd h os s c o k : Forall2 (same h) os s -> same h o k -> Forall2 (same h) (upd os c o) (upd s c k).
Proof. intros H. revert c. induction H as [|o1 k1 os s H1 H2 IH]; intros [|c] Hs; cbn [upd]; constructor; auto. Qed.
Lemma f2_len h os s : Forall2 (same h) os s -> length os = length s. Proof. induction 1; cbn; congruence. Qed.
Lemma piece_in os s c o k x : nth_error os c = Some o -> nth_error s c = Some k -> In x (piece o k) -> In x (pieces os s).
Proof.
  revert s c. induction os as [|o1 os IH]; intros [|k1 s] [|c] E1 E2 Hx; try discriminate; cbn [nth_error pieces] in *; apply in_or_app.
  - injection E1 as <-. injection E2 as <-. auto.
  - right. eapply IH; eassumption.
Qed.
Lemma change_upd s c k f : nth_error s c = Some k -> change s c f = upd s c (f k).
Proof.
  intros E. unfold change. assert (G : forall t b, nth_error t c = Some k -> map (fun x => if fst x =? b + c then f (snd x) else snd x) (combine (seq b (length t)) t) = upd t c (f k)); [|apply (G s 0 E)].
  clear. revert c. intros c t. revert c. induction t as [|a t IH]; intros [|c] b E; try discriminate; cbn [length seq combine map fst snd upd nth_error] in *.
  - injection E as ->. rewrite Nat.add_0_r, Nat.eqb_refl. f_equal.
    assert (Q : forall t b', b < b' -> map (fun x => if fst x =? b then f (snd x) else snd x) (combine (seq b' (length t)) t) = t); [|apply Q; lia].
    clear. induction t as [|a t IH]; intros b' H; [reflexivity|]. cbn [length seq combine map fst snd]. replace (b' =? b) with false by (symmetry; apply Nat.eqb_neq; lia). f_equal. apply IH. lia.
  - replace (b =? b + S c) with false by (symmetry; apply Nat.eqb_neq; lia). f_equal. replace (b + S c) with (S b + c) by lia. apply IH. exact E.
Qed.

Lemma upd_same {A} (l : list A) i x : nth_error l i = Some x -> upd l i x = l.
Proof. revert i. induction l as [|a l IH]; intros [|i] E; try discriminate; cbn [upd nth_error] in *; [congruence|]. f_equal. apply IH. exact E. Qed.
Lemma inv_alive L h os s c o k : inv L h os s -> nth_error os c = Some o -> nth_error s c = Some k -> k_there k = true -> incl (oblocks o) (hp_live h).
Proof.
  intros (W & F & C) Eo Ek Et x Hx. apply cnt_in. assert (H : In x (pieces os s)) by (eapply piece_in; [exact Eo|exact Ek|unfold piece; rewrite Et; exact Hx]).
  apply cnt_in in H. specialize (C x). lia.
Qed.
Lemma at_there L h os s c : inv L h os s -> there s c = true -> exists o k, at_cluster (h, os) c = Ok o /\ nth_error os c = Some o /\ nth_error s c = Some k /\ k_there k = true /\ same h o k.
Proof.
  intros HI Ht. pose proof HI as (W & F & C). unfold there in Ht. destruct (nth_error s c) as [k|] eqn:Ek; [|discriminate]. destruct (both_at h os s c k F Ek) as (o & Eo & Hs).
  exists o, k. split; [|auto]. unfold at_cluster. cbn [snd fst]. rewrite (aget_nth _ _ _ Eo). cbn [bind].
  rewrite (proj2 (alive_in _ _)); [reflexivity|]. apply (inv_alive L h os s c o k HI Eo Ek Ht). left. reflexivity.
Qed.
Lemma at_gone L h os s c : inv L h os s -> there s c = false -> at_cluster (h, os) c = UB.
Proof.
  intros (W & F & C) Ht. unfold at_cluster. cbn [snd fst]. unfold there in Ht. destruct (nth_error s c) as [k|] eqn:Ek.
  - destruct (both_at h os s c k F Ek) as (o & Eo & (_ & _ & _ & Hs)). rewrite (aget_nth _ _ _ Eo). cbn [bind]. specialize (Hs Ht). destruct (alive (o_blk o) h) eqn:Ea; [|reflexivity]. exfalso. apply Hs, alive_in, Ea.
  - apply nth_error_None in Ek. rewrite <- (f2_len _ _ _ F) in Ek. unfold aget. apply nth_error_None in Ek. rewrite Ek. reflexivity.
Qed.

Lemma destroy_there L h os s c : inv L h os s -> there s c = true -> exists h', life_cluster_destroy (h, os) c = Ok (h', os) /\ inv L h' os (change s c gone).
Proof.
  intros HI Ht. destruct (at_there L h os s c HI Ht) as (o & k & Ea & Eo & Ek & Et & Hs). pose proof HI as (W & F & C). unfold life_cluster_destroy. rewrite Ea. cbn [bind fst snd].
  assert (E : forall hh, (let! h := list_delete (o_set o) hh in let! h := list_delete (o_desc o) h in let! h := free1 (o_blk o) h in Ok (h, os)) =
     (let! h := free_all (order_of (o_set o) ++ order_of (o_desc o) ++ [o_blk o]) hh in Ok (h, os))).
  { intros hh. rewrite !list_delete_all, !free_all_app. destruct (free_all (order_of (o_set o)) hh) as [h1| | |]; cbn [bind]; try reflexivity.
    rewrite list_delete_all, free_all_app. destruct (free_all (order_of (o_desc o)) h1) as [h2| | |]; cbn [bind free_all]; try reflexivity. destruct (free1 (o_blk o) h2); reflexivity. }
  rewrite E. assert (B : forall x, cnt (order_of (o_set o) ++ order_of (o_desc o) ++ [o_blk o]) x = cnt (oblocks o) x) by (intros x; unfold oblocks; rewrite !cnt_app, !order_cnt; lia).
  assert (LE : forall x, cnt (oblocks o) x <= cnt (hp_live h) x).
  { intros x. pose proof (pieces_upd os s c o k o (gone k) (f2_len _ _ _ F) Eo Ek x) as P. unfold piece in P at 1 2. rewrite Et in P. cbn [gone k_there] in P. rewrite cnt_nil in P. specialize (C x). lia. }
  destruct (free_all_ok (order_of (o_set o) ++ order_of (o_desc o) ++ [o_blk o]) h W) as (h' & Ef & W' & C'); [intros x; rewrite B; apply LE|].
  rewrite Ef. cbn [bind]. exists h'. split; [reflexivity|]. rewrite (change_upd s c k gone Ek). pose proof (later_free_all _ _ _ Ef) as HL.
  split; [exact W'|]. split.
  - rewrite <- (upd_same os c o Eo). apply Forall2_upd; [apply (all_later h); assumption|]. destruct Hs as (A1 & A2 & A3 & _). destruct HL as [HL1 HL2].
    split; [exact A1|]. split; [lia|]. split; [discriminate|]. intros _ Hi. apply cnt_in in Hi. pose proof (cnt_nodup (hp_live h) (o_blk o) (proj1 W)). specialize (C' (o_blk o)). rewrite B in C'.
    unfold oblocks in C'. rewrite cnt_app, cnt_one, Nat.eqb_refl in C'. lia.
  - intros x. pose proof (pieces_upd os s c o k o (gone k) (f2_len _ _ _ F) Eo Ek x) as P. rewrite (upd_same os c o Eo) in P. unfold piece in P at 1 2. rewrite Et in P. cbn [gone k_there] in P. rewrite cnt_nil in P.
    specialize (C x). specialize (C' x). rewrite B in C'. unfold gone in *. lia.
Qed.

Lemma destroy_gone L h os s c : inv L h os s -> there s c = false -> life_cluster_destroy (h, os) c = UB.
Proof. intros HI Ht. unfold life_cluster_destroy. rewrite (at_gone L h os s c HI Ht). reflexivity. Qed.

Lemma insert_ok (v : vlist nat) x h : SpecLife.wf h -> roomy v -> ssorted (v_vals v) -> incl (blocks_of v) (hp_live h) -> (forall y, cnt (blocks_of v) y <= cnt (hp_live h) y) ->
  exists v' h', life_set_insert v x h = Ok (v', h') /\ SpecLife.wf h' /\ later h h' /\ roomy v' /\ ssorted (v_vals v') /\ (forall y, In y (v_vals v') <-> y = x \/ In y (v_vals v)) /\
    (forall y, cnt (hp_live h') y + cnt (blocks_of v) y = cnt (hp_live h) y + cnt (blocks_of v') y).
Proof.
  intros W R HS HI HC. unfold life_set_insert. rewrite (touch_in v h HI). cbn [bind]. destruct (set_insert x (v_vals v)) as [new l] eqn:Es.
  destruct (set_insert_spec x (v_vals v) new l HS Es) as (S1 & S2 & S3 & S4 & S5). unfold roomy in *. destruct new.
  - destruct (Nat.eqb_spec (length (v_vals v)) (v_max v)) as [Em|Em].
    + destruct (free1_ok (v_blk v) h W) as (h1 & Ef & W1 & C1); [apply HI; cbn; auto|]. rewrite Ef. cbn [bind].
      destruct (alloc1 h1 W1) as (b & h2 & Ea & W2 & C2). rewrite Ea. cbn [hd bind]. pose proof (ProofArrayList.highestPowerof2_gt (v_max v * 2)) as Hg.
      rewrite (proj2 (Nat.ltb_lt _ _)) by lia. do 2 eexists. split; [reflexivity|]. split; [exact W2|].
      split; [apply (later_trans _ h1); [apply (later_free _ _ _ Ef)|]; pose proof (later_alloc 1 h1) as Q; rewrite Ea in Q; exact Q|]. cbn [v_vals v_max].
      split; [lia|]. split; [exact S1|]. split; [exact S2|]. intros y. specialize (C1 y). specialize (C2 y). unfold blocks_of. cbn [v_hdr v_blk]. rewrite !(cnt_cons _ [_]). lia.
    + cbn [bind]. rewrite (proj2 (Nat.ltb_lt _ _)) by lia. do 2 eexists. split; [reflexivity|]. split; [exact W|]. split; [apply later_refl|]. cbn [v_vals v_max]. split; [lia|]. split; [exact S1|]. split; [exact S2|]. reflexivity.
  - rewrite (S5 eq_refl) in *. do 2 eexists. split; [reflexivity|]. split; [exact W|]. split; [apply later_refl|]. split; [exact R|]. split; [exact HS|]. split; [exact S2|]. reflexivity.
Qed.
Lemma cnt_incl a b : (forall y, cnt a y <= cnt b y) -> incl a b.
Proof. intros H x Hx. apply cnt_in in Hx. apply cnt_in. specialize (H x). lia. Qed.
Lemma insert_all_ok xs : forall (v : vlist nat) h, SpecLife.wf h -> roomy v -> ssorted (v_vals v) -> (forall y, cnt (blocks_of v) y <= cnt (hp_live h) y) ->
  exists v' h', life_set_insert_all v xs h = Ok (v', h') /\ SpecLife.wf h' /\ later h h' /\ roomy v' /\ ssorted (v_vals v') /\ (forall y, In y (v_vals v') <-> In y xs \/ In y (v_vals v)) /\
    (forall y, cnt (hp_live h') y + cnt (blocks_of v) y = cnt (hp_live h) y + cnt (blocks_of v') y).
Proof.
  induction xs as [|x xs IH]; intros v h W R HS HC; cbn [life_set_insert_all].
  - do 2 eexists. split; [reflexivity|]. split; [exact W|]. split; [apply later_refl|]. split; [exact R|]. split; [exact HS|]. split; [cbn [In]; tauto|reflexivity].
  - destruct (insert_ok v x h W R HS (cnt_incl _ _ HC) HC) as (v1 & h1 & E1 & W1 & L1 & R1 & S1 & M1 & C1). rewrite E1. cbn [bind fst snd].
    destruct (IH v1 h1 W1 R1 S1) as (v2 & h2 & E2 & W2 & L2 & R2 & S2 & M2 & C2); [intros y; specialize (C1 y); specialize (HC y); lia|].
    do 2 eexists. split; [exact E2|]. split; [exact W2|]. split; [apply (later_trans _ h1); assumption|]. split; [exact R2|]. split; [exact S2|]. split.
    + intros y. rewrite M2, M1. cbn [In]. split; [intros [H|[H|H]]|intros [[H|H]|H]]; subst; auto.
    + intros y. specialize (C1 y). specialize (C2 y). lia.
Qed.

Lemma pieces_snoc os s o k : length os = length s -> pieces (os ++ [o]) (s ++ [k]) = pieces os s ++ piece o k.
Proof. revert s. induction os as [|a os IH]; intros [|b s] H; try discriminate; cbn [app pieces]; [apply app_nil_r|]. injection H as H. rewrite IH by exact H. apply app_assoc. Qed.
Lemma kids_upd h os s c o : Forall2 (same h) os s -> nth_error os c = Some o ->
  Forall2 (same h) (upd os c (mk_cobj (o_blk o) (o_set o) (o_desc o) (o_parent o) true)) s /\ pieces (upd os c (mk_cobj (o_blk o) (o_set o) (o_desc o) (o_parent o) true)) s = pieces os s.
Proof.
  intros H. revert c. induction H as [|o1 k1 os s H1 H2 IH]; intros [|c] E; try discriminate; cbn [nth_error upd pieces] in *.
  - injection E as ->. split; [constructor; [exact H1|exact H2]|reflexivity].
  - destruct (IH c E) as [I1 I2]. split; [constructor; assumption|]. rewrite I2. reflexivity.
Qed.
Lemma new_ok L h os s p : inv L h os s -> match p with None => True | Some q => there s q = true end ->
  exists w, life_cluster_init (h, os) p = Ok w /\ inv L (fst w) (snd w) (s ++ [mk_known p true []]).
Proof.
  intros HI Hp. pose proof HI as (W & F & C). unfold life_cluster_init. destruct (alloc1 h W) as (b & h1 & Ea & W1 & C1). rewrite Ea.
  pose proof (later_alloc 1 h) as L1. rewrite Ea in L1. cbn [snd] in L1.
  assert (Hb : b < hp_next h1) by (apply W1; apply cnt_in; rewrite C1, cnt_one, Nat.eqb_refl; lia).
  assert (K : exists os1, (match p with None => Ok os | Some q => let! o := at_cluster (h1, os) q in aset os q (mk_cobj (o_blk o) (o_set o) (o_desc o) (o_parent o) true) end) = Ok os1 /\ Forall2 (same h) os1 s /\ pieces os1 s = pieces os s).
  { destruct p as [q|]; [|exists os; auto]. destruct (at_there L h os s q HI Hp) as (o & k & Eq & Eo & Ek & Et & Hs).
    assert (Eq1 : at_cluster (h1, os) q = Ok o).
    { unfold at_cluster. cbn [fst snd]. rewrite (aget_nth _ _ _ Eo). cbn [bind]. rewrite (proj2 (alive_in _ _)); [reflexivity|]. apply cnt_in. rewrite C1.
      pose proof (inv_alive L h os s q o k HI Eo Ek Et (o_blk o) (or_introl eq_refl)) as Hin. apply cnt_in in Hin. lia. }
    rewrite Eq1. cbn [bind]. rewrite aset_ok by (apply nth_error_Some; congruence). eexists. split; [reflexivity|]. apply kids_upd; assumption. }
  destruct K as (os1 & -> & F1 & P1). cbn [bind]. unfold list_new. destruct (alloc2 h1 W1) as (b1 & b2 & h2 & Ea2 & W2 & C2). rewrite Ea2. cbn [nth].
  destruct (alloc2 h2 W2) as (b3 & b4 & h3 & Ea3 & W3 & C3). rewrite Ea3. cbn [nth hd].
  pose proof (later_alloc 2 h1) as L2. rewrite Ea2 in L2. pose proof (later_alloc 2 h2) as L3. rewrite Ea3 in L3. cbn [snd] in L2, L3.
  eexists. split; [reflexivity|]. cbn [fst snd]. split; [exact W3|]. split.
  - apply Forall2_app; [apply (all_later h); [apply (later_trans _ h1); [exact L1|apply (later_trans _ h2); assumption]|exact F1]|]. constructor; [|constructor].
    split; [reflexivity|]. cbn [o_blk o_set v_vals k_there k_points]. split; [destruct L2, L3; lia|]. split; [|discriminate]. intros _. split; [unfold roomy; cbn; lia|]. split; [constructor|tauto].
  - intros x. rewrite pieces_snoc by (apply (f2_len _ _ _ F1)). rewrite cnt_app, P1. unfold piece, oblocks, blocks_of. cbn [k_there o_blk o_set o_desc v_hdr v_blk]. rewrite !cnt_app.
    specialize (C x). specialize (C1 x). specialize (C2 x). specialize (C3 x). lia.
Qed.
Lemma new_gone L h os s q : inv L h os s -> there s q = false -> life_cluster_init (h, os) (Some q) = UB.
Proof.
  intros HI Ht. pose proof HI as (W & F & C). unfold life_cluster_init. destruct (alloc1 h W) as (b & h1 & Ea & W1 & C1). rewrite Ea.
  pose proof (later_alloc 1 h) as L1. rewrite Ea in L1. cbn [snd] in L1. pose proof (at_gone L h os s q HI Ht) as G. unfold at_cluster in *. cbn [fst snd] in *.
  destruct (aget os q) as [o| | |] eqn:Eo; cbn [bind] in *; try reflexivity; [|discriminate|discriminate].
  replace (alive (o_blk o) h1) with false; [reflexivity|]. symmetry. destruct (alive (o_blk o) h1) eqn:Eal; [|reflexivity]. exfalso.
  apply alive_in in Eal. assert (Hq : o_blk o < hp_next h). { unfold aget in Eo. destruct (nth_error os q) as [o'|] eqn:En; [|discriminate]. injection Eo as ->. clear -F En. revert q En. induction F as [|o1 k1 os s H1 H2 IH]; intros [|q] En; try discriminate; cbn [nth_error] in En; [injection En as ->; apply H1|eauto]. }
  destruct L1 as [_ L1]. specialize (L1 _ Hq Eal). apply alive_in in L1. rewrite L1 in G. discriminate.
Qed.

Lemma step_ok L h os s k : inv L h os s ->
  match allowed s k with
  | Some (s', a) => exists h' os', kperform (h, os) k = Ok ((h', os'), a) /\ inv L h' os' s'
  | None => kperform (h, os) k = UB
  end.
Proof.
  intros HI. pose proof HI as (W & F & C). destruct k as [p|c l|c x|c|c]; cbn [allowed kperform].
  - destruct p as [q|].
    + destruct (there s q) eqn:Ht.
      * destruct (new_ok L h os s (Some q) HI Ht) as ([h' os'] & E & I). rewrite E. cbn [bind]. exists h', os'. auto.
      * rewrite (new_gone L h os s q HI Ht). reflexivity.
    + destruct (new_ok L h os s None HI I) as ([h' os'] & E & I'). rewrite E. cbn [bind]. exists h', os'. auto.
  - unfold life_add_points. destruct (there s c) eqn:Ht; [|rewrite (at_gone L h os s c HI Ht); reflexivity].
    destruct (at_there L h os s c HI Ht) as (o & k & Ea & Eo & Ek & Et & Hs). rewrite Ea. cbn [bind fst snd]. pose proof Hs as (A1 & A2 & A3 & _). destruct (A3 Et) as (R1 & R2 & R3).
    assert (LE : forall x, cnt (oblocks o) x <= cnt (hp_live h) x).
    { intros x. pose proof (pieces_upd os s c o k o (gone k) (f2_len _ _ _ F) Eo Ek x) as P. unfold piece in P at 1 2. rewrite Et in P. cbn [gone k_there] in P. rewrite cnt_nil in P. specialize (C x). lia. }
    destruct (insert_all_ok l (o_set o) h W R1 R2) as (v' & h' & E1 & W' & L' & R' & S' & M' & C'); [intros y; specialize (LE y); unfold oblocks in LE; rewrite !cnt_app in LE; lia|].
    rewrite E1. cbn [bind fst snd]. rewrite aset_ok by (apply nth_error_Some; congruence). cbn [bind]. eexists _, _. split; [reflexivity|]. rewrite (change_upd s c k _ Ek).
    split; [exact W'|]. split.
    + apply Forall2_upd; [apply (all_later h); assumption|]. split; [exact A1|]. cbn [o_blk]. split; [destruct L'; lia|]. cbn [k_there k_points o_set]. split; [|discriminate]. intros _.
      split; [exact R'|]. split; [exact S'|]. intros y. rewrite M', in_app_iff, R3. reflexivity.
    + intros x. pose proof (pieces_upd os s c o k (mk_cobj (o_blk o) v' (o_desc o) (o_parent o) (o_kids o)) (mk_known (k_parent k) true (l ++ k_points k)) (f2_len _ _ _ F) Eo Ek x) as P.
      unfold piece in P at 1 2. rewrite Et in P. cbn [k_there] in P. unfold oblocks in P. cbn [o_blk o_set o_desc] in P. rewrite !cnt_app in P. specialize (C x). specialize (C' x). lia.
  - unfold life_contains. destruct (there s c) eqn:Ht; [|rewrite (at_gone L h os s c HI Ht); reflexivity].
    destruct (at_there L h os s c HI Ht) as (o & k & Ea & Eo & Ek & Et & Hs). rewrite Ea. cbn [bind fst snd]. pose proof Hs as (_ & _ & A3 & _). destruct (A3 Et) as (_ & _ & R3).
    rewrite (touch_in (o_set o) h) by (intros y Hy; apply (inv_alive L h os s c o k HI Eo Ek Et); unfold oblocks; apply in_or_app; right; apply in_or_app; left; exact Hy).
    cbn [bind]. exists h, os. rewrite Ek. split; [|exact HI]. do 2 f_equal. f_equal. apply Bool.eq_iff_eq_true. rewrite !existsb_in. apply R3.
  - unfold life_release. destruct (there s c) eqn:Ht; [|rewrite (at_gone L h os s c HI Ht); reflexivity].
    destruct (at_there L h os s c HI Ht) as (o & k & Ea & Eo & Ek & Et & Hs). rewrite Ea. cbn [bind]. destruct Hs as (A1 & _). unfold known_parent. rewrite Ek. rewrite A1. destruct (k_parent k) as [p|].
    + destruct (there s p) eqn:Hp.
      * destruct (destroy_there L h os s p HI Hp) as (h' & E & I'). rewrite E. cbn [bind]. exists h', os. auto.
      * rewrite (destroy_gone L h os s p HI Hp). reflexivity.
    + cbn [bind]. exists h, os. auto.
  - destruct (there s c) eqn:Ht.
    + destruct (destroy_there L h os s c HI Ht) as (h' & E & I'). rewrite E. cbn [bind]. exists h', os. auto.
    + rewrite (destroy_gone L h os s c HI Ht). reflexivity.
Qed.
Lemma steps_ok L ks : forall h os s, inv L h os s ->
  match all_allowed s ks with
  | Some (s', l) => exists h' os', kperform_all (h, os) ks = Ok ((h', os'), l) /\ inv L h' os' s'
  | None => kperform_all (h, os) ks = UB
  end.
Proof.
  induction ks as [|k ks IH]; intros h os s HI; cbn [all_allowed kperform_all]; [exists h, os; auto|].
  pose proof (step_ok L h os s k HI) as G. destruct (allowed s k) as [[s1 a]|]; [|rewrite G; reflexivity]. destruct G as (h1 & os1 & E1 & I1). rewrite E1. cbn [bind fst snd].
  specialize (IH h1 os1 s1 I1). destruct (all_allowed s1 ks) as [[s2 l]|]; [|rewrite IH; reflexivity]. destruct IH as (h2 & os2 & E2 & I2). rewrite E2. cbn [bind fst snd]. exists h2, os2. auto.
Qed.

Lemma pieces_len h os s : Forall2 (same h) os s -> length (pieces os s) = 5 * left_over s.
Proof.
  unfold left_over. induction 1 as [|o k os s H1 H2 IH]; [reflexivity|]. cbn [pieces filter]. rewrite app_length, IH. unfold piece. destruct (k_there k); cbn [length oblocks app blocks_of]; lia.
Qed.

(** C91.  Any program that makes, fills, asks, releases and destroys clusters, on any heap:
    it is defined exactly when it uses no cluster after its destruction (where releasing
    counts as destroying the parent); then every question is answered by whether the point
    was added to the cluster, five blocks are held for every cluster that is left, and none
    when none is left. *)
Theorem C91_cluster_objects : forall h ks, SpecLife.wf h ->
  match all_allowed [] ks with
  | None => kperform_all (h, []) ks = UB
  | Some (s, answers) => exists h' os, kperform_all (h, []) ks = Ok ((h', os), answers) /\
      length (hp_live h') = length (hp_live h) + 5 * left_over s /\ incl (hp_live h) (hp_live h') /\
      (left_over s = 0 -> Permutation (hp_live h') (hp_live h))
  end.
Proof.
  intros h ks W. assert (HI : inv (hp_live h) h [] []) by (split; [exact W|]; split; [constructor|reflexivity]).
  pose proof (steps_ok (hp_live h) ks h [] [] HI) as G. destruct (all_allowed [] ks) as [[s l]|]; [|exact G]. destruct G as (h' & os & E & (W' & F & C)). exists h', os. split; [exact E|].
  assert (P : Permutation (pieces os s ++ hp_live h) (hp_live h')) by (apply cnt_perm; intros x; rewrite cnt_app; apply C).
  assert (LP := pieces_len h' os s F). split; [|split].
  - rewrite <- (Permutation_length P), app_length, LP. lia.
  - intros x Hx. apply (Permutation_in x P). apply in_or_app. auto.
  - intros H0. rewrite H0 in LP. cbn in LP. destruct (pieces os s); [|discriminate]. symmetry. exact P.
Qed.
Print Assumptions C91_cluster_objects.

(** Releasing the virtual child of a cluster: its points are still there afterwards, and its
    parent is gone, so that asking the parent, destroying it, or releasing the virtual child
    of a sibling or the same again is undefined. *)
Theorem C91_release_destroys_the_parent_refuted : forall h l x, SpecLife.wf h ->
  let start := [KNew None; KNew (Some 0); KNew (Some 0); KAdd 1 l; KRelease 1] in
  (exists w, kperform_all (h, []) (start ++ [KHas 1 x]) = Ok (w, [None; None; None; None; None; Some (existsb (Nat.eqb x) l)])) /\
  kperform_all (h, []) (start ++ [KHas 0 x]) = UB /\ kperform_all (h, []) (start ++ [KDestroy 0]) = UB /\
  kperform_all (h, []) (start ++ [KRelease 1]) = UB /\ kperform_all (h, []) (start ++ [KRelease 2]) = UB.
Proof.
  intros h l x W start. repeat split.
  - pose proof (C91_cluster_objects h (start ++ [KHas 1 x]) W) as G. cbn in G. destruct G as (h' & os & E & _). exists (h', os). rewrite app_nil_r in E. exact E.
  - exact (C91_cluster_objects h (start ++ [KHas 0 x]) W).
  - exact (C91_cluster_objects h (start ++ [KDestroy 0]) W).
  - exact (C91_cluster_objects h (start ++ [KRelease 1]) W).
  - exact (C91_cluster_objects h (start ++ [KRelease 2]) W).
Qed.
Print Assumptions C91_release_destroys_the_parent_refuted.

(** Taking points from a cluster that has them. *)
Theorem C91_detach : forall c k level, (0 <= c_num c < 2 ^ 32)%Z -> (Z.of_nat k <= c_num c)%Z ->
  detach_code c k = 1%Z /\ c_num (cluster_detach_points c k level) = (c_num c - Z.of_nat k)%Z /\
  c_death (cluster_detach_points c k level) = (if (c_num c =? Z.of_nat k)%Z then level else c_death c).
Proof.
  intros c k level H1 H2. unfold detach_code, cluster_detach_points, u32, M32. cbn [c_num c_death]. rewrite Z.mod_small by lia. cbv zeta.
  replace (c_num c - Z.of_nat k <? 0)%Z with false by lia. split; [destruct (_ =? 0)%Z; reflexivity|]. split; [reflexivity|].
  replace (c_num c - Z.of_nat k =? 0)%Z with (c_num c =? Z.of_nat k)%Z by lia. reflexivity.
Qed.
Print Assumptions C91_detach.
(** Taking more points than it has is not reported: the code is that of success, and the
    cluster, which does not die, has nearly 2^32 points. *)
Theorem C91_detach_too_many_refuted : forall c k level, (0 <= c_num c < 2 ^ 32)%Z -> (c_num c < Z.of_nat k < 2 ^ 32)%Z ->
  detach_code c k = 1%Z /\ c_num (cluster_detach_points c k level) = (c_num c - Z.of_nat k + 2 ^ 32)%Z /\
  c_death (cluster_detach_points c k level) = c_death c.
Proof.
  intros c k level H1 H2. unfold detach_code, cluster_detach_points, u32, M32. cbn [c_num c_death]. replace ((c_num c - Z.of_nat k) mod 4294967296)%Z with (c_num c - Z.of_nat k + 4294967296)%Z.
  - cbv zeta. replace (c_num c - Z.of_nat k + 4294967296 =? 0)%Z with false by lia. replace (c_num c - Z.of_nat k + 4294967296 <? 0)%Z with false by lia. repeat split.
  - rewrite <- (Z_mod_plus_full _ 1 4294967296). rewrite Z.mod_small; lia.
Qed.
Print Assumptions C91_detach_too_many_refuted.

(** A parent and a child; the points grow the child's block twice; the child is asked, the
    parent destroyed by the release, the child by the program. *)
Definition small_program : list kcall :=
  [KNew None; KNew (Some 0); KAdd 1 [4; 2; 9]; KAdd 1 [7; 2; 1; 12; 11]; KHas 1 7; KHas 1 3; KRelease 1; KDestroy 1].
Example C91_example : SpecLife.wf empty_heap /\ match all_allowed [] small_program with
  | Some (s, a) => left_over s = 0 /\ a = [None; None; None; None; Some true; Some false; None; None] | None => False end.
Proof. split; [split; [constructor|intros x []]|]. vm_compute. split; reflexivity. Qed.
Example C91_example_detach : let c := cluster_new 3 None fone 10 in (0 <= c_num c < 2 ^ 32)%Z /\ (Z.of_nat 4 <= c_num c)%Z /\ (c_num c < Z.of_nat 11 < 2 ^ 32)%Z.
Proof. cbn. lia. Qed.
