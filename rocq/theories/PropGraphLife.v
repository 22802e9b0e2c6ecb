(** C88: the memory of a graph over its life. *)
From Coq Require Import Permutation Sorted.
From Verif Require Import Base ListFacts F64 F64Facts ModelMst ModelGraph ProofMst ProofGraph PropMst PropGraph ModelLife SpecLife PropLife ModelGraphLife SpecGraphLife.
From Verif Require ProofArrayList.
From Coq Require Import ZifyBool ZifyNat.
Local Open Scope nat_scope.

Definition lblocks (vs : list (vlist nat)) : list nat := flat_map blocks_of vs.
Definition roomy {A} (v : vlist A) : Prop := length (v_vals v) <= v_max v.
Definition good (L : list nat) (t : nat) (vs : list (vlist nat)) (h : heap) : Prop :=
  SpecLife.wf h /\ (forall x, cnt [t] x + cnt (lblocks vs) x + cnt L x = cnt (hp_live h) x) /\ Forall roomy vs.
Definition count_in (vs : list (vlist nat)) (v u : nat) : nat :=
  match nth_error vs v with Some l => count_occ Nat.eq_dec (v_vals l) u | None => 0 end.

Lemma alive_in b h : alive b h = true <-> In b (hp_live h). Proof. apply existsb_in. Qed.
Lemma cnt_one b x : cnt [b] x = if b =? x then 1 else 0.
Proof. unfold cnt. cbn [count_occ]. destruct (Nat.eq_dec b x), (Nat.eqb_spec b x); congruence. Qed.
Lemma cnt_cons b l x : cnt (b :: l) x = cnt [b] x + cnt l x. Proof. apply (cnt_app [b] l). Qed.

Lemma alloc1 h : SpecLife.wf h -> exists b h', alloc 1 h = ([b], h') /\ SpecLife.wf h' /\ (forall x, cnt (hp_live h') x = cnt [b] x + cnt (hp_live h) x).
Proof.
  intros HW. destruct (alloc_ok 1 h HW) as (W & C & _ & HL & _). destruct (alloc 1 h) as [[|b [|? ?]] h'] eqn:E; cbn in HL; try discriminate. exists b, h'. auto.
Qed.
Lemma alloc2 h : SpecLife.wf h -> exists b c h', alloc 2 h = ([b; c], h') /\ SpecLife.wf h' /\ (forall x, cnt (hp_live h') x = cnt [b; c] x + cnt (hp_live h) x).
Proof.
  intros HW. destruct (alloc_ok 2 h HW) as (W & C & _ & HL & _). destruct (alloc 2 h) as [[|b [|c [|? ?]]] h'] eqn:E; cbn in HL; try discriminate. exists b, c, h'. auto.
Qed.

Lemma split_at (vs : list (vlist nat)) v l : nth_error vs v = Some l -> exists p q, vs = p ++ l :: q /\ length p = v /\ forall l', upd vs v l' = p ++ l' :: q.
Proof.
  intros H. destruct (nth_error_split _ _ H) as (p & q & -> & E). exists p, q. split; [reflexivity|]. split; [exact E|]. intros l'.
  apply nth_error_ext. intros i. destruct (Nat.eq_dec i v) as [->|Hn].
  - rewrite nth_error_upd_eq by (rewrite app_length; cbn; lia). rewrite nth_error_app2, E, Nat.sub_diag by lia. reflexivity.
  - rewrite nth_error_upd_neq by auto. destruct (Nat.lt_ge_cases i v).
    + rewrite !nth_error_app1 by lia. reflexivity.
    + rewrite !nth_error_app2 by lia. destruct (i - length p) eqn:Ei; [lia|]. reflexivity.
Qed.
Lemma lblocks_app p q : lblocks (p ++ q) = lblocks p ++ lblocks q. Proof. apply flat_map_app. Qed.
Lemma lblocks_cons l q : lblocks (l :: q) = blocks_of l ++ lblocks q. Proof. reflexivity. Qed.

Lemma good_in L t vs h x : good L t vs h -> 0 < cnt [t] x + cnt (lblocks vs) x + cnt L x -> In x (hp_live h).
Proof. intros (_ & C & _) H. apply cnt_in. specialize (C x). lia. Qed.
Lemma good_table L t vs h : good L t vs h -> alive t h = true.
Proof. intros H. apply alive_in. apply (good_in _ _ _ _ t H). rewrite cnt_one, Nat.eqb_refl. lia. Qed.
Lemma good_touch L t vs h v l : good L t vs h -> nth_error vs v = Some l -> touch l h = Ok tt.
Proof.
  intros H E. destruct (split_at vs v l E) as (p & q & -> & _). unfold touch.
  assert (A : forall x, In x (blocks_of l) -> alive x h = true).
  { intros x Hx. apply alive_in. apply (good_in _ _ _ _ x H). rewrite lblocks_app, lblocks_cons, !cnt_app. apply cnt_in in Hx. lia. }
  rewrite !A by (cbn; auto). reflexivity.
Qed.
Lemma touch_in {A} (l : vlist A) h : incl (blocks_of l) (hp_live h) -> touch l h = Ok tt.
Proof. intros H. unfold touch. rewrite !(proj2 (alive_in _ _)) by (apply H; cbn; auto). reflexivity. Qed.

(** Appending to an adjacency list. *)
Lemma edge_append_ok L t vs h v x : good L t vs h -> v < length vs ->
  exists vs' h', edge_append t vs v x h = Ok (vs', h') /\ good L t vs' h' /\ length vs' = length vs /\
    forall v' u, count_in vs' v' u = count_in vs v' u + (if (v =? v') && (x =? u) then 1 else 0).
Proof.
  intros G Hv. unfold edge_append. rewrite (good_table _ _ _ _ G). destruct (aget_ok vs v Hv) as (l & -> & El). cbn [bind].
  destruct (split_at vs v l El) as (p & q & Evs & Ep & Eu). pose proof G as (W & C & R).
  assert (Rl : roomy l) by (rewrite Forall_forall in R; apply R; eapply nth_error_In; exact El).
  assert (K : exists l' h', list_append l x h = Ok (l', h') /\ v_vals l' = v_vals l ++ [x] /\ roomy l' /\ SpecLife.wf h' /\
    forall y, cnt (hp_live h') y + cnt (blocks_of l) y = cnt (hp_live h) y + cnt (blocks_of l') y).
  { unfold list_append. rewrite (good_touch _ _ _ _ _ _ G El). cbn [bind]. unfold roomy in *.
    destruct (Nat.eqb_spec (length (v_vals l)) (v_max l)) as [Em|Em].
    - destruct (free1_ok (v_blk l) h W) as (h1 & -> & W1 & C1).
      { apply (good_in _ _ _ _ _ G). rewrite Evs, lblocks_app, lblocks_cons, !cnt_app. unfold blocks_of. rewrite !(cnt_cons _ [_]), !cnt_one, Nat.eqb_refl. lia. }
      cbn [bind]. destruct (alloc1 h1 W1) as (b & h2 & -> & W2 & C2). cbn [hd]. unfold list_put. cbn [v_vals v_max v_hdr v_blk].
      pose proof (ProofArrayList.highestPowerof2_gt (v_max l * 2)) as Hg. rewrite (proj2 (Nat.ltb_lt _ _)) by lia.
      do 2 eexists. split; [reflexivity|]. cbn [v_vals v_max]. split; [reflexivity|]. split; [rewrite app_length; cbn [length]; lia|]. split; [exact W2|].
      intros y. specialize (C1 y). specialize (C2 y). unfold blocks_of. cbn [v_hdr v_blk]. rewrite !(cnt_cons _ [_]). lia.
    - unfold list_put. rewrite (proj2 (Nat.ltb_lt _ _)) by lia. do 2 eexists. split; [reflexivity|]. cbn [v_vals v_max]. split; [reflexivity|].
      split; [rewrite app_length; cbn [length]; lia|]. split; [exact W|]. intros y. reflexivity. }
  destruct K as (l' & h' & -> & Ev & Rl' & W' & C'). cbn [bind fst snd]. rewrite aset_ok by exact Hv. cbn [bind].
  do 2 eexists. split; [reflexivity|]. split; [|split].
  - split; [exact W'|]. split.
    + intros y. specialize (C y). specialize (C' y). rewrite Eu. rewrite Evs in C. rewrite !lblocks_app, !lblocks_cons, !cnt_app in *. lia.
    + rewrite Eu. rewrite Evs in R. apply Forall_app in R. destruct R as [R1 R2]. inversion R2. apply Forall_app. split; [exact R1|]. constructor; assumption.
  - apply upd_length.
  - intros v' u. unfold count_in. destruct (Nat.eqb_spec v v') as [<-|Hn].
    + rewrite nth_error_upd_eq by exact Hv. rewrite El, Ev, count_occ_app. cbn [count_occ andb]. destruct (Nat.eq_dec x u), (Nat.eqb_spec x u); try congruence; lia.
    + rewrite nth_error_upd_neq by auto. cbn [andb]. lia.
Qed.
(** Removing from one. *)
Lemma edge_remove_ok L t vs h v x : good L t vs h -> v < length vs ->
  exists vs', edge_remove t vs v x h = Ok vs' /\ good L t vs' h /\ length vs' = length vs /\
    forall v' u, count_in vs' v' u = count_in vs v' u - (if (v =? v') && (x =? u) then 1 else 0).
Proof.
  intros G Hv. unfold edge_remove. rewrite (good_table _ _ _ _ G). destruct (aget_ok vs v Hv) as (l & -> & El). cbn [bind].
  rewrite (good_touch _ _ _ _ _ _ G El). cbn [bind]. rewrite aset_ok by exact Hv.
  destruct (split_at vs v l El) as (p & q & Evs & Ep & Eu). pose proof G as (W & C & R).
  eexists. split; [reflexivity|]. split; [|split].
  - split; [exact W|]. rewrite Eu. rewrite Evs in C, R. split.
    + intros y. specialize (C y). rewrite !lblocks_app, !lblocks_cons, !cnt_app in *. exact C.
    + apply Forall_app in R. destruct R as [R1 R2]. inversion R2 as [|? ? R3 R4]. apply Forall_app. split; [exact R1|]. constructor; [|assumption].
      unfold roomy in *. cbn [v_vals v_max]. assert (Hr : forall z m, length (remove_first z m) <= length m).
      { intros z m. induction m as [|y m IH]; [reflexivity|]. cbn [remove_first]. destruct (z =? y); cbn [length]; lia. } specialize (Hr x (v_vals l)). lia.
  - apply upd_length.
  - intros v' u. unfold count_in. destruct (Nat.eqb_spec v v') as [<-|Hn].
    + rewrite nth_error_upd_eq by exact Hv. rewrite El. cbn [v_vals andb]. rewrite remove_first_count. destruct (x =? u); lia.
    + rewrite nth_error_upd_neq by auto. cbn [andb]. lia.
Qed.

Lemma new_lists_ok n : forall h, SpecLife.wf h -> exists vs h', new_lists n h = (vs, h') /\ SpecLife.wf h' /\ length vs = n /\ Forall roomy vs /\
  (forall x, cnt (hp_live h') x = cnt (lblocks vs) x + cnt (hp_live h) x) /\ forall v u, count_in vs v u = 0.
Proof.
  induction n as [|n IH]; intros h HW; cbn [new_lists].
  - exists [], h. split; [reflexivity|]. split; [exact HW|]. split; [reflexivity|]. split; [constructor|]. split; [reflexivity|]. intros [|v] u; reflexivity.
  - unfold list_new. destruct (alloc2 h HW) as (b & c & h1 & -> & W1 & C1). cbn [nth]. destruct (IH h1 W1) as (vs & h2 & -> & W2 & HL & R & C2 & E).
    do 2 eexists. split; [reflexivity|]. split; [exact W2|]. split; [cbn; lia|]. split; [constructor; [unfold roomy; cbn; lia|exact R]|]. split.
    + intros x. rewrite lblocks_cons, cnt_app, C2, C1. unfold blocks_of. cbn [v_hdr v_blk]. lia.
    + intros [|v] u; [reflexivity|]. apply (E v u).
Qed.

Lemma joined_snoc es v u x y : joined (es ++ [(x, y)]) v u = joined es v u + (if ((x =? v) && (y =? u)) || ((x =? u) && (y =? v)) then 1 else 0).
Proof. unfold joined. rewrite filter_app, app_length. cbn [filter fst snd]. destruct (_ || _); cbn [length]; lia. Qed.

Lemma nth_last (b : list nat) i : length b <= i -> 0 < length b -> nth i b (last b 0) = nth (i - 1) b (last b 0).
Proof.
  intros H H0. rewrite nth_overflow by lia. destruct (Nat.le_gt_cases (length b) (i - 1)); [rewrite nth_overflow by lia; reflexivity|].
  replace (i - 1) with (length b - 1) by lia. destruct (list_last_cases b) as [->|(l & a & ->)]; [cbn in H0; lia|].
  rewrite last_last, app_length. cbn [length]. rewrite app_nth2 by lia. replace (length l + 1 - 1 - length l) with 0 by lia. reflexivity.
Qed.

(** The loop over the edges. *)
Lemma rounds_ok L t vs h a b : good L t vs h -> incl (blocks_of a) L -> incl (blocks_of b) L ->
  (v_vals a <> [] -> v_vals b <> []) -> Forall (fun x => x < length vs) (v_vals a) -> Forall (fun x => x < length vs) (v_vals b) ->
  (forall v u, count_in vs v u = 0) ->
  exists o1 o2 vs' h', for_up 0 (length (v_vals a)) (init_round t a (Some b)) (None, None, vs, h) = Ok (o1, o2, vs', h') /\
    good L t vs' h' /\ length vs' = length vs /\ forall v u, count_in vs' v u = joined (ends_repeating (v_vals a) (v_vals b)) v u.
Proof.
  intros G Ia Ib Hne Fa Fb Hz. rewrite Forall_forall in Fa, Fb.
  set (f := fun i => (nth i (v_vals a) 0, nth i (v_vals b) (last (v_vals b) 0))).
  destruct (for_up_inv (fun i (s : option nat * option nat * list (vlist nat) * heap) => let '(one, two, vs', h') := s in
      good L t vs' h' /\ length vs' = length vs /\ (0 < i -> two = Some (nth (i - 1) (v_vals b) (last (v_vals b) 0))) /\
      forall v u, count_in vs' v u = joined (map f (seq 0 i)) v u)
    (init_round t a (Some b)) 0 (length (v_vals a)) (None, None, vs, h)) as ((((o1 & o2) & vs') & h') & E & P).
  - split; [exact G|]. split; [reflexivity|]. split; [lia|]. intros v u. rewrite Hz. reflexivity.
  - intros i (((one & two) & vs1) & h1) Hi (G1 & HL & Ht & Hc). unfold init_round.
    assert (Lv : forall bs, incl bs L -> incl bs (hp_live h1)).
    { intros bs Hb x Hx. apply (good_in _ _ _ _ x G1). apply Hb, cnt_in in Hx. lia. }
    unfold list_at. rewrite (touch_in a h1) by (apply Lv, Ia). cbn [bind the]. rewrite (touch_in b h1) by (apply Lv, Ib). cbn [bind].
    rewrite (nth_error_nth' (v_vals a) 0) by lia. cbn [the bind].
    assert (Hb : v_vals b <> []). { apply Hne. intros E. rewrite E in Hi. cbn in Hi. lia. }
    assert (E2 : match nth_error (v_vals b) i with Some x => Some x | None => two end = Some (snd (f i))).
    { unfold f. cbn [snd]. destruct (Nat.lt_ge_cases i (length (v_vals b))) as [Hl|Hl]; [rewrite (nth_error_nth' _ (last (v_vals b) 0)) by exact Hl; reflexivity|].
      rewrite (proj2 (nth_error_None _ _) Hl). assert (0 < length (v_vals b)) by (destruct (v_vals b); [congruence|cbn; lia]).
      rewrite Ht by lia. rewrite (nth_last _ i) by assumption. reflexivity. }
    rewrite E2. cbn [the bind]. set (x := nth i (v_vals a) 0). set (y := snd (f i)).
    assert (Hx : x < length vs1) by (rewrite HL; apply Fa, nth_In; lia).
    assert (Hy : y < length vs1).
    { rewrite HL. apply Fb. unfold y, f. cbn [snd]. destruct (Nat.lt_ge_cases i (length (v_vals b))) as [Hl|Hl]; [apply nth_In; exact Hl|].
      rewrite nth_overflow by exact Hl. destruct (list_last_cases (v_vals b)) as [E|(l & z & ->)]; [congruence|]. rewrite last_last. apply in_app_iff. right. left. reflexivity. }
    assert (Ef : f i = (x, y)) by reflexivity.
    destruct (edge_append_ok L t vs1 h1 x y G1 Hx) as (vs2 & h2 & -> & G2 & L2 & C2). cbn [bind fst snd].
    assert (Es : map f (seq 0 (S i)) = map f (seq 0 i) ++ [(x, y)]) by (rewrite seq_S, map_app; reflexivity).
    destruct (Nat.eqb_spec x y) as [Exy|Nxy].
    + eexists. split; [reflexivity|]. split; [exact G2|]. split; [lia|]. split; [intros _; rewrite Nat.sub_succ, Nat.sub_0_r; reflexivity|].
      intros v u. rewrite C2, Hc, Es, joined_snoc. rewrite <- Exy. destruct (x =? v), (x =? u); cbn [andb orb]; lia.
    + destruct (edge_append_ok L t vs2 h2 y x G2 ltac:(lia)) as (vs3 & h3 & -> & G3 & L3 & C3). cbn [bind fst snd].
      eexists. split; [reflexivity|]. split; [exact G3|]. split; [lia|]. split; [intros _; rewrite Nat.sub_succ, Nat.sub_0_r; reflexivity|].
      intros v u. rewrite C3, C2, Hc, Es, joined_snoc.
      destruct (Nat.eqb_spec x v), (Nat.eqb_spec y u), (Nat.eqb_spec y v), (Nat.eqb_spec x u); cbn [andb orb]; try lia; congruence.
  - cbn beta iota in P. destruct P as (G' & HL' & _ & Hc). exists o1, o2, vs', h'. split; [exact E|]. split; [exact G'|]. split; [exact HL'|]. exact Hc.
Qed.

(** Creation in general: the blocks of the lists only have to be allocated. *)
Lemma life_init_ok given zero n a b w h : SpecLife.wf h -> 1 <= n \/ zero = true ->
  incl (blocks_of a) (hp_live h) -> incl (blocks_of b) (hp_live h) -> (v_vals a <> [] -> v_vals b <> []) ->
  Forall (fun x => x < n) (v_vals a) -> Forall (fun x => x < n) (v_vals b) ->
  exists h' s t vs, life_graph_init given zero n (Some a) (Some b) w h = Ok (h', s, mk_graph n (Some a) (Some b) w (Some (t, vs)), true) /\
    (given = true <-> s = None) /\ good (match s with Some s => [s] | None => [] end ++ hp_live h) t vs h' /\ length vs = n /\
    forall v u, count_in vs v u = joined (ends_repeating (v_vals a) (v_vals b)) v u.
Proof.
  intros HW Hn Ia Ib Hne Fa Fb. unfold life_graph_init.
  assert (K : exists s h1, (if given then (None, h) else let (s, h) := alloc 1 h in (Some (hd 0 s), h)) = (s, h1) /\ (given = true <-> s = None) /\ SpecLife.wf h1 /\
    forall x, cnt (hp_live h1) x = cnt (match s with Some s => [s] | None => [] end ++ hp_live h) x).
  { destruct given.
    - exists None, h. split; [reflexivity|]. split; [tauto|]. split; [exact HW|]. reflexivity.
    - destruct (alloc1 h HW) as (s & h1 & -> & W1 & C1). exists (Some s), h1. split; [reflexivity|]. split; [split; discriminate|]. split; [exact W1|]. intros x. rewrite cnt_app. apply C1. }
  destruct K as (s & h1 & -> & Hs & W1 & C1). set (L := match s with Some s => [s] | None => [] end ++ hp_live h) in *.
  replace ((n =? 0) && negb zero) with false by (destruct Hn as [Hn| ->]; [destruct n; [lia|reflexivity]|rewrite Bool.andb_false_r; reflexivity]).
  destruct (alloc1 h1 W1) as (t & h2 & -> & W2 & C2). cbn [hd]. destruct (new_lists_ok n h2 W2) as (vs & h3 & -> & W3 & HL & R & C3 & Hz). cbn [the bind].
  assert (G : good L t vs h3). { split; [exact W3|]. split; [|exact R]. intros x. rewrite C3, C2, C1. lia. }
  assert (IL : incl (hp_live h) L) by (intros x Hx; apply in_app_iff; auto).
  rewrite (touch_in a h3).
  2: { intros x Hx. apply (good_in _ _ _ _ x G). apply Ia, IL, cnt_in in Hx. lia. }
  cbn [bind]. destruct (rounds_ok L t vs h3 a b G) as (o1 & o2 & vs' & h' & -> & G' & HL' & Hc); try rewrite HL; auto; [eapply incl_tran; eauto..|].
  cbn [bind]. exists h', s, t, vs'. split; [reflexivity|]. split; [exact Hs|]. split; [exact G'|]. split; [lia|]. exact Hc.
Qed.

(** Cleaning. *)
Lemma free_all_app a : forall b h, free_all (a ++ b) h = let! h := free_all a h in free_all b h.
Proof. induction a as [|x a IH]; intros b h; cbn [app free_all]; [reflexivity|]. destruct (free1 x h); cbn [bind]; [apply IH|reflexivity..]. Qed.
Definition order_of {A} (v : vlist A) : list nat := [v_blk v; v_hdr v].
Lemma order_cnt {A} (v : vlist A) x : cnt (order_of v) x = cnt (blocks_of v) x.
Proof. unfold order_of, blocks_of. rewrite !(cnt_cons _ [_]). lia. Qed.
Lemma list_delete_all {A} (v : vlist A) h : list_delete v h = free_all (order_of v) h.
Proof. unfold list_delete, order_of. cbn [free_all]. destruct (free1 (v_blk v) h) as [h1| | |]; cbn [bind]; try reflexivity. destruct (free1 (v_hdr v) h1); reflexivity. Qed.
Lemma delete_lists_all vs : forall p h, delete_lists (length vs) (p ++ vs) (length p) h = free_all (flat_map order_of vs) h.
Proof.
  induction vs as [|v vs IH]; intros p h; [reflexivity|]. cbn [length delete_lists flat_map]. rewrite (aget_nth _ _ v) by (rewrite nth_error_app2, Nat.sub_diag by lia; reflexivity).
  cbn [bind]. rewrite list_delete_all, free_all_app. destruct (free_all (order_of v) h) as [h1| | |]; cbn [bind]; try reflexivity.
  specialize (IH (p ++ [v]) h1). rewrite <- app_assoc, app_length, Nat.add_1_r in IH. exact IH.
Qed.
Lemma orders_cnt vs x : cnt (flat_map order_of vs) x = cnt (lblocks vs) x.
Proof. induction vs as [|v vs IH]; [reflexivity|]. rewrite lblocks_cons. cbn [flat_map]. rewrite !cnt_app, IH, order_cnt. reflexivity. Qed.
Definition opt_blocks {A} (p : option (vlist A)) : list nat := match p with Some v => blocks_of v | None => [] end.
Lemma list_drop_ok {A} (p : option (vlist A)) h : SpecLife.wf h -> (forall x, cnt (opt_blocks p) x <= cnt (hp_live h) x) ->
  exists h', list_drop p h = Ok h' /\ SpecLife.wf h' /\ forall x, cnt (hp_live h') x + cnt (opt_blocks p) x = cnt (hp_live h) x.
Proof.
  intros HW HC. destruct p as [v|]; cbn [list_drop opt_blocks] in *.
  - rewrite list_delete_all. destruct (free_all_ok (order_of v) h HW) as (h' & E & W & C); [intros x; rewrite order_cnt; apply HC|].
    exists h'. split; [exact E|]. split; [exact W|]. intros x. rewrite <- order_cnt. apply C.
  - exists h. split; [reflexivity|]. split; [exact HW|]. intros x. rewrite cnt_nil. lia.
Qed.
Lemma clean_ok L t vs h n a b w : good L t vs h -> length vs = n ->
  (forall x, cnt (opt_blocks a) x + cnt (opt_blocks b) x + cnt (opt_blocks w) x <= cnt L x) ->
  exists h', life_graph_clean h (mk_graph n a b w (Some (t, vs))) = Ok (h', mk_graph n None None None None) /\ SpecLife.wf h' /\
    forall x, cnt (hp_live h') x + cnt (opt_blocks a) x + cnt (opt_blocks b) x + cnt (opt_blocks w) x = cnt L x.
Proof.
  intros (W & C & _) HL HC. unfold life_graph_clean. cbn [q_a q_b q_w q_edges q_num].
  destruct (list_drop_ok a h W) as (h1 & -> & W1 & C1); [intros x; specialize (C x); specialize (HC x); lia|]. cbn [bind].
  destruct (list_drop_ok b h1 W1) as (h2 & -> & W2 & C2); [intros x; specialize (C x); specialize (HC x); specialize (C1 x); lia|]. cbn [bind].
  destruct (list_drop_ok w h2 W2) as (h3 & -> & W3 & C3); [intros x; specialize (C x); specialize (HC x); specialize (C1 x); specialize (C2 x); lia|]. cbn [bind].
  assert (C4 : forall x, cnt [t] x + cnt (lblocks vs) x <= cnt (hp_live h3) x) by (intros x; specialize (C x); specialize (HC x); specialize (C1 x); specialize (C2 x); specialize (C3 x); lia).
  assert (At : forall k, (forall x, cnt [t] x <= cnt (hp_live k) x) -> In t (hp_live k)) by (intros k Hk; apply cnt_in; specialize (Hk t); rewrite cnt_one, Nat.eqb_refl in Hk; lia).
  rewrite (proj2 (alive_in t h3)) by (apply At; intros x; specialize (C4 x); lia).
  rewrite <- HL. change (delete_lists (length vs) vs 0 h3) with (delete_lists (length vs) ([] ++ vs) (length (@nil (vlist nat))) h3). rewrite delete_lists_all.
  destruct (free_all_ok (flat_map order_of vs) h3 W3) as (h4 & -> & W4 & C5); [intros x; rewrite orders_cnt; specialize (C4 x); lia|]. cbn [bind].
  destruct (free1_ok t h4 W4) as (h5 & -> & W5 & C6); [apply At; intros x; specialize (C4 x); specialize (C5 x); rewrite orders_cnt in C5; lia|]. cbn [bind].
  exists h5. split; [reflexivity|]. split; [exact W5|]. intros x. specialize (C x). specialize (C1 x). specialize (C2 x). specialize (C3 x). specialize (C5 x). specialize (C6 x). rewrite orders_cnt in C5. lia.
Qed.

(** The calls. *)
Definition same_place {A} (v v' : vlist A) : Prop := blocks_of v = blocks_of v'.
Lemma gperform_all_ok L t n h cs : forall vs a b w, good L t vs h -> length vs = n ->
  incl (given_blocks a b w) L -> length (v_vals a) = length (v_vals b) -> length (v_vals a) = length (v_vals w) -> Forall (names_vertices n) cs ->
  exists vs' a' b' w', gperform_all h cs (mk_graph n (Some a) (Some b) (Some w) (Some (t, vs))) = Ok (mk_graph n (Some a') (Some b') (Some w') (Some (t, vs'))) /\
    good L t vs' h /\ length vs' = n /\ given_blocks a' b' w' = given_blocks a b w /\
    Permutation (combine (combine (v_vals a) (v_vals b)) (v_vals w)) (combine (combine (v_vals a') (v_vals b')) (v_vals w')) /\
    forall v u, count_in vs' v u = count_in vs v u - taken cs v u.
Proof.
  induction cs as [|c cs IH]; intros vs a b w G HL I H1 H2 F.
  - exists vs, a, b, w. split; [reflexivity|]. split; [exact G|]. split; [exact HL|]. split; [reflexivity|]. split; [reflexivity|]. intros v u. cbn [taken]. lia.
  - inversion F as [|? ? F1 F2]; subst. destruct c as [va vb|]; cbn [gperform_all gperform names_vertices] in *.
    + unfold life_remove_edge. cbn [q_edges the bind fst snd q_num q_a q_b q_w].
      destruct (edge_remove_ok L t vs h va vb G ltac:(lia)) as (vs1 & -> & G1 & L1 & C1). cbn [bind].
      destruct (edge_remove_ok L t vs1 h vb va G1 ltac:(lia)) as (vs2 & -> & G2 & L2 & C2). cbn [bind].
      destruct (IH vs2 a b w G2 ltac:(lia) I H1 H2 F2) as (vs' & a' & b' & w' & E & G' & L' & B' & P' & C'). exists vs', a', b', w'. split; [exact E|]. split; [exact G'|]. split; [exact L'|].
      split; [exact B'|]. split; [exact P'|]. intros v u. rewrite C', C2, C1. cbn [taken]. lia.
    + unfold life_sort. cbn [q_w q_a q_b q_edges q_num the bind].
      assert (Lv : incl (given_blocks a b w) (hp_live h)) by (intros x Hx; apply (good_in _ _ _ _ x G); apply I, cnt_in in Hx; lia).
      rewrite (touch_in w h) by (intros x Hx; apply Lv; unfold given_blocks; rewrite !in_app_iff; auto). cbn [bind].
      destruct (length (v_vals w) <=? 1) eqn:El; cbn [bind].
      * destruct (IH vs a b w G eq_refl I H1 H2 F2) as (vs' & a' & b' & w' & E & G' & L' & B' & P' & C'). exists vs', a', b', w'. auto 7.
      * rewrite (touch_in a h) by (intros x Hx; apply Lv; unfold given_blocks; rewrite !in_app_iff; auto). cbn [bind].
        rewrite (touch_in b h) by (intros x Hx; apply Lv; unfold given_blocks; rewrite !in_app_iff; auto). cbn [bind].
        destruct (C23_quicksort_by_edge_weight (mk_edges (v_vals a) (v_vals b) (v_vals w)) (conj H1 H2)) as (e & -> & (A1 & A2) & P & _). cbn [bind].
        destruct (IH vs (with_vals a (e_a e)) (with_vals b (e_b e)) (with_vals w (e_w e)) G eq_refl I A1 A2 F2) as (vs' & a' & b' & w' & E & G' & L' & B' & P' & C').
        exists vs', a', b', w'. split; [exact E|]. split; [exact G'|]. split; [exact L'|]. split; [exact B'|]. split; [|exact C'].
        cbn [v_vals with_vals] in P'. eapply Permutation_trans; [|exact P']. exact P.
Qed.

Lemma ends_aligned (a b : list nat) : length a = length b -> ends_repeating a b = combine a b.
Proof.
  intros H. apply nth_error_ext. intros i. unfold ends_repeating. destruct (Nat.lt_ge_cases i (length a)) as [Hi|Hi].
  - rewrite (map_nth_error _ i (seq 0 (length a)) (d := i)) by (rewrite (nth_error_nth' _ 0) by (rewrite seq_length; lia); rewrite seq_nth by lia; reflexivity).
    rewrite (nth_error_nth' _ (0, 0)) by (rewrite combine_length; lia). rewrite combine_nth by exact H. do 2 f_equal. apply nth_indep. lia.
  - rewrite !(proj2 (nth_error_None _ _)); auto; [rewrite combine_length; lia|rewrite map_length, seq_length; lia].
Qed.

Lemma listed_count n a b w t vs v u : listed (mk_graph n a b w (Some (t, vs))) v u = count_in vs v u. Proof. reflexivity. Qed.
Lemma given_cnt a b w x : cnt (given_blocks a b w) x = cnt (blocks_of a) x + cnt (blocks_of b) x + cnt (blocks_of w) x.
Proof. unfold given_blocks. rewrite !cnt_app. lia. Qed.

(** C88.  A graph made from three separate lists of equal length, with vertices of the
    graph: creation ends, the adjacency lists are those of the edges; removing and sorting
    end and have their effect; cleaning or destroying the graph frees the three lists and
    everything the graph allocated, each once, and nothing else; cleaning again does
    nothing.  [Ok] excludes every access to a freed block and every double free. *)
Theorem C88_graph_life : forall h given zero n a b w cs,
  SpecLife.wf h -> 1 <= n \/ zero = true -> separate h a b w ->
  length (v_vals a) = length (v_vals b) -> length (v_vals a) = length (v_vals w) ->
  Forall (fun x => x < n) (v_vals a) -> Forall (fun x => x < n) (v_vals b) -> Forall (names_vertices n) cs ->
  exists h1 s g g2 h3 g3,
    life_graph_init given zero n (Some a) (Some b) (Some w) h = Ok (h1, s, g, true) /\ (given = true <-> s = None) /\
    (forall v u, listed g v u = joined (combine (v_vals a) (v_vals b)) v u) /\
    gperform_all h1 cs g = Ok g2 /\ Permutation (combine (combine (v_vals a) (v_vals b)) (v_vals w)) (edge_list g2) /\
    (forall v u, listed g2 v u = joined (combine (v_vals a) (v_vals b)) v u - taken cs v u) /\
    life_graph_clean h1 g2 = Ok (h3, g3) /\
    (forall x, In x (hp_live h3) <-> s = Some x \/ (In x (hp_live h) /\ ~ In x (given_blocks a b w))) /\
    life_graph_clean h3 g3 = Ok (h3, g3) /\
    (forall p, s = Some p -> exists h4, life_graph_destroy h1 p g2 = Ok h4 /\
       forall x, In x (hp_live h4) <-> In x (hp_live h) /\ ~ In x (given_blocks a b w)).
Proof.
  intros h given zero n a b w cs HW Hn [HN HI] H1 H2 Fa Fb Fc.
  assert (Ia : incl (blocks_of a) (hp_live h)) by (intros x Hx; apply HI; unfold given_blocks; rewrite !in_app_iff; auto).
  assert (Ib : incl (blocks_of b) (hp_live h)) by (intros x Hx; apply HI; unfold given_blocks; rewrite !in_app_iff; auto).
  destruct (life_init_ok given zero n a b (Some w) h HW Hn Ia Ib) as (h1 & s & t & vs & E & Hs & G & HL & Hc); [destruct (v_vals a), (v_vals b); cbn in H1; congruence|exact Fa|exact Fb|].
  rewrite (ends_aligned _ _ H1) in Hc. set (L := match s with Some s => [s] | None => [] end ++ hp_live h) in *.
  assert (IL : incl (given_blocks a b w) L) by (intros x Hx; apply in_app_iff; right; apply HI, Hx).
  destruct (gperform_all_ok L t n h1 cs vs a b w G HL IL H1 H2 Fc) as (vs' & a' & b' & w' & Ep & G' & HL' & EB & P & Hc').
  assert (Cg : forall x, cnt (given_blocks a b w) x <= cnt L x).
  { intros x. destruct (in_dec Nat.eq_dec x (given_blocks a b w)) as [Hx|Hx].
    - pose proof (cnt_nodup _ x HN). apply IL, cnt_in in Hx. lia.
    - replace (cnt (given_blocks a b w) x) with 0; [lia|]. symmetry. apply (count_occ_not_In Nat.eq_dec). exact Hx. }
  destruct (clean_ok L t vs' h1 n (Some a') (Some b') (Some w') G' HL') as (h3 & Ec & W3 & C3).
  { intros x. cbn [opt_blocks]. rewrite <- given_cnt, EB. apply Cg. }
  cbn [opt_blocks] in C3.
  assert (C4 : forall x, cnt (hp_live h3) x + cnt (given_blocks a b w) x = cnt L x) by (intros x; rewrite <- EB, given_cnt, <- C3; lia).
  assert (NL : forall x, cnt L x <= 1).
  { intros x. destruct G as ((N & _) & C & _). pose proof (cnt_nodup _ x N). specialize (C x). lia. }
  assert (D3 : forall x, In x (hp_live h3) <-> s = Some x \/ (In x (hp_live h) /\ ~ In x (given_blocks a b w))).
  { intros x. specialize (C4 x). specialize (NL x). rewrite !cnt_in, C4 || rewrite !cnt_in. 
    assert (HLx : cnt L x = cnt (match s with Some s => [s] | None => [] end) x + cnt (hp_live h) x) by apply cnt_app.
    assert (Hgl : 0 < cnt (given_blocks a b w) x -> 0 < cnt (hp_live h) x) by (intros Hx; apply cnt_in; apply cnt_in in Hx; apply HI, Hx).
    assert (Hsx : s = Some x <-> 0 < cnt (match s with Some s => [s] | None => [] end) x).
    { destruct s as [p|]; [|rewrite cnt_nil; split; [discriminate|lia]]. rewrite cnt_one. destruct (Nat.eqb_spec p x); split; intros K; try lia; congruence. }
    rewrite Hsx. lia. }
  exists h1, s, (mk_graph n (Some a) (Some b) (Some w) (Some (t, vs))), (mk_graph n (Some a') (Some b') (Some w') (Some (t, vs'))), h3, (mk_graph n None None None None).
  split; [exact E|]. split; [exact Hs|]. split; [intros v u; rewrite listed_count; apply Hc|]. split; [exact Ep|]. split; [exact P|].
  split; [intros v u; rewrite listed_count, Hc', Hc; reflexivity|]. split; [exact Ec|]. split; [exact D3|]. split; [reflexivity|].
  intros p ->. unfold life_graph_destroy. rewrite Ec. cbn [bind fst]. destruct (free1_ok p h3 W3) as (h4 & -> & W4 & C5); [apply D3; auto|].
  exists h4. split; [reflexivity|]. intros x. specialize (C5 x). rewrite cnt_one in C5. destruct (Nat.eqb_spec p x) as [Ep0|Hx].
  - subst x. split; intros K.
    + exfalso. apply cnt_in in K. pose proof (cnt_nodup _ p (proj1 W3)). lia.
    + exfalso. specialize (NL p). unfold L in NL. rewrite cnt_app, cnt_one, Nat.eqb_refl in NL. destruct K as [K _]. apply cnt_in in K. lia.
  - transitivity (In x (hp_live h3)); [rewrite !cnt_in; lia|]. rewrite D3. split; [intros [K|K]; [congruence|exact K]|auto].
Qed.
Print Assumptions C88_graph_life.

(** The same list for both ends of the edges: the graph is made, but cleaning it frees the
    list twice. *)
Theorem C88_shared_list_refuted : forall h given zero n a w, SpecLife.wf h -> 1 <= n \/ zero = true ->
  incl (blocks_of a) (hp_live h) -> Forall (fun x => x < n) (v_vals a) ->
  exists h1 s g, life_graph_init given zero n (Some a) (Some a) w h = Ok (h1, s, g, true) /\ life_graph_clean h1 g = UB.
Proof.
  intros h given zero n a w HW Hn Ia Fa. destruct (life_init_ok given zero n a a w h HW Hn Ia Ia (fun H => H) Fa Fa) as (h1 & s & t & vs & E & _).
  do 3 eexists. split; [exact E|]. unfold life_graph_clean. cbn [q_a q_b list_drop]. unfold list_delete, free1 at 1.
  destruct (existsb (Nat.eqb (v_blk a)) (hp_live h1)); [|reflexivity]. cbn [bind]. unfold free1 at 1. cbn [hp_live]. destruct (existsb _ _); [|reflexivity]. cbn [bind].
  unfold free1 at 1. cbn [hp_live]. destruct (existsb _ _) eqn:Ee; [|reflexivity]. exfalso. apply existsb_in in Ee. apply filter_In in Ee. destruct Ee as [Ee _].
  apply filter_In in Ee. rewrite Nat.eqb_refl in Ee. destruct Ee; discriminate.
Qed.
Print Assumptions C88_shared_list_refuted.

(** A second list shorter than the first is not noticed: its last vertex is used again for
    the remaining edges.  When it is empty an uninitialised vertex is used. *)
Theorem C88_short_list_refuted : forall h given zero n a b w, SpecLife.wf h -> 1 <= n \/ zero = true ->
  incl (blocks_of a) (hp_live h) -> incl (blocks_of b) (hp_live h) -> Forall (fun x => x < n) (v_vals a) -> Forall (fun x => x < n) (v_vals b) ->
  length (v_vals b) < length (v_vals a) ->
  (v_vals b <> [] -> exists h1 s g, life_graph_init given zero n (Some a) (Some b) w h = Ok (h1, s, g, true) /\
     forall v u, listed g v u = joined (ends_repeating (v_vals a) (v_vals b)) v u) /\
  (v_vals b = [] -> life_graph_init given zero n (Some a) (Some b) w h = UB).
Proof.
  intros h given zero n a b w HW Hn Ia Ib Fa Fb Hlt. split.
  - intros Hb. destruct (life_init_ok given zero n a b w h HW Hn Ia Ib (fun _ => Hb) Fa Fb) as (h1 & s & t & vs & E & _ & _ & _ & Hc).
    do 3 eexists. split; [exact E|]. intros v u. rewrite listed_count. apply Hc.
  - intros Hb. destruct (life_init_ok given zero n (with_vals a []) b w h HW Hn Ia Ib) as (h1 & s & t & vs & E & _); [cbn; congruence|constructor|exact Fb|]. revert E. unfold life_graph_init.
    destruct (if given then _ else _) as [s0 h0]. destruct ((n =? 0) && negb zero) eqn:Ez.
    { exfalso. destruct Hn as [Hn| ->]; [destruct n; [lia|discriminate]|rewrite Bool.andb_false_r in Ez; discriminate]. }
    destruct (alloc 1 h0) as [t0 h2]. destruct (new_lists n h2) as [vs0 h3]. cbn [the bind]. change (touch (with_vals a []) h3) with (touch a h3).
    destruct (touch a h3) eqn:Et; cbn [bind]; intros K; try discriminate K. clear K. destruct (length (v_vals a)) as [|m] eqn:El; [lia|]. cbn [for_up].
    unfold init_round at 1. unfold list_at at 1. rewrite Et. cbn [bind]. rewrite (nth_error_nth' _ 0) by lia. cbn [the bind]. unfold list_at.
    destruct (touch b h3) eqn:Eb; cbn [bind]; [rewrite Hb; reflexivity|reflexivity|unfold touch in Eb; destruct (alive (v_hdr b) h3 && alive (v_blk b) h3); discriminate Eb..].
Qed.
Print Assumptions C88_short_list_refuted.

(** After graph_clean the fields are NULL: removing an edge and sorting dereference them. *)
Theorem C88_use_after_clean_refuted : forall h g h' g', life_graph_clean h g = Ok (h', g') ->
  (forall va vb, life_remove_edge h' g' va vb = UB) /\ life_sort h' g' = UB.
Proof.
  intros h g h' g' H. unfold life_graph_clean in H. apply bind_ok in H. destruct H as (h1 & _ & H). apply bind_ok in H. destruct H as (h2 & _ & H).
  apply bind_ok in H. destruct H as (h3 & _ & H). apply bind_ok in H. destruct H as (h4 & _ & H). injection H as <- <-. split; reflexivity.
Qed.
Print Assumptions C88_use_after_clean_refuted.

(** The default constructor of the C++ class dereferences NULL when malloc(0) gives a block
    (as glibc does); when malloc(0) gives NULL the object can be made and destroyed. *)
Theorem C88_default_constructor_refuted : forall h, cpp_graph true h = UB /\ cpp_graph false h = Ok h.
Proof. intros h. split; reflexivity. Qed.
Print Assumptions C88_default_constructor_refuted.

(** When malloc(0) gives NULL, a graph without vertices is reported as a failure and the
    struct that graph_init allocated is lost. *)
Theorem C88_no_vertices_leak_refuted : forall h a b w, SpecLife.wf h ->
  exists h1 s g, life_graph_init false false 0 a b w h = Ok (h1, Some s, g, false) /\ ~ In s (hp_live h) /\ Permutation (hp_live h1) (s :: hp_live h).
Proof.
  intros h a b w HW. unfold life_graph_init. destruct (alloc1 h HW) as (s & h1 & -> & W1 & C1). cbn [hd Nat.eqb negb andb].
  do 3 eexists. split; [reflexivity|]. split.
  - intros K. pose proof (cnt_nodup _ s (proj1 W1)). specialize (C1 s). rewrite cnt_one, Nat.eqb_refl in C1. apply cnt_in in K. lia.
  - apply cnt_perm. intros x. rewrite C1. symmetry. apply cnt_cons.
Qed.
Print Assumptions C88_no_vertices_leak_refuted.

(** A graph with 40 parallel edges, so that two adjacency lists grow, and a self loop. *)
Example C88_example :
  let h := mk_heap 7 [0; 1; 2; 3; 4; 5; 6] in
  let a := mk_vlist 0 1 (repeat 0 40 ++ [2]) 64 in
  let b := mk_vlist 2 3 (repeat 1 40 ++ [2]) 64 in
  let w := mk_vlist 4 5 (repeat (f_of_Z 1) 41) 64 in
  SpecLife.wf h /\ separate h a b w /\ Forall (fun x => x < 3) (v_vals a) /\ Forall (fun x => x < 3) (v_vals b) /\
  (let! r := life_graph_init false true 3 (Some a) (Some b) (Some w) h in
   let '(h1, s, g, _) := r in
   let! g2 := gperform_all h1 [GRemove 0 1; GSort; GRemove 2 2] g in
   let! h4 := life_graph_destroy h1 (match s with Some p => p | None => 0 end) g2 in
   Ok (listed g 0 1, listed g 1 0, listed g 2 2, listed g2 0 1, listed g2 1 0, listed g2 2 2, hp_live h1, hp_live h4)) =
    Ok (40, 40, 1, 39, 39, 0, [16; 15; 13; 14; 11; 9; 8; 7; 0; 1; 2; 3; 4; 5; 6], [6]).
Proof.
  cbv zeta. split; [split; [repeat constructor; cbn; intuition lia|cbn; intuition lia]|].
  split; [split; [repeat constructor; cbn; intuition lia|intros x; cbn; intuition lia]|].
  split; [cbn [v_vals]; apply Forall_forall; intros x Hx; cbn in Hx; lia|]. split; [cbn [v_vals]; apply Forall_forall; intros x Hx; cbn in Hx; lia|].
  vm_compute. reflexivity.
Qed.
