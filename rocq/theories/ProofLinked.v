(** The linked list refines sequences for adds, reads, front removals and clear. *)
From Coq Require Import Permutation.
From Verif Require Import Base ListFacts ModelCells ModelLinked SpecSeq SpecLinked CellFacts.

Section Proofs.
Context {A : Type}.
Notation llist := (llist A).

Definition lrep_at (ll : llist) (cs : list (nat * A)) : Prop :=
  NoDup (map fst cs) /\ seg (ll_heap ll) None cs None /\
  ll_head ll = firstp cs None /\ ll_tail ll = lastp None cs /\
  ll_size ll = Z.of_nat (length cs).

Definition lrep (ll : llist) (l : list A) : Prop := exists cs, map snd cs = l /\ lrep_at ll cs.

Lemma lrep_init : lrep linkedlist_init [].
Proof. exists []. split; auto. repeat split; auto. constructor. Qed.

Lemma seg_lt (h : heap A) pr cs q a : seg h pr cs q -> In a (map fst cs) -> a < length h.
Proof. intros H. eapply nseg_lt. eapply seg_nseg; eauto. Qed.

Lemma front_add_ok ll cs x : lrep_at ll cs ->
  exists ll', linkedlist_front_add ll x = Ok (ll', 1%Z) /\
              lrep_at ll' ((length (ll_heap ll), x) :: cs).
Proof.
  intros (Hd & Hs & Hh & Ht & Hz).
  assert (Hfresh : ~ In (length (ll_heap ll)) (map fst cs)).
  { intros H. apply (seg_lt _ _ _ _ _ Hs) in H. lia. }
  unfold linkedlist_front_add, halloc.
  assert (Hd' : NoDup (map fst ((length (ll_heap ll), x) :: cs))) by (cbn; now constructor).
  destruct cs as [|[b w] t].
  - cbn in Hz. rewrite Hz. cbn [Z.gtb Z.compare]. eexists; split; [reflexivity|].
    unfold lrep_at; cbn [ll_heap ll_size ll_head ll_tail]. split; [exact Hd'|].
    split; [|repeat split]. cbn. split; auto.
    rewrite nth_error_app2, Nat.sub_diag by lia. reflexivity.
  - destruct (Z.gtb_spec (ll_size ll) 0) as [Hgt|Hle]; [|cbn [length] in Hz; lia].
    rewrite Hh. cbn [firstp].
    pose proof (seg_alloc _ _ _ _ (Some (Cell x None None)) Hs) as Hs1.
    set (h1 := ll_heap ll ++ [Some (Cell x None None)]) in *.
    inversion Hd as [|? ? Hnb Hdt]; subst.
    destruct (seg_set_first h1 None b w t None (Some (length (ll_heap ll))) Hnb Hs1)
      as (h2 & E2 & S2 & O2 & L2).
    rewrite E2. cbn [bind].
    assert (Hnew : nth_error h2 (length (ll_heap ll)) = Some (Some (Cell x None None))).
    { rewrite O2.
      - unfold h1. rewrite nth_error_app2, Nat.sub_diag by lia. reflexivity.
      - intros E. apply Hfresh. cbn. auto. }
    rewrite (set_next_eq _ _ _ _ _ (Some b) Hnew). cbn [bind].
    eexists; split; [reflexivity|].
    unfold lrep_at; cbn [ll_heap ll_size ll_head ll_tail]. split; [exact Hd'|].
    split; [|repeat split].
    + cbn [seg]. split.
      * rewrite nth_error_upd_eq; [reflexivity|]. eapply some_lt; eauto.
      * apply (seg_upd h2 (Some (length (ll_heap ll))) ((b, w) :: t) None); auto.
    + exact Ht.
    + cbn [length]. cbn [length] in Hz. lia.
Qed.

Lemma tail_add_ok ll cs x : lrep_at ll cs ->
  exists ll', linkedlist_tail_add ll x = Ok (ll', 1%Z) /\
              lrep_at ll' (cs ++ [(length (ll_heap ll), x)]).
Proof.
  intros (Hd & Hs & Hh & Ht & Hz).
  assert (Hfresh : ~ In (length (ll_heap ll)) (map fst cs)).
  { intros H. apply (seg_lt _ _ _ _ _ Hs) in H. lia. }
  unfold linkedlist_tail_add, halloc.
  assert (Hd' : NoDup (map fst (cs ++ [(length (ll_heap ll), x)]))).
  { rewrite map_app. cbn. apply NoDup_Add with (a := length (ll_heap ll)) (l := map fst cs).
    - rewrite <- (app_nil_r (map fst cs)) at 1. apply Add_app.
    - split; auto. }
  destruct (list_last_cases cs) as [->|(l & (b & w) & ->)].
  - cbn in Hz. rewrite Hz. cbn [Z.gtb Z.compare]. eexists; split; [reflexivity|].
    unfold lrep_at; cbn [ll_heap ll_size ll_head ll_tail app]. split; [exact Hd'|].
    split; [|repeat split]. cbn. split; auto.
    rewrite nth_error_app2, Nat.sub_diag by lia. reflexivity.
  - assert (Hl : length (l ++ [(b, w)]) = S (length l)) by (rewrite app_length; cbn; lia).
    destruct (Z.gtb_spec (ll_size ll) 0) as [Hgt|Hle]; [|lia].
    rewrite Ht. rewrite lastp_app. cbn [lastp].
    pose proof (seg_alloc _ _ _ _ (Some (Cell x None None)) Hs) as Hs1.
    set (h1 := ll_heap ll ++ [Some (Cell x None None)]) in *.
    destruct (seg_set_last h1 None l b w None (Some (length (ll_heap ll))) Hd Hs1)
      as (h2 & E2 & S2 & O2 & L2).
    rewrite E2. cbn [bind].
    assert (Hnew : nth_error h2 (length (ll_heap ll)) = Some (Some (Cell x None None))).
    { rewrite O2.
      - unfold h1. rewrite nth_error_app2, Nat.sub_diag by lia. reflexivity.
      - intros E. apply Hfresh. rewrite map_app, in_app_iff. cbn. auto. }
    rewrite (set_prev_eq _ _ _ _ _ (Some b) Hnew). cbn [bind].
    eexists; split; [reflexivity|].
    unfold lrep_at; cbn [ll_heap ll_size ll_head ll_tail]. split; [exact Hd'|].
    split; [|repeat split].
    + rewrite seg_app. cbn [firstp]. split.
      * apply seg_upd; auto.
      * cbn [seg]. split; auto. rewrite lastp_app. cbn [lastp].
        rewrite nth_error_upd_eq; [reflexivity|]. eapply some_lt; eauto.
    + rewrite Hh. rewrite !firstp_app. destruct l as [|[? ?] ?]; reflexivity.
    + rewrite lastp_app. reflexivity.
    + rewrite app_length. cbn [length]. lia.
Qed.

(** The effect of unhooking the cell [a] in the middle of a well linked list. *)
Lemma unhook_ok ll l1 a v l2 :
  lrep_at ll (l1 ++ (a, v) :: l2) ->
  exists ll', linkedlist_node_unhook ll (Some a) = Ok ll' /\
    nseg (ll_heap ll') (l1 ++ l2) None /\
    (exists n p, nth_error (ll_heap ll') a = Some (Some (Cell v n p))) /\
    ll_size ll' = Z.of_nat (length (l1 ++ l2)) /\ length (ll_heap ll') = length (ll_heap ll) /\
    ll_head ll' = firstp (l1 ++ l2) None /\
    (l1 = [] -> lrep_at ll' l2) /\
    (l1 <> [] -> l2 = [] -> ll_tail ll' = None) /\
    (forall b w t, l1 <> [] -> l2 = (b, w) :: t ->
        seg (ll_heap ll') None l2 None).
Proof.
  intros (Hd & Hs & Hh & Ht & Hz).
  rewrite map_app in Hd. cbn [map fst] in Hd.
  pose proof (NoDup_remove_1 _ _ _ Hd) as Hd12. pose proof (NoDup_remove_2 _ _ _ Hd) as Hna.
  rewrite <- map_app in Hd12, Hna.
  assert (Hna1 : ~ In a (map fst l1)) by (intros H; apply Hna; rewrite map_app, in_app_iff; auto).
  assert (Hna2 : ~ In a (map fst l2)) by (intros H; apply Hna; rewrite map_app, in_app_iff; auto).
  assert (Hl : length (l1 ++ (a, v) :: l2) = S (length (l1 ++ l2))) by (rewrite !app_length; cbn; lia).
  rewrite seg_app in Hs. cbn [firstp seg] in Hs. destruct Hs as (S1 & Sa & S2).
  unfold linkedlist_node_unhook. cbn [is_null orb].
  destruct (Z.eqb_spec (ll_size ll) 0) as [E0|E0]; [lia|].
  rewrite (hload_eq _ _ _ Sa). cbn [bind c_prev c_next c_val].
  destruct (list_last_cases l1) as [->|(l & (b & w) & ->)].
  - (* first node *)
    cbn [lastp is_null negb app] in *.
    destruct l2 as [|[b w] t].
    + cbn [firstp is_null bind ll_heap ll_size ll_head ll_tail]. rewrite (hload_eq _ _ _ Sa). cbn [bind c_next c_prev is_null negb].
      eexists; split; [reflexivity|]. cbn [ll_heap ll_size ll_head ll_tail].
      cbn [nseg length]. split; [auto|]. split; [eauto|]. split; [cbn in *; lia|]. split; auto.
      split; auto. split; [|split; congruence].
      intros _. repeat split; auto. cbn in *. lia.
    + cbn [firstp is_null].
      inversion Hd12 as [|? ? Hnb Hdt]; subst.
      destruct (seg_set_first _ _ b w t None None Hnb S2) as (h1 & E1 & S1' & O1 & L1).
      rewrite E1. cbn [bind ll_heap ll_size ll_head ll_tail].
      assert (Sa1 : nth_error h1 a = Some (Some (Cell v (Some b) None))).
      { rewrite O1; [exact Sa|]. intros E. apply Hna2. cbn. auto. }
      rewrite (hload_eq _ _ _ Sa1). cbn [bind c_next c_prev is_null negb].
      destruct (seg_set_first _ _ b w t None None Hnb S1') as (h2 & E2 & S2' & O2 & L2).
      rewrite E2. cbn [bind].
      assert (Sa2 : nth_error h2 a = Some (Some (Cell v (Some b) None))).
      { rewrite O2; [exact Sa1|]. intros E. apply Hna2. cbn. auto. }
      rewrite (set_next_eq _ _ _ _ _ None Sa2). cbn [bind ll_heap ll_size ll_head ll_tail].
      assert (S3 : seg (upd h2 a (Some (Cell v None None))) None ((b, w) :: t) None) by (apply seg_upd; auto).
      eexists; split; [reflexivity|]. cbn [ll_heap ll_size ll_head ll_tail].
      split; [now apply seg_nseg in S3|].
      split; [exists None, None; rewrite nth_error_upd_eq; auto; eapply some_lt; eauto|].
      split; [lia|]. split; [rewrite upd_length; congruence|]. split; auto.
      split; [|split; congruence].
      intros _. split; auto. split; [exact S3|]. repeat split; cbn [ll_tail ll_size].
      * rewrite Ht. reflexivity.
      * lia.
  - (* not the first node *)
    rewrite lastp_app in Sa. cbn [lastp] in Sa.
    rewrite lastp_app. cbn [lastp is_null negb].
    assert (Hd1 : NoDup (map fst (l ++ [(b, w)]))).
    { rewrite map_app in Hd12. now apply NoDup_app_l in Hd12. }
    destruct (seg_set_last _ _ l b w (Some a) (firstp l2 None) Hd1 S1) as (h1 & E1 & S1' & O1 & L1).
    rewrite E1. cbn [bind].
    assert (Hab : a <> b).
    { intros <-. apply Hna1. rewrite map_app, in_app_iff. cbn. auto. }
    assert (Sa1 : nth_error h1 a = Some (Some (Cell v (firstp l2 None) (Some b)))).
    { rewrite O1; auto. }
    rewrite (set_prev_eq _ _ _ _ _ None Sa1). cbn [bind ll_heap ll_size ll_head ll_tail].
    set (h2 := upd h1 a (Some (Cell v (firstp l2 None) None))) in *.
    assert (Sa2 : nth_error h2 a = Some (Some (Cell v (firstp l2 None) None))).
    { unfold h2. rewrite nth_error_upd_eq; auto. eapply some_lt; eauto. }
    rewrite (hload_eq _ _ _ Sa2). cbn [bind c_next c_prev is_null negb].
    assert (S1h2 : seg h2 None (l ++ [(b, w)]) (firstp l2 None)) by (apply seg_upd; auto).
    assert (Hdisj : forall x, In x (map fst l2) -> ~ In x (map fst (l ++ [(b, w)]))).
    { intros x Hx2 Hx1. rewrite map_app in Hd12. revert Hd12 Hx1.
      generalize (map fst (l ++ [(b, w)])). intros m Hm Hx1.
      apply in_split in Hx1. destruct Hx1 as (m1 & m2 & ->).
      rewrite <- app_assoc in Hm. cbn in Hm. apply NoDup_remove_2 in Hm. apply Hm.
      rewrite !in_app_iff. auto. }
    assert (S2h2 : seg h2 (Some a) l2 None).
    { apply seg_upd; auto. apply (seg_ext (ll_heap ll)); [|exact S2].
      intros x Hx. apply O1. intros ->. apply (Hdisj b Hx). rewrite map_app, in_app_iff. cbn; auto. }
    destruct l2 as [|[b2 w2] t].
    + cbn [firstp is_null negb bind] in *.
      eexists; split; [reflexivity|]. cbn [ll_heap ll_size ll_head ll_tail].
      rewrite app_nil_r in *.
      split; [now apply seg_nseg in S1h2|]. split; [eauto|]. split; [lia|].
      split; [unfold h2; rewrite upd_length; congruence|].
      split.
      { rewrite Hh, !firstp_app. destruct l as [|[? ?] ?]; reflexivity. }
      split; [intros E; destruct l; discriminate|]. split; [reflexivity|]. intros; discriminate.
    + cbn [firstp is_null negb] in *.
      assert (Hnb : ~ In b2 (map fst t)).
      { rewrite map_app in Hd12. apply NoDup_app_r in Hd12. now inversion Hd12. }
      destruct (seg_set_first _ _ b2 w2 t None None Hnb S2h2) as (h3 & E3 & S3 & O3 & L3).
      rewrite E3. cbn [bind].
      assert (Hab2 : a <> b2) by (intros <-; apply Hna2; cbn; auto).
      assert (Sa3 : nth_error h3 a = Some (Some (Cell v (Some b2) None))) by (rewrite O3; auto).
      rewrite (set_next_eq _ _ _ _ _ None Sa3). cbn [bind ll_heap ll_size ll_head ll_tail].
      eexists; split; [reflexivity|]. cbn [ll_heap ll_size ll_head ll_tail].
      assert (S4 : seg (upd h3 a (Some (Cell v None None))) None ((b2, w2) :: t) None) by (apply seg_upd; auto).
      split.
      { rewrite nseg_app. split; [|now apply seg_nseg in S4]. cbn [firstp].
        apply seg_nseg with (pr := None). apply seg_upd; auto.
        apply (seg_ext h2); [|exact S1h2]. intros x Hx. apply O3. intros ->.
        apply (Hdisj b2); auto. cbn; auto. }
      split; [exists None, None; rewrite nth_error_upd_eq; auto; eapply some_lt; eauto|].
      split; [lia|].
      split; [rewrite upd_length, L3; unfold h2; rewrite upd_length; congruence|].
      split.
      { rewrite Hh, !firstp_app. destruct l as [|[? ?] ?]; reflexivity. }
      split; [intros E; destruct l; discriminate|]. split; [discriminate|].
      intros b' w' t' _ E. exact S4.
Qed.

Variable compare : A -> A -> Z.
Definition leqv (y x : A) : bool := (compare y x =? 0)%Z.

Lemma find_split (cs : list (nat * A)) x :
  match find (fun c => leqv (snd c) x) cs with
  | None => index_of leqv (map snd cs) x = None
  | Some (a, v) => exists l1 l2, cs = l1 ++ (a, v) :: l2 /\
                     index_of leqv (map snd cs) x = Some (length l1)
  end.
Proof.
  induction cs as [|[a v] t IH]; cbn [find map index_of snd]; auto.
  destruct (leqv v x); [exists [], t; auto|].
  destruct (find _ t) as [[b w]|].
  - destruct IH as (l1 & l2 & -> & E). exists ((a, v) :: l1), l2. split; auto.
    rewrite E. reflexivity.
  - now rewrite IH.
Qed.

Lemma lookup_helper_ok ll cs x :
  NoDup (map fst cs) -> nseg (ll_heap ll) cs None -> ll_head ll = firstp cs None ->
  linkedlist_lookup_helper compare ll x = Ok (option_map fst (find (fun c => leqv (snd c) x) cs)).
Proof.
  intros Hd Hs Hh. unfold linkedlist_lookup_helper. rewrite Hh.
  apply (find_cell_ok (fun v => (compare v x =? 0)%Z) _ cs Hs).
  pose proof (nseg_length _ _ _ Hs Hd). lia.
Qed.

Lemma value_loop_ok h pos cs : nseg (A := A) h cs None -> forall fuel i,
  length cs < fuel -> (0 <= i)%Z ->
  linkedlist_value_loop fuel h (firstp cs None) i pos =
  Ok (if (i <=? pos)%Z && (pos <? i + Z.of_nat (length cs))%Z
      then (pos, nth_error (map snd cs) (Z.to_nat (pos - i))) else ((-1)%Z, None)).
Proof.
  induction cs as [|[a v] t IH]; intros Hs fuel i Hf Hi.
  - destruct fuel; [lia|]. cbn [firstp linkedlist_value_loop length].
    destruct (Z.leb_spec i pos), (Z.ltb_spec pos (i + Z.of_nat 0)); cbn [andb]; auto; lia.
  - destruct fuel as [|f]; [cbn in Hf; lia|]. destruct Hs as [[p H1] H2].
    cbn [firstp linkedlist_value_loop]. rewrite (hload_eq _ _ _ H1). cbn [bind c_val c_next length] in *.
    destruct (Z.eqb_spec i pos).
    + subst. rewrite Z.leb_refl. destruct (Z.ltb_spec pos (pos + Z.of_nat (S (length t)))); [|lia].
      cbn [andb]. rewrite Z.sub_diag. reflexivity.
    + rewrite IH; auto; try lia.
      replace (i + 1 + Z.of_nat (length t))%Z with (i + Z.of_nat (S (length t)))%Z by lia.
      destruct (Z.leb_spec (i + 1) pos), (Z.leb_spec i pos); try lia; cbn [andb]; auto.
      destruct (Z.ltb_spec pos (i + Z.of_nat (S (length t)))); auto.
      replace (Z.to_nat (pos - i)) with (S (Z.to_nat (pos - (i + 1)))) by lia. reflexivity.
Qed.

Lemma free_front ll a v cs ll1 :
  lrep_at ll ((a, v) :: cs) -> linkedlist_node_unhook ll (Some a) = Ok ll1 ->
  exists h, hfree (ll_heap ll1) (Some a) = Ok h /\
    lrep_at (LL h (ll_size ll1) (ll_head ll1) (ll_tail ll1)) cs /\ length h = length (ll_heap ll).
Proof.
  intros R E.
  destruct (unhook_ok ll [] a v cs R) as (ll2 & E2 & _ & (n & p & Hc) & _ & Hlen & _ & R2 & _).
  rewrite E in E2. inversion E2; subst ll2. specialize (R2 eq_refl).
  exists (upd (ll_heap ll1) a None). split; [now apply hfree_eq in Hc|]. split.
  - destruct R2 as (H1 & H2 & H3 & H4 & H5). repeat split; auto; cbn [ll_heap].
    apply seg_upd; auto. destruct R as (Hd & _). cbn in Hd. now inversion Hd.
  - now rewrite upd_length.
Qed.

Lemma clear_loop_ok cs : forall fuel ll,
  lrep_at ll cs -> length cs < fuel ->
  exists ll', linkedlist_clear_loop fuel ll (firstp cs None) = Ok ll' /\ lrep_at ll' [] .
Proof.
  induction cs as [|[a v] t IH]; intros fuel ll R Hf.
  - destruct fuel; [lia|]. cbn. eexists; split; [reflexivity|].
    destruct R as (H1 & H2 & H3 & H4 & H5). repeat split; auto.
  - destruct fuel as [|f]; [lia|]. cbn [firstp linkedlist_clear_loop].
    pose proof R as (_ & Hs & _). cbn in Hs. destruct Hs as [Ha _].
    rewrite (hload_eq _ _ _ Ha). cbn [bind c_next].
    destruct (unhook_ok ll [] a v t R) as (ll1 & E1 & _).
    rewrite E1. cbn [bind].
    destruct (free_front ll a v t ll1 R E1) as (h & Eh & Rh & _). rewrite Eh. cbn [bind].
    apply IH; auto. cbn in Hf. lia.
Qed.

Lemma remove_ok ll l1 a v l2 x :
  lrep_at ll (l1 ++ (a, v) :: l2) ->
  find (fun c => leqv (snd c) x) (l1 ++ (a, v) :: l2) = Some (a, v) ->
  exists ll' n p, linkedlist_remove compare ll x = Ok (ll', 1%Z) /\
    linkedlist_node_unhook ll (Some a) = Ok (LL n (ll_size ll') (ll_head ll') (ll_tail ll')) /\
    ll_heap ll' = upd n a None /\ nth_error n a = Some (Some p) /\ c_val p = v.
Proof.
  intros R Hf. pose proof R as (Hd & Hs & Hh & _).
  unfold linkedlist_remove.
  rewrite (lookup_helper_ok ll _ x Hd (seg_nseg _ _ _ _ Hs) Hh), Hf. cbn [bind option_map fst].
  destruct (unhook_ok ll l1 a v l2 R) as (ll1 & E1 & _ & (n & p & Hc) & _).
  rewrite E1. cbn [bind]. rewrite (hfree_eq _ _ _ Hc). cbn [bind].
  eexists _, (ll_heap ll1), (Cell v n p). split; [reflexivity|]. cbn. split; [now destruct ll1|].
  auto.
Qed.

Lemma dstep_ok ll l o :
  lrep ll l -> front_removal leqv l o ->
  exists ll', dstep compare ll o = Ok (ll', snd (dspec_step leqv l o)) /\
              lrep ll' (fst (dspec_step leqv l o)).
Proof.
  intros (cs & Hl & R) Hok. pose proof R as (Hd & Hs & Hh & Ht & Hz).
  assert (Hlen : length l = length cs) by (subst l; apply map_length).
  assert (Hfind : forall x, index_of leqv l x = None \/ index_of leqv l x = Some 0 ->
            (find (fun c => leqv (snd c) x) cs = None /\ index_of leqv l x = None) \/
            (exists a v t, cs = (a, v) :: t /\ find (fun c => leqv (snd c) x) cs = Some (a, v) /\
                           index_of leqv l x = Some 0)).
  { intros x Hx. pose proof (find_split cs x) as Hf. subst l.
    destruct (find (fun c => leqv (snd c) x) cs) as [[a v]|].
    - right. destruct Hf as (l1 & l2 & -> & E). destruct Hx as [Hx|Hx]; [congruence|].
      rewrite Hx in E. inversion E as [E']. destruct l1; [|discriminate].
      exists a, v, l2. auto.
    - left. auto. }
  destruct o as [x|x|x|x|x| | |p| |]; cbn [dstep dspec_step front_removal] in *.
  - destruct (front_add_ok ll cs x R) as (ll' & E & R'). rewrite E.
    eexists; split; [reflexivity|]. eexists; split; [|exact R']. cbn. now rewrite Hl.
  - destruct (tail_add_ok ll cs x R) as (ll' & E & R'). rewrite E.
    eexists; split; [reflexivity|]. eexists; split; [|exact R']. rewrite map_app. cbn. now rewrite Hl.
  - unfold linkedlist_lookup.
    rewrite (lookup_helper_ok ll cs x Hd (seg_nseg _ _ _ _ Hs) Hh). cbn [bind Z.eqb].
    pose proof (find_split cs x) as Hf. rewrite Hl in Hf.
    destruct (find (fun c => leqv (snd c) x) cs) as [[a v]|]; cbn [option_map fst].
    + destruct Hf as (l1 & l2 & E & Ei). rewrite Ei.
      subst cs. apply seg_app in Hs. destruct Hs as [_ [Ha _]].
      rewrite (hload_eq _ _ _ Ha). cbn [bind c_val].
      eexists; split; [|exists (l1 ++ (a, v) :: l2); split; [exact Hl|exact R]].
      cbn [snd]. repeat f_equal. subst l. rewrite map_app. cbn [map].
      rewrite nth_error_app2 by (rewrite map_length; lia). rewrite map_length, Nat.sub_diag. reflexivity.
    + rewrite Hf. eexists; split; [reflexivity|]. exists cs; auto.
  - unfold linkedlist_lookup.
    rewrite (lookup_helper_ok ll cs x Hd (seg_nseg _ _ _ _ Hs) Hh). cbn [bind Z.eqb].
    destruct (Hfind x Hok) as [[Ef Ei]|(a & v & t & Ec & Ef & Ei)]; rewrite Ef, Ei; cbn [option_map fst].
    + cbn [Pos.eqb]. unfold linkedlist_node_unhook. cbn. eexists; split; [reflexivity|]. exists cs; auto.
    + cbn [Pos.eqb]. subst cs.
      destruct (unhook_ok ll [] a v t R) as (ll1 & E1 & _ & (n & p & Hc) & _ & _ & _ & R1 & _).
      rewrite E1. cbn [bind]. rewrite (hload_eq _ _ _ Hc). cbn [bind c_val].
      eexists; split; [cbn in Hl; subst l; reflexivity|].
      exists t. split; [cbn in Hl; subst l; reflexivity|]. auto.
  - destruct (Hfind x Hok) as [[Ef Ei]|(a & v & t & Ec & Ef & Ei)]; rewrite Ei.
    + unfold linkedlist_remove.
      rewrite (lookup_helper_ok ll cs x Hd (seg_nseg _ _ _ _ Hs) Hh), Ef. cbn [bind option_map].
      eexists; split; [reflexivity|]. exists cs; auto.
    + subst cs. destruct (remove_ok ll [] a v t x R Ef) as (ll' & n & p & E & Eu & Eh & Hn & _).
      rewrite E. cbn [bind fst snd]. eexists; split; [reflexivity|].
      exists t. split; [cbn in Hl; subst l; reflexivity|].
      destruct (free_front ll a v t _ R Eu) as (h & Ehf & Rh & _). cbn [ll_heap ll_size ll_head ll_tail] in *.
      rewrite (hfree_eq _ _ _ Hn) in Ehf. inversion Ehf; subst h. rewrite <- Eh in Rh.
      destruct ll' as [hh ss hd tl]. exact Rh.
  - unfold linkedlist_head, linkedlist_empty. rewrite Hz, Hh.
    destruct cs as [|[a v] t].
    + cbn in Hl. subst l. cbn. eexists; split; [reflexivity|]. exists []; auto.
    + cbn [length firstp is_null]. destruct (Z.leb_spec (Z.of_nat (S (length t))) 0); [lia|].
      cbn [Z.eqb orb]. cbn in Hs. destruct Hs as [Ha _]. rewrite (hload_eq _ _ _ Ha).
      cbn in Hl. subst l. eexists; split; [reflexivity|]. exists ((a, v) :: t); auto.
  - unfold linkedlist_tail, linkedlist_empty. rewrite Hz, Ht.
    destruct (list_last_cases cs) as [->|(l0 & (a & v) & ->)].
    + cbn in Hl. subst l. cbn. eexists; split; [reflexivity|]. exists []; auto.
    + rewrite app_length. cbn [length]. rewrite lastp_app. cbn [lastp is_null].
      destruct (Z.leb_spec (Z.of_nat (length l0 + 1)) 0); [lia|].
      cbn [Z.eqb orb]. pose proof Hs as Hs'. apply seg_app in Hs'. destruct Hs' as [_ [Ha _]].
      rewrite (hload_eq _ _ _ Ha). eexists; split; [|exists (l0 ++ [(a, v)]); split; [exact Hl|exact R]].
      subst l. rewrite map_app, rev_app_distr. reflexivity.
  - unfold linkedlist_value_at. rewrite Hz, Hh.
    rewrite (value_loop_ok _ _ _ (seg_nseg _ _ _ _ Hs)); try lia.
    2: { pose proof (nseg_length _ _ _ (seg_nseg _ _ _ _ Hs) Hd). lia. }
    rewrite Hl, Hlen, Z.sub_0_r, Z.add_0_l, Z.geb_leb.
    destruct (Z.leb_spec (Z.of_nat (length cs)) p), (Z.ltb_spec p (Z.of_nat (length cs))); try lia.
    + rewrite andb_false_r. eexists; split; [reflexivity|]. exists cs; auto.
    + eexists; split; [reflexivity|]. exists cs; auto.
  - unfold linkedlist_empty. rewrite Hz.
    destruct cs as [|[a v] t]; cbn in Hl; subst l.
    + eexists; split; [reflexivity|]. exists []; auto.
    + cbn [length]. destruct (Z.leb_spec (Z.of_nat (S (length t))) 0); [lia|].
      eexists; split; [reflexivity|]. exists ((a, v) :: t); auto.
  - unfold linkedlist_clear. rewrite Hh.
    destruct (clear_loop_ok cs (S (length (ll_heap ll))) ll R) as (ll' & E & R').
    { pose proof (nseg_length _ _ _ (seg_nseg _ _ _ _ Hs) Hd). lia. }
    rewrite E. eexists; split; [reflexivity|]. exists []; auto.
Qed.

Lemma drun_ok ops : forall ll l,
  lrep ll l -> dhist_ok leqv l ops ->
  exists ll', drun compare ll ops = Ok (ll', snd (dspec_run leqv l ops)) /\
              lrep ll' (fst (dspec_run leqv l ops)).
Proof.
  induction ops as [|o ops IH]; intros ll l R Hok; cbn [drun dspec_run].
  - eauto.
  - destruct Hok as [Ho Hr]. destruct (dstep_ok ll l o R Ho) as (l1 & E1 & R1).
    rewrite E1. cbn [bind fst snd]. destruct (IH l1 _ R1 Hr) as (l2 & E2 & R2).
    rewrite E2. cbn. eauto.
Qed.

(** *** Where removals go wrong *)

Lemma map_snd_split (cs : list (nat * A)) l1 x l2 :
  map snd cs = l1 ++ x :: l2 ->
  exists c1 a c2, cs = c1 ++ (a, x) :: c2 /\ map snd c1 = l1 /\ map snd c2 = l2.
Proof.
  revert cs; induction l1 as [|y l1 IH]; intros [|[a v] cs] E; cbn in E; inversion E; subst; clear E.
  - exists [], a, cs. auto.
  - destruct (IH cs H1) as (c1 & a' & c2 & -> & E1 & E2).
    exists ((a, y) :: c1), a', c2. cbn. rewrite E1. auto.
Qed.

Lemma find_at (c1 : list (nat * A)) a v c2 x :
  index_of leqv (map snd (c1 ++ (a, v) :: c2)) x = Some (length c1) ->
  find (fun c => leqv (snd c) x) (c1 ++ (a, v) :: c2) = Some (a, v).
Proof.
  induction c1 as [|[b w] c1 IH]; cbn [app map index_of find snd length].
  - destruct (leqv v x); auto. destruct (index_of leqv (map snd c2) x); discriminate.
  - destruct (leqv w x); [discriminate|].
    destruct (index_of leqv (map snd (c1 ++ (a, v) :: c2)) x) as [i|]; [|discriminate].
    intros E. inversion E; subst. auto.
Qed.

(** Removing the last of several elements: the tail pointer is lost. *)
Lemma remove_last_breaks ll l0 x y z :
  lrep ll (l0 ++ [x]) -> l0 <> [] -> index_of leqv (l0 ++ [x]) z = Some (length l0) ->
  exists ll', linkedlist_remove compare ll z = Ok (ll', 1%Z) /\
     linkedlist_tail ll' = Ok (0%Z, None) /\ linkedlist_tail_add ll' y = UB.
Proof.
  intros (cs & Hl & R) Hne Hi.
  destruct (map_snd_split cs l0 x [] Hl) as (c1 & a & c2 & Ec & E1 & E2).
  destruct c2; [|discriminate]. subst cs.
  assert (Hc1 : c1 <> []) by (intros ->; apply Hne; auto).
  assert (Hlen : length l0 = length c1) by (subst l0; apply map_length).
  assert (Hf : find (fun c => leqv (snd c) z) (c1 ++ [(a, x)]) = Some (a, x)).
  { apply find_at. rewrite Hl, Hi, Hlen. reflexivity. }
  destruct (remove_ok ll c1 a x [] z R Hf) as (ll' & n & p & E & Eu & Eh & Hn & _).
  exists ll'. split; [exact E|].
  destruct (unhook_ok ll c1 a x [] R) as (ll1 & Eu1 & _ & _ & Hsz & _ & _ & _ & Htl & _).
  rewrite Eu in Eu1. inversion Eu1; subst ll1. cbn [ll_tail ll_size] in *.
  specialize (Htl Hc1 eq_refl).
  assert (0 < length c1) by (destruct c1; [congruence|cbn; lia]).
  rewrite app_nil_r in Hsz.
  split.
  - unfold linkedlist_tail. rewrite Htl. cbn. now rewrite orb_true_r.
  - unfold linkedlist_tail_add, halloc. rewrite Htl.
    destruct (Z.gtb_spec (ll_size ll') 0); [reflexivity|lia].
Qed.

(** Removing a middle element and then its successor drops everything before. *)
Lemma remove_middle_breaks ll l1 m s l2 :
  lrep ll (l1 ++ m :: s :: l2) -> l1 <> [] ->
  index_of leqv (l1 ++ m :: s :: l2) m = Some (length l1) ->
  index_of leqv (l1 ++ s :: l2) s = Some (length l1) ->
  exists ll1 ll2, linkedlist_remove compare ll m = Ok (ll1, 1%Z) /\
    linkedlist_remove compare ll1 s = Ok (ll2, 1%Z) /\
    ll_size ll2 = Z.of_nat (length (l1 ++ l2)) /\
    (forall x, index_of leqv l2 x = None -> linkedlist_lookup compare ll2 x 0 = Ok (ll2, (0%Z, None))).
Proof.
  intros (cs & Hl & R) Hne Hi1 Hi2.
  destruct (map_snd_split cs l1 m (s :: l2) Hl) as (c1 & a & c2' & Ec & E1 & E2).
  destruct (map_snd_split c2' [] s l2 E2) as (c0 & b & c2 & Ec2 & E3 & E4).
  destruct c0; [|discriminate]. cbn in Ec2. subst c2' cs.
  assert (Hc1 : c1 <> []) by (intros ->; apply Hne; auto).
  assert (Hlen : length l1 = length c1) by (subst l1; apply map_length).
  assert (Hlen2 : length l2 = length c2) by (subst l2; apply map_length).
  assert (Hf : find (fun c => leqv (snd c) m) (c1 ++ (a, m) :: (b, s) :: c2) = Some (a, m)).
  { apply find_at. rewrite Hl, Hi1, Hlen. reflexivity. }
  destruct (remove_ok ll c1 a m ((b, s) :: c2) m R Hf) as (ll1 & n & p & E & Eu & Eh & Hn & _).
  destruct (unhook_ok ll c1 a m ((b, s) :: c2) R) as (ll0 & Eu1 & Hns & _ & Hsz & Hlh & Hhd & _ & _ & Hseg).
  rewrite Eu in Eu1. inversion Eu1; subst ll0. cbn [ll_tail ll_size ll_heap ll_head] in *.
  specialize (Hseg b s c2 Hc1 eq_refl).
  destruct R as (Hd & _). rewrite map_app in Hd. cbn [map fst] in Hd.
  pose proof (NoDup_remove_1 _ _ _ Hd) as Hd12. pose proof (NoDup_remove_2 _ _ _ Hd) as Hna.
  change (b :: map fst c2) with (map fst ((b, s) :: c2)) in Hd12, Hna.
  rewrite <- map_app in Hd12, Hna.
  assert (Hna2 : ~ In a (map fst ((b, s) :: c2))).
  { intros H. apply Hna. rewrite map_app, in_app_iff. auto. }
  assert (Hns1 : nseg (ll_heap ll1) (c1 ++ (b, s) :: c2) None) by (rewrite Eh; apply nseg_upd; auto).
  assert (Hseg1 : seg (ll_heap ll1) None ((b, s) :: c2) None) by (rewrite Eh; apply seg_upd; auto).
  exists ll1.
  (* second removal *)
  unfold linkedlist_remove at 2.
  rewrite (lookup_helper_ok ll1 _ s Hd12 Hns1 Hhd).
  rewrite find_at.
  2: { rewrite map_app. cbn [map snd]. rewrite E1, E4, Hi2, Hlen. reflexivity. }
  cbn [bind option_map fst].
  assert (Hsize : (ll_size ll1 <> 0)%Z).
  { rewrite Hsz, app_length. cbn. lia. }
  cbn [seg] in Hseg1. destruct Hseg1 as [Hb Hs2].
  assert (Hdb : NoDup (map fst ((b, s) :: c2))).
  { rewrite map_app in Hd12. now apply NoDup_app_r in Hd12. }
  assert (Hnb : ~ In b (map fst c2)) by (cbn in Hdb; now inversion Hdb).
  unfold linkedlist_node_unhook. cbn [is_null orb].
  destruct (Z.eqb_spec (ll_size ll1) 0); [contradiction|].
  rewrite (hload_eq _ _ _ Hb). cbn [bind c_prev c_next is_null negb].
  destruct c2 as [|[b2 s2] t].
  - cbn [firstp is_null bind ll_heap]. cbn [firstp] in Hb. rewrite (hload_eq _ _ _ Hb).
    cbn [bind c_next c_prev is_null negb ll_heap ll_size ll_head ll_tail].
    rewrite (hfree_eq _ _ _ Hb). cbn [bind ll_size ll_head ll_tail].
    eexists. split; [exact E|]. split; [reflexivity|]. cbn [ll_size].
    split.
    { rewrite Hsz. rewrite !app_length, Hlen, Hlen2. cbn. lia. }
    intros x Hx. unfold linkedlist_lookup.
    rewrite (lookup_helper_ok _ [] x); [reflexivity|constructor|exact I|reflexivity].
  - cbn [firstp is_null bind]. cbn [firstp] in Hb.
    assert (Hnb2 : ~ In b2 (map fst t)).
    { cbn in Hdb. inversion Hdb as [|? ? _ Hdb']. now inversion Hdb'. }
    destruct (seg_set_first _ _ b2 s2 t None None Hnb2 Hs2) as (h1 & F1 & S1 & O1 & L1).
    rewrite F1. cbn [bind ll_heap ll_size ll_head ll_tail].
    assert (Hbb : b <> b2) by (intros <-; apply Hnb; cbn; auto).
    assert (Hb1 : nth_error h1 b = Some (Some (Cell s (Some b2) None))) by (rewrite O1; auto).
    rewrite (hload_eq _ _ _ Hb1). cbn [bind c_next c_prev is_null negb ll_heap ll_size ll_head ll_tail].
    destruct (seg_set_first _ _ b2 s2 t None None Hnb2 S1) as (h2 & F2 & S2 & O2 & L2).
    rewrite F2. cbn [bind ll_heap ll_size ll_head ll_tail].
    assert (Hb2 : nth_error h2 b = Some (Some (Cell s (Some b2) None))) by (rewrite O2; auto).
    rewrite (set_next_eq _ _ _ _ _ None Hb2). cbn [bind ll_heap ll_size ll_head ll_tail].
    assert (Hb3 : nth_error (upd h2 b (Some (Cell s None None))) b = Some (Some (Cell s None None))).
    { rewrite nth_error_upd_eq; auto. eapply some_lt; eauto. }
    rewrite (hfree_eq _ _ _ Hb3). cbn [bind ll_heap ll_size ll_head ll_tail].
    eexists. split; [exact E|]. split; [reflexivity|]. cbn [ll_size].
    split.
    { rewrite Hsz. rewrite !app_length, Hlen, Hlen2. cbn. lia. }
    intros x Hx. unfold linkedlist_lookup.
    rewrite (lookup_helper_ok _ ((b2, s2) :: t) x).
    + pose proof (find_split ((b2, s2) :: t) x) as Hf'. rewrite E4 in Hf'.
      destruct (find _ ((b2, s2) :: t)) as [[? ?]|]; [|reflexivity].
      destruct Hf' as (? & ? & _ & Hf'). congruence.
    + cbn in Hdb. now inversion Hdb.
    + cbn [ll_heap]. apply nseg_upd; auto. apply nseg_upd; auto. now apply seg_nseg in S2.
    + reflexivity.
Qed.
End Proofs.
