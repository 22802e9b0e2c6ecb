(** The hashtable refines finite maps. *)
From Coq Require Import Permutation Sorted.
From Verif Require Import Base ListFacts ModelArrayList SpecSeq ProofArrayList
     ModelCells CellFacts ModelHash SpecMap.

(** *** Association lists *)
Section Assoc.
Context {K : Type}.
Variable eqk : K -> K -> bool.
Hypothesis eqk_spec : forall a b, eqk a b = true <-> a = b.

Lemma assoc_some m k v : NoDup (map fst m) -> (assoc eqk m k = Some v <-> In (k, v) m).
Proof.
  unfold assoc. induction m as [|[k' v'] m IH]; cbn; intros Hd; [split; [discriminate|tauto]|].
  inversion Hd as [|? ? Hn Hd']; subst.
  destruct (eqk k' k) eqn:E.
  - apply eqk_spec in E. subst k'. cbn. split.
    + intros H; inversion H; auto.
    + intros [H|H]; [inversion H; auto|]. destruct Hn. change k with (fst (k, v)). now apply in_map.
  - rewrite IH by auto. split; auto. intros [H|H]; auto. inversion H; subst.
    rewrite (proj2 (eqk_spec k k) eq_refl) in E. discriminate.
Qed.

Lemma assoc_none m k : assoc eqk m k = None <-> ~ In k (map fst m).
Proof.
  unfold assoc. induction m as [|[k' v'] m IH]; cbn; [tauto|].
  destruct (eqk k' k) eqn:E; cbn.
  - apply eqk_spec in E. split; [discriminate|]. intros H. destruct H. auto.
  - rewrite IH. split; [|tauto]. intros H [->|H']; auto.
    rewrite (proj2 (eqk_spec k k) eq_refl) in E. discriminate.
Qed.

Lemma filter_perm {B} (f : B -> bool) l l' : Permutation l l' -> Permutation (filter f l) (filter f l').
Proof.
  induction 1; cbn; auto.
  - destruct (f x); auto.
  - destruct (f x), (f y); auto. constructor.
  - eapply Permutation_trans; eauto.
Qed.

Lemma without_perm m k v X Y :
  NoDup (map fst m) -> Permutation m (X ++ (k, v) :: Y) -> Permutation (without eqk m k) (X ++ Y).
Proof.
  intros Hd Hp. unfold without.
  eapply Permutation_trans; [apply filter_perm, Hp|].
  assert (Hd2 : NoDup (map fst (X ++ (k, v) :: Y))).
  { eapply Permutation_NoDup; [apply Permutation_map, Hp|auto]. }
  rewrite map_app in Hd2. cbn in Hd2. apply NoDup_remove_2 in Hd2. rewrite <- map_app in Hd2.
  rewrite filter_app. cbn [filter fst]. rewrite (proj2 (eqk_spec k k) eq_refl). cbn [negb].
  rewrite <- filter_app. generalize dependent (X ++ Y). intros l Hn. clear - Hn eqk_spec.
  induction l as [|[k' v'] l IH]; cbn in *; auto.
  destruct (eqk k' k) eqn:E; cbn.
  - apply eqk_spec in E. tauto.
  - constructor. apply IH. tauto.
Qed.

Lemma without_keys m k x : In x (map fst (without eqk m k)) <-> In x (map fst m) /\ x <> k.
Proof.
  unfold without. rewrite !in_map_iff. split.
  - intros ([a b] & E & H). apply filter_In in H. cbn in *. subst a. destruct H as [H1 H2].
    split; [exists (x, b); auto|]. intros ->. rewrite (proj2 (eqk_spec k k) eq_refl) in H2. discriminate.
  - intros (([a b] & E & H) & Hne). cbn in *. subst a. exists (x, b). split; auto.
    apply filter_In. split; auto. cbn. destruct (eqk x k) eqn:E; auto. apply eqk_spec in E. contradiction.
Qed.

Lemma without_nodup m k : NoDup (map fst m) -> NoDup (map fst (without eqk m k)).
Proof.
  unfold without. induction m as [|[a b] m IH]; cbn; intros H; auto.
  inversion H as [|? ? Hn Hd]; subst. destruct (eqk a k); cbn; auto. constructor; auto.
  intros Hin. apply Hn. apply in_map_iff in Hin. destruct Hin as (x & <- & Hx).
  apply filter_In in Hx. apply in_map. tauto.
Qed.
End Assoc.

(** *** Chains *)
Section Chains.
Context {A : Type}.
Notation heap := (heap A).

(** hashtable_insert's linking of a fresh entry in front of a chain. *)
Lemma push_front (h : heap) cs x :
  seg h None cs None -> NoDup (map fst cs) ->
  let (h1, e) := halloc h (Cell x None None) in
  let front := firstp cs None in
  exists h', (if is_null front then Ok h1
              else let! h := set_next h1 (Some e) front in set_prev h front (Some e)) = Ok h' /\
    seg h' None ((e, x) :: cs) None /\ e = length h /\ length h' = S (length h) /\
    (forall a, ~ In a (map fst cs) -> a < length h -> nth_error h' a = nth_error h a).
Proof.
  intros Hs Hd. unfold halloc.
  assert (Hfresh : ~ In (length h) (map fst cs)).
  { intros H. apply (nseg_lt _ _ _ _ (seg_nseg _ _ _ _ Hs)) in H. lia. }
  assert (Hnew : nth_error (h ++ [Some (Cell x None None)]) (length h) = Some (Some (Cell x None None))).
  { rewrite nth_error_app2, Nat.sub_diag by lia. reflexivity. }
  destruct cs as [|[b w] t].
  - cbn [firstp is_null]. eexists; split; [reflexivity|]. split; [|split; [reflexivity|]].
    + cbn. auto.
    + split; [rewrite app_length; cbn; lia|]. intros a _ Ha. now rewrite nth_error_app1 by lia.
  - cbn [firstp is_null]. rewrite (set_next_eq _ _ _ _ _ (Some b) Hnew). cbn [bind].
    set (h1 := upd (h ++ [Some (Cell x None None)]) (length h) (Some (Cell x (Some b) None))).
    assert (S1 : seg h1 None ((b, w) :: t) None) by (apply seg_upd; auto using seg_alloc).
    inversion Hd as [|? ? Hnb Hdt]; subst.
    destruct (seg_set_first h1 None b w t None (Some (length h)) Hnb S1) as (h2 & E2 & S2 & O2 & L2).
    rewrite E2. eexists; split; [reflexivity|]. split; [|split; [reflexivity|]].
    + split; [|exact S2]. rewrite O2.
      * unfold h1. rewrite nth_error_upd_eq; [reflexivity|]. rewrite app_length; cbn; lia.
      * intros E. apply Hfresh. cbn; auto.
    + split; [rewrite L2; unfold h1; rewrite upd_length, app_length; cbn; lia|].
      intros a Ha Hlt. rewrite O2 by (intros ->; apply Ha; cbn; auto).
      unfold h1. rewrite nth_error_upd_neq by lia. now rewrite nth_error_app1 by lia.
Qed.
End Chains.

Section Proofs.
Context {K : Type}.
Variable compare : K -> K -> Z.
Variable hash : K -> nat -> nat.
Hypothesis TO : total_order compare.
Hypothesis hash_lt : forall k b, 0 < b -> hash k b < b.
Notation htable := (htable K).
Notation before := (before compare).

Definition eqk (a b : K) : bool := (compare a b =? 0)%Z.
Lemma eqk_spec a b : eqk a b = true <-> a = b.
Proof. unfold eqk. rewrite Z.eqb_eq. apply TO. Qed.

Notation entry := (nat * (K * bytes))%type.

(** [link = seg]: chains linked both ways; [link = nseg]: along next only. *)
Definition tinv (link : heap (K * bytes) -> list entry -> Prop)
           (t : htable) (css : list (list entry)) (m : list (K * bytes)) : Prop :=
  let B := ht_buckets t in
  0 < B /\
  ht_table t = map (fun cs => firstp cs None) css /\
  Forall (link (ht_heap t)) css /\
  NoDup (map fst (concat css)) /\
  (forall i cs, nth_error css i = Some cs -> forall x, In x cs -> hash (fst (snd x)) B = i) /\
  Permutation (map snd (concat css)) m /\ NoDup (map fst m) /\
  (forall kv, In kv m -> length (snd kv) = ht_dsize t) /\
  (exists l, rep (ht_keys t) l /\ StronglySorted before l /\ (forall k, In k l <-> In k (map fst m))) /\
  ht_size t = Z.of_nat (length m) /\ 2 <= al_max (ht_keys t) /\
  (forall a c, nth_error (ht_heap t) a = Some (Some c) -> In a (map fst (concat css))).

Definition dlink (h : heap (K * bytes)) cs := seg h None cs None.
Definition nlink (h : heap (K * bytes)) cs := nseg h cs None.
Definition good t m := exists css, tinv dlink t css m.
Definition weak t m := exists css, tinv nlink t css m.

Lemma good_weak t m : good t m -> weak t m.
Proof.
  intros (css & H1 & H2 & H3 & H). exists css. split; auto. split; auto. split; auto.
  apply Forall_impl with (2 := H3). intros cs. apply seg_nseg.
Qed.

Lemma init_good b ks ds : exists t, hashtable_init_size b ks ds = Ok t /\ good t [] /\
  ht_ksize t = ks /\ ht_dsize t = ds /\ ht_buckets t = if b <=? 0 then 37 else b.
Proof.
  unfold hashtable_init_size. cbn [bind set_init array_list_init Nat.ltb Nat.leb].
  set (n := if b <=? 0 then 37 else b).
  assert (Hn : 0 < n) by (unfold n; destruct (Nat.leb_spec b 0); lia).
  eexists; split; [reflexivity|].
  split; [|repeat split; auto; unfold ht_buckets; cbn; apply repeat_length].
  exists (repeat [] n). unfold tinv. unfold ht_buckets.
  cbn [ht_table ht_heap ht_dsize ht_keys ht_size]. rewrite repeat_length.
  assert (Hc : concat (repeat (@nil entry) n) = []) by (clear; induction n; cbn; auto).
  rewrite Hc. cbn [map].
  repeat split; auto.
  - clear. induction n; cbn; auto. now f_equal.
  - apply Forall_forall. intros cs Hcs. apply repeat_spec in Hcs. subst. exact I.
  - constructor.
  - intros i cs Hi x Hx. apply nth_error_In, repeat_spec in Hi. subst. destruct Hx.
  - constructor.
  - intros kv [].
  - destruct (rep_init 2 (AL (repeat (@None K) 2) 0 2) eq_refl) as (R & _).
    exists []. split; [exact R|]. split; [constructor|]. cbn; tauto.
  - intros [|a] c H; discriminate.
Qed.

(** Opening the bucket of a key. *)
Lemma open_bucket link t css m k : tinv link t css m ->
  exists L cs R, css = L ++ cs :: R /\ length L = hash k (ht_buckets t) /\
    length css = ht_buckets t /\
    nth_error (ht_table t) (hash k (ht_buckets t)) = Some (firstp cs None) /\
    link (ht_heap t) cs /\ NoDup (map fst cs).
Proof.
  intros (HB & Ht & Hl & Hd & _).
  assert (Hlen : length css = ht_buckets t).
  { unfold ht_buckets. rewrite Ht. now rewrite map_length. }
  destruct (nth_error css (hash k (ht_buckets t))) as [cs|] eqn:E.
  - destruct (nth_error_split _ _ E) as (L & R & -> & HL).
    exists L, cs, R. repeat split; auto.
    + rewrite Ht, nth_error_map, E. reflexivity.
    + rewrite Forall_forall in Hl. apply Hl, in_or_app. cbn; auto.
    + rewrite concat_app in Hd. cbn [concat] in Hd. rewrite !map_app in Hd.
      apply NoDup_app_r in Hd. now apply NoDup_app_l in Hd.
  - apply nth_error_None in E. pose proof (hash_lt k _ HB). lia.
Qed.

Lemma concat_mid {B} (L : list (list B)) cs R : concat (L ++ cs :: R) = concat L ++ cs ++ concat R.
Proof. rewrite concat_app. reflexivity. Qed.

Lemma in_concat_nth {B} (css : list (list B)) x : In x (concat css) -> exists i cs, nth_error css i = Some cs /\ In x cs.
Proof.
  intros H. apply in_concat in H. destruct H as (cs & Hcs & Hx).
  apply In_nth_error in Hcs. destruct Hcs as [i Hi]. eauto.
Qed.

(** The entry found in the bucket is the value of the map. *)
Lemma bucket_assoc link t css m k L cs R :
  tinv link t css m -> css = L ++ cs :: R -> length L = hash k (ht_buckets t) ->
  match find (fun x => eqk (fst (snd x)) k) cs with
  | None => assoc eqk m k = None
  | Some (a, (k', v)) => k' = k /\ assoc eqk m k = Some v /\ length v = ht_dsize t /\
        exists l1 l2, cs = l1 ++ (a, (k, v)) :: l2
  end.
Proof.
  intros (HB & Ht & Hl & Hd & Hh & Hp & Hdm & Hsz & _) Ec HL.
  destruct (find _ cs) as [[a [k' v]]|] eqn:E.
  - apply find_some in E. destruct E as [Hin He]. cbn in He. apply eqk_spec in He. subst k'.
    assert (Hm : In (k, v) m).
    { apply (Permutation_in _ Hp). change (k, v) with (snd (a, (k, v))). apply in_map.
      subst css. rewrite concat_mid, !in_app_iff. auto. }
    split; auto. split; [now apply assoc_some; auto using eqk_spec|].
    split; [now apply (Hsz (k, v))|]. now apply in_split.
  - apply assoc_none; auto using eqk_spec. intros Hin. apply in_map_iff in Hin.
    destruct Hin as ([k' v] & Ek & Hin). cbn in Ek. subst k'.
    apply (Permutation_in _ (Permutation_sym Hp)) in Hin. apply in_map_iff in Hin.
    destruct Hin as ([a kv] & Ekv & Hin). cbn in Ekv. subst kv.
    apply in_concat_nth in Hin. destruct Hin as (i & cs' & Hi & Hx).
    pose proof (Hh i cs' Hi _ Hx) as Hi'. cbn in Hi'.
    assert (cs' = cs).
    { subst css. rewrite nth_error_app2 in Hi by lia.
      replace (i - length L) with 0 in Hi by lia. cbn in Hi. congruence. }
    subst cs'. apply find_none with (x := (a, (k, v))) in E; auto. cbn in E.
    assert (eqk k k = true) by (now apply eqk_spec). congruence.
Qed.

Lemma lookup_entry_ok t css m k L cs R :
  tinv nlink t css m -> css = L ++ cs :: R -> length L = hash k (ht_buckets t) ->
  nth_error (ht_table t) (hash k (ht_buckets t)) = Some (firstp cs None) ->
  nlink (ht_heap t) cs -> NoDup (map fst cs) ->
  hashtable_lookup_entry compare hash t k = Ok (option_map fst (find (fun x => eqk (fst (snd x)) k) cs)).
Proof.
  intros I Ec HL Ht Hs Hd. unfold hashtable_lookup_entry. rewrite (aget_nth _ _ _ Ht). cbn [bind].
  apply (find_cell_ok (fun kv => (compare (fst kv) k =? 0)%Z) _ cs Hs).
  pose proof (nseg_length _ _ _ Hs Hd). lia.
Qed.

Lemma tinv_weak t css m : tinv dlink t css m -> tinv nlink t css m.
Proof.
  intros (H1 & H2 & H3 & H). split; auto. split; auto. split; auto.
  apply Forall_impl with (2 := H3). intros cs. apply seg_nseg.
Qed.

Lemma memcpy_full (dst src : bytes) n : length dst = n -> length src = n -> memcpy dst src n = Ok src.
Proof.
  intros H1 H2. unfold memcpy. rewrite H1, H2, Nat.leb_refl. cbn.
  rewrite <- H2 at 1. rewrite firstn_all. rewrite skipn_all2 by lia. now rewrite app_nil_r.
Qed.

Lemma malloc_length n : length (malloc_bytes n) = n.
Proof. apply repeat_length. Qed.

Lemma lookup_ok t m k (buf : bytes) : weak t m -> length buf = ht_dsize t ->
  hashtable_lookup compare hash t k buf =
  Ok (match assoc eqk m k with Some v => (1%Z, v) | None => (0%Z, buf) end).
Proof.
  intros (css & I) Hb. destruct (open_bucket _ _ _ _ k I) as (L & cs & R & Ec & HL & Hlen & Ht & Hs & Hd).
  unfold hashtable_lookup. rewrite (lookup_entry_ok t css m k L cs R I Ec HL Ht Hs Hd).
  pose proof (bucket_assoc _ t css m k L cs R I Ec HL) as Ha.
  destruct (find _ cs) as [[a [k' v]]|] eqn:E; cbn [option_map bind fst].
  - destruct Ha as (-> & Ea & Hv & l1 & l2 & E2). rewrite Ea.
    subst cs. apply nseg_app in Hs. destruct Hs as [_ [[p Hc] _]].
    rewrite (hload_eq _ _ _ Hc). cbn [bind c_val snd].
    rewrite memcpy_full by congruence. reflexivity.
  - now rewrite Ha.
Qed.

Lemma map_upd_firstp (L : list (list entry)) cs cs' R :
  upd (map (fun c => firstp c None) (L ++ cs :: R)) (length L) (firstp cs' None) =
  map (fun c => firstp c None) (L ++ cs' :: R).
Proof.
  rewrite !map_app. cbn [map].
  rewrite upd_app by (rewrite app_length, map_length; cbn; lia).
  rewrite firstn_app, map_length, Nat.sub_diag. cbn [firstn].
  rewrite firstn_all2 by (rewrite map_length; lia). rewrite app_nil_r. f_equal. f_equal.
  replace (S (length L)) with (length (map (fun c => firstp c None) L ++ [firstp cs None]))
    by (rewrite app_length, map_length; cbn; lia).
  change (firstp cs None :: map (fun c : list entry => firstp c None) R)
    with ([firstp cs None] ++ map (fun c => firstp c None) R).
  rewrite app_assoc, skipn_app, skipn_all, Nat.sub_diag. reflexivity.
Qed.

(** Other chains survive changes inside one chain. *)
Lemma others_ext (link : heap (K * bytes) -> list entry -> Prop) h h' (L : list (list entry)) cs R :
  (forall c, (forall a, In a (map fst c) -> nth_error h' a = nth_error h a) -> link h c -> link h' c) ->
  (forall c a, link h c -> In a (map fst c) -> a < length h) ->
  (forall a, ~ In a (map fst cs) -> a < length h -> nth_error h' a = nth_error h a) ->
  NoDup (map fst (concat (L ++ cs :: R))) ->
  Forall (link h) (L ++ cs :: R) -> Forall (link h') L /\ Forall (link h') R.
Proof.
  intros Hext Hlt Ho Hd Hf. rewrite concat_mid, !map_app in Hd.
  rewrite Forall_app in Hf. destruct Hf as [HfL HfR]. inversion HfR as [|? ? Hcs HfR']; subst.
  split; apply Forall_forall; intros c Hc.
  - rewrite Forall_forall in HfL. apply Hext; auto. intros a Ha. apply Ho; [|apply (Hlt c); auto].
    intros Ha'. apply (NoDup_app_disj _ _ a Hd); [|apply in_or_app; left; exact Ha'].
    clear Ha'. rewrite in_map_iff in *. destruct Ha as (x & <- & Hx). exists x. split; auto.
    apply in_concat. eauto.
  - rewrite Forall_forall in HfR'. apply Hext; auto. intros a Ha. apply Ho; [|apply (Hlt c); auto].
    intros Ha'. apply NoDup_app_r in Hd. apply (NoDup_app_disj _ _ a Hd); auto.
    clear Ha'. rewrite in_map_iff in *. destruct Ha as (x & <- & Hx). exists x. split; auto.
    apply in_concat. eauto.
Qed.

Lemma dlink_ext h h' c : (forall a, In a (map fst c) -> nth_error h' a = nth_error h a) -> dlink h c -> dlink h' c.
Proof. apply seg_ext. Qed.
Lemma nlink_ext h h' c : (forall a, In a (map fst c) -> nth_error h' a = nth_error h a) -> nlink h c -> nlink h' c.
Proof. apply nseg_ext. Qed.
Lemma dlink_lt (h : heap (K * bytes)) c a : dlink h c -> In a (map fst c) -> a < length h.
Proof. intros H. eapply nseg_lt. eapply seg_nseg; eauto. Qed.
Lemma nlink_lt (h : heap (K * bytes)) c a : nlink h c -> In a (map fst c) -> a < length h.
Proof. apply nseg_lt. Qed.

Lemma buckets_kept (f : list entry -> option nat) L cs cs' R :
  length (map f (L ++ cs' :: R)) = length (map f (L ++ cs :: R)).
Proof. rewrite !map_length, !app_length. reflexivity. Qed.

Lemma hash_upd B (L : list (list entry)) cs cs' R :
  (forall i c, nth_error (L ++ cs :: R) i = Some c -> forall x, In x c -> hash (fst (snd x)) B = i) ->
  (forall x, In x cs' -> hash (fst (snd x)) B = length L) ->
  (forall i c, nth_error (L ++ cs' :: R) i = Some c -> forall x, In x c -> hash (fst (snd x)) B = i).
Proof.
  intros H1 H2 i c Hi x Hx. destruct (Nat.lt_trichotomy i (length L)) as [Hlt|[->|Hgt]].
  - apply (H1 i c); auto. rewrite nth_error_app1 in * by lia. auto.
  - rewrite nth_error_app2, Nat.sub_diag in Hi by lia. cbn in Hi. inversion Hi; subst. auto.
  - apply (H1 i c); auto. rewrite nth_error_app2 in * by lia.
    destruct (i - length L) eqn:E; [lia|]. exact Hi.
Qed.

Lemma insert_ok t m k (v : bytes) : good t m -> length v = ht_dsize t ->
  exists t', hashtable_insert compare hash t k v = Ok (t', snd (hspec_step eqk m (HInsert k v))) /\
    good t' (fst (hspec_step eqk m (HInsert k v))) /\
    ht_ksize t' = ht_ksize t /\ ht_dsize t' = ht_dsize t /\ ht_buckets t' = ht_buckets t.
Proof.
  intros (css & I) Hv.
  destruct (open_bucket _ _ _ _ k I) as (L & cs & R & Ec & HL & Hlen & Ht & Hs & Hd).
  unfold hashtable_insert.
  rewrite (lookup_entry_ok t css m k L cs R (tinv_weak _ _ _ I) Ec HL Ht (seg_nseg _ _ _ _ Hs) Hd).
  pose proof (bucket_assoc _ t css m k L cs R I Ec HL) as Ha.
  pose proof I as (HB & Htb & Hl & Hda & Hh & Hp & Hdm & Hsz & (lk & Rk & Sk & Ik) & Hcnt & Hmax & Hleak).
  cbn [hspec_step].
  destruct (find _ cs) as [[a [k' old]]|] eqn:E; cbn [option_map bind fst].
  - (* present *)
    destruct Ha as (-> & Ea & Hold & l1 & l2 & E2). rewrite Ea.
    pose proof Hs as Hs'. subst cs. apply seg_app in Hs'. destruct Hs' as (S1 & Sa & S2).
    rewrite (hload_eq _ _ _ Sa). cbn [bind c_val snd fst].
    rewrite memcpy_full by (rewrite ?malloc_length; auto). cbn [bind].
    rewrite memcpy_full by congruence. cbn [bind].
    erewrite set_val_eq by exact Sa. cbn [bind].
    rewrite memcpy_full by congruence. cbn [bind].
    eexists; split; [reflexivity|]. split; [|auto].
    set (h' := upd (ht_heap t) a (Some (Cell (k, v) (firstp l2 None) (lastp None l1)))).
    exists (L ++ (l1 ++ (a, (k, v)) :: l2) :: R).
    assert (Hd12 : ~ In a (map fst l1) /\ ~ In a (map fst l2)).
    { rewrite map_app in Hd. cbn in Hd. apply NoDup_remove_2 in Hd. rewrite in_app_iff in Hd. tauto. }
    assert (Hfst : map fst (concat (L ++ (l1 ++ (a, (k, v)) :: l2) :: R)) = map fst (concat css)).
    { subst css. rewrite !concat_mid, !map_app. reflexivity. }
    assert (Hsplit : map snd (concat css) =
       (map snd (concat L) ++ map snd l1) ++ (k, old) :: (map snd l2 ++ map snd (concat R))).
    { subst css. rewrite concat_mid, !map_app. cbn [map snd]. rewrite <- !app_assoc. reflexivity. }
    pose proof (without_perm eqk eqk_spec m k old _ _ Hdm (Permutation_sym (eq_ind _ (fun z => Permutation z m) Hp _ Hsplit))) as Hw.
    unfold tinv, ht_buckets in *; cbn [ht_table ht_heap ht_keys ht_size ht_dsize].
    split; [exact HB|]. split.
    { rewrite Htb, Ec, !map_app. cbn [map]. rewrite !firstp_app. reflexivity. }
    split.
    { subst css. destruct (others_ext dlink (ht_heap t) h' L (l1 ++ (a, (k, old)) :: l2) R) as [HfL HfR]; auto.
      - apply dlink_ext. - apply dlink_lt.
      - intros x Hx _. unfold h'. rewrite nth_error_upd_neq; auto. intros ->. apply Hx.
        rewrite map_app, in_app_iff. cbn. auto.
      - apply Forall_app. split; auto. constructor; auto. unfold dlink. rewrite seg_app. cbn [firstp seg].
        split; [apply seg_upd; tauto|]. split; [|apply seg_upd; tauto].
        unfold h'. rewrite nth_error_upd_eq; auto. eapply some_lt; eauto. }
    split; [rewrite Hfst; exact Hda|].
    split.
    { subst css. apply hash_upd with (cs := l1 ++ (a, (k, old)) :: l2); auto.
      intros x Hx. apply in_app_iff in Hx. destruct Hx as [Hx|[<-|Hx]].
      - apply (Hh (length L) (l1 ++ (a, (k, old)) :: l2)); [|rewrite in_app_iff; auto].
        rewrite nth_error_app2, Nat.sub_diag by lia. reflexivity.
      - cbn. auto.
      - apply (Hh (length L) (l1 ++ (a, (k, old)) :: l2)); [|rewrite in_app_iff; cbn; auto].
        rewrite nth_error_app2, Nat.sub_diag by lia. reflexivity. }
    split.
    { subst css. rewrite concat_mid, !map_app. cbn [map snd].
      rewrite <- !app_assoc. cbn [app]. rewrite app_assoc.
      apply Permutation_sym. apply Permutation_cons_app. exact Hw. }
    split.
    { cbn. constructor; [|now apply without_nodup].
      rewrite without_keys by (apply eqk_spec). tauto. }
    split.
    { intros kv [<-|Hin]; auto. unfold without in Hin. apply filter_In in Hin. apply Hsz; tauto. }
    split.
    { exists lk. split; auto. split; auto. intros x. rewrite Ik. cbn [map fst In].
      rewrite without_keys by (apply eqk_spec).
      assert (Hkin : In k (map fst m)).
      { apply assoc_some in Ea; auto using eqk_spec. change k with (fst (k, old)). now apply in_map. }
      split.
      - intros Hx. destruct (eqk k x) eqn:Ex; [left; now apply eqk_spec|right; split; auto].
        intros ->. assert (eqk k k = true) by now apply eqk_spec. congruence.
      - intros [<-|[Hx _]]; auto. }
    split.
    { rewrite Hcnt. f_equal. cbn [length]. rewrite (Permutation_length Hw).
      rewrite <- (Permutation_length Hp), Hsplit. rewrite !app_length. cbn [length]. rewrite !app_length. lia. }
    split; [exact Hmax|].
    intros x c Hx. rewrite Hfst. destruct (Nat.eq_dec a x) as [<-|Hax].
    { apply (Hleak _ _ Sa). }
    unfold h' in Hx. rewrite nth_error_upd_neq in Hx by auto. apply (Hleak _ _ Hx).
  - (* absent *)
    rewrite Ha. rewrite memcpy_full by (rewrite ?malloc_length; auto). cbn [bind].
    pose proof (push_front (ht_heap t) cs (k, v) Hs Hd) as Hpf.
    destruct (halloc (ht_heap t) (Cell (k, v) None None)) as [h1 e] eqn:Eal.
    destruct Hpf as (h' & Eh & Sh & He & Hlh & Ho).
    rewrite (aget_nth _ _ _ Ht). cbn [bind]. rewrite Eh. cbn [bind].
    rewrite aset_ok.
    2: { unfold ht_buckets in *. apply some_lt in Ht. exact Ht. }
    cbn [bind].
    assert (Hk : ~ In k lk).
    { rewrite Ik. apply assoc_none in Ha; auto using eqk_spec. }
    destruct (set_insert_ok compare TO (ht_keys t) lk k Rk Sk) as [(al' & p & Es & Hip & R')|[_ Hin]];
      [|contradiction].
    rewrite Es. cbn [bind fst].
    eexists; split; [reflexivity|].
    assert (Htable : upd (ht_table t) (hash k (ht_buckets t)) (Some e) =
                     map (fun c => firstp c None) (L ++ ((e, (k, v)) :: cs) :: R)).
    { rewrite Htb, Ec, <- HL. apply (map_upd_firstp L cs ((e, (k, v)) :: cs) R). }
    assert (HB' : length (upd (ht_table t) (hash k (ht_buckets t)) (Some e)) = ht_buckets t)
      by apply upd_length.
    split; [|unfold ht_buckets; cbn [ht_ksize ht_dsize ht_table]; auto].
    exists (L ++ ((e, (k, v)) :: cs) :: R).
    match goal with |- tinv _ ?T _ _ => assert (HBT : ht_buckets T = ht_buckets t) by exact HB' end.
    unfold tinv. cbv zeta. rewrite HBT. cbn [ht_table ht_heap ht_keys ht_size ht_dsize].
    split; [exact HB|]. split; [exact Htable|].
    assert (Hfr : forall x, In x (map fst (concat css)) -> x < length (ht_heap t)).
    { intros x Hx. apply in_map_iff in Hx. destruct Hx as (y & <- & Hy).
      apply in_concat in Hy. destruct Hy as (c & Hc & Hy). rewrite Forall_forall in Hl.
      apply (dlink_lt _ c _ (Hl c Hc)). now apply in_map. }
    split.
    { subst css. destruct (others_ext dlink (ht_heap t) h' L cs R) as [HfL HfR]; auto.
      - apply dlink_ext. - apply dlink_lt.
      - apply Forall_app. split; auto. }
    split.
    { subst css. rewrite concat_mid in *. rewrite !map_app in *. cbn [map fst app].
      apply NoDup_Add with (a := e) (l := map fst (concat L) ++ map fst cs ++ map fst (concat R)).
      - apply Add_app.
      - split; auto. intros Hx. rewrite !in_app_iff in Hx.
        specialize (Hfr e). rewrite !in_app_iff in Hfr. specialize (Hfr Hx). lia. }
    split.
    { subst css. apply hash_upd with (cs := cs); auto. intros x [<-|Hx]; [cbn; auto|].
      apply (Hh (length L) cs); auto. rewrite nth_error_app2, Nat.sub_diag by lia. reflexivity. }
    split.
    { subst css. rewrite concat_mid, !map_app in *. cbn [map snd app].
      apply Permutation_sym, Permutation_cons_app, Permutation_sym. exact Hp. }
    cbn [fst map].
    split; [constructor; auto; apply assoc_none in Ha; auto using eqk_spec|].
    split; [intros kv [<-|Hin]; auto|].
    split.
    { exists (firstn p lk ++ k :: skipn p lk). split; auto. split; [now apply insert_sorted|].
      intros x. rewrite in_insert, Ik. cbn. intuition auto. }
    split; [cbn [length]; lia|].
    split; [pose proof (set_insert_max compare _ _ _ _ Es); lia|].
    intros x c Hx. rewrite concat_mid, !map_app, !in_app_iff. cbn [map fst In].
    assert (Hxl : x < S (length (ht_heap t))) by (rewrite <- Hlh; eapply some_lt; eauto).
    destruct (Nat.eq_dec x e) as [->|Hxe]; [auto|].
    destruct (in_dec Nat.eq_dec x (map fst cs)) as [Hc|Hc]; [auto|].
    rewrite Ho in Hx by (auto; lia). apply Hleak in Hx.
    rewrite Ec, concat_mid, !map_app, !in_app_iff in Hx. tauto.
Qed.

(** hashtable_remove's unlinking of [a]. *)
Lemma unlink_ok (h : heap (K * bytes)) table bucket l1 a v l2 :
  seg h None (l1 ++ (a, v) :: l2) None -> NoDup (map fst (l1 ++ (a, v) :: l2)) ->
  bucket < length table ->
  (l1 <> [] -> nth_error table bucket = Some (firstp (l1 ++ (a, v) :: l2) None)) ->
  exists h' h'' ,
    (let! p :=
        (if negb (is_null (lastp None l1)) then
           let! h := set_next h (lastp None l1) (firstp l2 None) in
           let! h := set_prev h (Some a) None in
           Ok (h, table)
         else
           let! table := aset table bucket (firstp l2 None) in
           let! h := (if is_null (firstp l2 None) then Ok h
                      else set_prev h (firstp l2 None) None) in
           Ok (h, table)) in
      let! c1 := hload (fst p) (Some a) in
      let! h :=
        (if negb (is_null (c_next c1)) then
           let! h := set_prev (fst p) (c_next c1) (c_prev c1) in
           set_next h (Some a) None
         else if negb (is_null (c_prev c1)) then set_next (fst p) (c_prev c1) None
         else Ok (fst p)) in Ok (h, snd p)) = Ok (h', upd table bucket (firstp (l1 ++ l2) None)) /\
    hfree h' (Some a) = Ok h'' /\ nlink h'' (l1 ++ l2) /\
    (l1 = [] \/ l2 = [] -> dlink h'' (l1 ++ l2)) /\ length h'' = length h /\
    seg h'' None l2 None /\ nth_error h'' a = Some None /\
    (forall x, ~ In x (map fst (l1 ++ (a, v) :: l2)) -> nth_error h'' x = nth_error h x).
Proof.
  intros Hs Hd Hbk Ht.
  rewrite map_app in Hd. cbn [map fst] in Hd.
  pose proof (NoDup_remove_1 _ _ _ Hd) as Hd12. pose proof (NoDup_remove_2 _ _ _ Hd) as Hna.
  rewrite <- map_app in Hd12, Hna.
  assert (Hna1 : ~ In a (map fst l1)) by (intros H; apply Hna; rewrite map_app, in_app_iff; auto).
  assert (Hna2 : ~ In a (map fst l2)) by (intros H; apply Hna; rewrite map_app, in_app_iff; auto).
  rewrite seg_app in Hs. cbn [firstp seg] in Hs. destruct Hs as (S1 & Sa & S2).
  assert (Hfree : forall h' c (cs : list entry), nth_error h' a = Some (Some c) -> ~ In a (map fst cs) ->
            hfree h' (Some a) = Ok (upd h' a None) /\ (nlink h' cs -> nlink (upd h' a None) cs) /\
            (dlink h' cs -> dlink (upd h' a None) cs)).
  { intros h' c cs Hc Hn. split; [now apply hfree_eq in Hc|].
    split; [now apply nseg_upd|now apply seg_upd]. }
  assert (Hout : forall x, ~ In x (map fst (l1 ++ (a, v) :: l2)) ->
            x <> a /\ ~ In x (map fst l1) /\ ~ In x (map fst l2)).
  { intros x Hx. rewrite map_app, in_app_iff in Hx. cbn in Hx.
    repeat split; try tauto. intros ->. tauto. }
  destruct (list_last_cases l1) as [->|(l & (b & w) & ->)].
  - cbn [lastp is_null negb app] in *. rewrite (aset_ok _ _ _ Hbk). cbn [bind].
    destruct l2 as [|[b w] t].
    + cbn [firstp is_null bind fst snd]. cbn [firstp] in Sa. rewrite (hload_eq _ _ _ Sa).
      cbn [bind c_next c_prev is_null negb].
      destruct (Hfree h _ [] Sa) as (E & F1 & F2); auto.
      eexists _, _. split; [reflexivity|]. split; [exact E|]. split; [exact I|]. split; [intros _; exact I|].
      split; [apply upd_length|]. split; [exact I|].
      split; [apply nth_error_upd_eq; eapply some_lt; eauto|]. intros x Hx. rewrite nth_error_upd_neq; auto. apply Hout in Hx. intuition congruence.
    + cbn [firstp is_null]. inversion Hd12 as [|? ? Hnb Hdt]; subst.
      destruct (seg_set_first _ _ b w t None None Hnb S2) as (h1 & E1 & S1' & O1 & L1).
      rewrite E1. cbn [bind fst snd].
      assert (Hab : a <> b) by (intros <-; apply Hna2; cbn; auto).
      assert (Sa1 : nth_error h1 a = Some (Some (Cell v (Some b) None))) by (rewrite O1; auto).
      rewrite (hload_eq _ _ _ Sa1). cbn [bind c_next c_prev is_null negb].
      destruct (seg_set_first _ _ b w t None None Hnb S1') as (h2 & E2 & S2' & O2 & L2).
      rewrite E2. cbn [bind].
      assert (Sa2 : nth_error h2 a = Some (Some (Cell v (Some b) None))) by (rewrite O2; auto).
      rewrite (set_next_eq _ _ _ _ _ None Sa2). cbn [bind].
      assert (Sa3 : nth_error (upd h2 a (Some (Cell v None None))) a = Some (Some (Cell v None None))).
      { rewrite nth_error_upd_eq; auto. eapply some_lt; eauto. }
      assert (S3 : dlink (upd h2 a (Some (Cell v None None))) ((b, w) :: t)) by (apply seg_upd; auto).
      destruct (Hfree _ _ ((b, w) :: t) Sa3) as (E & F1 & F2); auto.
      eexists _, _. split; [reflexivity|]. split; [exact E|].
      split; [apply F1; unfold nlink; eapply seg_nseg; apply S3|]. split; [intros _; auto|].
      split; [rewrite !upd_length; congruence|]. split; [apply F2; exact S3|].
      split; [apply nth_error_upd_eq; eapply some_lt; eauto|].
      intros x Hx. apply Hout in Hx. destruct Hx as (Hx1 & _ & Hx2).
      rewrite !nth_error_upd_neq by auto. assert (x <> b) by (intros ->; apply Hx2; cbn; auto).
      rewrite O2, O1; auto.
  - rewrite lastp_app in Sa. cbn [lastp] in Sa. rewrite lastp_app. cbn [lastp is_null negb].
    assert (Hd1 : NoDup (map fst (l ++ [(b, w)]))) by (rewrite map_app in Hd12; now apply NoDup_app_l in Hd12).
    destruct (seg_set_last _ _ l b w (Some a) (firstp l2 None) Hd1 S1) as (h1 & E1 & S1' & O1 & L1).
    rewrite E1. cbn [bind].
    assert (Hab : a <> b).
    { intros <-. apply Hna1. rewrite map_app, in_app_iff. cbn. auto. }
    assert (Sa1 : nth_error h1 a = Some (Some (Cell v (firstp l2 None) (Some b)))) by (rewrite O1; auto).
    rewrite (set_prev_eq _ _ _ _ _ None Sa1). cbn [bind fst snd].
    set (h2 := upd h1 a (Some (Cell v (firstp l2 None) None))) in *.
    assert (Sa2 : nth_error h2 a = Some (Some (Cell v (firstp l2 None) None))).
    { unfold h2. rewrite nth_error_upd_eq; auto. eapply some_lt; eauto. }
    rewrite (hload_eq _ _ _ Sa2). cbn [bind c_next c_prev is_null negb].
    assert (Htab : table = upd table bucket (firstp ((l ++ [(b, w)]) ++ l2) None)).
    { apply nth_error_ext. intros i. rewrite nth_error_upd.
      destruct (Nat.eqb_spec bucket i); auto. subst i.
      destruct (Nat.ltb_spec bucket (length table)); [|lia]. cbn.
      rewrite Ht by (destruct l; discriminate). rewrite !firstp_app. destruct l as [|[? ?] ?]; reflexivity. }
    assert (S1h2 : seg h2 None (l ++ [(b, w)]) (firstp l2 None)) by (apply seg_upd; auto).
    assert (Hdisj : forall x, In x (map fst l2) -> ~ In x (map fst (l ++ [(b, w)]))).
    { intros x Hx2 Hx1. rewrite map_app in Hd12. exact (NoDup_app_disj _ _ x Hd12 Hx1 Hx2). }
    assert (S2h2 : seg h2 (Some a) l2 None).
    { apply seg_upd; auto. apply (seg_ext h); [|exact S2].
      intros x Hx. apply O1. intros ->. apply (Hdisj b Hx). rewrite map_app, in_app_iff. cbn; auto. }
    assert (Hb : forall x, ~ In x (map fst (l ++ [(b, w)])) -> x <> b).
    { intros x Hx ->. apply Hx. rewrite map_app, in_app_iff. cbn; auto. }
    destruct l2 as [|[b2 w2] t].
    + cbn [firstp is_null negb bind] in *. rewrite app_nil_r in *.
      destruct (Hfree h2 _ (l ++ [(b, w)]) Sa2 Hna1) as (E & F1 & F2).
      eexists _, _. split; [rewrite <- Htab; reflexivity|]. split; [exact E|].
      split; [apply F1; unfold nlink; eapply seg_nseg; apply S1h2|].
      split; [intros _; apply F2; exact S1h2|].
      split; [unfold h2; rewrite !upd_length; congruence|]. split; [exact I|].
      split; [apply nth_error_upd_eq; eapply some_lt; eauto|].
      intros x Hx. apply Hout in Hx. destruct Hx as (Hx1 & Hx2 & Hx3). unfold h2.
      rewrite !nth_error_upd_neq by auto. apply O1. auto.
    + cbn [firstp is_null negb] in *.
      assert (Hnb : ~ In b2 (map fst t)).
      { rewrite map_app in Hd12. apply NoDup_app_r in Hd12. now inversion Hd12. }
      destruct (seg_set_first _ _ b2 w2 t None None Hnb S2h2) as (h3 & E3 & S3 & O3 & L3).
      rewrite E3. cbn [bind].
      assert (Hab2 : a <> b2) by (intros <-; apply Hna2; cbn; auto).
      assert (Sa3 : nth_error h3 a = Some (Some (Cell v (Some b2) None))) by (rewrite O3; auto).
      rewrite (set_next_eq _ _ _ _ _ None Sa3). cbn [bind].
      set (h4 := upd h3 a (Some (Cell v None None))).
      assert (Sa4 : nth_error h4 a = Some (Some (Cell v None None))).
      { unfold h4. rewrite nth_error_upd_eq; auto. eapply some_lt; eauto. }
      destruct (Hfree h4 _ ((l ++ [(b, w)]) ++ (b2, w2) :: t) Sa4 Hna) as (E & F1 & F2).
      eexists _, _. split; [rewrite <- Htab; reflexivity|]. split; [exact E|].
      split.
      { apply F1. unfold nlink. rewrite nseg_app. split.
        - cbn [firstp]. apply seg_nseg with (pr := None). apply seg_upd; auto.
          apply (seg_ext h2); [|exact S1h2]. intros x Hx. apply O3. intros ->.
          apply (Hdisj b2); auto. cbn; auto.
        - apply seg_nseg with (pr := None). apply seg_upd; auto. }
      split; [intros [H|H]; [destruct l; discriminate|discriminate]|].
      split; [unfold h4; rewrite !upd_length, L3; unfold h2; rewrite upd_length; congruence|].
      split; [unfold h4; apply seg_upd; auto; apply seg_upd; auto|].
      split; [apply nth_error_upd_eq; eapply some_lt; eauto|].
      intros x Hx. apply Hout in Hx. destruct Hx as (Hx1 & Hx2 & Hx3). unfold h4.
      rewrite !nth_error_upd_neq by auto.
      rewrite O3 by (intros ->; apply Hx3; cbn; auto). unfold h2.
      rewrite nth_error_upd_neq by auto. apply O1. auto.
Qed.

Lemma filter_none {B} (f : B -> bool) l : (forall x, In x l -> f x = false) -> filter f l = [].
Proof.
  induction l as [|x l IH]; cbn; intros H; auto. rewrite (H x) by auto. apply IH. auto.
Qed.
Lemma filter_all {B} (f : B -> bool) l : (forall x, In x l -> f x = true) -> filter f l = l.
Proof.
  induction l as [|x l IH]; cbn; intros H; auto. rewrite (H x) by auto. f_equal. apply IH. auto.
Qed.

Lemma bucket_count t css m k L cs R :
  tinv dlink t css m -> css = L ++ cs :: R -> length L = hash k (ht_buckets t) ->
  length (filter (fun kv => hash (fst kv) (ht_buckets t) =? hash k (ht_buckets t)) m) = length cs.
Proof.
  intros (HB & Htb & Hl & Hda & Hh & Hp & _) Ec HL.
  rewrite <- (Permutation_length (filter_perm _ _ _ Hp)). subst css.
  rewrite concat_mid, !map_app, !filter_app, !app_length.
  assert (H : forall c i, nth_error (L ++ cs :: R) i = Some c -> forall x, In x (map snd c) ->
     hash (fst x) (ht_buckets t) = i).
  { intros c i Hi x Hx. apply in_map_iff in Hx. destruct Hx as (y & <- & Hy). now apply (Hh i c Hi). }
  rewrite (filter_all _ (map snd cs)).
  2: { intros x Hx. apply Nat.eqb_eq. rewrite <- HL. apply (H cs); auto.
       rewrite nth_error_app2, Nat.sub_diag by lia. reflexivity. }
  rewrite (filter_none _ (map snd (concat L))).
  2: { intros x Hx. apply Nat.eqb_neq. apply in_map_iff in Hx. destruct Hx as (y & <- & Hy).
       apply in_concat_nth in Hy. destruct Hy as (i & c & Hi & Hy).
       assert (Hi' : i < length L) by (apply nth_error_Some; congruence).
       rewrite (H c i); [lia| |now apply in_map]. rewrite nth_error_app1; auto. }
  rewrite (filter_none _ (map snd (concat R))).
  2: { intros x Hx. apply Nat.eqb_neq. apply in_map_iff in Hx. destruct Hx as (y & <- & Hy).
       apply in_concat_nth in Hy. destruct Hy as (i & c & Hi & Hy).
       rewrite (H c (length L + S i)); [lia| |now apply in_map].
       rewrite nth_error_app2 by lia. replace (length L + S i - length L) with (S i) by lia. exact Hi. }
  rewrite map_length. cbn. lia.
Qed.

Lemma memcpy_part (dst src : bytes) n : n <= length dst -> n <= length src ->
  memcpy dst src n = Ok (firstn n src ++ skipn n dst).
Proof.
  intros H1 H2. unfold memcpy. apply Nat.leb_le in H1, H2. now rewrite H1, H2.
Qed.

Lemma set_remove_ok al (lk : list K) k : rep al lk -> StronglySorted before lk -> In k lk ->
  exists al' p, set_remove compare al k = Ok (al', (1%Z, Some k)) /\ nth_error lk p = Some k /\ rep al' (firstn p lk ++ skipn (S p) lk) /\ al_max al <= al_max al'.
Proof.
  intros Rk Sk Hin. unfold set_remove.
  destruct (set_find_ok compare TO al lk k Rk Sk) as [(p & Efd & Hp')|[_ Hno]]; [|contradiction].
  rewrite Efd. cbn [bind]. destruct (Z.ltb_spec (Z.of_nat p) 0); [lia|]. rewrite Nat2Z.id.
  unfold set_remove_at. destruct (remove_at_ok _ _ _ _ Rk Hp') as (al' & E1 & R1). rewrite E1.
  exists al', p. split; auto. split; auto. split; auto.
  apply (sstep_max compare _ (SRemoveAt p) _ _ E1).
Qed.

Lemma remove_core t css m k (buf : bytes) L l1 a v l2 R :
  tinv dlink t css m -> css = L ++ (l1 ++ (a, (k, v)) :: l2) :: R ->
  ht_ksize t <= ht_dsize t -> length buf = ht_dsize t ->
  exists t', hashtable_remove compare hash t k buf =
      Ok (t', (1%Z, firstn (ht_ksize t) v ++ skipn (ht_ksize t) buf)) /\
    tinv nlink t' (L ++ (l1 ++ l2) :: R) (without eqk m k) /\
    (l1 = [] \/ l2 = [] -> tinv dlink t' (L ++ (l1 ++ l2) :: R) (without eqk m k)) /\
    seg (ht_heap t') None l2 None /\ length L = hash k (ht_buckets t) /\ In (k, v) m /\
    ht_ksize t' = ht_ksize t /\ ht_dsize t' = ht_dsize t /\ ht_buckets t' = ht_buckets t.
Proof.
  intros I Ec Hks Hbuf.
  pose proof I as (HB & Htb & Hl & Hda & Hh & Hp & Hdm & Hsz & (lk & Rk & Sk & Ik) & Hcnt & Hmax & Hleak).
  assert (HL : length L = hash k (ht_buckets t)).
  { symmetry. apply (Hh (length L) (l1 ++ (a, (k, v)) :: l2)) with (x := (a, (k, v))).
    - subst css. rewrite nth_error_app2, Nat.sub_diag by lia. reflexivity.
    - rewrite in_app_iff. cbn. auto. }
  assert (Hlen : length css = ht_buckets t).
  { unfold ht_buckets. rewrite Htb. now rewrite map_length. }
  set (cs := l1 ++ (a, (k, v)) :: l2) in *.
  assert (Ht : nth_error (ht_table t) (hash k (ht_buckets t)) = Some (firstp cs None)).
  { rewrite Htb, nth_error_map, Ec, <- HL, nth_error_app2, Nat.sub_diag by lia. reflexivity. }
  assert (Hs : dlink (ht_heap t) cs).
  { rewrite Forall_forall in Hl. apply Hl. subst css. apply in_or_app. cbn; auto. }
  assert (Hd : NoDup (map fst cs)).
  { subst css. rewrite concat_mid, map_app in Hda. apply NoDup_app_r in Hda. rewrite map_app in Hda.
    now apply NoDup_app_l in Hda. }
  assert (Hm : In (k, v) m).
  { apply (Permutation_in _ Hp). change (k, v) with (snd (a, (k, v))). apply in_map.
    subst css. rewrite concat_mid, !in_app_iff. right; left. unfold cs. rewrite in_app_iff. cbn; auto. }
  assert (Hsplit : map snd (concat css) =
       (map snd (concat L) ++ map snd l1) ++ (k, v) :: (map snd l2 ++ map snd (concat R))).
  { subst css. unfold cs. rewrite concat_mid, !map_app. cbn [map snd]. rewrite <- !app_assoc. reflexivity. }
  assert (Hfind : find (fun x => eqk (fst (snd x)) k) cs = Some (a, (k, v))).
  { assert (Hk : NoDup (map fst (map snd (concat css)))).
    { eapply Permutation_NoDup; [apply Permutation_map, Permutation_sym, Hp|auto]. }
    rewrite Hsplit, !map_app in Hk. cbn [map fst] in Hk. apply NoDup_remove_2 in Hk.
    unfold cs. assert (Hn : forall x, In x l1 -> eqk (fst (snd x)) k = false).
    { intros x Hx. destruct (eqk (fst (snd x)) k) eqn:Ee; auto. apply eqk_spec in Ee.
      destruct Hk. rewrite !in_app_iff. left. right. rewrite <- Ee, map_map.
      apply (in_map (fun x => fst (snd x))). exact Hx. }
    clear - Hn TO. induction l1 as [|y l1 IH]; cbn [app find].
    - cbn [fst snd]. now rewrite (proj2 (eqk_spec k k) eq_refl).
    - rewrite Hn by (cbn; auto). apply IH. intros x Hx. apply Hn. cbn; auto. }
  unfold hashtable_remove, hashtable_empty. rewrite Hcnt.
  destruct (Z.eqb_spec (Z.of_nat (length m)) 0) as [E0|E0].
  { destruct m; [destruct Hm|cbn in E0; lia]. }
  rewrite (lookup_entry_ok t css m k L cs R (tinv_weak _ _ _ I) Ec HL Ht (seg_nseg _ _ _ _ Hs) Hd).
  rewrite Hfind. cbn [option_map bind fst].
  destruct (unlink_ok (ht_heap t) (ht_table t) (hash k (ht_buckets t)) l1 a (k, v) l2 Hs Hd
              (some_lt _ _ _ Ht) (fun _ => Ht))
    as (h' & h'' & Eu & Ef & Hn & Hdl & Hlh & Hl2 & Hfr & Ho).
  pose proof Hs as Hs'. apply seg_app in Hs'. destruct Hs' as (_ & Sa & _).
  rewrite (hload_eq _ _ _ Sa). cbn [bind c_prev c_next c_val snd].
  match type of Eu with bind ?p _ = _ => set (P := p) in * end.
  destruct P as [[h0 tb0]| | |]; try discriminate. cbn [bind fst snd] in *.
  destruct (hload h0 (Some a)) as [c1| | |]; try discriminate. cbn [bind] in *.
  match type of Eu with bind ?p _ = _ => set (Q := p) in * end.
  destruct Q as [hq| | |]; try discriminate. cbn [bind] in *. inversion Eu; subst hq tb0. clear Eu.
  pose proof (Hsz _ Hm) as Hv. cbn [snd] in Hv.
  rewrite memcpy_part by lia. cbn [bind]. rewrite Ef. cbn [bind].
  assert (Hkin : In k (map fst m)) by (change k with (fst (k, v)); now apply in_map).
  destruct (set_remove_ok _ lk k Rk Sk (proj2 (Ik k) Hkin)) as (al' & p & Esk & Hp' & R' & Hmx).
  rewrite Esk. cbn [bind fst snd].
  eexists; split; [reflexivity|].
  pose proof (without_perm eqk eqk_spec m k v _ _ Hdm (Permutation_sym (eq_ind _ (fun z => Permutation z m) Hp _ Hsplit))) as Hw.
  assert (HB' : length (upd (ht_table t) (hash k (ht_buckets t)) (firstp (l1 ++ l2) None)) = ht_buckets t)
      by apply upd_length.
  assert (Hout : forall (link : heap (K * bytes) -> list entry -> Prop),
     (forall h h' c, (forall a, In a (map fst c) -> nth_error h' a = nth_error h a) -> link h c -> link h' c) ->
     (forall h c a, link h c -> In a (map fst c) -> a < length h) ->
     Forall (link (ht_heap t)) css -> link h'' (l1 ++ l2) ->
     tinv link (HT h'' (upd (ht_table t) (hash k (ht_buckets t)) (firstp (l1 ++ l2) None))
            (Z.of_nat (length m) - 1) (ht_collisions t) al' (ht_ksize t) (ht_dsize t))
          (L ++ (l1 ++ l2) :: R) (without eqk m k)).
  { intros link Hex Hlt Hfl Hlk.
    match goal with |- tinv _ ?T _ _ => assert (HBT : ht_buckets T = ht_buckets t) by exact HB' end.
    unfold tinv. cbv zeta. rewrite HBT. cbn [ht_table ht_heap ht_keys ht_size ht_dsize].
    split; [exact HB|].
    split.
    { rewrite Htb, Ec, <- HL. apply map_upd_firstp. }
    split.
    { subst css. destruct (others_ext link (ht_heap t) h'' L cs R) as [HfL HfR]; auto.
      - apply Hex. - apply Hlt.
      - apply Forall_app. split; auto. }
    split.
    { subst css. unfold cs in Hda. rewrite concat_mid, !map_app in *. cbn [map fst] in Hda.
      rewrite <- !app_assoc in *. cbn [app] in Hda.
      rewrite app_assoc in Hda. apply NoDup_remove_1 in Hda. rewrite <- !app_assoc in Hda. exact Hda. }
    split.
    { subst css. apply hash_upd with (cs := cs); auto.
      intros x Hx. apply (Hh (length L) cs).
      - rewrite nth_error_app2, Nat.sub_diag by lia. reflexivity.
      - unfold cs. rewrite in_app_iff in *. cbn. tauto. }
    split.
    { rewrite concat_mid, !map_app. rewrite <- !app_assoc in *. apply Permutation_sym. exact Hw. }
    split; [now apply without_nodup|].
    split.
    { intros kv Hin. unfold without in Hin. apply filter_In in Hin. apply Hsz; tauto. }
    split.
    { exists (firstn p lk ++ skipn (S p) lk). split; auto. split; [now apply delete_sorted|].
      intros x. rewrite (in_delete compare TO lk p k x Sk Hp'), Ik. rewrite without_keys by (apply eqk_spec). tauto. }
    split.
    { rewrite (Permutation_length Hw). rewrite <- (Permutation_length Hp), Hsplit.
      rewrite !app_length. cbn [length]. rewrite !app_length. lia. }
    split; [lia|].
    intros x c Hx. rewrite concat_mid, !map_app, !in_app_iff.
    destruct (Nat.eq_dec x a) as [->|Hxa]; [congruence|].
    destruct (in_dec Nat.eq_dec x (map fst cs)) as [Hc|Hc].
    - unfold cs in Hc. rewrite map_app, in_app_iff in Hc. cbn [map fst In] in Hc. intuition congruence.
    - rewrite Ho in Hx by exact Hc. apply Hleak in Hx.
      rewrite Ec, concat_mid, !map_app, !in_app_iff in Hx. tauto. }
  split.
  { apply Hout; auto.
    - apply nlink_ext. - apply nlink_lt.
    - apply Forall_impl with (2 := Hl). intros c. apply seg_nseg. }
  split.
  { intros Hfew. apply Hout; auto.
    - apply dlink_ext. - apply dlink_lt. }
  split; [exact Hl2|]. split; [exact HL|]. split; [exact Hm|].
  cbn [ht_ksize ht_dsize]. split; [auto|]. split; auto.
Qed.

Lemma remove_absent t m k (buf : bytes) : good t m -> assoc eqk m k = None ->
  hashtable_remove compare hash t k buf = Ok (t, (0%Z, buf)).
Proof.
  intros (css & I) Hn. unfold hashtable_remove. destruct (hashtable_empty t); auto.
  destruct (open_bucket _ _ _ _ k I) as (L & cs & R & Ec & HL & Hlen & Ht & Hs & Hd).
  rewrite (lookup_entry_ok t css m k L cs R (tinv_weak _ _ _ I) Ec HL Ht (seg_nseg _ _ _ _ Hs) Hd).
  pose proof (bucket_assoc _ t css m k L cs R I Ec HL) as Ha.
  destruct (find _ cs) as [[a [k' v]]|] eqn:E; cbn [option_map bind fst]; auto.
  destruct Ha as (_ & Ea & _). congruence.
Qed.

(** A present key sits in its chain. *)
Lemma open_key t css m k v : tinv dlink t css m -> assoc eqk m k = Some v ->
  exists L l1 a l2 R, css = L ++ (l1 ++ (a, (k, v)) :: l2) :: R /\ length L = hash k (ht_buckets t).
Proof.
  intros I Ha.
  destruct (open_bucket _ _ _ _ k I) as (L & cs & R & Ec & HL & Hlen & Ht & Hs & Hd).
  pose proof (bucket_assoc _ t css m k L cs R I Ec HL) as Hb.
  destruct (find _ cs) as [[a [k' v']]|] eqn:E; [|congruence].
  destruct Hb as (-> & Ea & _ & l1 & l2 & ->). assert (v' = v) by congruence. subst v'.
  exists L, l1, a, l2, R. auto.
Qed.

Lemma remove_ok t m k (buf : bytes) : good t m -> ht_ksize t = ht_dsize t -> length buf = ht_dsize t ->
  exists t', hashtable_remove compare hash t k buf = Ok (t', snd (hspec_step eqk m (HRemove k buf))) /\
    weak t' (fst (hspec_step eqk m (HRemove k buf))) /\
    (few_collisions (fun k => hash k (ht_buckets t)) m (HRemove k buf) ->
       good t' (fst (hspec_step eqk m (HRemove k buf)))) /\
    ht_ksize t' = ht_ksize t /\ ht_dsize t' = ht_dsize t /\ ht_buckets t' = ht_buckets t.
Proof.
  intros G Hks Hbuf. pose proof G as (css & I). cbn [hspec_step few_collisions].
  destruct (assoc eqk m k) as [v|] eqn:Ea.
  2: { exists t. split; [now apply remove_absent with (m := m)|]. split; [now apply good_weak|]. auto. }
  destruct (open_key t css m k v I Ea) as (L & l1 & a & l2 & R & Ec & HL).
  destruct (remove_core t css m k buf L l1 a v l2 R I Ec) as (t' & E & Hn & Hd & _ & _ & Hin & H1 & H2 & H3);
    [lia|auto|].
  exists t'. cbn [fst snd]. split.
  { rewrite E. destruct I as (_ & _ & _ & _ & _ & _ & _ & Hsz & _).
    pose proof (Hsz _ Hin) as Hv. cbn [snd] in Hv. rewrite Hks. rewrite firstn_all2, skipn_all2 by lia.
    now rewrite app_nil_r. }
  split; [eexists; exact Hn|]. split; [|auto].
  intros Hfew. eexists. apply Hd. rewrite (bucket_count t css m k L _ R I Ec HL) in Hfew.
  rewrite app_length in Hfew. cbn in Hfew.
  destruct l1; auto. destruct l2; auto. cbn in Hfew. lia.
Qed.

Lemma hstep_ok t m o :
  good t m -> sized (ht_dsize t) o -> few_collisions (fun k => hash k (ht_buckets t)) m o ->
  (no_removal o \/ ht_ksize t = ht_dsize t) ->
  exists t', hstep compare hash t o = Ok (t', snd (hspec_step eqk m o)) /\
    good t' (fst (hspec_step eqk m o)) /\
    ht_ksize t' = ht_ksize t /\ ht_dsize t' = ht_dsize t /\ ht_buckets t' = ht_buckets t.
Proof.
  intros G Hs Hf Hk. destruct o as [k v|k buf|k buf|]; cbn [hstep sized no_removal] in *.
  - apply insert_ok; auto.
  - rewrite (lookup_ok t m k buf (good_weak _ _ G) Hs). cbn [bind]. exists t. auto.
  - destruct Hk as [[]|Hk].
    destruct (remove_ok t m k buf G Hk Hs) as (t' & E & _ & Hg & H1 & H2 & H3). exists t'.
    repeat split; auto.
  - exists t. split; auto. cbn [hspec_step snd]. repeat f_equal.
    destruct G as (css & _ & _ & _ & _ & _ & _ & Hdm & _ & (lk & Rk & Sk & Ik) & _).
    unfold hashtable_size. destruct Rk as (Hsz & _). rewrite Hsz.
    rewrite <- (map_length fst m). apply Nat.le_antisymm.
    + apply NoDup_incl_length; [|intros x; apply Ik].
      clear - Sk TO. induction Sk as [|x l Sk IH Hf]; constructor; auto.
      intros Hin. rewrite Forall_forall in Hf. apply (before_irrefl compare TO x). auto.
    + apply NoDup_incl_length; auto. intros x. apply Ik.
Qed.

Lemma hrun_ok ops : forall t m,
  good t m -> hhist_ok eqk (ht_dsize t) (fun k => hash k (ht_buckets t)) m ops ->
  (Forall no_removal ops \/ ht_ksize t = ht_dsize t) ->
  exists t', hrun compare hash t ops = Ok (t', snd (hspec_run eqk m ops)) /\
    good t' (fst (hspec_run eqk m ops)) /\
    ht_ksize t' = ht_ksize t /\ ht_dsize t' = ht_dsize t /\ ht_buckets t' = ht_buckets t.
Proof.
  induction ops as [|o ops IH]; intros t m G Hok Hk; cbn [hrun hspec_run].
  - exists t. auto.
  - destruct Hok as (Hs & Hf & Hr).
    destruct (hstep_ok t m o G Hs Hf) as (t1 & E1 & G1 & K1 & D1 & B1).
    { destruct Hk as [Hk|Hk]; auto. inversion Hk; auto. }
    rewrite E1. cbn [bind fst snd].
    destruct (IH t1 (fst (hspec_step eqk m o)) G1) as (t2 & E2 & G2 & K2 & D2 & B2).
    { rewrite D1. unfold hhist_ok. fold (@hhist_ok K). rewrite B1. exact Hr. }
    { destruct Hk as [Hk|Hk]; [left; now inversion Hk|right; congruence]. }
    rewrite E2. cbn [bind fst snd]. exists t2. repeat split; auto; congruence.
Qed.

(** A removal copying more bytes than the value has. *)
Lemma remove_overread t m k v (buf : bytes) :
  good t m -> assoc eqk m k = Some v -> ht_dsize t < ht_ksize t ->
  hashtable_remove compare hash t k buf = UB.
Proof.
  intros (css & I) Ea Hks.
  destruct (open_key t css m k v I Ea) as (L & l1 & a & l2 & R & Ec & HL).
  destruct (open_bucket _ _ _ _ k I) as (L' & cs & R' & Ec' & HL' & Hlen & Ht & Hs & Hd).
  assert (Hcs : L' = L /\ cs = l1 ++ (a, (k, v)) :: l2 /\ R' = R).
  { rewrite Ec in Ec'. clear - Ec' HL HL'.
    assert (Hl : length L = length L') by congruence. clear HL HL'. revert L' Hl Ec'.
    induction L as [|x L IH]; intros [|y L'] Hl E; cbn in Hl; try discriminate; cbn in E; inversion E; auto.
    destruct (IH L') as (-> & -> & ->); auto. }
  destruct Hcs as (-> & -> & ->).
  pose proof (bucket_assoc _ t css m k L _ R I Ec HL) as Hb.
  pose proof I as (_ & _ & _ & _ & _ & Hp & Hdm & Hsz & _ & Hcnt & _).
  assert (Hm : In (k, v) m) by (apply assoc_some in Ea; auto using eqk_spec).
  unfold hashtable_remove, hashtable_empty. rewrite Hcnt.
  destruct (Z.eqb_spec (Z.of_nat (length m)) 0) as [E0|E0].
  { destruct m; [destruct Hm|cbn in E0; lia]. }
  rewrite (lookup_entry_ok t css m k L _ R (tinv_weak _ _ _ I) Ec HL Ht (seg_nseg _ _ _ _ Hs) Hd).
  destruct (find _ (l1 ++ (a, (k, v)) :: l2)) as [[a' [k' v']]|] eqn:E; [|congruence].
  destruct Hb as (-> & Ea' & Hv & m1 & m2 & E2). assert (v' = v) by congruence. subst v'.
  rewrite E2 in Hs, Hd, Ht.
  destruct (unlink_ok (ht_heap t) (ht_table t) (hash k (ht_buckets t)) m1 a' (k, v) m2 Hs Hd
              (some_lt _ _ _ Ht) (fun _ => Ht))
    as (h' & h'' & Eu & Ef & _).
  pose proof Hs as Hs'. apply seg_app in Hs'. destruct Hs' as (_ & Sa & _).
  cbn [option_map bind fst].
  rewrite (hload_eq _ _ _ Sa). cbn [bind c_prev c_next c_val snd].
  match type of Eu with bind ?p _ = _ => set (P := p) in * end.
  destruct P as [[h0 tb0]| | |]; try discriminate. cbn [bind fst snd] in *.
  destruct (hload h0 (Some a')) as [c1| | |]; try discriminate. cbn [bind] in *.
  match type of Eu with bind ?p _ = _ => set (Q := p) in * end.
  destruct Q as [hq| | |]; try discriminate. cbn [bind] in *.
  unfold memcpy. destruct (Nat.leb_spec (ht_ksize t) (length v)); [lia|]. reflexivity.
Qed.

Lemma weak_lookup_link t css m k L cs R x :
  tinv nlink t css m -> css = L ++ cs :: R -> In x cs -> fst (snd x) = k ->
  hashtable_lookup_entry compare hash t k = Ok (option_map fst (find (fun x => eqk (fst (snd x)) k) cs)) /\
  length L = hash k (ht_buckets t) /\ In (snd x) m /\
  nth_error (ht_table t) (hash k (ht_buckets t)) = Some (firstp cs None).
Proof.
  intros I Ec Hx Hk.
  pose proof I as (HB & Htb & Hl & Hda & Hh & Hp & Hdm & _).
  assert (HL : length L = hash k (ht_buckets t)).
  { symmetry. rewrite <- Hk. apply (Hh (length L) cs); auto.
    subst css. rewrite nth_error_app2, Nat.sub_diag by lia. reflexivity. }
  assert (Ht : nth_error (ht_table t) (hash k (ht_buckets t)) = Some (firstp cs None)).
  { rewrite Htb, nth_error_map, Ec, <- HL, nth_error_app2, Nat.sub_diag by lia. reflexivity. }
  split; [|split; [exact HL|split; [|exact Ht]]].
  - apply (lookup_entry_ok t css m k L cs R I Ec HL Ht).
    + rewrite Forall_forall in Hl. apply Hl. subst css. apply in_or_app. cbn; auto.
    + subst css. rewrite concat_mid, map_app in Hda. apply NoDup_app_r in Hda. rewrite map_app in Hda.
      now apply NoDup_app_l in Hda.
  - apply (Permutation_in _ Hp). apply in_map. subst css. rewrite concat_mid, !in_app_iff. auto.
Qed.

(** The second of two removals from a chain of at least three entries loses the entry
    in front. *)
Lemma two_removals t css m L R c kc vc a ka va b kb vb l2 (buf1 buf2 buf3 : bytes) :
  tinv dlink t css m -> css = L ++ ((c, (kc, vc)) :: (a, (ka, va)) :: (b, (kb, vb)) :: l2) :: R ->
  ht_ksize t <= ht_dsize t ->
  length buf1 = ht_dsize t -> length buf2 = ht_dsize t ->
  exists t1 t2 d1 d2,
    hashtable_remove compare hash t ka buf1 = Ok (t1, (1%Z, d1)) /\
    hashtable_remove compare hash t1 kb buf2 = Ok (t2, (1%Z, d2)) /\
    In (kc, vc) m /\ In (ka, va) m /\ In (kb, vb) m /\ kc <> ka /\ kc <> kb /\ ka <> kb /\
    hashtable_lookup compare hash t2 kc buf3 = Ok (0%Z, buf3).
Proof.
  intros I Ec Hks Hb1 Hb2.
  assert (Hkeys : kc <> ka /\ kc <> kb /\ ka <> kb /\ (forall x, In x l2 -> fst (snd x) <> kc)).
  { destruct I as (_ & _ & _ & _ & _ & Hp & Hdm & _).
    assert (Hk : NoDup (map fst (map snd (concat css)))).
    { eapply Permutation_NoDup; [apply Permutation_map, Permutation_sym, Hp|auto]. }
    subst css. rewrite concat_mid, !map_app in Hk. apply NoDup_app_r in Hk. apply NoDup_app_l in Hk.
    cbn [map fst snd] in Hk. inversion Hk as [|? ? H1 Hk1]; subst. inversion Hk1 as [|? ? H2 Hk2]; subst.
    cbn in H1, H2. split; [intros ->; tauto|]. split; [intros ->; tauto|]. split; [intros ->; tauto|].
    intros x Hx E. apply H1. right; right. rewrite <- E, map_map.
    now apply (in_map (fun x => fst (snd x))). }
  destruct Hkeys as (N1 & N2 & N3 & N4).
  assert (Hcm : In (kc, vc) m).
  { pose proof (weak_lookup_link t css m kc L _ R (c, (kc, vc)) (tinv_weak _ _ _ I) Ec (or_introl eq_refl) eq_refl). tauto. }
  destruct (remove_core t css m ka buf1 L [(c, (kc, vc))] a va ((b, (kb, vb)) :: l2) R I Ec Hks Hb1)
    as (t1 & E1 & I1 & _ & S1 & HL & Ham & K1 & D1 & B1).
  exists t1.
  destruct (weak_lookup_link t1 _ _ kb L ((c, (kc, vc)) :: (b, (kb, vb)) :: l2) R (b, (kb, vb)) I1 eq_refl)
    as (El & HL1 & Hbm & Ht1); [cbn; auto|reflexivity|].
  cbn [find fst snd] in El.
  assert (Ecb : eqk kc kb = false).
  { destruct (eqk kc kb) eqn:E; auto. apply eqk_spec in E. contradiction. }
  rewrite Ecb, (proj2 (eqk_spec kb kb) eq_refl) in El. cbn [option_map fst] in El.
  pose proof I1 as (HB & Htb & Hl & Hda & Hh & Hp & Hdm & Hsz & (lk & Rk & Sk & Ik) & Hcnt & Hmax & Hleak).
  assert (Hd : NoDup (map fst ((b, (kb, vb)) :: l2))).
  { rewrite concat_mid, map_app in Hda. apply NoDup_app_r in Hda. rewrite map_app in Hda.
    apply NoDup_app_l in Hda. cbn in Hda. now inversion Hda. }
  destruct (unlink_ok (ht_heap t1) (ht_table t1) (hash kb (ht_buckets t1)) [] b (kb, vb) l2 S1 Hd
              (some_lt _ _ _ Ht1) ltac:(congruence))
    as (h' & h'' & Eu & Ef & Hn & _ & Hlh & _ & _ & Ho).
  unfold hashtable_remove at 2. unfold hashtable_empty. rewrite Hcnt.
  destruct (Z.eqb_spec (Z.of_nat (length (without eqk m ka))) 0) as [E0|E0].
  { destruct (without eqk m ka); [destruct Hbm|cbn in E0; lia]. }
  rewrite El. cbn [bind].
  cbn [app seg] in S1. destruct S1 as [Sb S2]. rewrite (hload_eq _ _ _ Sb).
  cbn [bind c_prev c_next c_val snd]. cbn [lastp app] in Eu.
  match type of Eu with bind ?p _ = _ => set (P := p) in * end.
  destruct P as [[h0 tb0]| | |]; try discriminate. cbn [bind fst snd] in *.
  destruct (hload h0 (Some b)) as [c1| | |]; try discriminate. cbn [bind] in *.
  match type of Eu with bind ?p _ = _ => set (Q := p) in * end.
  destruct Q as [hq| | |]; try discriminate. cbn [bind] in *. inversion Eu; subst hq tb0. clear Eu.
  pose proof (Hsz _ Hbm) as Hv. cbn [snd] in Hv.
  rewrite memcpy_part by (rewrite ?K1; rewrite ?D1 in *; lia). cbn [bind]. rewrite Ef. cbn [bind].
  destruct (set_remove_ok _ lk kb Rk Sk) as (al' & p & Esk & _).
  { apply Ik. change kb with (fst (kb, vb)). now apply in_map. }
  rewrite Esk. cbn [bind fst snd].
  eexists _, _, _. split; [exact E1|]. split; [reflexivity|].
  split; [exact Hcm|]. split; [exact Ham|].
  split; [unfold without in Hbm; apply filter_In in Hbm; tauto|].
  split; [exact N1|]. split; [exact N2|]. split; [exact N3|].
  (* the lookup *)
  assert (Hbk : hash kc (ht_buckets t1) = hash kb (ht_buckets t1)).
  { rewrite <- HL1. apply (Hh (length L) ((c, (kc, vc)) :: (b, (kb, vb)) :: l2)) with (x := (c, (kc, vc))).
    - rewrite nth_error_app2, Nat.sub_diag by lia. reflexivity.
    - cbn; auto. }
  unfold hashtable_lookup, hashtable_lookup_entry.
  match goal with |- context [ht_buckets (HT ?a ?b ?c ?d ?e ?f ?g)] =>
    replace (ht_buckets (HT a b c d e f g)) with (ht_buckets t1) by (symmetry; apply upd_length) end.
  cbn [ht_table ht_heap ht_dsize]. rewrite Hbk.
  rewrite (aget_nth _ _ (firstp l2 None)).
  2: { apply nth_error_upd_eq. eapply some_lt; eauto. }
  cbn [bind].
  rewrite (find_cell_ok (fun kv => (compare (fst kv) kc =? 0)%Z) _ l2 Hn).
  2: { pose proof (nseg_length h'' l2 None Hn ltac:(now inversion Hd)). cbn [ht_heap]. lia. }
  destruct (find _ l2) as [x|] eqn:Ex; cbn [option_map bind]; auto.
  apply find_some in Ex. destruct Ex as [Hx Hxe]. apply (N4 x) in Hx. destruct Hx.
  now apply eqk_spec.
Qed.

(** *** Clearing *)
Definition nonnull (v : bytes) : bool := negb (forallb (Z.eqb 0) (firstn 8 v)).

Lemma clear_chain_ok ds cs : forall h key (data : bytes) klog vlog fuel,
  nlink h cs -> NoDup (map fst cs) -> 8 <= ds -> length data = ds ->
  (forall x, In x cs -> length (snd (snd x)) = ds) -> length cs < fuel ->
  exists h' d', clear_chain fuel h (firstp cs None) key data ds klog vlog =
      Ok (h', d', klog ++ repeat key (length cs), vlog ++ filter nonnull (map (fun x => snd (snd x)) cs)) /\
    length d' = ds /\ length h' = length h /\
    (forall a, In a (map fst cs) -> nth_error h' a = Some None) /\
    (forall a, ~ In a (map fst cs) -> nth_error h' a = nth_error h a).
Proof.
  induction cs as [|[a [k v]] cs IH]; intros h key data klog vlog fuel Hn Hd H8 Hdt Hsz Hf;
    (destruct fuel as [|fuel]; [cbn in Hf; lia|]); cbn [clear_chain firstp].
  - exists h, data. cbn. rewrite !app_nil_r. repeat split; auto. intros a [].
  - cbn [nlink] in Hn. destruct Hn as [[p Ha] Hn]. rewrite (hload_eq _ _ _ Ha). cbn [bind c_val c_next snd].
    pose proof (Hsz _ (or_introl eq_refl)) as Hv. cbn [snd] in Hv.
    rewrite memcpy_full by lia. cbn [bind]. rewrite (hfree_eq _ _ _ Ha). cbn [bind].
    unfold is_null_ptr. destruct (Nat.ltb_spec (length v) 8); [lia|]. cbn [bind].
    cbn [map fst] in Hd. inversion Hd as [|? ? Hna Hd']; subst.
    destruct (IH (upd h a None) key v (klog ++ [key])
                (if forallb (Z.eqb 0) (firstn 8 v) then vlog else vlog ++ [v]) fuel)
      as (h' & d' & E & L1 & L2 & F1 & F2); auto.
    + apply nseg_upd; auto.
    + intros x Hx. apply Hsz. cbn; auto.
    + cbn in Hf. lia.
    + rewrite E. exists h', d'. split.
      { f_equal. cbn [map snd filter length repeat]. f_equal; [f_equal|].
        - rewrite <- app_assoc. reflexivity.
        - unfold nonnull at 2. destruct (forallb (Z.eqb 0) (firstn 8 v)); cbn [negb]; auto.
          rewrite <- app_assoc. reflexivity. }
      split; auto. split; [rewrite L2; apply upd_length|]. split.
      * intros x [<-|Hx]; auto. rewrite F2 by auto. apply nth_error_upd_eq. eapply some_lt; eauto.
      * intros x Hx. rewrite F2 by (cbn in Hx; tauto). apply nth_error_upd_neq. cbn in Hx. tauto.
Qed.

Definition values (css : list (list entry)) : list bytes := map (fun x => snd (snd x)) (concat css).

Lemma nodup_app_not {B} (l1 l2 : list B) : ~ NoDup l1 -> ~ NoDup (l1 ++ l2).
Proof. intros H Hd. apply H. now apply NoDup_app_l in Hd. Qed.

Lemma clear_ok t m : good t m -> 8 <= ht_dsize t ->
  exists t' klog vlog,
    hashtable_clear hash t = Ok (t', (klog, vlog)) /\
    Permutation vlog (filter nonnull (map snd m)) /\ length klog = length m /\
    ht_table t' = repeat None (ht_buckets t) /\
    (forall a, nth_error (ht_heap t') a = Some None \/ nth_error (ht_heap t') a = None) /\
    ht_size t' = 0%Z /\ ht_keys t' = set_clear (ht_keys t) /\
    ht_ksize t' = ht_ksize t /\ ht_dsize t' = ht_dsize t /\
    ((exists k1 k2, In k1 (map fst m) /\ In k2 (map fst m) /\ k1 <> k2 /\
        hash k1 (ht_buckets t) = hash k2 (ht_buckets t)) -> ~ NoDup klog).
Proof.
  intros (css & I) H8.
  pose proof I as (HB & Htb & Hl & Hda & Hh & Hp & Hdm & Hsz & (lk & Rk & Sk & Ik) & Hcnt & Hmax & Hleak).
  set (B := ht_buckets t) in *.
  pose (inv := fun (i : nat) (s : heap (K * bytes) * list (option nat) * bytes * list K * list bytes) =>
    let '(h, table, data, klog, vlog) := s in
    exists css', length css' = B /\ table = map (fun cs => firstp cs None) css' /\
      Forall (nlink h) css' /\ NoDup (map fst (concat css')) /\ length data = ht_dsize t /\
      length h = length (ht_heap t) /\
      (forall b cs, nth_error css' b = Some cs -> forall x, In x cs -> hash (fst (snd x)) B = b) /\
      (forall x, In x (concat css') -> In (fst (snd x)) lk /\ length (snd (snd x)) = ht_dsize t) /\
      (forall j k, j < i -> nth_error lk j = Some k -> nth_error css' (hash k B) = Some []) /\
      (forall a c, nth_error h a = Some (Some c) -> In a (map fst (concat css'))) /\
      Permutation (vlog ++ filter nonnull (values css')) (filter nonnull (values css)) /\
      length klog + length (concat css') = length (concat css) /\
      (forall b, (nth_error css' b = nth_error css b \/
                  nth_error css' b = Some [] /\
                  (forall cs, nth_error css b = Some cs -> 2 <= length cs -> ~ NoDup klog)))).
  assert (Hlen : length css = B).
  { unfold B, ht_buckets. rewrite Htb. now rewrite map_length. }
  assert (Hlk : al_size (ht_keys t) = length lk) by apply Rk.
  destruct (for_up_inv inv
    (fun i s =>
       let '(h, table, data, klog, vlog) := s in
       let! k := set_value_at (ht_keys t) i in
       match snd k with
       | None => UB
       | Some key =>
           let bucket := hash key (ht_buckets t) in
           let! entry := aget table bucket in
           let! table := aset table bucket None in
           match entry with
           | None => Ok (h, table, data, klog, vlog)
           | Some _ =>
               let! q := clear_chain (S (length (ht_heap t))) h entry key data (ht_dsize t) klog vlog in
               let '(h, data, klog, vlog) := q in
               Ok (h, table, data, klog, vlog)
           end
       end) 0 (al_size (ht_keys t)) (ht_heap t, ht_table t, malloc_bytes (ht_dsize t), [], []))
    as (s' & Es & Hs').
  { exists css. repeat split; auto.
    - apply Forall_impl with (2 := Hl). intros c. apply seg_nseg.
    - apply malloc_length.
    - apply Ik. apply (Permutation_in (l := map fst (map snd (concat css)))); [now apply Permutation_map|].
      rewrite map_map. now apply (in_map (fun x => fst (snd x))).
    - apply Hsz. apply (Permutation_in _ Hp). now apply in_map.
    - intros j k Hj. lia. }
  { intros i [[[[h table] data] klog] vlog] Hi
      (css' & Hl' & Ht' & Hn' & Hd' & Hdt & Hlh & Hh' & Hk' & Hdone & Hleak' & Hp' & Hc' & Hb').
    destruct (nth_error lk i) as [key|] eqn:Ek.
    2: { apply nth_error_None in Ek. lia. }
    assert (Esv : set_value_at (ht_keys t) i = Ok (1%Z, Some key)).
    { unfold set_value_at, array_list_value_at. destruct (Nat.leb_spec (al_size (ht_keys t)) i); [lia|].
      rewrite (slot_rep _ _ _ _ Rk Ek). reflexivity. }
    rewrite Esv. cbn [bind snd]. fold B.
    destruct (nth_error css' (hash key B)) as [cs|] eqn:Ecs.
    2: { apply nth_error_None in Ecs. pose proof (hash_lt key B HB). lia. }
    destruct (nth_error_split _ _ Ecs) as (L & R & Ecss & HL).
    assert (Htk : nth_error table (hash key B) = Some (firstp cs None)).
    { rewrite Ht', nth_error_map, Ecs. reflexivity. }
    rewrite (aget_nth _ _ _ Htk). cbn [bind].
    rewrite aset_ok by (eapply some_lt; eauto). cbn [bind].
    assert (Htab : upd table (hash key B) None = map (fun c => firstp c None) (L ++ [] :: R)).
    { rewrite Ht', Ecss, <- HL. apply (map_upd_firstp L cs [] R). }
    assert (Hncs : nlink h cs).
    { rewrite Forall_forall in Hn'. apply Hn'. subst css'. apply in_or_app; cbn; auto. }
    assert (Hdcs : NoDup (map fst cs)).
    { rewrite Ecss, concat_mid, map_app in Hd'. apply NoDup_app_r in Hd'. rewrite map_app in Hd'.
      now apply NoDup_app_l in Hd'. }
    assert (Hnew : forall h' d' klog' vlog',
      length d' = ht_dsize t -> length h' = length h ->
      (forall a, In a (map fst cs) -> nth_error h' a = Some None) ->
      (forall a, ~ In a (map fst cs) -> nth_error h' a = nth_error h a) ->
      klog' = klog ++ repeat key (length cs) ->
      vlog' = vlog ++ filter nonnull (map (fun x => snd (snd x)) cs) ->
      inv (S i) (h', upd table (hash key B) None, d', klog', vlog')).
    { intros h' d' klog' vlog' F1 F2 F3 F4 -> ->. exists (L ++ [] :: R).
      split; [rewrite <- Hl', Ecss, !app_length; reflexivity|]. split; [exact Htab|].
      split.
      { destruct (others_ext nlink h h' L cs R) as [HfL HfR].
        - intros c. apply nlink_ext. - intros c. apply nlink_lt.
        - intros a Ha _. auto.
        - rewrite <- Ecss; auto.
        - rewrite <- Ecss; auto.
        - apply Forall_app. split; auto. constructor; auto. exact Logic.I. }
      split.
      { rewrite Ecss, !concat_mid, !map_app in *. cbn [map app].
        clear - Hd'. induction (map fst (concat L)) as [|x l IH]; cbn in *.
        - now apply NoDup_app_r in Hd'.
        - inversion Hd' as [|? ? Hn Hd2]; subst. constructor; auto.
          rewrite !in_app_iff in *. tauto. }
      split; [exact F1|]. split; [congruence|].
      split.
      { apply hash_upd with (cs := cs); [rewrite <- Ecss; auto|intros x []]. }
      split.
      { intros x Hx. apply Hk'. rewrite Ecss. rewrite concat_mid, !in_app_iff in *. cbn in Hx. tauto. }
      split.
      { intros j k Hj Hjk. assert (Hji : j < i \/ j = i) by lia. destruct Hji as [Hji| ->].
        - specialize (Hdone j k Hji Hjk). destruct (Nat.eq_dec (hash k B) (length L)) as [He|He].
          + rewrite He, nth_error_app2, Nat.sub_diag by lia. reflexivity.
          + rewrite Ecss in Hdone. destruct (Nat.lt_ge_cases (hash k B) (length L)).
            * rewrite nth_error_app1 in * by lia. auto.
            * rewrite nth_error_app2 in * by lia. destruct (hash k B - length L) eqn:E0; [lia|]. auto.
        - assert (k = key) by congruence. subst k. rewrite <- HL, nth_error_app2, Nat.sub_diag by lia.
          reflexivity. }
      split.
      { intros a c Ha. destruct (in_dec Nat.eq_dec a (map fst cs)) as [Hin|Hin].
        - rewrite F3 in Ha by auto. discriminate.
        - rewrite F4 in Ha by auto. apply Hleak' in Ha. rewrite Ecss in Ha.
          rewrite concat_mid, !map_app, !in_app_iff in *. cbn. tauto. }
      split.
      { eapply Permutation_trans; [|exact Hp']. unfold values. rewrite Ecss, !concat_mid, !map_app, !filter_app.
        cbn [map filter app]. rewrite <- app_assoc. apply Permutation_app_head.
        rewrite !app_assoc. apply Permutation_app_tail. apply Permutation_app_comm. }
      split.
      { rewrite <- Hc', Ecss, !concat_mid, !app_length, repeat_length. cbn [length]. lia. }
      intros b. destruct (Nat.eq_dec b (length L)) as [->|Hb].
      - right. rewrite nth_error_app2, Nat.sub_diag by lia. split; [reflexivity|].
        intros cs0 Hcs0 H2. destruct (Hb' (length L)) as [Heq|[Heq Hdup]].
        + rewrite HL in Heq, Hcs0. rewrite Ecs, Hcs0 in Heq. inversion Heq; subst cs0.
          intros Hd0. apply NoDup_app_r in Hd0. destruct cs as [|x [|y cs]]; cbn in H2; try lia.
          cbn in Hd0. inversion Hd0. cbn in *. tauto.
        + apply nodup_app_not. eauto.
      - assert (Hsame : nth_error (L ++ [] :: R) b = nth_error css' b).
        { rewrite Ecss. destruct (Nat.lt_ge_cases b (length L)).
          - rewrite !nth_error_app1 by lia. auto.
          - rewrite !nth_error_app2 by lia. destruct (b - length L) eqn:E0; [lia|]. auto. }
        rewrite Hsame. destruct (Hb' b) as [Heq|[Heq Hdup]]; [left; auto|right; split; auto].
        intros cs0 Hcs0 H2. apply nodup_app_not. eauto. }
    destruct cs as [|[a0 kv0] cs0] eqn:Ecs0.
    - cbn [firstp]. eexists; split; [reflexivity|]. apply Hnew; cbn; auto.
      + intros a [].
      + now rewrite app_nil_r.
      + now rewrite app_nil_r.
    - rewrite <- Ecs0 in *. assert (Ef : firstp cs None = Some a0) by (rewrite Ecs0; reflexivity).
      rewrite Ef. rewrite <- Ef.
      destruct (clear_chain_ok (ht_dsize t) cs h key data klog vlog (S (length (ht_heap t))))
        as (h' & d' & E & F1 & F2 & F3 & F4); auto.
      + intros x Hx. apply Hk'. rewrite Ecss, concat_mid, !in_app_iff. auto.
      + apply nseg_length in Hncs; auto. lia.
      + rewrite E. cbn [bind]. eexists; split; [reflexivity|]. apply Hnew; auto. }
  destruct s' as [[[[h table] data] klog] vlog].
  destruct Hs' as (css' & Hl' & Ht' & Hn' & Hd' & Hdt & Hlh & Hh' & Hk' & Hdone & Hleak' & Hp' & Hc' & Hb').
  assert (Hempty : forall b cs, nth_error css' b = Some cs -> cs = []).
  { intros b [|x cs] Hb; auto. exfalso.
    assert (Hx : In x (concat css')).
    { apply in_concat. exists (x :: cs). split; [eapply nth_error_In; eauto|cbn; auto]. }
    destruct (Hk' x Hx) as [Hxk _]. apply In_nth_error in Hxk. destruct Hxk as [j Hj].
    pose proof (Hdone j _ (ltac:(rewrite Hlk; cbn; eapply some_lt; eauto)) Hj) as Hd0.
    rewrite (Hh' b _ Hb x) in Hd0 by (cbn; auto). congruence. }
  assert (Hcss : css' = repeat [] B).
  { rewrite <- Hl'. clear - Hempty. induction css' as [|c css' IH]; cbn; auto.
    rewrite (Hempty 0 c eq_refl). f_equal. apply IH. intros b cs Hb. apply (Hempty (S b) cs Hb). }
  assert (Hconc : concat css' = []).
  { rewrite Hcss. clear. induction B; cbn; auto. }
  exists (HT h table 0 (ht_collisions t) (set_clear (ht_keys t)) (ht_ksize t) (ht_dsize t)), klog, vlog.
  split.
  { unfold hashtable_clear.
    match goal with |- bind ?x _ = _ =>
      replace x with (Ok (h, table, data, klog, vlog)) by (symmetry; exact Es) end. reflexivity. }
  split.
  { unfold values in Hp'. rewrite Hconc in Hp'. cbn [map filter] in Hp'. rewrite app_nil_r in Hp'.
    eapply Permutation_trans; [exact Hp'|]. apply filter_perm. rewrite <- map_map.
    now apply Permutation_map. }
  split.
  { rewrite Hconc in Hc'. cbn in Hc'. rewrite <- (Permutation_length Hp), map_length. lia. }
  split.
  { cbn [ht_table]. rewrite Ht', Hcss. clear. induction B; cbn; auto. now f_equal. }
  split.
  { intros a. cbn [ht_heap]. destruct (nth_error h a) as [[c|]|] eqn:E; auto.
    apply Hleak' in E. rewrite Hconc in E. destruct E. }
  repeat (split; [reflexivity|]).
  intros (k1 & k2 & Hk1 & Hk2 & Hne & Hhk).
  assert (Hin : forall k, In k (map fst m) -> exists a v, In (a, (k, v)) (concat css)).
  { intros k Hk. apply in_map_iff in Hk. destruct Hk as ([k0 v0] & E & Hk). cbn in E. subst k0.
    apply (Permutation_in _ (Permutation_sym Hp)) in Hk. apply in_map_iff in Hk.
    destruct Hk as ([a0 kv] & E & Hk). cbn in E. subst kv. eauto. }
  destruct (Hin k1 Hk1) as (a1 & v1 & Hx1). destruct (Hin k2 Hk2) as (a2 & v2 & Hx2).
  apply in_concat_nth in Hx1, Hx2. destruct Hx1 as (i1 & c1 & Hi1 & Hx1). destruct Hx2 as (i2 & c2 & Hi2 & Hx2).
  pose proof (Hh _ _ Hi1 _ Hx1) as Hb1. pose proof (Hh _ _ Hi2 _ Hx2) as Hb2. cbn in Hb1, Hb2.
  fold B in Hhk. assert (i1 = i2) by congruence. subst i2. assert (c1 = c2) by congruence. subst c2.
  destruct (Hb' i1) as [Heq|[_ Hdup]].
  - rewrite Hi1 in Heq. apply Hempty in Heq. subst c1. destruct Hx1.
  - apply (Hdup c1); auto. destruct c1 as [|x [|y c1]]; cbn in *; try lia; intuition congruence.
Qed.
End Proofs.
