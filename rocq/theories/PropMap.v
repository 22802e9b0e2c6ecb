(** Theorems C06-C09 and the hashtable half of C05.  Specification: SpecMap.v (finite
    maps) and SpecSeq.v ([total_order], [enumerates]). *)
From Coq Require Import Sorted Permutation.
From Verif Require Import Base ListFacts ModelArrayList SpecSeq ProofArrayList
     ModelCells CellFacts ModelHash SpecMap ProofHash PropCollections.

(** The hash function maps every key below a positive bucket count. *)
Definition hash_in_range {K} (hash : K -> nat -> nat) : Prop := forall k b, 0 < b -> hash k b < b.

(** Two keys are the same for the comparison callback. *)
Definition same {K} (compare : K -> K -> Z) (a b : K) : bool := (compare a b =? 0)%Z.

(** Number of buckets of a table created with [b] requested buckets. *)
Definition nb (b : nat) : nat := if b <=? 0 then 37 else b.

Section Histories.
Context {K : Type}.
Variable compare : K -> K -> Z.
Variable hash : K -> nat -> nat.

(** Running a history on a fresh table. *)
Definition history (buckets ksize dsize : nat) (ops : list (hop K)) : res (htable K * list (Z * bytes)) :=
  let! t := hashtable_init_size buckets ksize dsize in hrun compare hash t ops.

Lemma reach b ks ds ops :
  total_order compare -> hash_in_range hash ->
  hhist_ok (same compare) ds (fun k => hash k (nb b)) [] ops ->
  (Forall no_removal ops \/ ks = ds) ->
  exists t', history b ks ds ops = Ok (t', snd (hspec_run (same compare) [] ops)) /\
    good compare hash t' (fst (hspec_run (same compare) [] ops)) /\
    ht_ksize t' = ks /\ ht_dsize t' = ds /\ ht_buckets t' = nb b.
Proof.
  intros TO HR Hok Hk. destruct (init_good compare hash HR b ks ds) as (t & E & G & K1 & D1 & B1).
  unfold history. rewrite E. cbn [bind].
  destruct (hrun_ok compare hash TO HR ops t [] G) as (t' & E' & G' & K2 & D2 & B2).
  - rewrite D1, B1. exact Hok.
  - rewrite K1, D1. exact Hk.
  - exists t'. split; [exact E'|]. split; [exact G'|]. unfold nb. repeat split; congruence.
Qed.

(** Histories without removals need no collision condition. *)
Lemma no_removal_ok ds bk ops : forall m, Forall (sized ds) ops -> Forall no_removal ops ->
  hhist_ok (K := K) (same compare) ds bk m ops.
Proof.
  induction ops as [|o ops IH]; intros m Hs Hn; cbn [hhist_ok]; auto.
  inversion Hs; subst. inversion Hn; subst. split; auto. split; auto.
  destruct o; cbn in *; tauto.
Qed.
End Histories.

(** C06: insert/lookup/size histories of the hashtable are those of a finite map, and
    the key set is the increasing enumeration of its domain. *)
Theorem C06_hashtable_is_a_finite_map :
  forall (K : Type) (compare : K -> K -> Z) (hash : K -> nat -> nat)
         (buckets ksize dsize : nat) (ops : list (hop K)),
    total_order compare -> hash_in_range hash ->
    Forall (sized dsize) ops -> Forall no_removal ops ->
    let m := fst (hspec_run (same compare) [] ops) in
    exists t keys,
      history compare hash buckets ksize dsize ops = Ok (t, snd (hspec_run (same compare) [] ops)) /\
      stores (ht_keys t) keys /\ enumerates compare keys (fun k => In k (map fst m)) /\
      NoDup (map fst m).
Proof.
  intros K compare hash b ks ds ops TO HR Hs Hn m.
  destruct (reach compare hash b ks ds ops TO HR) as (t & E & G & _); auto using no_removal_ok.
  destruct G as (css & _ & _ & _ & _ & _ & _ & Hdm & _ & (lk & Rk & Sk & Ik) & _).
  exists t, lk. split; [exact E|]. apply rep_elements in Rk. split; [split; tauto|].
  split; [split; auto|exact Hdm].
Qed.
Print Assumptions C06_hashtable_is_a_finite_map.

Definition zmod_hash (k : Z) (b : nat) : nat := Z.to_nat (k mod Z.of_nat b).
Lemma zmod_hash_range : hash_in_range zmod_hash.
Proof.
  intros k b Hb. unfold zmod_hash. pose proof (Z.mod_pos_bound k (Z.of_nat b)). lia.
Qed.

Example C06_example :
  let v x := [x; x]%Z in
  let ops := [HInsert 1 (v 10); HInsert 6 (v 60); HInsert 11 (v 70); HInsert 6 (v 61);
              HLookup 6 (v 0); HLookup 3 (v 0); HSize]%Z in
  Forall (sized (K := Z) 2) ops /\ Forall (no_removal (K := Z)) ops /\
  (let! r := history zcmp zmod_hash 5 8 2 ops in Ok (snd r)) =
  Ok [(1, [10; 10]); (1, [60; 60]); (1, [70; 70]); (-1, [60; 60]);
      (1, [61; 61]); (0, [0; 0]); (3, [])]%Z.
Proof. split; [repeat constructor|]. split; [repeat constructor|]. vm_compute. reflexivity. Qed.

(** C07, first part: with value and key types of the same size, histories in which no
    removal meets a bucket holding more than two keys are those of the finite map. *)
Theorem C07_removals_without_long_chains :
  forall (K : Type) (compare : K -> K -> Z) (hash : K -> nat -> nat)
         (buckets dsize : nat) (ops : list (hop K)),
    total_order compare -> hash_in_range hash ->
    hhist_ok (same compare) dsize (fun k => hash k (nb buckets)) [] ops ->
    exists t, history compare hash buckets dsize dsize ops =
              Ok (t, snd (hspec_run (same compare) [] ops)).
Proof.
  intros K compare hash b ds ops TO HR Hok.
  destruct (reach compare hash b ds ds ops TO HR Hok) as (t & E & _); [auto|]. eauto.
Qed.
Print Assumptions C07_removals_without_long_chains.

Example C07_example :
  let v x := [x]%Z in
  let ops := [HInsert 1 (v 10); HInsert 6 (v 60); HInsert 2 (v 20); HRemove 1 (v 0);
              HLookup 6 (v 0); HLookup 1 (v 0); HInsert 11 (v 70); HRemove 6 (v 0); HLookup 11 (v 0); HSize]%Z in
  hhist_ok (same zcmp) 1 (fun k => zmod_hash k (nb 5)) [] ops /\
  (let! r := history zcmp zmod_hash 5 1 1 ops in Ok (snd r)) =
  Ok [(1, [10]); (1, [60]); (1, [20]); (1, [10]); (1, [60]); (0, [0]); (1, [70]); (1, [60]); (1, [70]); (2, [])]%Z.
Proof. split; [vm_compute; repeat split; auto; lia|]. vm_compute. reflexivity. Qed.

(** C07, second part: one removal after any such history (in particular after any
    history of inserts and lookups), whatever the collisions, leaves every other key
    with its value. *)
Theorem C07_single_removal :
  forall (K : Type) (compare : K -> K -> Z) (hash : K -> nat -> nat)
         (buckets dsize : nat) (ops : list (hop K)) (k x : K) (buf buf' : bytes),
    total_order compare -> hash_in_range hash ->
    hhist_ok (same compare) dsize (fun k => hash k (nb buckets)) [] ops ->
    length buf = dsize -> length buf' = dsize ->
    exists t, history compare hash buckets dsize dsize (ops ++ [HRemove k buf; HLookup x buf']) =
              Ok (t, snd (hspec_run (same compare) [] (ops ++ [HRemove k buf; HLookup x buf']))).
Proof.
  intros K compare hash b ds ops k x buf buf' TO HR Hok Hb Hb'.
  destruct (reach compare hash b ds ds ops TO HR Hok) as (t & E & G & K1 & D1 & B1); [auto|].
  assert (Happ : forall (ops1 ops2 : list (hop K)) t t1 o1, hrun compare hash t ops1 = Ok (t1, o1) ->
     hrun compare hash t (ops1 ++ ops2) = (let! r := hrun compare hash t1 ops2 in Ok (fst r, o1 ++ snd r))).
  { clear. induction ops1 as [|o ops1 IH]; cbn [app hrun]; intros ops2 t t1 o1 H.
    - inversion H; subst. destruct (hrun compare hash t1 ops2) as [[? ?]| | |]; reflexivity.
    - destruct (hstep compare hash t o) as [[t2 o2]| | |]; try discriminate. cbn [bind fst snd] in *.
      destruct (hrun compare hash t2 ops1) as [[t3 o3]| | |] eqn:E; try discriminate. cbn in H. inversion H; subst.
      rewrite (IH ops2 t2 t1 o3 E). destruct (hrun compare hash t1 ops2) as [[? ?]| | |]; reflexivity. }
  assert (Hspec : forall (ops1 ops2 : list (hop K)) m, snd (hspec_run (same compare) m (ops1 ++ ops2)) =
     snd (hspec_run (same compare) m ops1) ++
     snd (hspec_run (same compare) (fst (hspec_run (same compare) m ops1)) ops2)).
  { clear. induction ops1 as [|o ops1 IH]; cbn; intros; auto. f_equal. apply IH. }
  unfold history in *. destruct (hashtable_init_size b ds ds) as [t0| | |]; try discriminate. cbn [bind] in *.
  rewrite (Happ _ _ _ _ _ E), Hspec. cbn [hrun hstep].
  destruct (remove_ok compare hash TO HR t _ k buf G) as (t' & E1 & W & _ & K2 & D2 & B2); [congruence|congruence|].
  rewrite E1. cbn [bind fst snd].
  rewrite (lookup_ok compare hash TO HR t' _ x buf' W) by congruence. cbn [bind fst snd].
  eexists. cbn [hspec_run fst snd]. reflexivity.
Qed.
Print Assumptions C07_single_removal.

(** C07, refuted beyond that: in EVERY table reached by such a history that has three
    keys in one bucket there are two stored keys whose removal makes a third stored,
    never removed key disappear. *)
Theorem C07_second_removal_loses_keys_refuted :
  forall (K : Type) (compare : K -> K -> Z) (hash : K -> nat -> nat)
         (buckets dsize : nat) (ops : list (hop K)) (k : K) (buf : bytes),
    total_order compare -> hash_in_range hash ->
    hhist_ok (same compare) dsize (fun k => hash k (nb buckets)) [] ops ->
    length buf = dsize ->
    let m := fst (hspec_run (same compare) [] ops) in
    3 <= length (filter (fun kv => hash (fst kv) (nb buckets) =? hash k (nb buckets)) m) ->
    exists t outs x y z t1 t2 d1 d2,
      history compare hash buckets dsize dsize ops = Ok (t, outs) /\
      In x (map fst m) /\ In y (map fst m) /\ In z (map fst m) /\ z <> x /\ z <> y /\ x <> y /\
      hashtable_remove compare hash t x buf = Ok (t1, (1%Z, d1)) /\
      hashtable_remove compare hash t1 y buf = Ok (t2, (1%Z, d2)) /\
      hashtable_lookup compare hash t2 z buf = Ok (0%Z, buf).
Proof.
  intros K compare hash b ds ops k buf TO HR Hok Hb m H3.
  destruct (reach compare hash b ds ds ops TO HR Hok) as (t & E & G & K1 & D1 & B1); [auto|].
  destruct G as (css & I).
  destruct (open_bucket compare hash HR _ _ _ _ k I) as (L & cs & R & Ec & HL & _ & _ & _ & _).
  rewrite <- B1 in H3. unfold m in H3. rewrite (bucket_count compare hash HR t css _ k L cs R I Ec HL) in H3.
  destruct cs as [|[c [kc vc]] [|[a [ka va]] [|[b' [kb vb]] l2]]]; cbn in H3; try lia.
  destruct (two_removals compare hash TO HR t css _ L R c kc vc a ka va b' kb vb l2 buf buf buf I Ec)
    as (t1 & t2 & d1 & d2 & E1 & E2 & M1 & M2 & M3 & N1 & N2 & N3 & El); try congruence; try lia.
  exists t, (snd (hspec_run (same compare) [] ops)), ka, kb, kc, t1, t2, d1, d2.
  split; [exact E|].
  split; [change ka with (fst (ka, va)); now apply in_map|].
  split; [change kb with (fst (kb, vb)); now apply in_map|].
  split; [change kc with (fst (kc, vc)); now apply in_map|].
  repeat (split; [assumption|]). exact El.
Qed.
Print Assumptions C07_second_removal_loses_keys_refuted.

Example C07_refuted_example :
  let v x := [x]%Z in
  (let! r := history zcmp zmod_hash 5 1 1
     [HInsert 1 (v 10); HInsert 6 (v 60); HInsert 11 (v 70); HRemove 6 (v 0); HRemove 1 (v 0); HLookup 11 (v 0); HSize]%Z in Ok (snd r)) =
  Ok [(1, [10]); (1, [60]); (1, [70]); (1, [60]); (1, [10]); (0, [0]); (1, [])]%Z.
Proof. vm_compute. reflexivity. Qed.

(** C08: what hashtable_remove hands back is the first [ksize] bytes of the value,
    followed by what the caller's buffer already held; with a key type wider than the
    value type it reads past the value. *)
Theorem C08_removed_value :
  forall (K : Type) (compare : K -> K -> Z) (hash : K -> nat -> nat)
         (buckets ksize dsize : nat) (ops : list (hop K)) (k : K) (v buf : bytes),
    total_order compare -> hash_in_range hash ->
    Forall (sized dsize) ops -> Forall no_removal ops -> length buf = dsize ->
    assoc (same compare) (fst (hspec_run (same compare) [] ops)) k = Some v ->
    exists t outs, history compare hash buckets ksize dsize ops = Ok (t, outs) /\
      (ksize <= dsize -> exists t', hashtable_remove compare hash t k buf =
                           Ok (t', (1%Z, firstn ksize v ++ skipn ksize buf))) /\
      (ksize = dsize -> exists t', hashtable_remove compare hash t k buf = Ok (t', (1%Z, v))) /\
      (dsize < ksize -> hashtable_remove compare hash t k buf = UB).
Proof.
  intros K compare hash b ks ds ops k v buf TO HR Hs Hn Hb Ha.
  destruct (reach compare hash b ks ds ops TO HR) as (t & E & G & K1 & D1 & B1); auto using no_removal_ok.
  exists t, (snd (hspec_run (same compare) [] ops)). split; [exact E|].
  pose proof G as (css & I).
  destruct (open_key compare hash TO HR t css _ k v I Ha) as (L & l1 & a & l2 & R & Ec & HL).
  assert (Hcopy : ks <= ds -> exists t', hashtable_remove compare hash t k buf =
                           Ok (t', (1%Z, firstn ks v ++ skipn ks buf))).
  { intros Hle. destruct (remove_core compare hash TO HR t css _ k buf L l1 a v l2 R I Ec) as (t' & Er & _);
      [lia|congruence|]. rewrite K1 in Er. eauto. }
  split; [exact Hcopy|]. split.
  - intros ->. destruct (Hcopy (le_n _)) as (t' & Er). exists t'. rewrite Er.
    destruct I as (_ & _ & _ & _ & _ & _ & Hdm & Hsz & _).
    assert (Hv : length v = ds).
    { rewrite <- D1. apply (Hsz (k, v)). apply (assoc_some _ (eqk_spec compare TO)); auto. }
    rewrite firstn_all2, skipn_all2 by lia. now rewrite app_nil_r.
  - intros Hlt. apply (remove_overread compare hash TO HR t _ k v buf G Ha). lia.
Qed.
Print Assumptions C08_removed_value.

(** C08, refuted for values wider than keys: a caller whose buffer differs from the
    stored value after the first [ksize] bytes does not get the value. *)
Theorem C08_wide_value_truncated_refuted :
  forall (K : Type) (compare : K -> K -> Z) (hash : K -> nat -> nat)
         (buckets ksize dsize : nat) (ops : list (hop K)) (k : K) (v buf : bytes),
    total_order compare -> hash_in_range hash ->
    Forall (sized dsize) ops -> Forall no_removal ops -> length buf = dsize ->
    assoc (same compare) (fst (hspec_run (same compare) [] ops)) k = Some v ->
    ksize <= dsize -> skipn ksize v <> skipn ksize buf ->
    exists t outs t' d, history compare hash buckets ksize dsize ops = Ok (t, outs) /\
      hashtable_remove compare hash t k buf = Ok (t', (1%Z, d)) /\ d <> v.
Proof.
  intros K compare hash b ks ds ops k v buf TO HR Hs Hn Hb Ha Hle Hne.
  destruct (C08_removed_value K compare hash b ks ds ops k v buf TO HR Hs Hn Hb Ha)
    as (t & outs & E & Hc & _). destruct (Hc Hle) as (t' & Er).
  exists t, outs, t', (firstn ks v ++ skipn ks buf). split; [exact E|]. split; [exact Er|].
  intros Heq. apply Hne. rewrite <- Heq at 1. rewrite skipn_app.
  destruct (reach compare hash b ks ds ops TO HR) as (t0 & E0 & G0 & K1 & D1 & B1); auto using no_removal_ok.
  destruct G0 as (css & _ & _ & _ & _ & _ & _ & Hdm & Hsz & _).
  assert (Hv : length v = ds).
  { rewrite <- D1. apply (Hsz (k, v)). apply (assoc_some _ (eqk_spec compare TO)); auto. }
  rewrite firstn_length, Hv, (Nat.min_l ks ds Hle), Nat.sub_diag. cbn [skipn].
  rewrite skipn_all2 by (rewrite firstn_length; lia). reflexivity.
Qed.
Print Assumptions C08_wide_value_truncated_refuted.

Example C08_example :
  let ops := [HInsert 1 [7; 7; 7; 7; 5; 5; 5; 5]]%Z in
  Forall (sized (K := Z) 8) ops /\
  assoc (same zcmp) (fst (hspec_run (same zcmp) [] ops)) 1%Z = Some [7; 7; 7; 7; 5; 5; 5; 5]%Z /\
  (let! r := history zcmp zmod_hash 5 4 8 ops in
   let! q := hashtable_remove zcmp zmod_hash (fst r) 1%Z (repeat 0%Z 8) in Ok (snd q)) =
  Ok (1, [7; 7; 7; 7; 0; 0; 0; 0])%Z /\
  (let! r := history zcmp zmod_hash 5 8 4 [HInsert 1 [7; 7; 7; 7]]%Z in
   let! q := hashtable_remove zcmp zmod_hash (fst r) 1%Z (repeat 0%Z 4) in Ok (snd q)) = UB.
Proof. split; [repeat constructor|]. split; [reflexivity|]. split; reflexivity. Qed.

(** C09: clear (and destroy, which calls it) hands every stored non-NULL value to the
    value destructor exactly once, empties every bucket and frees every entry. *)
Theorem C09_clear_destroys_each_value_once :
  forall (K : Type) (compare : K -> K -> Z) (hash : K -> nat -> nat)
         (buckets dsize : nat) (ops : list (hop K)),
    total_order compare -> hash_in_range hash ->
    hhist_ok (same compare) dsize (fun k => hash k (nb buckets)) [] ops -> 8 <= dsize ->
    exists t outs t' klog vlog,
      history compare hash buckets dsize dsize ops = Ok (t, outs) /\
      hashtable_clear hash t = Ok (t', (klog, vlog)) /\
      Permutation vlog (filter nonnull (map snd (fst (hspec_run (same compare) [] ops)))) /\
      ht_table t' = repeat None (nb buckets) /\
      (forall a, nth_error (ht_heap t') a = Some None \/ nth_error (ht_heap t') a = None).
Proof.
  intros K compare hash b ds ops TO HR Hok H8.
  destruct (reach compare hash b ds ds ops TO HR Hok) as (t & E & G & K1 & D1 & B1); [auto|].
  destruct (clear_ok compare hash HR t _ G) as (t' & klog & vlog & Ec & Hp & _ & Ht & Hf & _); [lia|].
  exists t, (snd (hspec_run (same compare) [] ops)), t', klog, vlog.
  rewrite <- B1. repeat (split; [assumption|]). exact Hf.
Qed.
Print Assumptions C09_clear_destroys_each_value_once.

(** The key destructor, by contrast, is called with the same key once per entry of the
    chain: as soon as two stored keys share a bucket some key is destroyed twice. *)
Theorem C09_key_destroyed_twice_refuted :
  forall (K : Type) (compare : K -> K -> Z) (hash : K -> nat -> nat)
         (buckets dsize : nat) (ops : list (hop K)) (k1 k2 : K),
    total_order compare -> hash_in_range hash ->
    hhist_ok (same compare) dsize (fun k => hash k (nb buckets)) [] ops -> 8 <= dsize ->
    let m := fst (hspec_run (same compare) [] ops) in
    In k1 (map fst m) -> In k2 (map fst m) -> k1 <> k2 -> hash k1 (nb buckets) = hash k2 (nb buckets) ->
    exists t outs t' klog vlog,
      history compare hash buckets dsize dsize ops = Ok (t, outs) /\
      hashtable_clear hash t = Ok (t', (klog, vlog)) /\ ~ NoDup klog.
Proof.
  intros K compare hash b ds ops k1 k2 TO HR Hok H8 m Hk1 Hk2 Hne Hh.
  destruct (reach compare hash b ds ds ops TO HR Hok) as (t & E & G & K1 & D1 & B1); [auto|].
  destruct (clear_ok compare hash HR t _ G) as (t' & klog & vlog & Ec & _ & _ & _ & _ & _ & _ & _ & _ & Hdup); [lia|].
  exists t, (snd (hspec_run (same compare) [] ops)), t', klog, vlog.
  split; [exact E|]. split; [exact Ec|]. apply Hdup. exists k1, k2. rewrite B1. auto.
Qed.
Print Assumptions C09_key_destroyed_twice_refuted.

Example C09_example :
  let v x := (x :: repeat 0 7)%Z in
  let ops := [HInsert 1 (v 10); HInsert 2 (v 0); HInsert 6 (v 60); HInsert 6 (v 61)]%Z in
  hhist_ok (same zcmp) 8 (fun k => zmod_hash k (nb 5)) [] ops /\
  (let! r := history zcmp zmod_hash 5 8 8 ops in
   let! q := hashtable_clear zmod_hash (fst r) in Ok (snd q)) =
  Ok ([1; 1; 2]%Z, [v 61; v 10]%Z).
Proof. split; [vm_compute; repeat split; auto|]. vm_compute. reflexivity. Qed.

(** C05 for hashtables: a cleared table takes one key; inserting a second, different
    key writes outside the key set's block. *)
Lemma empty_insert {K} (compare : K -> K -> Z) (hash : K -> nat -> nat) (TO : total_order compare)
      (HR : hash_in_range hash) h B sz co keys ks ds x (vx : bytes) :
  0 < B -> length vx = ds ->
  hashtable_insert compare hash (HT h (repeat None B) sz co keys ks ds) x vx =
  (let! q := set_insert compare keys x in
   Ok (HT (h ++ [Some (Cell (x, vx) None None)]) (upd (repeat None B) (hash x B) (Some (length h)))
          (sz + 1) co (fst q) ks ds, (1%Z, vx))).
Proof.
  intros HB Hv. unfold hashtable_insert, hashtable_lookup_entry, ht_buckets.
  cbn [ht_table ht_heap ht_dsize ht_size ht_collisions ht_keys ht_ksize]. rewrite repeat_length.
  assert (Hn : nth_error (repeat (@None nat) B) (hash x B) = Some None).
  { rewrite nth_error_repeat; auto. }
  rewrite (aget_nth _ _ _ Hn). cbn [bind find_cell].
  rewrite (memcpy_full hash HR) by (rewrite ?malloc_length; auto). unfold halloc. cbn [bind is_null].
  rewrite aset_ok by (rewrite repeat_length; auto). cbn [bind]. reflexivity.
Qed.

Theorem C05_cleared_hashtable_overflows_refuted :
  forall (K : Type) (compare : K -> K -> Z) (hash : K -> nat -> nat)
         (buckets dsize : nat) (ops : list (hop K)) (x y : K) (vx vy : bytes),
    total_order compare -> hash_in_range hash ->
    hhist_ok (same compare) dsize (fun k => hash k (nb buckets)) [] ops -> 8 <= dsize ->
    length vx = dsize -> length vy = dsize -> x <> y ->
    exists t outs t' logs t'',
      history compare hash buckets dsize dsize ops = Ok (t, outs) /\
      hashtable_clear hash t = Ok (t', logs) /\
      hashtable_insert compare hash t' x vx = Ok (t'', (1%Z, vx)) /\
      hashtable_insert compare hash t'' y vy = UB.
Proof.
  intros K compare hash b ds ops x y vx vy TO HR Hok H8 Hx Hy Hne.
  destruct (reach compare hash b ds ds ops TO HR Hok) as (t & E & G & K1 & D1 & B1); [auto|].
  destruct (clear_ok compare hash HR t _ G)
    as (t' & klog & vlog & Ec & _ & _ & Ht & Hf & Hs & Hk & Hks & Hds & _); [lia|].
  exists t, (snd (hspec_run (same compare) [] ops)), t', (klog, vlog).
  destruct G as (css & HB & _ & _ & _ & _ & _ & _ & _ & (lk & Rk & Sk & Ik) & _ & Hmax & _).
  destruct t' as [h tab sz co keys ks' ds']. cbn [ht_table ht_heap ht_size ht_keys ht_ksize ht_dsize] in *.
  subst tab sz keys ks' ds'. rewrite D1 in *.
  rewrite (empty_insert compare hash TO HR) by auto.
  rewrite (set_clear_insert1 compare (ht_keys t) lk x Rk Hmax). cbn [bind fst].
  eexists. split; [exact E|]. split; [exact Ec|]. split; [reflexivity|].
  set (B := ht_buckets t) in *.
  set (cs := if hash x B =? hash y B then [(length h, (x, vx))] else [] : list (nat * (K * bytes))).
  assert (Hty : nth_error (upd (repeat None B) (hash x B) (Some (length h))) (hash y B) = Some (firstp cs None)).
  { rewrite nth_error_upd, repeat_length. unfold cs. destruct (Nat.eqb_spec (hash x B) (hash y B)) as [e|e]; cbn [andb firstp].
    - destruct (Nat.ltb_spec (hash y B) B) as [_|F]; [reflexivity|]. pose proof (HR y B HB). lia.
    - rewrite nth_error_repeat; auto. }
  set (h1 := h ++ [Some (Cell (x, vx) None None)]).
  assert (Hseg : seg h1 None cs None).
  { unfold cs. destruct (hash x B =? hash y B); cbn; auto. split; auto.
    unfold h1. rewrite nth_error_app2, Nat.sub_diag by lia. reflexivity. }
  assert (Hdcs : NoDup (map fst cs)).
  { unfold cs. destruct (hash x B =? hash y B); cbn; repeat constructor. auto. }
  unfold hashtable_insert, hashtable_lookup_entry, ht_buckets.
  cbn [ht_table ht_heap ht_dsize ht_size ht_collisions ht_keys ht_ksize]. rewrite upd_length, repeat_length.
  fold h1. rewrite (aget_nth _ _ _ Hty). cbn [bind].
  rewrite (find_cell_ok (fun kv => (compare (fst kv) y =? 0)%Z) _ cs (seg_nseg _ _ _ _ Hseg)).
  2: { pose proof (nseg_length _ _ _ (seg_nseg _ _ _ _ Hseg) Hdcs). lia. }
  assert (Hf' : find (fun c : nat * (K * bytes) => (compare (fst (snd c)) y =? 0)%Z) cs = None).
  { unfold cs. destruct (hash x B =? hash y B); cbn; auto.
    destruct (Z.eqb_spec (compare x y) 0) as [e|e]; auto. apply TO in e. contradiction. }
  rewrite Hf'. cbn [option_map bind].
  rewrite (memcpy_full hash HR) by (rewrite ?malloc_length; auto). cbn [bind].
  pose proof (push_front h1 cs (y, vy) Hseg Hdcs) as Hpf.
  unfold halloc in *.
  destruct Hpf as (h3 & Eh & _). rewrite Eh. cbn [bind].
  rewrite aset_ok by (rewrite upd_length, repeat_length; auto). cbn [bind].
  rewrite (set_clear_insert2 compare _ x y TO Hmax Hne). reflexivity.
Qed.
Print Assumptions C05_cleared_hashtable_overflows_refuted.

Example C05_hashtable_example :
  let v x := (x :: repeat 0 7)%Z in
  (let! r := history zcmp zmod_hash 5 8 8 [HInsert 1 (v 10)]%Z in
   let! q := hashtable_clear zmod_hash (fst r) in
   hrun zcmp zmod_hash (fst q) [HInsert 1 (v 10); HInsert 2 (v 20)]%Z) = UB.
Proof. vm_compute. reflexivity. Qed.
