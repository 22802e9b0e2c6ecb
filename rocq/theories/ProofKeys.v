(** Renaming keys: a table whose callbacks see only [f k] of each key [k] runs as the table
    with the keys [f k]. *)
From Verif Require Import Base ListFacts ModelArrayList ModelCells ModelHash SpecMap.
From Coq Require Import ZifyBool ZifyNat.
Local Open Scope nat_scope.

Definition rmap {A B} (f : A -> B) (r : res A) : res B :=
  match r with Ok x => Ok (f x) | UB => UB | Abort => Abort | Fuel => Fuel end.

Lemma bind_rmap {A A' B B'} (f : A -> A') (g : B -> B') (m : res A) (k : A -> res B) (k' : A' -> res B') :
  (forall x, k' (f x) = rmap g (k x)) -> bind (rmap f m) k' = rmap g (bind m k).
Proof. intros H. destruct m; cbn; auto. Qed.
Lemma bind_same {A B B'} (g : B -> B') (m : res A) (k : A -> res B) (k' : A -> res B') :
  (forall x, k' x = rmap g (k x)) -> bind m k' = rmap g (bind m k).
Proof. intros H. destruct m; cbn; auto. Qed.

Lemma bind_eq {A A' B B'} (f : A -> A') (g : B -> B') (m : res A) (m' : res A') (k : A -> res B) (k' : A' -> res B') :
  m' = rmap f m -> (forall x, k' (f x) = rmap g (k x)) -> bind m' k' = rmap g (bind m k).
Proof. intros -> H. now apply bind_rmap. Qed.

Lemma upd_map {A B} (f : A -> B) l i x : upd (map f l) i (f x) = map f (upd l i x).
Proof. revert i. induction l as [|y l IH]; intros [|i]; cbn; auto. now rewrite IH. Qed.
Lemma aset_map {A B} (f : A -> B) l i x : aset (map f l) i (f x) = rmap (map f) (aset l i x).
Proof. unfold aset. rewrite map_length. destruct (i <? length l); cbn; auto. now rewrite upd_map. Qed.
Lemma map_repeat' {A B} (f : A -> B) x n : map f (repeat x n) = repeat (f x) n.
Proof. induction n; cbn; congruence. Qed.

Section Rename.
Context {K K' : Type}.
Variable f : K -> K'.
Variables (cmp : K -> K -> Z) (cmp' : K' -> K' -> Z).
Hypothesis HC : forall a b, cmp a b = cmp' (f a) (f b).

Definition fal (l : alist K) : alist K' := AL (map (option_map f) (al_data l)) (al_size l) (al_max l).

Lemma slot_f d i : slot (map (option_map f) d) i = rmap f (slot d i).
Proof. unfold slot. rewrite nth_error_map. destruct (nth_error d i) as [[x|]|]; reflexivity. Qed.
Lemma realloc_f d n : realloc (map (option_map f) d) n = map (option_map f) (realloc d n).
Proof. unfold realloc. rewrite map_app, firstn_map, map_repeat', map_length. reflexivity. Qed.
Lemma grow_f l : array_list_grow (fal l) = fal (array_list_grow l).
Proof. unfold array_list_grow, fal. cbn [al_data al_size al_max]. now rewrite realloc_f. Qed.
Lemma helper_f l x i : array_list_insertion_helper (fal l) (f x) i = rmap fal (array_list_insertion_helper l x i).
Proof.
  unfold array_list_insertion_helper. cbn [fal al_data al_size al_max]. change (Some (f x)) with (option_map f (Some x)).
  rewrite aset_map. apply bind_rmap. reflexivity.
Qed.
Lemma memmove_f d a b n : memmove (map (option_map f) d) a b n = rmap (map (option_map f)) (memmove d a b n).
Proof.
  unfold memmove. rewrite map_length. destruct ((b + n <=? length d) && (a + n <=? length d)); cbn; auto.
  rewrite !map_app, <- !firstn_map, <- !skipn_map. reflexivity.
Qed.
Definition fal1 {B} (r : alist K * B) : alist K' * B := (fal (fst r), snd r).
Lemma insert_at_f l x p : array_list_insert_at (fal l) (f x) p = rmap fal1 (array_list_insert_at l x p).
Proof.
  unfold array_list_insert_at. cbn [fal al_size al_max]. fold (fal l).
  assert (E : (if al_size l =? al_max l then array_list_grow (fal l) else fal l) = fal (if al_size l =? al_max l then array_list_grow l else l))
    by (destruct (al_size l =? al_max l); auto using grow_f).
  rewrite E. set (l1 := if al_size l =? al_max l then array_list_grow l else l). cbn [fal al_size al_max al_data].
  destruct (al_size l1 <? p); [reflexivity|]. rewrite memmove_f. apply bind_rmap. intros d.
  change (AL (map (option_map f) d) (S (al_size l1)) (al_max l1)) with (fal (AL d (S (al_size l1)) (al_max l1))).
  rewrite helper_f. apply bind_rmap. reflexivity.
Qed.
Lemma set_search_f fuel : forall d lo hi x, set_search cmp' fuel (map (option_map f) d) lo hi (f x) = set_search cmp fuel d lo hi x.
Proof.
  induction fuel as [|fu IH]; intros d lo hi x; cbn [set_search]; [reflexivity|].
  rewrite slot_f. destruct (slot d (lo + (hi - lo) / 2)) as [a| | |]; cbn [rmap bind]; try reflexivity. rewrite <- HC, !IH. reflexivity.
Qed.
Lemma set_insert_f s x : set_insert cmp' (fal s) (f x) = rmap fal1 (set_insert cmp s x).
Proof.
  unfold set_insert. cbn [fal al_size al_data]. fold (fal s). destruct (0 <? al_size s); [|apply insert_at_f].
  rewrite set_search_f. apply bind_same. intros [lo|[]]; [apply insert_at_f|reflexivity].
Qed.

Variables (hash : K -> nat -> nat) (hash' : K' -> nat -> nat).
Hypothesis HH : forall k n, hash k n = hash' (f k) n.

Definition fkv (kv : K * bytes) : K' * bytes := (f (fst kv), snd kv).
Definition fcell (c : cell (K * bytes)) : cell (K' * bytes) := Cell (fkv (c_val c)) (c_next c) (c_prev c).
Definition fheap (h : heap (K * bytes)) : heap (K' * bytes) := map (option_map fcell) h.
Definition ftab (t : htable K) : htable K' :=
  HT (fheap (ht_heap t)) (ht_table t) (ht_size t) (ht_collisions t) (fal (ht_keys t)) (ht_ksize t) (ht_dsize t).
Definition ftab1 {B} (r : htable K * B) : htable K' * B := (ftab (fst r), snd r).
Definition fop (o : hop K) : hop K' :=
  match o with HInsert k v => HInsert (f k) v | HLookup k b => HLookup (f k) b | HRemove k b => HRemove (f k) b | HSize => HSize end.

Lemma hload_f h p : hload (fheap h) p = rmap fcell (hload h p).
Proof. destruct p as [a|]; cbn; [|reflexivity]. unfold fheap. rewrite nth_error_map. destruct (nth_error h a) as [[c|]|]; reflexivity. Qed.
Lemma hstore_f h p c : hstore (fheap h) p (fcell c) = rmap fheap (hstore h p c).
Proof.
  destruct p as [a|]; cbn; [|reflexivity]. unfold fheap. rewrite nth_error_map. destruct (nth_error h a) as [[x|]|]; cbn; try reflexivity.
  change (Some (fcell c)) with (option_map fcell (Some c)). now rewrite upd_map.
Qed.
Lemma set_next_f h p q : set_next (fheap h) p q = rmap fheap (set_next h p q).
Proof. unfold set_next. rewrite hload_f. apply bind_rmap. intros c. change (Cell (c_val (fcell c)) q (c_prev (fcell c))) with (fcell (Cell (c_val c) q (c_prev c))). apply hstore_f. Qed.
Lemma set_prev_f h p q : set_prev (fheap h) p q = rmap fheap (set_prev h p q).
Proof. unfold set_prev. rewrite hload_f. apply bind_rmap. intros c. change (Cell (c_val (fcell c)) (c_next (fcell c)) q) with (fcell (Cell (c_val c) (c_next c) q)). apply hstore_f. Qed.
Lemma set_val_f h p v : set_val (fheap h) p (fkv v) = rmap fheap (set_val h p v).
Proof. unfold set_val. rewrite hload_f. apply bind_rmap. intros c. change (Cell (fkv v) (c_next (fcell c)) (c_prev (fcell c))) with (fcell (Cell v (c_next c) (c_prev c))). apply hstore_f. Qed.
Lemma find_cell_f (test : K * bytes -> bool) (test' : K' * bytes -> bool) fuel : (forall kv, test' (fkv kv) = test kv) ->
  forall h p, find_cell test' fuel (fheap h) p = find_cell test fuel h p.
Proof.
  intros HT. induction fuel as [|fu IH]; intros h p; cbn [find_cell]; [reflexivity|]. destruct p as [a|]; [|reflexivity].
  rewrite hload_f. destruct (hload h (Some a)) as [c| | |]; cbn [rmap bind]; try reflexivity. cbn [fcell c_val c_next]. rewrite HT, IH. reflexivity.
Qed.
Lemma entry_f t k : hashtable_lookup_entry cmp' hash' (ftab t) (f k) = hashtable_lookup_entry cmp hash t k.
Proof.
  unfold hashtable_lookup_entry, ht_buckets. cbn [ftab ht_table ht_heap]. rewrite <- HH.
  destruct (aget (ht_table t) (hash k (length (ht_table t)))) as [e| | |]; cbn [bind]; try reflexivity.
  unfold fheap. rewrite map_length. fold (fheap (ht_heap t)). apply find_cell_f. intros kv. cbn [fkv fst]. now rewrite <- HC.
Qed.

Lemma lookup_f t k b : hashtable_lookup cmp' hash' (ftab t) (f k) b = hashtable_lookup cmp hash t k b.
Proof.
  unfold hashtable_lookup. rewrite entry_f. destruct (hashtable_lookup_entry cmp hash t k) as [[e|]| | |]; cbn [bind]; try reflexivity.
  cbn [ftab ht_heap ht_dsize]. rewrite hload_f. destruct (hload (ht_heap t) (Some e)); cbn [rmap bind]; reflexivity.
Qed.

Lemma insert_f t k v : hashtable_insert cmp' hash' (ftab t) (f k) v = rmap ftab1 (hashtable_insert cmp hash t k v).
Proof.
  unfold hashtable_insert. rewrite entry_f. apply bind_same. intros [e|].
  - cbn [ftab ht_heap ht_dsize]. rewrite hload_f. apply bind_rmap. intros c. cbn [fcell c_val fkv snd fst].
    apply bind_same. intros tmp. apply bind_same. intros d.
    change (f (fst (c_val c)), d) with (fkv (fst (c_val c), d)). rewrite set_val_f. apply bind_rmap. intros h.
    apply bind_same. intros w. reflexivity.
  - cbn [ftab ht_heap ht_dsize ht_table ht_keys ht_size ht_collisions ht_ksize]. unfold ht_buckets. cbn [ht_table]. apply bind_same. intros data.
    unfold halloc.
    assert (EL : length (fheap (ht_heap t)) = length (ht_heap t)) by (unfold fheap; apply map_length). rewrite !EL.
    assert (EA : fheap (ht_heap t) ++ [Some (Cell (f k, data) None None)] = fheap (ht_heap t ++ [Some (Cell (k, data) None None)]))
      by (unfold fheap; rewrite map_app; reflexivity).
    rewrite !EA. rewrite <- HH.
    apply bind_same. intros front.
    set (h1 := ht_heap t ++ [Some (Cell (k, data) None None)]).
    assert (E : (if is_null front then Ok (fheap h1) else let! h := set_next (fheap h1) (Some (length (ht_heap t))) front in set_prev h front (Some (length (ht_heap t))))
              = rmap fheap (if is_null front then Ok h1 else let! h := set_next h1 (Some (length (ht_heap t))) front in set_prev h front (Some (length (ht_heap t))))).
    { destruct (is_null front); [reflexivity|]. rewrite set_next_f. apply bind_rmap. intros h. apply set_prev_f. }
    rewrite E. apply bind_rmap. intros h. apply bind_same. intros table. rewrite set_insert_f. apply bind_rmap. intros r. reflexivity.
Qed.

Lemma value_at_f l p : array_list_value_at (fal l) p = rmap (fun r => (fst r, option_map f (snd r))) (array_list_value_at l p).
Proof. unfold array_list_value_at. cbn [fal al_size al_data]. destruct (al_size l <=? p); [reflexivity|]. rewrite slot_f. apply bind_rmap. reflexivity. Qed.
Definition fal2 (r : alist K * (Z * option K)) : alist K' * (Z * option K') := (fal (fst r), (fst (snd r), option_map f (snd (snd r)))).
Lemma remove_at_f l p : array_list_remove_at (fal l) p = rmap fal2 (array_list_remove_at l p).
Proof.
  unfold array_list_remove_at. rewrite value_at_f. cbn [fal al_size al_data]. destruct (al_size l <=? p); [reflexivity|].
  apply bind_rmap. intros r. rewrite memmove_f. apply bind_rmap. reflexivity.
Qed.
Lemma binary_search_f fuel : forall d lo hi x, binary_search cmp' fuel (map (option_map f) d) lo hi (f x) = binary_search cmp fuel d lo hi x.
Proof.
  induction fuel as [|fu IH]; intros d lo hi x; cbn [binary_search]; [reflexivity|]. destruct (lo <=? hi)%Z; [|reflexivity].
  cbn zeta. destruct (lo + Z.quot (hi - lo) 2 <? 0)%Z; [reflexivity|]. rewrite slot_f.
  destruct (slot d (Z.to_nat (lo + Z.quot (hi - lo) 2))) as [a| | |]; cbn [rmap bind]; try reflexivity. rewrite <- HC, !IH. reflexivity.
Qed.
Lemma set_remove_f s x : set_remove cmp' (fal s) (f x) = rmap fal2 (set_remove cmp s x).
Proof.
  unfold set_remove, set_find, array_list_find. cbn [fal al_size al_data Z.eqb]. rewrite binary_search_f. apply bind_same. intros d.
  destruct (d <? 0)%Z; [reflexivity|]. apply remove_at_f.
Qed.
Lemma hfree_f h p : hfree (fheap h) p = rmap fheap (hfree h p).
Proof.
  destruct p as [a|]; cbn; [|reflexivity]. unfold fheap. rewrite nth_error_map. destruct (nth_error h a) as [[x|]|]; cbn; try reflexivity.
  change (@None (cell (K' * bytes))) with (option_map fcell None). now rewrite upd_map.
Qed.

Lemma remove_f t k b : hashtable_remove cmp' hash' (ftab t) (f k) b = rmap ftab1 (hashtable_remove cmp hash t k b).
Proof.
  unfold hashtable_remove. unfold hashtable_empty at 1. cbn [ftab ht_size]. fold (hashtable_empty t). destruct (hashtable_empty t); [reflexivity|].
  fold (ftab t). rewrite entry_f. apply bind_same. intros [e|]; [|reflexivity].
  cbn [ftab ht_heap ht_table ht_ksize ht_keys ht_size ht_collisions ht_dsize]. unfold ht_buckets. cbn [ht_table].
  rewrite hload_f. apply bind_rmap. intros c. cbn [fcell c_prev c_next c_val fkv snd]. rewrite <- HH.
  apply (bind_eq (fun p : heap (K * bytes) * list (option nat) => (fheap (fst p), snd p))).
  { destruct (negb (is_null (c_prev c))).
    - rewrite set_next_f. apply bind_rmap. intros h. rewrite set_prev_f. apply bind_rmap. reflexivity.
    - apply bind_same. intros table. apply (bind_eq fheap); [destruct (is_null (c_next c)); [reflexivity|apply set_prev_f]|]. reflexivity. }
  intros p. cbn [fst snd]. rewrite hload_f. apply bind_rmap. intros c1. cbn [fcell c_prev c_next].
  apply (bind_eq fheap).
  { destruct (negb (is_null (c_next c1))); [rewrite set_prev_f; apply bind_rmap; intros h; apply set_next_f|].
    destruct (negb (is_null (c_prev c1))); [apply set_next_f|reflexivity]. }
  intros h. apply bind_same. intros d. rewrite hfree_f. apply bind_rmap. intros h2. rewrite set_remove_f. apply bind_rmap. reflexivity.
Qed.

Lemma step_f t o : hstep cmp' hash' (ftab t) (fop o) = rmap ftab1 (hstep cmp hash t o).
Proof.
  destruct o as [k v|k b|k b|]; cbn [fop hstep].
  - apply insert_f.
  - rewrite lookup_f. apply bind_same. reflexivity.
  - apply remove_f.
  - reflexivity.
Qed.
Lemma run_f ops : forall t, hrun cmp' hash' (ftab t) (map fop ops) = rmap ftab1 (hrun cmp hash t ops).
Proof.
  induction ops as [|o ops IH]; intros t; cbn [hrun map]; [reflexivity|]. rewrite step_f. apply bind_rmap. intros r. cbn [ftab1 fst snd].
  rewrite IH. apply bind_rmap. reflexivity.
Qed.
Lemma init_f b ks ds : hashtable_init_size b ks ds = rmap ftab (hashtable_init_size b ks ds).
Proof. reflexivity. Qed.

Lemma sized_f n o : sized n o -> sized n (fop o).
Proof. destruct o; auto. Qed.
Lemma no_removal_f o : no_removal o -> no_removal (fop o).
Proof. destruct o; auto. Qed.
End Rename.
