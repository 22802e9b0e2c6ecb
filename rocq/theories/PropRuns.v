(** C92: hash tables under every history of insertions, lookups, removals and size queries.
    Specification: SpecRuns.v (what each bucket holds), SpecMap.v (the map a user expects). *)
From Coq Require Import Sorted Permutation.
From Verif Require Import Base ListFacts ModelArrayList SpecSeq ProofArrayList ModelUtils ModelTable
     ModelCells CellFacts ModelHash SpecMap ProofHash SpecRuns ProofRuns PropCollections PropMap PropTable.
From Coq Require Import ZifyBool ZifyNat.
Local Open Scope nat_scope.

(** Cells of a heap that are allocated. *)
Definition allocated {A} (h : heap A) : nat := length (filter (fun o => match o with Some _ => true | None => false end) h).

Lemma reach_runs {K} (compare : K -> K -> Z) (hash : K -> nat -> nat) b ks ds ops :
  total_order compare -> hash_in_range hash -> ks <= ds -> Forall (sized ds) ops ->
  let home k := hash k (nb b) in
  exists t, history compare hash b ks ds ops = Ok (t, snd (shelf_run (same compare) home ks empty_shelf ops)) /\
    sim compare hash t (fst (shelf_run (same compare) home ks empty_shelf ops)) /\
    ht_ksize t = ks /\ ht_dsize t = ds /\ ht_buckets t = nb b.
Proof.
  intros TO HR Hks Hs home. destruct (sim_init compare hash HR b ks ds) as (t & E & S & K1 & D1 & B1).
  unfold history. rewrite E. cbn [bind].
  destruct (sim_run compare hash TO HR ops t empty_shelf S) as (t' & E' & S' & K2 & D2 & B2); [rewrite D1; exact Hs|lia|].
  rewrite K1, B1 in E', S'. exists t'. split; [exact E'|]. split; [exact S'|]. unfold nb. repeat split; congruence.
Qed.

Lemma bind_ok {A B} (m : res A) (f : A -> res B) y : bind m f = Ok y -> exists x, m = Ok x /\ f x = Ok y.
Proof. destruct m; cbn; intros H; try discriminate. eauto. Qed.

Lemma balance_run {K} (compare : K -> K -> Z) (hash : K -> nat -> nat) ops : forall t t' outs,
  hrun compare hash t ops = Ok (t', outs) -> ht_size t' = (ht_size t + balance ops outs)%Z.
Proof.
  induction ops as [|o ops IH]; intros t t' outs H; cbn [hrun] in H.
  - inversion H; subst. cbn. lia.
  - apply bind_ok in H. destruct H as ([t1 [c d]] & E1 & H). apply bind_ok in H. destruct H as ([t2 outs'] & E2 & H).
    cbn [fst snd] in *. inversion H; subst. rewrite (IH _ _ _ E2). clear IH E2 H.
    destruct o as [k v|k buf|k buf|]; cbn [hstep balance] in *.
    + unfold hashtable_insert in E1. repeat (apply bind_ok in E1; let x := fresh "x" in destruct E1 as (x & _ & E1)).
      destruct x as [a|].
      * repeat (apply bind_ok in E1; let x := fresh "x" in destruct E1 as (x & _ & E1)). inversion E1; subst. cbn. lia.
      * repeat (apply bind_ok in E1; let x := fresh "x" in destruct E1 as (x & _ & E1)). unfold halloc in E1.
        repeat (apply bind_ok in E1; let x := fresh "x" in destruct E1 as (x & _ & E1)). inversion E1; subst. cbn [ht_size Z.eqb Pos.eqb]. lia.
    + apply bind_ok in E1. destruct E1 as (x & _ & E1). inversion E1; subst. lia.
    + unfold hashtable_remove in E1. destruct (hashtable_empty t); [inversion E1; subst; cbn; lia|].
      apply bind_ok in E1. destruct E1 as ([a|] & _ & E1); [|inversion E1; subst; cbn; lia].
      repeat (apply bind_ok in E1; let x := fresh "x" in destruct E1 as (x & _ & E1)). inversion E1; subst. cbn [ht_size Z.eqb Pos.eqb]. lia.
    + inversion E1; subst. lia.
Qed.

(** What a table does, for every history and every pattern of collisions: no operation is
    undefined, the answers are those of the runs, and the number hashtable_empty looks at is the
    number of entries that are allocated: those inserted and not handed back by a removal. *)
Theorem C92_every_history :
  forall (K : Type) (compare : K -> K -> Z) (hash : K -> nat -> nat) (buckets ksize dsize : nat) (ops : list (hop K)),
    total_order compare -> hash_in_range hash -> ksize <= dsize -> Forall (sized dsize) ops ->
    let s := shelf_run (same compare) (fun k => hash k (nb buckets)) ksize empty_shelf ops in
    exists t keys, history compare hash buckets ksize dsize ops = Ok (t, snd s) /\
      ht_size t = balance ops (snd s) /\ ht_size t = Z.of_nat (allocated (ht_heap t)) /\
      stores (ht_keys t) keys /\ enumerates compare keys (fun k => In k (names (fst s))).
Proof.
  intros K compare hash b ks ds ops TO HR Hks Hs s.
  destruct (reach_runs compare hash b ks ds ops TO HR Hks Hs) as (t & E & S & _).
  destruct S as (rs & lk & (_ & _ & _ & _ & _ & Rk & Sk & Hsz & _) & _ & _ & Hnm).
  exists t, lk. split; [exact E|]. split.
  { unfold history in E. destruct (hashtable_init_size b ks ds) as [t0| | |] eqn:E0; try discriminate. cbn [bind] in E.
    rewrite (balance_run _ _ _ _ _ _ E). unfold hashtable_init_size in E0. cbn in E0. inversion E0; subst. reflexivity. }
  split; [exact Hsz|]. apply rep_elements in Rk. split; [split; tauto|].
  split; [exact Sk|intros k; symmetry; apply Hnm].
Qed.
Print Assumptions C92_every_history.

(** Against the map a user expects: whatever the history, a value handed out is the right one,
    an absent key is never found, and the size is never too small.  What can go wrong is that a
    key is missing. *)
Theorem C92_never_wrong :
  forall (K : Type) (compare : K -> K -> Z) (hash : K -> nat -> nat) (buckets dsize : nat) (ops : list (hop K)),
    total_order compare -> hash_in_range hash -> Forall (sized dsize) ops ->
    exists t outs, history compare hash buckets dsize dsize ops = Ok (t, outs) /\
      all_no_worse ops outs (snd (hspec_run (same compare) [] ops)).
Proof.
  intros K compare hash b ds ops TO HR Hs.
  destruct (reach_runs compare hash b ds ds ops TO HR (Nat.le_refl _) Hs) as (t & E & _).
  exists t, (snd (shelf_run (same compare) (fun k => hash k (nb b)) ds empty_shelf ops)). split; [exact E|].
  apply (below_run compare hash TO HR); [|exact Hs].
  split; [intros i; constructor|]. split; [constructor|]. split; [intros k v H; discriminate|]. split; [intros k []|constructor].
Qed.
Print Assumptions C92_never_wrong.

(** The tables hashtable_init makes for integer keys. *)
Theorem C92_integer_tables : forall (buckets : Z) kt dt n (ops : list (hop Z)),
  integer_type kt -> has_size kt n -> has_size dt n -> Forall (sized n) ops ->
  exists t outs, typed_history buckets kt dt ops = Ok (t, outs) /\ all_no_worse ops outs (snd (hspec_run Z.eqb [] ops)).
Proof.
  intros b kt dt n ops Hi Hk Hd Hs. destruct (typed_init b kt dt n n Hk Hd) as (m & E). rewrite E.
  destruct (C92_never_wrong Z int_compare integer_hash m n ops order_int range_int Hs) as (t & outs & Et & Hw).
  exists t, outs. split; [exact Et|]. rewrite (run_ext _ _ same_int) in Hw. exact Hw.
Qed.
Print Assumptions C92_integer_tables.

(** Clearing after any history: the value destructor is called once for every value that is
    stored (and not NULL), and only stored entries are freed. *)
Theorem C92_clear_after_any_history :
  forall (K : Type) (compare : K -> K -> Z) (hash : K -> nat -> nat) (buckets ksize dsize : nat) (ops : list (hop K)),
    total_order compare -> hash_in_range hash -> ksize <= dsize -> 8 <= dsize -> Forall (sized dsize) ops ->
    let s := fst (shelf_run (same compare) (fun k => hash k (nb buckets)) ksize empty_shelf ops) in
    exists t outs t' klog vlog, history compare hash buckets ksize dsize ops = Ok (t, outs) /\
      hashtable_clear hash t = Ok (t', (klog, vlog)) /\
      Permutation vlog (filter nonnull (map snd (all_stored s (nb buckets)))) /\
      ht_table t' = repeat None (nb buckets) /\ ht_size t' = 0%Z /\
      allocated (ht_heap t') + length (all_stored s (nb buckets)) = allocated (ht_heap t).
Proof.
  intros K compare hash b ks ds ops TO HR Hks H8 Hs s.
  destruct (reach_runs compare hash b ks ds ops TO HR Hks Hs) as (t & E & S & K1 & D1 & B1).
  destruct S as (rs & lk & Hinv & Hr & _).
  destruct (sim_clear compare hash HR t rs lk Hinv) as (t' & klog & vlog & Ec & Hp & Ht & Hsz & Hlv); [lia|].
  rewrite B1 in *.
  assert (Hall : all_stored s (nb b) = map snd (entries rs (seq 0 (nb b)))).
  { unfold all_stored, entries. rewrite !flat_map_concat_map, concat_map, map_map. f_equal. apply map_ext_in.
    intros i Hi. apply in_seq in Hi. unfold s. rewrite Hr by lia. apply concat_content. }
  exists t, (snd (shelf_run (same compare) (fun k => hash k (nb b)) ks empty_shelf ops)), t', klog, vlog.
  split; [exact E|]. split; [exact Ec|]. split; [rewrite Hall, map_map; exact Hp|]. split; [exact Ht|]. split; [exact Hsz|].
  rewrite Hall, map_length. exact Hlv.
Qed.
Print Assumptions C92_clear_after_any_history.

(** A shelf with entries in one bucket only. *)
Definition only {K} (s : shelf K) i (rs : list (list (K * bytes))) ks :=
  runs s i = rs /\ (forall j, j <> i -> runs s j = []) /\ names s = ks.

Lemma only_insert {K} (eqk : K -> K -> bool) home w s i rs ks k v :
  only s i rs ks -> home k = i -> find (fun e => eqk (fst e) k) (concat rs) = None ->
  exists s', shelf_step eqk home w s (HInsert k v) = (s', (1%Z, v)) /\ only s' i (add_front (k, v) rs) (add_name eqk k ks).
Proof.
  intros (A & B & C) Hh Hf. cbn [shelf_step]. unfold stored. rewrite Hh, A, Hf, C. cbn [option_map].
  eexists. split; [reflexivity|]. unfold only. cbn [put runs names]. rewrite Hh, Nat.eqb_refl. split; [reflexivity|]. split; [|reflexivity].
  intros j Hj. destruct (Nat.eqb_spec j i) as [|_]; [contradiction|exact (B j Hj)].
Qed.

Lemma only_remove {K} (eqk : K -> K -> bool) home w s i rs ks k buf e :
  only s i rs ks -> home k = i -> find (fun e => eqk (fst e) k) (concat rs) = Some e ->
  exists s', shelf_step eqk home w s (HRemove k buf) = (s', (1%Z, firstn w (snd e) ++ skipn w buf)) /\
    only s' i (take_out eqk k [] rs) (drop_name eqk k ks).
Proof.
  intros (A & B & C) Hh Hf. cbn [shelf_step]. unfold stored. rewrite Hh, A, Hf, C. cbn [option_map].
  eexists. split; [reflexivity|]. unfold only. cbn [put runs names]. rewrite Hh, Nat.eqb_refl. split; [reflexivity|]. split; [|reflexivity].
  intros j Hj. destruct (Nat.eqb_spec j i) as [|_]; [contradiction|exact (B j Hj)].
Qed.

(** A key that is lost stays lost: with any three keys in one bucket, removing the second and
    the first leaves the third neither found nor removable, it still counts, and clearing the
    table neither hands its value to the destructor nor frees its entry. *)
Theorem C92_lost_entry_is_never_freed_refuted :
  forall (K : Type) (compare : K -> K -> Z) (hash : K -> nat -> nat) (buckets dsize : nat) (k1 k2 k3 : K) (v1 v2 v3 buf : bytes),
    total_order compare -> hash_in_range hash -> 8 <= dsize ->
    k1 <> k2 -> k1 <> k3 -> k2 <> k3 ->
    hash k1 (nb buckets) = hash k2 (nb buckets) -> hash k1 (nb buckets) = hash k3 (nb buckets) ->
    length v1 = dsize -> length v2 = dsize -> length v3 = dsize -> length buf = dsize ->
    exists t t' klog, history compare hash buckets dsize dsize
        [HInsert k1 v1; HInsert k2 v2; HInsert k3 v3; HRemove k2 buf; HRemove k1 buf; HLookup k3 buf; HRemove k3 buf; HSize] =
        Ok (t, [(1%Z, v1); (1%Z, v2); (1%Z, v3); (1%Z, v2); (1%Z, v1); (0%Z, buf); (0%Z, buf); (1%Z, [])]) /\
      hashtable_clear hash t = Ok (t', (klog, [])) /\ allocated (ht_heap t') = 1.
Proof.
  intros K compare hash b ds k1 k2 k3 v1 v2 v3 buf TO HR H8 N12 N13 N23 E12 E13 L1 L2 L3 Lb.
  set (ops := [HInsert k1 v1; HInsert k2 v2; HInsert k3 v3; HRemove k2 buf; HRemove k1 buf; HLookup k3 buf; HRemove k3 buf; HSize]).
  assert (Hs : Forall (sized ds) ops) by (repeat constructor; cbn; auto).
  set (home := fun k => hash k (nb b)). set (i := home k1).
  assert (H2 : home k2 = i) by (symmetry; exact E12). assert (H3 : home k3 = i) by (symmetry; exact E13).
  assert (R1 : same compare k1 k1 = true) by (apply (eqk_spec compare TO); reflexivity).
  assert (R2 : same compare k2 k2 = true) by (apply (eqk_spec compare TO); reflexivity).
  assert (R3 : same compare k3 k3 = true) by (apply (eqk_spec compare TO); reflexivity).
  assert (Q : forall a b, a <> b -> same compare a b = false).
  { intros a c N. destruct (same compare a c) eqn:E; [apply (eqk_spec compare TO) in E; contradiction|reflexivity]. }
  pose proof (Q k1 k2 N12) as Q12. pose proof (Q k1 k3 N13) as Q13. pose proof (Q k2 k3 N23) as Q23.
  pose proof (Q k2 k1 (not_eq_sym N12)) as Q21. pose proof (Q k3 k1 (not_eq_sym N13)) as Q31. pose proof (Q k3 k2 (not_eq_sym N23)) as Q32.
  assert (Hcut : forall v : bytes, length v = ds -> firstn ds v ++ skipn ds buf = v).
  { intros v Lv. rewrite firstn_all2 by (rewrite Lv; apply Nat.le_refl). rewrite skipn_all2 by (rewrite Lb; apply Nat.le_refl). apply app_nil_r. }
  assert (Hrun : snd (shelf_run (same compare) home ds empty_shelf ops) =
                   [(1%Z, v1); (1%Z, v2); (1%Z, v3); (1%Z, v2); (1%Z, v1); (0%Z, buf); (0%Z, buf); (1%Z, [])] /\
                 forall j, runs (fst (shelf_run (same compare) home ds empty_shelf ops)) j = []).
  { assert (O0 : only (K := K) empty_shelf i [] []) by (repeat split; auto).
    destruct (only_insert (same compare) home ds empty_shelf i [] [] k1 v1 O0 eq_refl eq_refl) as (s1 & T1 & O1).
    destruct (only_insert (same compare) home ds s1 i _ _ k2 v2 O1 H2) as (s2 & T2 & O2); [cbn; rewrite Q12; reflexivity|].
    destruct (only_insert (same compare) home ds s2 i _ _ k3 v3 O2 H3) as (s3 & T3 & O3); [cbn; rewrite Q13, Q23; reflexivity|].
    destruct (only_remove (same compare) home ds s3 i _ _ k2 buf (k2, v2) O3 H2) as (s4 & T4 & O4); [cbn; rewrite Q32, R2; reflexivity|].
    cbn in O4. rewrite Q12, R2, Q32 in O4. cbn in O4.
    destruct (only_remove (same compare) home ds s4 i _ _ k1 buf (k1, v1) O4 eq_refl) as (s5 & T5 & O5); [cbn; rewrite Q31, R1; reflexivity|].
    cbn in O5. rewrite Q31, R1 in O5. cbn in O5.
    assert (N : stored (same compare) home s5 k3 = None) by (destruct O5 as (A & _); unfold stored; rewrite H3, A; reflexivity).
    unfold ops. cbn [shelf_run]. rewrite T1. cbn [fst snd]. rewrite T2. cbn [fst snd]. rewrite T3. cbn [fst snd].
    rewrite T4. cbn [fst snd]. rewrite T5. cbn [fst snd]. cbn [shelf_step fst snd]. rewrite !N. cbn [fst snd].
    rewrite !Hcut by assumption. destruct O5 as (A & B & C).
    assert (HN : length (names s5) = 1).
    { rewrite C. unfold drop_name, add_name. repeat (cbn; rewrite ?Q21, ?Q12, ?Q13, ?Q23, ?Q31, ?Q32, ?R1, ?R2, ?R3). reflexivity. }
    rewrite HN. split; [reflexivity|].
    intros j. destruct (Nat.eq_dec j i) as [->|Nj]; [exact A|exact (B j Nj)]. }
  destruct Hrun as [Hout Hruns].
  destruct (C92_clear_after_any_history K compare hash b ds ds ops TO HR (Nat.le_refl _) H8 Hs) as (t & outs & t' & klog & vlog & E & Ec & Hp & _ & _ & Hal).
  change (fun k => hash k (nb b)) with home in Hp, Hal.
  assert (Hnil : all_stored (fst (shelf_run (same compare) home ds empty_shelf ops)) (nb b) = []).
  { unfold all_stored. apply flat_map_nil. intros j _. rewrite Hruns. reflexivity. }
  rewrite Hnil in Hp, Hal. cbn in Hp. apply Permutation_sym, Permutation_nil in Hp. subst vlog.
  destruct (C92_every_history K compare hash b ds ds ops TO HR (Nat.le_refl _) Hs) as (t1 & ks & E1 & Hbal & Hsz & _).
  change (fun k => hash k (nb b)) with home in E1, Hbal, Hsz. rewrite Hout in E1, Hbal.
  assert (Et : t1 = t) by congruence. rewrite E1 in E. subst t1. clear Hruns Hnil.
  exists t, t', klog. split; [exact E1|]. split; [exact Ec|].
  cbn [length] in Hal. rewrite Nat.add_0_r in Hal. rewrite Hal. unfold ops in Hbal. cbn in Hbal. rewrite Hbal in Hsz. clear - Hsz. lia.
Qed.
Print Assumptions C92_lost_entry_is_never_freed_refuted.

(** Five keys in one bucket: after the removals of 6 and 1 key 11 is gone, keys 16 and 21 as
    well; the key 2 of another bucket is not affected and the lost keys can be inserted again. *)
Example C92_example :
  let v x := [x; 0; 0; 0; 0; 0; 0; 0]%Z in
  let ops := [HInsert 1 (v 10); HInsert 6 (v 60); HInsert 11 (v 70); HInsert 16 (v 80); HInsert 21 (v 90); HInsert 2 (v 20);
              HRemove 6 (v 0); HLookup 11 (v 0); HRemove 1 (v 0); HLookup 11 (v 0); HLookup 21 (v 0); HLookup 2 (v 0); HSize;
              HInsert 16 (v 81); HLookup 16 (v 0); HSize]%Z in
  Forall (sized (K := Z) 8) ops /\
  (let! r := history zcmp zmod_hash 5 8 8 ops in
   let! c := hashtable_clear zmod_hash (fst r) in
   Ok (snd r, allocated (ht_heap (fst r)), snd (snd c), allocated (ht_heap (fst c)))) =
  Ok ([(1, v 10); (1, v 60); (1, v 70); (1, v 80); (1, v 90); (1, v 20);
      (1, v 60); (1, v 70); (1, v 10); (0, v 0); (0, v 0); (1, v 20); (4, []);
      (1, v 81); (1, v 81); (4, [])]%Z, 5, [v 20; v 81]%Z, 3).
Proof. split; [repeat constructor|]. vm_compute. reflexivity. Qed.

(** The hypotheses of the lost-entry theorem are met by int keys. *)
Example C92_lost_example :
  total_order int_compare /\ hash_in_range integer_hash /\
  (integer_hash 1 (nb 5) = integer_hash 6 (nb 5) /\ integer_hash 1 (nb 5) = integer_hash 11 (nb 5))%Z.
Proof. split; [exact order_int|]. split; [exact range_int|]. split; reflexivity. Qed.
