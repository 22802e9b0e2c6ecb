(** Lemmas about tables of pointers (ModelMap.v). *)
From Coq Require Import Sorted Permutation.
From Verif Require Import Base ListFacts F64 ModelArrayList SpecSeq ProofArrayList ModelCells CellFacts ModelHash SpecMap ProofHash
  ModelPrimes PropPrimes ModelUtils PropCollections PropMap PropUtils ModelMap.
From Coq Require Import ZifyBool ZifyNat.
Local Open Scope nat_scope.

Definition label_ok (l : Z) : Prop := (0 <= l < M32)%Z.

Lemma lkey_inj a b : label_ok a -> label_ok b -> lkey a = lkey b -> a = b.
Proof. unfold label_ok, lkey, i32_of_u32, M32. intros Ha Hb. destruct (Z.ltb_spec a 2147483648), (Z.ltb_spec b 2147483648); lia. Qed.
Lemma u32_lkey a : label_ok a -> u32 (lkey a) = a.
Proof.
  unfold label_ok, lkey, i32_of_u32, u32, M32. intros Ha. destruct (Z.ltb_spec a 2147483648); [apply Z.mod_small; lia|].
  replace (a - 4294967296)%Z with (a + (-1) * 4294967296)%Z by lia. rewrite Z.mod_add by lia. apply Z.mod_small. lia.
Qed.
Lemma lhash_range : hash_in_range lhash.
Proof. intros k b Hb. unfold lhash. pose proof (Z.mod_pos_bound (u64 k) (Z.of_nat b)). lia. Qed.
Lemma lhash_is_int_hash k b : 0 < b -> int_hash k (Z.of_nat b) = Ok (Z.of_nat (lhash k b)).
Proof.
  intros Hb. unfold int_hash, size_mod, lhash. destruct (Z.eqb_spec (Z.of_nat b) 0); [lia|]. f_equal.
  pose proof (Z.mod_pos_bound (u64 k) (Z.of_nat b)). lia.
Qed.
Lemma int_total : total_order int_compare.
Proof. apply C13_integer_compare. Qed.

Lemma ptr_of_bytes p : ptr_of (ptr_bytes p) = p.
Proof. destruct p as [a|]; [|reflexivity]. cbn [ptr_of ptr_bytes]. destruct (Z.leb_spec (Z.of_nat (S a)) 0); [lia|]. f_equal. lia. Qed.
Lemma ptr_len p : length (ptr_bytes p) = 8.
Proof. destruct p; reflexivity. Qed.

(** [m] lists the labels with the addresses of their blocks. *)
Definition entries (m : list (Z * nat)) : list (Z * bytes) := map (fun x => (lkey (fst x), ptr_bytes (Some (snd x)))) m.
Definition pfind (m : list (Z * nat)) (label : Z) : option nat := option_map snd (find (fun x => (fst x =? label)%Z) m).

Section P.
Context {V : Type}.
Implicit Types t : ptable V.

Record pgood t (m : list (Z * nat)) : Prop := mk_pgood {
  pg_good : good int_compare lhash (pt_tab t) (entries m);
  pg_size : ht_dsize (pt_tab t) = 8;
  pg_lab : forall l a, In (l, a) m -> label_ok l;
  pg_nd : NoDup (map fst m);
  pg_addr : Permutation (map snd m) (seq 0 (length (pt_mem t))) }.

Lemma pfind_in m l a : NoDup (map fst m) -> pfind m l = Some a <-> In (l, a) m.
Proof.
  unfold pfind. induction m as [|[l' a'] m IH]; cbn [find map fst snd In option_map]; intros Hd; [split; [discriminate|tauto]|].
  inversion Hd as [|? ? Hn Hd']; subst. destruct (Z.eqb_spec l' l) as [->|Hne]; cbn [option_map snd].
  - split; [intros E; injection E as ->; auto|]. intros [E|E]; [injection E as ->; reflexivity|]. exfalso. apply Hn. apply (in_map fst) in E. exact E.
  - rewrite (IH Hd'). split; [auto|]. intros [E|E]; [congruence|exact E].
Qed.
Lemma pfind_none m l : pfind m l = None <-> ~ In l (map fst m).
Proof.
  unfold pfind. induction m as [|[l' a'] m IH]; cbn [find map fst snd In option_map]; [tauto|].
  destruct (Z.eqb_spec l' l) as [->|Hne]; cbn [option_map]; [split; [discriminate|tauto]|]. rewrite IH. tauto.
Qed.

Lemma assoc_entries m l : label_ok l -> (forall l' a, In (l', a) m -> label_ok l') ->
  assoc (eqk int_compare) (entries m) (lkey l) = option_map (fun a => ptr_bytes (Some a)) (pfind m l).
Proof.
  intros Hl. unfold assoc, pfind, entries. induction m as [|[l' a'] m IH]; intros Hm; [reflexivity|]. cbn [map find fst snd].
  assert (Hl' : label_ok l') by (apply (Hm l' a'); left; reflexivity).
  destruct (Z.eqb_spec l' l) as [->|Hne].
  - rewrite (proj2 (eqk_spec int_compare int_total _ _) eq_refl). reflexivity.
  - destruct (eqk int_compare (lkey l') (lkey l)) eqn:E.
    + apply (eqk_spec int_compare int_total) in E. apply lkey_inj in E; [contradiction|exact Hl'|exact Hl].
    + apply IH. intros x a Hx. apply (Hm x a). right. exact Hx.
Qed.

Lemma pt_find_ok t m l : pgood t m -> label_ok l -> pt_find t l = Ok (pfind m l).
Proof.
  intros HG Hl. unfold pt_find.
  rewrite (lookup_ok int_compare lhash int_total lhash_range (pt_tab t) (entries m) (lkey l) (ptr_bytes None)).
  - cbn [bind]. f_equal. rewrite (assoc_entries m l Hl (pg_lab t m HG)). destruct (pfind m l); cbn [option_map snd]; apply ptr_of_bytes.
  - apply good_weak, HG.
  - rewrite (pg_size t m HG). apply ptr_len.
Qed.

Lemma pt_insert_ok t m l v : pgood t m -> label_ok l -> pfind m l = None ->
  exists t', pt_insert (fst (pt_new t v)) l (snd (pt_new t v)) = Ok t' /\ pgood t' ((l, length (pt_mem t)) :: m) /\ pt_mem t' = pt_mem t ++ [v].
Proof.
  intros HG Hl Hn. unfold pt_insert, pt_new. cbn [fst snd pt_tab pt_mem].
  destruct (insert_ok int_compare lhash int_total lhash_range (pt_tab t) (entries m) (lkey l) (ptr_bytes (Some (length (pt_mem t))))) as (t' & E & G & _ & D & _).
  { apply HG. } { rewrite (pg_size t m HG). apply ptr_len. }
  rewrite E. cbn [bind fst]. eexists. split; [reflexivity|].
  cbn [hspec_step] in G. rewrite (assoc_entries m l Hl (pg_lab t m HG)), Hn in G. cbn [option_map fst] in G. split; [|reflexivity].
  split; cbn [pt_tab pt_mem].
  - exact G.
  - rewrite D. apply HG.
  - intros l' a [Hx|Hx]; [injection Hx as <- _; exact Hl|apply (pg_lab t m HG l' a Hx)].
  - cbn [map fst]. constructor; [apply pfind_none; exact Hn|apply HG].
  - cbn [map snd]. rewrite app_length. cbn [length]. rewrite Nat.add_1_r, seq_S. cbn [Nat.add].
    apply Permutation_cons_app. rewrite app_nil_r. apply HG.
Qed.

Lemma pt_store_ok t m a v : pgood t m -> a < length (pt_mem t) ->
  exists t', pt_store t a v = Ok t' /\ pgood t' m /\ pt_mem t' = upd (pt_mem t) a v.
Proof.
  intros HG Ha. unfold pt_store. rewrite aset_ok by exact Ha. cbn [bind]. eexists. split; [reflexivity|]. split; [|reflexivity].
  destruct HG as [H1 H2 H3 H4 H5]. split; cbn [pt_tab pt_mem]; auto. rewrite upd_length. exact H5.
Qed.

Lemma addr_lt t m l a : pgood t m -> In (l, a) m -> a < length (pt_mem t).
Proof.
  intros HG H. apply (in_map snd) in H. cbn [snd] in H. apply (Permutation_in _ (pg_addr t m HG)) in H. apply in_seq in H. lia.
Qed.
Lemma addr_inj t m l l' a : pgood t m -> In (l, a) m -> In (l', a) m -> l = l'.
Proof.
  intros HG H H'. assert (Hnd : NoDup (map snd m)) by (eapply Permutation_NoDup; [apply Permutation_sym, (pg_addr t m HG)|apply seq_NoDup]).
  clear HG. induction m as [|[x b] m IH]; [destruct H|]. cbn [map snd] in Hnd. inversion Hnd as [|? ? Hn Hd]; subst.
  destruct H as [H|H], H' as [H'|H'].
  - congruence.
  - injection H as -> ->. exfalso. apply Hn. apply (in_map snd) in H'. exact H'.
  - injection H' as -> ->. exfalso. apply Hn. apply (in_map snd) in H. exact H.
  - apply (IH H H' Hd).
Qed.

(** The keys in the order of the set. *)
Lemma pt_keys t m : pgood t m -> exists ls,
  pt_size t = length ls /\ Permutation ls (map fst m) /\ StronglySorted Z.lt (map lkey ls) /\
  (forall i l, nth_error ls i = Some l -> pt_key t i = Ok l).
Proof.
  intros HG. destruct (pg_good t m HG) as (css & _ & _ & _ & _ & _ & _ & Hnd & _ & (lk & Rk & Sk & Ik) & _).
  assert (Hk : forall k, In k lk -> lkey (u32 k) = k /\ label_ok (u32 k)).
  { intros k Hk. apply Ik in Hk. unfold entries in Hk. rewrite map_map in Hk. apply in_map_iff in Hk. destruct Hk as ([l a] & <- & Hx). cbn [fst].
    pose proof (pg_lab t m HG l a Hx) as Hl. rewrite (u32_lkey l Hl). auto. }
  exists (map u32 lk). destruct (rep_elements _ _ Rk) as [_ Hs].
  assert (Hmm : map lkey (map u32 lk) = lk).
  { rewrite map_map. rewrite <- (map_id lk) at 2. apply map_ext_in. intros k Hx. apply (Hk k Hx). }
  assert (HS : StronglySorted Z.lt lk).
  { clear -Sk. induction Sk as [|a l _ IH Hf]; constructor; [exact IH|]. eapply Forall_impl; [|exact Hf]. intros b Hb. unfold before, int_compare in Hb.
    destruct (Z.gtb_spec a b); [lia|]. destruct (Z.eqb_spec a b); lia. }
  split; [rewrite map_length; exact Hs|]. split; [|split].
  - apply NoDup_Permutation.
    + assert (Hnl : NoDup lk). { clear -HS. induction HS as [|a l _ IH Hf]; constructor; [|exact IH]. intros Hx. rewrite Forall_forall in Hf. specialize (Hf a Hx). lia. }
      rewrite <- Hmm in Hnl. eapply NoDup_map_inv. exact Hnl.
    + apply HG.
    + intros l. rewrite in_map_iff. split.
      * intros (k & <- & Hx). apply Ik in Hx. unfold entries in Hx. rewrite map_map in Hx. apply in_map_iff in Hx. destruct Hx as ([l a] & <- & Hx). cbn [fst].
        rewrite (u32_lkey l (pg_lab t m HG l a Hx)). apply (in_map fst) in Hx. exact Hx.
      * intros Hx. apply in_map_iff in Hx. destruct Hx as ([l' a] & <- & Hx). cbn [fst]. exists (lkey l'). split; [apply u32_lkey, (pg_lab t m HG l' a Hx)|].
        apply Ik. unfold entries. rewrite map_map. apply in_map_iff. exists (l', a). auto.
  - rewrite Hmm. exact HS.
  - intros i l Hi. rewrite nth_error_map in Hi. destruct (nth_error lk i) as [k|] eqn:E; [|discriminate]. injection Hi as <-.
    unfold pt_key. rewrite (slot_rep _ _ _ _ Rk E). reflexivity.
Qed.

Lemma pt_size_ok t m : pgood t m -> pt_size t = length m /\ ht_size (pt_tab t) = Z.of_nat (length m).
Proof.
  intros HG. destruct (pt_keys t m HG) as (ls & H1 & H2 & _). apply Permutation_length in H2. rewrite map_length in H2.
  destruct (pg_good t m HG) as (css & _ & _ & _ & _ & _ & _ & _ & _ & _ & Hs & _). unfold entries in Hs. rewrite map_length in Hs. lia.
Qed.

Lemma pt_init_ok b : exists tab, hashtable_init_size b 4 8 = Ok tab /\ pgood (mk_ptable tab []) [].
Proof.
  destruct (init_good int_compare lhash lhash_range b 4 8) as (tab & E & G & _ & D & _). exists tab. split; [exact E|].
  split; cbn [pt_tab pt_mem]; [exact G|exact D|intros l a []|constructor|constructor].
Qed.

Lemma pt_deref_ok t m l : pgood t m -> label_ok l ->
  pt_deref t l = match pfind m l with Some a => aget (pt_mem t) a | None => UB end.
Proof. intros HG Hl. unfold pt_deref. rewrite (pt_find_ok t m l HG Hl). reflexivity. Qed.

Lemma destroy_ok t m : pgood t m -> exists log, destroy_map t = Ok log /\ Permutation log (map Some (seq 0 (length (pt_mem t)))).
Proof.
  intros HG. destruct (clear_ok int_compare lhash lhash_range (pt_tab t) (entries m) (pg_good t m HG)) as (t' & klog & vlog & E & HP & _).
  { rewrite (pg_size t m HG). lia. }
  unfold destroy_map. rewrite E. cbn [bind snd]. eexists. split; [reflexivity|].
  eapply Permutation_trans; [apply Permutation_map, HP|].
  assert (Hf : filter nonnull (map snd (entries m)) = map snd (entries m)).
  { apply ProofHash.filter_all. intros x Hx. unfold entries in Hx. rewrite map_map in Hx. apply in_map_iff in Hx. destruct Hx as ([l a] & <- & _). cbn [snd].
    unfold nonnull, ptr_bytes. cbn [firstn forallb]. destruct (Z.eqb_spec 0 (Z.of_nat (S a))); [lia|]. reflexivity. }
  rewrite Hf. unfold entries. rewrite !map_map. cbn [snd].
  rewrite (map_ext _ (fun x => Some (snd x))) by (intros x; apply ptr_of_bytes). rewrite <- (map_map snd Some). apply Permutation_map, HG.
Qed.
End P.
