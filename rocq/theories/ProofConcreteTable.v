(** Tables with keys of type long (ModelConcrete.v). *)
From Coq Require Import Sorted Permutation.
From Verif Require Import Base ListFacts F64 ModelArrayList SpecSeq ProofArrayList ModelCells CellFacts ModelHash SpecMap ProofHash
  ModelPrimes PropPrimes ModelUtils PropCollections PropMap PropUtils ModelMap ProofMap ModelConcrete ProofConcrete.
From Coq Require Import ZifyBool ZifyNat.
Local Open Scope nat_scope.

Lemma lkey_small k : small k -> lkey (Z.of_nat k) = Z.of_nat k.
Proof. unfold small, lkey, i32_of_u32. intros H. destruct (Z.ltb_spec (Z.of_nat k) 2147483648); lia. Qed.
Lemma small_label k : small k -> label_ok (Z.of_nat k).
Proof. unfold small, label_ok, M32. lia. Qed.

Section T.
Context {V : Type}.
Implicit Types t : ltable V.

(** The table holds the values of [f]; all keys are small. *)
Definition lt_rel t (f : nat -> option V) : Prop := exists m, pgood t m /\ (forall l a, In (l, a) m -> exists k, l = Z.of_nat k /\ small k) /\
  forall k, small k -> f k = match pfind m (Z.of_nat k) with Some a => nth_error (pt_mem t) a | None => None end.

Lemma lt_ext t f g : (forall k, f k = g k) -> lt_rel t f -> lt_rel t g.
Proof. intros E (m & H1 & H2 & H3). exists m. split; [exact H1|]. split; [exact H2|]. intros k Hk. rewrite <- E. apply H3. exact Hk. Qed.

Lemma lt_init_sim b : exists t, lt_init b = Ok t /\ lt_rel t (fun _ => None).
Proof.
  unfold lt_init, ModelTable.hashtable_init. destruct (C11_at_least_one_bucket b) as (n & E & _). rewrite E. cbn [bind].
  destruct (init_good int_compare lhash lhash_range (Z.to_nat n) (Z.to_nat (get_htype_size H_LONG)) (Z.to_nat (get_htype_size H_PTR))) as (tab & E2 & G & _ & D & _).
  rewrite E2. cbn [bind]. eexists. split; [reflexivity|]. exists []. split; [|split; [intros l a []|reflexivity]].
  split; cbn [pt_tab pt_mem]; [exact G|rewrite D; reflexivity|intros l a []|constructor|constructor].
Qed.

Lemma lt_find_is t k : small k -> lt_find t k = pt_find t (Z.of_nat k).
Proof. intros H. unfold lt_find, pt_find. rewrite (lkey_small k H). reflexivity. Qed.
Lemma lt_find_none t f k : lt_rel t f -> small k -> f k = None -> lt_find t k = Ok None.
Proof.
  intros (m & G & _ & H) Hk E. rewrite lt_find_is, (pt_find_ok t m _ G (small_label k Hk)) by exact Hk. rewrite (H k Hk) in E.
  destruct (pfind m (Z.of_nat k)) as [a|] eqn:Ea; [|reflexivity]. apply pfind_in in Ea; [|apply G]. apply (addr_lt t m _ a G) in Ea. apply nth_error_None in E. lia.
Qed.
Lemma lt_find_some t f k v : lt_rel t f -> small k -> f k = Some v -> exists a, lt_find t k = Ok (Some a) /\ pt_load t a = Ok v.
Proof.
  intros (m & G & _ & H) Hk E. rewrite lt_find_is, (pt_find_ok t m _ G (small_label k Hk)) by exact Hk. rewrite (H k Hk) in E.
  destruct (pfind m (Z.of_nat k)) as [a|] eqn:Ea; [|discriminate]. exists a. split; [reflexivity|]. unfold pt_load. apply aget_nth. exact E.
Qed.
Lemma lt_insert_sim t f k v : lt_rel t f -> small k -> f k = None -> exists t', lt_insert t k v = Ok t' /\ pt_mem t' = pt_mem t ++ [v] /\
  lt_find t' k = Ok (Some (length (pt_mem t))) /\ lt_rel t' (fun j => if j =? k then Some v else f j).
Proof.
  intros HR Hk E. pose proof (lt_find_none t f k HR Hk E) as En. destruct HR as (m & G & Hs & H).
  rewrite lt_find_is, (pt_find_ok t m _ G (small_label k Hk)) in En by exact Hk. injection En as En.
  destruct (pt_insert_ok t m (Z.of_nat k) v G (small_label k Hk) En) as (t' & I1 & I2 & I3).
  exists t'. split; [|split; [exact I3|split]].
  - unfold pt_insert, pt_new in I1. cbn [fst snd pt_tab pt_mem] in I1. rewrite (lkey_small k Hk) in I1. unfold lt_insert. exact I1.
  - rewrite lt_find_is, (pt_find_ok t' _ _ I2 (small_label k Hk)) by exact Hk. unfold pfind. cbn [find fst]. rewrite Z.eqb_refl. reflexivity.
  - exists ((Z.of_nat k, length (pt_mem t)) :: m). split; [exact I2|]. split.
    + intros l a [Hl|Hl]; [injection Hl as <- _; eauto|apply (Hs l a Hl)].
    + intros j Hj. unfold pfind. cbn [find fst]. destruct (Nat.eqb_spec j k) as [->|Hne].
      * rewrite Z.eqb_refl. cbn [option_map snd]. rewrite I3, nth_error_app2, Nat.sub_diag by lia. reflexivity.
      * replace (Z.of_nat k =? Z.of_nat j)%Z with false by lia. fold (pfind m (Z.of_nat j)). rewrite (H j Hj).
        destruct (pfind m (Z.of_nat j)) as [a|] eqn:Ea; [|reflexivity]. apply pfind_in in Ea; [|apply G]. apply (addr_lt t m _ a G) in Ea.
        rewrite I3, nth_error_app1 by exact Ea. reflexivity.
Qed.
Lemma lt_store_sim t f k a v : lt_rel t f -> small k -> lt_find t k = Ok (Some a) -> exists t', pt_store t a v = Ok t' /\
  lt_rel t' (fun j => if j =? k then Some v else f j).
Proof.
  intros (m & G & Hs & H) Hk E. rewrite lt_find_is, (pt_find_ok t m _ G (small_label k Hk)) in E by exact Hk. injection E as E. pose proof E as E0.
  apply pfind_in in E; [|apply G]. pose proof (addr_lt t m _ a G E) as Ha. destruct (pt_store_ok t m a v G Ha) as (t' & T1 & T2 & T3).
  exists t'. split; [exact T1|]. exists m. split; [exact T2|]. split; [exact Hs|]. intros j Hj. rewrite T3. destruct (Nat.eqb_spec j k) as [->|Hne].
  - rewrite E0. rewrite nth_error_upd_eq by exact Ha. reflexivity.
  - rewrite (H j Hj). destruct (pfind m (Z.of_nat j)) as [b|] eqn:Eb; [|reflexivity]. apply pfind_in in Eb; [|apply G].
    rewrite nth_error_upd_neq; [reflexivity|]. intros ->. pose proof (addr_inj t m _ _ _ G E Eb). lia.
Qed.
Lemma lt_keys_sim t f : lt_rel t f -> exists ks, al_size (ht_keys (pt_tab t)) = length ks /\ NoDup ks /\ Forall small ks /\
  (forall k, small k -> In k ks <-> f k <> None) /\ (forall i k, nth_error ks i = Some k -> lt_key t i = Ok k).
Proof.
  intros (m & G & Hs & H). destruct (pg_good t m G) as (css & _ & _ & _ & _ & _ & _ & Hnd & _ & (lk & Rk & Sk & Ik) & _).
  assert (Hlk : forall z, In z lk <-> exists k a, z = Z.of_nat k /\ small k /\ In (z, a) m).
  { intros z. rewrite Ik. unfold entries. rewrite map_map, in_map_iff. split.
    - intros ([l a] & Hz & Hx). cbn [fst] in Hz. destruct (Hs l a Hx) as (k & -> & Hk). rewrite (lkey_small k Hk) in Hz. subst z. eauto.
    - intros (k & a & -> & Hk & Hx). exists (Z.of_nat k, a). cbn [fst]. rewrite (lkey_small k Hk). auto. }
  exists (map Z.to_nat lk). destruct (rep_elements _ _ Rk) as [_ Hsz]. rewrite map_length. split; [exact Hsz|]. split; [|split; [|split]].
  - assert (HN : NoDup lk).
    { clear -Sk. induction Sk as [|z l _ IH Hf]; constructor; [|exact IH]. intros Hx. rewrite Forall_forall in Hf. specialize (Hf z Hx). unfold before, int_compare in Hf.
      destruct (Z.gtb_spec z z); [lia|]. destruct (Z.eqb_spec z z); lia. }
    assert (HP : forall z, In z lk -> (0 <= z)%Z) by (intros z Hz; apply Hlk in Hz; destruct Hz as (k & _ & -> & _); lia).
    clear -HN HP. induction HN as [|z l Hn _ IH]; cbn [map]; constructor.
    + intros Hx. apply in_map_iff in Hx. destruct Hx as (y & Hy & Hin). apply Hn. replace z with y; [exact Hin|].
      pose proof (HP z (or_introl eq_refl)). pose proof (HP y (or_intror Hin)). lia.
    + apply IH. intros y Hy. apply HP. right. exact Hy.
  - apply Forall_forall. intros k Hk. apply in_map_iff in Hk. destruct Hk as (z & <- & Hz). apply Hlk in Hz. destruct Hz as (k & a & -> & Hk & _). rewrite Nat2Z.id. exact Hk.
  - intros k Hk. rewrite (H k Hk). split.
    + intros Hx. apply in_map_iff in Hx. destruct Hx as (z & Hz & Hin). apply Hlk in Hin. destruct Hin as (j & a & -> & Hj & Hx). rewrite Nat2Z.id in Hz. subst j.
      apply pfind_in in Hx; [|apply G]. rewrite Hx. apply pfind_in in Hx; [|apply G]. apply (addr_lt t m _ a G) in Hx. intros Hc. apply nth_error_None in Hc. lia.
    + intros Hx. destruct (pfind m (Z.of_nat k)) as [a|] eqn:Ea; [|congruence]. apply pfind_in in Ea; [|apply G]. apply in_map_iff. exists (Z.of_nat k). split; [apply Nat2Z.id|].
      apply Hlk. eauto.
  - intros i k Hi. rewrite nth_error_map in Hi. destruct (nth_error lk i) as [z|] eqn:E; [|discriminate]. injection Hi as <-. unfold lt_key.
    rewrite (slot_rep _ _ _ _ Rk E). reflexivity.
Qed.
End T.
