(** C68: tables created with hashtable_init for a key type and a value type. *)
From Verif Require Import Base ListFacts ModelArrayList ModelUtils ModelPrimes ModelHash ModelTable SpecSeq SpecMap ProofHash PropCollections PropMap PropUtils PropPrimes.
From Coq Require Import ZifyBool ZifyNat.
Local Open Scope nat_scope.

(** sizeof on an LP64 machine. *)
Definition sizes : list (htype * nat) := [(H_CHAR, 1); (H_SHORT, 2); (H_INT, 4); (H_FLOAT, 4); (H_LONG, 8); (H_DOUBLE, 8); (H_STRING, 8); (H_PTR, 8)].
Definition has_size (t : htype) (n : nat) : Prop := In (t, n) sizes.
Definition integer_type (t : htype) : Prop := In t [H_CHAR; H_SHORT; H_INT; H_LONG].

Lemma size_is t n : has_size t n -> Z.to_nat (get_htype_size t) = n.
Proof. intros H. unfold has_size, sizes in H. cbn in H. destruct t; repeat (destruct H as [H|H]; [injection H; intros; subst; try discriminate; reflexivity|]); contradiction. Qed.

Lemma order_int : total_order int_compare.
Proof. apply C13_integer_compare. Qed.
Lemma range_int : hash_in_range integer_hash.
Proof.
  intros k b Hb. unfold integer_hash, int_hash, size_mod. replace (Z.of_nat b =? 0)%Z with false by lia.
  pose proof (Z.mod_pos_bound (u64 k) (Z.of_nat b)). lia.
Qed.

Lemma run_ext {K} (e1 e2 : K -> K -> bool) : (forall a b, e1 a b = e2 a b) -> forall ops m, hspec_run e1 m ops = hspec_run e2 m ops.
Proof.
  intros H. assert (HA : forall m k, assoc e1 m k = assoc e2 m k).
  { intros m k. unfold assoc. f_equal. induction m as [|x m IH]; cbn [find]; [reflexivity|]. rewrite H, IH. reflexivity. }
  assert (HW : forall m k, without e1 m k = without e2 m k).
  { intros m k. unfold without. induction m as [|x m IH]; cbn [filter]; [reflexivity|]. rewrite H, IH. reflexivity. }
  assert (HS : forall m o, hspec_step e1 m o = hspec_step e2 m o) by (intros m o; destruct o; cbn [hspec_step]; rewrite ?HA, ?HW; reflexivity).
  induction ops as [|o ops IH]; intros m; cbn [hspec_run]; [reflexivity|]. rewrite HS, !IH. reflexivity.
Qed.
Lemma same_int a b : same int_compare a b = (a =? b)%Z.
Proof. unfold same, int_compare. rewrite Z.gtb_ltb. destruct (Z.ltb_spec b a), (Z.eqb_spec a b); subst; try reflexivity; lia. Qed.

Lemma typed_init b kt dt ks ds : has_size kt ks -> has_size dt ds ->
  exists n, forall ops, typed_history b kt dt ops = history int_compare integer_hash n ks ds ops.
Proof.
  intros Hk Hd. destruct (C11_at_least_one_bucket b) as (n & E & _). exists (Z.to_nat n). intros ops.
  unfold typed_history, hashtable_init, history. rewrite E. cbn [bind]. rewrite (size_is kt ks Hk), (size_is dt ds Hd). reflexivity.
Qed.

(** A finite map from integers, whatever number of buckets is asked for. *)
Theorem C68_integer_tables : forall (buckets : Z) kt dt n (ops : list (hop Z)),
  integer_type kt -> has_size dt n -> Forall (sized n) ops -> Forall no_removal ops ->
  exists t, typed_history buckets kt dt ops = Ok (t, snd (hspec_run Z.eqb [] ops)).
Proof.
  intros b kt dt n ops Hk Hd Hs Hn.
  assert (exists ks, has_size kt ks) as (ks & Hks).
  { unfold integer_type, has_size, sizes in *. cbn in Hk. destruct Hk as [<-|[<-|[<-|[<-|[]]]]]; eexists; cbn; eauto 10. }
  destruct (typed_init b kt dt ks n Hks Hd) as (m & E). rewrite E.
  destruct (C06_hashtable_is_a_finite_map Z int_compare integer_hash m ks n ops order_int range_int Hs Hn) as (t & _ & Et & _).
  exists t. rewrite Et. rewrite (run_ext _ _ same_int). reflexivity.
Qed.
Print Assumptions C68_integer_tables.

(** What a removal returns depends on the two types: the value if their sizes agree, its first
    bytes if the key type is smaller; otherwise the removal reads beyond the stored value. *)
Theorem C68_removed_value_by_type : forall (buckets : Z) kt dt ksize dsize (ops : list (hop Z)) k v buf,
  integer_type kt -> has_size kt ksize -> has_size dt dsize -> Forall (sized dsize) ops -> Forall no_removal ops -> length buf = dsize ->
  assoc Z.eqb (fst (hspec_run Z.eqb [] ops)) k = Some v ->
  exists t outs, typed_history buckets kt dt ops = Ok (t, outs) /\
    (ksize = dsize -> exists t', hashtable_remove int_compare integer_hash t k buf = Ok (t', (1%Z, v))) /\
    (ksize < dsize -> exists t', hashtable_remove int_compare integer_hash t k buf = Ok (t', (1%Z, firstn ksize v ++ skipn ksize buf))) /\
    (dsize < ksize -> hashtable_remove int_compare integer_hash t k buf = UB).
Proof.
  intros b kt dt ks ds ops k v buf _ Hk Hd Hs Hn Hb Ha. destruct (typed_init b kt dt ks ds Hk Hd) as (m & E).
  assert (Ha' : assoc (same int_compare) (fst (hspec_run (same int_compare) [] ops)) k = Some v).
  { rewrite (run_ext _ _ same_int). rewrite <- Ha. unfold assoc. f_equal. generalize (fst (hspec_run Z.eqb [] ops)) as l.
    induction l as [|x l IH]; cbn [find]; [reflexivity|]. rewrite same_int, IH. reflexivity. }
  destruct (C08_removed_value Z int_compare integer_hash m ks ds ops k v buf order_int range_int Hs Hn Hb Ha') as (t & outs & Et & H1 & H2 & H3).
  exists t, outs. rewrite E. split; [exact Et|]. split; [exact H2|]. split; [intros H; apply H1; lia|exact H3].
Qed.
Print Assumptions C68_removed_value_by_type.

(** Every table of the library has pointer values and keys of one of these types: only with
    H_LONG keys does a removal return the pointer. *)
Theorem C68_pointer_values : forall (buckets : Z) kt (ops : list (hop Z)) k v buf,
  In kt [H_INT; H_SHORT; H_LONG] -> Forall (sized 8) ops -> Forall no_removal ops -> length buf = 8 ->
  assoc Z.eqb (fst (hspec_run Z.eqb [] ops)) k = Some v ->
  exists t outs t' w, typed_history buckets kt H_PTR ops = Ok (t, outs) /\ hashtable_remove int_compare integer_hash t k buf = Ok (t', (1%Z, w)) /\
    (kt = H_LONG -> w = v) /\ (kt = H_INT -> w = firstn 4 v ++ skipn 4 buf) /\ (kt = H_SHORT -> w = firstn 2 v ++ skipn 2 buf).
Proof.
  intros b kt ops k v buf Hk Hs Hn Hb Ha. assert (HP : has_size H_PTR 8) by (unfold has_size; cbn; tauto).
  cbn in Hk. destruct Hk as [<-|[<-|[<-|[]]]].
  - destruct (C68_removed_value_by_type b H_INT H_PTR 4 8 ops k v buf) as (t & outs & E & _ & H & _); try assumption; [unfold integer_type; cbn; tauto|unfold has_size; cbn; tauto|].
    destruct (H ltac:(lia)) as (t' & E'). exists t, outs, t'. eexists. split; [exact E|]. split; [exact E'|]. split; [discriminate|]. split; [reflexivity|discriminate].
  - destruct (C68_removed_value_by_type b H_SHORT H_PTR 2 8 ops k v buf) as (t & outs & E & _ & H & _); try assumption; [unfold integer_type; cbn; tauto|unfold has_size; cbn; tauto|].
    destruct (H ltac:(lia)) as (t' & E'). exists t, outs, t'. eexists. split; [exact E|]. split; [exact E'|]. split; [discriminate|]. split; [discriminate|reflexivity].
  - destruct (C68_removed_value_by_type b H_LONG H_PTR 8 8 ops k v buf) as (t & outs & E & H & _); try assumption; [unfold integer_type; cbn; tauto|unfold has_size; cbn; tauto|].
    destruct (H eq_refl) as (t' & E'). exists t, outs, t'. eexists. split; [exact E|]. split; [exact E'|]. split; [reflexivity|]. split; discriminate.
Qed.
Print Assumptions C68_pointer_values.

(** Pointer keys: the table can be created and measured, but the first insertion or lookup
    calls a NULL function pointer. *)
Theorem C68_pointer_keys_refuted : forall (buckets : Z) dt, exists t, hashtable_init buckets H_PTR dt = Ok t /\
  (forall k v, pointer_step t (HInsert k v) = UB) /\ (forall k buf, pointer_step t (HLookup k buf) = UB) /\
  (forall k buf, pointer_step t (HRemove k buf) = Ok (t, (0%Z, buf))) /\ pointer_step t HSize = Ok (t, (0%Z, [])).
Proof.
  intros b dt. unfold hashtable_init. destruct (C11_at_least_one_bucket b) as (n & E & _). rewrite E. cbn [bind].
  unfold hashtable_init_size. cbn. eexists. split; [reflexivity|]. repeat split.
Qed.
Print Assumptions C68_pointer_keys_refuted.

(** Non-vacuity: an int keyed table with pointer values. *)
Example C68_example :
  let ops := [HInsert 7 [1; 2; 3; 4; 5; 6; 7; 8]; HInsert (-5) [9; 9; 9; 9; 9; 9; 9; 9]; HLookup (-5) (repeat 0 8); HInsert 7 [8; 8; 8; 8; 8; 8; 8; 8]]%Z in
  integer_type H_INT /\ has_size H_PTR 8 /\ Forall (sized (K := Z) 8) ops /\ Forall no_removal ops /\
  (let! r := typed_history 20 H_INT H_PTR ops in Ok (snd r)) =
    Ok [(1, [1; 2; 3; 4; 5; 6; 7; 8]); (1, [9; 9; 9; 9; 9; 9; 9; 9]); (1, [9; 9; 9; 9; 9; 9; 9; 9]); (-1, [1; 2; 3; 4; 5; 6; 7; 8])]%Z /\
  (let! r := typed_history 20 H_INT H_PTR ops in let! q := hashtable_remove int_compare integer_hash (fst r) 7%Z (repeat 0%Z 8) in Ok (snd q)) = Ok (1, [8; 8; 8; 8; 0; 0; 0; 0])%Z.
Proof. cbn zeta. split; [unfold integer_type; cbn; tauto|]. split; [unfold has_size; cbn; tauto|]. split; [repeat constructor|]. split; [repeat constructor|]. split; vm_compute; reflexivity. Qed.
