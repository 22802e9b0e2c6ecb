(** C82 and C83: tables with floating point keys and with string keys. *)
From Coq Require Import Floats.SpecFloat.
From Flocq Require Import IEEE754.BinarySingleNaN.
From Verif Require Import Base ListFacts F64 F64Facts ModelArrayList ModelCells ModelUtils ModelPrimes ModelHash ModelTable ModelKeys SpecSeq SpecMap ProofHash ProofKeys PropCollections PropMap PropUtils PropPrimes PropTable.
From Coq Require Import ZifyBool ZifyNat.
Local Open Scope nat_scope.

Lemma spec_rename {A B} (g : A -> B) (e : A -> A -> bool) (e' : B -> B -> bool) : (forall a b, e a b = e' (g a) (g b)) ->
  forall ops m, hspec_run e' (map (fkv g) m) (map (fop g) ops) = (map (fkv g) (fst (hspec_run e m ops)), snd (hspec_run e m ops)).
Proof.
  intros He. assert (HA : forall m k, assoc e' (map (fkv g) m) (g k) = assoc e m k).
  { intros m k. unfold assoc. induction m as [|[x v] m IH]; cbn [map find]; [reflexivity|]. cbn [fkv fst snd]. rewrite <- He.
    destruct (e x k); [reflexivity|exact IH]. }
  assert (HW : forall m k, without e' (map (fkv g) m) (g k) = map (fkv g) (without e m k)).
  { intros m k. unfold without. induction m as [|[x v] m IH]; cbn [map filter]; [reflexivity|]. cbn [fkv fst]. rewrite <- He.
    destruct (negb (e x k)); cbn [map]; rewrite IH; reflexivity. }
  assert (HS : forall m o, hspec_step e' (map (fkv g) m) (fop g o) = (map (fkv g) (fst (hspec_step e m o)), snd (hspec_step e m o))).
  { intros m o. destruct o as [k v|k b|k b|]; cbn [fop hspec_step].
    - rewrite HA. destruct (assoc e m k); cbn [fst snd map]; [rewrite HW|]; reflexivity.
    - rewrite HA. reflexivity.
    - rewrite HA. destruct (assoc e m k); cbn [fst snd]; [rewrite HW|]; reflexivity.
    - rewrite map_length. reflexivity. }
  induction ops as [|o ops IH]; intros m; cbn [map hspec_run]; [reflexivity|]. rewrite HS. cbn [fst snd]. rewrite IH. reflexivity.
Qed.

Lemma buckets_step {K} (cmp : K -> K -> Z) h t o r : hstep cmp h t o = Ok r -> ht_buckets (fst r) = ht_buckets t.
Proof.
  unfold ht_buckets. destruct o as [k v|k b|k b|]; cbn [hstep].
  - unfold hashtable_insert. intros H. destruct (hashtable_lookup_entry cmp h t k) as [[e|]| | |]; cbn [bind] in H; try discriminate.
    + repeat match type of H with context [bind ?m _] => destruct m; cbn [bind] in H; try discriminate H end. injection H as <-. reflexivity.
    + destruct (memcpy (malloc_bytes (ht_dsize t)) v (ht_dsize t)); cbn [bind] in H; try discriminate H. cbn [halloc] in H.
      destruct (aget (ht_table t) (h k (ht_buckets t))) as [fr| | |]; cbn [bind] in H; try discriminate H.
      match type of H with context [bind ?m _] => destruct m; cbn [bind] in H; try discriminate H end.
      unfold aset in H. destruct (h k (ht_buckets t) <? length (ht_table t)) eqn:E; cbn [bind] in H; try discriminate H.
      match type of H with context [bind ?m _] => destruct m; cbn [bind] in H; try discriminate H end. injection H as <-. cbn. apply upd_length.
  - intros H. destruct (hashtable_lookup cmp h t k b); cbn [bind] in H; try discriminate H. injection H as <-. reflexivity.
  - unfold hashtable_remove. intros H. destruct (hashtable_empty t); [injection H as <-; reflexivity|].
    destruct (hashtable_lookup_entry cmp h t k) as [[e|]| | |]; cbn [bind] in H; try discriminate H; [|injection H as <-; reflexivity].
    destruct (hload (ht_heap t) (Some e)) as [c| | |]; cbn [bind] in H; try discriminate H.
    match type of H with bind ?m _ = _ => destruct m as [p| | |] eqn:Ep; cbn [bind] in H; try discriminate H end.
    assert (EL : length (snd p) = length (ht_table t)).
    { destruct (negb (is_null (c_prev c))).
      - repeat match type of Ep with context [bind ?m _] => destruct m; cbn [bind] in Ep; try discriminate Ep end. injection Ep as <-. reflexivity.
      - unfold aset in Ep. destruct (h k (ht_buckets t) <? length (ht_table t)) eqn:E; cbn [bind] in Ep; try discriminate Ep.
        match type of Ep with bind ?m _ = _ => destruct m; cbn [bind] in Ep; try discriminate Ep end. injection Ep as <-. cbn. apply upd_length. }
    repeat match type of H with bind ?m _ = _ => destruct m; cbn [bind] in H; try discriminate H end. injection H as <-. exact EL.
  - intros H. injection H as <-. reflexivity.
Qed.

(** ** Generic part: a partial hash on a set of good keys *)
Section Good.
Context {K K' : Type}.
Variables (cmp : K -> K -> Z) (hash : K -> Z -> res Z) (good : K -> bool).
Variables (f : {k : K | good k = true} -> K') (cmp' : K' -> K' -> Z) (hash' : K' -> nat -> nat).
Hypothesis TO : total_order cmp'.
Hypothesis HR : hash_in_range hash'.
Hypothesis HC : forall a b, cmp (proj1_sig a) (proj1_sig b) = cmp' (f a) (f b).
Hypothesis HH : forall a (n : nat), n <> 0 -> hash (proj1_sig a) (Z.of_nat n) = Ok (Z.of_nat (hash' (f a) n)).

Hypothesis HZ : forall a : {k : K | good k = true}, hash (proj1_sig a) 0%Z = UB.

Definition th (k : K) (b : nat) : nat := match hash k (Z.of_nat b) with Ok x => Z.to_nat x | _ => 0 end.
Definition gkey (o : hop K) : Prop := match o with HInsert k _ | HLookup k _ | HRemove k _ => good k = true | HSize => True end.

Lemma lift_ops ops : Forall gkey ops -> exists sops : list (hop {k : K | good k = true}), map (fop (@proj1_sig _ _)) sops = ops.
Proof.
  induction 1 as [|o ops Ho _ (s & IH)]; [exists []; reflexivity|]. destruct o as [k v|k v|k v|]; cbn in Ho.
  - exists (HInsert (exist _ k Ho) v :: s). cbn. now rewrite IH.
  - exists (HLookup (exist _ k Ho) v :: s). cbn. now rewrite IH.
  - exists (HRemove (exist _ k Ho) v :: s). cbn. now rewrite IH.
  - exists (HSize :: s). cbn. now rewrite IH.
Qed.

(** A good key can be hashed, so the check never fires. *)
Lemma checked_step t o : ht_buckets t <> 0 -> gkey o -> keyed_step cmp hash t o = hstep cmp th t o.
Proof.
  intros Hb Ho. unfold keyed_step. fold th. destruct o as [k v|k b|k b|]; cbn in Ho; try reflexivity.
  - rewrite (HH (exist _ k Ho) _ Hb : hash k _ = _). reflexivity.
  - rewrite (HH (exist _ k Ho) _ Hb : hash k _ = _). reflexivity.
  - rewrite (HH (exist _ k Ho) _ Hb : hash k _ = _). destruct (hashtable_empty t); reflexivity.
Qed.
Lemma checked_run ops : forall t, ht_buckets t <> 0 -> Forall gkey ops -> keyed_run cmp hash t ops = hrun cmp th t ops.
Proof.
  induction ops as [|o ops IH]; intros t Hb Ho; [reflexivity|]. inversion Ho; subst. cbn [keyed_run hrun]. rewrite checked_step by assumption.
  destruct (hstep cmp th t o) as [r| | |] eqn:E; cbn [bind]; try reflexivity. rewrite IH; auto. rewrite (buckets_step _ _ _ _ _ E). exact Hb.
Qed.

(** The answers are those of the map whose keys are equal when the comparison says so. *)
Lemma good_history b kt dt ks n ops :
  has_size kt ks -> has_size dt n -> Forall (sized n) ops -> Forall no_removal ops -> Forall gkey ops ->
  exists t, (let! t := keyed_init b kt dt in keyed_run cmp hash t ops) = Ok (t, snd (hspec_run (same cmp) [] ops)) /\ ht_buckets t <> 0.
Proof.
  intros Hk Hd Hs Hn Hg. unfold keyed_init. destruct (C11_at_least_one_bucket b) as (nb0 & E & Hnb). rewrite E. cbn [bind].
  rewrite (size_is kt ks Hk), (size_is dt n Hd). set (m := Z.to_nat nb0).
  destruct (lift_ops ops Hg) as (sops & <-).
  assert (EI : exists t0, hashtable_init_size (K := {k : K | good k = true}) m ks n = Ok t0 /\ ht_buckets t0 <> 0).
  { unfold hashtable_init_size. cbn. eexists. split; [reflexivity|]. unfold ht_buckets. cbn [ht_table]. rewrite repeat_length. destruct (Nat.leb_spec m 0); lia. }
  destruct EI as (t0 & E0 & Hb0).
  rewrite (init_f (@proj1_sig K (fun k => good k = true)) m ks n), E0. cbn [rmap bind].
  rewrite checked_run; [|exact Hb0|exact Hg].
  set (scmp := fun a c : {k : K | good k = true} => cmp (proj1_sig a) (proj1_sig c)).
  set (sh := fun (a : {k : K | good k = true}) b => th (proj1_sig a) b).
  rewrite (run_f (@proj1_sig K (fun k => good k = true)) scmp cmp (fun _ _ => eq_refl) sh th (fun _ _ => eq_refl)).
  pose (h2 := fun k' (b : nat) => if b =? 0 then 0 else hash' k' b).
  assert (EH : forall a c, sh a c = h2 (f a) c).
  { intros a c. unfold sh, th, h2. destruct (Nat.eqb_spec c 0) as [->|Hc]; [cbn; now rewrite HZ|]. rewrite (HH a c Hc). apply Nat2Z.id. }
  assert (HR2 : hash_in_range h2).
  { intros k' c Hc. unfold h2. destruct (Nat.eqb_spec c 0); [lia|]. now apply HR. }
  pose proof (run_f f scmp cmp' HC sh h2 EH sops t0) as ER.
  assert (EI : hashtable_init_size m ks n = Ok (ftab f t0)) by (rewrite (init_f f), E0; reflexivity).
  assert (Hs' : Forall (sized n) (map (fop f) sops)).
  { rewrite Forall_map in Hs |- *. eapply Forall_impl; [|exact Hs]. intros [] H; exact H. }
  assert (Hn' : Forall no_removal (map (fop f) sops)).
  { rewrite Forall_map in Hn |- *. eapply Forall_impl; [|exact Hn]. intros [] H; exact H. }
  destruct (C06_hashtable_is_a_finite_map K' cmp' h2 m ks n (map (fop f) sops) TO HR2 Hs' Hn') as (t' & _ & EC & _).
  unfold history in EC. rewrite EI in EC. cbn [bind] in EC. rewrite EC in ER.
  destruct (hrun scmp sh t0 sops) as [[t1 an]| | |] eqn:E1; cbn [rmap] in ER; try discriminate ER.
  injection ER as Et Ea. cbn [ftab1 rmap fst snd].
  exists (ftab (@proj1_sig _ _) t1).
  assert (EA : snd (hspec_run (same cmp') [] (map (fop f) sops)) = snd (hspec_run (same cmp) [] (map (fop (@proj1_sig _ _)) sops))).
  { pose (se := fun a c : {k : K | good k = true} => same cmp (proj1_sig a) (proj1_sig c)).
    pose proof (spec_rename f se (same cmp') ltac:(intros a c; unfold se, same; rewrite HC; reflexivity) sops []) as H1.
    pose proof (spec_rename (@proj1_sig K (fun k => good k = true)) se (same cmp) ltac:(reflexivity) sops []) as H2.
    cbn [map] in H1, H2. rewrite H1, H2. reflexivity. }
  rewrite <- EA, Ea. split; [reflexivity|].
  change (ht_buckets t1 <> 0). clear - E1 Hb0. revert t0 Hb0 an E1. induction sops as [|o l IH]; intros t0 Hb an E; cbn [hrun] in E.
  - injection E as <- _. exact Hb.
  - destruct (hstep scmp sh t0 o) as [r| | |] eqn:Es; cbn [bind] in E; try discriminate E.
    destruct (hrun scmp sh (fst r) l) as [r2| | |] eqn:El; cbn [bind] in E; try discriminate E. injection E as <- _.
    destruct r2 as [t2 a2]. apply (IH (fst r)) in El; [exact El|]. rewrite (buckets_step _ _ _ _ _ Es). exact Hb.
Qed.
End Good.

(** ** C82: floating point keys *)

(** The keys that can be hashed: greater than -1 and less than 2^64 ([fkey] is the value times
    2^1074). *)
Definition hashable (x : f64) : Prop := notnan x /\ (- 2 ^ 1074 < fkey x < 2 ^ 1138)%Z.
Definition key_of {K} (o : hop K) : option K := match o with HInsert k _ | HLookup k _ | HRemove k _ => Some k | HSize => None end.
Definition keys_are {K} (P : K -> Prop) (ops : list (hop K)) : Prop := Forall (fun o => forall k, key_of o = Some k -> P k) ops.
Definition float_type (t : htype) : Prop := In t [H_DOUBLE; H_FLOAT].

Definition hashableb (x : f64) : bool := negb (fisnan x) && (- 2 ^ 1074 <? fkey x)%Z && (fkey x <? 2 ^ 1138)%Z.
Lemma hashable_b x : hashableb x = true <-> hashable x.
Proof.
  unfold hashableb, hashable, notnan. rewrite !andb_true_iff, negb_true_iff, !Z.ltb_lt. tauto.
Qed.

Lemma trunc_key x : is_finite x = true -> ftrunc x = Some (Z.quot (fkey x) (2 ^ 1074)).
Proof.
  destruct x as [s|s| |s m e Hb]; try discriminate; intros _; [destruct s; reflexivity|].
  cbn [ftrunc fkey]. f_equal.
  assert (He : (-1074 <= e)%Z).
  { unfold SpecFloat.bounded in Hb. apply andb_true_iff in Hb. destruct Hb as [Hb _]. unfold SpecFloat.canonical_mantissa in Hb. apply Zeq_bool_eq in Hb.
    unfold SpecFloat.fexp, SpecFloat.emin in Hb. lia. }
  assert (HP : (0 < 2 ^ 1074)%Z) by (apply Z.pow_pos_nonneg; lia).
  assert (HQ : Z.quot (Z.pos m * 2 ^ (e + 1074)) (2 ^ 1074) = (if 0 <=? e then Z.pos m * 2 ^ e else Z.pos m / 2 ^ (- e))%Z).
  { destruct (Z.leb_spec 0 e).
    - rewrite Z.pow_add_r by lia. rewrite Z.mul_assoc. apply Z.quot_mul. lia.
    - rewrite Z.quot_div_nonneg; [|apply Z.mul_nonneg_nonneg; [lia|apply Z.pow_nonneg; lia]|exact HP].
      replace (2 ^ 1074)%Z with (2 ^ (- e) * 2 ^ (e + 1074))%Z by (rewrite <- Z.pow_add_r by lia; f_equal; lia).
      apply Z.div_mul_cancel_r; [apply Z.pow_nonzero; lia|apply Z.pow_nonzero; lia]. }
  rewrite <- HQ. destruct s; [|reflexivity]. rewrite Z.quot_opp_l by lia. reflexivity.
Qed.

Lemma hashable_finite x : hashable x -> is_finite x = true.
Proof.
  intros (Hn & Hr). destruct x as [s|[]| |s m e Hb]; try reflexivity; [exfalso|exfalso|discriminate Hn]; cbn [fkey] in Hr.
  - assert (2 ^ 1074 < 2 ^ 2200)%Z by (apply Z.pow_lt_mono_r; lia). lia.
  - assert (2 ^ 1138 < 2 ^ 2200)%Z by (apply Z.pow_lt_mono_r; lia). lia.
Qed.
Lemma hashable_range x : hashable x -> (0 <= Z.quot (fkey x) (2 ^ 1074) < M64)%Z.
Proof.
  intros (_ & H1 & H2). assert (HP : (0 < 2 ^ 1074)%Z) by (apply Z.pow_pos_nonneg; lia).
  assert (HM : (2 ^ 1138 = 2 ^ 1074 * M64)%Z) by (change M64 with (2 ^ 64)%Z; rewrite <- Z.pow_add_r by lia; reflexivity).
  set (P := (2 ^ 1074)%Z) in *. rewrite HM in H2. clearbody P. unfold M64 in *. clear HM. generalize dependent (fkey x). intros z H1 H2.
  destruct (Z.ltb_spec z 0).
  - assert (E : Z.quot z P = 0%Z) by (apply Z.quot_small_iff; lia). lia.
  - split; [apply Z.quot_pos; lia|]. apply Z.quot_lt_upper_bound; lia.
Qed.
Lemma unhashable x n : ~ hashable x -> double_hash x n = UB.
Proof.
  intros H. apply (proj1 C13_double_hash_refuted). intros (v & E & Hv). apply H.
  assert (HF : is_finite x = true) by (destruct x; try discriminate E; reflexivity).
  rewrite (trunc_key x HF) in E. apply (f_equal (fun o => match o with Some q => q | None => 0%Z end)) in E. cbv beta iota in E. rewrite <- E in Hv. clear E. split; [destruct x; try discriminate HF; reflexivity|].
  assert (HP : (0 < 2 ^ 1074)%Z) by (apply Z.pow_pos_nonneg; lia).
  assert (HM : (2 ^ 1138 = 2 ^ 1074 * M64)%Z) by (change M64 with (2 ^ 64)%Z; rewrite <- Z.pow_add_r by lia; reflexivity).
  rewrite HM. set (P := (2 ^ 1074)%Z) in *. clearbody P. unfold M64 in *. clear - HP Hv. generalize dependent (fkey x). intros z Hv.
  pose proof (Z.quot_rem' z P). assert (HR : (Z.abs (Z.rem z P) < P)%Z) by (rewrite <- (Z.abs_eq P) at 2 by lia; apply Z.rem_bound_abs; lia).
  set (q := Z.quot z P) in *. set (r := Z.rem z P) in *. clearbody q r.
  assert (H1 : (0 <= P * q)%Z) by (apply Z.mul_nonneg_nonneg; lia).
  assert (H2 : (P * q <= P * 18446744073709551615)%Z) by (apply Z.mul_le_mono_nonneg_l; lia). lia.
Qed.

Lemma same_double a b : same double_compare a b = feq a b.
Proof.
  unfold same, double_compare. destruct (fgt a b) eqn:E; [|destruct (feq a b); reflexivity].
  destruct (feq a b) eqn:E2; [exfalso|reflexivity]. unfold fgt in E. apply feq_true in E2. destruct E2 as (Ha & Hb & Ek).
  change (flt b a = true) in E. rewrite flt_key in E by assumption. lia.
Qed.

Definition quot_hash (z : Z) (n : nat) : nat := Z.to_nat ((Z.quot z (2 ^ 1074)) mod Z.of_nat n).
Lemma double_keys : let f := fun a : {k : f64 | hashableb k = true} => fkey (proj1_sig a) in
  hash_in_range quot_hash /\
  (forall a b, double_compare (proj1_sig a) (proj1_sig b) = int_compare (f a) (f b)) /\
  (forall a (n : nat), n <> 0 -> double_hash (proj1_sig a) (Z.of_nat n) = Ok (Z.of_nat (quot_hash (f a) n))) /\
  (forall a : {k : f64 | hashableb k = true}, double_hash (proj1_sig a) 0%Z = UB).
Proof.
  cbn zeta. split; [|split; [|split]].
  - intros k b Hb. unfold quot_hash. pose proof (Z.mod_pos_bound (Z.quot k (2 ^ 1074)) (Z.of_nat b)) as H. clear -H Hb. set (r := (_ mod _)%Z) in *. clearbody r. lia.
  - intros [a Ha] [b Hb]. cbn [proj1_sig]. apply hashable_b in Ha, Hb. destruct Ha as [Ha _], Hb as [Hb _].
    unfold double_compare, int_compare, fgt. change (Bltb b a) with (flt b a). rewrite flt_key, feq_key by assumption. rewrite Z.gtb_ltb. reflexivity.
  - intros [a Ha] n Hn. cbn [proj1_sig]. apply hashable_b in Ha. unfold double_hash, size_of_double.
    rewrite (trunc_key a (hashable_finite a Ha)). pose proof (hashable_range a Ha) as HR. set (q := Z.quot _ _) in *.
    replace ((0 <=? q) && (q <? M64))%Z with true by (symmetry; rewrite andb_true_iff, Z.leb_le, Z.ltb_lt; exact HR). cbn [bind].
    unfold size_mod. destruct (Z.eqb_spec (Z.of_nat n) 0); [lia|]. f_equal. unfold quot_hash. fold q. rewrite Z2Nat.id; [reflexivity|].
    apply Z.mod_pos_bound. lia.
  - intros [a Ha]. cbn [proj1_sig]. unfold double_hash. destruct (size_of_double a) eqn:E; try reflexivity.
    + unfold size_of_double in E. destruct (ftrunc a); [destruct ((0 <=? z) && (z <? M64))%Z|]; discriminate E.
    + unfold size_of_double in E. destruct (ftrunc a); [destruct ((0 <=? z) && (z <? M64))%Z|]; discriminate E.
Qed.

Lemma keys_gkey {K} (good : K -> bool) (P : K -> Prop) ops : (forall k, P k -> good k = true) -> keys_are P ops -> Forall (gkey good) ops.
Proof.
  intros HP H. eapply Forall_impl; [|exact H]. intros [k v|k v|k v|] Ho; cbn in *; auto.
Qed.

Lemma double_run b kt dt n ops : float_type kt -> has_size dt n -> Forall (sized n) ops -> Forall no_removal ops -> keys_are hashable ops ->
  exists t, double_history b kt dt ops = Ok (t, snd (hspec_run feq [] ops)) /\ ht_buckets t <> 0.
Proof.
  intros Hk Hd Hs Hn Hg. destruct double_keys as (HR & HC & HH & HZ).
  assert (exists ks, has_size kt ks) as (ks & Hks).
  { unfold float_type, has_size, sizes in *. cbn in Hk. destruct Hk as [<-|[<-|[]]]; eexists; cbn; eauto 10. }
  destruct (good_history double_compare double_hash hashableb (fun a => fkey (proj1_sig a)) int_compare quot_hash order_int HR HC HH HZ
              b kt dt ks n ops Hks Hd Hs Hn) as (t & E & Hb).
  { apply (keys_gkey _ hashable); [|exact Hg]. intros k. apply hashable_b. }
  exists t. unfold double_history. rewrite E. rewrite (run_ext _ _ same_double). split; [reflexivity|exact Hb].
Qed.

(** A finite map from numbers: keys are the same when they are equal as numbers (so 0 and -0
    are). *)
Theorem C82_floating_point_tables : forall (buckets : Z) kt dt n (ops : list (hop f64)),
  float_type kt -> has_size dt n -> Forall (sized n) ops -> Forall no_removal ops -> keys_are hashable ops ->
  exists t, double_history buckets kt dt ops = Ok (t, snd (hspec_run feq [] ops)).
Proof.
  intros b kt dt n ops Hk Hd Hs Hn Hg. destruct (double_run b kt dt n ops Hk Hd Hs Hn Hg) as (t & E & _). exists t. exact E.
Qed.
Print Assumptions C82_floating_point_tables.

Lemma keyed_app {K} (cmp : K -> K -> Z) hash ops1 : forall t ops2 r, keyed_run cmp hash t ops1 = Ok r ->
  keyed_run cmp hash t (ops1 ++ ops2) = (let! r2 := keyed_run cmp hash (fst r) ops2 in Ok (fst r2, snd r ++ snd r2)).
Proof.
  induction ops1 as [|o l IH]; intros t ops2 r E; cbn [keyed_run app] in *.
  - injection E as <-. cbn [fst snd app]. destruct (keyed_run cmp hash t ops2) as [[]| | |]; reflexivity.
  - destruct (keyed_step cmp hash t o) as [q| | |]; cbn [bind] in *; try discriminate E.
    destruct (keyed_run cmp hash (fst q) l) as [q2| | |] eqn:E2; cbn [bind] in *; try discriminate E. injection E as <-.
    rewrite (IH _ ops2 _ E2). cbn [fst snd]. destruct (keyed_run cmp hash (fst q2) ops2); reflexivity.
Qed.

(** Any other key (at most -1, at least 2^64, infinite, NaN) makes the insertion or the lookup
    undefined, after every history. *)
Theorem C82_other_keys_refuted : forall (buckets : Z) kt dt n (ops rest : list (hop f64)) k v,
  float_type kt -> has_size dt n -> Forall (sized n) ops -> Forall no_removal ops -> keys_are hashable ops -> ~ hashable k ->
  double_history buckets kt dt (ops ++ HInsert k v :: rest) = UB /\ double_history buckets kt dt (ops ++ HLookup k v :: rest) = UB.
Proof.
  intros b kt dt n ops rest k v Hk Hd Hs Hn Hg Hu. destruct (double_run b kt dt n ops Hk Hd Hs Hn Hg) as (t & E & _).
  unfold double_history in *. destruct (keyed_init b kt dt) as [t0| | |]; cbn [bind] in *; try discriminate E.
  split; rewrite (keyed_app _ _ _ _ _ _ E); cbn [keyed_run keyed_step]; rewrite (unhashable k _ Hu); reflexivity.
Qed.
Print Assumptions C82_other_keys_refuted.

(** Non-vacuity: 2.5 and 2 are different keys in the same bucket, 0 and -0 are the same key, and
    -1 cannot be hashed. *)
Definition half_of (z : Z) : f64 := fdiv (f_of_Z z) (f_of_Z 2).
Example C82_example :
  let ops := [HInsert (half_of 5) [1]; HInsert (f_of_Z 2) [2]; HInsert fzero [3]; HInsert (Bopp fzero) [4]; HLookup (half_of 5) [0]; HSize]%Z in
  float_type H_DOUBLE /\ has_size H_CHAR 1 /\ Forall (sized (K := f64) 1) ops /\ Forall no_removal ops /\ keys_are hashable ops /\
  (let! r := double_history 20 H_DOUBLE H_CHAR ops in Ok (snd r)) = Ok [(1, [1]); (1, [2]); (1, [3]); (-1, [3]); (1, [1]); (3, [])]%Z /\
  ~ hashable (f_of_Z (-1)).
Proof.
  cbn zeta. split; [unfold float_type; cbn; tauto|]. split; [unfold has_size; cbn; tauto|]. split; [repeat constructor|]. split; [repeat constructor|].
  split.
  { unfold keys_are. repeat (apply Forall_cons; [cbn [key_of]; intros k Hk; try discriminate Hk; injection Hk as <-; apply hashable_b; vm_compute; reflexivity|]). apply Forall_nil. }
  split; [vm_compute; reflexivity|]. intros H. apply hashable_b in H. vm_compute in H. discriminate H.
Qed.

(** ** C83: string keys *)

(** Two addresses agree, byte by byte from the lowest, up to and including the first byte that
    is zero (looking at [n] bytes). *)
Fixpoint same_until_zero (n : nat) (a b : Z) : bool :=
  match n with
  | O => false
  | S m => ((a mod 256 =? b mod 256) && ((a mod 256 =? 0) || same_until_zero m (a / 256) (b / 256)))%Z
  end.
(** Addresses of a process: the highest byte is zero. *)
Definition address (a : Z) : Prop := (0 <= a < 2 ^ 56)%Z.

Fixpoint le_bytes (n : nat) (a : Z) : list Z := match n with O => [] | S m => (a mod 256)%Z :: le_bytes m (a / 256)%Z end.
Lemma pointer_le a : pointer_bytes a = le_bytes 8 a.
Proof.
  unfold pointer_bytes. cbn [seq map le_bytes].
  repeat rewrite Z.div_div by lia. rewrite Z.div_1_r. reflexivity.
Qed.

Fixpoint upto_zero (l : list Z) : list Z := match l with [] => [] | c :: r => if (c =? 0)%Z then [] else c :: upto_zero r end.
Definition block_ok (l : list Z) : bool := existsb (Z.eqb 0) l && forallb (fun c => (0 <=? c) && (c <? 256))%Z l.
Fixpoint lex (a b : list Z) : Z :=
  match a, b with
  | [], [] => 0%Z | [], _ => (-1)%Z | _, [] => 1%Z
  | x :: a', y :: b' => if (x <? y)%Z then (-1)%Z else if (y <? x)%Z then 1%Z else lex a' b'
  end.

Lemma lex_order : total_order lex.
Proof.
  assert (H0 : forall a b, lex a b = 0%Z <-> a = b).
  { induction a as [|x a IH]; intros [|y b]; cbn [lex]; split; intros H; try discriminate H; try reflexivity.
    - destruct (Z.ltb_spec x y); [discriminate H|]. destruct (Z.ltb_spec y x); [discriminate H|]. apply IH in H. subst. f_equal. lia.
    - injection H as -> ->. rewrite !Z.ltb_irrefl. apply IH. reflexivity. }
  split; [exact H0|]. split.
  - induction a as [|x a IH]; intros [|y b]; cbn [lex]; try (split; lia).
    destruct (Z.ltb_spec x y), (Z.ltb_spec y x); try (split; lia).
  - induction a as [|x a IH]; intros [|y b] [|z c]; cbn [lex]; try lia.
    destruct (Z.ltb_spec x y), (Z.ltb_spec y x), (Z.ltb_spec y z), (Z.ltb_spec z y), (Z.ltb_spec x z), (Z.ltb_spec z x); try lia. apply IH.
Qed.

Lemma strcmp_lex a : forall b, block_ok a = true -> block_ok b = true -> strcmp a b = Ok (lex (upto_zero a) (upto_zero b)).
Proof.
  unfold block_ok. induction a as [|x a IH]; intros [|y b] Ha Hb; cbn in Ha, Hb; try discriminate.
  rewrite !andb_true_iff, !orb_true_iff in Ha, Hb. destruct Ha as (Ha & Hx & Hpa), Hb as (Hb & Hy & Hpb). cbn [strcmp upto_zero].
  destruct (Z.eqb_spec x 0) as [->|Nx], (Z.eqb_spec y 0) as [->|Ny]; cbn [lex].
  - reflexivity.
  - destruct (Z.ltb_spec 0 y); [reflexivity|lia].
  - destruct (Z.ltb_spec x 0); [lia|]. destruct (Z.ltb_spec 0 x); [reflexivity|lia].
  - destruct (Z.ltb_spec x y); [reflexivity|]. destruct (Z.ltb_spec y x); [reflexivity|].
    apply IH; apply andb_true_iff; (split; [|assumption]).
    + destruct Ha as [Ha|Ha]; [|exact Ha]. destruct x; try discriminate Ha. lia.
    + destruct Hb as [Hb|Hb]; [|exact Hb]. destruct y; try discriminate Hb. lia.
Qed.

Lemma upto_split l : existsb (Z.eqb 0) l = true -> exists r, l = upto_zero l ++ 0%Z :: r.
Proof.
  induction l as [|c l IH]; cbn [existsb upto_zero]; [discriminate|]. intros H. destruct (Z.eqb_spec c 0) as [->|N]; [exists l; reflexivity|].
  destruct IH as (r & E); [destruct (Z.eqb_spec 0 c); [lia|exact H]|]. exists r. cbn [app]. f_equal. exact E.
Qed.
Definition text_hash (s : list Z) (n : nat) : nat := match block_hash (s ++ [0%Z]) (Z.of_nat n) with Ok h => Z.to_nat h | _ => 0 end.

Lemma upto_nonzero l : Forall (fun c => c <> 0%Z) (upto_zero l).
Proof. induction l as [|c l IH]; cbn [upto_zero]; [constructor|]. destruct (Z.eqb_spec c 0); constructor; assumption. Qed.
Lemma block_hash_text l (n : nat) : block_ok l = true -> n <> 0 -> block_hash l (Z.of_nat n) = Ok (Z.of_nat (text_hash (upto_zero l) n)).
Proof.
  intros Hl Hn. unfold block_ok in Hl. apply andb_true_iff in Hl. destruct Hl as [Hz Hp]. destruct (upto_split l Hz) as (r & E).
  unfold text_hash, block_hash. rewrite E at 1. rewrite !map_app. cbn [map]. change (signed_char 0) with 0%Z.
  rewrite (proj2 (proj2 C13_equal_keys_hash_equally) _ (map signed_char r) []).
  assert (HN : Forall (fun c => c <> 0%Z) (map signed_char (upto_zero l))).
  { rewrite Forall_map. assert (Forall (fun c => 0 <= c < 256)%Z (upto_zero l)).
    { rewrite forallb_forall in Hp. apply Forall_forall. intros x Hx. assert (In x l) by (rewrite E; apply in_or_app; left; exact Hx). specialize (Hp x H). lia. }
    pose proof (upto_nonzero l) as H2. rewrite Forall_forall in *. intros x Hx. specialize (H x Hx). specialize (H2 x Hx). cbn in H, H2.
    unfold signed_char. destruct (x <? 128)%Z; lia. }
  destruct (proj2 (proj2 (C13_hash_in_range (Z.of_nat n) ltac:(lia))) _ [] HN) as (h & -> & Hh). f_equal. lia.
Qed.
Lemma text_range : hash_in_range text_hash.
Proof.
  intros s n Hn. unfold text_hash, block_hash, str_hash. destruct (str_val (map signed_char (s ++ [0%Z])) 0) as [v| | |]; cbn [bind]; try lia.
  unfold size_mod. destruct (Z.eqb_spec (Z.of_nat n) 0); [lia|]. pose proof (Z.mod_pos_bound v (Z.of_nat n)). lia.
Qed.
Lemma block_hash_zero l : block_ok l = true -> block_hash l 0 = UB.
Proof.
  intros Hl. assert (H : block_hash l (Z.of_nat 1) = Ok (Z.of_nat (text_hash (upto_zero l) 1))) by (apply block_hash_text; [exact Hl|lia]).
  unfold block_hash, str_hash in *. destruct (str_val (map signed_char l) 0); cbn [bind] in *; [reflexivity|discriminate H|discriminate H|discriminate H].
Qed.

Lemma le_block n : forall a, (0 <= a < 256 ^ Z.of_nat n)%Z -> block_ok (le_bytes (S n) a) = true.
Proof.
  unfold block_ok. induction n as [|n IH]; intros a Ha.
  - assert (a = 0)%Z by (cbn in Ha; lia). subst a. reflexivity.
  - remember (S n) as sn. cbn [le_bytes existsb forallb]. subst sn.
    assert (Hq : (0 <= a / 256 < 256 ^ Z.of_nat n)%Z).
    { split; [apply Z.div_pos; lia|]. apply Z.div_lt_upper_bound; [lia|]. rewrite Nat2Z.inj_succ, Z.pow_succ_r in Ha by lia. lia. }
    specialize (IH _ Hq). apply andb_true_iff in IH. destruct IH as [I1 I2]. rewrite I1, I2.
    pose proof (Z.mod_pos_bound a 256 ltac:(lia)). rewrite orb_true_r. lia.
Qed.
Lemma address_block a : address a -> block_ok (pointer_bytes a) = true.
Proof. intros H. rewrite pointer_le. apply le_block. exact H. Qed.

Lemma same_le n : forall a b, (0 <= a < 256 ^ Z.of_nat n)%Z -> (0 <= b < 256 ^ Z.of_nat n)%Z ->
  (lex (upto_zero (le_bytes (S n) a)) (upto_zero (le_bytes (S n) b)) =? 0)%Z = same_until_zero (S n) a b.
Proof.
  induction n as [|n IH]; intros a b Ha Hb.
  - assert (a = 0 /\ b = 0)%Z as [-> ->] by (cbn in Ha, Hb; lia). reflexivity.
  - remember (S n) as sn. cbn [le_bytes upto_zero same_until_zero].
    destruct (Z.eqb_spec (a mod 256) 0) as [Ea|Ea], (Z.eqb_spec (b mod 256) 0) as [Eb|Eb]; cbn [lex].
    + rewrite Ea, Eb. reflexivity.
    + destruct (Z.eqb_spec (a mod 256) (b mod 256)); [lia|reflexivity].
    + destruct (Z.eqb_spec (a mod 256) (b mod 256)); [lia|reflexivity].
    + destruct (Z.eqb_spec (a mod 256) (b mod 256)) as [E|E]; cbn [andb orb].
      * rewrite E, !Z.ltb_irrefl. subst sn. apply IH; (split; [apply Z.div_pos; lia|]); (apply Z.div_lt_upper_bound; [lia|]); rewrite Nat2Z.inj_succ, Z.pow_succ_r in Ha, Hb by lia; lia.
      * destruct (Z.ltb_spec (a mod 256) (b mod 256)); [reflexivity|]. destruct (Z.ltb_spec (b mod 256) (a mod 256)); [reflexivity|lia].
Qed.
Lemma same_address a b : address a -> address b -> same strcmp_sign (pointer_bytes a) (pointer_bytes b) = same_until_zero 8 a b.
Proof.
  intros Ha Hb. unfold same, strcmp_sign. rewrite (strcmp_lex _ _ (address_block a Ha) (address_block b Hb)). rewrite !pointer_le.
  apply same_le; assumption.
Qed.

(** The table is a map from addresses, read up to their first zero byte. *)
Theorem C83_string_tables : forall (buckets : Z) dt n (ops : list (hop Z)),
  has_size dt n -> Forall (sized n) ops -> Forall no_removal ops -> keys_are address ops ->
  exists t, string_history buckets dt ops = Ok (t, snd (hspec_run (same_until_zero 8) [] ops)).
Proof.
  intros b dt n ops Hd Hs Hn Hg.
  destruct (good_history strcmp_sign block_hash block_ok (fun a => upto_zero (proj1_sig a)) lex text_hash lex_order text_range) with
    (b := b) (kt := H_STRING) (dt := dt) (ks := 8) (n := n) (ops := map pointer_op ops) as (t & E & _); try assumption.
  - intros [x Hx] [y Hy]. cbn [proj1_sig]. unfold strcmp_sign. now rewrite strcmp_lex.
  - intros [x Hx] c Hc. cbn [proj1_sig]. now apply block_hash_text.
  - intros [x Hx]. cbn [proj1_sig]. now apply block_hash_zero.
  - unfold has_size. cbn. tauto.
  - rewrite Forall_map. eapply Forall_impl; [|exact Hs]. intros [] H; exact H.
  - rewrite Forall_map. eapply Forall_impl; [|exact Hn]. intros [] H; exact H.
  - rewrite Forall_map. eapply Forall_impl; [|exact Hg]. intros [k v|k v|k v|] H; cbn [pointer_op gkey]; [apply address_block, H; reflexivity ..|exact I].
  - exists t. unfold string_history. rewrite E. f_equal. f_equal.
    (* addresses as a subset of the integers *)
    pose (inr := fun a => ((0 <=? a) && (a <? 2 ^ 56))%Z).
    assert (HI : forall a, inr a = true <-> address a) by (intros a; unfold inr, address; lia).
    destruct (lift_ops inr ops) as (sops & <-).
    { eapply Forall_impl; [|exact Hg]. intros [k v|k v|k v|] H; cbn in *; auto; apply HI; apply H; reflexivity. }
    pose (se := fun x y : {a : Z | inr a = true} => same_until_zero 8 (proj1_sig x) (proj1_sig y)).
    pose proof (spec_rename (@proj1_sig Z (fun a => inr a = true)) se (same_until_zero 8) ltac:(reflexivity) sops []) as H1.
    pose proof (spec_rename (fun x : {a : Z | inr a = true} => pointer_bytes (proj1_sig x)) se (same strcmp_sign)) as H2.
    cbn [map] in H1. rewrite H1. cbn [snd]. specialize (H2 ltac:(intros [x Hx] [y Hy]; unfold se; cbn [proj1_sig]; symmetry; apply same_address; apply HI; assumption) sops []).
    cbn [map] in H2.
    assert (EM : map pointer_op (map (fop (@proj1_sig Z (fun a => inr a = true))) sops) = map (fop (fun x => pointer_bytes (proj1_sig x))) sops).
    { rewrite map_map. apply map_ext. intros []; reflexivity. }
    rewrite EM, H2. reflexivity.
Qed.
Print Assumptions C83_string_tables.

(** When none of the six low bytes of the addresses is zero, the keys are the addresses. *)
Definition full_address (a : Z) : Prop := (0 <= a < 2 ^ 48)%Z /\ forall i, i < 6 -> ((a / 256 ^ Z.of_nat i) mod 256 <> 0)%Z.

Lemma same_bytes m n : forall a b, (0 <= a < 256 ^ Z.of_nat n)%Z -> (0 <= b < 256 ^ Z.of_nat n)%Z ->
  (forall i, i < n -> ((a / 256 ^ Z.of_nat i) mod 256 <> 0)%Z) -> same_until_zero (n + S m) a b = (a =? b)%Z.
Proof.
  induction n as [|n IH]; intros a b Ha Hb Hz.
  - assert (a = 0 /\ b = 0)%Z as [-> ->] by (cbn in Ha, Hb; lia). reflexivity.
  - cbn [plus same_until_zero]. pose proof (Hz 0 ltac:(lia)) as H0. change (256 ^ Z.of_nat 0)%Z with 1%Z in H0. rewrite Z.div_1_r in H0.
    rewrite Nat2Z.inj_succ, Z.pow_succ_r in Ha, Hb by lia.
    rewrite (IH (a / 256)%Z (b / 256)%Z).
    + pose proof (Z.div_mod a 256 ltac:(lia)). pose proof (Z.div_mod b 256 ltac:(lia)). destruct (Z.eqb_spec (a mod 256) 0); [lia|].
      destruct (Z.eqb_spec (a mod 256) (b mod 256)), (Z.eqb_spec (a / 256) (b / 256)), (Z.eqb_spec a b); cbn [andb orb]; try reflexivity; try lia; subst; congruence.
    + split; [apply Z.div_pos; lia|apply Z.div_lt_upper_bound; lia].
    + split; [apply Z.div_pos; lia|apply Z.div_lt_upper_bound; lia].
    + intros i Hi. specialize (Hz (S i) ltac:(lia)). rewrite Nat2Z.inj_succ, Z.pow_succ_r in Hz by lia. rewrite Z.div_div by lia. exact Hz.
Qed.

Theorem C83_keys_are_addresses : forall (buckets : Z) dt n (ops : list (hop Z)),
  has_size dt n -> Forall (sized n) ops -> Forall no_removal ops -> keys_are full_address ops ->
  exists t, string_history buckets dt ops = Ok (t, snd (hspec_run Z.eqb [] ops)).
Proof.
  intros b dt n ops Hd Hs Hn Hg.
  assert (HA : keys_are address ops).
  { eapply Forall_impl; [|exact Hg]. intros o H k Hk. destruct (H k Hk) as (Hr & _). unfold address. change (2 ^ 48)%Z with 281474976710656%Z in Hr. change (2 ^ 56)%Z with 72057594037927936%Z. lia. }
  destruct (C83_string_tables b dt n ops Hd Hs Hn HA) as (t & E). exists t. rewrite E. f_equal. f_equal.
  pose (inr := fun a => ((0 <=? a) && (a <? 2 ^ 48) && forallb (fun i => negb ((a / 256 ^ Z.of_nat i) mod 256 =? 0)) (seq 0 6))%Z).
  assert (HI : forall a, inr a = true <-> full_address a).
  { intros a. unfold inr, full_address. rewrite !andb_true_iff, forallb_forall, Z.leb_le, Z.ltb_lt.
    split; intros [H1 H2]; (split; [exact H1|]); intros i Hi.
    - specialize (H2 i). rewrite in_seq, negb_true_iff, Z.eqb_neq in H2. apply H2. lia.
    - rewrite negb_true_iff, Z.eqb_neq. apply H2. apply in_seq in Hi. lia. }
  destruct (lift_ops inr ops) as (sops & <-).
  { eapply Forall_impl; [|exact Hg]. intros [k v|k v|k v|] H; cbn [gkey]; [apply HI; apply H; reflexivity ..|exact I]. }
  pose (se := fun x y : {a : Z | inr a = true} => Z.eqb (proj1_sig x) (proj1_sig y)).
  pose proof (spec_rename (@proj1_sig Z (fun a => inr a = true)) se Z.eqb ltac:(reflexivity) sops []) as H1.
  pose proof (spec_rename (@proj1_sig Z (fun a => inr a = true)) se (same_until_zero 8)) as H2.
  specialize (H2 ltac:(intros [x Hx] [y Hy]; unfold se; cbn [proj1_sig]; apply HI in Hx, Hy; destruct Hx as (Rx & Zx), Hy as (Ry & _); symmetry; exact (same_bytes 1 6 x y Rx Ry Zx)) sops []).
  cbn [map] in H1, H2. rewrite H1, H2. reflexivity.
Qed.
Print Assumptions C83_keys_are_addresses.

Lemma spec_two (e : Z -> Z -> bool) a b v w buf : e a b = true -> e a a = true -> e b a = true ->
  snd (hspec_run e [] [HInsert a v; HInsert b w; HLookup a buf]) = [(1, v); (-1, v); (1, w)]%Z.
Proof. intros H1 H2 H3. cbn. unfold assoc. cbn. rewrite H1. cbn. rewrite ?H1; cbn; rewrite ?H3. reflexivity. Qed.

(** Two strings whose addresses both end in a zero byte are one key, whatever the strings are:
    the second insertion replaces the value of the first. *)
Theorem C83_aliases_refuted : forall (buckets : Z) dt n a b v w buf,
  has_size dt n -> length v = n -> length w = n -> length buf = n -> address a -> address b -> (a mod 256 = 0)%Z -> (b mod 256 = 0)%Z ->
  exists t, string_history buckets dt [HInsert a v; HInsert b w; HLookup a buf] = Ok (t, [(1, v); (-1, v); (1, w)]%Z).
Proof.
  intros bk dt n a b v w buf Hd Hv Hw Hf Ha Hb Ea Eb.
  destruct (C83_string_tables bk dt n [HInsert a v; HInsert b w; HLookup a buf] Hd) as (t & E).
  - repeat constructor; assumption.
  - repeat constructor.
  - unfold keys_are. repeat (apply Forall_cons; [cbn [key_of]; intros k Hk; injection Hk as <-; assumption|]). apply Forall_nil.
  - exists t. rewrite E. rewrite spec_two; [reflexivity| | |]; cbn [same_until_zero]; rewrite ?Ea, ?Eb; reflexivity.
Qed.
Print Assumptions C83_aliases_refuted.

(** The same text at another address is another key: what was stored under it is not found. *)
Theorem C83_equal_strings_refuted : forall (buckets : Z) dt n (text : Z -> list Z) a b v buf,
  has_size dt n -> length v = n -> length buf = n -> full_address a -> full_address b -> a <> b -> text a = text b ->
  exists t, string_history buckets dt [HInsert a v; HLookup b buf] = Ok (t, [(1, v); (0, buf)]%Z).
Proof.
  intros bk dt n text a b v buf Hd Hv Hf Ha Hb Hn _.
  destruct (C83_keys_are_addresses bk dt n [HInsert a v; HLookup b buf] Hd) as (t & E).
  - repeat constructor; assumption.
  - repeat constructor.
  - unfold keys_are. repeat (apply Forall_cons; [cbn [key_of]; intros k Hk; injection Hk as <-; assumption|]). apply Forall_nil.
  - exists t. rewrite E. cbn. unfold assoc. cbn. destruct (Z.eqb_spec a b); [contradiction|reflexivity].
Qed.
Print Assumptions C83_equal_strings_refuted.

(** Non-vacuity: the two insertions of the repository's test (as if the strings were at these
    addresses), and two page aligned strings. *)
Local Open Scope Z_scope.
Example C83_example :
  full_address 93825004306708 /\ full_address 93825004306715 /\ address 93824992231424 /\ address 93824992235520 /\
  (let! r := string_history 45 H_INT [HInsert 93825004306708 [34; 0; 0; 0]; HInsert 93825004306715 [7; 0; 0; 0]; HLookup 93825004306708 [0; 0; 0; 0]; HSize] in Ok (snd r)) =
    Ok [(1, [34; 0; 0; 0]); (1, [7; 0; 0; 0]); (1, [34; 0; 0; 0]); (2, [])] /\
  (let! r := string_history 45 H_INT [HInsert 93824992231424 [34; 0; 0; 0]; HInsert 93824992235520 [7; 0; 0; 0]; HLookup 93824992231424 [0; 0; 0; 0]; HSize] in Ok (snd r)) =
    Ok [(1, [34; 0; 0; 0]); (-1, [34; 0; 0; 0]); (1, [7; 0; 0; 0]); (1, [])].
Proof.
  assert (HF : forall a, (0 <= a < 2 ^ 48)%Z -> forallb (fun i => negb ((a / 256 ^ Z.of_nat i) mod 256 =? 0)%Z) (seq 0 6)%nat = true -> full_address a).
  { intros a Ha H. split; [exact Ha|]. intros i Hi. rewrite forallb_forall in H. specialize (H i). rewrite in_seq, negb_true_iff, Z.eqb_neq in H. apply H. lia. }
  split; [apply HF; [split; [discriminate|reflexivity]|vm_compute; reflexivity]|].
  split; [apply HF; [split; [discriminate|reflexivity]|vm_compute; reflexivity]|].
  split; [split; [discriminate|reflexivity]|]. split; [split; [discriminate|reflexivity]|].
  split; vm_compute; reflexivity.
Qed.
