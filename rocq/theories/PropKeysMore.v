(** C99: tables with floating point keys and with string keys under every history with removals.
    Specification: SpecRuns.v (what each bucket holds), SpecMap.v (the map a user expects). *)
From Verif Require Import Base ListFacts F64 F64Facts ModelArrayList ModelCells ModelUtils ModelPrimes ModelHash ModelTable ModelKeys SpecSeq SpecMap SpecRuns ProofHash ProofKeys PropCollections PropMap PropUtils PropPrimes PropTable PropKeys PropRuns.
From Coq Require Import ZifyBool ZifyNat.
Local Open Scope nat_scope.

(** Renaming keys in the specification. *)
Section ShelfRename.
Context {A B : Type}.
Variables (g : A -> B) (e : A -> A -> bool) (e' : B -> B -> bool) (home : A -> nat) (home' : B -> nat).
Hypothesis HE : forall a b, e a b = e' (g a) (g b).
Hypothesis HM : forall a, home a = home' (g a).
Notation ren := (map (map (fkv g))).
Definition renamed (s : shelf A) (s' : shelf B) : Prop := (forall i, runs s' i = ren (runs s i)) /\ names s' = map g (names s).

Lemma concat_ren (rs : list (run (K := A))) : concat (ren rs) = map (fkv g) (concat rs).
Proof. symmetry. apply concat_map. Qed.
Lemma stored_ren s s' k : renamed s s' -> stored e' home' s' (g k) = stored e home s k.
Proof.
  intros [H _]. unfold stored. rewrite H, <- HM, concat_ren. induction (concat (runs s (home k))) as [|[x v] l IH]; cbn [map find fkv fst]; [reflexivity|].
  rewrite <- HE. destruct (e x k); [reflexivity|exact IH].
Qed.
Lemma put_ren s s' k rs ks : renamed s s' -> renamed (put home s k rs ks) (put home' s' (g k) (ren rs) (map g ks)).
Proof. intros [H _]. split; [|reflexivity]. intros i. unfold put. cbn [runs]. rewrite <- HM. destruct (i =? home k); [reflexivity|apply H]. Qed.
Lemma add_ren k v (rs : list (run (K := A))) : add_front (g k, v) (ren rs) = ren (add_front (k, v) rs).
Proof. destruct rs; reflexivity. Qed.
Lemma over_ren k v (rs : list (run (K := A))) : overwrite e' (g k) v (ren rs) = ren (overwrite e k v rs).
Proof.
  unfold overwrite. rewrite !map_map. apply map_ext. intros r. rewrite !map_map. apply map_ext. intros [x w]. cbn [fkv fst snd]. rewrite <- HE. destruct (e x k); reflexivity.
Qed.
Lemma cut_ren k (r : run (K := A)) : cut e' (g k) (map (fkv g) r) = option_map (fun p => (map (fkv g) (fst p), map (fkv g) (snd p))) (cut e k r).
Proof.
  induction r as [|[x v] r IH]; cbn [map cut fkv fst]; [reflexivity|]. rewrite <- HE. destruct (e x k); [reflexivity|]. change (@fst A bytes) with (@fst A bytes). rewrite IH. destruct (cut e k r) as [[p q]|]; reflexivity.
Qed.
Lemma as_run_ren (r : run (K := A)) : as_run (map (fkv g) r) = ren (as_run r). Proof. destruct r; reflexivity. Qed.
Lemma take_ren k rest : forall front : list (run (K := A)), take_out e' (g k) (ren front) (ren rest) = ren (take_out e k front rest).
Proof.
  induction rest as [|r rest IH]; intros front; [reflexivity|]. cbn [map take_out]. rewrite cut_ren. destruct (cut e k r) as [[[|x a] b]|]; cbn [option_map fst snd map].
  - rewrite as_run_ren, map_app. reflexivity.
  - rewrite as_run_ren. rewrite !map_app. cbn [map]. rewrite map_app. reflexivity.
  - specialize (IH (front ++ [r])). rewrite map_app in IH. exact IH.
Qed.
Lemma add_name_ren k ks : add_name e' (g k) (map g ks) = map g (add_name e k ks).
Proof.
  unfold add_name. replace (existsb (fun x => e' x (g k)) (map g ks)) with (existsb (fun x => e x k) ks); [destruct (existsb _ ks); reflexivity|].
  induction ks as [|x ks IH]; cbn [map existsb]; [reflexivity|]. rewrite <- HE, IH. reflexivity.
Qed.
Lemma drop_name_ren k ks : drop_name e' (g k) (map g ks) = map g (drop_name e k ks).
Proof. unfold drop_name. induction ks as [|x ks IH]; cbn [map filter]; [reflexivity|]. rewrite <- HE. destruct (negb (e x k)); cbn [map]; rewrite IH; reflexivity. Qed.
Lemma shelf_step_ren w s s' o : renamed s s' -> renamed (fst (shelf_step e home w s o)) (fst (shelf_step e' home' w s' (fop g o))) /\
  snd (shelf_step e' home' w s' (fop g o)) = snd (shelf_step e home w s o).
Proof.
  intros H. pose proof H as [Hr Hn]. destruct o as [k v|k b|k b|]; cbn [fop shelf_step].
  - rewrite (stored_ren s s' k H). destruct (stored e home s k) as [old|]; cbn [fst snd]; (split; [|reflexivity]); rewrite <- HM, Hr, Hn.
    + rewrite over_ren. apply put_ren. exact H.
    + rewrite add_ren, add_name_ren. apply put_ren. exact H.
  - cbn [fst snd]. split; [exact H|]. rewrite (stored_ren s s' k H). reflexivity.
  - rewrite (stored_ren s s' k H). destruct (stored e home s k) as [v|]; cbn [fst snd]; [|split; [exact H|reflexivity]].
    split; [|reflexivity]. rewrite <- HM, Hr, Hn, drop_name_ren. change (@nil (run (K := B))) with (ren []). rewrite take_ren. apply put_ren. exact H.
  - cbn [fst snd]. split; [exact H|]. rewrite Hn, map_length. reflexivity.
Qed.
Lemma shelf_run_ren w ops : forall s s', renamed s s' -> snd (shelf_run e' home' w s' (map (fop g) ops)) = snd (shelf_run e home w s ops).
Proof.
  induction ops as [|o ops IH]; intros s s' H; cbn [map shelf_run]; [reflexivity|]. destruct (shelf_step_ren w s s' o H) as [H1 H2]. cbn [snd]. rewrite H2, (IH _ _ H1). reflexivity.
Qed.
Lemma empty_ren : renamed (empty_shelf : shelf A) (empty_shelf : shelf B). Proof. split; reflexivity. Qed.
Lemma no_worse_ren ops : forall got ex, all_no_worse (map (fop g) ops) got ex <-> all_no_worse ops got ex.
Proof.
  induction ops as [|o ops IH]; intros [|a got] [|b ex]; cbn [map all_no_worse]; try tauto. rewrite IH. destruct o; cbn [fop no_worse_than]; tauto.
Qed.
End ShelfRename.

Lemma shelf_ext {K} (e e' : K -> K -> bool) home home' : (forall a b, e a b = e' a b) -> (forall a, home a = home' a) ->
  forall w ops, snd (shelf_run e home w empty_shelf ops) = snd (shelf_run e' home' w empty_shelf ops).
Proof.
  intros HE HM w ops. rewrite <- (shelf_run_ren (fun k : K => k) e e' home home' HE HM w ops empty_shelf empty_shelf (empty_ren _)). f_equal. f_equal.
  rewrite <- (map_id ops) at 2. apply map_ext. intros []; reflexivity.
Qed.

Section GoodRuns.
Context {K K' : Type}.
Variables (cmp : K -> K -> Z) (hash : K -> Z -> res Z) (good : K -> bool).
Variables (f : {k : K | good k = true} -> K') (cmp' : K' -> K' -> Z) (hash' : K' -> nat -> nat).
Hypothesis TO : total_order cmp'.
Hypothesis HR : hash_in_range hash'.
Hypothesis HC : forall a b, cmp (proj1_sig a) (proj1_sig b) = cmp' (f a) (f b).
Hypothesis HH : forall a (n : nat), n <> 0 -> hash (proj1_sig a) (Z.of_nat n) = Ok (Z.of_nat (hash' (f a) n)).
Hypothesis HZ : forall a : {k : K | good k = true}, hash (proj1_sig a) 0%Z = UB.
Notation th := (PropKeys.th hash).

Lemma good_runs b kt dt ks n ops :
  has_size kt ks -> has_size dt n -> ks <= n -> Forall (sized n) ops -> Forall (gkey good) ops ->
  exists m t outs, hashtable_init_buckets b = Ok m /\ (let! t := keyed_init b kt dt in keyed_run cmp hash t ops) = Ok (t, outs) /\
    outs = snd (shelf_run (same cmp) (fun k => th k (Z.to_nat m)) ks empty_shelf ops) /\
    (ks = n -> all_no_worse ops outs (snd (hspec_run (same cmp) [] ops))).
Proof.
  intros Hk Hd Hle Hs Hg. unfold keyed_init. destruct (C11_at_least_one_bucket b) as (nb0 & E & Hnb). rewrite E. cbn [bind].
  rewrite (size_is kt ks Hk), (size_is dt n Hd). set (m := Z.to_nat nb0). exists nb0.
  destruct (lift_ops good ops Hg) as (sops & <-).
  assert (EI : exists t0, hashtable_init_size (K := {k : K | good k = true}) m ks n = Ok t0 /\ ht_buckets t0 <> 0).
  { unfold hashtable_init_size. cbn. eexists. split; [reflexivity|]. unfold ht_buckets. cbn [ht_table]. rewrite repeat_length. destruct (Nat.leb_spec m 0); lia. }
  destruct EI as (t0 & E0 & Hb0).
  rewrite (init_f (@proj1_sig K (fun k => good k = true)) m ks n), E0. cbn [rmap bind].
  rewrite (checked_run cmp hash good f hash' HH); [|exact Hb0|exact Hg].
  set (scmp := fun a c : {k : K | good k = true} => cmp (proj1_sig a) (proj1_sig c)).
  set (sh := fun (a : {k : K | good k = true}) b => th (proj1_sig a) b).
  rewrite (run_f (@proj1_sig K (fun k => good k = true)) scmp cmp (fun _ _ => eq_refl) sh th (fun _ _ => eq_refl)).
  pose (h2 := fun k' (b : nat) => if b =? 0 then 0 else hash' k' b).
  assert (EH : forall a c, sh a c = h2 (f a) c).
  { intros a c. unfold sh, PropKeys.th, h2. destruct (Nat.eqb_spec c 0) as [->|Hc]; [cbn; now rewrite HZ|]. rewrite (HH a c Hc). apply Nat2Z.id. }
  assert (HR2 : hash_in_range h2).
  { intros k' c Hc. unfold h2. destruct (Nat.eqb_spec c 0); [lia|]. now apply HR. }
  pose proof (run_f f scmp cmp' HC sh h2 EH sops t0) as ER.
  assert (EI : hashtable_init_size m ks n = Ok (ftab f t0)) by (rewrite (init_f f), E0; reflexivity).
  assert (Hs' : Forall (sized n) (map (fop f) sops)).
  { rewrite Forall_map in Hs |- *. eapply Forall_impl; [|exact Hs]. intros [] H; exact H. }
  assert (Enb : nb m = m) by (unfold nb; destruct (Nat.leb_spec m 0); [lia|reflexivity]).
  destruct (C92_every_history K' cmp' h2 m ks n (map (fop f) sops) TO HR2 Hle Hs') as (t' & keys & EC & _). rewrite Enb in EC.
  unfold history in EC. rewrite EI in EC. cbn [bind] in EC. pose proof EC as EC0. rewrite EC in ER.
  destruct (hrun scmp sh t0 sops) as [[t1 an]| | |] eqn:E1; cbn [rmap] in ER; try discriminate ER.
  injection ER as Et Ea. cbn [ftab1 rmap fst snd].
  exists (ftab (@proj1_sig _ _) t1), an. split; [reflexivity|]. split; [reflexivity|].
  pose (se := fun a c : {k : K | good k = true} => same cmp (proj1_sig a) (proj1_sig c)).
  assert (ES : forall a c, se a c = same cmp' (f a) (f c)) by (intros a c; unfold se, same; rewrite HC; reflexivity).
  split.
  - rewrite <- Ea. rewrite (shelf_run_ren f se (same cmp') (fun a => sh a m) (fun k => h2 k m) ES (fun a => EH a m) ks sops _ _ (empty_ren f)).
    symmetry. apply (shelf_run_ren (@proj1_sig K (fun k => good k = true)) se (same cmp) (fun a => sh a m) (fun k => th k m) (fun _ _ => eq_refl) (fun _ => eq_refl) ks sops _ _ (empty_ren _)).
  - intros Ekn. subst ks. destruct (C92_never_wrong K' cmp' h2 m n (map (fop f) sops) TO HR2 Hs') as (t2 & outs2 & E2 & Hw).
    unfold history in E2. rewrite EI in E2. cbn [bind] in E2. rewrite EC0 in E2. injection E2 as _ <-. rewrite Ea in Hw.
    apply no_worse_ren in Hw. apply no_worse_ren. 
    pose proof (spec_rename f se (same cmp') ES sops []) as H1.
    pose proof (spec_rename (@proj1_sig K (fun k => good k = true)) se (same cmp) ltac:(reflexivity) sops []) as H2.
    cbn [map] in H1, H2. rewrite H1 in Hw. rewrite H2. exact Hw.
Qed.
End GoodRuns.

(** The bucket of a key. *)
Definition bucket_of {K} (hash : K -> Z -> res Z) (m : Z) (k : K) : nat := match hash k m with Ok h => Z.to_nat h | _ => 0 end.

Lemma double_runs b kt dt ks n ops : float_type kt -> has_size kt ks -> has_size dt n -> ks <= n -> Forall (sized n) ops -> keys_are hashable ops ->
  exists m t outs, hashtable_init_buckets b = Ok m /\ double_history b kt dt ops = Ok (t, outs) /\
    outs = snd (shelf_run feq (bucket_of double_hash m) ks empty_shelf ops) /\
    (ks = n -> all_no_worse ops outs (snd (hspec_run feq [] ops))).
Proof.
  intros Hk Hks Hd Hle Hs Hg. destruct double_keys as (HR & HC & HH & HZ).
  destruct (good_runs double_compare double_hash hashableb (fun a => fkey (proj1_sig a)) int_compare quot_hash order_int HR HC HH HZ
              b kt dt ks n ops Hks Hd Hle Hs) as (m & t & outs & Em & E & Ho & Hw).
  { apply (keys_gkey _ hashable); [|exact Hg]. intros k. apply hashable_b. }
  exists m, t, outs. split; [exact Em|]. split; [exact E|]. split.
  - rewrite Ho. apply shelf_ext; [exact same_double|]. intros k. unfold PropKeys.th, bucket_of. rewrite Z2Nat.id; [reflexivity|].
    destruct (C11_at_least_one_bucket b) as (m' & Em' & Hm). rewrite Em in Em'. injection Em' as <-. lia.
  - intros Ek. specialize (Hw Ek). rewrite (run_ext _ _ same_double) in Hw. exact Hw.
Qed.

(** C99, floating point keys (values at least as wide as the keys, keys greater than -1 and less
    than 2^64): every history with removals is defined and answers as the runs of its buckets;
    numbers are the same key when they are equal, and a number's bucket is its integer part
    modulo the number of buckets. *)
Theorem C99_floating_point_every_history : forall (buckets : Z) kt dt ks n (ops : list (hop f64)),
  float_type kt -> has_size kt ks -> has_size dt n -> ks <= n -> Forall (sized n) ops -> keys_are hashable ops ->
  exists m t, hashtable_init_buckets buckets = Ok m /\
    double_history buckets kt dt ops = Ok (t, snd (shelf_run feq (fun x => Z.to_nat (Z.quot (fkey x) (2 ^ 1074) mod m)) ks empty_shelf ops)).
Proof.
  intros b kt dt ks n ops Hk Hks Hd Hle Hs Hg. destruct (double_runs b kt dt ks n ops Hk Hks Hd Hle Hs Hg) as (m & t & outs & Em & E & -> & _).
  exists m, t. split; [exact Em|]. rewrite E. f_equal. f_equal.
  assert (Hm : (1 <= m)%Z) by (destruct (C11_at_least_one_bucket b) as (m' & Em' & Hm); rewrite Em in Em'; injection Em' as <-; lia).
  destruct (lift_ops hashableb ops (keys_gkey _ hashable ops (fun k => proj2 (hashable_b k)) Hg)) as (sops & <-).
  set (se := fun a c : {k : f64 | hashableb k = true} => feq (proj1_sig a) (proj1_sig c)).
  set (sm := fun a : {k : f64 | hashableb k = true} => bucket_of double_hash m (proj1_sig a)).
  rewrite (shelf_run_ren (@proj1_sig _ _) se feq sm (bucket_of double_hash m) (fun _ _ => eq_refl) (fun _ => eq_refl) ks sops _ _ (empty_ren _)).
  symmetry. apply (shelf_run_ren (@proj1_sig _ _) se feq sm _ (fun _ _ => eq_refl)); [|apply empty_ren].
  intros a. unfold sm, bucket_of. destruct double_keys as (_ & _ & HH & _). specialize (HH a (Z.to_nat m) ltac:(lia)). rewrite Z2Nat.id in HH by lia. rewrite HH.
  rewrite Nat2Z.id. unfold quot_hash. rewrite Z2Nat.id by lia. reflexivity.
Qed.
Print Assumptions C99_floating_point_every_history.

(** With values as wide as the keys nothing is ever found that should not be: each answer is the
    one of the finite map a user expects, or a key is reported missing. *)
Theorem C99_floating_point_never_wrong : forall (buckets : Z) kt dt n (ops : list (hop f64)),
  float_type kt -> has_size kt n -> has_size dt n -> Forall (sized n) ops -> keys_are hashable ops ->
  exists t outs, double_history buckets kt dt ops = Ok (t, outs) /\ all_no_worse ops outs (snd (hspec_run feq [] ops)).
Proof.
  intros b kt dt n ops Hk Hks Hd Hs Hg. destruct (double_runs b kt dt n n ops Hk Hks Hd (Nat.le_refl _) Hs Hg) as (m & t & outs & _ & E & _ & Hw).
  exists t, outs. split; [exact E|]. apply Hw. reflexivity.
Qed.
Print Assumptions C99_floating_point_never_wrong.

Example C99_floating_point_example :
  let ops := [HInsert (half_of 5) [1;0;0;0;0;0;0;0]; HInsert (f_of_Z 2) [2;0;0;0;0;0;0;0]; HRemove (half_of 5) [9;9;9;9;9;9;9;9]; HLookup (half_of 5) [7;7;7;7;7;7;7;7]; HLookup (f_of_Z 2) [7;7;7;7;7;7;7;7]; HSize]%Z in
  float_type H_DOUBLE /\ has_size H_DOUBLE 8 /\ has_size H_LONG 8 /\ Forall (sized (K := f64) 8) ops /\ keys_are hashable ops /\
  (let! r := double_history 20 H_DOUBLE H_LONG ops in Ok (snd r)) =
    Ok [(1, [1;0;0;0;0;0;0;0]); (1, [2;0;0;0;0;0;0;0]); (1, [1;0;0;0;0;0;0;0]); (0, [7;7;7;7;7;7;7;7]); (1, [2;0;0;0;0;0;0;0]); (1, [])]%Z.
Proof.
  cbn zeta. split; [unfold float_type; cbn; tauto|]. split; [unfold has_size; cbn; tauto|]. split; [unfold has_size; cbn; tauto|]. split; [repeat constructor|].
  split.
  { unfold keys_are. repeat (apply Forall_cons; [cbn [key_of]; intros k Hk; try discriminate Hk; injection Hk as <-; apply hashable_b; vm_compute; reflexivity|]). apply Forall_nil. }
  vm_compute. reflexivity.
Qed.

(** String keys: the same, for the addresses of the strings. *)
Lemma string_runs b dt n ops : has_size dt n -> 8 <= n -> Forall (sized n) ops -> keys_are address ops ->
  exists m t outs, hashtable_init_buckets b = Ok m /\ string_history b dt ops = Ok (t, outs) /\
    outs = snd (shelf_run (same_until_zero 8) (fun a => bucket_of block_hash m (pointer_bytes a)) 8 empty_shelf ops) /\
    (n = 8 -> all_no_worse ops outs (snd (hspec_run (same_until_zero 8) [] ops))).
Proof.
  intros Hd Hle Hs Hg.
  destruct (good_runs strcmp_sign block_hash block_ok (fun a => upto_zero (proj1_sig a)) lex text_hash lex_order text_range) with
    (b := b) (kt := H_STRING) (dt := dt) (ks := 8) (n := n) (ops := map pointer_op ops) as (m & t & outs & Em & E & Ho & Hw); try assumption.
  - intros [x Hx] [y Hy]. cbn [proj1_sig]. unfold strcmp_sign. now rewrite strcmp_lex.
  - intros [x Hx] c Hc. cbn [proj1_sig]. now apply block_hash_text.
  - intros [x Hx]. cbn [proj1_sig]. now apply block_hash_zero.
  - unfold has_size. cbn. tauto.
  - rewrite Forall_map. eapply Forall_impl; [|exact Hs]. intros [] H; exact H.
  - rewrite Forall_map. eapply Forall_impl; [|exact Hg]. intros [k v|k v|k v|] H; cbn [pointer_op gkey]; [apply address_block, H; reflexivity ..|exact I].
  - exists m, t, outs. split; [exact Em|]. split; [exact E|].
    assert (Hm : (1 <= m)%Z) by (destruct (C11_at_least_one_bucket b) as (m' & Em' & Hm); rewrite Em in Em'; injection Em' as <-; lia).
    pose (inr := fun a => ((0 <=? a) && (a <? 2 ^ 56))%Z).
    assert (HI : forall a, inr a = true <-> address a) by (intros a; unfold inr, address; rewrite andb_true_iff, Z.leb_le, Z.ltb_lt; tauto).
    assert (HG : Forall (gkey inr) ops) by (apply (keys_gkey _ address); [intros k; apply HI|exact Hg]).
    destruct (lift_ops inr ops HG) as (sops & <-).
    assert (EM : map pointer_op (map (fop (@proj1_sig _ _)) sops) = map (fop (fun a : {a : Z | inr a = true} => pointer_bytes (proj1_sig a))) sops).
    { rewrite map_map. apply map_ext. intros []; reflexivity. }
    rewrite EM in Ho, Hw.
    pose (se := fun x y : {a : Z | inr a = true} => same_until_zero 8 (proj1_sig x) (proj1_sig y)).
    assert (ES : forall a c, se a c = same strcmp_sign (pointer_bytes (proj1_sig a)) (pointer_bytes (proj1_sig c))).
    { intros [a Ha] [c Hc]. unfold se. cbn [proj1_sig]. symmetry. apply same_address; apply HI; assumption. }
    split.
    + rewrite Ho. set (sm := fun a : {a : Z | inr a = true} => bucket_of block_hash m (pointer_bytes (proj1_sig a))).
      assert (HM : forall a, sm a = PropKeys.th block_hash (pointer_bytes (proj1_sig a)) (Z.to_nat m)) by (intros a; unfold sm, bucket_of, PropKeys.th; rewrite Z2Nat.id by lia; reflexivity).
      rewrite (shelf_run_ren (fun a : {a : Z | inr a = true} => pointer_bytes (proj1_sig a)) se (same strcmp_sign) sm (fun k => PropKeys.th block_hash k (Z.to_nat m)) ES HM 8 sops _ _ (empty_ren _)).
      symmetry. apply (shelf_run_ren (@proj1_sig Z (fun a => inr a = true)) se (same_until_zero 8) sm _ (fun _ _ => eq_refl) (fun _ => eq_refl) 8 sops _ _ (empty_ren _)).
    + intros ->. specialize (Hw eq_refl). apply no_worse_ren in Hw. apply no_worse_ren.
      pose proof (spec_rename (fun a : {a : Z | inr a = true} => pointer_bytes (proj1_sig a)) se (same strcmp_sign) ES sops []) as H1.
      pose proof (spec_rename (@proj1_sig Z (fun a => inr a = true)) se (same_until_zero 8) ltac:(reflexivity) sops []) as H2.
      cbn [map] in H1, H2. rewrite H1 in Hw. rewrite H2. exact Hw.
Qed.
(** The bucket of a string key is the one str_hash (utils.c:358-380, C13) gives the bytes of its
    address; two addresses are the same key when they agree up to their first zero byte. *)
Theorem C99_string_every_history : forall (buckets : Z) dt n (ops : list (hop Z)),
  has_size dt n -> 8 <= n -> Forall (sized n) ops -> keys_are address ops ->
  exists m t, hashtable_init_buckets buckets = Ok m /\
    string_history buckets dt ops = Ok (t, snd (shelf_run (same_until_zero 8) (fun a => bucket_of block_hash m (pointer_bytes a)) 8 empty_shelf ops)).
Proof.
  intros b dt n ops Hd Hle Hs Hg. destruct (string_runs b dt n ops Hd Hle Hs Hg) as (m & t & outs & Em & E & -> & _). exists m, t. split; [exact Em|exact E].
Qed.
Print Assumptions C99_string_every_history.
Theorem C99_string_never_wrong : forall (buckets : Z) dt (ops : list (hop Z)),
  has_size dt 8 -> Forall (sized 8) ops -> keys_are address ops ->
  exists t outs, string_history buckets dt ops = Ok (t, outs) /\ all_no_worse ops outs (snd (hspec_run (same_until_zero 8) [] ops)).
Proof.
  intros b dt ops Hd Hs Hg. destruct (string_runs b dt 8 ops Hd (Nat.le_refl _) Hs Hg) as (m & t & outs & _ & E & _ & Hw). exists t, outs. split; [exact E|]. apply Hw. reflexivity.
Qed.
Print Assumptions C99_string_never_wrong.

Example C99_string_example :
  let ops := [HInsert 93825004306708 [34;0;0;0;0;0;0;0]; HInsert 93825004306715 [7;0;0;0;0;0;0;0]; HRemove 93825004306708 [1;1;1;1;1;1;1;1];
              HLookup 93825004306708 [1;1;1;1;1;1;1;1]; HLookup 93825004306715 [1;1;1;1;1;1;1;1]; HSize]%Z in
  has_size H_LONG 8 /\ Forall (sized 8) ops /\ keys_are address ops /\
  (let! r := string_history 45 H_LONG ops in Ok (snd r)) =
    Ok [(1, [34;0;0;0;0;0;0;0]); (1, [7;0;0;0;0;0;0;0]); (1, [34;0;0;0;0;0;0;0]); (0, [1;1;1;1;1;1;1;1]); (1, [7;0;0;0;0;0;0;0]); (1, [])]%Z.
Proof.
  cbn zeta. split; [unfold has_size; cbn; tauto|]. split; [repeat constructor|]. split.
  { unfold keys_are. repeat (apply Forall_cons; [cbn [key_of]; intros k Hk; injection Hk as <-; split; [discriminate|reflexivity]|]).
    apply Forall_cons; [discriminate|apply Forall_nil]. }
  vm_compute. reflexivity.
Qed.

(** Refuted: "a removal leaves the other keys". Whatever the number of buckets, three different
    numbers with the same integer part share one, and removing the second and the first loses
    the third. *)
Theorem C99_same_integer_part_lost_refuted : forall (buckets : Z) kt dt n (k1 k2 k3 : f64) v1 v2 v3 buf,
  float_type kt -> has_size kt n -> has_size dt n -> hashable k1 -> hashable k2 -> hashable k3 ->
  feq k1 k2 = false -> feq k1 k3 = false -> feq k2 k3 = false ->
  Z.quot (fkey k1) (2 ^ 1074) = Z.quot (fkey k2) (2 ^ 1074) -> Z.quot (fkey k1) (2 ^ 1074) = Z.quot (fkey k3) (2 ^ 1074) ->
  length v1 = n -> length v2 = n -> length v3 = n -> length buf = n ->
  exists t, double_history buckets kt dt [HInsert k1 v1; HInsert k2 v2; HInsert k3 v3; HRemove k2 buf; HRemove k1 buf; HLookup k3 buf; HSize] =
    Ok (t, [(1%Z, v1); (1%Z, v2); (1%Z, v3); (1%Z, v2); (1%Z, v1); (0%Z, buf); (1%Z, [])]).
Proof.
  intros b kt dt n k1 k2 k3 v1 v2 v3 buf Hk Hks Hd G1 G2 G3 Q12 Q13 Q23 E12 E13 L1 L2 L3 Lb.
  set (ops := [HInsert k1 v1; HInsert k2 v2; HInsert k3 v3; HRemove k2 buf; HRemove k1 buf; HLookup k3 buf; HSize]).
  destruct (C99_floating_point_every_history b kt dt n n ops Hk Hks Hd (Nat.le_refl _)) as (m & t & Em & E).
  { repeat constructor; cbn; auto. }
  { unfold keys_are, ops. repeat (apply Forall_cons; [cbn [key_of]; intros k Hk'; injection Hk' as <-; assumption|]). apply Forall_cons; [discriminate|apply Forall_nil]. }
  exists t. rewrite E. f_equal. f_equal. clear E.
  set (home := fun x => Z.to_nat (Z.quot (fkey x) (2 ^ 1074) mod m)). set (i := home k1).
  assert (H2 : home k2 = i) by (unfold i, home; rewrite E12; reflexivity). assert (H3 : home k3 = i) by (unfold i, home; rewrite E13; reflexivity).
  assert (sym : forall x y, feq x y = feq y x).
  { intros x y. destruct (feq x y) eqn:Exy, (feq y x) eqn:Eyx; try reflexivity; [apply feq_true in Exy as (A & B & C)|apply feq_true in Eyx as (A & B & C)].
    - rewrite feq_key in Eyx by assumption. lia.
    - rewrite feq_key in Exy by assumption. lia. }
  assert (refl : forall x, hashable x -> feq x x = true) by (intros x [Hx _]; rewrite feq_key by assumption; apply Z.eqb_refl).
  pose proof (refl k1 G1) as R1. pose proof (refl k2 G2) as R2. pose proof (refl k3 G3) as R3.
  pose proof Q12 as Q21. rewrite sym in Q21. pose proof Q13 as Q31. rewrite sym in Q31. pose proof Q23 as Q32. rewrite sym in Q32.
  assert (Hcut : forall v : bytes, length v = n -> firstn n v ++ skipn n buf = v).
  { intros v Lv. rewrite firstn_all2 by (rewrite Lv; apply Nat.le_refl). rewrite skipn_all2 by (rewrite Lb; apply Nat.le_refl). apply app_nil_r. }
  assert (O0 : only (K := f64) empty_shelf i [] []) by (repeat split; auto).
  destruct (only_insert feq home n empty_shelf i [] [] k1 v1 O0 eq_refl eq_refl) as (s1 & T1 & O1).
  destruct (only_insert feq home n s1 i _ _ k2 v2 O1 H2) as (s2 & T2 & O2); [cbn; rewrite Q12; reflexivity|].
  destruct (only_insert feq home n s2 i _ _ k3 v3 O2 H3) as (s3 & T3 & O3); [cbn; rewrite Q13, Q23; reflexivity|].
  destruct (only_remove feq home n s3 i _ _ k2 buf (k2, v2) O3 H2) as (s4 & T4 & O4); [cbn; rewrite Q32, R2; reflexivity|].
  cbn in O4. rewrite Q12, R2, Q32 in O4. cbn in O4.
  destruct (only_remove feq home n s4 i _ _ k1 buf (k1, v1) O4 eq_refl) as (s5 & T5 & O5); [cbn; rewrite Q31, R1; reflexivity|].
  cbn in O5. rewrite Q31, R1 in O5. cbn in O5.
  assert (N : stored feq home s5 k3 = None) by (destruct O5 as (A & _); unfold stored; rewrite H3, A; reflexivity).
  unfold ops. cbn [shelf_run]. rewrite T1. cbn [fst snd]. rewrite T2. cbn [fst snd]. rewrite T3. cbn [fst snd].
  rewrite T4. cbn [fst snd]. rewrite T5. cbn [fst snd]. cbn [shelf_step fst snd]. rewrite !N. cbn [fst snd].
  rewrite !Hcut by assumption. destruct O5 as (A & B & C).
  assert (HN : length (names s5) = 1).
  { rewrite C. unfold drop_name, add_name. repeat (cbn; rewrite ?Q21, ?Q12, ?Q13, ?Q23, ?Q31, ?Q32, ?R1, ?R2, ?R3). reflexivity. }
  rewrite HN. reflexivity.
Qed.
Print Assumptions C99_same_integer_part_lost_refuted.

Example C99_lost_example :
  let k1 := fdiv fone (f_of_Z 4) in let k2 := half_of 1 in let k3 := fdiv (f_of_Z 3) (f_of_Z 4) in
  hashable k1 /\ hashable k2 /\ hashable k3 /\ feq k1 k2 = false /\ feq k1 k3 = false /\ feq k2 k3 = false /\
  Z.quot (fkey k1) (2 ^ 1074) = 0%Z /\ Z.quot (fkey k2) (2 ^ 1074) = 0%Z /\ Z.quot (fkey k3) (2 ^ 1074) = 0%Z.
Proof.
  cbn zeta. split; [apply hashable_b; vm_compute; reflexivity|]. split; [apply hashable_b; vm_compute; reflexivity|]. split; [apply hashable_b; vm_compute; reflexivity|].
  split; [vm_compute; reflexivity|]. split; [vm_compute; reflexivity|]. split; [vm_compute; reflexivity|].
  split; [vm_compute; reflexivity|]. split; vm_compute; reflexivity.
Qed.
