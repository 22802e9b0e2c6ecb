(** Theorem C13: comparison callbacks and hash functions. *)
From Coq Require Import Floats.SpecFloat.
From Flocq Require Import IEEE754.BinarySingleNaN.
From Verif Require Import Base ListFacts F64 F64Facts ModelArrayList SpecSeq ModelUtils
     ModelHash ModelCells SpecMap ProofHash PropCollections PropMap.
From Coq Require Import ZifyBool.
Local Open Scope Z_scope.

(** [compare] is the order induced on [P] by the linearly ordered ranks. *)
Definition ranks_by {A R} (lt : R -> R -> Prop) (P : A -> Prop) (rank : A -> R) (compare : A -> A -> Z) : Prop :=
  forall a b, P a -> P b ->
    (compare a b < 0 <-> lt (rank a) (rank b)) /\
    (compare a b = 0 <-> rank a = rank b) /\
    (compare a b > 0 <-> lt (rank b) (rank a)).

Definition lex3 (a b : Z * Z * Z) : Prop :=
  let '(a1, a2, a3) := a in let '(b1, b2, b3) := b in
  a1 < b1 \/ (a1 = b1 /\ (a2 < b2 \/ (a2 = b2 /\ a3 < b3))).

Definition is_u32 (z : Z) : Prop := 0 <= z < 4294967296.

(** Integer, short, long, char and pointer comparison. *)
Theorem C13_integer_compare :
  total_order int_compare /\
  ranks_by Z.lt (fun _ => True) (fun z => z) int_compare /\
  (** unsigned labels compared through int32_t: still a total order, the usual one below 2^31 *)
  ranks_by Z.lt is_u32 i32_of_u32 int_compare_u32 /\
  (forall a b, is_u32 a -> is_u32 b -> int_compare_u32 a b = 0 <-> a = b) /\
  ranks_by Z.lt (fun z => 0 <= z < 2147483648) (fun z => z) int_compare_u32.
Proof.
  assert (HG : forall a b, (int_compare a b < 0 <-> a < b) /\ (int_compare a b = 0 <-> a = b) /\
                           (int_compare a b > 0 <-> b < a)).
  { intros a b. unfold int_compare. rewrite Z.gtb_ltb.
    destruct (Z.ltb_spec b a); [lia|]. destruct (Z.eqb_spec a b); lia. }
  split; [|split; [|split; [|split]]].
  - split; [|split].
    + intros a b. apply HG.
    + intros a b. destruct (HG a b) as (H1 & _), (HG b a) as (_ & _ & H2). rewrite H1, H2. tauto.
    + intros a b c. rewrite !(proj1 (HG _ _)). lia.
  - intros a b _ _. apply HG.
  - intros a b _ _. apply HG.
  - intros a b Ha Hb. unfold int_compare_u32. rewrite (proj1 (proj2 (HG _ _))).
    unfold i32_of_u32, M32, is_u32 in *.
    destruct (Z.ltb_spec a 2147483648), (Z.ltb_spec b 2147483648); lia.
  - intros a b Ha Hb. unfold int_compare_u32, i32_of_u32.
    replace (a <? 2147483648) with true by lia. replace (b <? 2147483648) with true by lia. apply HG.
Qed.
Print Assumptions C13_integer_compare.

(** Doubles: the numeric order, as long as no value is NaN. *)
Theorem C13_double_compare : ranks_by Z.lt notnan fkey double_compare.
Proof.
  intros a b Ha Hb. unfold double_compare, fgt. change (Bltb b a) with (flt b a).
  rewrite flt_key, feq_key by auto.
  destruct (Z.ltb_spec (fkey b) (fkey a)); [lia|]. destruct (Z.eqb_spec (fkey a) (fkey b)); lia.
Qed.
Print Assumptions C13_double_compare.

(** With a NaN on either side, each is reported smaller than the other. *)
Theorem C13_double_compare_nan_refuted :
  forall a b, fisnan a = true \/ fisnan b = true -> double_compare a b = -1 /\ double_compare b a = -1.
Proof.
  intros a b H. unfold double_compare, fgt.
  change (Bltb b a) with (flt b a). change (Bltb a b) with (flt a b).
  destruct H as [H|H]; rewrite ?(flt_nan_l _ _ H), ?(flt_nan_r _ _ H), ?(feq_nan_l _ _ H), ?(feq_nan_r _ _ H); auto.
Qed.
Print Assumptions C13_double_compare_nan_refuted.

(** Outlier scores: by score, then core distance, then id. *)
Definition outlier_ok (a : outlier) : Prop :=
  notnan (os_score a) /\ notnan (os_core a) /\ 0 <= os_id a < 2147483648.
Definition outlier_rank (a : outlier) : Z * Z * Z := (fkey (os_score a), fkey (os_core a), os_id a).

Theorem C13_outlier_compare : ranks_by lex3 outlier_ok outlier_rank outlier_score_compare.
Proof.
  intros a b (Ha & Hca & Hia) (Hb & Hcb & Hib).
  unfold outlier_score_compare, outlier_rank, lex3, fgt.
  change (@Bltb 53 1024) with flt. rewrite !flt_key by auto.
  set (sa := fkey (os_score a)) in *. set (sb := fkey (os_score b)) in *.
  set (ca := fkey (os_core a)) in *. set (cb := fkey (os_core b)) in *.
  assert (HE : (sa, ca, os_id a) = (sb, cb, os_id b) <-> sa = sb /\ ca = cb /\ os_id a = os_id b).
  { split; [intros E; injection E; auto|]. intros (-> & -> & ->). auto. }
  rewrite HE.
  destruct (Z.ltb_spec sb sa); [lia|]. destruct (Z.ltb_spec sa sb); [lia|].
  destruct (Z.ltb_spec cb ca); [lia|]. destruct (Z.ltb_spec ca cb); [lia|].
  assert (HI : i32_of_u32 (u32 (os_id a - os_id b)) = os_id a - os_id b).
  { unfold i32_of_u32, u32, M32. pose proof (Z.mod_pos_bound (os_id a - os_id b) 4294967296).
    destruct (Z.leb_spec (os_id b) (os_id a)).
    - rewrite Z.mod_small by lia. destruct (Z.ltb_spec (os_id a - os_id b) 2147483648); lia.
    - rewrite <- (Z_mod_plus_full _ 1), Z.mod_small by lia.
      destruct (Z.ltb_spec (os_id a - os_id b + 1 * 4294967296) 2147483648); lia. }
  rewrite HI. lia.
Qed.
Print Assumptions C13_outlier_compare.

(** Without those bounds it is no order: two ids of equal score that are more than 2^31 apart
    compare the wrong way round, and a NaN score closes a cycle. *)
Theorem C13_outlier_compare_refuted :
  (forall s c i j, is_u32 i -> is_u32 j -> i - j > 2147483648 -> notnan s -> notnan c ->
     outlier_score_compare (mk_outlier s c i) (mk_outlier s c j) < 0) /\
  (forall c i j k, notnan c -> 0 <= i < j -> j < k < 2147483648 ->
     let a := mk_outlier fone c i in let n := mk_outlier fnan c j in let b := mk_outlier fzero c k in
     outlier_score_compare a n < 0 /\ outlier_score_compare n b < 0 /\ outlier_score_compare b a < 0).
Proof.
  split.
  - intros s c i j Hi Hj Hd Hs Hc. unfold outlier_score_compare. cbn [os_score os_core os_id].
    unfold fgt. change (@Bltb 53 1024) with flt. rewrite !flt_key by auto. rewrite !Z.ltb_irrefl.
    unfold i32_of_u32, u32, M32, is_u32 in *. rewrite Z.mod_small by lia.
    destruct (Z.ltb_spec (i - j) 2147483648); lia.
  - intros c i j k Hc Hij Hjk. cbn zeta. unfold outlier_score_compare. cbn [os_score os_core os_id].
    unfold fgt. change (@Bltb 53 1024) with flt.
    change (flt fzero fone) with true. change (flt fone fzero) with false.
    change (flt fnan fone) with false. change (flt fone fnan) with false.
    change (flt fnan fzero) with false. change (flt fzero fnan) with false.
    rewrite !flt_key by auto. rewrite !Z.ltb_irrefl.
    unfold i32_of_u32, u32, M32 in *.
    split; [|split; [|lia]].
    + rewrite <- (Z_mod_plus_full _ 1), Z.mod_small by lia.
      destruct (Z.ltb_spec (i - j + 1 * 4294967296) 2147483648); lia.
    + rewrite <- (Z_mod_plus_full _ 1), Z.mod_small by lia.
      destruct (Z.ltb_spec (j - k + 1 * 4294967296) 2147483648); lia.
Qed.
Print Assumptions C13_outlier_compare_refuted.

(** Clusters: by label; NULL against NULL is not equality. *)
Theorem C13_cluster_compare :
  (forall x y, (cluster_compare (Some x) (Some y) < 0 <-> x < y) /\
               (cluster_compare (Some x) (Some y) = 0 <-> x = y) /\
               (cluster_compare (Some x) (Some y) > 0 <-> x > y)) /\
  (forall x, cluster_compare None (Some x) < 0 /\ cluster_compare (Some x) None > 0) /\
  cluster_compare None None < 0.
Proof.
  split; [|split; [|reflexivity]].
  - intros x y. unfold cluster_compare. rewrite Z.gtb_ltb.
    destruct (Z.ltb_spec y x); [lia|]. destruct (Z.eqb_spec x y); lia.
  - intros x. split; reflexivity.
Qed.
Print Assumptions C13_cluster_compare.

(** Hash functions: the index is below the bucket count, whatever the key; keys the
    comparison callback calls equal get the same index.  For double and float keys the
    conversion must be defined. *)
Definition real_in_size_range (a : f64) : Prop :=
  exists v, ftrunc a = Some v /\ 0 <= v < M64.

Lemma size_mod_range t b : 0 < b -> exists h, size_mod t b = Ok h /\ 0 <= h < b.
Proof.
  intros Hb. unfold size_mod. destruct (Z.eqb_spec b 0); [lia|].
  eexists; split; [reflexivity|]. apply Z.mod_pos_bound. lia.
Qed.

Lemma str_val_ok (s : list Z) : forall rest v, Forall (fun c => c <> 0) s ->
  exists h, str_val (s ++ 0 :: rest) v = Ok h.
Proof.
  induction s as [|c s IH]; intros rest v Hs; cbn [app str_val].
  - eexists. reflexivity.
  - inversion Hs; subst. destruct (Z.eqb_spec c 0); [contradiction|]. now apply IH.
Qed.

Lemma str_val_rest (s : list Z) : forall r1 r2 v,
  str_val (s ++ 0 :: r1) v = str_val (s ++ 0 :: r2) v.
Proof.
  induction s as [|c s IH]; intros; cbn [app str_val]; [reflexivity|]. destruct (c =? 0); auto.
Qed.

Lemma ftrunc_same a b : double_compare a b = 0 -> ftrunc a = ftrunc b.
Proof.
  unfold double_compare, fgt. change (@Bltb 53 1024) with flt. intros H.
  destruct (flt b a) eqn:E1; [discriminate|]. destruct (feq a b) eqn:E2; [|discriminate].
  apply feq_true in E2. destruct E2 as (Ha & Hb & Hk).
  destruct (fkey_inj a b Ha Hb Hk) as [->|(_ & s & t & -> & ->)]; reflexivity.
Qed.

Theorem C13_hash_in_range :
  forall b, 0 < b ->
    (forall k, exists h, int_hash k b = Ok h /\ 0 <= h < b) /\
    (forall x, real_in_size_range x -> exists h, double_hash x b = Ok h /\ 0 <= h < b) /\
    (forall s rest, Forall (fun c => c <> 0) s -> exists h, str_hash (s ++ 0 :: rest) b = Ok h /\ 0 <= h < b).
Proof.
  intros b Hb. split; [|split].
  - intros k. now apply size_mod_range.
  - intros x (v & E & Hv). unfold double_hash, size_of_double. rewrite E.
    replace ((0 <=? v) && (v <? M64)) with true by (unfold M64 in *; lia). cbn [bind].
    now apply size_mod_range.
  - intros s rest Hs. unfold str_hash. destruct (str_val_ok s rest 0 Hs) as (h & ->). cbn [bind].
    now apply size_mod_range.
Qed.
Print Assumptions C13_hash_in_range.

Theorem C13_equal_keys_hash_equally :
  (forall a b n, int_compare a b = 0 -> int_hash a n = int_hash b n) /\
  (forall a b n, double_compare a b = 0 -> double_hash a n = double_hash b n) /\
  (forall s r1 r2 n, str_hash (s ++ 0 :: r1) n = str_hash (s ++ 0 :: r2) n).
Proof.
  split; [|split].
  - intros a b n H. apply (proj1 (proj1 (proj1 C13_integer_compare) a b)) in H. now rewrite H.
  - intros a b n H. unfold double_hash, size_of_double. now rewrite (ftrunc_same a b H).
  - intros. unfold str_hash. now rewrite (str_val_rest s r1 r2).
Qed.
Print Assumptions C13_equal_keys_hash_equally.

(** Negative doubles, doubles from 2^64 on, NaN and infinities have no hash; no key has
    one in a table of no buckets. *)
Theorem C13_double_hash_refuted :
  (forall x n, ~ real_in_size_range x -> double_hash x n = UB) /\
  ~ real_in_size_range fnan /\ ~ real_in_size_range finf /\ ~ real_in_size_range (Bopp fone) /\
  (forall k, int_hash k 0 = UB).
Proof.
  split; [|split; [|split; [|split]]].
  - intros x n H. unfold double_hash, size_of_double. destruct (ftrunc x) as [v|] eqn:E; [|reflexivity].
    destruct ((0 <=? v) && (v <? M64)) eqn:E2; [|reflexivity].
    exfalso. apply H. exists v. split; auto.
    apply andb_true_iff in E2. destruct E2 as [L1 L2]. apply Z.leb_le in L1. apply Z.ltb_lt in L2. auto.
  - intros (v & E & _). discriminate.
  - intros (v & E & _). discriminate.
  - intros (v & E & Hv).
    assert (E' : ftrunc (Bopp fone) = Some (-1)) by (vm_compute; reflexivity).
    rewrite E' in E. injection E as <-. lia.
  - reflexivity.
Qed.
Print Assumptions C13_double_hash_refuted.

(** The callbacks of the library's own tables (int and long keys) qualify for the
    container theorems C03-C09. *)
Theorem C13_library_tables_qualify :
  total_order int_compare /\
  hash_in_range (fun (k : Z) (b : nat) =>
    match int_hash k (Z.of_nat b) with Ok h => Z.to_nat h | _ => 0%nat end).
Proof.
  split; [apply C13_integer_compare|]. intros k b Hb.
  destruct (proj1 (C13_hash_in_range (Z.of_nat b) ltac:(lia)) k) as (h & -> & Hh). lia.
Qed.
Print Assumptions C13_library_tables_qualify.

Example C13_example :
  int_compare 3 (-2) = 1 /\ int_compare_u32 4294967295 5 = -1 /\
  double_compare fone fzero = 1 /\ outlier_ok (mk_outlier fone fzero 7) /\
  outlier_score_compare (mk_outlier fone fzero 7) (mk_outlier fone fzero 9) = -2 /\
  int_hash (-1) 37 = Ok 11 /\ double_hash fone 37 = Ok 1 /\ str_hash [104; 105; 0] 37 = Ok 30 /\
  real_in_size_range fone.
Proof.
  repeat (split; [reflexivity|]). split; [repeat split; cbn; lia|].
  split; [vm_compute; reflexivity|]. split; [vm_compute; reflexivity|]. split; [vm_compute; reflexivity|].
  split; [vm_compute; reflexivity|]. exists 1. vm_compute. split; [reflexivity|]. split; [discriminate|reflexivity].
Qed.
