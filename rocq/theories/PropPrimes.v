(** Theorems C11 and C12: bucket count selection. *)
From Coq Require Import Znumtheory.
From Verif Require Import Base ListFacts ModelHash ModelPrimes.
Local Open Scope Z_scope.

(** Unfold the search last when comparing terms (performance only). *)
Strategy 1000 [binary_search_primes].

(** The greatest prime strictly below [x]. *)
Definition greatest_prime_below (x p : Z) : Prop :=
  prime p /\ p < x /\ forall q, prime q -> q < x -> q <= p.

(** Trial division by [d, d+1, ..., d+k-1]. *)
Fixpoint no_divisor (k : nat) (d n : Z) : bool :=
  match k with
  | O => true
  | S k => if n mod d =? 0 then false else no_divisor k (d + 1) n
  end.
Definition primeb (n : Z) : bool :=
  if 2 <=? n then no_divisor (Z.to_nat (n - 2)) 2 n else false.

Lemma no_divisor_spec k : forall d n, 0 < d ->
  no_divisor k d n = true <-> (forall e, d <= e < d + Z.of_nat k -> ~ (e | n)).
Proof.
  induction k as [|k IH]; intros d n Hd; cbn [no_divisor].
  - split; [intros _ e He; lia|auto].
  - destruct (Z.eqb_spec (n mod d) 0) as [E|E].
    + split; [discriminate|]. intros H. exfalso. apply (H d); [lia|]. apply Zmod_divide; lia.
    + rewrite IH by lia. split; intros H e He.
      * destruct (Z.eq_dec e d) as [->|]; [|apply H; lia]. intros Hd'. apply E. now apply Zdivide_mod.
      * apply H. lia.
Qed.

Lemma primeb_spec n : primeb n = true <-> prime n.
Proof.
  rewrite <- prime_alt. unfold primeb, prime'. destruct (Z.leb_spec 2 n).
  - rewrite no_divisor_spec by lia. split.
    + intros Hn. split; [lia|]. intros d Hd. apply Hn. lia.
    + intros [_ Hn] e He. apply Hn. lia.
  - split; [discriminate|]. lia.
Qed.

(** The primes up to 1217 are 2 and the table. *)
Definition small_primeb (q : Z) : bool := existsb (Z.eqb q) (2 :: primes_init).
Fixpoint range (k : nat) (a : Z) : list Z :=
  match k with O => [] | S k => a :: range k (a + 1) end.
Lemma in_range k : forall a x, In x (range k a) <-> a <= x < a + Z.of_nat k.
Proof.
  induction k as [|k IH]; intros a x; cbn [range In]; [lia|]. rewrite IH. lia.
Qed.
Lemma small_primes_check : forallb (fun q => Bool.eqb (small_primeb q) (primeb q)) (range 1218 0) = true.
Proof. vm_cast_no_check (eq_refl true). Qed.
Lemma small_primes q : q <= 1217 -> small_primeb q = true <-> prime q.
Proof.
  intros H. rewrite <- primeb_spec. destruct (Z.leb_spec 0 q).
  - pose proof small_primes_check as Hc. rewrite forallb_forall in Hc.
    specialize (Hc q). rewrite in_range in Hc. specialize (Hc ltac:(lia)).
    apply eqb_prop in Hc. now rewrite Hc.
  - split.
    + unfold small_primeb. intros E. apply existsb_exists in E. destruct E as (y & Hy & E).
      assert (Hb : forallb (fun y => 0 <=? y) (2 :: primes_init) = true) by (vm_compute; reflexivity).
      rewrite forallb_forall in Hb. specialize (Hb y Hy). lia.
    + unfold primeb. destruct (Z.leb_spec 2 q); [lia|discriminate].
Qed.

(** The arguments above 3, up to the largest listed prime, for which the search misses:
    71 primes, and the last four arguments. *)
Definition missed : list Z := [
  5; 13; 23; 37; 47; 61; 73; 83; 97; 107; 127; 139; 157; 173; 191;
  199; 223; 229; 241; 263; 277; 293; 313; 337; 353; 367; 379; 397;
  419; 433; 449; 463; 487; 503; 521; 541; 563; 577; 599; 613; 631;
  647; 661; 677; 691; 719; 739; 757; 773; 809; 823; 839; 857; 863;
  883; 911; 937; 953; 977; 997; 1019; 1031; 1039; 1061; 1087; 1097;
  1109; 1123; 1153; 1181; 1201; 1214; 1215; 1216; 1217].
Lemma missed_range x : In x missed -> 3 < x <= 1217.
Proof.
  intros H. assert (Hb : forallb (fun y => (3 <? y) && (y <=? 1217)) missed = true) by (vm_compute; reflexivity).
  rewrite forallb_forall in Hb. specialize (Hb x H). lia.
Qed.

Definition check (x : Z) : bool :=
  match find_prime_less_than x with
  | Ok p => if existsb (Z.eqb x) missed then p =? 0
            else if small_primeb p then
                   if p <? x then forallb (fun q => negb (small_primeb q)) (range (Z.to_nat (x - p) - 1) (p + 1))
                   else false
                 else false
  | _ => false
  end.
Lemma check_all : forallb check (range 1214 4) = true.
Proof. vm_cast_no_check (eq_refl true). Qed.
Lemma check_ok x : 4 <= x <= 1217 -> check x = true.
Proof.
  intros H. pose proof check_all as Hc. rewrite forallb_forall in Hc. apply Hc.
  apply in_range. lia.
Qed.

(** Above the table every probe goes right. *)
Lemma primes_lt x : 1217 < x -> Forall (fun p => p < x) primes.
Proof.
  intros H. apply Forall_forall. intros p Hp.
  assert (Hb : forallb (fun p => p <? 1218) primes = true) by (vm_compute; reflexivity).
  rewrite forallb_forall in Hb. specialize (Hb p Hp). lia.
Qed.

Lemma search_above x : 1217 < x -> forall fuel l r,
  0 <= l -> l <= r + 1 -> r < p_sz -> r - l + 1 < Z.of_nat fuel ->
  binary_search_primes fuel l r x = Ok 0.
Proof.
  intros Hx. pose proof (primes_lt x Hx) as Hall. rewrite Forall_forall in Hall.
  induction fuel as [|f IH]; intros l r Hl Hlr Hr Hf; [lia|]. cbn [binary_search_primes].
  change (prime_at 0) with (Ok 3). cbn [bind].
  replace ((l =? 0) && (x <=? 3)) with false by lia.
  rewrite Z.geb_leb. destruct (Z.leb_spec l r); [|reflexivity].
  set (mid := l + Z.quot (r - l) 2).
  assert (Hm : l <= mid <= r).
  { unfold mid. rewrite Z.quot_div_nonneg by lia.
    pose proof (Z.div_pos (r - l) 2). pose proof (Z.div_le_upper_bound (r - l) 2 (r - l)). lia. }
  assert (Hp : exists p, prime_at mid = Ok p /\ p < x).
  { unfold prime_at. destruct (Z.ltb_spec mid 0); [lia|].
    destruct (aget_ok primes (Z.to_nat mid)) as (p & E & Hn).
    - change (length primes) with 200%nat. unfold p_sz in *. lia.
    - exists p. split; auto. apply Hall. eapply nth_error_In; eauto. }
  destruct Hp as (p & -> & Hp). cbn [bind].
  destruct (Z.eqb_spec p x); [lia|]. rewrite Z.geb_leb. destruct (Z.leb_spec x p); [lia|].
  cbn [bind]. rewrite Z.gtb_ltb. destruct (Z.ltb_spec x p); [lia|]. cbn [bind].
  apply IH; lia.
Qed.

Lemma search_small x f r : x <= 3 -> binary_search_primes (S f) 0 r x = Ok 3.
Proof.
  intros H. cbn [binary_search_primes]. change (prime_at 0) with (Ok 3). cbn [bind].
  now replace (x <=? 3) with true by lia.
Qed.

(** C11: for EVERY argument the search terminates inside the table, and what it returns. *)
Theorem C11_find_prime_less_than :
  forall x : Z, exists p, find_prime_less_than x = Ok p /\
    (x <= 3 -> p = 3) /\
    (3 < x -> p = 0 \/ greatest_prime_below x p) /\
    (p = 0 <-> 1217 < x \/ In x missed).
Proof.
  intros x. destruct (Z.leb_spec x 3) as [H3|H3].
  - exists 3. split.
    + apply search_small. lia.
    + split; [auto|]. split; [lia|]. split; [lia|]. intros [H|H]; [lia|].
      apply missed_range in H. lia.
  - destruct (Z.leb_spec x 1217) as [Hx|Hx].
    + pose proof (check_ok x ltac:(lia)) as Hc. unfold check in Hc.
      destruct (find_prime_less_than x) as [p| | |]; try discriminate. exists p. split; auto.
      split; [lia|].
      destruct (existsb (Z.eqb x) missed) eqn:E.
      * assert (Hp : p = 0) by lia. subst p. split; [auto|]. split; [|auto].
        intros _. right. apply existsb_exists in E. destruct E as (y & Hy & E). assert (y = x) by lia. now subst.
      * destruct (small_primeb p) eqn:Hp; [|discriminate]. destruct (Z.ltb_spec p x) as [Hlt|]; [|discriminate].
        apply small_primes in Hp; [|lia]. split; [|split].
        -- intros _. right. split; auto. split; [lia|]. intros q Hq' Hqx.
           destruct (Z.leb_spec q p); auto. exfalso.
           rewrite forallb_forall in Hc. apply small_primes in Hq'; [|lia].
           specialize (Hc q). rewrite in_range in Hc. rewrite Hq' in Hc. cbn [negb] in Hc.
           discriminate Hc. lia.
        -- intros ->. destruct Hp. lia.
        -- intros [H|H]; [lia|]. assert (existsb (Z.eqb x) missed = true); [|congruence].
           apply existsb_exists. exists x. split; auto. lia.
    + exists 0. split; [apply search_above; unfold p_sz; cbn; lia|].
      split; [lia|]. split; [auto|]. tauto.
Qed.
Print Assumptions C11_find_prime_less_than.

(** The greatest prime below x must be returned for 3 < x <= 1217: refuted, for exactly
    the 75 arguments listed (each of them has the prime 3 below it). *)
Theorem C11_missed_primes_refuted :
  forall x, In x missed -> 3 < x <= 1217 /\ prime 3 /\ find_prime_less_than x = Ok 0.
Proof.
  intros x Hx. split; [now apply missed_range|]. split; [apply prime_3|].
  destruct (C11_find_prime_less_than x) as (p & E & _ & _ & Hz). rewrite E. f_equal. apply Hz. auto.
Qed.
Print Assumptions C11_missed_primes_refuted.

(** Whatever is asked for, hashtable_init creates at least one bucket. *)
Theorem C11_at_least_one_bucket :
  forall b : Z, exists n, hashtable_init_buckets b = Ok n /\ 1 <= n <= 1213.
Proof.
  intros b. unfold hashtable_init_buckets.
  destruct (C11_find_prime_less_than (i32_of_size b)) as (p & E & H3 & Hp & Hz). rewrite E. cbn [bind].
  assert (Hr : p = 0 \/ 1 < p <= 1213).
  { destruct (Z.leb_spec (i32_of_size b) 3); [rewrite H3 by lia; lia|].
    destruct (Z.leb_spec (i32_of_size b) 1217).
    2: { left. apply Hz. auto. }
    destruct (Hp ltac:(lia)) as [->|(Hpr & Hlt & _)]; auto. right. destruct Hpr as [Hp1 _].
    split; [lia|]. destruct (Z.leb_spec p 1213); auto.
    assert (Hx : i32_of_size b = 1215 \/ i32_of_size b = 1216 \/ i32_of_size b = 1217) by lia.
    assert (Hz' : p = 0); [|lia]. apply Hz. right.
    assert (Hm : forall y, existsb (Z.eqb y) missed = true -> In y missed).
    { intros y E'. apply existsb_exists in E'. destruct E' as (z & Hz' & E'). assert (z = y) by lia. now subst. }
    destruct Hx as [->|[->| ->]]; apply Hm; reflexivity. }
  eexists; split; [reflexivity|].
  unfold u64. rewrite Z.mod_small by (unfold M64; lia). destruct (Z.eqb_spec p 0); lia.
Qed.
Print Assumptions C11_at_least_one_bucket.

Example C11_example :
  find_prime_less_than 10 = Ok 7 /\ find_prime_less_than 29 = Ok 23 /\ find_prime_less_than 23 = Ok 0 /\
  greatest_prime_below 10 7 /\ hashtable_init_buckets 23 = Ok 37 /\ hashtable_init_buckets 2000 = Ok 37.
Proof.
  repeat (split; [reflexivity|]). split; [|split; reflexivity].
  destruct (C11_find_prime_less_than 10) as (p & E & _ & H & _).
  assert (p = 7) by (vm_compute in E; congruence). subst p.
  destruct (H ltac:(lia)); [lia|auto].
Qed.

(** C12: what get_prime returns, for every argument. *)
Lemma get_prime_inner_ok fuel i : (Z.to_nat (- i) < fuel)%nat ->
  (exists j, get_prime_inner fuel i = Ok (Goto j) /\ i <= j < 0) \/
  get_prime_inner fuel i = Ok (Done (Z.max 0 i)).
Proof.
  revert i. induction fuel as [|f IH]; intros i Hf; [lia|]. cbn [get_prime_inner].
  destruct (Z.ltb_spec i 0).
  - change (prime_at 0) with (Ok 3). cbn [bind]. destruct (Z.rem i 3 =? 0).
    + left. exists i. split; auto. lia.
    + destruct (IH (i + 1) ltac:(lia)) as [(j & E & Hj)|E].
      * left. exists j. split; auto. lia.
      * right. rewrite E. f_equal. f_equal. lia.
  - right. f_equal. f_equal. lia.
Qed.

Lemma get_prime_outer_ok fuel i : in_i32 i = true -> (Z.to_nat (- i) < fuel)%nat ->
  get_prime_outer fuel i = Ok (Z.max 0 i).
Proof.
  revert i. induction fuel as [|f IH]; intros i Hi Hf; [lia|]. cbn [get_prime_outer].
  destruct (get_prime_inner_ok (S f) i Hf) as [(j & E & Hj)|E]; rewrite E; cbn [bind]; auto.
  unfold in_i32 in *. rewrite andb_true_iff in Hi.
  replace ((-2147483648 <=? j + 1) && (j + 1 <=? 2147483647)) with true by lia.
  rewrite IH; [f_equal; lia| |lia]. rewrite andb_true_iff. lia.
Qed.

Theorem C12_get_prime_value :
  forall (min : Z) (fuel : nat), in_i32 min = true -> (Z.to_nat (- min) < fuel)%nat ->
    get_prime fuel min = if min =? 2147483647 then UB else Ok (Z.max 0 (min + 1)).
Proof.
  intros min fuel Hm Hf. unfold get_prime. unfold in_i32 in *. rewrite andb_true_iff in Hm.
  destruct (Z.eqb_spec min 2147483647) as [->|Hne]; [reflexivity|].
  replace ((-2147483648 <=? min + 1) && (min + 1 <=? 2147483647)) with true by lia.
  apply get_prime_outer_ok; [unfold in_i32; rewrite andb_true_iff; lia|lia].
Qed.
Print Assumptions C12_get_prime_value.

(** C12 refuted: the result is a prime only if min+1 happens to be one, so never for
    an odd argument above 1, for instance. *)
Theorem C12_get_prime_refuted :
  forall (min : Z) (fuel : nat), in_i32 min = true -> min <> 2147483647 -> (Z.to_nat (- min) < fuel)%nat ->
    exists r, get_prime fuel min = Ok r /\
      (prime r <-> prime (min + 1)) /\
      (1 < min -> Z.Odd min -> ~ prime r).
Proof.
  intros min fuel Hm Hne Hf. exists (Z.max 0 (min + 1)).
  rewrite C12_get_prime_value by auto. destruct (Z.eqb_spec min 2147483647); [contradiction|].
  split; [reflexivity|]. split.
  - destruct (Z.leb_spec 0 (min + 1)).
    + now rewrite Z.max_r by lia.
    + rewrite Z.max_l by lia. split; intros [Hp _]; lia.
  - intros H1 [c Hc] Hp. rewrite Z.max_r in Hp by lia.
    apply prime_alt in Hp. destruct Hp as [_ Hp]. apply (Hp 2); [lia|]. exists (c + 1). lia.
Qed.
Print Assumptions C12_get_prime_refuted.

Example C12_example : get_prime 1 7 = Ok 8 /\ get_prime 20 (-10) = Ok 0 /\ ~ prime 8.
Proof.
  split; [reflexivity|]. split; [reflexivity|]. intros H. apply primeb_spec in H. vm_compute in H. discriminate.
Qed.
