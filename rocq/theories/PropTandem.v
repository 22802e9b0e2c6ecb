(** C47: hdbscan_quicksort sorts labels together with their keys. *)
From Coq Require Import Sorted Permutation.
From Verif Require Import Base ListFacts F64 F64Facts F64Arith ModelArrayList ModelMap ProofSort.
From Coq Require Import ZifyBool ZifyNat.
Local Open Scope nat_scope.

Section T.
Context {C : Type}.
Variable c0 : C.

Definition kat (d : list f64) (k : nat) : f64 := nth k d fzero.
Definition pat (c : list C) (d : list f64) (k : nat) : C * f64 := (nth k c c0, kat d k).
Definition nonan (d : list f64) (lo hi : nat) : Prop := forall k, lo <= k <= hi -> notnan (kat d k).

Lemma kat_get d k : k < length d -> aget d k = Ok (kat d k).
Proof. intros H. apply aget_nth. unfold kat. apply nth_error_nth'. exact H. Qed.
Lemma cget (c : list C) k : k < length c -> aget c k = Ok (nth k c c0).
Proof. intros H. apply aget_nth, nth_error_nth'. exact H. Qed.
Lemma nth_upd {T} (l : list T) i j x z : i < length l -> nth j (upd l i x) z = if j =? i then x else nth j l z.
Proof.
  intros Hi. destruct (Nat.eqb_spec j i) as [->|Hn].
  - apply nth_error_nth. apply nth_error_upd_eq. exact Hi.
  - destruct (le_lt_dec (length l) j) as [Hj|Hj]; [rewrite !nth_overflow by (rewrite ?upd_length; exact Hj); reflexivity|].
    apply nth_error_nth. rewrite nth_error_upd_neq by auto. apply nth_error_nth'. exact Hj.
Qed.
Lemma swap_ok {T} (l : list T) i j z : i < length l -> j < length l ->
  exists l', swap l i j = Ok l' /\ length l' = length l /\ forall k, nth k l' z = nth (tr i j k) l z.
Proof.
  intros Hi Hj. unfold swap. rewrite (aget_nth l i _ (nth_error_nth' l z Hi)), (aget_nth l j _ (nth_error_nth' l z Hj)). cbn [bind].
  rewrite aset_ok by exact Hi. cbn [bind]. rewrite aset_ok by (rewrite upd_length; exact Hj). eexists. split; [reflexivity|].
  split; [rewrite !upd_length; reflexivity|]. intros k. rewrite nth_upd by (rewrite upd_length; exact Hj). rewrite nth_upd by exact Hi.
  unfold tr. destruct (Nat.eqb_spec k j), (Nat.eqb_spec k i); subst; reflexivity.
Qed.

Lemma not_fle a b : notnan a -> notnan b -> fle a b = false -> flt b a = true.
Proof. intros Ha Hb H. rewrite fle_key in H by assumption. rewrite flt_key by assumption. lia. Qed.
Lemma not_flt a b : notnan a -> notnan b -> flt a b = false -> fle b a = true.
Proof. intros Ha Hb H. rewrite flt_key in H by assumption. rewrite fle_key by assumption. lia. Qed.

Lemma scan_up_ok d x n : forall up, up + n < length d -> exists up', scan_up d x up n = Ok up' /\ up <= up' <= up + n /\
  (forall k, up <= k < up' -> fle (kat d k) x = true) /\ (up' = up + n \/ fle (kat d up') x = false).
Proof.
  induction n as [|n IH]; intros up Hl; cbn [scan_up].
  - exists up. split; [reflexivity|]. split; [lia|]. split; [intros; lia|lia].
  - rewrite kat_get by lia. cbn [bind]. destruct (fle (kat d up) x) eqn:E.
    + destruct (IH (S up) ltac:(lia)) as (u & E1 & H1 & H2 & H3). exists u. split; [exact E1|]. split; [lia|]. split; [|destruct H3; [left; lia|right; assumption]].
      intros k Hk. destruct (Nat.eq_dec k up) as [->|]; [exact E|apply H2; lia].
    + exists up. split; [reflexivity|]. split; [lia|]. split; [intros; lia|auto].
Qed.
Lemma scan_down_ok d x n : forall down, n <= down -> down < length d -> exists dn, scan_down d x down n = Ok dn /\ down - n <= dn <= down /\
  (forall k, dn < k <= down -> fgt (kat d k) x = true) /\ (dn = down - n \/ fgt (kat d dn) x = false).
Proof.
  induction n as [|n IH]; intros down Hn Hl; cbn [scan_down].
  - exists down. split; [reflexivity|]. split; [lia|]. split; [intros; lia|lia].
  - rewrite kat_get by lia. cbn [bind]. destruct (fgt (kat d down) x) eqn:E.
    + destruct (IH (down - 1) ltac:(lia) ltac:(lia)) as (u & E1 & H1 & H2 & H3). exists u. split; [exact E1|]. split; [lia|]. split; [|destruct H3; [left; lia|right; assumption]].
      intros k Hk. destruct (Nat.eq_dec k down) as [->|]; [exact E|apply H2; lia].
    + exists down. split; [reflexivity|]. split; [lia|]. split; [intros; lia|auto].
Qed.

Lemma rearr_nonan lo hi c d c' d' : rearr lo hi (pat c d) (pat c' d') -> nonan d lo hi -> nonan d' lo hi.
Proof.
  intros HR HN k Hk. destruct (rearr_inside _ _ _ _ k HR Hk) as (k' & Hk' & E). unfold pat in E. injection E as _ E. rewrite E. apply HN. exact Hk'.
Qed.

Lemma part_loop_ok lo hi x : notnan x -> forall fuel c d up down, hi < length c -> hi < length d -> nonan d lo hi ->
  lo <= up <= down -> down <= hi -> down - up < fuel + (if fle (kat d up) x then 1 else 0) ->
  (forall k, lo <= k < up -> fle (kat d k) x = true) -> (forall k, down < k <= hi -> flt x (kat d k) = true) ->
  exists c' d' p, part_loop fuel c d x up down = Ok (c', d', p) /\ length c' = length c /\ length d' = length d /\ rearr lo hi (pat c d) (pat c' d') /\
    lo <= p <= hi /\ (forall k, lo <= k < p -> fle (kat d' k) x = true) /\ (forall k, p < k <= hi -> flt x (kat d' k) = true).
Proof.
  intros Hx. induction fuel as [|f IH]; intros c d up down Hc Hd HN Hud Hh Hf HL HR; cbn [part_loop].
  - destruct (Nat.ltb_spec up down); [destruct (fle (kat d up) x); lia|]. assert (up = down) by lia. subst down.
    exists c, d, up. split; [reflexivity|]. split; [reflexivity|]. split; [reflexivity|]. split; [apply rearr_refl; reflexivity|]. split; [lia|]. auto.
  - destruct (Nat.ltb_spec up down) as [Hlt|Hge].
    2: { assert (up = down) by lia. subst down. exists c, d, up. split; [reflexivity|]. split; [reflexivity|]. split; [reflexivity|]. split; [apply rearr_refl; reflexivity|]. split; [lia|]. auto. }
    destruct (scan_up_ok d x (down - up) up ltac:(lia)) as (u & E1 & U1 & U2 & U3). rewrite E1. cbn [bind].
    destruct (scan_down_ok d x (down - u) down ltac:(lia) ltac:(lia)) as (w & E2 & W1 & W2 & W3). rewrite E2. cbn [bind].
    assert (HL' : forall k, lo <= k < u -> fle (kat d k) x = true) by (intros k Hk; destruct (le_lt_dec up k); [apply U2; lia|apply HL; lia]).
    assert (HR' : forall k, w < k <= hi -> flt x (kat d k) = true) by (intros k Hk; destruct (le_lt_dec k down); [apply W2; lia|apply HR; lia]).
    destruct (Nat.eqb_spec u w) as [<-|Hne].
    + exists c, d, u. split; [reflexivity|]. split; [reflexivity|]. split; [reflexivity|]. split; [apply rearr_refl; reflexivity|]. split; [lia|]. auto.
    + assert (Hdu : fle (kat d u) x = false) by (destruct U3 as [->|H]; [lia|exact H]).
      assert (Hdw : fgt (kat d w) x = false) by (destruct W3 as [->|H]; [lia|exact H]).
      assert (Hgu : flt x (kat d u) = true) by (apply not_fle; [apply HN; lia|exact Hx|exact Hdu]).
      assert (Hlw : fle (kat d w) x = true) by (apply not_flt; [exact Hx|apply HN; lia|exact Hdw]).
      destruct (swap_ok d u w fzero ltac:(lia) ltac:(lia)) as (d1 & E3 & L3 & S3). destruct (swap_ok c u w c0 ltac:(lia) ltac:(lia)) as (c1 & E4 & L4 & S4).
      rewrite E3. cbn [bind]. rewrite E4. cbn [bind].
      assert (HRe : rearr lo hi (pat c d) (pat c1 d1)) by (apply (rearr_swap lo hi u w); [lia|lia|]; intros k; unfold pat, kat; rewrite S3, S4; reflexivity).
      assert (Hk1 : forall k, kat d1 k = kat d (tr u w k)) by (intros k; apply S3).
      assert (Tu : kat d1 u = kat d w) by (rewrite Hk1; unfold tr; rewrite Nat.eqb_refl; reflexivity).
      assert (Tw : kat d1 w = kat d u) by (rewrite Hk1; unfold tr; destruct (Nat.eqb_spec w u); [lia|]; rewrite Nat.eqb_refl; reflexivity).
      assert (To : forall k, k <> u -> k <> w -> kat d1 k = kat d k) by (intros k A B; rewrite Hk1; unfold tr; destruct (Nat.eqb_spec k u), (Nat.eqb_spec k w); congruence).
      destruct (IH c1 d1 u w) as (c2 & d2 & p & E5 & L5 & L6 & R5 & P5).
      * lia. * lia. * apply (rearr_nonan _ _ _ _ _ _ HRe HN). * lia. * lia.
      * rewrite Tu, Hlw. assert (Hup : fle (kat d up) x = true -> up < u). { intros H. destruct (Nat.eq_dec up u); [subst; congruence|lia]. }
        destruct (fle (kat d up) x); [specialize (Hup eq_refl)|]; lia.
      * intros k Hk. rewrite To by lia. apply HL'. exact Hk.
      * intros k Hk. rewrite To by lia. apply HR'. exact Hk.
      * exists c2, d2, p. split; [exact E5|]. split; [lia|]. split; [lia|]. split; [apply (rearr_trans _ _ _ _ _ HRe R5)|exact P5].
Qed.

Lemma fle_of_flt a b : flt a b = true -> fle a b = true.
Proof. intros H. apply flt_true in H. destruct H as (A & B & H). apply fle_intro; [exact A|exact B|]. lia. Qed.

Lemma partition_ok fuel c d lo hi : lo < hi -> hi < length c -> hi < length d -> nonan d lo hi -> hi - lo <= fuel ->
  exists c' d' p, tandem_partition fuel c d lo hi = Ok (c', d', p) /\ length c' = length c /\ length d' = length d /\ rearr lo hi (pat c d) (pat c' d') /\
    lo <= p <= hi /\ (forall k, lo <= k < p -> fle (kat d' k) (kat d' p) = true) /\ (forall k, p < k <= hi -> fle (kat d' p) (kat d' k) = true).
Proof.
  intros Hlt Hc Hd HN Hf. unfold tandem_partition. rewrite kat_get by lia. cbn [bind].
  rewrite (cget c lo) by lia. cbn [bind]. set (x := kat d lo). assert (Hx : notnan x) by (apply HN; lia).
  destruct (part_loop_ok (S lo) hi x Hx fuel c d (S lo) hi Hc Hd) as (c1 & d1 & u & E1 & L1 & L2 & R1 & U1 & U2 & U3).
  { intros k Hk. apply HN. lia. } { lia. } { lia. } { destruct (fle (kat d (S lo)) x); lia. } { intros; lia. } { intros; lia. }
  rewrite E1. cbn [bind]. rewrite kat_get by lia. cbn [bind].
  pose proof (rearr_outside _ _ _ _ lo R1 ltac:(lia)) as Elo. unfold pat in Elo. injection Elo as Ec Ed.
  pose proof (rearr_mono (S lo) hi lo hi _ _ ltac:(lia) ltac:(lia) R1) as R1'. pose proof (rearr_nonan _ _ _ _ _ _ R1' HN) as HN1.
  set (v := if fgt (kat d1 u) x then u - 1 else u).
  assert (Hv : lo <= v <= hi) by (unfold v; destruct (fgt (kat d1 u) x); lia).
  assert (V1 : forall k, lo < k <= v -> fle (kat d1 k) x = true).
  { intros k Hk. unfold v in Hk. destruct (fgt (kat d1 u) x) eqn:Eg; [apply U2; lia|]. destruct (Nat.eq_dec k u) as [->|]; [|apply U2; lia].
    apply not_flt; [exact Hx|apply HN1; lia|exact Eg]. }
  assert (V2 : forall k, v < k <= hi -> flt x (kat d1 k) = true).
  { intros k Hk. unfold v in Hk. destruct (fgt (kat d1 u) x) eqn:Eg; [|apply U3; lia]. destruct (Nat.eq_dec k u) as [->|]; [exact Eg|apply U3; lia]. }
  clearbody v. rewrite kat_get by lia. cbn [bind]. rewrite aset_ok by lia. cbn [bind]. rewrite aset_ok by (rewrite upd_length; lia). cbn [bind].
  rewrite (cget c1 v) by lia. cbn [bind]. rewrite aset_ok by lia. cbn [bind]. rewrite aset_ok by (rewrite upd_length; lia). cbn [bind].
  eexists _, _, v. split; [reflexivity|]. split; [rewrite !upd_length; exact L1|]. split; [rewrite !upd_length; exact L2|].
  assert (Hd2 : forall k, kat (upd (upd d1 lo (kat d1 v)) v x) k = kat d1 (tr lo v k)).
  { intros k. unfold kat at 1. rewrite nth_upd by (rewrite upd_length; lia). rewrite nth_upd by lia. unfold tr.
    destruct (Nat.eqb_spec k v), (Nat.eqb_spec k lo); subst; try reflexivity; unfold x, kat in *; congruence. }
  assert (Hc2 : forall k, nth k (upd (upd c1 lo (nth v c1 c0)) v (nth lo c c0)) c0 = nth (tr lo v k) c1 c0).
  { intros k. rewrite nth_upd by (rewrite upd_length; lia). rewrite nth_upd by lia. unfold tr.
    destruct (Nat.eqb_spec k v), (Nat.eqb_spec k lo); subst; try reflexivity; congruence. }
  split.
  { apply (rearr_trans _ _ _ _ _ R1'). apply (rearr_swap lo hi lo v); [lia|lia|]. intros k. unfold pat. rewrite Hd2, Hc2. reflexivity. }
  split; [exact Hv|].
  assert (Hpv : kat (upd (upd d1 lo (kat d1 v)) v x) v = x).
  { unfold kat at 1. rewrite nth_upd by (rewrite upd_length; lia). rewrite Nat.eqb_refl. reflexivity. }
  rewrite Hpv. split; intros k Hk; rewrite Hd2; unfold tr.
  - destruct (Nat.eqb_spec k lo); [apply V1; lia|]. destruct (Nat.eqb_spec k v); [lia|]. apply V1. lia.
  - destruct (Nat.eqb_spec k lo); [lia|]. destruct (Nat.eqb_spec k v); [lia|]. apply fle_of_flt, V2. lia.
Qed.

Lemma quicksort_ok fuel : forall c d left right, (0 <= left)%Z -> (right < Z.of_nat (length c))%Z -> (right < Z.of_nat (length d))%Z ->
  nonan d (Z.to_nat left) (Z.to_nat right) -> (right - left <= Z.of_nat fuel)%Z ->
  exists c' d', tandem_quicksort fuel c d left right = Ok (c', d') /\ length c' = length c /\ length d' = length d /\
    ((left <= right)%Z -> rearr (Z.to_nat left) (Z.to_nat right) (pat c d) (pat c' d')) /\ ((right < left)%Z -> c' = c /\ d' = d) /\
    (forall i j, (left <= Z.of_nat i)%Z -> i <= j -> (Z.of_nat j <= right)%Z -> fle (kat d' i) (kat d' j) = true).
Proof.
  induction fuel as [|f IH]; intros c d left right Hl Hc Hd HN Hf; cbn [tandem_quicksort].
  - destruct (Z.ltb_spec left right); [lia|]. exists c, d. split; [reflexivity|]. split; [reflexivity|]. split; [reflexivity|]. split; [intros _; apply rearr_refl; reflexivity|].
    split; [auto|]. intros i j Hi Hij Hj. assert (i = j) by lia. subst j. apply fle_refl. apply HN. lia.
  - destruct (Z.ltb_spec left right) as [Hlt|Hge].
    2: { exists c, d. split; [reflexivity|]. split; [reflexivity|]. split; [reflexivity|]. split; [intros _; apply rearr_refl; reflexivity|].
         split; [auto|]. intros i j Hi Hij Hj. assert (i = j) by lia. subst j. apply fle_refl. apply HN. lia. }
    destruct (Z.ltb_spec left 0) as [Hneg|_]; [lia|].
    destruct (partition_ok (S f) c d (Z.to_nat left) (Z.to_nat right) ltac:(lia) ltac:(lia) ltac:(lia) HN ltac:(lia)) as (c1 & d1 & p & E1 & L1 & M1 & R1 & P1 & P2 & P3).
    rewrite E1. cbn [bind]. pose proof (rearr_nonan _ _ _ _ _ _ R1 HN) as HN1.
    destruct (IH c1 d1 left (Z.of_nat p - 1)%Z ltac:(lia) ltac:(lia) ltac:(lia)) as (c2 & d2 & E2 & L2 & M2 & R2 & S2 & O2).
    { intros k Hk. apply HN1. lia. } { lia. }
    rewrite E2. cbn [bind fst snd].
    assert (R2' : rearr (Z.to_nat left) (Z.to_nat right) (pat c1 d1) (pat c2 d2)).
    { destruct (Z_lt_le_dec (Z.of_nat p - 1) left) as [H|H]; [destruct (S2 H) as [-> ->]; apply rearr_refl; reflexivity|].
      apply (rearr_mono (Z.to_nat left) (Z.to_nat (Z.of_nat p - 1))); [lia|lia|apply R2; exact H]. }
    pose proof (rearr_nonan _ _ _ _ _ _ R2' HN1) as HN2.
    assert (K2 : forall k, p <= k -> kat d2 k = kat d1 k).
    { intros k Hk. destruct (Z_lt_le_dec (Z.of_nat p - 1) left) as [H|H]; [destruct (S2 H) as [_ ->]; reflexivity|].
      pose proof (rearr_outside _ _ _ _ k (R2 H) ltac:(lia)) as E. unfold pat in E. injection E as _ E. exact E. }
    assert (P2' : forall k, Z.to_nat left <= k < p -> fle (kat d2 k) (kat d1 p) = true).
    { intros k Hk. destruct (rearr_inside _ _ _ _ k (R2 ltac:(lia)) ltac:(lia)) as (k' & Hk' & E). unfold pat in E. injection E as _ E. rewrite E. apply P2. lia. }
    destruct (IH c2 d2 (Z.of_nat p + 1)%Z right ltac:(lia) ltac:(lia) ltac:(lia)) as (c3 & d3 & E3 & L3 & M3 & R3 & S3 & O3).
    { intros k Hk. apply HN2. lia. } { lia. }
    rewrite E3. exists c3, d3. split; [reflexivity|]. split; [lia|]. split; [lia|].
    assert (R3' : rearr (Z.to_nat left) (Z.to_nat right) (pat c2 d2) (pat c3 d3)).
    { destruct (Z_lt_le_dec right (Z.of_nat p + 1)) as [H1|H1]; [destruct (S3 H1) as [-> ->]; apply rearr_refl; reflexivity|].
      apply (rearr_mono (Z.to_nat (Z.of_nat p + 1)) (Z.to_nat right)); [lia|lia|apply R3; exact H1]. }
    split; [intros _; apply (rearr_trans _ _ _ _ _ R1), (rearr_trans _ _ _ _ _ R2' R3')|]. split; [intros; lia|].
    assert (K3 : forall k, k <= p -> kat d3 k = kat d2 k).
    { intros k Hk. destruct (Z_lt_le_dec right (Z.of_nat p + 1)) as [H1|H1]; [destruct (S3 H1) as [_ ->]; reflexivity|].
      pose proof (rearr_outside _ _ _ _ k (R3 H1) ltac:(lia)) as E. unfold pat in E. injection E as _ E. exact E. }
    assert (Q2 : forall k, Z.to_nat left <= k <= p -> fle (kat d3 k) (kat d1 p) = true).
    { intros k Hk. rewrite K3 by lia. destruct (Nat.eq_dec k p) as [->|]; [rewrite K2 by lia; apply fle_refl, HN1; lia|apply P2'; lia]. }
    assert (Q3 : forall k, p <= k <= Z.to_nat right -> fle (kat d1 p) (kat d3 k) = true).
    { intros k Hk. destruct (Nat.eq_dec k p) as [->|Hne]; [rewrite K3, K2 by lia; apply fle_refl, HN1; lia|].
      destruct (rearr_inside _ _ _ _ k (R3 ltac:(lia)) ltac:(lia)) as (k' & Hk' & E). unfold pat in E. injection E as _ E. rewrite E, K2 by lia. apply P3. lia. }
    intros i j Hi Hij Hj. destruct (le_lt_dec j p) as [Hjp|Hjp].
    + destruct (Nat.eq_dec j p) as [->|Hne].
      * rewrite (K3 p), (K2 p) by lia. apply Q2. lia.
      * rewrite !K3 by lia. apply O2; lia.
    + destruct (le_lt_dec i p) as [Hip|Hip]; [apply (fle_trans _ (kat d1 p)); [apply Q2; lia|apply Q3; lia]|apply O3; lia].
Qed.
End T.

(** C47.  The pairs (label, key) are permuted, nothing outside left..right moves, and the
    keys come out in ascending order. *)
Theorem C47_tandem_quicksort : forall (C : Type) (c : list C) (d : list f64) left right fuel,
  (0 <= left)%Z -> (right < Z.of_nat (length c))%Z -> (right < Z.of_nat (length d))%Z -> (right - left <= Z.of_nat fuel)%Z ->
  (forall k x, (left <= Z.of_nat k <= right)%Z -> nth_error d k = Some x -> fisnan x = false) ->
  exists c' d', tandem_quicksort fuel c d left right = Ok (c', d') /\ length c' = length c /\ length d' = length d /\
    Permutation (combine c d) (combine c' d') /\
    (forall k, (Z.of_nat k < left \/ right < Z.of_nat k)%Z -> nth_error c' k = nth_error c k /\ nth_error d' k = nth_error d k) /\
    (forall i j x y, (left <= Z.of_nat i)%Z -> i <= j -> (Z.of_nat j <= right)%Z -> nth_error d' i = Some x -> nth_error d' j = Some y -> fle x y = true).
Proof.
  intros C c d left right fuel Hl Hc Hd Hf HN. destruct (Z_lt_le_dec left right) as [Hlt|Hge].
  - destruct c as [|c0 cr]; [cbn [length] in Hc; lia|]. set (c := c0 :: cr) in *.
    destruct (quicksort_ok c0 fuel c d left right Hl Hc Hd) as (c' & d' & E & L1 & L2 & R & _ & O).
    { intros k Hk. apply (HN k); [lia|]. unfold kat. apply nth_error_nth'. lia. } { exact Hf. }
    specialize (R ltac:(lia)). exists c', d'. split; [exact E|]. split; [exact L1|]. split; [exact L2|].
    assert (Hmap : forall (a : list C) (b : list f64), length a = length c -> length b = length d -> combine a b = map (pat c0 a b) (seq 0 (min (length c) (length d)))).
    { intros a b La Lb. apply (nth_error_ext). intros i. rewrite nth_error_map.
      destruct (le_lt_dec (min (length c) (length d)) i) as [Hi|Hi].
      - rewrite (proj2 (nth_error_None (seq _ _) i)) by (rewrite seq_length; exact Hi). apply nth_error_None. rewrite combine_length. lia.
      - rewrite (nth_error_nth' _ 0) by (rewrite seq_length; exact Hi). rewrite seq_nth by exact Hi. cbn [Nat.add option_map].
        rewrite (nth_error_nth' _ (c0, fzero)) by (rewrite combine_length; lia). f_equal. unfold pat, kat.
        assert (Hcn : forall (l1 : list C) (l2 : list f64) j, j < length l1 -> j < length l2 -> nth j (combine l1 l2) (c0, fzero) = (nth j l1 c0, nth j l2 fzero)).
        { clear. induction l1 as [|x l1 IH]; intros l2 j H1 H2; [cbn in H1; lia|]. destruct l2 as [|y l2]; [cbn in H2; lia|]. destruct j as [|j]; [reflexivity|]. cbn [combine nth]. apply IH; cbn [length] in *; lia. }
        apply Hcn; lia. }
    split; [rewrite (Hmap c d eq_refl eq_refl), (Hmap c' d' L1 L2); apply (rearr_perm _ _ _ _ _ R); lia|].
    split.
    + intros k Hk. pose proof (rearr_outside _ _ _ _ k R ltac:(lia)) as Ek. unfold pat, kat in Ek. injection Ek as E1 E2.
      split; [destruct (le_lt_dec (length c) k) as [H|H]|destruct (le_lt_dec (length d) k) as [H|H]].
      * rewrite !(proj2 (nth_error_None _ _)) by lia. reflexivity.
      * rewrite !(nth_error_nth' _ c0) by lia. f_equal. exact E1.
      * rewrite !(proj2 (nth_error_None _ _)) by lia. reflexivity.
      * rewrite !(nth_error_nth' _ fzero) by lia. f_equal. exact E2.
    + intros i j x y Hi Hij Hj Hx Hy. apply (nth_error_nth _ _ fzero) in Hx, Hy. rewrite <- Hx, <- Hy. apply O; assumption.
  - exists c, d. split; [destruct fuel; cbn [tandem_quicksort]; (destruct (Z.ltb_spec left right); [lia|reflexivity])|].
    split; [reflexivity|]. split; [reflexivity|]. split; [reflexivity|]. split; [auto|].
    intros i j x y Hi Hij Hj Hx Hy. assert (i = j) by lia. subst j. rewrite Hx in Hy. injection Hy as <-. apply fle_refl. apply (HN i); [lia|exact Hx].
Qed.
Print Assumptions C47_tandem_quicksort.

Lemma nan_scan_up d x up n : fisnan x = true -> up < length d -> scan_up d x up (S n) = Ok up.
Proof. intros Hx Hl. cbn [scan_up]. rewrite kat_get by exact Hl. cbn [bind]. rewrite (fle_nan_r _ _ Hx). reflexivity. Qed.
Lemma nan_scan_down d x down n : fisnan x = true -> down < length d -> scan_down d x down (S n) = Ok down.
Proof. intros Hx Hl. cbn [scan_down]. rewrite kat_get by exact Hl. cbn [bind]. unfold fgt. rewrite (flt_nan_l _ _ Hx). reflexivity. Qed.

(** When the first key is NaN and there are at least three keys, the partition swaps the same
    two elements for ever: no number of rounds is enough. *)
Theorem C47_nan_pivot_never_terminates_refuted : forall (C : Type) fuel (c : list C) (d : list f64) left right x,
  (0 <= left)%Z -> (left + 2 <= right)%Z -> (right < Z.of_nat (length c))%Z -> (right < Z.of_nat (length d))%Z ->
  nth_error d (Z.to_nat left) = Some x -> fisnan x = true ->
  tandem_quicksort fuel c d left right = Fuel.
Proof.
  intros C fuel c d left right x Hl Hr Hc Hd Hx Hn.
  assert (HL : forall f (c : list C) (d : list f64) up down, up < down -> down < length c -> down < length d -> part_loop f c d x up down = Fuel).
  { induction f as [|f IH]; intros c1 d1 up down H1 H2 H3; cbn [part_loop]; (destruct (Nat.ltb_spec up down); [|lia]); [reflexivity|].
    replace (down - up) with (S (down - up - 1)) by lia. rewrite nan_scan_up by (auto; lia). cbn [bind].
    replace (down - up) with (S (down - up - 1)) by lia. rewrite nan_scan_down by (auto; lia). cbn [bind].
    destruct (Nat.eqb_spec up down); [lia|].
    destruct (swap_ok d1 up down fzero ltac:(lia) ltac:(lia)) as (d2 & -> & L2 & _). cbn [bind].
    destruct c1 as [|c0 cr]; [cbn [length] in H2; lia|].
    destruct (swap_ok (c0 :: cr) up down c0 ltac:(lia) ltac:(lia)) as (c2 & -> & L3 & _). cbn [bind]. apply IH; lia. }
  destruct fuel as [|f]; cbn [tandem_quicksort]; (destruct (Z.ltb_spec left right); [|lia]); [reflexivity|].
  destruct (Z.ltb_spec left 0) as [Hneg|_]; [lia|]. unfold tandem_partition. rewrite (aget_nth _ _ _ Hx). cbn [bind].
  destruct (aget_ok c (Z.to_nat left) ltac:(lia)) as (x2 & -> & _). cbn [bind]. rewrite HL by lia. reflexivity.
Qed.
Print Assumptions C47_nan_pivot_never_terminates_refuted.

Example C47_example :
  (let! r := tandem_quicksort 6 [10; 11; 12; 13; 14; 15; 16]%Z (map f_of_Z [5; 4; 9; 4; 7; 0; 8]%Z) 1 5 in Ok (fst r)) = Ok [10; 15; 13; 11; 14; 12; 16]%Z /\
  tandem_quicksort 100 [1; 2; 3]%Z [fnan; fone; fone] 0 2 = Fuel.
Proof. split; vm_compute; reflexivity. Qed.
