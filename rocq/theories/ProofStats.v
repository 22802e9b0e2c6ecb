(** Reading tables, sorting lists of labels, and the arithmetic of the statistics. *)
From Coq Require Import Sorted Permutation Reals Lra.
From Flocq Require Import Core.Core IEEE754.BinarySingleNaN.
From Verif Require Import Base ListFacts F64 F64Facts F64Arith ModelArrayList ProofArrayList ModelCells ModelHash
  ModelMap ProofMap PropTandem SpecStats.
From Coq Require Import ZifyBool ZifyNat.
Local Open Scope nat_scope.

Section Tab.
Context {V : Type}.
Implicit Type t : ptable V.

(** A well-formed table with these entries, in the order of its keys. *)
Definition table t (kv : list (Z * V)) : Prop :=
  (exists m, pgood t m) /\ reads t kv /\ Forall label_ok (map fst kv) /\ StronglySorted Z.lt (map lkey (map fst kv)).

Lemma table_exists t m : pgood t m -> exists kv, table t kv /\ Permutation (map fst kv) (map fst m).
Proof.
  intros HG. destruct (pt_keys t m HG) as (ls & K1 & K2 & K3 & K4).
  assert (HV : forall l, In l ls -> exists v, pt_deref t l = Ok v).
  { intros l Hl. apply (Permutation_in _ K2) in Hl. apply in_map_iff in Hl. destruct Hl as ([l' a] & E & Hin). cbn [fst] in E. subst l'.
    rewrite (pt_deref_ok t m l HG (pg_lab _ _ HG _ _ Hin)), (proj2 (pfind_in m l a (pg_nd _ _ HG)) Hin).
    destruct (aget_ok (pt_mem t) a (addr_lt t m l a HG Hin)) as (v & E & _). exists v. exact E. }
  assert (HK : exists kv, map fst kv = ls /\ forall k v, In (k, v) kv -> pt_deref t k = Ok v).
  { clear -HV. induction ls as [|l ls IH]; [exists []; split; [reflexivity|intros k v []]|].
    destruct IH as (kv & E & H); [intros x Hx; apply HV; right; exact Hx|]. destruct (HV l (or_introl eq_refl)) as (v & Ev).
    exists ((l, v) :: kv). cbn [map fst]. split; [f_equal; exact E|]. intros k w [Hw|Hw]; [injection Hw as <- <-; exact Ev|apply (H k w Hw)]. }
  destruct HK as (kv & E & Hv). exists kv. rewrite E. split; [|exact K2]. split; [exists m; exact HG|]. split; [split; [|split]|split].
  - rewrite <- (map_length fst kv), E. exact K1.
  - rewrite E. eapply Permutation_NoDup; [apply Permutation_sym, K2|apply HG].
  - intros i k v Hi. split; [|apply Hv, (nth_error_In _ _ Hi)]. apply K4. rewrite <- E, nth_error_map, Hi. reflexivity.
  - rewrite E. apply Forall_forall. intros l Hl. apply (Permutation_in _ K2) in Hl. apply in_map_iff in Hl. destruct Hl as ([l' a] & E' & Hin). cbn [fst] in E'. subst l'. apply (pg_lab _ _ HG _ _ Hin).
  - rewrite E. exact K3.
Qed.

Lemma table_label t kv i k v : table t kv -> nth_error kv i = Some (k, v) -> label_ok k.
Proof. intros (_ & _ & H & _) Hi. rewrite Forall_forall in H. apply H. change k with (fst (k, v)). apply in_map, (nth_error_In _ _ Hi). Qed.

Lemma table_store t kv i k v w : table t kv -> nth_error kv i = Some (k, v) ->
  exists a t', pt_find t k = Ok (Some a) /\ pt_load t a = Ok v /\ pt_store t a w = Ok t' /\ table t' (upd kv i (k, w)).
Proof.
  intros HT Hi. pose proof (table_label _ _ _ _ _ HT Hi) as Hlab. destruct HT as ((m & HG) & (R1 & R2 & R3) & HL & HS).
  destruct (R3 i k v Hi) as [Hk Hv]. rewrite (pt_deref_ok t m k HG Hlab) in Hv. destruct (pfind m k) as [a|] eqn:Ef; [|discriminate].
  pose proof (proj1 (pfind_in m k a (pg_nd _ _ HG)) Ef) as Hin. destruct (pt_store_ok t m a w HG (addr_lt t m k a HG Hin)) as (t' & Es & G' & M').
  exists a, t'. split; [rewrite (pt_find_ok t m k HG Hlab), Ef; reflexivity|]. split; [exact Hv|]. split; [exact Es|].
  assert (Etab : pt_tab t' = pt_tab t).
  { unfold pt_store in Es. rewrite aset_ok in Es by (apply (addr_lt t m k a HG Hin)). cbn [bind] in Es. injection Es as <-. reflexivity. }
  assert (Efst : map fst (upd kv i (k, w)) = map fst kv).
  { apply nth_error_ext. intros j. rewrite !nth_error_map, nth_error_upd. destruct (Nat.eqb_spec i j) as [<-|]; cbn [andb]; [|reflexivity].
    destruct (Nat.ltb_spec i (length kv)); [rewrite Hi; reflexivity|reflexivity]. }
  split; [exists m; exact G'|]. rewrite Efst. split; [|split; [exact HL|exact HS]]. split; [|split].
  - unfold pt_size in *. rewrite Etab, upd_length. exact R1.
  - rewrite Efst. exact R2.
  - intros j k' v' Hj. rewrite nth_error_upd in Hj. unfold pt_key. rewrite Etab. fold (pt_key t j). destruct (Nat.eqb_spec i j) as [<-|Hne]; cbn [andb] in Hj.
    + destruct (Nat.ltb_spec i (length kv)) as [Hlt|Hge]; [|exfalso; assert (i < length kv) by (apply nth_error_Some; congruence); lia].
      injection Hj as <- <-. split; [exact Hk|]. rewrite (pt_deref_ok t' m k G' Hlab), Ef, M'. apply aget_nth, nth_error_upd_eq, (addr_lt t m k a HG Hin).
    + destruct (R3 j k' v' Hj) as [Hk' Hv']. split; [exact Hk'|].
      assert (Hlab' : label_ok k') by (rewrite Forall_forall in HL; apply HL; change k' with (fst (k', v')); apply in_map, (nth_error_In _ _ Hj)).
      rewrite (pt_deref_ok t m k' HG Hlab') in Hv'. rewrite (pt_deref_ok t' m k' G' Hlab'). destruct (pfind m k') as [b|] eqn:Eb; [|discriminate].
      rewrite M'. destruct (Nat.eq_dec b a) as [->|Hab].
      * exfalso. pose proof (proj1 (pfind_in m k' a (pg_nd _ _ HG)) Eb) as Hin'. pose proof (addr_inj t m k k' a HG Hin Hin') as Ek. subst k'.
        apply Hne. apply (proj1 (NoDup_nth_error (map fst kv)) R2); [rewrite map_length; apply nth_error_Some; congruence|]. rewrite !nth_error_map, Hi, Hj. reflexivity.
      * unfold aget in *. rewrite nth_error_upd_neq by auto. exact Hv'.
Qed.
End Tab.

(** Loops over a list. *)
Lemma for_up_list {S T} (f : S -> T -> S) (xs : list T) n : forall k s, k + n <= length xs ->
  for_up k n (fun i s => let! x := aget xs i in Ok (f s x)) s = Ok (fold_left f (firstn n (skipn k xs)) s).
Proof.
  induction n as [|n IH]; intros k s Hl; cbn [for_up]; [rewrite firstn_O; reflexivity|].
  destruct (aget_ok xs k ltac:(lia)) as (x & E & Hx). rewrite E. cbn [bind]. rewrite IH by lia. f_equal.
  assert (Hs : skipn k xs = x :: skipn (Datatypes.S k) xs).
  { clear -Hx. revert xs Hx. induction k as [|k IH]; intros [|y xs] Hx; cbn in *; try discriminate; [congruence|]. apply IH, Hx. }
  rewrite Hs. reflexivity.
Qed.

(** Sorting a list of labels. *)
Lemma sort_list_ok fuel al l keys : rep al l -> length keys = length l -> (Z.of_nat (length l) < 2147483648)%Z -> length l <= fuel ->
  (forall x, In x keys -> fisnan x = false) ->
  exists al' l' keys', sort_list fuel al keys = Ok al' /\ rep al' l' /\ length keys' = length l' /\ Permutation (combine l keys) (combine l' keys') /\
    (forall i j x y, i <= j -> nth_error keys' i = Some x -> nth_error keys' j = Some y -> fle x y = true).
Proof.
  intros HR Hk Hlt Hf HN. destruct HR as (R1 & R2 & R3 & R4 & R5). unfold sort_list.
  assert (Hr : i32_of_u32 (u32 (Z.of_nat (al_size al) - 1)) = (Z.of_nat (length l) - 1)%Z).
  { rewrite R1. unfold i32_of_u32, u32, M32. destruct (length l) as [|n] eqn:El; [reflexivity|]. rewrite Z.mod_small by lia. destruct (Z.ltb_spec (Z.of_nat (S n) - 1) 2147483648); lia. }
  rewrite Hr.
  destruct (C47_tandem_quicksort _ (al_data al) keys 0 (Z.of_nat (length l) - 1)%Z fuel) as (c' & d' & E & L1 & L2 & P & O & S); [lia|lia|lia|lia| |].
  { intros k x _ Hx. apply HN, (nth_error_In _ _ Hx). }
  rewrite E. cbn [bind fst].
  assert (Hc : combine (al_data al) keys = combine (map Some l) keys).
  { apply nth_error_ext. intros i. destruct (le_lt_dec (length l) i) as [Hi|Hi].
    - rewrite !(proj2 (nth_error_None _ i)); [reflexivity| |]; rewrite combine_length, ?map_length; lia.
    - destruct (nth_error l i) as [a|] eqn:Ea; [|apply nth_error_None in Ea; lia]. destruct (nth_error keys i) as [y|] eqn:Ey; [|apply nth_error_None in Ey; lia].
      assert (Hcn : forall (A B : Type) (l1 : list A) (l2 : list B) j u w, nth_error l1 j = Some u -> nth_error l2 j = Some w -> nth_error (combine l1 l2) j = Some (u, w)).
      { clear. intros A B. induction l1 as [|z l1 IH]; intros [|z2 l2] [|j] u w H1 H2; cbn in *; try discriminate; [congruence|apply IH; assumption]. }
      rewrite (Hcn _ _ _ _ _ _ _ (R5 i a Ea) Ey). symmetry. apply Hcn; [|exact Ey]. rewrite nth_error_map, Ea. reflexivity. }
  rewrite Hc in P.
  assert (Hfirst : combine c' d' = combine (firstn (length l) c') d').
  { clear -L2 Hk. rewrite <- Hk, <- L2. clear. revert c'. induction d' as [|y d' IH]; intros [|x c']; cbn; try reflexivity. f_equal. apply IH. }
  assert (Hsome : exists l', firstn (length l) c' = map Some l').
  { assert (HF : forall x, In x (firstn (length l) c') -> exists a, x = Some a).
    { intros x Hx. apply In_nth_error in Hx. destruct Hx as (i & Hi). assert (i < length l).
      { assert (H : i < length (firstn (length l) c')) by (apply nth_error_Some; congruence). rewrite firstn_length in H. lia. }
      destruct (nth_error d' i) as [y|] eqn:Ey; [|apply nth_error_None in Ey; lia].
      assert (Hin : In (x, y) (combine c' d')).
      { rewrite Hfirst. clear -Hi Ey. revert d' i Hi Ey. generalize (firstn (length l) c'). intros a. induction a as [|z a IH]; intros [|w d'] [|i] Hi Ey; cbn in *; try discriminate; [left; congruence|right; apply (IH d' i); assumption]. }
      apply (Permutation_in _ (Permutation_sym P)) in Hin. apply in_combine_l in Hin. apply in_map_iff in Hin. destruct Hin as (a & <- & _). eauto. }
    clear -HF. induction (firstn (length l) c') as [|x xs IH]; [exists []; reflexivity|]. destruct (HF x (or_introl eq_refl)) as (a & ->). destruct IH as (l' & E); [intros y Hy; apply HF; right; exact Hy|].
    exists (a :: l'). cbn [map]. f_equal. exact E. }
  destruct Hsome as (l' & El'). assert (Hll : length l' = length l).
  { rewrite <- (map_length Some l'), <- El', firstn_length. lia. }
  eexists _, l', d'. split; [reflexivity|]. split; [|split; [lia|split]].
  - split; [cbn [al_size]; lia|]. split; [cbn [al_data al_max]; lia|]. split; [exact R3|]. split; [cbn [al_max]; lia|].
    intros i a Hi. cbn [al_data]. assert (Hx : nth_error (firstn (length l) c') i = Some (Some a)) by (rewrite El', nth_error_map, Hi; reflexivity).
    rewrite nth_error_firstn in Hx. destruct (i <? length l); [exact Hx|discriminate].
  - rewrite Hfirst, El' in P. clear -P.
    apply (Permutation_map (fun p : option Z * f64 => (match fst p with Some z => z | None => 0%Z end, snd p))) in P.
    assert (H : forall (a : list Z) (b : list f64), map (fun p : option Z * f64 => (match fst p with Some z => z | None => 0%Z end, snd p)) (combine (map Some a) b) = combine a b).
    { induction a as [|x a IH]; intros [|y b]; cbn; try reflexivity. f_equal. apply IH. }
    rewrite !H in P. exact P.
  - intros i j x y Hij Hx Hy. apply (S i j x y); [lia|exact Hij| |exact Hx|exact Hy]. assert (j < length d') by (apply nth_error_Some; congruence). lia.
Qed.

(** ** Confidence *)
Local Open Scope R_scope.
Lemma conf_R mx r : is_finite mx = true -> 0 < B2R mx -> is_finite r = true -> 0 <= B2R r <= B2R mx ->
  is_finite (confidence mx r) = true /\ B2R (confidence mx r) = rnd (rnd (rnd (B2R mx - B2R r) / B2R mx) * 100) /\ 0 <= B2R (confidence mx r) <= 100.
Proof.
  intros Fm Pm Fr Hr. unfold confidence.
  assert (R100 : is_finite (f_of_Z 100) = true /\ B2R (f_of_Z 100) = 100) by (apply f_of_Z_small; lia). destruct R100 as [F100 R100].
  assert (R1 : B2R fone = 1) by (cbn; unfold F2R; cbn; lra).
  assert (B100 : 100 < big) by (apply Rlt_trans with (bpow radix2 7); [change (bpow radix2 7) with 128; lra|apply bpow_lt; lia]).
  assert (H1 : 0 <= rnd (B2R mx - B2R r) <= B2R mx).
  { split; [apply rnd_nonneg; lra|]. rewrite <- (rnd_id mx) at 2. apply rnd_le. lra. }
  assert (Bm : B2R mx < big) by (pose proof (abs_B2R_lt_emax 53 1024 mx) as HB; fold big in HB; apply Rabs_lt_inv in HB; lra).
  pose proof (Bminus_correct 53 1024 Hprec Hmax mode_NE mx r Fm Fr) as HM. fold (rnd (B2R mx - B2R r)) in HM. fold big in HM. fold (fsub mx r) in HM.
  rewrite Rlt_bool_true in HM by (rewrite Rabs_pos_eq; lra). destruct HM as (M1 & M2 & _).
  assert (H2 : 0 <= rnd (B2R (fsub mx r) / B2R mx) <= 1).
  { rewrite M1. split; [apply rnd_nonneg; apply Rmult_le_pos; [lra|left; apply Rinv_0_lt_compat; exact Pm]|].
    rewrite <- R1, <- (rnd_id fone), R1. apply rnd_le. apply (Rmult_le_reg_r (B2R mx)); [exact Pm|]. unfold Rdiv. rewrite Rmult_assoc, Rinv_l by lra. lra. }
  pose proof (Bdiv_correct 53 1024 Hprec Hmax mode_NE (fsub mx r) mx ltac:(lra)) as HD. fold (rnd (B2R (fsub mx r) / B2R mx)) in HD. fold big in HD. fold (fdiv (fsub mx r) mx) in HD.
  rewrite Rlt_bool_true in HD by (rewrite Rabs_pos_eq; lra). destruct HD as (D1 & D2 & _). rewrite M2 in D2.
  assert (H3 : 0 <= rnd (B2R (fdiv (fsub mx r) mx) * B2R (f_of_Z 100)) <= 100).
  { rewrite D1, R100. split; [apply rnd_nonneg; lra|]. rewrite <- R100 at 2. rewrite <- (rnd_id (f_of_Z 100)), R100. apply rnd_le. lra. }
  pose proof (Bmult_correct 53 1024 Hprec Hmax mode_NE (fdiv (fsub mx r) mx) (f_of_Z 100)) as HT.
  fold (rnd (B2R (fdiv (fsub mx r) mx) * B2R (f_of_Z 100))) in HT. fold big in HT. fold (fmul (fdiv (fsub mx r) mx) (f_of_Z 100)) in HT.
  rewrite Rlt_bool_true in HT by (rewrite Rabs_pos_eq; lra). destruct HT as (T1 & T2 & _). rewrite D2, F100 in T2.
  split; [exact T2|]. rewrite T1. split; [rewrite D1, M1, R100; reflexivity|exact H3].
Qed.

Definition hundred : f64 := f_of_Z 100.
Lemma hundred_R : is_finite hundred = true /\ B2R hundred = 100.
Proof. apply f_of_Z_small. lia. Qed.
Lemma pos_R a : flt fzero a = true -> is_finite a = true -> 0 < B2R a.
Proof. intros H F. apply (flt_R fzero a) in H; [exact H|reflexivity|exact F]. Qed.
Lemma between_R mx r : is_finite mx = true -> ge0 r -> fle r mx = true -> is_finite r = true /\ 0 <= B2R r <= B2R mx.
Proof.
  intros Fm H0 H1. pose proof (fle_fin_r _ _ H0 H1 Fm) as Fr. apply fle_R in H1; [|assumption|assumption]. split; [exact Fr|]. split; [|exact H1].
  apply (fle_R fzero r) in H0; [exact H0|reflexivity|exact Fr].
Qed.
Lemma conf_range mx r : is_finite mx = true -> flt fzero mx = true -> ge0 r -> fle r mx = true ->
  fle fzero (confidence mx r) = true /\ fle (confidence mx r) hundred = true.
Proof.
  intros Fm Pm H0 H1. apply pos_R in Pm; [|exact Fm]. destruct (between_R mx r Fm H0 H1) as [Fr Hr].
  destruct (conf_R mx r Fm Pm Fr Hr) as (F & _ & B). destruct hundred_R as [FH RH]. split; apply fle_R; auto; [change (B2R fzero) with 0; lra|rewrite RH; lra].
Qed.
Lemma conf_mono mx r r' : is_finite mx = true -> flt fzero mx = true -> ge0 r -> fle r r' = true -> fle r' mx = true ->
  fle (confidence mx r') (confidence mx r) = true.
Proof.
  intros Fm Pm H0 H1 H2. apply pos_R in Pm; [|exact Fm]. pose proof (fle_trans _ _ _ H0 H1) as H0'. pose proof (fle_trans _ _ _ H1 H2) as H12.
  destruct (between_R mx r Fm H0 H12) as [Fr Hr]. destruct (between_R mx r' Fm H0' H2) as [Fr' Hr'].
  destruct (conf_R mx r Fm Pm Fr Hr) as (F & E & _). destruct (conf_R mx r' Fm Pm Fr' Hr') as (F' & E' & _).
  apply fle_R; [exact F'|exact F|]. rewrite E, E'. apply fle_R in H1; [|assumption|assumption].
  apply rnd_le. apply Rmult_le_compat_r; [lra|]. apply rnd_le. apply Rmult_le_compat_r; [left; apply Rinv_0_lt_compat; exact Pm|]. apply rnd_le. lra.
Qed.
Lemma conf_top mx r : is_finite mx = true -> flt fzero mx = true -> feq r mx = true -> feq (confidence mx r) fzero = true.
Proof.
  intros Fm Pm He. pose proof (feq_true _ _ He) as (N1 & N2 & K). apply pos_R in Pm; [|exact Fm].
  assert (H1 : fle r mx = true) by (apply fle_intro; [exact N1|exact N2|rewrite K; apply Z.le_refl]).
  assert (H2 : fle mx r = true) by (apply fle_intro; [exact N2|exact N1|rewrite K; apply Z.le_refl]).
  assert (H0 : ge0 r) by (apply (fle_trans _ mx); [apply ge0_fin; [exact Fm|lra]|exact H2]).
  destruct (between_R mx r Fm H0 H1) as [Fr Hr]. apply fle_R in H2; [|assumption|assumption].
  destruct (conf_R mx r Fm Pm Fr Hr) as (F & E & _).
  unfold feq. rewrite Beqb_correct by (try exact F; reflexivity). rewrite E. replace (B2R mx - B2R r) with 0 by lra. rewrite rnd_0. unfold Rdiv. rewrite Rmult_0_l, rnd_0, Rmult_0_l, rnd_0.
  apply Req_bool_true. reflexivity.
Qed.
Local Open Scope nat_scope.

(** NaN confidences. *)
Lemma conf_inf r : notnan r -> ge0 r -> fisnan (confidence finf r) = true.
Proof. intros N H. destruct r as [s|s| |s m e B]; try reflexivity; try discriminate N. destruct s; reflexivity. Qed.
Lemma conf_zero mx r : feq mx fzero = true -> feq r fzero = true -> fisnan (confidence mx r) = true.
Proof.
  intros H1 H2.
  destruct mx as [s|s| |s m e B]; try discriminate H1; try (destruct s; discriminate H1).
  destruct r as [s'|s'| |s' m' e' B']; try discriminate H2; try (destruct s'; discriminate H2). destruct s, s'; reflexivity.
Qed.
Lemma conf_nan r : fisnan (confidence fnan r) = true.
Proof. reflexivity. Qed.

(** ** The series *)
Lemma fgt_key a b : notnan a -> notnan b -> fgt a b = (fkey b <? fkey a)%Z.
Proof. intros Ha Hb. unfold fgt. fold (flt b a). apply flt_key; assumption. Qed.

Section Series.
Variable pow : f64 -> f64 -> f64.

Definition pick (m x : f64) : f64 := if fgt x m then x else m.
Lemma pick_largest rest : forall x0, (forall x, In x (x0 :: rest) -> fisnan x = false) -> largest (x0 :: rest) (fold_left pick rest x0).
Proof.
  induction rest as [|y rest IH]; intros x0 HN; cbn [fold_left].
  - split; [left; reflexivity|]. intros x [->|[]]. unfold fgt. fold (flt x x). apply flt_false; [apply HN; left; reflexivity|apply HN; left; reflexivity|lia].
  - assert (Nx : notnan x0) by (apply HN; left; reflexivity). assert (Ny : notnan y) by (apply HN; right; left; reflexivity).
    destruct (IH (pick x0 y)) as [H1 H2].
    { intros x [<-|Hx]; [unfold pick; destruct (fgt y x0); [exact Ny|exact Nx]|apply HN; right; right; exact Hx]. }
    split.
    + destruct H1 as [H1|H1]; [|right; right; exact H1]. rewrite <- H1. unfold pick. destruct (fgt y x0); [right; left|left]; reflexivity.
    + pose proof (H2 (pick x0 y) (or_introl eq_refl)) as Hp. set (mx := fold_left pick rest (pick x0 y)) in *.
      assert (Nm : notnan mx) by (destruct H1 as [<-|H1]; [unfold pick; destruct (fgt y x0); [exact Ny|exact Nx]|apply HN; right; right; exact H1]).
      assert (Hboth : fgt x0 mx = false /\ fgt y mx = false).
      { clearbody mx. unfold pick in Hp. destruct (fgt y x0) eqn:E; rewrite fgt_key in E, Hp by assumption; rewrite !fgt_key by assumption; clear -E Hp; lia. }
      intros x [->|[->|Hx]]; [apply Hboth|apply Hboth|]. apply H2. right. exact Hx.
Qed.

Lemma series_ok x0 rest s : (Z.of_nat (length (x0 :: rest)) < M32)%Z ->
  exists r, series_stats pow (x0 :: rest) (Z.of_nat (length (x0 :: rest))) s = Ok r /\ statistics pow (sv_var s) (x0 :: rest) r /\ sv_max r = fold_left pick rest x0.
Proof.
  intros HM. set (xs := x0 :: rest) in *. unfold series_stats. rewrite Nat2Z.id. change (aget xs 0) with (Ok x0). cbn [bind].
  rewrite (for_up_list (fun (mm : f64 * f64) x => (fadd (fst mm) x, if fgt x (snd mm) then x else snd mm)) xs (length xs - 1) 1) by (cbn; lia). cbn [bind].
  assert (Hf : forall l a b, fold_left (fun (mm : f64 * f64) x => (fadd (fst mm) x, if fgt x (snd mm) then x else snd mm)) l (a, b) = (fold_left fadd l a, fold_left pick l b)).
  { induction l as [|y l IH]; intros a b; cbn [fold_left fst snd]; [reflexivity|]. rewrite IH. reflexivity. }
  rewrite Hf. replace (firstn (length xs - 1) (skipn 1 xs)) with rest.
  2: { unfold xs. cbn [length skipn]. rewrite Nat.sub_0_r || idtac. replace (S (length rest) - 1) with (length rest) by lia. rewrite firstn_all. reflexivity. }
  cbn [fst snd]. assert (Em : fdiv (fold_left fadd rest x0) (f_of_Z (Z.of_nat (length xs))) = mean_of xs) by reflexivity. rewrite Em.
  set (mean := mean_of xs).
  set (F := fun (vs : f64 * f64 * f64) x => let '(var, s3, s4) := vs in
       (fadd var (fmul (fsub x mean) (fsub x mean)), fadd s3 (pow (fsub x mean) (f_of_Z 3)), fadd s4 (pow (fsub x mean) (f_of_Z 4)))).
  match goal with |- context [for_up 0 (length xs) ?b ?s0] => assert (Ev : for_up 0 (length xs) b s0 = Ok (fold_left F xs s0)) end.
  { transitivity (for_up 0 (length xs) (fun i s => let! x := aget xs i in Ok (F s x)) (sv_var s, fzero, fzero)).
    2: { rewrite for_up_list by lia. cbn [skipn]. rewrite firstn_all. reflexivity. }
    assert (Hx : forall (f g : nat -> f64 * f64 * f64 -> res (f64 * f64 * f64)) n k s0, (forall i s1, f i s1 = g i s1) -> for_up k n f s0 = for_up k n g s0).
    { clear. intros f g n. induction n as [|n IH]; intros k s0 H; cbn [for_up]; [reflexivity|]. rewrite H. destruct (g k s0); cbn [bind]; [apply IH, H|reflexivity..]. }
    apply Hx. intros i [[v3 v4] v5]. destruct (aget xs i); reflexivity. }
  rewrite Ev. cbn [bind].
  assert (Hg : forall l a b c, fold_left (fun (vs : f64 * f64 * f64) x => let '(var, s3, s4) := vs in
       (fadd var (fmul (fsub x mean) (fsub x mean)), fadd s3 (pow (fsub x mean) (f_of_Z 3)), fadd s4 (pow (fsub x mean) (f_of_Z 4)))) l (a, b, c) =
     (sum_from a (map (fun x => fmul (fsub x mean) (fsub x mean)) l), sum_from b (map (fun x => pow (fsub x mean) (f_of_Z 3)) l), sum_from c (map (fun x => pow (fsub x mean) (f_of_Z 4)) l))).
  { induction l as [|y l IH]; intros a b c; cbn [fold_left map]; [reflexivity|]. rewrite IH. reflexivity. }
  rewrite Hg. eexists. split; [reflexivity|].
  assert (Eu : u32 (Z.of_nat (length xs) - 1) = (Z.of_nat (length xs) - 1)%Z) by (unfold u32; apply Z.mod_small; unfold xs in *; cbn [length] in *; lia).
  split; [|reflexivity]. split; cbn [sv_mean sv_max sv_var sv_sd sv_skew sv_kurt]; try rewrite Eu; try reflexivity.
  intros HN. apply pick_largest. exact HN.
Qed.
End Series.
