(** C43: hdbscan_get_min_max_distances. *)
From Coq Require Import Sorted Permutation.
From Verif Require Import Base ListFacts F64 F64Facts ModelArrayList SpecSeq ProofArrayList ModelCells ModelHash
  ModelUtils ModelDistance ModelMap ProofMap PropClusterMap SpecStats.
From Coq Require Import ZifyBool ZifyNat.
Local Open Scope nat_scope.

Definition nonneg (x : f64) : Prop := fle fzero x = true.
Lemma nonneg_key x : nonneg x <-> notnan x /\ (0 <= fkey x)%Z.
Proof.
  unfold nonneg. split.
  - intros H. apply fle_true in H. destruct H as (_ & H & K). split; [exact H|]. change (fkey fzero) with 0%Z in K. exact K.
  - intros [H K]. apply fle_intro; [apply fzero_notnan|exact H|]. change (fkey fzero) with 0%Z. exact K.
Qed.
Lemma is_zero_key x : notnan x -> is_zero x = (fkey x =? 0)%Z.
Proof. intros H. unfold is_zero. rewrite feq_key by (auto using fzero_notnan). reflexivity. Qed.
Lemma nonzero_key x : notnan x -> nonzero x = negb (fkey x =? 0)%Z.
Proof.
  intros H. unfold nonzero, fgt. fold (flt fzero x). rewrite !flt_key by (auto using fzero_notnan). change (fkey fzero) with 0%Z.
  clear H. lia.
Qed.
Lemma fgt_key a b : notnan a -> notnan b -> fgt a b = (fkey b <? fkey a)%Z.
Proof. intros Ha Hb. unfold fgt. fold (flt b a). apply flt_key; assumption. Qed.

(** Loop invariants in terms of sets of members and pairs seen so far. *)
Record cores (core : Z -> f64) (first : Z) (M : Z -> Prop) (v : dvals) : Prop := mk_cores {
  c1 : exists i, M i /\ v_max_cr v = core i;
  c2 : forall i, M i -> fle (core i) (v_max_cr v) = true;
  c3 : is_zero (core first) = true -> v_min_cr v = core first;
  c4 : is_zero (core first) = false -> exists i, M i /\ is_zero (core i) = false /\ v_min_cr v = core i;
  c5 : is_zero (core first) = false -> forall i, M i -> is_zero (core i) = false -> fle (v_min_cr v) (core i) = true }.
Record pairs (dist : Z -> Z -> f64) (P : Z -> Z -> Prop) (v : dvals) : Prop := mk_pairs {
  p1 : v_max_dr v = D_MIN \/ exists i j, P i j /\ v_max_dr v = dist i j;
  p2 : fle D_MIN (v_max_dr v) = true;
  p3 : forall i j, P i j -> fle (dist i j) (v_max_dr v) = true;
  p4 : v_min_dr v = D_MAX \/ exists i j, P i j /\ is_zero (dist i j) = false /\ v_min_dr v = dist i j;
  p5 : fle (v_min_dr v) D_MAX = true;
  p6 : forall i j, P i j -> is_zero (dist i j) = false -> fle (v_min_dr v) (dist i j) = true }.

Lemma fle_key_refl x : notnan x -> fle x x = true.
Proof. intros H. apply fle_intro; [exact H|exact H|lia]. Qed.
Lemma fle_tr a b c : fle a b = true -> fle b c = true -> fle a c = true.
Proof. intros H K. apply fle_true in H, K. destruct H as (A & B & H), K as (_ & D & K). apply fle_intro; [exact A|exact D|lia]. Qed.
Lemma flt_fle a b : flt a b = true -> fle a b = true.
Proof. intros H. apply flt_true in H. destruct H as (A & B & H). apply fle_intro; [exact A|exact B|lia]. Qed.
Lemma flt_not a b : notnan a -> notnan b -> flt a b = false -> fle b a = true.
Proof. intros A B H. rewrite flt_key in H by assumption. apply fle_intro; [exact B|exact A|lia]. Qed.
Lemma fle_l a b : fle a b = true -> notnan a. Proof. intros H. apply (fle_true _ _ H). Qed.
Lemma fle_r a b : fle a b = true -> notnan b. Proof. intros H. apply (fle_true _ _ H). Qed.
Lemma nn x : nonneg x -> notnan x. Proof. intros H. apply (fle_true _ _ H). Qed.

Lemma cores_first core first : nonneg (core first) -> cores core first (fun i => i = first) (new_dvals (core first)).
Proof.
  intros H. split; cbn.
  - exists first. auto.
  - intros i ->. apply fle_key_refl, nn, H.
  - reflexivity.
  - intros Z. exists first. auto.
  - intros _ i -> _. apply fle_key_refl, nn, H.
Qed.
Lemma cores_add core first (M : Z -> Prop) v x : (forall i, M i -> nonneg (core i)) -> M first -> nonneg (core x) -> cores core first M v ->
  cores core first (fun i => M i \/ i = x) (add_core (core x) v).
Proof.
  intros HM Hf Hx [(m & Hm & Em) C2 C3 C4 C5]. pose proof (nn _ Hx) as Nx. pose proof (nn _ (HM _ Hm)) as Nm. rewrite <- Em in Nm.
  assert (Nmin : notnan (v_min_cr v)).
  { destruct (is_zero (core first)) eqn:E; [rewrite C3 by reflexivity; apply nn, HM, Hf|]. destruct (C4 eq_refl) as (i & Hi & _ & ->). apply nn, HM, Hi. }
  split; cbn [add_core v_max_cr v_min_cr].
  - destruct (flt (v_max_cr v) (core x)); [exists x|exists m]; auto.
  - intros i Hi. destruct (flt (v_max_cr v) (core x)) eqn:E; destruct Hi as [Hi| -> ].
    + apply (fle_tr _ (v_max_cr v)); [apply C2, Hi|apply flt_fle, E].
    + apply fle_key_refl, Nx.
    + apply C2, Hi.
    + apply flt_not; assumption.
  - intros Z. rewrite (C3 Z). rewrite fgt_key, nonzero_key by (auto; apply nn, HM, Hf). rewrite is_zero_key in Z by (apply nn, HM, Hf).
    apply nonneg_key in Hx. destruct (fkey (core x) <? fkey (core first))%Z eqn:E; [|reflexivity]. exfalso. clear -Z E Hx. destruct Hx. lia.
  - intros Z. destruct (C4 Z) as (i & Hi & Zi & Ei). rewrite nonzero_key by exact Nx.
    destruct (fgt (v_min_cr v) (core x) && negb (fkey (core x) =? 0)%Z) eqn:E.
    + exists x. split; [auto|]. split; [|reflexivity]. rewrite is_zero_key by exact Nx. apply andb_true_iff in E. destruct E as [_ E]. apply negb_true_iff in E. exact E.
    + exists i. auto.
  - intros Z i Hi Zi. rewrite nonzero_key by exact Nx.
    destruct (fgt (v_min_cr v) (core x)) eqn:E; cbn [andb].
    + destruct (fkey (core x) =? 0)%Z eqn:E2; cbn [negb].
      * destruct Hi as [Hi| -> ]; [apply (C5 Z i Hi Zi)|]. rewrite is_zero_key in Zi by exact Nx. congruence.
      * destruct Hi as [Hi| -> ]; [|apply fle_key_refl, Nx]. apply (fle_tr _ (v_min_cr v)); [apply flt_fle, E|apply (C5 Z i Hi Zi)].
    + destruct Hi as [Hi| -> ]; [apply (C5 Z i Hi Zi)|]. apply flt_not; assumption.
Qed.
Lemma pairs_none dist core : pairs dist (fun _ _ => False) (new_dvals core).
Proof.
  split; try (intros; contradiction).
  - left. reflexivity.
  - reflexivity.
  - left. reflexivity.
  - reflexivity.
Qed.
Lemma pairs_add dist P v x y : nonneg (dist x y) -> pairs dist P v -> pairs dist (fun i j => P i j \/ (i = x /\ j = y)) (add_pair (dist x y) v).
Proof.
  intros Hx [P1 P2 P3 P4 P5 P6]. pose proof (nn _ Hx) as Nx. pose proof (fle_r _ _ P2) as Nmax. pose proof (fle_l _ _ P5) as Nmin.
  split; cbn [add_pair v_max_dr v_min_dr].
  - destruct (flt (v_max_dr v) (dist x y)); [right; exists x, y; auto|]. destruct P1 as [P1|(i & j & H & E)]; [auto|]. right. exists i, j. auto.
  - destruct (flt (v_max_dr v) (dist x y)) eqn:E; [|exact P2]. apply (fle_tr _ _ _ P2). apply flt_fle, E.
  - intros i j Hi. destruct (flt (v_max_dr v) (dist x y)) eqn:E; destruct Hi as [Hi|[-> ->]].
    + apply (fle_tr _ (v_max_dr v)); [apply P3, Hi|apply flt_fle, E].
    + apply fle_key_refl, Nx.
    + apply P3, Hi.
    + apply flt_not; assumption.
  - rewrite nonzero_key by exact Nx. destruct (fgt (v_min_dr v) (dist x y) && negb (fkey (dist x y) =? 0)%Z) eqn:E.
    + right. exists x, y. split; [auto|]. split; [|reflexivity]. rewrite is_zero_key by exact Nx. apply andb_true_iff in E. destruct E as [_ E]. apply negb_true_iff in E. exact E.
    + destruct P4 as [P4|(i & j & H & Z & E2)]; [auto|]. right. exists i, j. auto.
  - destruct (fgt (v_min_dr v) (dist x y) && nonzero (dist x y)) eqn:E; [|exact P5]. apply andb_true_iff in E. destruct E as [E _]. apply (fle_tr _ (v_min_dr v)); [apply flt_fle, E|exact P5].
  - intros i j Hi Zi. rewrite nonzero_key by exact Nx.
    destruct (fgt (v_min_dr v) (dist x y)) eqn:E; cbn [andb].
    + destruct (fkey (dist x y) =? 0)%Z eqn:E2; cbn [negb].
      * destruct Hi as [Hi|[-> ->]]; [apply (P6 i j Hi Zi)|]. rewrite is_zero_key in Zi by exact Nx. congruence.
      * destruct Hi as [Hi|[-> ->]]; [|apply fle_key_refl, Nx]. apply (fle_tr _ (v_min_dr v)); [apply flt_fle, E|apply (P6 i j Hi Zi)].
    + destruct Hi as [Hi|[-> ->]]; [apply (P6 i j Hi Zi)|]. apply flt_not; assumption.
Qed.

Lemma cores_ext core first (M M' : Z -> Prop) v : (forall i, M i <-> M' i) -> cores core first M v -> cores core first M' v.
Proof.
  intros H [(i & Hi & E) C2 C3 C4 C5]. split.
  - exists i. split; [apply H, Hi|exact E].
  - intros k Hk. apply C2, H, Hk.
  - exact C3.
  - intros Z. destruct (C4 Z) as (k & Hk & K). exists k. split; [apply H, Hk|exact K].
  - intros Z k Hk. apply (C5 Z), H, Hk.
Qed.
Lemma pairs_ext dist (P P' : Z -> Z -> Prop) v : (forall i j, P i j <-> P' i j) -> pairs dist P v -> pairs dist P' v.
Proof.
  intros H [P1 P2 P3 P4 P5 P6]. split; auto.
  - destruct P1 as [E|(i & j & Hi & E)]; [auto|]. right. exists i, j. split; [apply H, Hi|exact E].
  - intros i j Hi. apply P3, H, Hi.
  - destruct P4 as [E|(i & j & Hi & E)]; [auto|]. right. exists i, j. split; [apply H, Hi|exact E].
  - intros i j Hi. apply P6, H, Hi.
Qed.
Lemma cores_pair core first M x v : cores core first M v -> cores core first M (add_pair x v).
Proof. intros [C1 C2 C3 C4 C5]. split; assumption. Qed.
Lemma pairs_core dist P x v : pairs dist P v -> pairs dist P (add_core x v).
Proof. intros [P1 P2 P3 P4 P5 P6]. split; assumption. Qed.

(** The part of a distance object that is read. *)
Record readable (d : distance) (l : list Z) (core : Z -> f64) (dist : Z -> Z -> f64) : Prop := mk_readable {
  rd_core : forall i, In i l -> zget (d_core d) i = Ok (core i);
  rd_core_nonneg : forall i, In i l -> nonneg (core i);
  rd_dist : forall i j, In i l -> In j l -> distance_get d i j = Ok (dist i j);
  rd_dist_nonneg : forall i j, In i l -> In j l -> nonneg (dist i j) }.

Section Cluster.
Variables (d : distance) (core : Z -> f64) (dist : Z -> Z -> f64).

(** Members at positions below [n]; pairs whose earlier position is below [n]. *)
Definition upto (l : list Z) (n : nat) (i : Z) : Prop := exists a, a < n /\ nth_error l a = Some i.
Definition pupto (l : list Z) (n : nat) (i j : Z) : Prop := exists a b, a < n /\ a < b /\ nth_error l a = Some i /\ nth_error l b = Some j.

Record sofar (l : list Z) (first : Z) (n : nat) (v : dvals) : Prop := mk_sofar {
  sf_cores : cores core first (upto l n) v;
  sf_pairs : pairs dist (pupto l n) v;
  sf_conf : v_cr_conf v = fzero /\ v_dr_conf v = fzero }.

Lemma pair_loop_ok l al x j v first : rep al l -> readable d l core dist -> nth_error l j = Some x ->
  cores core first (upto l (S j)) v -> pairs dist (pupto l j) v -> v_cr_conf v = fzero /\ v_dr_conf v = fzero ->
  exists v', pair_loop d al x j v = Ok v' /\ sofar l first (S j) v'.
Proof.
  intros HR HD Hx HC HP HF. unfold pair_loop. assert (Hs : al_size al = length l) by (apply rep_elements in HR; tauto). rewrite Hs.
  assert (Hj : j < length l) by (apply nth_error_Some; congruence).
  destruct (for_up_inv (fun k v => cores core first (upto l (S j)) v /\ pairs dist (fun a b => pupto l j a b \/ (a = x /\ exists p, j < p < k /\ nth_error l p = Some b)) v /\
     v_cr_conf v = fzero /\ v_dr_conf v = fzero)
    (fun k v => let! y := slot (al_data al) k in let! dd := distance_get d x y in Ok (add_pair dd v)) (S j) (length l - S j) v) as (v' & E & K1 & K2 & K3).
  - split; [exact HC|]. split; [|exact HF]. apply (pairs_ext _ (pupto l j)); [|exact HP]. intros a b. split; [auto|]. intros [H|(_ & p & Hp & _)]; [exact H|lia].
  - intros k w Hk (W1 & W2 & W3 & W4). destruct (nth_error l k) as [y|] eqn:Ey; [|apply nth_error_None in Ey; lia].
    rewrite (slot_rep al l k y HR Ey). cbn [bind].
    pose proof (nth_error_In _ _ Hx) as Ix. pose proof (nth_error_In _ _ Ey) as Iy. rewrite (rd_dist _ _ _ _ HD x y Ix Iy). cbn [bind].
    eexists. split; [reflexivity|]. split; [apply cores_pair, W1|]. split; [|cbn; auto].
    eapply pairs_ext; [|apply (pairs_add _ _ _ x y (rd_dist_nonneg _ _ _ _ HD x y Ix Iy) W2)].
    intros a b. cbn beta. split.
    + intros [[H|(-> & p & Hp & E)]|[-> ->]]; [auto| |]; right; (split; [reflexivity|]); [exists p; split; [lia|exact E]|exists k; split; [lia|exact Ey]].
    + intros [H|(-> & p & Hp & E)]; [auto|]. destruct (Nat.eq_dec p k) as [->|]; [right; split; congruence|]. left. right. split; [reflexivity|]. exists p. split; [lia|exact E].
  - exists v'. split; [exact E|]. split; [exact K1| |exact K3]. eapply pairs_ext; [|exact K2]. intros a b. cbn beta. split.
    + intros [(p & q & H1 & H2 & H3)|(-> & p & Hp & E1)]; [exists p, q; split; [lia|split; [exact H2|exact H3]]|exists j, p; split; [lia|split; [lia|auto]]].
    + intros (p & q & H1 & H2 & H3 & H4). destruct (Nat.eq_dec p j) as [->|].
      * right. split; [congruence|]. exists q. split; [|exact H4]. assert (q < length l) by (apply nth_error_Some; congruence). lia.
      * left. exists p, q. split; [lia|auto].
Qed.

(** The loop over the members of one cluster whose label is not in the table yet. *)
Lemma members_ok l al key t m : pgood t m -> label_ok key -> pfind m key = None -> l <> [] -> rep al l -> readable d l core dist ->
  exists t' p, for_up 0 (al_size al) (member_step d key al) (t, None) = Ok (t', Some p) /\ exists m' v,
    m' = (key, length (pt_mem t)) :: m /\ pgood t' m' /\ pt_mem t' = pt_mem t ++ [v] /\ exists first, hd_error l = Some first /\ extremes core dist first l v.
Proof.
  intros HG Hk Hf Hl HR HD. assert (Hs : al_size al = length l) by (apply rep_elements in HR; tauto). rewrite Hs.
  destruct l as [|first rest] eqn:El; [contradiction|]. rewrite <- El in *. clear Hl.
  assert (Hfst : nth_error l 0 = Some first) by (rewrite El; reflexivity). pose proof (nth_error_In _ _ Hfst) as If.
  destruct (for_up_inv (fun j s => if j =? 0 then s = (t, None) else
     exists v, snd s = Some (length (pt_mem t)) /\ pgood (fst s) ((key, length (pt_mem t)) :: m) /\ pt_mem (fst s) = pt_mem t ++ [v] /\ sofar l first j v)
    (member_step d key al) 0 (length l) (t, None)) as ((t' & p) & E & K).
  - reflexivity.
  - intros j [t1 dl] Hj HI. destruct (nth_error l j) as [x|] eqn:Ex; [|apply nth_error_None in Ex; lia]. pose proof (nth_error_In _ _ Ex) as Ix.
    unfold member_step. rewrite (slot_rep al l j x HR Ex). cbn [bind]. rewrite (rd_core _ _ _ _ HD x Ix). cbn [bind].
    assert (Hrest : forall t2 v, pgood t2 ((key, length (pt_mem t)) :: m) -> pt_mem t2 = pt_mem t ++ [v] ->
      cores core first (upto l (S j)) v -> pairs dist (pupto l j) v -> v_cr_conf v = fzero /\ v_dr_conf v = fzero ->
      exists s', (let! v := pt_load t2 (length (pt_mem t)) in let! v := pair_loop d al x j v in let! t3 := pt_store t2 (length (pt_mem t)) v in Ok (t3, Some (length (pt_mem t)))) = Ok s' /\
      (exists v, snd s' = Some (length (pt_mem t)) /\ pgood (fst s') ((key, length (pt_mem t)) :: m) /\ pt_mem (fst s') = pt_mem t ++ [v] /\ sofar l first (S j) v)).
    { intros t2 v G2 M2 C2 P2 F2. unfold pt_load. rewrite (aget_nth (pt_mem t2) (length (pt_mem t)) v) by (rewrite M2, nth_error_app2, Nat.sub_diag by lia; reflexivity). cbn [bind].
      destruct (pair_loop_ok l al x j v first HR HD Ex C2 P2 F2) as (v' & -> & S'). cbn [bind].
      destruct (pt_store_ok t2 _ (length (pt_mem t)) v' G2) as (t3 & -> & G3 & M3); [rewrite M2, app_length; cbn [length]; lia|]. cbn [bind].
      eexists. split; [reflexivity|]. exists v'. cbn [fst snd]. split; [reflexivity|]. split; [exact G3|]. split; [|exact S'].
      rewrite M3, M2. clear. induction (pt_mem t) as [|y ys IH]; [reflexivity|]. cbn [app length upd]. f_equal. exact IH. }
    destruct (Nat.eqb_spec j 0) as [->|Hj0].
    + injection HI as -> ->. destruct (pt_insert_ok t m key (new_dvals (core x)) HG Hk Hf) as (t1 & E1 & G1 & M1).
      unfold pt_new in E1 |- *. cbn [fst snd] in E1. rewrite E1. cbn [bind].
      assert (x = first) by congruence. subst x. apply (Hrest t1 (new_dvals (core first)) G1 M1).
      * apply (cores_ext _ _ (fun i => i = first)); [|apply cores_first, (rd_core_nonneg _ _ _ _ HD _ If)].
        intros i. split; [intros ->; exists 0; split; [lia|exact Hfst]|]. intros (a & Ha & Ea). replace a with 0 in Ea by lia. congruence.
      * apply (pairs_ext _ (fun _ _ => False)); [|apply pairs_none]. intros a b. split; [tauto|]. intros (p & q & H & _). lia.
      * split; reflexivity.
    + destruct HI as (v & E2 & G2 & M2 & [S1 S2 S3]). cbn [fst snd] in *. subst dl.
      unfold pt_load at 1. rewrite (aget_nth (pt_mem t1) (length (pt_mem t)) v) by (rewrite M2, nth_error_app2, Nat.sub_diag by lia; reflexivity). cbn [bind].
      destruct (pt_store_ok t1 _ (length (pt_mem t)) (add_core (core x) v) G2) as (t3 & -> & G3 & M3); [rewrite M2, app_length; cbn [length]; lia|]. cbn [bind].
      apply (Hrest t3 (add_core (core x) v) G3).
      * rewrite M3, M2. clear. induction (pt_mem t) as [|y ys IH]; [reflexivity|]. cbn [app length upd]. f_equal. exact IH.
      * eapply cores_ext; [|apply (cores_add core first (upto l j) v x); [|exists 0; split; [lia|exact Hfst]|apply (rd_core_nonneg _ _ _ _ HD _ Ix)|exact S1]].
        { intros i. cbn beta. split.
          - intros [(a & Ha & Ea)| -> ]; [exists a; split; [lia|exact Ea]|exists j; split; [lia|exact Ex]].
          - intros (a & Ha & Ea). destruct (Nat.eq_dec a j) as [->|]; [right; congruence|left; exists a; split; [lia|exact Ea]]. }
        intros i (a & _ & Ea). apply (rd_core_nonneg _ _ _ _ HD). apply (nth_error_In _ _ Ea).
      * apply pairs_core, S2.
      * exact S3.
  - cbn [Nat.add] in K. destruct (Nat.eqb_spec (length l) 0) as [H0|_]; [rewrite El in H0; discriminate|].
    destruct K as (v & E2 & G2 & M2 & [S1 S2 S3]). cbn [fst snd] in *. subst p. exists t', (length (pt_mem t)). split; [exact E|]. eexists _, v.
    split; [reflexivity|]. split; [exact G2|]. split; [exact M2|]. exists first. split; [rewrite El; reflexivity|].
    assert (HU : forall i, upto l (length l) i <-> In i l).
    { intros i. split; [intros (a & _ & Ea); apply (nth_error_In _ _ Ea)|]. intros H. apply In_nth_error in H. destruct H as (a & Ea). exists a. split; [apply nth_error_Some; congruence|exact Ea]. }
    assert (HB : forall i j, pupto l (length l) i j <-> before l i j).
    { intros i j. split; [intros (a & b & _ & H); exists a, b; exact H|]. intros (a & b & H1 & H2 & H3). exists a, b. split; [apply nth_error_Some; congruence|auto]. }
    apply (cores_ext _ _ _ _ _ HU) in S1. apply (pairs_ext _ _ _ _ HB) in S2. destruct S1, S2, S3. split; assumption.
Qed.

Lemma minmax_ok ct m : pgood ct m ->
  (forall c a, In (c, a) m -> exists al l, nth_error (pt_mem ct) a = Some al /\ rep al l /\ l <> [] /\ readable d l core dist) ->
  exists t m', get_min_max_distances d ct = Ok t /\ pgood t m' /\ Permutation (map fst m') (map fst m) /\
    forall c a al l, In (c, a) m -> nth_error (pt_mem ct) a = Some al -> rep al l ->
      exists v first, pt_deref t c = Ok v /\ hd_error l = Some first /\ extremes core dist first l v.
Proof.
  intros HG Hm. unfold get_min_max_distances. destruct (pt_init_ok (V := dvals) (Z.to_nat (ht_size (pt_tab ct)))) as (tab & -> & G0). cbn [bind].
  destruct (pt_keys ct m HG) as (ls & K1 & K2 & _ & K4). rewrite K1.
  assert (Hnd : NoDup ls) by (eapply Permutation_NoDup; [apply Permutation_sym, K2|apply HG]).
  destruct (for_up_inv (fun i t => exists m', pgood t m' /\ (forall c, In c (map fst m') <-> upto ls i c) /\
     (forall c b, In (c, b) m' -> exists a al l v first, In (c, a) m /\ nth_error (pt_mem ct) a = Some al /\ rep al l /\ nth_error (pt_mem t) b = Some v /\ hd_error l = Some first /\ extremes core dist first l v))
    (cluster_step d ct) 0 (length ls) (mk_ptable tab [])) as (t & E & m' & G & Hk & Hv).
  - exists []. split; [exact G0|]. split; [|intros c b []]. intros c. split; [intros []|]. intros (a & Ha & _). lia.
  - intros i t Hi (m' & G & Hk & Hv). destruct (nth_error ls i) as [key|] eqn:Ek; [|apply nth_error_None in Ek; lia].
    unfold cluster_step. rewrite (K4 i key Ek). cbn [bind].
    assert (Hin : In key (map fst m)) by (apply (Permutation_in _ K2), (nth_error_In _ _ Ek)).
    apply in_map_iff in Hin. destruct Hin as ([c a] & Ec & Hin). cbn [fst] in Ec. subst c.
    pose proof (pg_lab _ _ HG _ _ Hin) as Hlab. rewrite (pt_deref_ok ct m key HG Hlab). rewrite (proj2 (pfind_in m key a (pg_nd _ _ HG)) Hin).
    destruct (Hm key a Hin) as (al & l & Hal & Hrep & Hne & Hrd). rewrite (aget_nth _ _ _ Hal). cbn [bind].
    assert (Hnone : pfind m' key = None).
    { apply pfind_none. rewrite Hk. intros (b & Hb & Eb). assert (b = i); [|lia]. apply (proj1 (NoDup_nth_error ls) Hnd); [apply nth_error_Some; congruence|congruence]. }
    rewrite (pt_find_ok t m' key G Hlab), Hnone. cbn [bind].
    destruct (members_ok l al key t m' G Hlab Hnone Hne Hrep Hrd) as (t' & p & E & m2 & v & -> & G2 & M2 & first & Hf & Hex). rewrite E. cbn [bind fst].
    exists t'. split; [reflexivity|]. exists ((key, length (pt_mem t)) :: m'). split; [exact G2|]. split.
    + intros c. cbn [map fst In]. rewrite Hk. split.
      * intros [<-|(b & Hb & Eb)]; [exists i; split; [lia|exact Ek]|exists b; split; [lia|exact Eb]].
      * intros (b & Hb & Eb). destruct (Nat.eq_dec b i) as [->|]; [left; congruence|right; exists b; split; [lia|exact Eb]].
    + intros c b [Hb|Hb].
      * injection Hb as <- <-. exists a, al, l, v, first. split; [exact Hin|]. split; [exact Hal|]. split; [exact Hrep|]. split; [|auto]. rewrite M2, nth_error_app2, Nat.sub_diag by lia. reflexivity.
      * destruct (Hv c b Hb) as (a' & al' & l' & v' & f' & H1 & H2 & H3 & H4 & H5). exists a', al', l', v', f'. split; [exact H1|]. split; [exact H2|]. split; [exact H3|]. split; [|exact H5].
        rewrite M2, nth_error_app1 by (apply nth_error_Some; congruence). exact H4.
  - cbn [Nat.add] in Hk. exists t, m'. split; [exact E|]. split; [exact G|]. split.
    + apply NoDup_Permutation; [apply G|apply HG|]. intros c. rewrite Hk. split.
      * intros (b & _ & Eb). apply (Permutation_in _ K2), (nth_error_In _ _ Eb).
      * intros H. apply (Permutation_in _ (Permutation_sym K2)) in H. apply In_nth_error in H. destruct H as (b & Eb). exists b. split; [apply nth_error_Some; congruence|exact Eb].
    + intros c a al l Hin Hal Hrep. pose proof (pg_lab _ _ HG _ _ Hin) as Hlab. rewrite (pt_deref_ok t m' c G Hlab).
      assert (Hc : In c (map fst m')).
      { apply Hk. assert (Hx : In c ls) by (apply (Permutation_in _ (Permutation_sym K2)); apply (in_map fst) in Hin; exact Hin).
        apply In_nth_error in Hx. destruct Hx as (b & Eb). exists b. split; [apply nth_error_Some; congruence|exact Eb]. }
      apply in_map_iff in Hc. destruct Hc as ([c' b] & Ec & Hb). cbn [fst] in Ec. subst c'. rewrite (proj2 (pfind_in m' c b (pg_nd _ _ G)) Hb).
      destruct (Hv c b Hb) as (a' & al' & l' & v & f & H1 & H2 & H3 & H4 & H5 & H6). rewrite (aget_nth _ _ _ H4).
      assert (a' = a). { apply (pfind_in m c a' (pg_nd _ _ HG)) in H1. apply (pfind_in m c a (pg_nd _ _ HG)) in Hin. congruence. } subst a'.
      assert (al' = al) by congruence. subst al'.
      assert (l' = l). { apply rep_elements in H3, Hrep. destruct H3 as [A _], Hrep as [B _]. rewrite A in B. clear -B. revert l B. induction l' as [|x l' IH]; intros [|y l] B; cbn [map] in B; try discriminate; [reflexivity|]. injection B as -> B. f_equal. apply IH, B. }
      subst l'. exists v, f. auto.
Qed.
End Cluster.

(** C43.  From the labels of a range of points to the extremes of every cluster: the
    distance map has the keys of the cluster map, and under each label the extremes of the
    increasing list of its points. *)
Theorem C43_min_max_distances : forall labels first last d core dist,
  Forall label_ok labels -> (Z.of_nat (length labels) < M32)%Z -> first <= last <= length labels -> last - first = 0 \/ 3 <= last - first ->
  (forall i, first <= i < last -> zget (d_core d) (Z.of_nat i) = Ok (core (Z.of_nat i)) /\ nonneg (core (Z.of_nat i))) ->
  (forall i j, first <= i < last -> first <= j < last ->
     distance_get d (Z.of_nat i) (Z.of_nat j) = Ok (dist (Z.of_nat i) (Z.of_nat j)) /\ nonneg (dist (Z.of_nat i) (Z.of_nat j))) ->
  exists ct t, create_cluster_map labels (Z.of_nat first) (Z.of_nat last) = Ok ct /\ get_min_max_distances d ct = Ok t /\
    has_keys t (fun c => exists i, first <= i < last /\ nth_error labels i = Some c) /\
    (forall c, label_ok c -> (exists i, first <= i < last /\ nth_error labels i = Some c) ->
       exists i0 l v, StronglySorted lt (i0 :: l) /\ (forall i, In i (i0 :: l) <-> first <= i < last /\ nth_error labels i = Some c) /\
         pt_deref t c = Ok v /\ extremes core dist (Z.of_nat i0) (map Z.of_nat (i0 :: l)) v) /\
    exists log, destroy_map t = Ok log /\ Permutation log (map Some (seq 0 (length (pt_mem t)))).
Proof.
  intros labels first last d core dist HL HM Hr Hn HC HD. destruct (create_ok labels first last HL HM Hr Hn) as (ct & m & E & HG & Hm & Hk).
  assert (Hmem : forall c i, In i (indices labels first (last - first) c) <-> first <= i < last /\ nth_error labels i = Some c).
  { intros c i. rewrite indices_in. split; intros [H1 H2]; (split; [lia|exact H2]). }
  assert (Hex : forall c, (exists i, first <= i < last /\ nth_error labels i = Some c) <-> In c (map fst m)).
  { intros c. rewrite Hk. split.
    - intros (i & Hi) H. apply Hmem in Hi. rewrite H in Hi. destruct Hi.
    - intros H. destruct (indices labels first (last - first) c) as [|i l] eqn:Ei; [contradiction|]. exists i. apply Hmem. rewrite Ei. left. reflexivity. }
  destruct (minmax_ok d core dist ct m HG) as (t & m' & Et & Gt & Pt & Hv).
  { intros c a Hin. destruct (Hm c a Hin) as (al & Hal & Hrep). exists al, (map Z.of_nat (indices labels first (last - first) c)).
    split; [exact Hal|]. split; [exact Hrep|]. split.
    - assert (H : indices labels first (last - first) c <> []) by (apply Hk; apply (in_map fst) in Hin; exact Hin). destruct (indices labels first (last - first) c); [contradiction|discriminate].
    - assert (HI : forall x, In x (map Z.of_nat (indices labels first (last - first) c)) -> exists i, x = Z.of_nat i /\ first <= i < last).
      { intros x Hx. apply in_map_iff in Hx. destruct Hx as (i & <- & Hi). apply Hmem in Hi. exists i. split; [reflexivity|apply Hi]. }
      split.
      + intros i Hi. destruct (HI i Hi) as (k & -> & Hk'). apply (HC k Hk').
      + intros i Hi. destruct (HI i Hi) as (k & -> & Hk'). apply (HC k Hk').
      + intros i j Hi Hj. destruct (HI i Hi) as (k & -> & Hk'), (HI j Hj) as (k2 & -> & Hk2). apply (HD k k2 Hk' Hk2).
      + intros i j Hi Hj. destruct (HI i Hi) as (k & -> & Hk'), (HI j Hj) as (k2 & -> & Hk2). apply (HD k k2 Hk' Hk2). }
  exists ct, t. split; [exact E|]. split; [exact Et|]. split; [|split].
  - destruct (pt_keys t m' Gt) as (ls & H1 & H2 & _ & H4). exists ls. split; [eapply Permutation_NoDup; [apply Permutation_sym, H2|apply Gt]|].
    split; [exact H1|]. split; [exact H4|]. intros c. rewrite Hex.
    split; apply Permutation_in; [|apply Permutation_sym]; (etransitivity; [exact H2|exact Pt]).
  - intros c Hc Hi. apply Hex in Hi. apply in_map_iff in Hi. destruct Hi as ([c' a] & Ec & Hin). cbn [fst] in Ec. subst c'.
    destruct (Hm c a Hin) as (al & Hal & Hrep). destruct (Hv c a al _ Hin Hal Hrep) as (v & f & Ev & Ef & Hx).
    destruct (indices labels first (last - first) c) as [|i0 l] eqn:Ei; [cbn in Ef; discriminate|]. cbn [map hd_error] in Ef. injection Ef as <-.
    exists i0, l, v. split; [|split; [intros i; rewrite <- Ei; apply Hmem|split; [exact Ev|exact Hx]]].
    rewrite <- Ei. unfold indices. generalize (last - first). clear. intros n. revert first. induction n as [|n IH]; intros first; cbn [seq filter]; [constructor|].
    destruct (match nth_error labels first with Some x => (x =? c)%Z | None => false end); [|apply IH]. constructor; [apply IH|].
    apply Forall_forall. intros x Hx. apply filter_In in Hx. destruct Hx as [Hx _]. apply in_seq in Hx. lia.
  - apply (destroy_ok t m' Gt).
Qed.
Print Assumptions C43_min_max_distances.

(** The minimum core distance depends on the order of the points: when some core distance is
    zero the result is zero if the first point has one, and the smallest non-zero core
    distance if it has not. *)
Theorem C43_order_dependent_refuted : forall n c d core dist d' core' dist',
  3 <= n -> (Z.of_nat n < M32)%Z -> label_ok c ->
  (forall i, i < n -> zget (d_core d) (Z.of_nat i) = Ok (core (Z.of_nat i)) /\ nonneg (core (Z.of_nat i))) ->
  (forall i j, i < n -> j < n -> distance_get d (Z.of_nat i) (Z.of_nat j) = Ok (dist (Z.of_nat i) (Z.of_nat j)) /\ nonneg (dist (Z.of_nat i) (Z.of_nat j))) ->
  (forall i, i < n -> zget (d_core d') (Z.of_nat i) = Ok (core' (Z.of_nat i)) /\ nonneg (core' (Z.of_nat i))) ->
  (forall i j, i < n -> j < n -> distance_get d' (Z.of_nat i) (Z.of_nat j) = Ok (dist' (Z.of_nat i) (Z.of_nat j)) /\ nonneg (dist' (Z.of_nat i) (Z.of_nat j))) ->
  is_zero (core 0%Z) = true -> is_zero (core' 0%Z) = false ->
  exists ct t t' v v', create_cluster_map (repeat c n) 0 (Z.of_nat n) = Ok ct /\
    get_min_max_distances d ct = Ok t /\ pt_deref t c = Ok v /\ is_zero (v_min_cr v) = true /\
    get_min_max_distances d' ct = Ok t' /\ pt_deref t' c = Ok v' /\ is_zero (v_min_cr v') = false.
Proof.
  intros n c d core dist d' core' dist' Hn HM Hc HC HD HC' HD' Z Z'.
  assert (HL : Forall label_ok (repeat c n)) by (apply Forall_forall; intros x Hx; apply repeat_spec in Hx; subst x; exact Hc).
  assert (Hex : exists i, 0 <= i < n /\ nth_error (repeat c n) i = Some c) by (exists 0; split; [lia|destruct n; [lia|reflexivity]]).
  assert (H0 : forall i0 l, StronglySorted lt (i0 :: l) -> (forall i, In i (i0 :: l) <-> 0 <= i < n /\ nth_error (repeat c n) i = Some c) -> i0 = 0).
  { intros i0 l HS HI. assert (H : In 0 (i0 :: l)) by (apply HI; split; [lia|destruct n; [lia|reflexivity]]). destruct H as [H|H]; [exact H|].
    apply StronglySorted_inv in HS. destruct HS as [_ HF]. rewrite Forall_forall in HF. specialize (HF 0 H). lia. }
  destruct (C43_min_max_distances (repeat c n) 0 n d core dist) as (ct & t & E & Et & _ & Hv & _).
  { exact HL. } { rewrite repeat_length. exact HM. } { rewrite repeat_length. lia. } { lia. } { intros i Hi. apply HC. lia. } { intros i j Hi Hj. apply HD; lia. }
  destruct (C43_min_max_distances (repeat c n) 0 n d' core' dist') as (ct' & t' & E' & Et' & _ & Hv' & _).
  { exact HL. } { rewrite repeat_length. exact HM. } { rewrite repeat_length. lia. } { lia. } { intros i Hi. apply HC'. lia. } { intros i j Hi Hj. apply HD'; lia. }
  change (Z.of_nat 0) with 0%Z in E, E'. rewrite E in E'. injection E' as <-.
  destruct (Hv c Hc Hex) as (i0 & l & v & S1 & I1 & D1 & X1). destruct (Hv' c Hc Hex) as (i1 & l' & v' & S2 & I2 & D2 & X2).
  rewrite (H0 _ _ S1 I1) in X1. rewrite (H0 _ _ S2 I2) in X2. change (Z.of_nat 0) with 0%Z in X1, X2.
  exists ct, t, t', v, v'. split; [exact E|]. split; [exact Et|]. split; [exact D1|]. split; [rewrite (ex_min_cr_zero _ _ _ _ _ X1 Z); exact Z|].
  split; [exact Et'|]. split; [exact D2|]. destruct (ex_min_cr_attained _ _ _ _ _ X2 Z') as (i & _ & Zi & ->). exact Zi.
Qed.
Print Assumptions C43_order_dependent_refuted.

(** The points 0 0 0 5 7 9 (and 5 0 0 0 7 9) with labels 1 1 1 1 2 2, core distance to the
    nearest neighbour. *)
Definition extremes_of (data : list Z) : res (list (list f64)) :=
  let! d := distance_compute (DDouble (map f_of_Z data)) 6 1 1 in
  let! ct := create_cluster_map [1; 1; 1; 1; 2; 2]%Z 0 6 in
  let! t := get_min_max_distances d ct in
  let! v1 := pt_deref t 1 in
  let! v2 := pt_deref t 2 in
  Ok (map (fun v => [v_min_cr v; v_max_cr v; v_min_dr v; v_max_dr v]) [v1; v2]).
Definition same (l l' : list (list f64)) : bool :=
  forallb (fun p => forallb (fun q => feq (fst q) (snd q)) (combine (fst p) (snd p)) && (length (fst p) =? length (snd p))) (combine l l') && (length l =? length l').
Example C43_example :
  match extremes_of [0; 0; 0; 5; 7; 9]%Z, extremes_of [5; 0; 0; 0; 7; 9]%Z with
  | Ok a, Ok b => same a (map (map f_of_Z) [[0; 2; 5; 5]; [2; 2; 2; 2]]%Z) && same b (map (map f_of_Z) [[2; 2; 5; 5]; [2; 2; 2; 2]]%Z)
  | _, _ => false
  end = true.
Proof. vm_compute. reflexivity. Qed.
