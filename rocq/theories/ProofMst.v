(** Lemmas about the spanning tree construction. *)
From Coq Require Import Permutation Relations.
From Verif Require Import Base ListFacts F64 F64Facts ModelDistance ProofDistance ProofCore ModelMst.
From Coq Require Import Lia.
Local Open Scope nat_scope.

Lemma nth_upd {A} (l : list A) i j x (d : A) :
  nth j (upd l i x) d = if (i =? j) && (i <? length l) then x else nth j l d.
Proof.
  revert i j. induction l as [|a l IH]; intros i j; cbn [upd length].
  - destruct i, j; cbn; rewrite ?Bool.andb_false_r; reflexivity.
  - destruct i as [|i], j as [|j]; cbn [nth]; try reflexivity. rewrite IH. cbn [Nat.eqb]. reflexivity.
Qed.

Lemma aget_in {A} (l : list A) i (d : A) : i < length l -> aget l i = Ok (nth i l d).
Proof. intros H. apply aget_nth. now apply nth_error_nth'. Qed.

Lemma nth_repeat_all {A} (a : A) n i : nth i (repeat a n) a = a.
Proof. revert i. induction n as [|n IH]; intros [|i]; cbn; auto. Qed.

Section Prim.
Variable get : nat -> nat -> res f64.
Variable core : nat -> res f64.
Variable g : nat -> nat -> f64.
Variable c : nat -> f64.
Variable n L : nat.
Hypothesis Hn : 1 <= n.
Hypothesis HL : n - 1 <= L.
Hypothesis Hget : forall i j, i < n -> j < n -> i <> j -> get i j = Ok (g i j).
Hypothesis Hcore : forall i, i < n -> core i = Ok (c i).

(** Weight of attaching [v] from [u]. *)
Definition W (u v : nat) : f64 := mutual_reach (g v u) (c u) (c v).
Definition DD (l : list f64) v := nth v l D_MAX.

Definition open (att : list bool) (cur v : nat) : Prop := v < n /\ v <> cur /\ nth v att true = false.
Definition openb (att : list bool) (cur v : nat) : bool :=
  (v <? n) && negb (v =? cur) && negb (nth v att true).
Lemma openb_iff att cur v : openb att cur v = true <-> open att cur v.
Proof.
  unfold openb, open. rewrite !Bool.andb_true_iff, !Bool.negb_true_iff, Nat.ltb_lt, Nat.eqb_neq. tauto.
Qed.

Definition newD (dist : list f64) (cur v : nat) : f64 :=
  if flt (W cur v) (DD dist v) then W cur v else DD dist v.
Definition newN (dist : list f64) (nbr : list nat) (cur v : nat) : nat :=
  if flt (W cur v) (DD dist v) then cur else nth v nbr 0.

Definition okD (x : f64) : Prop := notnan x /\ (fkey x <= KM)%Z.
Lemma newD_ok dist cur v : okD (DD dist v) -> okD (newD dist cur v).
Proof.
  intros [H1 H2]. unfold newD. destruct (flt (W cur v) (DD dist v)) eqn:E; [|split; auto].
  apply flt_true in E. split; [tauto|]. eapply Z.le_trans; [apply Z.lt_le_incl, E|exact H2].
Qed.

(** Result of the inner loop. *)
Definition scan_inv (att : list bool) (cur : nat) (dist : list f64) (nbr : list nat) (k : nat) (s : scan) : Prop :=
  length (s_dist s) = L /\ length (s_nbr s) = L /\
  (forall v, v < k -> open att cur v -> DD (s_dist s) v = newD dist cur v /\ nth v (s_nbr s) 0 = newN dist nbr cur v) /\
  (forall v, k <= v \/ ~ open att cur v -> DD (s_dist s) v = DD dist v /\ nth v (s_nbr s) 0 = nth v nbr 0) /\
  match s_point s with
  | None => (forall v, v < k -> ~ open att cur v) /\ s_best s = D_MAX
  | Some p => p < k /\ open att cur p /\ s_best s = newD dist cur p /\
              forall v, v < k -> open att cur v -> fle (newD dist cur p) (newD dist cur v) = true
  end.

Lemma DD_upd l i x v : i < length l -> DD (upd l i x) v = if i =? v then x else DD l v.
Proof.
  intros H. unfold DD. rewrite nth_upd. replace (i <? length l) with true by (symmetry; now apply Nat.ltb_lt).
  now rewrite Bool.andb_true_r.
Qed.
Lemma nth_upd_in {A} (l : list A) i x v d : i < length l -> nth v (upd l i x) d = if i =? v then x else nth v l d.
Proof.
  intros H. rewrite nth_upd. replace (i <? length l) with true by (symmetry; now apply Nat.ltb_lt).
  now rewrite Bool.andb_true_r.
Qed.

Lemma scan_step_inv att cur dist nbr k s :
  length att = n -> k < n -> cur < n -> (forall v, open att cur v -> v < L /\ okD (DD dist v)) ->
  scan_inv att cur dist nbr k s ->
  exists s', scan_step get core att cur k s = Ok s' /\ scan_inv att cur dist nbr (S k) s'.
Proof.
  intros Hatt Hk Hcur Hopen (HLd & HLn & Hdone & Hrest & Hbest). unfold scan_step.
  assert (Hclosed : ~ open att cur k -> scan_inv att cur dist nbr (S k) s).
  { intros Hc. split; [auto|]. split; [auto|]. split; [|split].
    - intros v Hv Ho. apply Hdone; auto. assert (v <> k) by (intros ->; contradiction). lia.
    - intros v Hv. apply Hrest. destruct Hv; [left; lia|auto].
    - destruct (s_point s) as [p|].
      + destruct Hbest as (Hp & Ho & Hb & Hmin). split; [lia|]. split; [auto|]. split; [auto|].
        intros v Hv Hov. apply Hmin; auto. assert (v <> k) by (intros ->; contradiction). lia.
      + destruct Hbest as [Hnone Hb]. split; auto. intros v Hv Hov. assert (v <> k) by (intros ->; contradiction).
        apply (Hnone v); auto. lia. }
  destruct (Nat.eqb_spec cur k) as [->|Hne].
  { exists s. split; auto. apply Hclosed. unfold open. tauto. }
  rewrite (aget_in att k true) by lia. cbn [bind].
  destruct (nth k att true) eqn:Ea.
  { exists s. split; auto. apply Hclosed. unfold open. intros (_ & _ & ?). congruence. }
  assert (Ho : open att cur k) by (unfold open; auto).
  destruct (Hopen k Ho) as [HkL Hok].
  rewrite Hget, !Hcore by auto. cbn [bind].
  change (mutual_reach (g k cur) (c cur) (c k)) with (W cur k).
  rewrite (aget_in (s_dist s) k D_MAX) by lia. cbn [bind].
  change (nth k (s_dist s) D_MAX) with (DD (s_dist s) k).
  destruct (Hrest k (or_introl (le_n k))) as [Ed En]. rewrite Ed.
  pose proof (newD_ok dist cur k Hok) as [Hnn Hkey].
  set (s1 := if flt (W cur k) (DD dist k) then mk_scan (upd (s_dist s) k (W cur k)) (upd (s_nbr s) k cur) (s_point s) (s_best s) else s).
  assert (E1 : (if flt (W cur k) (DD dist k)
     then let! dist' := aset (s_dist s) k (W cur k) in let! nbr' := aset (s_nbr s) k cur in
          Ok (mk_scan dist' nbr' (s_point s) (s_best s)) else Ok s) = Ok s1).
  { unfold s1. destruct (flt (W cur k) (DD dist k)); auto. rewrite !aset_ok by lia. reflexivity. }
  rewrite E1. cbn [bind]. clear E1.
  assert (HLd1 : length (s_dist s1) = L) by (unfold s1; destruct flt; cbn [s_dist]; rewrite ?upd_length; auto).
  assert (HLn1 : length (s_nbr s1) = L) by (unfold s1; destruct flt; cbn [s_nbr]; rewrite ?upd_length; auto).
  assert (Hk1 : DD (s_dist s1) k = newD dist cur k /\ nth k (s_nbr s1) 0 = newN dist nbr cur k).
  { unfold s1, newD, newN. destruct (flt (W cur k) (DD dist k)); cbn [s_dist s_nbr].
    - rewrite DD_upd, nth_upd_in by lia. now rewrite Nat.eqb_refl.
    - auto. }
  assert (Hv1 : forall v, v <> k -> DD (s_dist s1) v = DD (s_dist s) v /\ nth v (s_nbr s1) 0 = nth v (s_nbr s) 0).
  { intros v Hv. unfold s1. destruct (flt (W cur k) (DD dist k)); cbn [s_dist s_nbr]; auto.
    rewrite DD_upd, nth_upd_in by lia. apply Nat.eqb_neq in Hv. rewrite Nat.eqb_sym, Hv. auto. }
  assert (Hp1 : s_point s1 = s_point s /\ s_best s1 = s_best s) by (unfold s1; destruct flt; auto).
  destruct Hp1 as [Ep1 Eb1].
  rewrite (aget_in (s_dist s1) k D_MAX) by lia. cbn [bind].
  change (nth k (s_dist s1) D_MAX) with (DD (s_dist s1) k). rewrite (proj1 Hk1), Eb1.
  clearbody s1.
  assert (Hdone1 : forall v, v < S k -> open att cur v -> DD (s_dist s1) v = newD dist cur v /\ nth v (s_nbr s1) 0 = newN dist nbr cur v).
  { intros v Hv Hov. destruct (Nat.eq_dec v k) as [->|Hvk]; auto.
    destruct (Hv1 v Hvk) as [-> ->]. apply Hdone; auto. lia. }
  assert (Hrest1 : forall v, S k <= v \/ ~ open att cur v -> DD (s_dist s1) v = DD dist v /\ nth v (s_nbr s1) 0 = nth v nbr 0).
  { intros v Hv. assert (Hvk : v <> k) by (intros ->; destruct Hv; [lia|contradiction]).
    destruct (Hv1 v Hvk) as [-> ->]. apply Hrest. destruct Hv; [left; lia|auto]. }
  assert (Hlt : forall v, v < S k -> v <> k -> v < k) by (intros; lia).
  destruct (fle (newD dist cur k) (s_best s)) eqn:Ele.
  - eexists. split; [reflexivity|]. unfold scan_inv. cbn [s_dist s_nbr s_point s_best].
    split; [auto|]. split; [auto|]. split; [auto|]. split; [auto|]. split; [lia|]. split; [auto|]. split; [auto|].
    intros v Hv Hov. destruct (Nat.eq_dec v k) as [->|Hvk].
    + apply fle_intro; auto. apply Z.le_refl.
    + destruct (s_point s) as [p|]; [|exfalso; destruct Hbest as [Hnone _]; apply (Hnone v); auto].
      destruct Hbest as (_ & _ & Hb & Hmin). rewrite Hb in Ele. specialize (Hmin v (Hlt v Hv Hvk) Hov).
      apply fle_true in Ele, Hmin. apply fle_intro; try tauto. eapply Z.le_trans; [apply Ele|apply Hmin].
  - exists s1. split; [reflexivity|]. split; [auto|]. split; [auto|]. split; [auto|]. split; [auto|].
    rewrite Ep1. destruct (s_point s) as [p|].
    + destruct Hbest as (Hp & Hop & Hb & Hmin). split; [lia|]. split; [auto|]. split; [congruence|].
      intros v Hv Hov. destruct (Nat.eq_dec v k) as [->|Hvk]; [|auto].
      destruct (Hopen p Hop) as [_ Hokp]. destruct (newD_ok dist cur p Hokp) as [Hnp _].
      rewrite Hb in Ele. apply fle_intro; auto. rewrite fle_key in Ele by auto. apply Z.leb_gt in Ele.
      now apply Z.lt_le_incl.
    + exfalso. destruct Hbest as [_ Hb]. rewrite Hb, fle_key in Ele by (auto; apply D_MAX_notnan).
      apply Z.leb_gt in Ele. apply (Z.lt_irrefl KM). eapply Z.lt_le_trans; [exact Ele|exact Hkey].
Qed.

(** How the attached points were attached, most recent first. *)
Section Chain.
Variable D : nat -> f64.
Variable N : nat -> nat.
Definition own (A : list nat) (v : nat) : Prop :=
  (D v = D_MAX /\ N v = 0) \/ (In (N v) A /\ D v = W (N v) v /\ flt (D v) D_MAX = true).
Definition cut (A : list nat) (x : f64) : Prop :=
  forall u v, In u A -> v < n -> ~ In v A -> flt (W u v) x = false.
Fixpoint chain (A : list nat) : Prop :=
  match A with
  | [] => False
  | v :: A' => (A' = [] /\ v = n - 1) \/ (chain A' /\ ~ In v A' /\ v < n /\ own A' v /\ cut A' (D v) /\ okD (D v))
  end.
Lemma chain_lt A : chain A -> Forall (fun v => v < n) A.
Proof.
  induction A as [|v A IH]; cbn [chain]; [constructor|].
  intros [[-> ->]|(H & _ & Hv & _)]; constructor; auto. lia.
Qed.
Lemma chain_nodup A : chain A -> NoDup A.
Proof.
  induction A as [|v A IH]; cbn [chain]; [constructor|].
  intros [[-> ->]|(H & Hni & _)]; constructor; auto. constructor.
Qed.
Lemma chain_root A : chain A -> In (n - 1) A.
Proof.
  induction A as [|v A IH]; cbn [chain]; [tauto|].
  intros [[-> ->]|(H & _)]; [now left|right; auto].
Qed.
Lemma chain_cons v A : chain A -> ~ In v A -> v < n -> own A v -> cut A (D v) -> okD (D v) -> chain (v :: A).
Proof. intros. right. auto 10. Qed.
End Chain.

Lemma chain_ext D N D' N' A : (forall v, In v A -> D v = D' v /\ N v = N' v) -> chain D N A -> chain D' N' A.
Proof.
  induction A as [|v A IH]; intros H; cbn [chain]; auto.
  destruct (H v (or_introl eq_refl)) as [HD HN].
  intros [Hr|(Hc & Hni & Hv & Ho & Hcut & Hok)]; [auto|]. right.
  split; [apply IH; auto; intros u Hu; apply H; now right|]. split; [auto|]. split; [auto|].
  unfold own in *. rewrite HD, HN in Ho. rewrite HD in Hcut, Hok. auto.
Qed.

(** Invariant of the outer loop. *)
Definition prim_inv (t : nat) (p : prim) : Prop :=
  length (p_att p) = n /\ length (p_dist p) = L /\ length (p_nbr p) = L /\ length (p_oth p) = L /\
  p_cur p < n /\
  (forall i, i < t -> i < n -> nth i (p_oth p) 0 = i) /\
  exists A, length (p_cur p :: A) = t /\ chain (DD (p_dist p)) (fun v => nth v (p_nbr p) 0) (p_cur p :: A) /\
    (forall v, v < n -> nth v (p_att p) true = true <-> In v (p_cur p :: A)) /\
    (forall v, v < n -> ~ In v (p_cur p :: A) ->
       okD (DD (p_dist p) v) /\
       own (DD (p_dist p)) (fun v => nth v (p_nbr p) 0) A v /\
       (forall u, In u A -> flt (W u v) (DD (p_dist p) v) = false)).

Lemma flt_false_trans a b x : notnan b -> flt a b = false -> fle x b = true -> flt a x = false.
Proof.
  intros Hb H1 H2. apply fle_true in H2. destruct (flt a x) eqn:E; auto. apply flt_true in E.
  rewrite flt_key in H1 by tauto. apply Z.ltb_ge in H1. exfalso.
  apply (Z.lt_irrefl (fkey a)). eapply Z.lt_le_trans; [apply E|]. eapply Z.le_trans; [apply H2|exact H1].
Qed.

Lemma missing_point (A : list nat) : length A < n -> exists v, v < n /\ ~ In v A.
Proof.
  intros H. destruct (Forall_Exists_dec (fun v => In v A) (fun v => in_dec Nat.eq_dec v A) (seq 0 n)) as [HF|HE].
  - exfalso. assert (length (seq 0 n) <= length A); [|rewrite seq_length in *; lia].
    apply NoDup_incl_length; [apply seq_NoDup|]. intros x Hx. rewrite Forall_forall in HF. auto.
  - apply Exists_exists in HE. destruct HE as (v & Hv & Hni). apply in_seq in Hv. exists v. split; [lia|auto].
Qed.

Lemma prim_round_inv t p : 1 <= t -> t < n -> t < L -> prim_inv t p ->
  exists p', prim_round get core n t p = Ok p' /\ prim_inv (S t) p'.
Proof.
  intros Ht Htn HtL (Hatt & HLd & HLn & HLo & Hcur & Hoth & A & HA & Hchain & HattA & Hout).
  set (cur := p_cur p) in *. set (dist := p_dist p) in *. set (nbr := p_nbr p) in *.
  assert (Hop : forall v, open (p_att p) cur v <-> v < n /\ ~ In v (cur :: A)).
  { intros v. unfold open. split.
    - intros (Hv & Hne & Hf). split; auto. rewrite <- (HattA v Hv). congruence.
    - intros (Hv & Hni). split; auto. split; [intros ->; apply Hni; now left|].
      destruct (nth v (p_att p) true) eqn:E; auto. exfalso. apply Hni. now apply HattA. }
  assert (Hopen : forall v, open (p_att p) cur v -> v < L /\ okD (DD dist v)).
  { intros v Hv. apply Hop in Hv. destruct Hv as [Hv Hni]. split.
    - assert (v <> n - 1); [|lia]. intros ->. apply Hni. now apply chain_root in Hchain.
    - now apply Hout. }
  unfold prim_round. fold cur dist nbr.
  destruct (for_up_inv (scan_inv (p_att p) cur dist nbr) (scan_step get core (p_att p) cur) 0 n
              (mk_scan dist nbr None D_MAX)) as (s & -> & Hs).
  { split; [auto|]. split; [auto|]. cbn [s_point s_dist s_nbr s_best].
    split; [intros; lia|]. split; [auto|]. split; [intros; lia|auto]. }
  { intros i s Hi Hinv. apply scan_step_inv; auto. lia. }
  cbn [bind plus] in *. destruct Hs as (HLd' & HLn' & Hdone & Hrest & Hbest).
  destruct (missing_point (cur :: A)) as (m & Hm & Hmni); [rewrite HA; lia|].
  assert (Hmo : open (p_att p) cur m) by (apply Hop; auto).
  destruct (s_point s) as [v|]; [|exfalso; destruct Hbest as [Hnone _]; now apply (Hnone m)].
  destruct Hbest as (Hvn & Hvo & _ & Hmin).
  rewrite aset_ok by lia. cbn [bind]. rewrite aset_ok by lia. cbn [bind].
  eexists. split; [reflexivity|].
  unfold prim_inv. cbn [p_att p_dist p_nbr p_oth p_cur]. rewrite !upd_length.
  split; [auto|]. split; [auto|]. split; [auto|]. split; [auto|]. split; [auto|].
  split.
  { intros i Hi Hin. rewrite nth_upd_in by lia. destruct (Nat.eqb_spec t i); auto. apply Hoth; lia. }
  pose proof (proj1 (Hop v) Hvo) as [_ Hvni].
  (* facts about the new arrays *)
  assert (HnewD : forall x, x < n -> ~ In x (cur :: A) -> DD (s_dist s) x = newD dist cur x /\ nth x (s_nbr s) 0 = newN dist nbr cur x).
  { intros x Hx Hxni. apply Hdone; auto. apply Hop; auto. }
  assert (HoldD : forall x, In x (cur :: A) -> DD (s_dist s) x = DD dist x /\ nth x (s_nbr s) 0 = nth x nbr 0).
  { intros x Hx. apply Hrest. right. intros Ho. apply Hop in Ho. tauto. }
  assert (Hout' : forall x, x < n -> ~ In x (cur :: A) ->
     okD (newD dist cur x) /\ own (DD (s_dist s)) (fun v => nth v (s_nbr s) 0) (cur :: A) x /\
     (forall u, In u (cur :: A) -> flt (W u x) (newD dist cur x) = false)).
  { intros x Hx Hxni. destruct (Hout x Hx Hxni) as (Hok & Hown & Hcut).
    pose proof (newD_ok dist cur x Hok) as Hok'. split; auto.
    destruct (HnewD x Hx Hxni) as [ED EN].
    assert (Hle : fle (newD dist cur x) (DD dist x) = true).
    { destruct Hok as [Hnn Hkk], Hok' as [Hnn' Hkk']. apply fle_intro; auto. unfold newD.
      destruct (flt (W cur x) (DD dist x)) eqn:E; [|apply Z.le_refl]. apply flt_true in E. now apply Z.lt_le_incl. }
    split.
    - unfold own. rewrite ED, EN. unfold newD, newN.
      destruct (flt (W cur x) (DD dist x)) eqn:E.
      + right. split; [now left|]. split; [reflexivity|]. apply flt_true in E.
        apply flt_intro; try tauto; [reflexivity|]. destruct Hok as [_ Hkk]. eapply Z.lt_le_trans; [apply E|exact Hkk].
      + destruct Hown as [Hown|(Hin & HD & Hlt)]; [left; auto|]. right. split; [now right|]. auto.
    - intros u [->|Hu].
      + unfold newD. destruct (flt (W u x) (DD dist x)) eqn:E; auto.
        apply flt_true in E. apply flt_false; try tauto. apply Z.le_refl.
      + apply (flt_false_trans _ (DD dist x)); [apply Hok|auto|auto]. }
  exists (cur :: A). split; [cbn [length] in *; lia|]. split; [|split].
  - destruct (Hout' v Hvn Hvni) as (Hok & Hown & _). destruct (HnewD v Hvn Hvni) as [ED _].
    apply chain_cons; auto; try (rewrite ED; auto; fail).
    + eapply chain_ext; [|exact Hchain]. intros x Hx. destruct (HoldD x Hx); auto.
    + rewrite ED. intros u x Hu Hx Hxni. destruct (Hout' x Hx Hxni) as (Hokx & _ & Hc).
      apply (flt_false_trans _ (newD dist cur x)); [apply Hokx|auto|].
      apply Hmin; auto. apply Hop; auto.
  - intros x Hx. rewrite nth_upd_in by lia. destruct (Nat.eqb_spec v x) as [->|Hne].
    + split; auto. intros _. now left.
    + rewrite (HattA x Hx). split; [intros H; now right|intros [H|H]; [congruence|exact H]].
  - intros x Hx Hxni. assert (Hxni' : ~ In x (cur :: A)) by (intros H; apply Hxni; now right).
    destruct (Hout' x Hx Hxni') as (Hok & Hown & Hc). destruct (HnewD x Hx Hxni') as [ED _]. rewrite ED. auto.
Qed.

Lemma prim_rounds rounds : rounds < n -> rounds < L ->
  exists p, for_up 1 rounds (prim_round get core n)
    (mk_prim (repeat false (n - 1) ++ [true]) (repeat D_MAX L) (repeat 0 L) (repeat 0 L) (n - 1)) = Ok p /\
    prim_inv (1 + rounds) p.
Proof.
  intros Hrn HrL. apply for_up_inv.
  - unfold prim_inv. cbn [p_att p_dist p_nbr p_oth p_cur].
    rewrite app_length, !repeat_length. cbn [length]. split; [lia|]. split; [auto|]. split; [auto|]. split; [auto|].
    split; [lia|]. split.
    { intros i Hi _. assert (i = 0) as -> by lia. apply nth_repeat_all. }
    exists []. split; [reflexivity|]. split; [cbn [chain]; auto|]. split.
    + intros v Hv. destruct (Nat.eq_dec v (n - 1)) as [->|Hne].
      * rewrite app_nth2 by (rewrite repeat_length; lia). rewrite repeat_length, Nat.sub_diag. cbn. tauto.
      * rewrite app_nth1 by (rewrite repeat_length; lia).
        rewrite (nth_indep _ true false) by (rewrite repeat_length; lia). rewrite nth_repeat_all.
        split; [discriminate|]. intros [H|[]]. lia.
    + intros v Hv _. unfold DD. rewrite nth_repeat_all. split; [split; [reflexivity|apply Z.le_refl]|].
      split; [|intros u []]. left. unfold DD. rewrite !nth_repeat_all. auto.
  - intros i s Hi Hinv. apply prim_round_inv; auto; lia.
Qed.

(** ** The connectivity argument *)
Section Threshold.
Variable D : nat -> f64.
Variable N : nat -> nat.
Variable eps : f64.
Hypothesis Heps : notnan eps.
(** Tree edges up to the threshold. *)
Definition tedge (u v : nat) : Prop := v < n - 1 /\ u = N v /\ fle (D v) eps = true.
Definition tconn := clos_refl_sym_trans nat tedge.
Hypothesis Wnn : forall u v, u < n -> v < n -> u <> v -> flt (W u v) D_MAX = true.
Hypothesis Wsym : forall u v, u < n -> v < n -> u <> v -> feq (W u v) (W v u) = true.

Definition near (u v : nat) : Prop := fle (W u v) eps = true.
Definition exits (A : list nat) (u : nat) : Prop := exists x, x < n /\ ~ In x A /\ near u x.

Lemma cut_le A x u v : okD x -> cut A x -> In u A -> u < n -> v < n -> ~ In v A -> near u v -> fle x eps = true.
Proof.
  intros Hok Hcut Hu Hun Hv Hni Hnear. unfold near in Hnear. apply fle_true in Hnear.
  pose proof (Hcut u v Hu Hv Hni) as H. destruct Hok as [Hnn _]. rewrite flt_key in H by tauto. apply Z.ltb_ge in H.
  apply fle_intro; auto. eapply Z.le_trans; [exact H|apply Hnear].
Qed.

Lemma own_edge A v : chain D N A -> own D N A v -> v < n -> ~ In v A ->
  okD (D v) -> cut A (D v) -> In (N v) A /\ D v = W (N v) v.
Proof.
  intros Hch [[HD _]|(Hin & HD & _)] Hv Hni Hok Hcut; auto. exfalso.
  pose proof (chain_root D N A Hch) as Hr. pose proof (Hcut (n - 1) v Hr Hv Hni) as H.
  rewrite HD, Wnn in H; [discriminate|lia|auto|]. intros <-. contradiction.
Qed.

Lemma attach_edge A v : chain D N (v :: A) -> A <> [] ->
  In (N v) A /\ D v = W (N v) v /\ v < n /\ ~ In v A /\ okD (D v) /\ cut A (D v) /\ v < n - 1.
Proof.
  intros [[-> _]|(Hch & Hni & Hv & Hown & Hcut & Hok)] HA; [contradiction|].
  destruct (own_edge A v Hch Hown Hv Hni Hok Hcut) as [H1 H2].
  assert (v <> n - 1) by (intros ->; apply Hni; eapply chain_root; eauto).
  split; [auto|]. split; [auto|]. split; [auto|]. split; [auto|]. split; [auto|]. split; [auto|]. lia.
Qed.

Lemma attach_conn A v u : chain D N (v :: A) -> In u A -> near u v ->
  tconn v (N v) /\ exits A (N v) /\ In (N v) A.
Proof.
  intros Hch Hu Hnear. destruct (attach_edge A v Hch) as (Hin & HD & Hv & Hni & Hok & Hcut & Hlt).
  { intros ->. contradiction. }
  assert (Hle : fle (D v) eps = true).
  { apply (cut_le A (D v) u v); auto. cbn [chain] in Hch. destruct Hch as [[-> _]|[Hch _]]; [contradiction|].
    apply chain_lt in Hch; auto. rewrite Forall_forall in Hch. auto. }
  split; [|split; auto].
  - apply rst_sym, rst_step. split; auto.
  - exists v. split; auto. split; auto. unfold near. now rewrite <- HD.
Qed.

Lemma exits_conn A : chain D N A -> forall u v, In u A -> In v A -> exits A u -> exits A v -> tconn u v.
Proof.
  induction A as [|a A IH]; [intros []|].
  intros Hch. destruct (list_eq_dec Nat.eq_dec A []) as [->|HA].
  { intros u v [->|[]] [->|[]] _ _. apply rst_refl. }
  assert (Hch' : chain D N A) by (destruct Hch as [[-> _]|[H _]]; [contradiction|auto]).
  specialize (IH Hch').
  assert (Hweak : forall u, exits (a :: A) u -> exits A u).
  { intros u (x & Hx & Hni & Hnr). exists x. split; auto. split; auto. intros H; apply Hni; now right. }
  assert (Hone : forall v, In v A -> exits (a :: A) v -> tconn a v).
  { intros v Hv Hex. destruct (attach_edge A a Hch HA) as (Hin & HD & Han & Hni & Hok & Hcut & Hlt).
    destruct Hex as (x & Hx & Hxni & Hnr).
    assert (Hle : fle (D a) eps = true).
    { apply (cut_le A (D a) v x); auto.
      - apply chain_lt in Hch'; auto. rewrite Forall_forall in Hch'. auto.
      - intros H; apply Hxni; now right. }
    eapply rst_trans; [apply rst_sym, rst_step; split; [exact Hlt|split; [reflexivity|exact Hle]]|].
    apply IH; auto.
    - exists a. split; auto. split; auto. unfold near. now rewrite <- HD.
    - exists x. split; auto. split; auto. intros H; apply Hxni; now right. }
  intros u v [->|Hu] [->|Hv] Hxu Hxv.
  - apply rst_refl.
  - apply Hone; auto.
  - apply rst_sym. apply Hone; auto.
  - apply IH; auto.
Qed.

Lemma near_conn A : chain D N A -> forall u v, In u A -> In v A -> u <> v -> near u v -> tconn u v.
Proof.
  induction A as [|a A IH]; [intros []|].
  intros Hch u v Hu Hv Hne Hnr.
  destruct (list_eq_dec Nat.eq_dec A []) as [->|HA].
  { destruct Hu as [->|[]], Hv as [->|[]]. congruence. }
  assert (Hch' : chain D N A) by (destruct Hch as [[-> _]|[H _]]; [contradiction|auto]).
  destruct (attach_edge A a Hch HA) as (Hin & HD & Han & Hni & Hok & Hcut & Hlt).
  assert (Hold : forall x, In x A -> x < n) by (pose proof (chain_lt D N A Hch') as HF; rewrite Forall_forall in HF; auto).
  assert (Hone : forall x, In x A -> near x a -> tconn a x).
  { intros x Hx Hxa. destruct (attach_conn A a x Hch Hx Hxa) as (H1 & H2 & H3).
    eapply rst_trans; [exact H1|]. apply (exits_conn A Hch'); auto. exists a. auto. }
  destruct Hu as [->|Hu], Hv as [->|Hv]; [congruence| | |].
  - apply Hone; auto. unfold near in *. pose proof (Wsym u v Han (Hold v Hv) Hne) as E. apply feq_true in E.
    apply fle_true in Hnr. apply fle_intro; try tauto. destruct E as (_ & _ & E). rewrite <- E. apply Hnr.
  - apply rst_sym. apply Hone; auto.
  - apply IH; auto.
Qed.
End Threshold.

(** ** Self edges *)
Definition self_inv (p : edges) (k : nat) (e : edges) : Prop :=
  length (e_a e) = n - 1 + n /\ length (e_b e) = n - 1 + n /\ length (e_w e) = n - 1 + n /\
  (forall i, i < n - 1 -> nth i (e_a e) 0 = nth i (e_a p) 0 /\ nth i (e_b e) 0 = nth i (e_b p) 0 /\
                          nth i (e_w e) D_MAX = nth i (e_w p) D_MAX) /\
  (forall v, n - 1 + v < k -> nth (n - 1 + v) (e_a e) 0 = v /\ nth (n - 1 + v) (e_b e) 0 = v /\
                              nth (n - 1 + v) (e_w e) D_MAX = c v).

Lemma self_edges_inv p : length (e_a p) = n - 1 + n -> length (e_b p) = n - 1 + n -> length (e_w p) = n - 1 + n ->
  exists e, for_up (n - 1) n (self_edge core n) p = Ok e /\ self_inv p (n - 1 + n) e.
Proof.
  intros Ha Hb Hw. apply for_up_inv.
  - split; [auto|]. split; [auto|]. split; [auto|]. split; [auto|]. intros v Hv. lia.
  - intros i e Hi (H1 & H2 & H3 & Hlo & Hhi). unfold self_edge.
    rewrite !aset_ok by lia. cbn [bind]. rewrite Hcore by lia. cbn [bind]. rewrite aset_ok by lia. cbn [bind].
    eexists. split; [reflexivity|]. unfold self_inv. cbn [e_a e_b e_w]. rewrite !upd_length.
    split; [auto|]. split; [auto|]. split; [auto|]. split.
    + intros j Hj. rewrite !nth_upd_in by lia. replace (i =? j) with false by (symmetry; apply Nat.eqb_neq; lia). auto.
    + intros v Hv. rewrite !nth_upd_in by lia. destruct (Nat.eqb_spec i (n - 1 + v)) as [->|Hne].
      * replace (n - 1 + v - (n - 1)) with v by lia. auto.
      * apply Hhi. lia.
Qed.
End Prim.

(** ** What hdbscan_construct_mst returns *)
Definition edge_at (e : edges) (i : nat) : nat * nat * f64 :=
  (nth i (e_a e) 0, nth i (e_b e) 0, nth i (e_w e) D_MAX).

Lemma mst_edges_ok get core g c n : 1 <= n ->
  (forall i j, i < n -> j < n -> i <> j -> get i j = Ok (g i j)) ->
  (forall i, i < n -> core i = Ok (c i)) ->
  exists e A, mst_edges get core n true = Ok e /\
    length (e_a e) = n - 1 + n /\ length (e_b e) = n - 1 + n /\ length (e_w e) = n - 1 + n /\
    (forall i, i < n - 1 -> nth i (e_b e) 0 = i) /\
    (forall v, v < n -> edge_at e (n - 1 + v) = (v, v, c v)) /\
    length A = n /\ (forall v, v < n -> In v A) /\
    exists D N, chain g c n D N A /\
      forall v, v < n - 1 -> D v = nth v (e_w e) D_MAX /\ N v = nth v (e_a e) 0.
Proof.
  intros Hn Hget Hcore. unfold mst_edges.
  replace (n =? 0) with false by (symmetry; apply Nat.eqb_neq; lia).
  replace (n - 1 + n =? 0) with false by (symmetry; apply Nat.eqb_neq; lia).
  destruct (prim_rounds get core g c n (n - 1 + n) Hn) with (rounds := n - 1) as (p & -> & Hp); auto; try lia.
  cbn [bind].
  destruct Hp as (Hatt & HLd & HLn & HLo & Hcur & Hoth & A & HA & Hchain & HattA & _).
  destruct (self_edges_inv core c n n Hn ltac:(lia) Hcore (mk_edges (p_nbr p) (p_oth p) (p_dist p))) as (e & He & Hinv); auto.
  cbn [e_a e_b e_w] in *. exists e, (p_cur p :: A). split; [exact He|].
  destruct Hinv as (H1 & H2 & H3 & Hlo & Hhi). cbn [e_a e_b e_w] in *.
  split; [auto|]. split; [auto|]. split; [auto|].
  split. { intros i Hi. destruct (Hlo i Hi) as (_ & -> & _). apply Hoth; lia. }
  split. { intros v Hv. unfold edge_at. destruct (Hhi v) as (-> & -> & ->); [lia|auto]. }
  replace (1 + (n - 1)) with n in HA by lia. split; [auto|]. split.
  { intros v Hv. assert (Hinc : incl (seq 0 n) (p_cur p :: A)).
    { apply NoDup_length_incl.
      - eapply chain_nodup; eauto.
      - rewrite seq_length. lia.
      - intros x Hx. apply in_seq. apply (chain_lt g c n n) in Hchain; [|lia|lia]. rewrite Forall_forall in Hchain. specialize (Hchain x Hx). lia. }
    apply Hinc. apply in_seq. lia. }
  exists (DD (p_dist p)), (fun v => nth v (p_nbr p) 0). split; [exact Hchain|].
  intros v Hv. destruct (Hlo v Hv) as (-> & _ & ->). auto.
Qed.

(** Without self edges the last write to [others] is out of range. *)
Lemma mst_edges_noself get core g c n : 2 <= n ->
  (forall i j, i < n -> j < n -> i <> j -> get i j = Ok (g i j)) ->
  (forall i, i < n -> core i = Ok (c i)) ->
  mst_edges get core n false = UB.
Proof.
  intros Hn Hget Hcore. unfold mst_edges.
  replace (n =? 0) with false by (symmetry; apply Nat.eqb_neq; lia). rewrite Nat.add_0_r.
  replace (n - 1 =? 0) with false by (symmetry; apply Nat.eqb_neq; lia).
  set (p0 := mk_prim _ _ _ _ _).
  assert (Happ : forall a b k s, for_up k (a + b) (prim_round get core n) s =
    let! s' := for_up k a (prim_round get core n) s in for_up (k + a) b (prim_round get core n) s').
  { induction a as [|a IH]; intros b k s; cbn [for_up plus bind]; [now rewrite Nat.add_0_r|].
    destruct (prim_round get core n k s); cbn [bind]; auto. rewrite IH. now rewrite <- Nat.add_succ_comm. }
  replace (n - 1) with ((n - 2) + 1) at 1 by lia. rewrite Happ.
  destruct (prim_rounds get core g c n (n - 1)) with (rounds := n - 2) as (p & E & Hp); auto; try lia.
  unfold p0. rewrite E. cbn [bind for_up].
  destruct Hp as (Hatt & HLd & HLn & HLo & Hcur & Hoth & A & HA & Hchain & HattA & Hout).
  (* the round itself reaches the write *)
  unfold prim_round.
  destruct (for_up_inv (scan_inv g c n (n - 1) (p_att p) (p_cur p) (p_dist p) (p_nbr p)) (scan_step get core (p_att p) (p_cur p)) 0 n
              (mk_scan (p_dist p) (p_nbr p) None D_MAX)) as (s & -> & Hs).
  { split; [auto|]. split; [auto|]. cbn [s_point s_dist s_nbr s_best].
    split; [intros; lia|]. split; [auto|]. split; [intros; lia|auto]. }
  { intros i s Hi Hinv. eapply scan_step_inv; eauto; [lia|lia|].
    intros v (Hv & Hne & Hf).
    assert (Hni : ~ In v (p_cur p :: A)) by (rewrite <- (HattA v Hv); congruence).
    split; [|now apply Hout].
    assert (v <> n - 1); [|lia]. intros ->. apply Hni. now apply chain_root in Hchain. }
  cbn [bind]. destruct Hs as (_ & _ & _ & _ & Hbest).
  destruct (s_point s) as [v|]; auto. destruct Hbest as (Hv & _).
  rewrite aset_ok by lia. cbn [bind]. unfold aset. rewrite HLo.
  replace (1 + (n - 2) <? n - 1) with false by (symmetry; apply Nat.ltb_ge; lia). reflexivity.
Qed.
