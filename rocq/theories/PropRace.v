(** C39: the offsets of new clusters under every schedule. *)
From Coq Require Import Permutation.
From Verif Require Import Base ListFacts F64 ModelDistance ModelGraph ModelCluster ModelHier ModelSelect ModelRun ModelRace SpecTree ProofSets ProofProminent PropHier PropRun.
From Coq Require Import ZifyBool ZifyNat.
Local Open Scope nat_scope.

(** [cs'] is [cs] where exactly the clusters at the positions [W] got the offset [line]. *)
Definition stored_at (W : nat -> Prop) (line : nat) (cs cs' : clusters) : Prop :=
  length cs' = length cs /\
  forall p, (W p -> exists c, cluster_in cs p c /\ cluster_in cs' p (set_offset c line)) /\ (~ W p -> nth_error cs' p = nth_error cs p).

Lemma cget_in cs p c : cluster_in cs p c -> cget cs p = Ok c.
Proof. intros H. unfold cget. rewrite (aget_nth _ _ _ H). reflexivity. Qed.
Lemma set_offset_twice c a b : set_offset (set_offset c a) b = set_offset c b. Proof. reflexivity. Qed.

(** A cluster is written when [Store] runs while the shared pointer holds it. *)
Fixpoint written (new : list nat) (l : list step) (s : option nat) : list nat :=
  match l with
  | [] => []
  | Fetch i :: l' => written new l' (nth_error new i)
  | Store :: l' => match s with Some p => p :: written new l' s | None => written new l' s end
  end.
Definition last_fetch (s : option nat) (l : list step) : Prop := s <> None \/ match l with Store :: _ => False | _ => True end.

Lemma steps_ok new line l : forall s cs,
  (forall p, In p new -> exists c, cluster_in cs p c) -> (forall p, s = Some p -> In p new) ->
  (forall i, In (Fetch i) l -> i < length new) -> (s = None -> match l with Store :: _ => False | _ => True end) ->
  exists s' cs', do_steps new line l (s, cs) = Ok (s', cs') /\ stored_at (fun p => In p (written new l s)) line cs cs'.
Proof.
  induction l as [|st l IH]; intros s cs HC Hs Hf H0; cbn [do_steps written].
  - exists s, cs. split; [reflexivity|]. split; [reflexivity|]. intros p. split; [intros []|reflexivity].
  - destruct st as [i|]; cbn [do_step snd fst].
    + assert (Hi : i < length new) by (apply Hf; left; reflexivity). destruct (nth_error new i) as [p|] eqn:Ep; [|apply nth_error_None in Ep; lia].
      rewrite (aget_nth _ _ _ Ep). cbn [bind]. apply IH; [exact HC| | |discriminate].
      * intros q Hq. injection Hq as <-. apply (nth_error_In _ _ Ep).
      * intros j Hj. apply Hf. right. exact Hj.
    + destruct s as [p|]; [|destruct (H0 eq_refl)]. destruct (HC p (Hs p eq_refl)) as (c & Hc). rewrite (cget_in _ _ _ Hc). cbn [bind].
      assert (Hl : p < length cs) by (apply nth_error_Some; unfold cluster_in in Hc; congruence).
      assert (Es : cset cs p (set_offset c line) = Ok (upd cs p (Some (set_offset c line)))) by (unfold cset, aset; destruct (Nat.ltb_spec p (length cs)); [reflexivity|lia]).
      rewrite Es. cbn [bind].
      destruct (IH (Some p) (upd cs p (Some (set_offset c line)))) as (s' & cs' & E & HL & HW).
      * intros q Hq. destruct (HC q Hq) as (d & Hd). unfold cluster_in. destruct (Nat.eq_dec p q) as [->|Hn].
        -- exists (set_offset c line). rewrite nth_error_upd, Nat.eqb_refl. destruct (Nat.ltb_spec q (length cs)); [reflexivity|lia].
        -- exists d. rewrite nth_error_upd_neq by exact Hn. exact Hd.
      * exact Hs.
      * intros j Hj. apply Hf. right. exact Hj.
      * discriminate.
      * exists s', cs'. split; [exact E|]. split; [rewrite HL; apply upd_length|]. intros q. destruct (HW q) as [W1 W2].
        assert (Hdec : In q (written new l (Some p)) \/ ~ In q (written new l (Some p))) by (destruct (in_dec Nat.eq_dec q (written new l (Some p))); auto).
        split.
        -- intros [<-|Hq].
           ++ exists c. split; [exact Hc|]. destruct Hdec as [Hd|Hd].
              ** destruct (W1 Hd) as (d & Hd1 & Hd2). unfold cluster_in in Hd1. rewrite nth_error_upd, Nat.eqb_refl in Hd1. destruct (Nat.ltb_spec p (length cs)); [|lia]. cbn [andb] in Hd1. injection Hd1 as <-. exact Hd2.
              ** unfold cluster_in. rewrite (W2 Hd), nth_error_upd, Nat.eqb_refl. destruct (Nat.ltb_spec p (length cs)); [reflexivity|lia].
           ++ destruct (W1 Hq) as (d & Hd1 & Hd2). unfold cluster_in in Hd1. destruct (Nat.eq_dec p q) as [->|Hn].
              ** rewrite nth_error_upd, Nat.eqb_refl in Hd1. destruct (Nat.ltb_spec q (length cs)); [|lia]. cbn [andb] in Hd1. injection Hd1 as <-. exists c. split; [exact Hc|exact Hd2].
              ** rewrite nth_error_upd_neq in Hd1 by exact Hn. exists d. split; [exact Hd1|exact Hd2].
        -- intros Hq. rewrite W2; [|intros H; apply Hq; right; exact H]. apply nth_error_upd_neq. intros ->. apply Hq. left. reflexivity.
Qed.

(** ** Interleavings *)
Lemma split_two {T} (a b a' b' : list T) x y : a ++ x :: b = a' ++ y :: b' -> (a = a' /\ x = y /\ b = b') \/ In x a' \/ In x b'.
Proof.
  revert a'. induction a as [|z a IH]; intros [|z' a'] E; cbn in E; injection E as E1 E2; subst; auto.
  - right. left. left. reflexivity.
  - right. right. apply in_or_app. right. left. reflexivity.
  - destruct (IH a' E2) as [(-> & -> & ->)|[H|H]]; [auto|right; left; right; exact H|right; right; exact H].
Qed.
Lemma inter_head ts x l : interleave ts (x :: l) -> exists t, In (x :: t) ts.
Proof. intros H. inversion H as [|a y t b l' Hi]; subst. exists t. apply in_or_app. right. left. reflexivity. Qed.
Lemma inter_in ts l : interleave ts l -> forall x, In x l <-> exists t, In t ts /\ In x t.
Proof.
  induction 1 as [ts HF|a y t b l Hi IH]; intros x.
  - split; [intros []|]. intros (t & Ht & Hx). rewrite Forall_forall in HF. rewrite (HF t Ht) in Hx. exact Hx.
  - cbn [In]. rewrite IH. split.
    + intros [<-|(u & Hu & Hx)]; [exists (y :: t); split; [apply in_or_app; right; left; reflexivity|left; reflexivity]|].
      apply in_app_iff in Hu. destruct Hu as [Hu|[<-|Hu]]; [exists u; split; [apply in_or_app; left; exact Hu|exact Hx]| |exists u; split; [apply in_or_app; right; right; exact Hu|exact Hx]].
      exists (y :: t). split; [apply in_or_app; right; left; reflexivity|right; exact Hx].
    + intros (u & Hu & Hx). apply in_app_iff in Hu. destruct Hu as [Hu|[<-|Hu]].
      * right. exists u. split; [apply in_or_app; left; exact Hu|exact Hx].
      * destruct Hx as [<-|Hx]; [left; reflexivity|]. right. exists t. split; [apply in_or_app; right; left; reflexivity|exact Hx].
      * right. exists u. split; [apply in_or_app; right; right; exact Hu|exact Hx].
Qed.
Lemma inter_nil ts l : interleave ts l -> interleave ([] :: ts) l.
Proof. induction 1 as [ts HF|a y t b l Hi IH]; [constructor; constructor; auto|]. apply (turn ([] :: a) y t b l). exact IH. Qed.
Lemma inter_seq ts : interleave ts (concat ts).
Proof.
  induction ts as [|t ts IH]; cbn [concat]; [constructor; constructor|]. induction t as [|x t IHt]; cbn [app]; [apply inter_nil, IH|]. apply (turn [] x t ts). exact IHt.
Qed.
Lemma in_thread its x : In x (thread its) <-> (x = Store /\ its <> []) \/ exists i, x = Fetch i /\ In i its.
Proof.
  unfold thread. rewrite in_flat_map. split.
  - intros (i & Hi & [<-|[<-|[]]]); [right; exists i; auto|left; split; [reflexivity|intros ->; destruct Hi]].
  - intros [[-> Hn]|(i & -> & Hi)]; [|exists i; split; [exact Hi|left; reflexivity]]. destruct its as [|i its]; [contradiction|]. exists i. split; [left; reflexivity|right; left; reflexivity].
Qed.

Lemma written_in new l : forall s, (forall p, s = Some p -> In p new) -> incl (written new l s) new.
Proof.
  induction l as [|[i|] l IH]; intros s Hs p Hp; cbn [written] in Hp; [destruct Hp| |].
  - apply (IH (nth_error new i)); [|exact Hp]. intros q Hq. apply (nth_error_In _ _ Hq).
  - destruct s as [q|]; [destruct Hp as [<-|Hp]; [apply Hs; reflexivity|]|]; apply (IH _ Hs p Hp).
Qed.
Lemma written_some new l : forall p, (forall i, In (Fetch i) l -> i < length new) -> In Store l -> written new l (Some p) <> [].
Proof.
  induction l as [|[i|] l IH]; intros p Hf Hs; [destruct Hs| |discriminate]. cbn [written]. destruct Hs as [Hs|Hs]; [discriminate|].
  assert (Hi : i < length new) by (apply Hf; left; reflexivity). destruct (nth_error new i) as [q|] eqn:E; [|apply nth_error_None in E; lia]. apply IH; [|exact Hs]. intros j Hj. apply Hf. right. exact Hj.
Qed.
Lemma written_thread new its : forall s p, (forall i, In i its -> i < length new) -> In p (written new (thread its) s) <-> exists i, In i its /\ nth_error new i = Some p.
Proof.
  induction its as [|i its IH]; intros s p Hi; cbn [thread flat_map app written].
  - split; [intros []|intros (i & [] & _)].
  - assert (H : i < length new) by (apply Hi; left; reflexivity). destruct (nth_error new i) as [q|] eqn:E; [|apply nth_error_None in E; lia].
    fold (thread its). cbn [In]. rewrite (IH (Some q) p) by (intros j Hj; apply Hi; right; exact Hj). split.
    + intros [<-|(j & Hj & Ej)]; [exists i; auto|exists j; auto].
    + intros (j & [<-|Hj] & Ej); [left; congruence|right; exists j; auto].
Qed.

Lemma schedule_facts new chunks l : schedule_of new chunks l ->
  (forall i, In (Fetch i) l -> i < length new) /\ match l with Store :: _ => False | _ => True end /\ (new <> [] -> In Store l).
Proof.
  intros [Hc Hi]. assert (Hcl : forall i c, In c chunks -> In i c -> i < length new).
  { intros i c H1 H2. assert (H : In i (concat chunks)) by (apply in_concat; exists c; auto). rewrite Hc in H. apply in_seq in H. lia. }
  split; [|split].
  - intros i Hin. apply (inter_in _ _ Hi) in Hin. destruct Hin as (t & Ht & Hx). apply in_map_iff in Ht. destruct Ht as (c & <- & Hcc).
    apply in_thread in Hx. destruct Hx as [[Hx _]|(j & Hx & Hj)]; [discriminate|]. injection Hx as <-. apply (Hcl i c Hcc Hj).
  - destruct l as [|[i|] l]; [exact I|exact I|]. destruct (inter_head _ _ _ Hi) as (t & Ht). apply in_map_iff in Ht. destruct Ht as (c & Hx & _). destruct c; discriminate.
  - intros Hn. apply (inter_in _ _ Hi). destruct chunks as [|c0 chunks0] eqn:Ech; [destruct new; [contradiction|discriminate]|]. rewrite <- Ech in *.
    assert (H0 : In 0 (concat chunks)) by (rewrite Hc; apply in_seq; destruct new; [contradiction|cbn; lia]). apply in_concat in H0. destruct H0 as (c & Hcc & H0).
    exists (thread c). split; [apply in_map, Hcc|]. apply in_thread. left. split; [reflexivity|intros ->; destruct H0].
Qed.

(** C39, what holds for every schedule: only new clusters are changed, in nothing but the
    offset, which becomes the line number, and at least one of them is changed. *)
Theorem C39_every_schedule : forall new line chunks l cs, schedule_of new chunks l -> (forall p, In p new -> exists c, cluster_in cs p c) ->
  exists cs' W, store_offsets new line l cs = Ok cs' /\ incl W new /\ (new <> [] -> W <> []) /\ stored_at (fun p => In p W) line cs cs'.
Proof.
  intros new line chunks l cs HS HC. destruct (schedule_facts new chunks l HS) as (F1 & F2 & F3).
  destruct (steps_ok new line l None cs HC) as (s' & cs' & E & HW); [discriminate|exact F1|intros _; exact F2|].
  exists cs', (written new l None). unfold store_offsets. rewrite E. split; [reflexivity|]. split; [apply written_in; discriminate|]. split; [|exact HW].
  intros Hn. specialize (F3 Hn). destruct l as [|[i|] l]; [destruct F3| |destruct F2]. cbn [written]. destruct F3 as [F3|F3]; [discriminate|].
  assert (Hi : i < length new) by (apply F1; left; reflexivity). destruct (nth_error new i) as [p|] eqn:Ep; [|apply nth_error_None in Ep; lia].
  apply written_some; [intros j Hj; apply F1; right; exact Hj|exact F3].
Qed.
Print Assumptions C39_every_schedule.

(** When one thread runs all iterations, every new cluster gets its offset, as in the
    sequential loop of the model of the hierarchy. *)
Theorem C39_one_thread : forall new line l cs, schedule_of new [seq 0 (length new)] l -> (forall p, In p new -> exists c, cluster_in cs p c) ->
  exists cs', store_offsets new line l cs = Ok cs' /\ stored_at (fun p => In p new) line cs cs' /\ write_offsets cs new line = Ok cs'.
Proof.
  intros new line l cs HS HC. assert (El : l = thread (seq 0 (length new))).
  { destruct HS as [_ Hi]. cbn [map] in Hi. remember [thread (seq 0 (length new))] as ts eqn:Et. generalize dependent (thread (seq 0 (length new))). induction Hi as [ts HF|a x t b l Hi IH]; intros t0 Et.
    - rewrite Et in HF. inversion HF. congruence.
    - destruct a as [|a0 [|? ?]]; cbn in Et; try discriminate. injection Et as <- ->. f_equal. apply IH. reflexivity. }
  destruct (schedule_facts new _ l HS) as (F1 & F2 & F3).
  destruct (steps_ok new line l None cs HC) as (s' & cs' & E & HL & HW); [discriminate|exact F1|intros _; exact F2|].
  exists cs'. unfold store_offsets. rewrite E. split; [reflexivity|].
  assert (HA : forall p, In p (written new l None) <-> In p new).
  { intros p. rewrite El, written_thread by (intros i Hi; apply in_seq in Hi; lia). split; [intros (i & _ & Hp); apply (nth_error_In _ _ Hp)|].
    intros Hp. apply In_nth_error in Hp. destruct Hp as (i & Hp). exists i. split; [apply in_seq; split; [lia|]; cbn; apply nth_error_Some; congruence|exact Hp]. }
  split; [split; [exact HL|]; intros p; rewrite <- HA; apply HW|].
  assert (HG : forall rest pre s cs0, new = pre ++ rest -> (forall p, In p new -> exists c, cluster_in cs0 p c) ->
     (let! r := do_steps new line (thread (seq (length pre) (length rest))) (s, cs0) in Ok (snd r)) = write_offsets cs0 rest line).
  { clear. induction rest as [|p rest IH]; intros pre s cs0 En HC; [reflexivity|]. cbn [length seq thread flat_map app do_steps do_step snd fst write_offsets].
    assert (Ep : nth_error new (length pre) = Some p) by (rewrite En, nth_error_app2, Nat.sub_diag by lia; reflexivity). rewrite (aget_nth _ _ _ Ep). cbn [bind do_steps do_step snd fst].
    destruct (HC p) as (c & Hc); [rewrite En; apply in_or_app; right; left; reflexivity|]. rewrite (cget_in _ _ _ Hc). cbn [bind].
    assert (Hl : p < length cs0) by (apply nth_error_Some; unfold cluster_in in Hc; congruence).
    assert (Es : cset cs0 p (set_offset c line) = Ok (upd cs0 p (Some (set_offset c line)))) by (unfold cset, aset; destruct (Nat.ltb_spec p (length cs0)); [reflexivity|lia]).
    rewrite Es. cbn [bind]. fold (thread (seq (S (length pre)) (length rest))). replace (S (length pre)) with (length (pre ++ [p])) by (rewrite app_length; cbn; lia).
    apply IH; [rewrite <- app_assoc; exact En|]. intros q Hq. destruct (HC q Hq) as (d & Hd). unfold cluster_in. destruct (Nat.eq_dec p q) as [->|Hn].
    - exists (set_offset c line). rewrite nth_error_upd, Nat.eqb_refl. destruct (Nat.ltb_spec q (length cs0)); [reflexivity|lia].
    - exists d. rewrite nth_error_upd_neq by exact Hn. exact Hd. }
  rewrite El in E. specialize (HG new [] None cs eq_refl HC). cbn [length] in HG. rewrite E in HG. cbn [bind snd] in HG. symmetry. exact HG.
Qed.
Print Assumptions C39_one_thread.

(** As soon as two threads have work there is a schedule after which a new cluster has kept
    its old offset (0, from cluster_init). *)
Theorem C39_offset_race_refuted : forall new line A a A' B b B' C cs, NoDup new -> (forall p, In p new -> exists c, cluster_in cs p c) ->
  concat (A ++ (a :: A') :: B ++ (b :: B') :: C) = seq 0 (length new) ->
  exists l cs' p, schedule_of new (A ++ (a :: A') :: B ++ (b :: B') :: C) l /\ store_offsets new line l cs = Ok cs' /\ In p new /\ nth_error cs' p = nth_error cs p.
Proof.
  intros new line A a A' B b B' C cs Hnd HC Hcon.
  set (rest := A ++ A' :: B ++ B' :: C).
  set (l := Fetch a :: Fetch b :: Store :: Store :: thread (concat rest)).
  assert (HS : schedule_of new (A ++ (a :: A') :: B ++ (b :: B') :: C) l).
  { split; [exact Hcon|]. rewrite map_app. cbn [map]. rewrite map_app. cbn [map thread flat_map app]. fold (thread A') (thread B'). unfold l.
    apply turn. rewrite app_comm_cons, app_assoc. apply turn. apply turn. rewrite <- app_assoc, <- app_comm_cons. apply turn.
    assert (Er : thread (concat rest) = concat (map thread rest)) by (unfold thread; rewrite flat_map_concat_map, concat_map, <- flat_map_concat_map; induction rest as [|r rr IH]; cbn; [reflexivity|]; rewrite concat_app, IH, flat_map_concat_map; reflexivity).
    rewrite Er. unfold rest. rewrite map_app. cbn [map]. rewrite map_app. cbn [map]. apply inter_seq. }
  assert (Hperm : Permutation (a :: b :: concat rest) (seq 0 (length new))).
  { rewrite <- Hcon. unfold rest. rewrite !concat_app. cbn [concat]. rewrite !concat_app. cbn [concat app]. generalize (B' ++ concat C) as W. intros W.
    apply (Permutation_trans (l' := a :: concat A ++ A' ++ concat B ++ b :: W)); [|apply Permutation_middle]. constructor.
    replace (concat A ++ A' ++ concat B ++ W) with ((concat A ++ A' ++ concat B) ++ W) by (rewrite <- !app_assoc; reflexivity).
    replace (concat A ++ A' ++ concat B ++ b :: W) with ((concat A ++ A' ++ concat B) ++ b :: W) by (rewrite <- !app_assoc; reflexivity). apply Permutation_middle. }
  assert (Hlt : forall i, In i (a :: b :: concat rest) -> i < length new) by (intros i Hi; apply (Permutation_in _ Hperm) in Hi; apply in_seq in Hi; lia).
  assert (HN : NoDup (a :: b :: concat rest)) by (apply (Permutation_NoDup (Permutation_sym Hperm)), seq_NoDup).
  destruct (schedule_facts new _ l HS) as (F1 & F2 & F3).
  destruct (steps_ok new line l None cs HC) as (s' & cs' & E & HL & HW); [discriminate|exact F1|intros _; exact F2|].
  destruct (nth_error new a) as [p|] eqn:Ep; [|apply nth_error_None in Ep; specialize (Hlt a (or_introl eq_refl)); lia].
  exists l, cs', p. split; [exact HS|]. unfold store_offsets. rewrite E. split; [reflexivity|]. split; [apply (nth_error_In _ _ Ep)|]. apply HW.
  unfold l. cbn [written]. destruct (nth_error new b) as [q|] eqn:Eq; [|apply nth_error_None in Eq; specialize (Hlt b (or_intror (or_introl eq_refl))); lia].
  assert (Hinj : forall i, nth_error new i = Some p -> i = a).
  { intros i Hi. apply (proj1 (NoDup_nth_error new) Hnd); [apply nth_error_Some; congruence|congruence]. }
  inversion HN as [|? ? Ha Hb']; subst. intros [H|[H|H]]; [| |].
  - subst q. apply Hinj in Eq. subst b. apply Ha. left. reflexivity.
  - subst q. apply Hinj in Eq. subst b. apply Ha. left. reflexivity.
  - apply written_thread in H; [|intros i Hi; apply Hlt; right; right; exact Hi]. destruct H as (i & Hi & Hp). apply Hinj in Hp. subst i. apply Ha. right. exact Hi.
Qed.
Print Assumptions C39_offset_race_refuted.

(** ** The consequence *)
Lemma group_partial cs sol order : forall m m', group_solution cs sol order m = Ok m' -> forall o l, groups m' o l ->
  groups m o l \/ exists x c, cget cs x = Ok c /\ o = c_offset c /\ l = c_label c.
Proof.
  induction order as [|i order IH]; intros m m' E o l Hg; cbn [group_solution] in E; [injection E as <-; auto|].
  destruct (aget sol i) as [x| | |]; try discriminate. cbn [bind] in E. destruct (cget cs x) as [c| | |] eqn:Ec; try discriminate. cbn [bind] in E.
  destruct (IH _ _ E o l Hg) as [H|H]; [|auto]. apply sig_add_groups in H. destruct H as [H|[-> ->]]; [auto|]. right. exists x, c. auto.
Qed.
Lemma points_partial hier m acts : forall labels labels', label_points hier m labels acts = Ok labels' -> forall v x, nth_error labels' v = Some x ->
  nth_error labels v = Some x \/ exists o ls w en, In (o, ls) m /\ hget hier (S o) = Some (w, en) /\ nth_error en v = Some x /\ In x ls.
Proof.
  induction acts as [|[i j] acts IH]; intros labels labels' E v x Hx; cbn [label_points] in E; [injection E as <-; auto|].
  destruct (label_point hier m labels i j) as [l1| | |] eqn:E1; try discriminate. cbn [bind] in E. destruct (IH _ _ E v x Hx) as [H|H]; [|auto].
  unfold label_point in E1. destruct (aget m i) as [[o ls]| | |] eqn:Em; try discriminate. cbn [bind fst snd] in E1.
  destruct (hget hier (S o)) as [[w en]|] eqn:Eh; try discriminate. cbn [snd] in E1. destruct (aget en j) as [y| | |] eqn:Ey; try discriminate. cbn [bind] in E1.
  destruct (set_mem y ls) eqn:Es; [|injection E1 as <-; auto].
  unfold aset in E1. destruct (j <? length labels) eqn:Ej; [|discriminate]. injection E1 as <-. destruct (Nat.eq_dec j v) as [->|Hn]; [|rewrite nth_error_upd_neq in H by exact Hn; auto].
  rewrite nth_error_upd, Nat.eqb_refl, Ej in H. cbn [andb] in H. injection H as ->. right. exists o, ls, w, en.
  assert (Hi : nth_error m i = Some (o, ls)) by (unfold aget in Em; destruct (nth_error m i); congruence). assert (Hy : nth_error en v = Some x) by (unfold aget in Ey; destruct (nth_error en v); congruence).
  split; [apply (nth_error_In _ _ Hi)|]. split; [exact Eh|]. split; [exact Hy|]. apply set_mem_In. exact Es.
Qed.

(** A cluster that kept offset 0 labels no point, because the entry of the hierarchy it
    refers to (C29: all points in cluster 1) does not mention it: all its points become
    noise or members of other clusters. *)
Theorem C39_lost_offset_loses_the_cluster : forall n cs hier order acts labels k c w,
  find_prominent n cs hier order acts = Ok labels -> (forall j d, cluster_in cs j d -> c_label d = j) ->
  hget hier 1 = Some (w, repeat 1 n) -> 2 <= k -> cluster_in cs k c -> c_offset c = 0 ->
  forall v, nth_error labels v <> Some k.
Proof.
  intros n cs hier order acts labels k c w E Hlab H1 Hk Hc Ho v Hv. unfold find_prominent in E. destruct (cget cs 1) as [root| | |]; try discriminate. cbn [bind] in E.
  destruct (group_solution cs (c_desc root) order []) as [m| | |] eqn:Em; try discriminate. cbn [bind] in E.
  destruct (points_partial _ _ _ _ _ E v k Hv) as [H|(o & ls & w' & en & P1 & P2 & P3 & P4)].
  - assert (k = 0); [|lia]. apply nth_error_In, repeat_spec in H. exact H.
  - destruct (group_partial _ _ _ _ _ Em o k) as [(ls' & [] & _)|(x & d & Hd & -> & Hl)]; [exists ls; auto|].
    assert (Hd' : cluster_in cs x d) by (unfold cget in Hd; unfold cluster_in; unfold aget in Hd; destruct (nth_error cs x) as [[e|]|]; cbn [bind] in Hd; congruence).
    rewrite (Hlab x d Hd') in Hl. subst x. unfold cluster_in in Hc, Hd'. rewrite Hc in Hd'. injection Hd' as <-. rewrite Ho, H1 in P2. injection P2 as <- <-.
    apply nth_error_In, repeat_spec in P3. lia.
Qed.
Print Assumptions C39_lost_offset_loses_the_cluster.

(** The six points of PropRun have the new clusters 2 and 3 at one level.  Two threads with
    one iteration each can lose the offset of cluster 2, and then its points are noise. *)
Definition lose (k : nat) (cs : clusters) : clusters :=
  match nth_error cs k with Some (Some c) => upd cs k (Some (set_offset c 0)) | _ => cs end.
Definition six_labels (lost : list nat) : res (list nat) :=
  let! o := fresh_run 11 in_turn insertion_sort 2 (DDouble six) 6 1 true in
  match o_res o with
  | Some r => find_prominent 6 (fold_right lose (r_clusters r) lost) (r_hier r) [0; 1] (fun keys => list_prod (seq 0 keys) (seq 0 6))
  | None => UB
  end.
Example six_race : six_labels [] = Ok [2; 2; 2; 3; 3; 3] /\ six_labels [2] = Ok [0; 0; 0; 3; 3; 3] /\ six_labels [3] = Ok [2; 2; 2; 0; 0; 0].
Proof. vm_compute. repeat split. Qed.
Example two_threads : schedule_of [2; 3] [[0]; [1]] [Fetch 0; Fetch 1; Store; Store] /\ schedule_of [2; 3] [[0; 1]] [Fetch 0; Store; Fetch 1; Store] /\
  concat ([] ++ [0] :: [] ++ [1] :: []) = seq 0 (length [2; 3]).
Proof.
  split; [|split; [|reflexivity]].
  - split; [reflexivity|]. cbn. apply (turn [] (Fetch 0) [Store] [[Fetch 1; Store]]). apply (turn [[Store]] (Fetch 1) [Store] []). apply (turn [] Store [] [[Store]]). apply (turn [[]] Store [] []). constructor. repeat constructor.
  - split; [reflexivity|]. apply (inter_seq [thread [0; 1]]).
Qed.
