(** C73: how long the memory behind the results stays valid.  The Python getHierarchies
    (PyHdbscan.c:309-336) hands out arrays that use the memory of the hierarchy, C and C++
    users read the labels and scores through pointers. *)
From Coq Require Import Permutation.
From Verif Require Import Base ListFacts ModelLife SpecLife PropLife.
Local Open Scope nat_scope.

(** ** Specification *)

(** As [next], but a second run without cleaning is allowed (it leaks, C54). *)
Definition next_any (p : phase) (c : call) : option phase := match c with Run _ => Some HasResults | _ => next p c end.
Fixpoint nexts_any (p : phase) (cs : list call) : option phase :=
  match cs with [] => Some p | c :: cs' => match next_any p c with Some q => nexts_any q cs' | None => None end end.

(** The memory of the results: labels, scores, spanning tree, hierarchy, clusters. *)
Definition result_memory (o : obj) : list nat :=
  blocks (f_labels o) ++ blocks (f_scores o) ++ blocks (f_mst o) ++ blocks (f_hier o) ++ concat (f_elems o).
(** The memory of the distances, the core distances and the two tables. *)
Definition data_memory (o : obj) : list nat := blocks (f_dist o) ++ blocks (f_core o) ++ blocks (f_clusters o) ++ blocks (f_stab o).

(** Are they still allocated after these calls? *)
Definition keeps_results (cs : list call) : bool := match cs with [] | Run _ :: _ => true | _ => false end.
Fixpoint keeps_data (cs : list call) : bool :=
  match cs with [] | Run _ :: _ => true | Clean :: _ => false | Rerun _ :: cs' | MinimalClean :: cs' => keeps_data cs' end.

(** ** Proofs *)
Definition mono (h h' : heap) : Prop := hp_next h <= hp_next h' /\ forall b, b < hp_next h -> In b (hp_live h') -> In b (hp_live h).
Lemma mono_refl h : mono h h. Proof. split; auto. Qed.
Lemma mono_trans a b c : mono a b -> mono b c -> mono a c.
Proof. intros [A1 A2] [B1 B2]. split; [lia|]. intros x Hx H. apply A2; [exact Hx|]. apply B2; [lia|exact H]. Qed.
Lemma alloc_mono n h : mono h (snd (alloc n h)).
Proof. unfold alloc. split; cbn [snd hp_next hp_live]; [lia|]. intros b Hb H. apply in_app_or in H. destruct H as [H|H]; [apply in_seq in H; lia|exact H]. Qed.
Lemma alloc_each_mono ns : forall h, mono h (snd (alloc_each ns h)).
Proof.
  induction ns as [|n ns IH]; intros h; cbn [alloc_each]; [apply mono_refl|]. pose proof (alloc_mono n h) as A. destruct (alloc n h) as [b h1]. specialize (IH h1). destruct (alloc_each ns h1) as [bs h2]. apply (mono_trans _ _ _ A IH).
Qed.
Lemma free1_mono b h h' : free1 b h = Ok h' -> mono h h'.
Proof. unfold free1. destruct (existsb _ _); [|discriminate]. intros E. injection E as <-. split; [cbn; lia|]. cbn [hp_live]. intros x _ H. apply filter_In in H. tauto. Qed.
Lemma free_all_mono bs : forall h h', free_all bs h = Ok h' -> mono h h'.
Proof.
  induction bs as [|b bs IH]; intros h h' E; cbn [free_all] in E; [injection E as <-; apply mono_refl|]. destruct (free1 b h) as [h1| | |] eqn:E1; try discriminate. apply (mono_trans _ h1); [apply (free1_mono _ _ _ E1)|apply IH; exact E].
Qed.
Lemma drop_mono p h h' : drop p h = Ok h' -> mono h h'.
Proof. destruct p; cbn [drop]; intros E; [discriminate|injection E as <-; apply mono_refl|apply (free_all_mono _ _ _ E)]. Qed.
Lemma bind_inv {A B} (m : res A) (f : A -> res B) b : bind m f = Ok b -> exists a, m = Ok a /\ f a = Ok b.
Proof. destruct m; cbn [bind]; intros H; [eauto|discriminate..]. Qed.

Lemma minimal_mono h o h' o' : life_minimal_clean h o = Ok (h', o') -> mono h h' /\ data_memory o' = data_memory o /\ kept_of o' = kept_of o.
Proof.
  unfold life_minimal_clean. intros E. apply bind_inv in E. destruct E as (h1 & E1 & E). apply bind_inv in E. destruct E as (h2 & E2 & E). apply bind_inv in E. destruct E as (h3 & E3 & E).
  apply bind_inv in E. destruct E as (h4 & E4 & E). apply bind_inv in E. destruct E as (h5 & E5 & E). apply bind_inv in E. destruct E as (h6 & E6 & E). apply bind_inv in E. destruct E as (u & _ & E). injection E as <- <-.
  split; [|split; reflexivity]. apply drop_mono in E1, E2, E3, E4, E5.
  assert (M6 : mono h5 h6).
  { destruct (f_clusters o); [discriminate E6|injection E6 as <-; apply mono_refl|]. apply bind_inv in E6. destruct E6 as (v & _ & E6). rewrite free_each_all in E6. apply (free_all_mono _ _ _ E6). }
  repeat (eapply mono_trans; [eassumption|]). apply mono_refl.
Qed.
Lemma do_run_mono z h o h' o' : life_do_run z h o = Ok (h', o') -> mono h h' /\ kept_of o' = kept_of o.
Proof.
  unfold life_do_run. intros E. pose proof (alloc_mono (S (z_hier z)) h) as M1. destruct (alloc (S (z_hier z)) h) as [q1 h1]. apply bind_inv in E. destruct E as (u1 & _ & E). apply bind_inv in E. destruct E as (u2 & _ & E).
  pose proof (alloc_mono (S (z_graph z)) h1) as M2. destruct (alloc (S (z_graph z)) h1) as [q2 h2]. apply bind_inv in E. destruct E as (u3 & _ & E).
  pose proof (alloc_each_mono (z_each z) h2) as M3. destruct (alloc_each (z_each z) h2) as [q3 h3]. pose proof (alloc_mono 1 h3) as M4. destruct (alloc 1 h3) as [q4 h4]. pose proof (alloc_mono 1 h4) as M5. destruct (alloc 1 h4) as [q5 h5].
  injection E as <- <-. cbn [snd] in *. split; [|reflexivity]. repeat (eapply mono_trans; [eassumption|]). apply mono_refl.
Qed.
Lemma perform_mono c s s' : perform c s = Ok s' -> mono (fst s) (fst s').
Proof.
  destruct s as [h o], s' as [h' o']. destruct c as [z|z| |]; cbn [perform fst snd]; intros E.
  - unfold life_run in E. pose proof (alloc_mono 1 h) as M1. destruct (alloc 1 h) as [q1 h1]. pose proof (alloc_mono 1 h1) as M2. destruct (alloc 1 h1) as [q2 h2].
    pose proof (alloc_mono (S (z_list z)) h2) as M3. destruct (alloc (S (z_list z)) h2) as [q3 h3]. pose proof (alloc_mono (S (z_stab z)) h3) as M4. destruct (alloc (S (z_stab z)) h3) as [q4 h4].
    cbn [snd] in *. apply do_run_mono in E. destruct E as [E _]. repeat (eapply mono_trans; [eassumption|]). apply mono_refl.
  - unfold life_rerun in E. apply bind_inv in E. destruct E as ((h1 & o1) & E1 & E). apply bind_inv in E. destruct E as (u1 & _ & E). apply bind_inv in E. destruct E as (u2 & _ & E).
    apply minimal_mono in E1. apply do_run_mono in E. apply (mono_trans _ h1); tauto.
  - apply minimal_mono in E. tauto.
  - unfold life_clean in E. apply bind_inv in E. destruct E as (h1 & E1 & E). apply bind_inv in E. destruct E as (h2 & E2 & E). apply bind_inv in E. destruct E as ((h3 & o3) & E3 & E).
    apply bind_inv in E. destruct E as (h4 & E4 & E). apply bind_inv in E. destruct E as (h5 & E5 & E). injection E as <- <-. apply drop_mono in E1, E2, E4, E5. apply minimal_mono in E3. destruct E3 as [E3 _].
    repeat (eapply mono_trans; [eassumption|]). apply mono_refl.
Qed.
Lemma performs_mono cs : forall s s', perform_all cs s = Ok s' -> mono (fst s) (fst s').
Proof.
  induction cs as [|c cs IH]; intros s s' E; cbn [perform_all] in E; [injection E as <-; apply mono_refl|]. apply bind_inv in E. destruct E as (s1 & E1 & E). apply (mono_trans _ (fst s1)); [apply (perform_mono c _ _ E1)|apply IH; exact E].
Qed.

Lemma inv_live L h o b : inv L h o -> In b (hp_live h) <-> In b (self_block o) \/ In b (results_of o) \/ In b (kept_of o) \/ In b L.
Proof. intros [_ HC]. rewrite !cnt_in, HC. lia. Qed.
Lemma inv_once L h o b : inv L h o -> cnt (self_block o) b + cnt (results_of o) b + cnt (kept_of o) b + cnt L b <= 1.
Proof. intros [[HW _] HC]. rewrite <- HC. apply cnt_nodup. exact HW. Qed.
Lemma in_data o b : In b (data_memory o) <-> In b (kept_of o).
Proof. unfold data_memory, kept_of. rewrite !in_app_iff. tauto. Qed.

(** One call. *)
Lemma step_any c zz p q L h o : next_any p c = Some q -> shape zz p o -> inv L h o ->
  exists h' o' L', perform c (h, o) = Ok (h', o') /\ inv L' h' o' /\ shape false q o' /\ (forall b, In b L -> In b L') /\
    match c with
    | Run _ => forall b, In b (results_of o) \/ In b (kept_of o) -> In b L'
    | Rerun _ | MinimalClean => kept_of o' = kept_of o /\ forall b, In b (results_of o) -> ~ In b (hp_live h')
    | Clean => forall b, In b (results_of o) \/ In b (kept_of o) -> ~ In b (hp_live h')
    end.
Proof.
  intros Hn HS HI. destruct c as [z|z| |]; cbn [next_any] in Hn.
  - injection Hn as <-. destruct (run_ok z zz p L h o HI HS) as (h' & o' & M & E & HM & I' & S' & _). exists h', o', (M ++ L). split; [exact E|]. split; [exact I'|]. split; [exact S'|].
    split; [intros b Hb; apply in_or_app; right; exact Hb|]. intros b Hb. apply in_or_app. left. apply cnt_in. rewrite HM. destruct Hb as [Hb|Hb]; apply cnt_in in Hb; lia.
  - destruct (perform_ok (Rerun z) zz p q L h o Hn HS HI) as (h' & o' & E & I' & S' & _). exists h', o', L. split; [exact E|]. split; [exact I'|]. split; [exact S'|]. split; [auto|].
    cbn [perform fst snd] in E. unfold life_rerun in E. apply bind_inv in E. destruct E as ((h1 & o1) & E1 & E). apply bind_inv in E. destruct E as (u1 & _ & E). apply bind_inv in E. destruct E as (u2 & _ & E).
    assert (Hp : p = HasResults \/ p = Emptied \/ p = Cleaned) by (destruct p; try discriminate Hn; auto).
    destruct (minimal_phase zz p L h o Hp HS HI) as (h1' & o1' & E1' & I1 & S1 & T1). rewrite E1 in E1'. injection E1' as <- <-.
    destruct (minimal_mono _ _ _ _ E1) as (M1 & _ & K1). destruct (do_run_mono _ _ _ _ _ E) as (M2 & K2). cbn [f_store] in K2. split.
    + rewrite K2, <- K1. reflexivity.
    + intros b Hb Hlive.
      assert (Hlt : b < hp_next h) by (destruct HI as [[_ HW] HC]; apply HW; apply cnt_in; rewrite HC; apply cnt_in in Hb; lia).
      assert (Hl1 : In b (hp_live h1)) by (apply (proj2 M2); [destruct M1; lia|exact Hlive]).
      apply (inv_live L h1 o1 b I1) in Hl1. pose proof (inv_once L h o b HI) as H1. apply cnt_in in Hb.
      assert (Hs : self_block o1 = self_block o) by (unfold self_block; rewrite T1; reflexivity).
      assert (Hr : results_of o1 = []).
      { destruct S1 as [_ S1]. unfold results_of. destruct Hp as [->|[->| ->]]; destruct S1 as (A1 & A2 & A3 & A4 & A5 & A6 & _); [rewrite A1, A2, A3, A4, A5; reflexivity..|]. rewrite A1, A2, A3, A4, A6. reflexivity. }
      rewrite Hs, Hr, K1 in Hl1. destruct Hl1 as [H|[[]|[H|H]]]; apply cnt_in in H; lia.
  - destruct (perform_ok MinimalClean zz p q L h o Hn HS HI) as (h' & o' & E & I' & S' & T'). exists h', o', L. split; [exact E|]. split; [exact I'|]. split; [exact S'|]. split; [auto|].
    cbn [perform fst snd] in E. destruct (minimal_mono _ _ _ _ E) as (M1 & _ & K1). split; [exact K1|]. intros b Hb Hlive.
    apply (inv_live L h' o' b I') in Hlive. pose proof (inv_once L h o b HI) as H1. apply cnt_in in Hb.
    assert (Hs : self_block o' = self_block o) by (unfold self_block; rewrite T'; reflexivity).
    assert (Hr : results_of o' = []).
    { destruct S' as [_ S1]. unfold results_of. destruct p; try discriminate Hn; cbn [next] in Hn; injection Hn as <-; destruct S1 as (A1 & A2 & A3 & A4 & A5 & A6 & _); [rewrite A1, A2, A3, A4, A5; reflexivity..|]. rewrite A1, A2, A3, A4, A6. reflexivity. }
    rewrite Hs, Hr, K1 in Hlive. destruct Hlive as [H|[[]|[H|H]]]; apply cnt_in in H; lia.
  - destruct (perform_ok Clean zz p q L h o Hn HS HI) as (h' & o' & E & I' & S' & T'). exists h', o', L. split; [exact E|]. split; [exact I'|]. split; [exact S'|]. split; [auto|].
    intros b Hb Hlive. apply (inv_live L h' o' b I') in Hlive. pose proof (inv_once L h o b HI) as H1.
    assert (Hs : self_block o' = self_block o) by (unfold self_block; rewrite T'; reflexivity).
    assert (q = Cleaned) by (destruct p; try discriminate Hn; cbn in Hn; congruence). subst q. destruct S' as (_ & A1 & A2 & A3 & A4 & A5 & A6 & A7 & A8 & A9).
    assert (Hr : results_of o' = [] /\ kept_of o' = []) by (unfold results_of, kept_of; rewrite A1, A2, A3, A4, A5, A6, A7, A8, A9; split; reflexivity). destruct Hr as [Hr Hk].
    rewrite Hs, Hr, Hk in Hlive. destruct Hb as [Hb|Hb]; apply cnt_in in Hb; destruct Hlive as [H|[[]|[[]|H]]]; apply cnt_in in H; lia.
Qed.

Lemma steps_any cs : forall zz p q L h o, nexts_any p cs = Some q -> shape zz p o -> inv L h o ->
  exists h' o' L' zz', perform_all cs (h, o) = Ok (h', o') /\ inv L' h' o' /\ shape zz' q o' /\ (forall b, In b L -> In b L').
Proof.
  induction cs as [|c cs IH]; intros zz p q L h o Hn HS HI; cbn [nexts_any perform_all] in *.
  - injection Hn as <-. exists h, o, L, zz. auto.
  - destruct (next_any p c) as [r|] eqn:Er; [|discriminate]. destruct (step_any c zz p r L h o Er HS HI) as (h1 & o1 & L1 & E1 & I1 & S1 & K1 & _). rewrite E1. cbn [bind].
    destruct (IH false r q L1 h1 o1 Hn S1 I1) as (h2 & o2 & L2 & z2 & E2 & I2 & S2 & K2). exists h2, o2, L2, z2. split; [exact E2|]. split; [exact I2|]. split; [exact S2|]. auto.
Qed.

(** ** C73.  After any history, the memory of the results is valid exactly until the next rerun
    or cleaning, that of the distances exactly until the next hdbscan_clean; a new run without
    cleaning leaves both allocated for ever. *)
Theorem C73_validity_of_results : forall h foreign zeroed before p cs q, wf h -> nexts_any Initialised before = Some p -> nexts_any p cs = Some q ->
  exists s s', perform_all before (life_init foreign zeroed h) = Ok s /\ perform_all cs s = Ok s' /\
    (forall b, In b (result_memory (snd s)) -> In b (hp_live (fst s)) /\ (In b (hp_live (fst s')) <-> keeps_results cs = true)) /\
    (forall b, In b (data_memory (snd s)) -> In b (hp_live (fst s)) /\ (In b (hp_live (fst s')) <-> keeps_data cs = true)).
Proof.
  intros h foreign zeroed before p cs q HW Hb Hn. destruct (init_ok foreign zeroed h HW) as (S0 & I0 & _). destruct (life_init foreign zeroed h) as [h0 o0]. cbn [fst snd] in *.
  destruct (steps_any before _ _ _ _ _ _ Hb S0 I0) as (h1 & o1 & L & zz & E1 & I1 & S1 & _). exists (h1, o1). cbn [fst snd].
  assert (Hin : forall b, In b (results_of o1) \/ In b (kept_of o1) -> In b (hp_live h1)) by (intros b H; apply (inv_live L h1 o1 b I1); tauto).
  assert (G : forall cs zz p q L h1 o1, nexts_any p cs = Some q -> shape zz p o1 -> inv L h1 o1 -> exists h2 o2, perform_all cs (h1, o1) = Ok (h2, o2) /\
     (forall b, In b (results_of o1) -> In b (hp_live h2) <-> keeps_results cs = true) /\ (forall b, In b (kept_of o1) -> In b (hp_live h2) <-> keeps_data cs = true)).
  { clear. induction cs as [|c cs IH]; intros zz p q L h o Hn HS HI; cbn [nexts_any perform_all] in *.
    - exists h, o. split; [reflexivity|]. cbn [keeps_results keeps_data]. split; intros b Hb; (split; [reflexivity|]); intros _; apply (inv_live L h o b HI); tauto.
    - destruct (next_any p c) as [r|] eqn:Er; [|discriminate]. destruct (step_any c zz p r L h o Er HS HI) as (h1 & o1 & L1 & E1 & I1 & S1 & K1 & Kc). rewrite E1. cbn [bind].
      destruct (steps_any cs _ _ _ _ _ _ Hn S1 I1) as (h2 & o2 & L2 & z2 & E2 & I2 & S2 & K2).
      assert (Hdead : forall b, In b (hp_live h) -> ~ In b (hp_live h1) -> ~ In b (hp_live h2)).
      { intros b Hb Hd Hl. apply Hd. apply (proj2 (performs_mono _ _ _ E2)); [|exact Hl]. cbn [fst]. pose proof (perform_mono _ _ _ E1) as [M _]. cbn [fst] in M. destruct HI as [[_ HW] _]. specialize (HW b Hb). lia. }
      assert (Hlive : forall b, In b (results_of o) \/ In b (kept_of o) -> In b (hp_live h)) by (intros b H; apply (inv_live L h o b HI); tauto).
      assert (Hrest : forall b, In b L1 -> In b (hp_live h2)) by (intros b H; apply (inv_live L2 h2 o2 b I2); right; right; right; auto).
      destruct c as [z|z| |]; cbn [keeps_results keeps_data].
      + exists h2, o2. split; [exact E2|]. split; intros b Hb; (split; [reflexivity|]); intros _; apply Hrest, Kc; tauto.
      + destruct Kc as [KK KR]. destruct (IH false r q L1 h1 o1 Hn S1 I1) as (h2' & o2' & E2' & _ & D). rewrite E2 in E2'. injection E2' as <- <-. exists h2, o2. split; [exact E2|].
        split; [|intros b Hb; apply D; rewrite KK; exact Hb]. intros b Hb. split; [intros H; exfalso; apply (Hdead b); auto|discriminate].
      + destruct Kc as [KK KR]. destruct (IH false r q L1 h1 o1 Hn S1 I1) as (h2' & o2' & E2' & _ & D). rewrite E2 in E2'. injection E2' as <- <-. exists h2, o2. split; [exact E2|].
        split; [|intros b Hb; apply D; rewrite KK; exact Hb]. intros b Hb. split; [intros H; exfalso; apply (Hdead b); auto|discriminate].
      + exists h2, o2. split; [exact E2|]. split; intros b Hb; (split; [intros H; exfalso; apply (Hdead b); auto|discriminate]). }
  destruct (G cs zz p q L h1 o1 Hn S1 I1) as (h2 & o2 & E2 & R & D). exists (h2, o2). split; [exact E1|]. split; [exact E2|]. cbn [fst snd]. split; intros b Hb'.
  - split; [apply Hin; left; exact Hb'|apply R; exact Hb'].
  - apply in_data in Hb'. split; [apply Hin; right; exact Hb'|apply D; exact Hb'].
Qed.
Print Assumptions C73_validity_of_results.

(** The memory is not empty once a run has been made: results and data exist. *)
Example C73_example : nexts_any Initialised [Run z1; Rerun z1] = Some HasResults /\ nexts_any HasResults [Rerun z1; MinimalClean] = Some Emptied /\
  (match perform_all [Run z1; Rerun z1] (life_init false false empty_heap) with Ok s => length (result_memory (snd s)) = 15 /\ length (data_memory (snd s)) = 6 | _ => False end) /\
  keeps_results [Rerun z1; MinimalClean] = false /\ keeps_data [Rerun z1; MinimalClean] = true.
Proof. split; [reflexivity|]. split; [reflexivity|]. split; [vm_compute; auto|]. split; reflexivity. Qed.
