(** C54: every block of an object is freed exactly once. *)
From Coq Require Import Permutation.
From Verif Require Import Base ListFacts ModelLife SpecLife.
From Coq Require Import ZifyBool ZifyNat.
Local Open Scope nat_scope.

Definition cnt (l : list nat) (x : nat) : nat := count_occ Nat.eq_dec l x.
Lemma cnt_app a b x : cnt (a ++ b) x = cnt a x + cnt b x. Proof. apply count_occ_app. Qed.
Lemma cnt_nil x : cnt [] x = 0. Proof. reflexivity. Qed.
Lemma cnt_nodup l x : NoDup l -> cnt l x <= 1. Proof. intros H. apply (proj1 (NoDup_count_occ Nat.eq_dec l) H x). Qed.
Lemma cnt_in l x : In x l <-> 0 < cnt l x. Proof. unfold cnt. rewrite (count_occ_In Nat.eq_dec). lia. Qed.
Lemma cnt_perm a b : (forall x, cnt a x = cnt b x) -> Permutation a b. Proof. intros H. apply (Permutation_count_occ Nat.eq_dec). exact H. Qed.
Lemma existsb_in b l : existsb (Nat.eqb b) l = true <-> In b l.
Proof. rewrite existsb_exists. split; [intros (x & Hx & E); apply Nat.eqb_eq in E; subst; exact Hx|intros H; exists b; split; [exact H|apply Nat.eqb_refl]]. Qed.

Lemma alloc_ok n h : wf h -> wf (snd (alloc n h)) /\ (forall x, cnt (hp_live (snd (alloc n h))) x = cnt (fst (alloc n h)) x + cnt (hp_live h) x) /\
  (forall x, In x (fst (alloc n h)) -> hp_next h <= x) /\ length (fst (alloc n h)) = n /\ hp_next h <= hp_next (snd (alloc n h)).
Proof.
  intros [H1 H2]. unfold alloc. cbn [fst snd hp_live hp_next]. repeat split.
  - induction n as [|n IH] using nat_rect; [exact H1|]. rewrite seq_S, <- app_assoc. cbn [app]. apply (Permutation_NoDup (Permutation_middle _ _ _)). constructor; [|exact IH].
    intros Hin. apply in_app_iff in Hin. destruct Hin as [Hin|Hin]; [apply in_seq in Hin; lia|apply H2 in Hin; lia].
  - cbn. intros x Hx. apply in_app_iff in Hx. destruct Hx as [Hx|Hx]; [apply in_seq in Hx; lia|apply H2 in Hx; lia].
  - intros x. apply cnt_app.
  - intros x Hx. apply in_seq in Hx. lia.
  - apply seq_length.
  - lia.
Qed.

Lemma free1_ok b h : wf h -> In b (hp_live h) -> exists h', free1 b h = Ok h' /\ wf h' /\ (forall x, cnt (hp_live h') x + cnt [b] x = cnt (hp_live h) x).
Proof.
  intros [H1 H2] Hb. unfold free1. rewrite (proj2 (existsb_in b _) Hb). eexists. split; [reflexivity|]. split.
  - split; cbn [hp_live hp_next]; [apply NoDup_filter, H1|]. intros x Hx. apply filter_In in Hx. apply H2, Hx.
  - intros x. cbn [hp_live]. unfold cnt at 2. cbn [count_occ]. destruct (Nat.eq_dec b x) as [->|Hn].
    + assert (E : cnt (filter (fun y => negb (y =? x)) (hp_live h)) x = 0).
      { apply (proj1 (count_occ_not_In Nat.eq_dec _ _)). intros Hin. apply filter_In in Hin. rewrite Nat.eqb_refl in Hin. destruct Hin; discriminate. }
      rewrite E. pose proof (cnt_nodup _ x H1). apply cnt_in in Hb. lia.
    + rewrite Nat.add_0_r. clear -Hn. induction (hp_live h) as [|y l IH]; [reflexivity|]. cbn [filter]. unfold cnt in *. destruct (Nat.eqb_spec y b) as [->|Hy]; cbn [negb count_occ].
      * destruct (Nat.eq_dec b x); [contradiction|exact IH].
      * destruct (Nat.eq_dec y x); [f_equal; exact IH|exact IH].
Qed.
Lemma free_all_ok bs : forall h, wf h -> (forall x, cnt bs x <= cnt (hp_live h) x) ->
  exists h', free_all bs h = Ok h' /\ wf h' /\ (forall x, cnt (hp_live h') x + cnt bs x = cnt (hp_live h) x).
Proof.
  induction bs as [|b bs IH]; intros h HW HC; cbn [free_all].
  - exists h. split; [reflexivity|]. split; [exact HW|]. intros x. cbn. lia.
  - assert (Hs : forall x, cnt (b :: bs) x = cnt [b] x + cnt bs x) by (intros x; apply (cnt_app [b] bs)).
    assert (Hb : In b (hp_live h)) by (apply cnt_in; specialize (HC b); rewrite Hs in HC; unfold cnt at 1 in HC; cbn [count_occ] in HC; destruct (Nat.eq_dec b b); [lia|contradiction]).
    destruct (free1_ok b h HW Hb) as (h1 & -> & W1 & C1). cbn [bind]. destruct (IH h1 W1) as (h2 & E & W2 & C2).
    { intros x. specialize (HC x). specialize (C1 x). rewrite Hs in HC. lia. }
    exists h2. split; [exact E|]. split; [exact W2|]. intros x. specialize (C1 x). specialize (C2 x). rewrite Hs. lia.
Qed.
Lemma free_each_all es : forall h, free_each es h = free_all (concat es) h.
Proof.
  assert (H : forall a b h, free_all (a ++ b) h = let! h := free_all a h in free_all b h).
  { induction a as [|x a IH]; intros b h; cbn [app free_all]; [reflexivity|]. destruct (free1 x h); cbn [bind]; [apply IH|reflexivity..]. }
  induction es as [|e es IH]; intros h; cbn [free_each concat]; [reflexivity|]. rewrite H. destruct (free_all e h); cbn [bind]; [apply IH|reflexivity..].
Qed.

Definition blocks (p : ptr) : list nat := match p with Ptr bs => bs | _ => [] end.
Lemma drop_ok p h : wf h -> p <> Unset -> (forall x, cnt (blocks p) x <= cnt (hp_live h) x) ->
  exists h', drop p h = Ok h' /\ wf h' /\ (forall x, cnt (hp_live h') x + cnt (blocks p) x = cnt (hp_live h) x).
Proof.
  intros HW Hp HC. destruct p as [| |bs]; [contradiction| |apply free_all_ok; assumption].
  exists h. split; [reflexivity|]. split; [exact HW|]. intros x. cbn. lia.
Qed.
Lemma deref_ok p h : p <> Unset -> p <> Null -> (forall x, cnt (blocks p) x <= cnt (hp_live h) x) -> deref p h = Ok tt.
Proof.
  intros H1 H2 HC. destruct p as [| |bs]; [contradiction|contradiction|]. cbn [deref]. rewrite (proj2 (forallb_forall _ _)); [reflexivity|].
  intros b Hb. apply existsb_in, cnt_in. specialize (HC b). apply cnt_in in Hb. cbn [blocks] in HC. lia.
Qed.

(** The blocks reachable from an object. *)
Definition self_block (o : obj) : list nat := match f_store o with Malloced b => [b] | Foreign => [] end.
Definition results_of (o : obj) : list nat := blocks (f_labels o) ++ blocks (f_scores o) ++ blocks (f_mst o) ++ blocks (f_hier o) ++ concat (f_elems o).
Definition kept_of (o : obj) : list nat := blocks (f_clusters o) ++ blocks (f_stab o) ++ blocks (f_dist o) ++ blocks (f_core o).
Definition isptr (p : ptr) : Prop := exists bs, p = Ptr bs.

(** The shape of the object in each phase; [z] tells that its memory was cleared. *)
Definition shape (z : bool) (p : phase) (o : obj) : Prop :=
  f_constraints o = Null /\
  match p with
  | Initialised => f_labels o = Null /\ f_scores o = Null /\ f_hier o = Null /\ f_clusters o = Null /\ f_elems o = [] /\ f_stab o = Null /\
                   f_mst o = (if z then Null else Unset) /\ f_dist o = (if z then Null else Unset) /\ f_core o = (if z then Null else Unset)
  | HasResults => isptr (f_labels o) /\ isptr (f_scores o) /\ isptr (f_mst o) /\ isptr (f_hier o) /\ isptr (f_clusters o) /\ isptr (f_stab o) /\ isptr (f_dist o) /\ isptr (f_core o)
  | Emptied => f_labels o = Null /\ f_scores o = Null /\ f_mst o = Null /\ f_hier o = Null /\ f_elems o = [] /\
               isptr (f_clusters o) /\ isptr (f_stab o) /\ isptr (f_dist o) /\ isptr (f_core o)
  | Cleaned => f_labels o = Null /\ f_scores o = Null /\ f_mst o = Null /\ f_hier o = Null /\ f_clusters o = Null /\ f_elems o = [] /\ f_stab o = Null /\ f_dist o = Null /\ f_core o = Null
  end.
(** The allocated blocks are those of the object and [L]. *)
Definition inv (L : list nat) (h : heap) (o : obj) : Prop :=
  wf h /\ forall x, cnt (hp_live h) x = cnt (self_block o) x + cnt (results_of o) x + cnt (kept_of o) x + cnt L x.

Lemma nn_ptr p : isptr p -> p <> Unset /\ p <> Null. Proof. intros (bs & ->). split; discriminate. Qed.

Ltac counts := intros ?x; unfold results_of, kept_of in *; cbn [f_labels f_scores f_mst f_constraints f_hier f_clusters f_elems f_stab f_dist f_core blocks] in *;
  repeat match goal with H : forall _ : nat, _ = _ |- _ => specialize (H x) end; rewrite ?cnt_app in *; cbn [blocks concat] in *; rewrite ?cnt_app, ?cnt_nil in *; try lia.

Lemma minimal_ok L h o : inv L h o ->
  f_labels o <> Unset -> f_scores o <> Unset -> f_mst o <> Unset -> f_constraints o = Null -> f_hier o <> Unset ->
  f_clusters o <> Unset -> (f_clusters o = Null -> f_elems o = []) -> f_stab o <> Unset ->
  exists h', life_minimal_clean h o =
    Ok (h', mk_obj (f_store o) Null Null Null Null Null (f_clusters o) [] (f_stab o) (f_dist o) (f_core o)) /\
    inv L h' (mk_obj (f_store o) Null Null Null Null Null (f_clusters o) [] (f_stab o) (f_dist o) (f_core o)).
Proof.
  intros [HW HC] N1 N2 N3 N4 N5 N6 N7 N8. unfold life_minimal_clean.
  destruct (drop_ok (f_labels o) h HW N1) as (h1 & -> & W1 & C1); [counts|]. cbn [bind].
  destruct (drop_ok (f_scores o) h1 W1 N2) as (h2 & -> & W2 & C2); [counts|]. cbn [bind].
  destruct (drop_ok (f_mst o) h2 W2 N3) as (h3 & -> & W3 & C3); [counts|]. cbn [bind].
  rewrite N4. cbn [drop bind].
  destruct (drop_ok (f_hier o) h3 W3 N5) as (h5 & -> & W5 & C5); [counts|]. cbn [bind].
  assert (H6 : exists h6, match f_clusters o with Null => Ok h5 | p => let! _ := deref p h5 in free_each (f_elems o) h5 end = Ok h6 /\ wf h6 /\
     forall x, cnt (hp_live h6) x + cnt (concat (f_elems o)) x = cnt (hp_live h5) x).
  { destruct (f_clusters o) as [| |bs] eqn:E; [contradiction| |].
    - exists h5. split; [reflexivity|]. split; [exact W5|]. rewrite (N7 eq_refl). intros x. cbn. lia.
    - rewrite deref_ok; [|discriminate|discriminate|]; [|counts]. 2: { rewrite E in *. cbn [blocks] in *. lia. }
      cbn [bind]. rewrite free_each_all. apply free_all_ok; [exact W5|counts]. }
  destruct H6 as (h6 & -> & W6 & C6). cbn [bind].
  assert (H7 : match f_stab o with Null => Ok tt | p => deref p h6 end = Ok tt).
  { destruct (f_stab o) as [| |bs] eqn:E; [contradiction|reflexivity|]. apply deref_ok; [discriminate|discriminate|]. counts. rewrite E in *. cbn [blocks] in *. lia. }
  rewrite H7. cbn [bind]. exists h6. split; [reflexivity|]. split; [exact W6|]. unfold self_block in *. cbn [f_store]. counts.
Qed.

Lemma clean_ok z L h o p : p = HasResults \/ p = Emptied \/ p = Cleaned \/ (p = Initialised /\ z = true) -> shape z p o -> inv L h o ->
  exists h', life_clean h o = Ok (h', mk_obj (f_store o) Null Null Null Null Null Null [] Null Null Null) /\
    inv L h' (mk_obj (f_store o) Null Null Null Null Null Null [] Null Null Null).
Proof.
  intros Hp HS [HW HC].
  assert (HN : f_labels o <> Unset /\ f_scores o <> Unset /\ f_mst o <> Unset /\ f_constraints o = Null /\ f_hier o <> Unset /\
    f_clusters o <> Unset /\ (f_clusters o = Null -> f_elems o = []) /\ f_stab o <> Unset /\ f_dist o <> Unset /\ f_core o <> Unset).
  { destruct HS as [HS0 HS]. destruct Hp as [->|[->|[->|[-> ->]]]].
    - destruct HS as (A1 & A2 & A3 & A4 & A5 & A6 & A7 & A8). apply nn_ptr in A1, A2, A3, A4, A5, A6, A7, A8. intuition; contradiction.
    - destruct HS as (A1 & A2 & A3 & A4 & A5 & A6 & A7 & A8 & A9). apply nn_ptr in A6, A7, A8, A9. rewrite A1, A2, A3, A4, A5. intuition; discriminate.
    - destruct HS as (A1 & A2 & A3 & A4 & A5 & A6 & A7 & A8 & A9). rewrite A1, A2, A3, A4, A5, A6, A7, A8, A9. intuition; discriminate.
    - destruct HS as (A1 & A2 & A3 & A4 & A5 & A6 & A7 & A8 & A9). rewrite A1, A2, A3, A4, A5, A6, A7, A8, A9. intuition; discriminate. }
  destruct HN as (N1 & N2 & N3 & N4 & N5 & N6 & N7 & N8 & N9 & N10). unfold life_clean.
  destruct (drop_ok (f_dist o) h HW N9) as (h1 & -> & W1 & C1); [counts|]. cbn [bind].
  destruct (drop_ok (f_core o) h1 W1 N10) as (h2 & -> & W2 & C2); [counts|]. cbn [bind].
  set (o1 := mk_obj (f_store o) (f_labels o) (f_scores o) (f_mst o) (f_constraints o) (f_hier o) (f_clusters o) (f_elems o) (f_stab o) Null Null).
  assert (I1 : inv L h2 o1) by (split; [exact W2|]; unfold o1, self_block in *; cbn [f_store]; counts).
  destruct (minimal_ok L h2 o1 I1 N1 N2 N3 N4 N5 N6 N7 N8) as (h3 & -> & W3 & C3). cbn [bind]. cbn [o1 f_store f_labels f_scores f_mst f_constraints f_hier f_clusters f_elems f_stab f_dist f_core] in *.
  destruct (drop_ok (f_clusters o) h3 W3 N6) as (h4 & -> & W4 & C4); [counts|]. cbn [bind].
  destruct (drop_ok (f_stab o) h4 W4 N8) as (h5 & -> & W5 & C5); [counts|]. cbn [bind].
  exists h5. split; [reflexivity|]. split; [exact W5|]. unfold self_block in *. cbn [f_store] in *. counts.
Qed.

Lemma alloc_each_ok ns : forall h, wf h -> wf (snd (alloc_each ns h)) /\
  (forall x, cnt (hp_live (snd (alloc_each ns h))) x = cnt (concat (fst (alloc_each ns h))) x + cnt (hp_live h) x).
Proof.
  induction ns as [|n ns IH]; intros h HW; cbn [alloc_each].
  - split; [exact HW|]. intros x. cbn. reflexivity.
  - destruct (alloc_ok n h HW) as (W1 & C1 & _). destruct (alloc n h) as [b h1] eqn:E1. cbn [fst snd] in *.
    destruct (IH h1 W1) as (W2 & C2). destruct (alloc_each ns h1) as [bs h2] eqn:E2. cbn [fst snd concat] in *. split; [exact W2|]. intros x. rewrite cnt_app, C2, C1. lia.
Qed.

(** A run stores fresh structures in the fields; what the fields held before is lost. *)
Lemma do_run_ok z L h o : inv L h o -> isptr (f_core o) -> isptr (f_dist o) -> isptr (f_clusters o) -> isptr (f_stab o) -> f_constraints o = Null ->
  exists h' o' M, life_do_run z h o = Ok (h', o') /\ (forall x, cnt M x = cnt (blocks (f_labels o)) x + cnt (blocks (f_scores o)) x + cnt (blocks (f_mst o)) x + cnt (blocks (f_hier o)) x) /\ inv (M ++ L) h' o' /\ shape false HasResults o' /\ f_store o' = f_store o.
Proof.
  intros [HW HC] P1 P2 P3 P4 N. unfold life_do_run. pose proof (nn_ptr _ P1) as [Q1 Q1']. pose proof (nn_ptr _ P2) as [Q2 Q2']. pose proof (nn_ptr _ P3) as [Q3 Q3'].
  destruct (alloc_ok (S (z_hier z)) h HW) as (W1 & C1 & _). destruct (alloc (S (z_hier z)) h) as [hier h1]. cbn [fst snd] in *.
  rewrite (deref_ok _ h1 Q1 Q1') by counts. cbn [bind]. rewrite (deref_ok _ h1 Q2 Q2') by counts. cbn [bind].
  destruct (alloc_ok (S (z_graph z)) h1 W1) as (W2 & C2 & _). destruct (alloc (S (z_graph z)) h1) as [mst h2]. cbn [fst snd] in *.
  rewrite (deref_ok _ h2 Q3 Q3') by counts. cbn [bind].
  destruct (alloc_each_ok (z_each z) h2 W2) as (W3 & C3). destruct (alloc_each (z_each z) h2) as [new h3]. cbn [fst snd] in *.
  destruct (alloc_ok 1 h3 W3) as (W4 & C4 & _). destruct (alloc 1 h3) as [labels h4]. cbn [fst snd] in *.
  destruct (alloc_ok 1 h4 W4) as (W5 & C5 & _). destruct (alloc 1 h4) as [scores h5]. cbn [fst snd] in *.
  eexists _, _, (blocks (f_labels o) ++ blocks (f_scores o) ++ blocks (f_mst o) ++ blocks (f_hier o)). split; [reflexivity|]. split; [intros x; rewrite !cnt_app; lia|]. split; [|split; [|reflexivity]].
  - split; [exact W5|]. unfold self_block in *. cbn [f_store]. counts. rewrite concat_app, cnt_app. lia.
  - split; [exact N|]. cbn [f_labels f_scores f_mst f_hier f_clusters f_stab f_dist f_core]. repeat split; try (eexists; reflexivity); assumption.
Qed.

Lemma run_ok z zz p L h o : inv L h o -> shape zz p o ->
  exists h' o' M, life_run z h o = Ok (h', o') /\ (forall x, cnt M x = cnt (results_of o) x + cnt (kept_of o) x) /\ inv (M ++ L) h' o' /\ shape false HasResults o' /\ f_store o' = f_store o.
Proof.
  intros [HW HC] [N _]. unfold life_run.
  destruct (alloc_ok 1 h HW) as (W1 & C1 & _). destruct (alloc 1 h) as [dist h1]. cbn [fst snd] in *.
  destruct (alloc_ok 1 h1 W1) as (W2 & C2 & _). destruct (alloc 1 h1) as [core h2]. cbn [fst snd] in *.
  destruct (alloc_ok (S (z_list z)) h2 W2) as (W3 & C3 & _). destruct (alloc (S (z_list z)) h2) as [cl h3]. cbn [fst snd] in *.
  destruct (alloc_ok (S (z_stab z)) h3 W3) as (W4 & C4 & _). destruct (alloc (S (z_stab z)) h3) as [st h4]. cbn [fst snd] in *.
  set (o1 := mk_obj (f_store o) (f_labels o) (f_scores o) (f_mst o) (f_constraints o) (f_hier o) (Ptr cl) [] (Ptr st) (Ptr dist) (Ptr core)).
  set (M1 := concat (f_elems o) ++ kept_of o).
  assert (I1 : inv (M1 ++ L) h4 o1) by (split; [exact W4|]; unfold o1, M1, self_block in *; cbn [f_store]; counts).
  destruct (do_run_ok z (M1 ++ L) h4 o1 I1) as (h5 & o5 & M & E & HM & I5 & S5 & T5); [eexists; reflexivity..|exact N|].
  exists h5, o5, (M ++ M1). split; [exact E|]. split; [|split; [rewrite <- app_assoc; exact I5|split; [exact S5|exact T5]]].
  intros x. specialize (HM x). unfold M1, results_of in *. cbn [o1 f_labels f_scores f_mst f_hier] in HM. rewrite !cnt_app in *. lia.
Qed.

Lemma minimal_phase zz p L h o : p = HasResults \/ p = Emptied \/ p = Cleaned -> shape zz p o -> inv L h o ->
  exists h' o', life_minimal_clean h o = Ok (h', o') /\ inv L h' o' /\ shape zz (if match p with Cleaned => true | _ => false end then Cleaned else Emptied) o' /\ f_store o' = f_store o.
Proof.
  intros Hp [N HS] HI.
  assert (HN : f_labels o <> Unset /\ f_scores o <> Unset /\ f_mst o <> Unset /\ f_hier o <> Unset /\
    f_clusters o <> Unset /\ (f_clusters o = Null -> f_elems o = []) /\ f_stab o <> Unset).
  { destruct Hp as [->|[->| ->]].
    - destruct HS as (A1 & A2 & A3 & A4 & A5 & A6 & A7 & A8). apply nn_ptr in A1, A2, A3, A4, A5, A6, A7, A8. intuition; contradiction.
    - destruct HS as (A1 & A2 & A3 & A4 & A5 & A6 & A7 & A8 & A9). apply nn_ptr in A6, A7, A8, A9. rewrite A1, A2, A3, A4, A5. intuition; discriminate.
    - destruct HS as (A1 & A2 & A3 & A4 & A5 & A6 & A7 & A8 & A9). rewrite A1, A2, A3, A4, A5, A6, A7. intuition; discriminate. }
  destruct HN as (N1 & N2 & N3 & N5 & N6 & N7 & N8). destruct (minimal_ok L h o HI N1 N2 N3 N N5 N6 N7 N8) as (h' & E & I').
  eexists h', _. split; [exact E|]. split; [exact I'|]. split; [|reflexivity]. split; [reflexivity|].
  destruct Hp as [->|[->| ->]]; cbn [f_labels f_scores f_mst f_hier f_clusters f_elems f_stab f_dist f_core]; intuition.
Qed.

Lemma perform_ok c zz p q L h o : next p c = Some q -> shape zz p o -> inv L h o ->
  exists h' o', perform c (h, o) = Ok (h', o') /\ inv L h' o' /\ shape false q o' /\ f_store o' = f_store o.
Proof.
  intros Hn HS HI. assert (Hz : forall o, p <> Initialised -> shape zz p o -> shape false p o) by (intros o1 Hp [A B]; split; [exact A|]; destruct p; [contradiction|exact B..]).
  destruct c as [z|z| |]; cbn [perform fst snd].
  - destruct (run_ok z zz p L h o HI HS) as (h' & o' & M & E & HM & I' & S' & T').
    assert (HM0 : forall x, cnt M x = 0).
    { intros x. rewrite HM. unfold results_of, kept_of. rewrite !cnt_app. destruct HS as [_ HS]. destruct p; try discriminate Hn;
      destruct HS as (A1 & A2 & A3 & A4 & A5 & A6 & A7 & A8 & A9); rewrite A1, A2, A3, A4, A5, A6, A7, A8, A9; destruct zz; reflexivity. }
    exists h', o'. split; [exact E|]. assert (q = HasResults) by (destruct p; try discriminate Hn; cbn in Hn; congruence). subst q. split; [|auto].
    destruct I' as [W C]. split; [exact W|]. intros x. rewrite C, cnt_app, HM0. lia.
  - assert (Hp : p = HasResults \/ p = Emptied) by (destruct p; try discriminate Hn; auto).
    unfold life_rerun. destruct (minimal_phase zz p L h o) as (h1 & o1 & E & I1 & S1 & T1); [tauto|exact HS|exact HI|]. rewrite E. cbn [bind].
    assert (S1' : shape zz Emptied o1) by (destruct Hp as [->| ->]; exact S1). clear S1. destruct S1' as (N0 & A1 & A2 & A3 & A4 & A5 & A6 & A7 & A8 & A9).
    pose proof (nn_ptr _ A8) as [Q1 Q1']. pose proof (nn_ptr _ A9) as [Q2 Q2']. cbn [f_core f_dist].
    destruct I1 as [W1 C1]. rewrite (deref_ok _ h1 Q2 Q2') by counts. cbn [bind]. rewrite (deref_ok _ h1 Q1 Q1') by counts. cbn [bind].
    set (o2 := mk_obj (f_store o1) Null Null (f_mst o1) Null (f_hier o1) (f_clusters o1) (f_elems o1) (f_stab o1) (f_dist o1) (f_core o1)).
    assert (I2 : inv L h1 o2) by (split; [exact W1|]; unfold o2, self_block in *; cbn [f_store]; rewrite ?A1, ?A2 in *; counts; rewrite A1, A2 in *; cbn [blocks] in *; rewrite ?cnt_nil in *; lia).
    destruct (do_run_ok z L h1 o2 I2) as (h3 & o3 & M & E3 & HM & [W3 C3] & S3 & T3); [assumption..|reflexivity|].
    exists h3, o3. split; [exact E3|]. assert (q = HasResults) by (destruct Hp as [->| ->]; cbn in Hn; congruence). subst q. split; [|split; [exact S3|rewrite T3; exact T1]].
    split; [exact W3|]. intros x. rewrite C3, cnt_app. specialize (HM x). cbn [o2 f_labels f_scores f_mst f_hier] in HM. rewrite A3, A4 in HM. cbn [blocks] in HM. rewrite !cnt_nil in HM. lia.
  - assert (Hp : p = HasResults \/ p = Emptied \/ p = Cleaned) by (destruct p; try discriminate Hn; auto).
    destruct (minimal_phase zz p L h o Hp HS HI) as (h1 & o1 & E & I1 & S1 & T1). exists h1, o1. split; [exact E|]. split; [exact I1|]. split; [|exact T1].
    destruct Hp as [->|[->| ->]]; cbn in Hn; injection Hn as <-; exact S1.
  - assert (Hp : p = HasResults \/ p = Emptied \/ p = Cleaned \/ (p = Initialised /\ zz = true)) by (destruct p; try discriminate Hn; auto).
    destruct (clean_ok zz L h o p Hp HS HI) as (h1 & E & I1). eexists h1, _. split; [exact E|]. split; [exact I1|]. split; [|reflexivity].
    assert (q = Cleaned) by (destruct p; try discriminate Hn; cbn in Hn; congruence). subst q. split; [reflexivity|]. repeat split.
Qed.

Lemma performs_ok cs : forall zz p q L h o, nexts p cs = Some q -> shape zz p o -> inv L h o ->
  exists h' o' zz', perform_all cs (h, o) = Ok (h', o') /\ inv L h' o' /\ shape zz' q o' /\ f_store o' = f_store o /\ (cs = [] -> zz' = zz).
Proof.
  induction cs as [|c cs IH]; intros zz p q L h o Hn HS HI; cbn [nexts perform_all] in *.
  - injection Hn as <-. exists h, o, zz. auto.
  - destruct (next p c) as [r|] eqn:Er; [|discriminate]. destruct (perform_ok c zz p r L h o Er HS HI) as (h1 & o1 & E1 & I1 & S1 & T1).
    rewrite E1. cbn [bind]. destruct (IH false r q L h1 o1 Hn S1 I1) as (h2 & o2 & z2 & E2 & I2 & S2 & T2 & _). exists h2, o2, z2.
    split; [exact E2|]. split; [exact I2|]. split; [exact S2|]. split; [congruence|discriminate].
Qed.

Lemma init_ok foreign zeroed h : wf h -> shape (foreign && zeroed) Initialised (snd (life_init foreign zeroed h)) /\ inv (hp_live h) (fst (life_init foreign zeroed h)) (snd (life_init foreign zeroed h)) /\
  (f_store (snd (life_init foreign zeroed h)) = Foreign <-> foreign = true).
Proof.
  intros HW. unfold life_init. destruct foreign.
  - cbn [fst snd andb]. split; [repeat split|]. split; [|split; reflexivity]. split; [exact HW|]. intros x. unfold self_block, results_of, kept_of. destruct zeroed; reflexivity.
  - destruct (alloc_ok 1 h HW) as (W1 & C1 & _ & Hl & _). destruct (alloc 1 h) as [b h1]. cbn [fst snd andb] in *. split; [repeat split|]. split; [|split; discriminate].
    split; [exact W1|]. intros x. rewrite C1. destruct b as [|b0 [|? ?]]; try discriminate. unfold self_block, results_of, kept_of. cbn [f_store f_labels f_scores f_mst f_hier f_clusters f_elems f_stab f_dist f_core blocks concat app hd]. rewrite !cnt_nil. lia.
Qed.

Lemma destroy_ok zz p L h o : p = HasResults \/ p = Emptied \/ p = Cleaned \/ (p = Initialised /\ zz = true) -> shape zz p o -> inv L h o ->
  (f_store o = Foreign -> life_destroy h o = UB) /\
  (f_store o <> Foreign -> exists h', life_destroy h o = Ok h' /\ Permutation (hp_live h') L).
Proof.
  intros Hp HS HI. unfold life_destroy. destruct (clean_ok zz L h o p Hp HS HI) as (h1 & -> & W1 & C1). cbn [bind snd fst f_store].
  unfold self_block, results_of, kept_of in C1. cbn [f_store f_labels f_scores f_mst f_hier f_clusters f_elems f_stab f_dist f_core blocks concat app] in C1.
  destruct (f_store o) as [b|]; split; intros Hf; try discriminate; try contradiction; [|reflexivity].
  destruct (free1_ok b h1 W1) as (h2 & E & W2 & C2); [apply cnt_in; rewrite C1; unfold cnt at 1; cbn [count_occ]; destruct (Nat.eq_dec b b); [lia|contradiction]|].
  exists h2. split; [exact E|]. apply cnt_perm. intros x. specialize (C1 x). specialize (C2 x). rewrite !cnt_nil in C1. lia.
Qed.

(** C54.  For every allowed history of calls on an object allocated by the library, ended by
    hdbscan_destroy: no step is undefined and every block allocated on the way has been
    freed, and no other block.  The same for an object in the caller's memory, ended by
    hdbscan_clean, which is what the C++ destructor calls. *)
Theorem C54_every_block_is_freed_once : forall h zeroed cs q, wf h -> nexts Initialised cs = Some q -> q <> Initialised ->
  (exists s h', perform_all cs (life_init false zeroed h) = Ok s /\ life_destroy (fst s) (snd s) = Ok h' /\ Permutation (hp_live h') (hp_live h)) /\
  (exists s s', perform_all cs (life_init true zeroed h) = Ok s /\ life_clean (fst s) (snd s) = Ok s' /\ Permutation (hp_live (fst s')) (hp_live h)) /\
  (exists h', cpp_scope cs h = Ok h' /\ Permutation (hp_live h') (hp_live h)).
Proof.
  intros h zeroed cs q HW Hn Hq.
  assert (HC : forall zr, exists s s', perform_all cs (life_init true zr h) = Ok s /\ life_clean (fst s) (snd s) = Ok s' /\ Permutation (hp_live (fst s')) (hp_live h)).
  { intros zr. destruct (init_ok true zr h HW) as (S0 & I0 & T0). destruct (life_init true zr h) as [h0 o0]. cbn [fst snd] in *.
    destruct (performs_ok cs _ _ _ _ _ _ Hn S0 I0) as (h1 & o1 & zz & E & I1 & S1 & T1 & _). exists (h1, o1). 
    destruct (clean_ok zz (hp_live h) h1 o1 q) as (h2 & E2 & W2 & C2); [destruct q; auto; contradiction|exact S1|exact I1|].
    eexists. split; [exact E|]. split; [exact E2|]. cbn [fst]. apply cnt_perm. intros x. rewrite C2. unfold self_block. cbn [f_store]. rewrite T1. rewrite (proj2 T0 eq_refl).
    unfold results_of, kept_of. cbn [f_labels f_scores f_mst f_hier f_clusters f_elems f_stab f_dist f_core blocks concat app]. reflexivity. }
  split; [|split; [apply HC|]].
  - destruct (init_ok false zeroed h HW) as (S0 & I0 & T0). destruct (life_init false zeroed h) as [h0 o0]. cbn [fst snd] in *.
    destruct (performs_ok cs _ _ _ _ _ _ Hn S0 I0) as (h1 & o1 & zz & E & I1 & S1 & T1 & _).
    destruct (destroy_ok zz q (hp_live h) h1 o1) as [_ D]; [destruct q; auto; contradiction|exact S1|exact I1|].
    destruct D as (h2 & E2 & P2); [rewrite T1; intros Hf; apply T0 in Hf; discriminate|]. exists (h1, o1), h2. auto.
  - destruct (HC false) as (s & s' & E & E2 & P). unfold cpp_scope. destruct (life_init true false h) as [h0 o0]. rewrite E. cbn [bind]. rewrite E2. cbn [bind]. eauto.
Qed.
Print Assumptions C54_every_block_is_freed_once.

(** Initialising and then doing anything but a run reads uninitialised pointers; so does the
    C++ destructor of an object that was never run. *)
Theorem C54_not_run_refuted : forall h, wf h -> (forall foreign c, (forall z, c <> Run z) -> perform c (life_init foreign false h) = UB) /\
  life_destroy (fst (life_init false false h)) (snd (life_init false false h)) = UB /\ cpp_scope [] h = UB.
Proof.
  intros h HW. split; [|split; reflexivity]. intros foreign c Hc. destruct c as [z|z| |]; [contradiction (Hc z eq_refl)|destruct foreign; reflexivity..].
Qed.
Print Assumptions C54_not_run_refuted.

(** A rerun after cleaning dereferences the distances, which are NULL. *)
Theorem C54_rerun_after_clean_refuted : forall h foreign zeroed cs z, wf h -> nexts Initialised cs = Some Cleaned ->
  perform_all (cs ++ [Rerun z]) (life_init foreign zeroed h) = UB.
Proof.
  intros h foreign zeroed cs z HW Hn. destruct (init_ok foreign zeroed h HW) as (S0 & I0 & _). destruct (life_init foreign zeroed h) as [h0 o0]. cbn [fst snd] in *.
  destruct (performs_ok cs _ _ _ _ _ _ Hn S0 I0) as (h1 & o1 & zz & E & I1 & S1 & _).
  assert (Ha : forall a b s, perform_all (a ++ b) s = let! s := perform_all a s in perform_all b s).
  { induction a as [|c a IH]; intros b s; cbn [app perform_all]; [reflexivity|]. destruct (perform c s); cbn [bind]; [apply IH|reflexivity..]. }
  rewrite Ha, E. cbn [bind perform_all perform fst snd]. unfold life_rerun.
  destruct (minimal_phase zz Cleaned (hp_live h) h1 o1) as (h2 & o2 & -> & _ & S2 & _); [auto|exact S1|exact I1|]. cbn [bind].
  destruct S2 as (_ & _ & _ & _ & _ & _ & _ & _ & _ & A9). cbn [f_core]. rewrite A9. reflexivity.
Qed.
Print Assumptions C54_rerun_after_clean_refuted.

(** The core distances are one block as long as there are results. *)
Lemma core_kept c p q h o h' o' : next p c = Some q -> q = HasResults \/ q = Emptied -> (p = HasResults \/ p = Emptied -> blocks (f_core o) <> []) ->
  perform c (h, o) = Ok (h', o') -> blocks (f_core o') <> [].
Proof.
  assert (Hdo : forall z h o h' o', life_do_run z h o = Ok (h', o') -> f_core o' = f_core o).
  { clear. intros z h o h' o' E. unfold life_do_run in E. destruct (alloc (S (z_hier z)) h) as [q1 h1]. destruct (deref (f_core o) h1); try discriminate. cbn [bind] in E. destruct (deref (f_dist o) h1); try discriminate. cbn [bind] in E.
    destruct (alloc (S (z_graph z)) h1) as [q2 h2]. destruct (deref (f_clusters o) h2); try discriminate. cbn [bind] in E. destruct (alloc_each (z_each z) h2) as [q3 h3]. destruct (alloc 1 h3) as [q4 h4]. destruct (alloc 1 h4) as [q5 h5].
    injection E as _ <-. reflexivity. }
  assert (Hmin : forall h o h' o', life_minimal_clean h o = Ok (h', o') -> f_core o' = f_core o).
  { clear. intros h o h' o' E. unfold life_minimal_clean in E. repeat match type of E with (let! _ := ?X in _) = _ => destruct X; try discriminate; cbn [bind] in E end. injection E as _ <-. reflexivity. }
  intros Hn Hq Hp E. destruct c as [z|z| |]; cbn [perform fst snd] in E.
  - unfold life_run in E. cbn [alloc] in E. apply Hdo in E. rewrite E. cbn. discriminate.
  - unfold life_rerun in E. destruct (life_minimal_clean h o) as [[h1 o1]| | |] eqn:E1; try discriminate. cbn [bind] in E. apply Hmin in E1.
    destruct (deref _ _); try discriminate. cbn [bind] in E. destruct (deref _ _); try discriminate. cbn [bind] in E. apply Hdo in E. rewrite E. cbn [f_core]. rewrite E1. apply Hp. destruct p; try discriminate Hn; auto.
  - apply Hmin in E. rewrite E. apply Hp. destruct p; cbn in Hn; try discriminate Hn; auto. injection Hn as <-. destruct Hq; discriminate.
  - destruct p; cbn in Hn; try discriminate Hn; injection Hn as <-; destruct Hq; discriminate.
Qed.
Lemma core_kepts cs : forall p q h o h' o', nexts p cs = Some q -> q = HasResults \/ q = Emptied -> (p = HasResults \/ p = Emptied -> blocks (f_core o) <> []) ->
  perform_all cs (h, o) = Ok (h', o') -> blocks (f_core o') <> [].
Proof.
  induction cs as [|c cs IH]; intros p q h o h' o' Hn Hq Hp E; cbn [nexts perform_all] in *.
  - injection Hn as <-. injection E as <- <-. auto.
  - destruct (next p c) as [r|] eqn:Er; [|discriminate]. destruct (perform c (h, o)) as [[h1 o1]| | |] eqn:E1; try discriminate. cbn [bind] in E.
    apply (IH r q h1 o1 h' o' Hn Hq); [|exact E]. intros Hr. apply (core_kept c p r h o h1 o1 Er Hr Hp E1).
Qed.

(** A second run without cleaning in between leaks: whatever allowed calls follow, a block
    of the first run is still allocated after hdbscan_destroy. *)
Theorem C54_second_run_leaks_refuted : forall h zeroed cs p z cs' q, wf h -> nexts Initialised cs = Some p -> p = HasResults \/ p = Emptied -> nexts HasResults cs' = Some q ->
  exists s h' b, perform_all (cs ++ Run z :: cs') (life_init false zeroed h) = Ok s /\ life_destroy (fst s) (snd s) = Ok h' /\ In b (hp_live h') /\ ~ In b (hp_live h).
Proof.
  intros h zeroed cs p z cs' q HW Hn Hp Hn'. destruct (init_ok false zeroed h HW) as (S0 & I0 & T0). destruct (life_init false zeroed h) as [h0 o0]. cbn [fst snd] in *.
  destruct (performs_ok cs _ _ _ _ _ _ Hn S0 I0) as (h1 & o1 & zz & E & I1 & S1 & T1 & _).
  destruct (run_ok z zz p _ h1 o1 I1 S1) as (h2 & o2 & M & E2 & HM & I2 & S2 & T2).
  destruct (performs_ok cs' _ _ _ _ _ _ Hn' S2 I2) as (h3 & o3 & zz3 & E3 & I3 & S3 & T3 & _).
  destruct (destroy_ok zz3 q (M ++ hp_live h) h3 o3) as [_ D]; [|exact S3|exact I3|].
  { clear -Hn'. assert (H : forall l r, r <> Initialised -> nexts r l = Some q -> q <> Initialised).
    { induction l as [|d l IH]; intros r Hr Hx; cbn [nexts] in Hx; [congruence|]. destruct (next r d) as [r'|] eqn:Er; [|discriminate]. apply (IH r'); [|exact Hx]. destruct r, d; cbn in Er; try discriminate; injection Er as <-; discriminate. }
    assert (Hr : q <> Initialised) by (apply (H cs' HasResults); [discriminate|exact Hn']). destruct q; auto. contradiction. }
  destruct D as (h4 & E4 & P4); [rewrite T3, T2, T1; intros Hf; apply T0 in Hf; discriminate|].
  assert (Hblk : exists b, In b (blocks (f_core o1))).
  { assert (HB : forall o', (exists b, In b (blocks (f_core o'))) \/ blocks (f_core o') = []) by (intros o'; destruct (blocks (f_core o')) as [|b l]; [auto|left; exists b; left; reflexivity]).
    destruct (HB o1) as [H|H]; [exact H|]. exfalso. revert H. apply (core_kepts cs Initialised p h0 o0 h1 o1 Hn Hp); [intros [Hx|Hx]; discriminate|exact E]. }
  destruct Hblk as (b & Hb). exists (h3, o3), h4, b.
  assert (Ha : forall a b s, perform_all (a ++ b) s = let! s := perform_all a s in perform_all b s).
  { induction a as [|c a IH]; intros b' s; cbn [app perform_all]; [reflexivity|]. destruct (perform c s); cbn [bind]; [apply IH|reflexivity..]. }
  split; [rewrite Ha, E; cbn [bind perform_all perform fst snd]; rewrite E2; exact E3|]. split; [exact E4|].
  assert (Hc : 0 < cnt (kept_of o1) b) by (unfold kept_of; rewrite !cnt_app; apply cnt_in in Hb; lia).
  split.
  - apply (Permutation_in _ (Permutation_sym P4)). apply in_or_app. left. apply cnt_in. rewrite HM. lia.
  - intros Hin. apply cnt_in in Hin. destruct I1 as [[W1 _] C1]. pose proof (cnt_nodup _ b W1). rewrite C1 in H. lia.
Qed.
Print Assumptions C54_second_run_leaks_refuted.

(** hdbscan_destroy, and so the C++ member clean(), frees the struct: undefined for every
    object in the caller's memory. *)
Theorem C54_destroy_of_foreign_object_refuted : forall h zeroed cs q s, wf h -> nexts Initialised cs = Some q -> q <> Initialised ->
  perform_all cs (life_init true zeroed h) = Ok s -> cpp_clean (fst s) (snd s) = UB.
Proof.
  intros h zeroed cs q s HW Hn Hq Es. destruct (init_ok true zeroed h HW) as (S0 & I0 & T0). destruct (life_init true zeroed h) as [h0 o0]. cbn [fst snd] in *.
  destruct (performs_ok cs _ _ _ _ _ _ Hn S0 I0) as (h1 & o1 & zz & E & I1 & S1 & T1 & _). rewrite E in Es. injection Es as <-. cbn [fst snd].
  destruct (destroy_ok zz q (hp_live h) h1 o1) as [D _]; [destruct q; auto; contradiction|exact S1|exact I1|]. apply D. rewrite T1. apply T0. reflexivity.
Qed.
Print Assumptions C54_destroy_of_foreign_object_refuted.

Definition z1 : sizes := mk_sizes 3 2 1 1 [0; 3; 3].
Example C54_example :
  nexts Initialised [Run z1; Rerun z1; MinimalClean; Rerun z1; Clean; Run z1] = Some HasResults /\
  cpp_scope [Run z1; Rerun z1; Clean; Run z1] empty_heap = Ok (mk_heap 57 []) /\ wf empty_heap.
Proof. split; [reflexivity|]. split; [vm_compute; reflexivity|]. split; [constructor|intros x []]. Qed.
