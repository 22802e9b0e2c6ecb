(** Remaining edges, adjacency lists and the removal of tied edges. *)
From Coq Require Import Permutation Relations.
From Verif Require Import Base F64 ListFacts ModelMst ModelGraph ModelCluster ModelHier ProofMst ProofGraph ProofSets SpecGraph ProofExplore ProofTree ProofLabel.
From Coq Require Import ZifyBool.
Local Open Scope nat_scope.

Section Ties.
Variable n : nat.
Variable e : edges.
Definition va (i : nat) : nat := nth i (e_a e) 0.
Definition vb (i : nat) : nat := nth i (e_b e) 0.
Definition ew (i : nat) : f64 := nth i (e_w e) fzero.
Variable m : nat.
Hypothesis Hwf : wf m e.
Hypothesis Hv : forall i, i < m -> va i < n /\ vb i < n.

(** The vertices [a] and [b] are joined by one of the first [k] edges. *)
Definition E (k a b : nat) : Prop := exists i, i < k /\ ((va i = a /\ vb i = b) \/ (va i = b /\ vb i = a)).
Definition ab : list (nat * nat) := combine (e_a e) (e_b e).

Lemma E_sym k a b : E k a b -> E k b a.
Proof. intros (i & H1 & H2). exists i. tauto. Qed.
Lemma E_mono k k' a b : k <= k' -> E k a b -> E k' a b.
Proof. clear. intros H (i & H1 & H2). exists i. split; [lia|exact H2]. Qed.
Lemma E_lt k a b : k <= m -> E k a b -> a < n /\ b < n.
Proof. intros Hk (i & H1 & H2). destruct (Hv i ltac:(lia)). destruct H2 as [[<- <-]|[<- <-]]; auto. Qed.

Lemma ab_firstn j : j < m -> firstn (S j) ab = firstn j ab ++ [(va j, vb j)].
Proof.
  intros Hj. destruct Hwf as (Ha & Hb & _).
  assert (Hlab : length ab = m) by (unfold ab; rewrite combine_length; lia).
  apply nth_error_ext. intros k. rewrite nth_error_firstn. destruct (Nat.ltb_spec k (S j)).
  - destruct (Nat.eq_dec k j) as [->|].
    + rewrite nth_error_app2 by (rewrite firstn_length; lia). rewrite firstn_length.
      replace (j - Nat.min j (length ab)) with 0 by lia. cbn [nth_error].
      rewrite (nth_error_nth' _ (0, 0)) by lia. unfold ab. rewrite combine_nth by lia. reflexivity.
    + rewrite nth_error_app1 by (rewrite firstn_length; lia). rewrite nth_error_firstn.
      destruct (Nat.ltb_spec k j); [reflexivity|lia].
  - symmetry. apply nth_error_None. rewrite app_length, firstn_length. cbn. lia.
Qed.

Lemma nbrs_snoc l a b v : nbrs (l ++ [(a, b)]) v = nbrs l v ++ nbrs_of a b v.
Proof. unfold nbrs. rewrite flat_map_app. cbn. rewrite app_nil_r. reflexivity. Qed.

Lemma nbrs_of_In a b v u : In u (nbrs_of a b v) <-> (a = v /\ b = u) \/ (a = u /\ b = v).
Proof.
  unfold nbrs_of. rewrite in_app_iff.
  destruct (Nat.eqb_spec a v), (Nat.eqb_spec a b), (Nat.eqb_spec b v); cbn; intuition congruence.
Qed.

Lemma nbrs_E k v u : k <= m -> In u (nbrs (firstn k ab) v) <-> E k v u.
Proof.
  induction k as [|k IH]; intros Hk.
  - cbn. split; [intros []|]. intros (i & Hi & _). lia.
  - rewrite ab_firstn, nbrs_snoc, in_app_iff, IH, nbrs_of_In by lia. split.
    + intros [(i & H1 & H2)|H]; [exists i; split; [lia|exact H2]|]. exists k. split; [lia|]. tauto.
    + intros (i & H1 & H2). destruct (Nat.eq_dec i k) as [->|Hne]; [right; tauto|]. left. exists i. split; [lia|exact H2].
Qed.

(** The adjacency lists hold the first [k] edges (self edges may have been lost). *)
Record adjInv (k : nat) (adj : list (list nat)) : Prop := {
  ai_len : length adj = n;
  ai_cnt : forall v u, v <> u -> cnt u (nb adj v) = cnt u (nbrs (firstn k ab) v);
  ai_self : forall v, cnt v (nb adj v) <= cnt v (nbrs (firstn k ab) v) }.

Lemma adj_step k adj a b : k <= m -> adjInv k adj -> step adj a b -> E k a b.
Proof.
  intros Hk [H1 H2 H3] Hs. apply nbrs_E; [exact Hk|]. unfold step in Hs.
  apply (count_occ_In Nat.eq_dec) in Hs. apply (count_occ_In Nat.eq_dec).
  destruct (Nat.eq_dec a b) as [->|Hne]; [specialize (H3 b); lia|]. rewrite <- H2 by exact Hne. exact Hs.
Qed.

Lemma step_adj k adj a b : k <= m -> adjInv k adj -> a <> b -> E k a b -> step adj a b.
Proof.
  intros Hk [H1 H2 H3] Hne HE. apply nbrs_E in HE; [|exact Hk]. unfold step.
  apply (count_occ_In Nat.eq_dec) in HE. apply (count_occ_In Nat.eq_dec). rewrite H2 by exact Hne. exact HE.
Qed.

Lemma adj_sym k adj : k <= m -> adjInv k adj -> forall a b, step adj a b -> step adj b a.
Proof.
  intros Hk HA a b Hs. destruct (Nat.eq_dec a b) as [->|Hne]; [exact Hs|].
  apply (step_adj k); [exact Hk|exact HA|lia|]. apply E_sym. apply (adj_step k adj); assumption.
Qed.

Lemma adj_lt k adj : k <= m -> adjInv k adj -> forall a b, step adj a b -> b < n.
Proof. intros Hk HA a b Hs. apply (adj_step k adj) in Hs; [|exact Hk|exact HA]. apply (E_lt k a b Hk Hs). Qed.

Lemma conn_joined k adj a b : k <= m -> adjInv k adj -> conn adj a b <-> joined (E k) a b.
Proof.
  intros Hk HA. unfold conn, joined. split; intros H.
  - induction H; [apply rst_step; apply (adj_step k adj); assumption|apply rst_refl|apply rst_sym; assumption|eapply rst_trans; eassumption].
  - induction H as [x y H| | |]; [|apply rst_refl|apply rst_sym; assumption|eapply rst_trans; eassumption].
    destruct (Nat.eq_dec x y) as [->|Hne]; [apply rst_refl|]. apply rst_step. apply (step_adj k); assumption.
Qed.

Lemma adjInv_remove j adj : S j <= m -> adjInv (S j) adj ->
  exists adj', graph_remove_edge adj (va j) (vb j) = Ok adj' /\ adjInv j adj'.
Proof.
  intros Hj [H1 H2 H3]. destruct (Hv j ltac:(lia)) as [Ha Hb].
  destruct (remove_edge_ok adj (va j) (vb j) n H1 Ha Hb) as (adj' & R1 & R2 & R3 & R4).
  exists adj'. split; [exact R1|]. rewrite ab_firstn in H2, H3 by lia.
  assert (H2' : forall v u, v <> u -> cnt u (nth v adj []) = cnt u (nbrs (firstn j ab) v) + cnt u (nbrs_of (va j) (vb j) v)).
  { intros v u Hne. specialize (H2 v u Hne). unfold nb in H2. rewrite H2, nbrs_snoc, count_occ_app. reflexivity. }
  assert (H3' : forall v, cnt v (nth v adj []) <= cnt v (nbrs (firstn j ab) v) + cnt v (nbrs_of (va j) (vb j) v)).
  { intros v. specialize (H3 v). unfold nb in H3. rewrite nbrs_snoc, count_occ_app in H3. exact H3. }
  clear H2 H3. set (a := va j) in *. set (b := vb j) in *.
  destruct (Nat.eq_dec a b) as [Eab|Nab].
  - specialize (R4 Eab). clear R3. constructor; [exact R2| |]; unfold nb.
    + intros v u Hne. rewrite R4. specialize (H2' v u Hne). unfold nbrs_of in H2'.
      destruct (Nat.eqb_spec a v) as [F|F].
      * subst v. rewrite !remove_first_count. destruct (Nat.eqb_spec a u); [lia|].
        destruct (Nat.eqb_spec a b); [|lia]. cbn [negb andb app count_occ] in H2'.
        destruct (Nat.eq_dec b u); [lia|]. lia.
      * destruct (Nat.eqb_spec a b); [|lia]. cbn in H2'. lia.
    + intros v. rewrite R4. specialize (H3' v). unfold nbrs_of in H3'.
      destruct (Nat.eqb_spec a b) as [_|X]; [|lia]. cbn [negb andb] in H3'.
      destruct (Nat.eqb_spec a v) as [F|F].
      * subst v. rewrite !remove_first_count. rewrite Nat.eqb_refl. cbn [app count_occ] in H3'.
        destruct (Nat.eq_dec b a); lia.
      * cbn in H3'. lia.
  - specialize (R3 Nab). clear R4. constructor; [exact R2| |]; unfold nb.
    + intros v u Hne. rewrite R3. specialize (H2' v u Hne). unfold nbrs_of in H2'.
      destruct (Nat.eqb_spec a b) as [X|_]; [lia|]. cbn [negb andb] in H2'.
      destruct (Nat.eqb_spec a v) as [F|F].
      * subst v. destruct (Nat.eqb_spec b a) as [X|_]; [lia|]. cbn [app count_occ] in H2'.
        rewrite remove_first_count. destruct (Nat.eqb_spec b u), (Nat.eq_dec b u); lia.
      * destruct (Nat.eqb_spec b v) as [G|G].
        -- subst v. cbn [app count_occ] in H2'. rewrite remove_first_count. destruct (Nat.eqb_spec a u), (Nat.eq_dec a u); lia.
        -- cbn in H2'. lia.
    + intros v. rewrite R3. specialize (H3' v). unfold nbrs_of in H3'.
      destruct (Nat.eqb_spec a b) as [X|_]; [lia|]. cbn [negb andb] in H3'.
      destruct (Nat.eqb_spec a v) as [F|F].
      * subst v. destruct (Nat.eqb_spec b a) as [X|_]; [lia|]. cbn [app count_occ] in H3'.
        rewrite remove_first_count. destruct (Nat.eqb_spec b a), (Nat.eq_dec b a); lia.
      * destruct (Nat.eqb_spec b v) as [G|G].
        -- subst v. cbn [app count_occ] in H3'. rewrite remove_first_count. destruct (Nat.eqb_spec a b), (Nat.eq_dec a b); lia.
        -- cbn in H3'. lia.
Qed.

Lemma remove_ties_ok s w : length (l_cur s) = n ->
  forall k adj av al, k <= m -> adjInv k adj -> ssorted av -> ssorted al ->
  exists adj' av' al' k', remove_ties e w (l_cur s) k adj av al = Ok (adj', av', al', k')
  /\ k' <= k /\ adjInv k' adj' /\ ssorted av' /\ ssorted al'
  /\ (forall v, In v av' <-> In v av \/ exists i, k' <= i < k /\ lab s (va i) <> 0 /\ (v = va i \/ v = vb i))
  /\ (forall l, In l al' <-> In l al \/ exists i, k' <= i < k /\ lab s (va i) <> 0 /\ l = lab s (va i))
  /\ (forall i, k' <= i < k -> feq (ew i) w = true)
  /\ (0 < k' -> feq (ew (k' - 1)) w = false).
Proof.
  intros Hc. destruct Hwf as (Hwa & Hwb & Hww).
  induction k as [|j IH]; intros adj av al Hk HA Hav Hal; cbn [remove_ties].
  - exists adj, av, al, 0. split; [reflexivity|]. split; [lia|]. split; [exact HA|]. split; [exact Hav|]. split; [exact Hal|].
    split; [intros v; split; [auto|]; intros [H|(i & Hi & _)]; [exact H|lia]|].
    split; [intros v; split; [auto|]; intros [H|(i & Hi & _)]; [exact H|lia]|].
    split; [intros i Hi; lia|lia].
  - rewrite (aget_in (e_w e) j fzero) by lia. cbn [bind]. fold (ew j).
    destruct (feq (ew j) w) eqn:Ef.
    + rewrite (aget_in (e_a e) j 0), (aget_in (e_b e) j 0) by lia. cbn [bind]. fold (va j) (vb j).
      destruct (adjInv_remove j adj Hk HA) as (adj1 & R1 & R2). rewrite R1. cbn [bind].
      destruct (Hv j ltac:(lia)) as [Ha Hb].
      rewrite (aget_in (l_cur s) (va j) 0) by lia. cbn [bind]. fold (lab s (va j)).
      destruct (Nat.eqb_spec (lab s (va j)) 0) as [Ez|Ez].
      * destruct (IH adj1 av al ltac:(lia) R2 Hav Hal) as (adj' & av' & al' & k' & S1 & S2 & S3 & S4 & S5 & S6 & S7 & S8 & S9).
        exists adj', av', al', k'. split; [exact S1|]. split; [lia|]. split; [exact S3|]. split; [exact S4|]. split; [exact S5|].
        split; [|split; [|split]].
        -- intros v. rewrite S6. split; (intros [H|(i & H1 & H2)]; [auto|right; exists i]); [split; [lia|exact H2]|].
           split; [|exact H2]. destruct (Nat.eq_dec i j) as [->|]; [destruct H2; contradiction|lia].
        -- intros v. rewrite S7. split; (intros [H|(i & H1 & H2)]; [auto|right; exists i]); [split; [lia|exact H2]|].
           split; [|exact H2]. destruct (Nat.eq_dec i j) as [->|]; [destruct H2; contradiction|lia].
        -- intros i Hi. destruct (Nat.eq_dec i j) as [->|]; [exact Ef|apply S8; lia].
        -- exact S9.
      * destruct (snd_set_insert (va j) av Hav) as [I1 I2]. destruct (snd_set_insert (vb j) _ I1) as [I3 I4].
        destruct (snd_set_insert (lab s (va j)) al Hal) as [I5 I6].
        destruct (IH adj1 _ _ ltac:(lia) R2 I3 I5) as (adj' & av' & al' & k' & S1 & S2 & S3 & S4 & S5 & S6 & S7 & S8 & S9).
        exists adj', av', al', k'. split; [exact S1|]. split; [lia|]. split; [exact S3|]. split; [exact S4|]. split; [exact S5|].
        split; [|split; [|split]].
        -- intros v. rewrite S6, I4, I2. split.
           ++ intros [[H|[H|H]]|(i & H1 & H2)].
              ** right. exists j. split; [lia|]. auto.
              ** right. exists j. split; [lia|]. auto.
              ** auto.
              ** right. exists i. split; [lia|exact H2].
           ++ intros [H|(i & H1 & H2 & H3)]; [auto|]. destruct (Nat.eq_dec i j) as [->|].
              ** left. tauto.
              ** right. exists i. split; [lia|auto].
        -- intros v. rewrite S7, I6. split.
           ++ intros [[H|H]|(i & H1 & H2)].
              ** right. exists j. split; [lia|]. auto.
              ** auto.
              ** right. exists i. split; [lia|exact H2].
           ++ intros [H|(i & H1 & H2 & H3)]; [auto|]. destruct (Nat.eq_dec i j) as [->|].
              ** left. tauto.
              ** right. exists i. split; [lia|auto].
        -- intros i Hi. destruct (Nat.eq_dec i j) as [->|]; [exact Ef|apply S8; lia].
        -- exact S9.
    + exists adj, av, al, (S j). split; [reflexivity|]. split; [lia|]. split; [exact HA|]. split; [exact Hav|]. split; [exact Hal|].
      split; [intros v; split; [auto|]; intros [H|(i & Hi & _)]; [exact H|lia]|].
      split; [intros v; split; [auto|]; intros [H|(i & Hi & _)]; [exact H|lia]|].
      split; [intros i Hi; lia|]. intros _. cbn [Nat.sub]. rewrite Nat.sub_0_r. exact Ef.
Qed.

(** The adjacency lists built before the edges were sorted. *)
Lemma cnt_nbrs_perm l l' v u : Permutation l l' -> cnt u (nbrs l v) = cnt u (nbrs l' v).
Proof.
  intros H. unfold nbrs. induction H as [|x l l' H IH|x y l|l l' l'' H1 IH1 H2 IH2]; cbn [flat_map].
  - reflexivity.
  - rewrite !count_occ_app, IH. reflexivity.
  - rewrite !count_occ_app. lia.
  - congruence.
Qed.

Lemma adjInv_start e0 m0 adj : wf m0 e0 -> (forall i, i < m0 -> nth i (e_a e0) 0 < n /\ nth i (e_b e0) 0 < n) ->
  graph_init n e0 = Ok adj -> Permutation (combine (e_a e0) (e_b e0)) ab -> adjInv m adj.
Proof.
  intros H0 H1 H2 H3. destruct (graph_init_ok n e0 m0 H0 H1) as (adj0 & G1 & G2 & G3).
  rewrite H2 in G1. injection G1 as <-.
  assert (firstn m ab = ab) as Hall.
  { apply firstn_all2. unfold ab. rewrite combine_length. destruct Hwf as (A1 & A2 & _). lia. }
  constructor; [exact G2| |]; unfold nb.
  - intros v u _. rewrite G3, Hall. apply cnt_nbrs_perm. exact H3.
  - intros v. rewrite G3, Hall. rewrite (cnt_nbrs_perm _ _ _ _ H3). lia.
Qed.
End Ties.
