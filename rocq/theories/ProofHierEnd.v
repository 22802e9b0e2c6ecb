(** From the loop invariants to the vocabulary of SpecHier.v. *)
From Coq Require Import Relations Permutation Sorted.
From Verif Require Import Base F64 F64Facts ListFacts ModelMst ModelGraph ModelCluster ModelHier ProofMst ProofGraph
  SpecGraph ProofSets ProofExplore ProofTree ProofLabel ProofTies PropMst PropGraph SpecHier ProofHier.
From Coq Require Import ZifyBool ZifyNat.
Local Open Scope nat_scope.

Definition gtw (a b : f64) : Prop := flt b a = true.
Definition anyw (a b : f64) : Prop := True.

Lemma map_fst_combine {A B} (l : list A) (l' : list B) : length l = length l' -> map fst (combine l l') = l.
Proof. revert l'; induction l as [|x l IH]; intros [|y l'] H; cbn in *; try lia; [reflexivity|]. f_equal. apply IH. lia. Qed.

Lemma triples_fst e : aligned e -> map fst (triples e) = combine (e_a e) (e_b e).
Proof. intros [H1 H2]. apply map_fst_combine. rewrite combine_length. lia. Qed.

Lemma triple_ew e m a b w : wf m e -> In (a, b, w) (triples e) <-> exists i, i < m /\ a = va e i /\ b = vb e i /\ w = ew e i.
Proof.
  intros Hwf. pose proof Hwf as (Ha & Hb & Hw).
  assert (Hi : forall i, i < m -> nth_error (triples e) i = Some (va e i, vb e i, ew e i)).
  { intros i Hi. apply (triples_nth e i _ _ _ m); auto. unfold edge_at, va, vb, ew.
    rewrite (nth_indep _ D_MAX fzero) by lia. reflexivity. }
  split.
  - intros H. apply In_nth_error in H. destruct H as [i H].
    assert (Hlt : i < m) by (rewrite <- (triples_length e m Ha Hb Hw); apply nth_error_Some; congruence).
    rewrite (Hi i Hlt) in H. injection H as <- <- <-. exists i. auto.
  - intros (i & H1 & -> & -> & ->). apply (nth_error_In _ i). apply Hi. exact H1.
Qed.

Section End.
Variables (n : nat) (e0 e : edges) (adj : list (list nat)).
Hypothesis HG : graph_input n e0 e adj.
Let m := length (e_w e).

Lemma in_n1 : 1 <= n. Proof. apply HG. Qed.
Lemma in_n32 : (Z.of_nat n < M32)%Z. Proof. apply HG. Qed.
Lemma in_wf : wf m e.
Proof. destruct HG as (_ & _ & _ & _ & _ & [H1 H2] & _). unfold wf, m. lia. Qed.

Lemma in_v : forall i, i < m -> va e i < n /\ vb e i < n.
Proof.
  intros i Hi. destruct HG as (_ & _ & Ha0 & [Hv1 Hv2] & _ & Ha & HP).
  rewrite Forall_forall in Hv1, Hv2.
  assert (H : In (va e i, vb e i, ew e i) (triples e)) by (apply (triple_ew e m); [apply in_wf|exists i; auto]).
  apply (Permutation_in _ (Permutation_sym HP)) in H.
  apply (in_map fst) in H. rewrite triples_fst in H by exact Ha0. cbn in H.
  split; [apply Hv1; apply in_combine_l in H; exact H|apply Hv2; apply in_combine_r in H; exact H].
Qed.

Lemma in_adj : adjInv n e m adj.
Proof.
  destruct HG as (_ & _ & [Ha1 Ha2] & [Hv1 Hv2] & Hgi & Ha & HP).
  apply (adjInv_start n e m in_wf in_v e0 (length (e_w e0))).
  - unfold wf. lia.
  - rewrite Forall_forall in Hv1, Hv2. intros i Hi. split; [apply Hv1|apply Hv2]; apply nth_In; lia.
  - exact Hgi.
  - apply (Permutation_map fst) in HP. rewrite !triples_fst in HP; [exact HP|exact Ha|split; assumption].
Qed.

Lemma ew_in i : i < m -> In (ew e i) (e_w e).
Proof. intros Hi. apply nth_In. exact Hi. Qed.

Lemma in_nan : no_nan e -> forall i, i < m -> feq (ew e i) (ew e i) = true.
Proof.
  intros H i Hi. unfold no_nan in H. rewrite Forall_forall in H. pose proof (H _ (ew_in i Hi)) as Hx.
  apply feq_intro; auto.
Qed.

Lemma any_t : forall a b c, anyw a b -> anyw b c -> anyw a c. Proof. intros; exact I. Qed.
Lemma any_w : forall i j i', i < j -> j < m -> feq (ew e i) (ew e j) = false -> i' <= i -> anyw (ew e j) (ew e i').
Proof. intros; exact I. Qed.
Lemma gt_t : forall a b c, gtw a b -> gtw b c -> gtw a c.
Proof.
  unfold gtw. intros a b c H1 H2. apply flt_true in H1, H2. destruct H1 as (A1 & A2 & A3), H2 as (B1 & B2 & B3).
  apply flt_intro; auto. eapply Z.lt_trans; eassumption.
Qed.

Lemma sorted_le : weights_sorted e -> forall i j, i < j -> j < m -> fle (ew e i) (ew e j) = true.
Proof.
  unfold weights_sorted, ew, m. generalize (e_w e). intros l. induction 1 as [|x l HS IH HF]; intros i j Hij Hj; [cbn in Hj; lia|].
  destruct j as [|j]; [lia|]. cbn [length] in Hj. destruct i as [|i].
  - cbn [nth]. rewrite Forall_forall in HF. apply HF. apply nth_In. lia.
  - cbn [nth]. apply IH; lia.
Qed.

Lemma gt_w : weights_sorted e -> forall i j i', i < j -> j < m -> feq (ew e i) (ew e j) = false -> i' <= i -> gtw (ew e j) (ew e i').
Proof.
  intros Hs i j i' Hij Hj Hne Hi. unfold gtw.
  pose proof (sorted_le Hs i j Hij Hj) as H1. apply fle_true in H1. destruct H1 as (N1 & N2 & K1).
  assert (K2 : (fkey (ew e i) < fkey (ew e j))%Z).
  { destruct (Z.eq_dec (fkey (ew e i)) (fkey (ew e j))) as [E|E]; [|clear -K1 E; lia].
    rewrite feq_intro in Hne by auto. discriminate. }
  assert (K3 : notnan (ew e i') /\ (fkey (ew e i') <= fkey (ew e i))%Z).
  { destruct (Nat.eq_dec i' i) as [->|Hne']; [split; [exact N1|apply Z.le_refl]|].
    pose proof (sorted_le Hs i' i ltac:(clear -Hi Hne'; lia) ltac:(clear -Hij Hj; lia)) as H2. apply fle_true in H2.
    destruct H2 as (N3 & _ & K3). split; assumption. }
  destruct K3 as [N3 K3]. apply flt_intro; auto. clear -K2 K3. lia.
Qed.

Variable minPts : nat.
Variable compact : bool.
Hypothesis Hmin : 2 <= minPts.
Notation lev := (levels e minPts n compact).
Let B0 : list (list nat) := [[]; seq 0 n].

Section Rel.
Variable D : f64 -> f64 -> Prop.
Hypothesis HDt : forall a b c, D a b -> D b c -> D a c.
Hypothesis HDw : forall i j i', i < j -> j < m -> feq (ew e i) (ew e j) = false -> i' <= i -> D (ew e j) (ew e i').

Lemma inv0 : Inv n m minPts e D B0 m (hier_start n adj).
Proof. apply start_Inv; auto; [apply in_v|apply in_n1|apply in_adj]. Qed.

Lemma moment_path k h : no_nan e -> moment e adj minPts n compact k h ->
  exists B, Path n m minPts e D B0 m (hier_start n adj) B k h.
Proof.
  intros Hn H. apply (levels_path n m minPts e compact D in_n32 in_wf in_v HDt HDw Hmin in_n1 (in_nan Hn) _ _ H). apply inv0.
Qed.
End Rel.

Lemma nan_stuck fuel : Exists (fun w => fisnan w = true) (e_w e) -> compute_hierarchy fuel e n adj minPts compact = Fuel.
Proof.
  intros HE. apply Exists_exists in HE. destruct HE as (w & Hw & Hnan). apply (In_nth _ _ fzero) in Hw. destruct Hw as (i & Hi & Hiw).
  unfold compute_hierarchy.
  rewrite (stuck_loop n m minPts e compact anyw in_n32 in_wf in_v any_t any_w Hmin in_n1 i Hi) with (B := B0).
  - reflexivity.
  - unfold ew. rewrite Hiw. apply feq_nan_l. exact Hnan.
  - exact Hi.
  - apply inv0; [apply any_t|apply any_w].
Qed.

Lemma nan_dec : no_nan e \/ Exists (fun w => fisnan w = true) (e_w e).
Proof.
  unfold no_nan. induction (e_w e) as [|x l IH]; [left; constructor|].
  destruct (fisnan x) eqn:Ex; [right; left; exact Ex|]. destruct IH; [left; constructor; assumption|right; right; assumption].
Qed.

Lemma ok_nonan fuel h : compute_hierarchy fuel e n adj minPts compact = Ok h -> no_nan e.
Proof.
  intros H. destruct nan_dec as [Hn|Hn]; [exact Hn|]. rewrite (nan_stuck fuel Hn) in H. discriminate.
Qed.

Lemma ok_moment fuel h : compute_hierarchy fuel e n adj minPts compact = Ok h ->
  exists g, moment e adj minPts n compact 0 g /\ h = hier_finish n g.
Proof.
  intros H. unfold compute_hierarchy in H. fold m in H.
  destruct (hier_loop fuel e minPts n compact m (hier_start n adj)) as [g| | |] eqn:El; try discriminate.
  cbn [bind] in H. injection H as <-. exists g. split; [|reflexivity].
  apply loop_levels with (m := 0) (D := anyw) (fuel := fuel); auto using in_n1; unfold anyw; intros; lia.
Qed.

Lemma terminates fuel : no_nan e -> m <= fuel -> exists h, compute_hierarchy fuel e n adj minPts compact = Ok h.
Proof.
  intros Hn Hf. unfold compute_hierarchy. fold m.
  destruct (loop_ok n m minPts e compact anyw in_n32 in_wf in_v any_t any_w Hmin in_n1 (in_nan Hn) fuel B0 m (hier_start n adj) Hf) as [h' ->].
  - apply inv0; [apply any_t|apply any_w].
  - eexists. reflexivity.
Qed.

(** The moments of a call are linearly ordered. *)
Lemma levels_inv x z : lev x z -> x = z \/ exists y, 0 < fst x /\ hier_level e minPts n compact (fst x) (snd x) = Ok y /\ lev y z.
Proof.
  induction 1 as [x|x y z H IH Hk Hs]; [auto|]. right. destruct IH as [->|(y1 & H1 & H2 & H3)].
  - exists z. split; [exact Hk|]. split; [exact Hs|apply levels_refl].
  - exists y1. split; [exact H1|]. split; [exact H2|]. apply levels_next with y; assumption.
Qed.
Lemma levels_linear x y z : lev x y -> lev x z -> lev y z \/ lev z y.
Proof.
  intros H. revert z. induction H as [x|x y1 y H IH Hk Hs]; intros z Hz; [auto|].
  destruct (IH z Hz) as [H1|H1].
  - destruct (levels_inv y1 z H1) as [->|(y2 & _ & H2 & H3)].
    + right. apply levels_next with z; [apply levels_refl|exact Hk|exact Hs].
    + rewrite Hs in H2. injection H2 as <-. left. exact H3.
  - right. apply levels_next with y1; assumption.
Qed.

Lemma moment_final k h g : moment e adj minPts n compact k h -> moment e adj minPts n compact 0 g -> lev (k, h) (0, g).
Proof.
  intros H1 H2. destruct (levels_linear _ _ _ H1 H2) as [H|H]; [exact H|].
  destruct (levels_inv _ _ H) as [<-|(y & Hk & _)]; [apply levels_refl|]. cbn in Hk. lia.
Qed.

(** ** The final state *)
Section Final.
Variable D : f64 -> f64 -> Prop.
Hypothesis HDt : forall a b c, D a b -> D b c -> D a c.
Hypothesis HDw : forall i j i', i < j -> j < m -> feq (ew e i) (ew e j) = false -> i' <= i -> D (ew e j) (ew e i').
Variables (B : list (list nat)) (g : hstate).
Hypothesis HI : Inv n m minPts e D B 0 g.
Hypothesis Hcov : covers n e.

Lemma m_pos : 0 < m.
Proof.
  destruct (Hcov 0 in_n1) as (a & b & w & H & _). apply (triple_ew e m _ _ _ in_wf) in H. destruct H as (i & Hi & _). lia.
Qed.

Lemma all_noise v : v < n -> lab (h_l g) v = 0.
Proof.
  intros Hv. destruct (Nat.eq_dec (lab (h_l g) v) 0) as [E|E]; [exact E|]. exfalso.
  destruct (in_alive _ _ _ _ _ _ _ _ HI v Hv E) as (i & Hi & _); [|lia].
  destruct (Hcov v Hv) as (a & b & w & H & Hab). apply (triple_ew e m _ _ _ in_wf) in H. destruct H as (i & Hi & -> & -> & _).
  exists i. split; [exact Hi|]. destruct Hab; auto.
Qed.

Lemma fin_cinv : exists w0, CInv n minPts (e_w e) D w0 B (h_l g).
Proof. apply (co_inv0 _ _ _ _ _ _ _ _ (in_core _ _ _ _ _ _ _ _ HI)). Qed.

Lemma cnt_zero l : 1 <= l -> cnt l (l_cur (h_l g)) = 0.
Proof.
  intros Hl. destruct fin_cinv as [w0 HC]. apply count_occ_not_In. intros Hi. apply (In_nth _ _ 0) in Hi.
  destruct Hi as (v & Hv & E). rewrite (ci_cur _ _ _ _ _ _ _ HC) in Hv. pose proof (all_noise v Hv) as H. unfold lab in H. lia.
Qed.

Lemma entry_finish i w ls : 0 < i -> entry (hier_finish n g) i w ls <-> hget (h_hier g) i = Some (w, ls).
Proof.
  intros Hi. unfold entry, hier_finish. cbn [h_hier]. rewrite hget_hput. destruct (Nat.eqb_spec i 0); [lia|tauto].
Qed.

Lemma first_entry : 1 <= h_line g /\ hget (h_hier g) 1 = Some (ew e (m - 1), repeat 1 n).
Proof.
  destruct (en_first _ _ _ _ _ _ _ (in_ent _ _ _ _ _ _ _ _ HI)) as [(_ & H & _)|H]; [|exact H]. pose proof m_pos. lia.
Qed.

Lemma nth_error_of_nth (ls : list nat) v x : v < length ls -> nth_error ls v = Some x <-> nth v ls 0 = x.
Proof. clear. intros H. rewrite (nth_error_nth' ls 0 H). split; congruence. Qed.

(** The entry that holds a cluster. *)
Lemma own_entry l c : clus (h_l g) l c -> exists w ls, hget (h_hier g) (S (c_offset c)) = Some (w, ls) /\ length ls = n
  /\ (forall v, nth_error ls v = Some l <-> In v (bk B l))
  /\ (2 <= l -> 1 <= c_offset c /\ (forall i wt ls' v, 1 <= i <= c_offset c -> hget (h_hier g) i = Some (wt, ls') -> nth_error ls' v <> Some l)
        /\ exists ls', hget (h_hier g) (c_offset c) = Some (c_birth c, ls')).
Proof.
  intros Hc. destruct fin_cinv as [w0 HC]. pose proof (clus_lt _ _ _ Hc) as Hl. rewrite (ci_cs _ _ _ _ _ _ _ HC) in Hl.
  pose proof (in_ent _ _ _ _ _ _ _ _ HI) as HE. pose proof (in_off _ _ _ _ _ _ _ _ HI) as HO.
  destruct (Nat.eq_dec l 0) as [->|Hl0].
  { unfold clus in Hc. rewrite (ci_null _ _ _ _ _ _ _ HC) in Hc. discriminate. }
  assert (Hlen : forall i w ls, hget (h_hier g) i = Some (w, ls) -> length ls = n) by (intros i w ls H; apply (en_ok _ _ _ _ _ _ _ HE i w ls H)).
  destruct (Nat.eq_dec l 1) as [->|Hl1].
  - rewrite (of_root _ _ _ HO c Hc). destruct first_entry as [_ H1]. eexists _, _. split; [exact H1|].
    split; [apply repeat_length|]. split; [|lia].
    intros v. rewrite (ci_root _ _ _ _ _ _ _ HC), in_seq. split.
    + intros H. assert (v < length (repeat 1 n)) by (apply nth_error_Some; congruence). rewrite repeat_length in *. lia.
    + intros H. apply nth_error_repeat'. lia.
  - destruct (of_c _ _ _ HO l c Hc ltac:(lia)) as (O1 & O2 & O3 & O4 & O5).
    assert (Hlt : c_offset c < h_line g).
    { destruct (Nat.eq_dec (c_offset c) (h_line g)) as [E|E]; [|lia]. exfalso. destruct (O4 E) as [_ O6].
      destruct (ci_c _ _ _ _ _ _ _ HC l ltac:(lia)) as (c' & Hc' & Hg). destruct (cg_nonroot _ _ _ _ _ _ _ _ Hg ltac:(lia)) as (_ & Hlen' & _).
      destruct (bk B l) as [|v t] eqn:Eb; [cbn in Hlen'; lia|].
      assert (Hvn : v < n) by (apply (ci_born _ _ _ _ _ _ _ HC l); rewrite Eb; left; reflexivity).
      pose proof (proj2 (O6 v Hvn) (or_introl eq_refl)) as H. rewrite (all_noise v Hvn) in H. lia. }
    destruct (O3 Hlt) as (w & ls & O6 & O7). exists w, ls. split; [exact O6|]. pose proof (Hlen _ _ _ O6) as Hls. split; [exact Hls|].
    split.
    + intros v. destruct (le_lt_dec n v) as [Hge|Hvn].
      * split; intros H.
        -- assert (v < length ls) by (apply nth_error_Some; congruence). lia.
        -- apply (ci_born _ _ _ _ _ _ _ HC l) in H. lia.
      * rewrite nth_error_of_nth by lia. apply O7. exact Hvn.
    + intros _. split; [lia|]. split; [|exact O5].
      intros i wt ls' v Hi H1 H2. pose proof (Hlen _ _ _ H1) as Hls'.
      assert (Hvl : v < length ls') by (apply nth_error_Some; congruence).
      apply (O2 i wt ls' v ltac:(lia) H1 ltac:(lia)). rewrite <- nth_error_of_nth by exact Hvl. exact H2.
Qed.

Lemma member_bk l v : member (hier_finish n g) l v <-> 1 <= l < l_next (h_l g) /\ In v (bk B l).
Proof.
  destruct fin_cinv as [w0 HC]. split.
  - intros (c & w & ls & H1 & H2 & H3). change (clus (h_l g) l c) in H1.
    apply (proj1 (entry_finish _ _ _ (Nat.lt_0_succ _))) in H2. destruct (own_entry l c H1) as (w' & ls' & E1 & _ & E2 & _).
    rewrite E1 in H2. injection H2 as <- <-. split; [|apply E2; exact H3].
    pose proof (clus_lt _ _ _ H1) as Hl. rewrite (ci_cs _ _ _ _ _ _ _ HC) in Hl.
    destruct (Nat.eq_dec l 0) as [->|Hl0]; [|lia]. unfold clus in H1. rewrite (ci_null _ _ _ _ _ _ _ HC) in H1. discriminate.
  - intros [Hl Hv]. destruct (ci_c _ _ _ _ _ _ _ HC l Hl) as (c & Hc & _). destruct (own_entry l c Hc) as (w & ls & E1 & _ & E2 & _).
    exists c, w, ls. split; [exact Hc|]. split; [apply entry_finish; [lia|exact E1]|]. apply E2. exact Hv.
Qed.
End Final.
End End.
