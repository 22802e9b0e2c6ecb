(** Two runs on related distances go through related states.  The relation [W] on distances
    preserves comparisons; [S] relates stabilities.  Used for C74 and C75. *)
From Verif Require Import Base F64 ListFacts ModelDistance ModelMst ModelGraph ModelCluster ModelHier ProofSets.
From Coq Require Import ZifyBool ZifyNat.
Local Open Scope nat_scope.

Definition rres {A B} (R : A -> B -> Prop) (m : res A) (m' : res B) : Prop :=
  match m, m' with
  | Ok a, Ok b => R a b
  | UB, UB | Abort, Abort | Fuel, Fuel => True
  | _, _ => False
  end.
Lemma rbind {A B C D} (R : A -> B -> Prop) (Q : C -> D -> Prop) m m' f g :
  rres R m m' -> (forall a b, R a b -> rres Q (f a) (g b)) -> rres Q (bind m f) (bind m' g).
Proof. destruct m, m'; cbn; intros H1 H2; auto; contradiction. Qed.
Lemma rbind_eq {A C D} (Q : C -> D -> Prop) (m : res A) f g : (forall a, m = Ok a -> rres Q (f a) (g a)) -> rres Q (bind m f) (bind m g).
Proof. destruct m; cbn; auto. Qed.
Lemma req {A} (m : res A) : rres eq m m.
Proof. destruct m; cbn; auto. Qed.
Lemma req_eq {A} (m m' : res A) : m = m' -> rres eq m m'.
Proof. intros ->. apply req. Qed.
Lemma rimp {A B} (R Q : A -> B -> Prop) m m' : (forall a b, R a b -> Q a b) -> rres R m m' -> rres Q m m'.
Proof. destruct m, m'; cbn; auto. Qed.
Lemma rok {A B} (R : A -> B -> Prop) m m' a : rres R m m' -> m = Ok a -> exists b, m' = Ok b /\ R a b.
Proof. intros H ->. destruct m'; cbn in H; try contradiction. eauto. Qed.

Definition orel {A B} (R : A -> B -> Prop) (a : option A) (b : option B) : Prop :=
  match a, b with Some x, Some y => R x y | None, None => True | _, _ => False end.

Lemma F2_len {A B} (R : A -> B -> Prop) l l' : Forall2 R l l' -> length l = length l'.
Proof. induction 1; cbn; congruence. Qed.
Lemma F2_nth {A B} (R : A -> B -> Prop) l l' i : Forall2 R l l' -> orel R (nth_error l i) (nth_error l' i).
Proof. intros H. revert i. induction H; intros [|i]; cbn; auto. Qed.
Lemma F2_upd {A B} (R : A -> B -> Prop) l l' i x y : Forall2 R l l' -> R x y -> Forall2 R (upd l i x) (upd l' i y).
Proof. intros H Hx. revert i. induction H; intros [|i]; cbn; auto. Qed.
Lemma F2_repeat {A B} (R : A -> B -> Prop) x y n : R x y -> Forall2 R (repeat x n) (repeat y n).
Proof. intros H. induction n; cbn; auto. Qed.
Lemma F2_firstn {A B} (R : A -> B -> Prop) l l' k : Forall2 R l l' -> Forall2 R (firstn k l) (firstn k l').
Proof. intros H. revert k. induction H; intros [|k]; cbn; auto. Qed.
Lemma F2_skipn {A B} (R : A -> B -> Prop) l l' k : Forall2 R l l' -> Forall2 R (skipn k l) (skipn k l').
Proof. intros H. revert k. induction H; intros [|k]; cbn; auto. Qed.
Lemma F2_eq {A} (l : list A) : Forall2 eq l l.
Proof. induction l; auto. Qed.

Lemma aget_r {A B} (R : A -> B -> Prop) l l' i : Forall2 R l l' -> rres R (aget l i) (aget l' i).
Proof. intros H. apply (F2_nth _ _ _ i) in H. unfold aget. destruct (nth_error l i), (nth_error l' i); cbn in *; auto. Qed.
Lemma aset_r {A B} (R : A -> B -> Prop) l l' i x y : Forall2 R l l' -> R x y -> rres (Forall2 R) (aset l i x) (aset l' i y).
Proof. intros H Hx. unfold aset. rewrite <- (F2_len _ _ _ H). destruct (i <? length l); cbn; auto. apply F2_upd; assumption. Qed.
Lemma for_up_r {A B} (R : A -> B -> Prop) f g n : forall k s s',
  (forall i s s', k <= i < k + n -> R s s' -> rres R (f i s) (g i s')) -> R s s' -> rres R (for_up k n f s) (for_up k n g s').
Proof.
  induction n as [|n IH]; intros k s s' H Hs; cbn [for_up]; [exact Hs|]. apply (rbind R); [apply H; [lia|exact Hs]|].
  intros a b Hab. apply IH; [|exact Hab]. intros i t t' Hi. apply H. lia.
Qed.
Lemma zget_r {A B} (R : A -> B -> Prop) l l' i : Forall2 (orel R) l l' -> rres R (zget l i) (zget l' i).
Proof.
  intros H. unfold zget. destruct (i <? 0)%Z; [exact I|]. apply (F2_nth _ _ _ (Z.to_nat i)) in H.
  destruct (nth_error l _) as [[a|]|], (nth_error l' _) as [[b|]|]; cbn in *; auto.
Qed.
Lemma zset_r {A B} (R : A -> B -> Prop) l l' i x y : Forall2 (orel R) l l' -> R x y -> rres (Forall2 (orel R)) (zset l i x) (zset l' i y).
Proof.
  intros H Hx. unfold zset. rewrite <- (F2_len _ _ _ H). destruct ((0 <=? i)%Z && (i <? Z.of_nat (length l))%Z); [|exact I]. cbn. apply F2_upd; [exact H|exact Hx].
Qed.

(** Comparisons have the same result on both sides. *)
Definition same_cmp (W : f64 -> f64 -> Prop) : Prop :=
  forall x x' y y', W x x' -> W y y' -> flt x y = flt x' y' /\ fle x y = fle x' y' /\ feq x y = feq x' y'.

Section Sim.
Variable W : f64 -> f64 -> Prop.
Hypothesis HW : same_cmp W.
Hypothesis Wmax : W D_MAX D_MAX.
Hypothesis Wzero : W fzero fzero.

Lemma wlt x x' y y' : W x x' -> W y y' -> flt x y = flt x' y'. Proof. intros A B. apply (HW x x' y y' A B). Qed.
Lemma wle x x' y y' : W x x' -> W y y' -> fle x y = fle x' y'. Proof. intros A B. apply (HW x x' y y' A B). Qed.
Lemma weq x x' y y' : W x x' -> W y y' -> feq x y = feq x' y'. Proof. intros A B. apply (HW x x' y y' A B). Qed.
Lemma wgt x x' y y' : W x x' -> W y y' -> fgt x y = fgt x' y'. Proof. intros A B. apply (wlt y y' x x' B A). Qed.
Lemma wge x x' y y' : W x x' -> W y y' -> fge x y = fge x' y'. Proof. intros A B. apply (wle y y' x x' B A). Qed.
Lemma wne x x' y y' : W x x' -> W y y' -> fne x y = fne x' y'. Proof. intros A B. unfold fne. f_equal. apply (weq x x' y y' A B). Qed.

(** ** Distances and core distances *)
Definition Rd (d d' : distance) : Prop :=
  d_rows d = d_rows d' /\ d_k d = d_k d' /\ Forall2 (orel W) (d_dist d) (d_dist d') /\ Forall2 (orel W) (d_core d) (d_core d').

Lemma distance_get_r d d' i j : Rd d d' -> rres W (distance_get d i j) (distance_get d' i j).
Proof. intros (H1 & _ & H2 & _). unfold distance_get. rewrite <- H1. destruct (i <? j)%Z; [apply zget_r; exact H2|]. destruct (i =? j)%Z; [exact Wzero|apply zget_r; exact H2]. Qed.

Lemma find_pos_r t t' buf buf' : Forall2 W buf buf' -> W t t' -> forall f low high, rres eq (find_pos f buf t low high) (find_pos f buf' t' low high).
Proof.
  intros Hb Ht. induction f as [|f IH]; intros low high; cbn [find_pos]; [exact I|].
  apply (rbind W); [apply aget_r; exact Hb|]. intros x x' Hx. rewrite (wgt _ _ _ _ Hx Ht), (weq _ _ _ _ Hx Ht).
  destruct (fgt x' t'); [destruct (low <? _); [apply IH|reflexivity]|]. destruct (feq x' t'); [reflexivity|]. destruct (_ <? high); [apply IH|reflexivity].
Qed.
Lemma buf_step_r s t t' buf buf' : Forall2 W buf buf' -> W t t' -> rres (Forall2 W) (buf_step s t buf) (buf_step s t' buf').
Proof.
  intros Hb Ht. unfold buf_step. apply (rbind W); [apply aget_r; exact Hb|]. intros l l' Hl. rewrite (wgt _ _ _ _ Ht Hl).
  destruct (fgt t' l'); [exact Hb|]. apply (rbind eq); [apply find_pos_r; assumption|]. intros a b ->. rewrite (wne _ _ _ _ Hl Ht).
  destruct (_ && _); [|exact Hb]. cbn. apply Forall2_app; [apply F2_firstn; exact Hb|]. constructor; [exact Ht|]. apply F2_firstn, F2_skipn, Hb.
Qed.
Lemma core_of_r d d' i : Rd d d' -> rres W (core_of d i) (core_of d' i).
Proof.
  intros H. unfold core_of. destruct H as (H1 & H2 & H3). rewrite <- H1, <- H2. destruct (_ =? 0); [exact I|]. apply (rbind (Forall2 W)).
  - apply for_up_r; [|apply F2_repeat; exact Wmax]. intros j b b' _ Hb. apply (rbind W); [apply distance_get_r; repeat split; auto; apply H3|]. intros t t' Ht. apply buf_step_r; assumption.
  - intros b b' Hb. apply aget_r. exact Hb.
Qed.
Lemma cores_r d d' : Rd d d' -> rres Rd (distance_get_core_distances d) (distance_get_core_distances d').
Proof.
  intros H. pose proof H as (H1 & H2 & H3 & H4). unfold distance_get_core_distances. rewrite <- H1. apply (rbind (Forall2 (orel W))).
  - apply for_up_r; [|exact H4]. intros i c c' _ Hc. apply (rbind W); [apply core_of_r; exact H|]. intros x x' Hx. apply zset_r; assumption.
  - intros c c' Hc. cbn. unfold Rd. cbn. auto.
Qed.
Lemma fill_r ds ds' rows cols cols' m m' : (forall i j, i < j -> j < rows -> rres W (pair_value ds cols i j) (pair_value ds' cols' i j)) ->
  Forall2 (orel W) m m' -> rres (Forall2 (orel W)) (fill_matrix ds rows cols m) (fill_matrix ds' rows cols' m').
Proof.
  intros HP Hm. unfold fill_matrix. apply for_up_r; [|exact Hm]. intros i a a' Hi Ha. apply for_up_r; [|exact Ha]. intros j b b' Hj Hb.
  unfold pair_step. apply (rbind W); [apply HP; lia|]. intros v v' Hv. apply zset_r; assumption.
Qed.
Lemma compute_r ds ds' rows cols cols' k : (forall i j, i < j -> j < rows -> rres W (pair_value ds cols i j) (pair_value ds' cols' i j)) ->
  rres Rd (distance_compute ds rows cols k) (distance_compute ds' rows cols' k).
Proof.
  intros HP. unfold distance_compute. apply (rbind (Forall2 (orel W))); [apply fill_r; [exact HP|]; apply F2_repeat; exact I|].
  intros m m' Hm. apply cores_r. unfold Rd. cbn [d_rows d_k d_dist d_core]. repeat split; auto. apply F2_repeat. exact I.
Qed.

(** ** The spanning tree *)
Lemma mreach_r x x' y y' z z' : W x x' -> W y y' -> W z z' -> W (mutual_reach x y z) (mutual_reach x' y' z').
Proof.
  intros Hx Hy Hz. unfold mutual_reach. rewrite (wgt _ _ _ _ Hy Hx).
  destruct (fgt y' x'); [rewrite (wgt _ _ _ _ Hz Hy); destruct (fgt z' y')|rewrite (wgt _ _ _ _ Hz Hx); destruct (fgt z' x')]; assumption.
Qed.
Definition Rscan (s s' : scan) : Prop := Forall2 W (s_dist s) (s_dist s') /\ s_nbr s = s_nbr s' /\ s_point s = s_point s' /\ W (s_best s) (s_best s').
Definition Re (e e' : edges) : Prop := e_a e = e_a e' /\ e_b e = e_b e' /\ Forall2 W (e_w e) (e_w e').

Section MstSim.
Variables (get get' : nat -> nat -> res f64) (core core' : nat -> res f64).
Hypothesis Hget : forall i j, rres W (get i j) (get' i j).
Hypothesis Hcore : forall i, rres W (core i) (core' i).
Lemma scan_step_r att cur nb s s' : Rscan s s' -> rres Rscan (scan_step get core att cur nb s) (scan_step get' core' att cur nb s').
Proof.
  intros H. unfold scan_step. destruct (cur =? nb); [exact H|]. apply (rbind eq); [apply req|]. intros a b ->. destruct b; [exact H|].
  apply (rbind W); [apply Hget|]. intros x x' Hx. apply (rbind W); [apply Hcore|]. intros y y' Hy. apply (rbind W); [apply Hcore|]. intros z z' Hz.
  pose proof (mreach_r _ _ _ _ _ _ Hx Hy Hz) as Hm. set (m := mutual_reach x y z) in *. set (m' := mutual_reach x' y' z') in *. clearbody m m'. cbn zeta.
  destruct H as (H1 & H2 & H3 & H4). apply (rbind W); [apply aget_r; exact H1|]. intros t t' Ht. apply (rbind Rscan).
  - rewrite (wlt _ _ _ _ Hm Ht). destruct (flt m' t'); [|cbn; unfold Rscan; auto]. apply (rbind (Forall2 W)); [apply aset_r; assumption|]. intros l l' Hl.
    rewrite H2. apply (rbind eq); [apply req|]. intros ? ? ->. cbn. unfold Rscan. cbn. auto.
  - intros s1 s1' (G1 & G2 & G3 & G4). apply (rbind W); [apply aget_r; exact G1|]. intros u u' Hu. rewrite (wle _ _ _ _ Hu G4). destruct (fle u' (s_best s1')); cbn; unfold Rscan; cbn; auto.
Qed.
Definition Rprim (p p' : prim) : Prop := p_att p = p_att p' /\ Forall2 W (p_dist p) (p_dist p') /\ p_nbr p = p_nbr p' /\ p_oth p = p_oth p' /\ p_cur p = p_cur p'.
Lemma prim_round_r size t p p' : Rprim p p' -> rres Rprim (prim_round get core size t p) (prim_round get' core' size t p').
Proof.
  intros (H1 & H2 & H3 & H4 & H5). unfold prim_round. rewrite H1, H3, H4, H5. apply (rbind Rscan).
  - apply for_up_r; [intros i s s' _ Hs; apply scan_step_r; exact Hs|]. unfold Rscan. cbn. auto.
  - intros s s' (G1 & G2 & G3 & G4). rewrite G3. destruct (s_point s') as [v|]; [|exact I]. apply (rbind eq); [apply req|]. intros ? ? ->. apply (rbind eq); [apply req|]. intros ? ? ->.
    cbn. unfold Rprim. cbn. auto.
Qed.
Lemma self_edge_r size i e e' : Re e e' -> rres Re (self_edge core size i e) (self_edge core' size i e').
Proof.
  intros (H1 & H2 & H3). unfold self_edge. rewrite H1, H2. apply (rbind eq); [apply req|]. intros ? ? ->. apply (rbind eq); [apply req|]. intros ? ? ->.
  apply (rbind W); [apply Hcore|]. intros c c' Hc. apply (rbind (Forall2 W)); [apply aset_r; assumption|]. intros w w' Hw. cbn. unfold Re. cbn. auto.
Qed.
Lemma mst_edges_r size b : rres Re (mst_edges get core size b) (mst_edges get' core' size b).
Proof.
  unfold mst_edges. destruct (size =? 0); [exact I|]. destruct (_ =? 0); [exact I|]. apply (rbind Rprim).
  - apply for_up_r; [intros i p p' _ Hp; apply prim_round_r; exact Hp|]. unfold Rprim. cbn. repeat split; auto. apply F2_repeat, Wmax.
  - intros p p' (H1 & H2 & H3 & H4 & H5). cbn zeta. assert (HE : Re (mk_edges (p_nbr p) (p_oth p) (p_dist p)) (mk_edges (p_nbr p') (p_oth p') (p_dist p'))) by (unfold Re; cbn; auto).
    destruct b; [|exact HE]. apply for_up_r; [|exact HE]. intros i e e' _ He. apply self_edge_r. exact He.
Qed.
End MstSim.
Lemma construct_mst_r d d' n b : Rd d d' -> rres Re (construct_mst d n b) (construct_mst d' n b).
Proof. intros H. unfold construct_mst. apply mst_edges_r; [intros i j; apply distance_get_r; exact H|]. intros i. apply zget_r. apply H. Qed.

(** ** The graph and the sort *)
Lemma graph_init_r n e e' : Re e e' -> graph_init n e = graph_init n e'.
Proof. intros (H1 & H2 & _). unfold graph_init, graph_add. rewrite H1, H2. reflexivity. Qed.
Lemma swap_r e e' i j : Re e e' -> rres Re (graph_swap_edges e i j) (graph_swap_edges e' i j).
Proof.
  intros H. pose proof H as (H1 & H2 & H3). unfold graph_swap_edges. destruct (i =? j); [exact H|]. rewrite H1, H2.
  apply (rbind eq); [apply req|]. intros ? ? ->. apply (rbind eq); [apply req|]. intros ? ? ->. apply (rbind W); [apply aget_r; exact H3|]. intros w w' Hw.
  apply (rbind eq); [apply req|]. intros ? ? ->. apply (rbind eq); [apply req|]. intros ? ? ->. apply (rbind eq); [apply req|]. intros ? ? ->. apply (rbind eq); [apply req|]. intros ? ? ->.
  apply (rbind W); [apply aget_r; exact H3|]. intros u u' Hu. apply (rbind (Forall2 W)); [apply aset_r; assumption|]. intros l l' Hl.
  apply (rbind eq); [apply req|]. intros ? ? ->. apply (rbind eq); [apply req|]. intros ? ? ->. apply (rbind (Forall2 W)); [apply aset_r; assumption|]. intros m m' Hm. cbn. unfold Re. cbn. auto.
Qed.
Definition Rel (x x' : edges * nat) : Prop := Re (fst x) (fst x') /\ snd x = snd x'.
Lemma partition_r e e' s t p : Re e e' -> rres Rel (graph_partition e s t p) (graph_partition e' s t p).
Proof.
  intros H. unfold graph_partition. apply (rbind W); [apply aget_r; apply H|]. intros v v' Hv. apply (rbind Re); [apply swap_r; exact H|]. intros e1 e1' H1. apply (rbind Rel).
  - apply for_up_r; [|split; [exact H1|reflexivity]]. intros i [a l] [b l'] _ [Ha El]. cbn [fst snd] in *. subst l'. unfold partition_step.
    apply (rbind W); [apply aget_r; apply Ha|]. intros c c' Hc. rewrite (wlt _ _ _ _ Hc Hv). destruct (flt c' v'); [|split; [exact Ha|reflexivity]].
    apply (rbind Re); [apply swap_r; exact Ha|]. intros x x' Hx. split; [exact Hx|reflexivity].
  - intros [a l] [b l'] [Ha El]. cbn [fst snd] in *. subst l'. apply (rbind Re); [apply swap_r; exact Ha|]. intros x x' Hx. split; [exact Hx|reflexivity].
Qed.
Lemma pivot_r e e' s t : Re e e' -> rres eq (graph_select_pivot_index e s t) (graph_select_pivot_index e' s t).
Proof.
  intros (_ & _ & H). unfold graph_select_pivot_index. destruct (_ <=? 1)%Z; [reflexivity|].
  apply (rbind W); [apply aget_r; exact H|]. intros x x' Hx. apply (rbind W); [apply aget_r; exact H|]. intros y y' Hy. apply (rbind W); [apply aget_r; exact H|]. intros z z' Hz.
  rewrite (wle _ _ _ _ Hx Hy), (wle _ _ _ _ Hy Hz), (wge _ _ _ _ Hz Hx), (wle _ _ _ _ Hx Hz), (wge _ _ _ _ Hz Hy). apply req.
Qed.
Lemma sort_loop_r fuel : forall e e' st top, Re e e' -> rres Re (sort_loop fuel e st top) (sort_loop fuel e' st top).
Proof.
  induction fuel as [|f IH]; intros e e' st top H; cbn [sort_loop]; (destruct top as [|top]; [exact H|]); [exact I|].
  apply (rbind eq); [apply req|]. intros a [s t] ->. apply (rbind eq); [apply pivot_r; exact H|]. intros p ? <-. apply (rbind Rel); [apply partition_r; exact H|].
  intros [a q] [b q'] [Hab E]. cbn [fst snd] in *. subst q'. apply (rbind eq); [apply req|]. intros ? [st1 top1] ->. apply (rbind eq); [apply req|]. intros ? [st2 top2] ->. apply IH. exact Hab.
Qed.
Lemma quicksort_r e e' : Re e e' -> rres Re (graph_quicksort_by_edge_weight e) (graph_quicksort_by_edge_weight e').
Proof.
  intros H. unfold graph_quicksort_by_edge_weight. rewrite <- (F2_len _ _ _ (proj2 (proj2 H))). destruct (_ <=? 1); [exact H|]. apply (rbind eq); [apply req|]. intros ? ? ->. apply sort_loop_r. exact H.
Qed.

(** ** The hierarchy.  [S] relates the stabilities. *)
Variable S : f64 -> f64 -> Prop.
Definition birth_rel (b b' : f64) : Prop := W b b' \/ (b = fnan /\ b' = fnan).
Hypothesis Szero : S fzero fzero.
(** At most [N] points leave a cluster at once. *)
Variable N : nat.
Hypothesis Sgain : forall s s' k w w' b b', k <= N -> S s s' -> W w w' -> birth_rel b b' -> S (fadd s (stability_gain k w b)) (fadd s' (stability_gain k w' b')).

(** Everything equal except levels and stabilities; nothing propagated yet. *)
Inductive Rc : cluster -> cluster -> Prop :=
| rc label birth birth' death death' num off stab stab' pl nc pnc virt par desc kids :
    birth_rel birth birth' -> W death death' -> S stab stab' ->
    Rc (mk_cluster label birth death num off stab fzero pl nc pnc virt par desc kids) (mk_cluster label birth' death' num off stab' fzero pl nc pnc virt par desc kids).
Definition Rcs (cs cs' : clusters) : Prop := Forall2 (orel Rc) cs cs'.

Lemma cget_r cs cs' p : Rcs cs cs' -> rres Rc (cget cs p) (cget cs' p).
Proof.
  intros H. unfold cget. apply (rbind (orel Rc)); [apply aget_r; exact H|]. intros [c|] [c'|] Hc; cbn in *; auto; contradiction.
Qed.
Lemma cset_r cs cs' p c c' : Rcs cs cs' -> Rc c c' -> rres Rcs (cset cs p c) (cset cs' p c').
Proof. intros H Hc. apply aset_r; [exact H|exact Hc]. Qed.
Lemma detach_r c c' k w w' : k <= N -> Rc c c' -> W w w' -> Rc (cluster_detach_points c k w) (cluster_detach_points c' k w').
Proof.
  intros Hk H Hw. destruct H. unfold cluster_detach_points. cbn [c_label c_birth c_death c_num c_offset c_stab c_pstab c_plow c_nc c_pnc c_virtual c_parent c_desc c_kids].
  constructor; [assumption|destruct (_ =? 0)%Z; assumption|apply Sgain; assumption].
Qed.
Lemma virtual_r c c' l : Rc c c' -> Rc (cluster_add_virtual c l) (cluster_add_virtual c' l).
Proof. intros H. destruct H. constructor; assumption. Qed.
Lemma kids_r c c' : Rc c c' -> Rc (set_kids c) (set_kids c').
Proof. intros H. destruct H. constructor; assumption. Qed.
Lemma offset_r c c' o : Rc c c' -> Rc (set_offset c o) (set_offset c' o).
Proof. intros H. destruct H. constructor; assumption. Qed.
Lemma new_r l p b b' k : birth_rel b b' -> Rc (cluster_new l p b k) (cluster_new l p b' k).
Proof. intros H. constructor; assumption. Qed.

Lemma write_labels_len l pts : forall cur cu, write_labels cur pts l = Ok cu -> length cu = length cur /\ (forall v, In v pts -> v < length cur).
Proof.
  induction pts as [|p pts IH]; intros cur cu H; cbn [write_labels] in H; [injection H as <-; split; [reflexivity|intros v []]|].
  unfold aset in H. destruct (p <? length cur) eqn:E; [|discriminate H]. cbn [bind] in H. destruct (IH _ _ H) as [H1 H2]. rewrite upd_length in *. split; [exact H1|]. intros v [<-|Hv]; [lia|auto].
Qed.
Definition Rcl (x y : clusters * list nat * option cluster) : Prop := Rcs (fst (fst x)) (fst (fst y)) /\ snd (fst x) = snd (fst y) /\ length (snd (fst x)) = N /\ orel Rc (snd x) (snd y).
Lemma create_r cs cs' cur pts par l w w' : length cur = N -> ssorted pts -> Rcs cs cs' -> W w w' -> rres Rcl (create_new_cluster cs cur pts par l w) (create_new_cluster cs' cur pts par l w').
Proof.
  intros HN HP H Hw. unfold create_new_cluster. apply rbind_eq. intros cu Ecu. destruct (write_labels_len _ _ _ _ Ecu) as [HN2 HV]. rewrite HN in *. pose proof (ssorted_length pts N HP HV) as Hk. apply (rbind Rc); [apply cget_r; exact H|]. intros c c' Hc. cbn zeta.
  apply (rbind Rcs); [apply cset_r; [exact H|apply detach_r; assumption]|]. intros d d' Hd. destruct (l =? 0).
  - apply (rbind Rc); [apply cget_r; exact Hd|]. intros x x' Hx. apply (rbind Rcs); [apply cset_r; [exact Hd|apply virtual_r; exact Hx]|]. intros y y' Hy. split; [exact Hy|]. split; [reflexivity|]. split; [exact HN2|exact I].
  - apply (rbind (fun x y => Rcs (fst x) (fst y) /\ Rc (snd x) (snd y))).
    + unfold cluster_init. apply (rbind Rc); [apply cget_r; exact Hd|]. intros x x' Hx. apply (rbind Rcs); [apply cset_r; [exact Hd|apply kids_r; exact Hx]|]. intros y y' Hy. split; [exact Hy|]. apply new_r. left. exact Hw.
    + intros [a b] [a' b'] [Ha Hb]. split; [exact Ha|]. split; [reflexivity|]. split; [exact HN2|exact Hb].
Qed.
Definition Rl (s s' : lstate) : Prop :=
  (l_cur s = l_cur s' /\ length (l_cur s') = N) /\ Rcs (l_cs s) (l_cs s') /\ l_next s = l_next s' /\ Forall2 (orel W) (l_noise s) (l_noise s') /\ l_last s = l_last s' /\ l_new s = l_new s'.
Lemma add_cluster_r s s' pts par w w' : ssorted pts -> Rl s s' -> W w w' -> rres Rl (add_cluster s pts par w) (add_cluster s' pts par w').
Proof.
  intros HP ((H1 & HN) & H2 & H3 & H4 & H5 & H6) Hw. unfold add_cluster. rewrite H1, H3. apply (rbind Rcl); [apply create_r; assumption|].
  intros [[cs cur] new] [[cs' cur'] new'] (G1 & G2 & G0 & G3). cbn [fst snd] in *. subst cur'. unfold Rl. cbn. rewrite H6, (F2_len _ _ _ G1). repeat split; auto. apply Forall2_app; [exact G1|]. constructor; auto.
Qed.
Definition Rnl (x y : list (option f64) * list (option nat)) : Prop := Forall2 (orel W) (fst x) (fst y) /\ snd x = snd y.
Lemma write_noise_r pts w w' l : W w w' -> forall no no' la, Forall2 (orel W) no no' -> rres Rnl (write_noise no la pts w l) (write_noise no' la pts w' l).
Proof.
  intros Hw. induction pts as [|p pts IH]; intros no no' la H; cbn [write_noise]; [split; [exact H|reflexivity]|].
  apply (rbind (Forall2 (orel W))); [apply aset_r; [exact H|exact Hw]|]. intros a b Hab. apply (rbind eq); [apply req|]. intros ? ? ->. apply IH. exact Hab.
Qed.
Lemma make_noise_r s s' pts l w w' : ssorted pts -> Rl s s' -> W w w' -> rres Rl (make_noise s pts l w) (make_noise s' pts l w').
Proof.
  intros HP ((H1 & HN) & H2 & H3 & H4 & H5 & H6) Hw. unfold make_noise. rewrite H1, H5. apply (rbind Rcl); [apply create_r; assumption|].
  intros [[cs cur] new] [[cs' cur'] new'] (G1 & G2 & G0 & G3). cbn [fst snd] in *. subst cur'. apply (rbind Rnl); [apply write_noise_r; assumption|]. intros [a b] [a' b'] [Ha Hb]. unfold Rl. cbn in *. auto 10.
Qed.

Definition xsorted (x : expl) : Prop := ssorted (x_con x) /\ ssorted (x_first x).
Lemma explore_nbr_sorted x nb : xsorted x -> xsorted (explore_nbr x nb).
Proof.
  intros [H1 H2]. unfold explore_nbr. destruct (set_insert nb (x_con x)) as [p con] eqn:E. pose proof (proj1 (snd_set_insert nb _ H1)) as Hs. rewrite E in Hs. destruct p; split; cbn; assumption.
Qed.
Lemma fold_sorted nbs : forall x, xsorted x -> xsorted (fold_left explore_nbr nbs x).
Proof. induction nbs as [|v nbs IH]; intros x H; cbn [fold_left]; [exact H|]. apply IH, explore_nbr_sorted, H. Qed.
Lemma explore_sorted minPts adj fuel : forall x x1, xsorted x -> explore minPts adj fuel x = Ok x1 -> xsorted x1.
Proof.
  induction fuel as [|f IH]; intros x x1 H E; cbn [explore] in E; (destruct (x_un x) as [|u0 ur]; [injection E as <-; exact H|]); [discriminate E|].
  destruct (list_pop (u0 :: ur)) as [[v un]| | |]; try discriminate E. cbn [bind] in E. destruct (aget adj v) as [nbs| | |]; try discriminate E. cbn [bind] in E. cbn zeta in E.
  match type of E with context [fold_left explore_nbr nbs ?y] => assert (HS : xsorted (fold_left explore_nbr nbs y)) by (apply fold_sorted; exact H); set (z := fold_left explore_nbr nbs y) in * end. clearbody z.
  destruct (_ && _ && _); [|apply (IH _ _ HS E)]. destruct (x_first z) eqn:Ez.
  - injection E as <-. split; cbn; [apply HS|]. apply set_insert_all_spec. constructor.
  - apply (IH _ x1) in E; [exact E|]. destruct HS as [S1 S2]. rewrite Ez in S2. split; cbn; assumption.
Qed.
Lemma finish_sorted adj fuel : forall first unf r, ssorted first -> finish_first adj fuel first unf = Ok r -> ssorted r.
Proof.
  induction fuel as [|f IH]; intros first unf r H E; cbn [finish_first] in E; (destruct unf as [|u0 ur]; [injection E as <-; exact H|]); [discriminate E|].
  destruct (list_pop (u0 :: ur)) as [[v un]| | |]; try discriminate E. cbn [bind] in E. destruct (aget adj v) as [nbs| | |]; try discriminate E. cbn [bind] in E. cbn zeta in E.
  apply (IH _ _ r) in E; [exact E|]. clear E IH. revert first un H. induction nbs as [|b nbs IH]; intros first un H; cbn [fold_left]; [exact H|]. unfold finish_nbr at 2. cbn [fst snd].
  destruct (set_insert b first) as [p fi] eqn:E. pose proof (proj1 (snd_set_insert b _ H)) as Hs. rewrite E in Hs. apply IH. exact Hs.
Qed.

Definition Rlx {X} (x y : lstate * X) : Prop := Rl (fst x) (fst y) /\ snd x = snd y.
Lemma examine_r minPts adj bound label w w' : W w w' -> forall fuel s s' x, xsorted x -> Rl s s' -> rres (fun a b => Rlx a b /\ xsorted (snd b)) (examine minPts adj bound fuel label w s x) (examine minPts adj bound fuel label w' s' x).
Proof.
  intros Hw. induction fuel as [|f IH]; intros s s' x HX H; cbn [examine]; (destruct (x_exam x) as [|v0 r0]; [split; [split; [exact H|reflexivity]|exact HX]|]); [exact I|].
  apply (rbind eq); [apply req|]. intros ? [root exam] ->. apply rbind_eq. intros x1 Ex1. apply explore_sorted in Ex1; [|split; [apply snd_set_insert, HX|apply HX]]. pose proof Ex1 as [Ec Ef]. apply (rbind Rlx).
  - destruct (_ && _ && _).
    + apply (rbind eq); [apply req|]. intros ? r ->. destruct (set_mem _ _); [split; [exact H|reflexivity]|]. apply (rbind Rl); [apply add_cluster_r; assumption|]. intros a b Hab. split; [exact Hab|reflexivity].
    + destruct (_ || _); [|split; [exact H|reflexivity]]. apply (rbind Rl); [apply make_noise_r; assumption|]. intros a b Hab. split; [exact Hab|reflexivity].
  - intros [a k] [b k'] [Hab E]. cbn [fst snd] in *. subst k'. apply IH; [split; [constructor|exact Ef]|exact Hab].
Qed.
Lemma do_label_r minPts adj bound label w w' s s' av : W w w' -> Rl s s' -> rres Rlx (do_label minPts adj bound label w s av) (do_label minPts adj bound label w' s' av).
Proof.
  intros Hw H. unfold do_label. rewrite (proj1 (proj1 H)). apply (rbind eq); [apply req|]. intros ? [av1 exam] ->. eapply rbind; [apply examine_r; [assumption|split; constructor|assumption]|].
  intros [a x] [b x'] [[Hab E] [_ HF]]. cbn [fst snd] in *. subst x'. apply (rbind Rl).
  - destruct (2 <=? x_nch x); [|exact Hab]. destruct (x_first x) as [|dd r]; [exact I|]. rewrite (proj1 (proj1 Hab)). apply (rbind eq); [apply req|]. intros ? c ->. destruct (c =? label); [|exact Hab].
    apply rbind_eq. intros fi Efi. apply finish_sorted in Efi; [|exact HF]. apply add_cluster_r; assumption.
  - intros p q Hpq. split; [exact Hpq|reflexivity].
Qed.
Lemma do_labels_r minPts adj bound w w' : W w w' -> forall count s s' al av, Rl s s' -> rres Rlx (do_labels minPts adj bound w s al av count) (do_labels minPts adj bound w' s' al av count).
Proof.
  intros Hw. induction count as [|c IH]; intros s s' al av H; cbn [do_labels]; (destruct al as [|a0 al]; [split; [exact H|reflexivity]|]); [exact I|].
  apply (rbind eq); [apply req|]. intros ? [label al1] ->. apply (rbind Rlx); [apply do_label_r; assumption|]. intros [a x] [b x'] [Hab E]. cbn [fst snd] in *. subst x'. apply IH. exact Hab.
Qed.
Lemma remove_ties_r e e' w w' cur : Re e e' -> W w w' -> forall k adj av al, rres eq (remove_ties e w cur k adj av al) (remove_ties e' w' cur k adj av al).
Proof.
  intros (H1 & H2 & H3) Hw. induction k as [|k IH]; intros adj av al; cbn [remove_ties]; [reflexivity|].
  apply (rbind W); [apply aget_r; exact H3|]. intros t t' Ht. rewrite (weq _ _ _ _ Ht Hw). destruct (feq t' w'); [|reflexivity]. rewrite H1, H2.
  apply (rbind eq); [apply req|]. intros ? a ->. apply (rbind eq); [apply req|]. intros ? b ->. apply (rbind eq); [apply req|]. intros ? g ->. apply (rbind eq); [apply req|]. intros ? c ->.
  destruct (c =? 0); apply IH.
Qed.
Lemma offsets_r new line : forall cs cs', Rcs cs cs' -> rres Rcs (write_offsets cs new line) (write_offsets cs' new line).
Proof.
  induction new as [|p new IH]; intros cs cs' H; cbn [write_offsets]; [exact H|]. apply (rbind Rc); [apply cget_r; exact H|]. intros c c' Hc.
  apply (rbind Rcs); [apply cset_r; [exact H|apply offset_r; exact Hc]|]. intros a b Hab. apply IH. exact Hab.
Qed.
Definition Rent (x y : nat * (f64 * list nat)) : Prop := fst x = fst y /\ W (fst (snd x)) (fst (snd y)) /\ snd (snd x) = snd (snd y).
Lemma hput_r h h' k w w' ls : Forall2 Rent h h' -> W w w' -> Forall2 Rent (hput h k (w, ls)) (hput h' k (w', ls)).
Proof.
  intros H Hw. unfold hput. constructor; [unfold Rent; cbn; auto|]. induction H as [|x y l l' Hxy H IH]; cbn [filter]; [constructor|].
  rewrite (proj1 Hxy). destruct (negb _); [constructor; assumption|exact IH].
Qed.
Definition Rh (h h' : hstate) : Prop :=
  h_adj h = h_adj h' /\ Rl (h_l h) (h_l h') /\ h_prev h = h_prev h' /\ h_line h = h_line h' /\ Forall2 Rent (h_hier h) (h_hier h') /\ h_sig h = h_sig h' /\ h_av h = h_av h' /\ h_al h = h_al h'.
Lemma hier_level_r e e' minPts n compact k h h' : Re e e' -> Rh h h' ->
  rres (fun x y => fst x = fst y /\ Rh (snd x) (snd y)) (hier_level e minPts n compact k h) (hier_level e' minPts n compact k h').
Proof.
  intros He (H1 & H2 & H3 & H4 & H5 & H6 & H7 & H8). unfold hier_level. apply (rbind W); [apply aget_r; apply He|]. intros w w' Hw. cbn zeta.
  rewrite (proj1 (proj1 H2)), H1, H7, H8. apply (rbind eq); [apply remove_ties_r; assumption|]. intros ? [[[adj av] al] k'] ->. destruct al as [|a0 al].
  - split; [reflexivity|]. unfold Rh. cbn. auto 10.
  - apply (rbind Rlx); [apply do_labels_r; assumption|]. intros [l a1] [l' a2] [Hl E]. cbn [fst snd] in *. subst a2. pose proof Hl as ((L1 & L0) & L2 & L3 & L4 & L5 & L6).
    rewrite H3, H4, H6, L6. set (rec := _ || _). apply (rbind Rcs); [apply offsets_r; exact L2|]. intros cs cs' Hcs. split; [reflexivity|].
    unfold Rh, Rl. cbn. rewrite L1. split; [reflexivity|]. split; [auto 10|]. split; [reflexivity|]. split; [reflexivity|]. split; [|auto]. destruct rec; [apply hput_r; assumption|exact H5].
Qed.
Lemma hier_loop_r e e' minPts n compact : Re e e' -> forall fuel k h h', Rh h h' -> rres Rh (hier_loop fuel e minPts n compact k h) (hier_loop fuel e' minPts n compact k h').
Proof.
  intros He. induction fuel as [|f IH]; intros k h h' H; cbn [hier_loop]; (destruct k as [|k]; [exact H|]); [exact I|].
  eapply rbind; [apply hier_level_r; [exact He|exact H]|]. intros [a x] [b y] [E Hxy]. cbn [fst snd] in *. subst b. apply IH. exact Hxy.
Qed.
Lemma hierarchy_r fuel e e' adj minPts compact : Re e e' -> rres Rh (compute_hierarchy fuel e N adj minPts compact) (compute_hierarchy fuel e' N adj minPts compact).
Proof.
  intros He. unfold compute_hierarchy. rewrite <- (F2_len _ _ _ (proj2 (proj2 He))). apply (rbind Rh).
  - apply hier_loop_r; [exact He|]. unfold hier_start, Rh, Rl. cbn. repeat split; auto; [apply repeat_length| |apply F2_repeat; exact I]. constructor; [exact I|]. constructor; [|constructor]. apply new_r. right. auto.
  - intros h h' (H1 & H2 & H3 & H4 & H5 & H6 & H7 & H8). unfold hier_finish, Rh. cbn. rewrite H4. repeat split; auto; [apply H2..|]. apply hput_r; assumption.
Qed.
End Sim.
