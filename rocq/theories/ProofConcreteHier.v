(** Every step of the hierarchy on the real containers (ModelConcrete.v) follows the step on
    sequences (ModelHier.v). *)
From Coq Require Import Sorted.
From Verif Require Import Base F64 F64Facts ListFacts ModelArrayList ProofArrayList ModelUtils ModelMst ModelGraph ModelConcrete ProofConcrete.
From Verif Require ProofSets.
From Verif Require Import ProofConcreteTable ModelCluster ModelHier.
From Coq Require Import ZifyBool ZifyNat.
Local Open Scope nat_scope.

Ltac step H x E := match type of H with bind ?m _ = Ok _ => destruct m as [x| | |] eqn:E; cbn [bind] in H; try discriminate H end.

(** ** Arrays of related elements *)
Lemma Forall2_length {A B} (R : A -> B -> Prop) l k : Forall2 R l k -> length l = length k.
Proof. induction 1; cbn; auto. Qed.
Lemma rel_aget {A B} (R : A -> B -> Prop) ks cs i c : Forall2 R ks cs -> aget cs i = Ok c -> exists k, aget ks i = Ok k /\ R k c.
Proof.
  intros H E. apply aget_inv in E. revert i E. induction H as [|k c0 ks cs HR H IH]; intros [|i] E; try discriminate.
  - injection E as ->. exists k. split; [reflexivity|exact HR].
  - destruct (IH i E) as (k' & E' & HR'). exists k'. split; [exact E'|exact HR'].
Qed.
Lemma rel_aset {A B} (R : A -> B -> Prop) ks cs i c cs' k : Forall2 R ks cs -> aset cs i c = Ok cs' -> R k c ->
  exists ks', aset ks i k = Ok ks' /\ Forall2 R ks' cs'.
Proof.
  intros H E HR. apply aset_inv in E. destruct E as [Hi ->]. pose proof (Forall2_length R _ _ H) as HL. exists (upd ks i k). split; [apply aset_ok; lia|].
  clear HL Hi. revert i. induction H as [|k0 c0 ks cs HR0 H IH]; intros [|i]; cbn [upd]; constructor; auto.
Qed.

(** ** Clusters *)
Definition erase (c : cluster) : cluster :=
  mk_cluster (c_label c) (c_birth c) (c_death c) (c_num c) (c_offset c) (c_stab c) (c_pstab c) (c_plow c)
    (c_nc c) (c_pnc c) [] (c_parent c) [] (c_kids c).
Definition obj_rel (o : object) (c : cluster) : Prop := o_cl o = erase c /\ svec (o_virt o) (c_virtual c) /\ rep (o_desc o) (c_desc c).
Definition oo_rel (o : option object) (c : option cluster) : Prop :=
  match o, c with Some o, Some c => obj_rel o c | None, None => True | _, _ => False end.
Definition cs_rel (ks : objects) (cs : clusters) : Prop := Forall2 oo_rel ks cs.

Lemma cget_nth cs p c : cget cs p = Ok c <-> nth_error cs p = Some (Some c).
Proof.
  unfold cget, aget. destruct (nth_error cs p) as [[x|]|]; cbn [bind]; split; intros H; congruence.
Qed.
Lemma oget_sim ks cs p c : cs_rel ks cs -> cget cs p = Ok c -> exists o, oget ks p = Ok o /\ obj_rel o c.
Proof.
  intros H E. unfold cget in E. step E oc Eo. destruct oc as [c'|]; [|discriminate]. injection E as ->.
  destruct (rel_aget oo_rel ks cs p _ H Eo) as ([o|] & E' & HR); [|contradiction]. exists o. unfold oget. rewrite E'. split; [reflexivity|exact HR].
Qed.
Lemma oset_sim ks cs p c cs' o : cs_rel ks cs -> cset cs p c = Ok cs' -> obj_rel o c -> exists ks', oset ks p o = Ok ks' /\ cs_rel ks' cs'.
Proof. intros H E HR. apply (rel_aset oo_rel ks cs p (Some c) cs' (Some o) H E HR). Qed.

(** The list of pointers. *)
Fixpoint ptrs_from (i : nat) (cs : clusters) : list (option nat) :=
  match cs with
  | [] => []
  | None :: r => None :: ptrs_from (S i) r
  | Some _ :: r => Some i :: ptrs_from (S i) r
  end.
Lemma ptrs_length cs : forall i, length (ptrs_from i cs) = length cs.
Proof. induction cs as [|[c|] cs IH]; intros i; cbn; auto. Qed.
Lemma ptrs_snoc cs c : forall i, ptrs_from i (cs ++ [Some c]) = ptrs_from i cs ++ [Some (i + length cs)].
Proof.
  induction cs as [|[d|] cs IH]; intros i; cbn [app ptrs_from length]; [rewrite Nat.add_0_r; reflexivity| |]; rewrite IH, <- plus_n_Sm; reflexivity.
Qed.
Lemma ptrs_nth cs p c : nth_error cs p = Some (Some c) -> forall i, nth_error (ptrs_from i cs) p = Some (Some (i + p)).
Proof.
  revert p. induction cs as [|d cs IH]; intros [|p] H i; try discriminate.
  - injection H as ->. cbn. rewrite Nat.add_0_r. reflexivity.
  - cbn in H. specialize (IH p H (S i)). rewrite <- plus_n_Sm. destruct d; cbn; exact IH.
Qed.
Lemma ptrs_cset cs p c c' cs' : nth_error cs p = Some (Some c) -> cset cs p c' = Ok cs' -> forall i, ptrs_from i cs' = ptrs_from i cs.
Proof.
  intros H E. apply aset_inv in E. destruct E as [_ ->]. revert p H. induction cs as [|d cs IH]; intros [|p] H i; try discriminate.
  - injection H as ->. reflexivity.
  - cbn in H. destruct d; cbn [upd ptrs_from]; rewrite (IH p H); reflexivity.
Qed.
Lemma cset_length cs p c cs' : cset cs p c = Ok cs' -> length cs' = length cs.
Proof. intros E. apply aset_inv in E. destruct E as [_ ->]. apply upd_length. Qed.

Lemma object_new_sim label parent w k : exists o, object_new label parent w k = Ok o /\ obj_rel o (cluster_new label parent w k).
Proof.
  unfold object_new. destruct (set_init (A := nat)) as [v| | |] eqn:E; try discriminate E. cbn [bind].
  destruct (array_list_init (A := nat) 1) as [d| | |] eqn:E1; try discriminate E1. cbn [bind]. eexists. split; [reflexivity|].
  apply rep_init in E. apply rep_init in E1. split; [reflexivity|]. split; [apply sv_nil; apply E|apply E1].
Qed.

Lemma write_labels_rfold l label : forall cur, write_labels cur l label = rfold (fun d cur => aset cur d label) l cur.
Proof. induction l as [|x l IH]; intros cur; [reflexivity|]. cbn [write_labels rfold]. destruct (aset cur x label); cbn [bind]; auto. Qed.
Lemma Forall_upd {A} (P : A -> Prop) l i x : Forall P l -> P x -> Forall P (upd l i x).
Proof. intros H Hx. revert i. induction H as [|y l Hy H IH]; intros [|i]; cbn [upd]; constructor; auto. Qed.
Lemma write_labels_forall (P : nat -> Prop) l label : P label -> forall cur cur', Forall P cur -> write_labels cur l label = Ok cur' -> Forall P cur' /\ length cur' = length cur.
Proof.
  intros HP. induction l as [|x l IH]; intros cur cur' H E; cbn [write_labels] in E; [injection E as <-; auto|].
  step E c1 E1. apply aset_inv in E1. destruct E1 as [_ ->]. destruct (IH (upd cur x label) cur' (Forall_upd P cur x label H HP) E) as [I1 I2]. rewrite upd_length in I2. auto.
Qed.

Lemma create_sim ks cs cur pts l parent label w cs' cur' new : cs_rel ks cs -> lvec pts l ->
  create_new_cluster cs cur l parent label w = Ok (cs', cur', new) ->
  exists ks' knew, c_create_new_cluster ks cur pts parent label w = Ok (ks', cur', knew) /\ cs_rel ks' cs' /\ oo_rel knew new
    /\ ptrs_from 0 cs' = ptrs_from 0 cs /\ length cs' = length cs /\ (label <> 0 -> exists c, new = Some c)
    /\ length cur' = length cur /\ (forall P : nat -> Prop, Forall P cur -> P label -> Forall P cur')
    /\ exists c, nth_error cs parent = Some (Some c).
Proof.
  intros HC HP E. unfold create_new_cluster in E. unfold c_create_new_cluster. pose proof HP as [R F].
  rewrite (each_rfold _ pts l cur R), <- write_labels_rfold. step E cur1 E1. cbn [bind].
  step E c E2. destruct (oget_sim ks cs parent c HC E2) as (o & O1 & HO). rewrite O1. cbn [bind].
  step E cs1 E3. rewrite (lv_size pts l HP).
  assert (HO1 : obj_rel (with_cl o (cluster_detach_points (o_cl o) (length l) w)) (cluster_detach_points c (length l) w)).
  { destruct HO as (H1 & H2 & H3). split; [|split; [exact H2|exact H3]]. cbn [with_cl o_cl]. rewrite H1. reflexivity. }
  destruct (oset_sim ks cs parent _ cs1 _ HC E3 HO1) as (ks1 & O3 & HC1). rewrite O3. cbn [bind].
  pose proof (proj1 (cget_nth cs parent c) E2) as N2.
  pose proof (ptrs_cset _ _ _ _ _ N2 E3 0) as P1. pose proof (cset_length _ _ _ _ E3) as L1.
  assert (HF : forall P : nat -> Prop, Forall P cur -> P label -> Forall P cur1) by (intros P HFa HPl; apply (write_labels_forall P l label HPl cur cur1 HFa E1)).
  assert (HLc : length cur1 = length cur) by (apply (write_labels_forall (fun _ => True) l label I cur cur1); [apply Forall_forall; auto|exact E1]).
  destruct (Nat.eqb_spec label 0) as [->|Hl].
  - step E c1 E4. destruct (oget_sim ks1 cs1 parent c1 HC1 E4) as (o1 & O4 & HO4). rewrite O4. cbn [bind]. step E cs2 E5.
    destruct HO4 as (A1 & A2 & A3). destruct (sv_insert_all _ _ pts l A2 HP) as (virt & V1 & V2). rewrite V1. cbn [bind].
    assert (HO2 : obj_rel (mk_obj (o_cl o1) virt (o_desc o1)) (cluster_add_virtual c1 l)).
    { split; [|split; [exact V2|exact A3]]. cbn [o_cl]. rewrite A1. reflexivity. }
    destruct (oset_sim ks1 cs1 parent _ cs2 _ HC1 E5 HO2) as (ks2 & O5 & HC2). rewrite O5. cbn [bind]. injection E as <- <- <-.
    exists ks2, None. split; [reflexivity|]. split; [exact HC2|]. split; [exact I|].
    pose proof (proj1 (cget_nth cs1 parent c1) E4) as N4.
    rewrite (ptrs_cset _ _ _ _ _ N4 E5), (cset_length _ _ _ _ E5). split; [exact P1|]. split; [exact L1|]. split; [congruence|]. split; [exact HLc|]. split; [exact HF|]. exists c. exact N2.
  - step E r E4. destruct r as [cs2 n2]. injection E as <- <- <-. unfold cluster_init in E4. step E4 c1 E5. step E4 cs3 E6. injection E4 as <- <-.
    destruct (oget_sim ks1 cs1 parent c1 HC1 E5) as (o1 & O4 & HO4). rewrite O4. cbn [bind].
    assert (HO2 : obj_rel (with_cl o1 (set_kids (o_cl o1))) (set_kids c1)).
    { destruct HO4 as (H1 & H2 & H3). split; [|split; [exact H2|exact H3]]. cbn [with_cl o_cl]. rewrite H1. reflexivity. }
    destruct (oset_sim ks1 cs1 parent _ cs3 _ HC1 E6 HO2) as (ks2 & O5 & HC2). rewrite O5. cbn [bind].
    destruct (object_new_sim label (Some parent) w (length l)) as (on & N1 & N3). rewrite N1. cbn [bind].
    exists ks2, (Some on). split; [reflexivity|]. split; [exact HC2|]. split; [exact N3|].
    pose proof (proj1 (cget_nth cs1 parent c1) E5) as N4.
    rewrite (ptrs_cset _ _ _ _ _ N4 E6), (cset_length _ _ _ _ E6). split; [exact P1|]. split; [exact L1|]. split; [eauto|]. split; [exact HLc|]. split; [exact HF|]. exists c. exact N2.
Qed.

(** ** The state of a level *)
Record st_rel (k : cstate) (s : lstate) : Prop := mk_st_rel {
  sr_cur : k_cur k = l_cur s; sr_cs : cs_rel (k_cs k) (l_cs s); sr_ptrs : rep (k_ptrs k) (ptrs_from 0 (l_cs s));
  sr_next : k_next k = l_next s; sr_noise : k_noise k = l_noise s; sr_last : k_last k = l_last s; sr_new : rep (k_new k) (l_new s);
  sr_pos : 0 < l_next s; sr_lab : Forall (fun c => c < l_next s) (l_cur s) }.

Lemma cluster_at_sim k s label c : st_rel k s -> nth_error (l_cs s) label = Some (Some c) -> cluster_at k label = Ok label.
Proof.
  intros H E. unfold cluster_at. rewrite (slot_rep _ _ label (Some label) (sr_ptrs k s H)); [reflexivity|]. apply (ptrs_nth _ _ c E 0).
Qed.
Lemma add_cluster_sim k s pts l label w s' : st_rel k s -> lvec pts l -> add_cluster s l label w = Ok s' ->
  exists k', c_add_cluster k pts label w = Ok k' /\ st_rel k' s' /\ l_next s <= l_next s' /\ length (l_cur s') = length (l_cur s).
Proof.
  intros H HP E. unfold add_cluster in E. step E r E1. destruct r as [[cs cur] new]. injection E as <-.
  destruct (create_sim _ _ _ _ _ _ _ _ _ _ _ (sr_cs k s H) HP E1) as (ks' & knew & C1 & C2 & C3 & C4 & C5 & C6 & C7 & C8 & (c0 & C9)).
  unfold c_add_cluster. rewrite (cluster_at_sim k s label c0 H C9). cbn [bind]. rewrite (sr_cur k s H), (sr_next k s H), C1. cbn [bind].
  destruct (C6 ltac:(pose proof (sr_pos k s H); lia)) as (c & ->). destruct knew as [o|]; [|contradiction]. cbn [got bind].
  destruct (append_ok _ _ (length ks') (sr_new k s H)) as (vn & A1 & A2). rewrite A1. cbn [bind fst].
  destruct (append_ok _ _ (Some (length ks')) (sr_ptrs k s H)) as (vp & B1 & B2). rewrite B1. cbn [bind fst].
  eexists. split; [reflexivity|]. cbn [l_next l_cur]. split; [|split; [lia|exact C7]].
  pose proof (Forall2_length _ _ _ C2) as HL. rewrite HL in A2, B2. constructor; cbn [k_cur k_cs k_ptrs k_next k_noise k_last k_new l_cur l_cs l_next l_noise l_last l_new].
  - reflexivity.
  - apply Forall2_app; [exact C2|]. constructor; [exact C3|constructor].
  - rewrite ptrs_snoc, C4. exact B2.
  - reflexivity.
  - exact (sr_noise k s H).
  - exact (sr_last k s H).
  - exact A2.
  - lia.
  - apply C8; [|lia]. eapply Forall_impl; [|exact (sr_lab k s H)]. cbn. lia.
Qed.
Lemma write_noise_rfold l w label : forall noise last, write_noise noise last l w label =
  rfold (fun p nl => let! noise := aset (fst nl) p (Some w) in let! last := aset (snd nl) p (Some label) in Ok (noise, last)) l (noise, last).
Proof.
  induction l as [|x l IH]; intros noise last; [reflexivity|]. cbn [write_noise rfold fst snd].
  destruct (aset noise x (Some w)); cbn [bind]; try reflexivity. destruct (aset last x (Some label)); cbn [bind]; try reflexivity. apply IH.
Qed.
Lemma make_noise_sim k s pts l label w s' : st_rel k s -> lvec pts l -> make_noise s l label w = Ok s' ->
  exists k', c_make_noise k pts label w = Ok k' /\ st_rel k' s' /\ l_next s <= l_next s' /\ length (l_cur s') = length (l_cur s).
Proof.
  intros H HP E. unfold make_noise in E. step E r E1. destruct r as [[cs cur] new]. step E nl E2. injection E as <-.
  destruct (create_sim _ _ _ _ _ _ _ _ _ _ _ (sr_cs k s H) HP E1) as (ks' & knew & C1 & C2 & C3 & C4 & C5 & C6 & C7 & C8 & (c0 & C9)).
  unfold c_make_noise. rewrite (cluster_at_sim k s label c0 H C9). cbn [bind]. rewrite (sr_cur k s H), C1. cbn [bind].
  rewrite (each_rfold _ pts l _ (proj1 HP)), (sr_noise k s H), (sr_last k s H). rewrite write_noise_rfold in E2. rewrite E2. cbn [bind].
  eexists. split; [reflexivity|]. cbn [l_next l_cur]. split; [|split; [lia|exact C7]].
  constructor; cbn [k_cur k_cs k_ptrs k_next k_noise k_last k_new l_cur l_cs l_next l_noise l_last l_new]; try reflexivity.
  - exact C2.
  - rewrite C4. exact (sr_ptrs k s H).
  - exact (sr_next k s H).
  - exact (sr_new k s H).
  - exact (sr_pos k s H).
  - apply C8; [exact (sr_lab k s H)|exact (sr_pos k s H)].
Qed.

(** ** Exploration *)
Record x_rel (y : cexpl) (x : expl) : Prop := mk_x_rel {
  xr_con : svec (y_con y) (x_con x); xr_un : lvec (y_un y) (x_un x); xr_exam : svec (y_exam y) (x_exam x);
  xr_nch : y_nch y = x_nch x; xr_first : svec (y_first y) (x_first x); xr_unf : svec (y_unf y) (x_unf x) }.
Definition xx_rel (y : cexpl) (x : expl) : Prop := x_rel y x /\ y_any y = x_any x /\ y_inc y = x_inc x.
Definition adj_rel (ka : list vec) (a : list (list nat)) : Prop := Forall2 lvec ka a.

Lemma explore_nbr_sim nb y x : xx_rel y x -> small nb -> exists y', c_explore_nbr nb y = Ok y' /\ xx_rel y' (explore_nbr x nb).
Proof.
  intros ([H1 H2 H3 H4 H5 H6] & H7 & H8) Hs. unfold c_explore_nbr, explore_nbr.
  destruct (sv_insert _ _ nb H1 Hs) as (v & E & Hv). rewrite E. cbn [bind fst snd].
  destruct (set_insert nb (x_con x)) as [p con] eqn:Ep. cbn [fst snd] in *. destruct p; cbn [Z.eqb].
  - destruct (lv_append _ _ nb H2 Hs) as (u & Eu & Hu). rewrite Eu. cbn [bind fst].
    destruct (sv_remove _ _ nb H3 Hs) as (e & o & Ee & He). rewrite Ee. cbn [bind fst].
    eexists. split; [reflexivity|]. split; [constructor; assumption|]. split; [reflexivity|exact H8].
  - eexists. split; [reflexivity|]. split; [constructor; assumption|]. split; [reflexivity|exact H8].
Qed.

Lemma pos_match {A B} (l : list A) (a b : B) : match l with [] => a | _ :: _ => b end = if 0 <? length l then b else a.
Proof. destruct l; reflexivity. Qed.

Lemma explore_sim minPts ka a : adj_rel ka a -> forall fuel y x x', xx_rel y x -> explore minPts a fuel x = Ok x' ->
  exists y', c_explore minPts ka fuel y = Ok y' /\ xx_rel y' x'.
Proof.
  intros HA. induction fuel as [|f IH]; intros y x x' H E; cbn [explore c_explore] in *; rewrite (lv_size _ _ (xr_un y x (proj1 H))); rewrite pos_match in E; destruct (0 <? length (x_un x)) eqn:E0.
  - discriminate.
  - injection E as <-. eauto.
  - step E r E1. destruct r as [v un]. step E nbs E2.
    destruct H as ([H1 H2 H3 H4 H5 H6] & H7 & H8).
    destruct (lv_pop _ _ v un H2 E1) as (u & U1 & U2 & U3). rewrite U1. cbn [bind fst snd got].
    destruct (rel_aget lvec ka a v nbs HA E2) as (kl & K1 & K2). rewrite K1. cbn [bind].
    rewrite (each_rfold _ kl nbs _ (proj1 K2)).
    destruct (rfold_sim xx_rel c_explore_nbr explore_nbr nbs) with (st := mk_cx (y_con y) u (y_exam y) (y_any y) (y_inc y) (y_nch y) (y_first y) (y_unf y))
      (t := mk_x (x_con x) un (x_exam x) (x_any x) (x_inc x) (x_nch x) (x_first x) (x_unf x)) as (y1 & Y1 & Y2).
    { intros nb st t Hnb Hst. apply explore_nbr_sim; [exact Hst|]. destruct K2 as [_ F]. rewrite Forall_forall in F. apply F. exact Hnb. }
    { split; [constructor; assumption|]. split; assumption. }
    rewrite Y1. cbn [bind]. set (x1 := fold_left explore_nbr nbs _) in *. clearbody x1. clear H1 H2 H3 H4 H5 H6 H7 H8 Y1 U1 U2 U3 K1 K2 E1 E2.
    destruct Y2 as (HX & H7 & H8). pose proof HX as [H1 H2 H3 H4 H5 H6]. rewrite (sv_size _ _ H1), H7, H8.
    destruct (negb (x_inc x1) && (minPts <=? length (x_con x1)) && x_any x1) eqn:Ec.
    + cbn [y_first y_con y_un y_unf y_exam y_any y_inc y_nch]. rewrite (sv_size _ _ H5). destruct (x_first x1) as [|f1 fr] eqn:Ef; cbn [length Nat.eqb].
      * destruct (sv_insert_all _ _ _ _ H5 (proj1 H1)) as (vf & F1 & F2). rewrite F1. cbn [bind].
        destruct (sv_insert_all _ _ _ _ H6 H2) as (vu & W1 & W2). rewrite W1. cbn [bind].
        eexists. split; [reflexivity|]. injection E as <-. split; [constructor; cbn; try assumption; rewrite H4; reflexivity|]. split; [reflexivity|reflexivity].
      * apply (IH _ _ _) with (2 := E). split; [constructor; cbn; try assumption; rewrite H4; reflexivity|]. split; [reflexivity|reflexivity].
    + apply (IH _ _ _) with (2 := E). split; [exact HX|]. auto.
  - injection E as <-. eauto.
Qed.

Lemma rep_last (v : vec) l x r : rep v l -> list_pop l = Ok (x, r) -> al_size v <> 0 /\ slot (al_data v) (al_size v - 1) = Ok x.
Proof.
  intros R E. destruct (ProofSets.list_pop_ok l) as (x' & r' & E' & El).
  { intros ->. discriminate E. }
  rewrite E in E'. injection E' as <- <-. pose proof R as (Hs & _). rewrite El, app_length in Hs. cbn [length] in Hs. split; [lia|].
  apply (slot_rep v l _ x R). rewrite El, nth_error_app2 by lia. replace (al_size v - 1 - length r) with 0 by lia. reflexivity.
Qed.

Definition st_le (s s' : lstate) : Prop := l_next s <= l_next s' /\ length (l_cur s') = length (l_cur s).
Lemma st_le_refl s : st_le s s. Proof. split; auto. Qed.
Lemma st_le_trans s1 s2 s3 : st_le s1 s2 -> st_le s2 s3 -> st_le s1 s3.
Proof. intros [H1 H2] [H3 H4]. split; [lia|congruence]. Qed.

Lemma examine_sim minPts ka a bound label w : adj_rel ka a -> forall fuel k s y x s' x', st_rel k s -> x_rel y x -> x_con x = [] -> x_un x = [] ->
  examine minPts a bound fuel label w s x = Ok (s', x') ->
  exists k' y', c_examine minPts ka bound fuel label w k y = Ok (k', y') /\ st_rel k' s' /\ x_rel y' x' /\ x_con x' = [] /\ x_un x' = [] /\ st_le s s'.
Proof.
  intros HA. induction fuel as [|f IH]; intros k s y x s' x' HS HX Hc0 Hu0 E; cbn [examine c_examine] in *;
    rewrite (sv_size _ _ (xr_exam y x HX)); rewrite pos_match in E; destruct (0 <? length (x_exam x)) eqn:E0.
  - discriminate.
  - injection E as <- <-. exists k, y. split; [reflexivity|]. split; [exact HS|]. split; [exact HX|]. split; [exact Hc0|]. split; [exact Hu0|apply st_le_refl].
  - step E r E1. destruct r as [root exam]. step E x1 E2. step E r E3. destruct r as [s1 nch].
    destruct HX as [H1 H2 H3 H4 H5 H6]. rewrite <- (sv_size _ _ H3).
    destruct (sv_pop _ _ root exam H3 E1) as (v & V1 & V2 & V3). rewrite V1. cbn [bind fst snd got].
    destruct (sv_insert _ _ root H1 V3) as (vc & C1 & C2). rewrite C1. cbn [bind fst].
    destruct (lv_append _ _ root H2 V3) as (vu & U1 & U2). rewrite U1. cbn [bind fst].
    match type of E2 with explore _ _ _ ?x0 = _ => assert (HX0 : xx_rel (mk_cx vc vu v false false (y_nch y) (y_first y) (y_unf y)) x0) end.
    { split; [constructor; cbn; assumption|]. split; reflexivity. }
    destruct (explore_sim minPts ka a HA bound _ _ x1 HX0 E2) as (y1 & Y1 & Y2 & Y3 & Y4).
    rewrite Y1. cbn [bind]. destruct Y2 as [G1 G2 G3 G4 G5 G6]. rewrite G4, (sv_size _ _ G1), Y3.
    assert (HB : exists k1, (if (2 <=? x_nch x1) && (minPts <=? length (x_con x1)) && x_any x1 then
             let! m := (if al_size (y_first y1) =? 0 then UB else slot (al_data (y_first y1)) (al_size (y_first y1) - 1)) in
             let! p := set_find vcmp (y_con y1) m in
             if (-1 <? p)%Z then Ok (k, x_nch x1 - 1)
             else let! s := c_add_cluster k (y_con y1) label w in Ok (s, x_nch x1)
           else if (length (x_con x1) <? minPts) || negb (x_any x1) then
             let! s := c_make_noise k (y_con y1) label w in Ok (s, x_nch x1)
           else Ok (k, x_nch x1)) = Ok (k1, nch) /\ st_rel k1 s1 /\ st_le s s1).
    { destruct ((2 <=? x_nch x1) && (minPts <=? length (x_con x1)) && x_any x1).
      - step E3 r Er. destruct r as [m fr]. cbn [fst] in E3. destruct (rep_last _ _ m fr (proj1 (proj1 G5)) Er) as [N0 N1].
        destruct (Nat.eqb_spec (al_size (y_first y1)) 0); [contradiction|]. rewrite N1. cbn [bind].
        destruct (sv_pop _ _ m fr G5 Er) as (_ & _ & _ & Hm). destruct (sv_find _ _ m G1 Hm) as (z & Z1 & Z2). rewrite Z1. cbn [bind]. rewrite Z2.
        destruct (set_mem m (x_con x1)).
        + injection E3 as <- <-. exists k. split; [reflexivity|]. split; [exact HS|apply st_le_refl].
        + step E3 s2 Es. injection E3 as <- <-. destruct (add_cluster_sim k s _ _ label w s2 HS (proj1 G1) Es) as (k2 & K1 & K2 & K3). rewrite K1. cbn [bind]. eauto.
      - destruct ((length (x_con x1) <? minPts) || negb (x_any x1)).
        + step E3 s2 Es. injection E3 as <- <-. destruct (make_noise_sim k s _ _ label w s2 HS (proj1 G1) Es) as (k2 & K1 & K2 & K3). rewrite K1. cbn [bind]. eauto.
        + injection E3 as <- <-. exists k. split; [reflexivity|]. split; [exact HS|apply st_le_refl]. }
    destruct HB as (k1 & B1 & B2 & B3). rewrite B1. cbn [bind].
    match type of E with examine _ _ _ _ _ _ _ ?x0 = _ =>
      assert (HX1 : x_rel (mk_cx (reset (y_con y1)) (array_list_clear (y_un y1) false) (y_exam y1) (x_any x1) (y_inc y1) nch (y_first y1) (y_unf y1)) x0) end.
    { constructor; cbn; try assumption; try reflexivity.
      - apply sv_nil. apply (rep_reset _ _ (proj1 (proj1 G1))).
      - apply lv_nil. apply (rep_reset _ _ (proj1 G2)). }
    destruct (IH k1 s1 _ _ s' x' B2 HX1 eq_refl eq_refl E) as (k' & y' & R1 & R2 & R3 & R4 & R5 & R6).
    exists k', y'. split; [exact R1|]. split; [exact R2|]. split; [exact R3|]. split; [exact R4|]. split; [exact R5|]. apply st_le_trans with s1; assumption.
  - injection E as <- <-. exists k, y. split; [reflexivity|]. split; [exact HS|]. split; [exact HX|]. split; [exact Hc0|]. split; [exact Hu0|apply st_le_refl].
Qed.

Lemma finish_sim ka a : adj_rel ka a -> forall fuel vf vu first unf first', svec vf first -> svec vu unf -> finish_first a fuel first unf = Ok first' ->
  exists vf' vu', c_finish_first ka fuel vf vu = Ok (vf', vu') /\ svec vf' first' /\ svec vu' [].
Proof.
  intros HA. induction fuel as [|f IH]; intros vf vu first unf first' Hf Hu E; cbn [finish_first c_finish_first] in *; rewrite (sv_size _ _ Hu); rewrite pos_match in E; destruct (0 <? length unf) eqn:E0.
  - discriminate.
  - injection E as <-. exists vf, vu. destruct unf; [auto|discriminate].
  - step E r E1. destruct r as [v unf']. step E nbs E2. rewrite <- (sv_size _ _ Hu).
    destruct (sv_pop _ _ v unf' Hu E1) as (u & U1 & U2 & U3). rewrite U1. cbn [bind fst snd got].
    destruct (rel_aget lvec ka a v nbs HA E2) as (kl & K1 & K2). rewrite K1. cbn [bind]. rewrite (each_rfold _ kl nbs _ (proj1 K2)).
    destruct (rfold_sim (fun k t => svec (fst k) (fst t) /\ svec (snd k) (snd t)) c_finish_nbr finish_nbr nbs) with (st := (vf, u)) (t := (first, unf')) as (st & S1 & S2 & S3).
    { intros nb st t Hnb [T1 T2]. assert (Hs : small nb). { destruct K2 as [_ F]. rewrite Forall_forall in F. apply F. exact Hnb. }
      unfold c_finish_nbr, finish_nbr. destruct (sv_insert _ _ nb T1 Hs) as (v1 & I1 & I2). rewrite I1. cbn [bind fst snd].
      destruct (set_insert nb (fst t)) as [p fi] eqn:Ep. cbn [fst snd] in *. destruct p; cbn [Z.eqb].
      - destruct (sv_insert _ _ nb T2 Hs) as (v2 & I3 & I4). rewrite I3. cbn [bind fst]. eexists. split; [reflexivity|]. cbn. auto.
      - eexists. split; [reflexivity|]. cbn. auto. }
    { cbn. auto. }
    rewrite S1. cbn [bind]. apply (IH _ _ _ _ _ S2 S3 E).
  - injection E as <-. exists vf, vu. destruct unf; [auto|discriminate].
Qed.

Lemma set_remove_mid x pre l : StronglySorted lt (pre ++ x :: l) -> set_remove x (pre ++ x :: l) = pre ++ l.
Proof.
  intros HS. induction pre as [|y pre IH]; cbn [app set_remove]; [rewrite Nat.eqb_refl; reflexivity|].
  cbn [app] in HS. apply ProofSets.ssorted_cons in HS. destruct HS as [HS Hy]. specialize (Hy x ltac:(apply in_or_app; right; left; reflexivity)).
  destruct (Nat.eqb_spec x y); [lia|]. f_equal. apply IH. exact HS.
Qed.
Lemma take_label_sim cur label : forall av pre va ve exam av' exam' n, svec va (pre ++ av) -> svec ve exam -> length av <= n ->
  take_label cur label av exam = Ok (av', exam') ->
  exists va' ve', c_take_label n cur label (length pre) va ve = Ok (va', ve') /\ svec va' (pre ++ av') /\ svec ve' exam'.
Proof.
  induction av as [|v av IH]; intros pre va ve exam av' exam' n HA HE Hn E; cbn [take_label] in E.
  - injection E as <- <-. exists va, ve. split; [|auto]. pose proof (sv_size _ _ HA) as Hs. rewrite app_nil_r in Hs.
    destruct n; cbn [c_take_label]; (destruct (Nat.ltb_spec (length pre) (al_size va)); [lia|reflexivity]).
  - cbn [length] in Hn. destruct n as [|n]; [lia|]. cbn [c_take_label]. pose proof (sv_size _ _ HA) as Hs. rewrite app_length in Hs. cbn [length] in Hs.
    destruct (Nat.ltb_spec (length pre) (al_size va)); [|lia].
    rewrite (slot_rep va (pre ++ v :: av) (length pre) v (proj1 (proj1 HA))) by (rewrite nth_error_app2, Nat.sub_diag by lia; reflexivity).
    cbn [bind]. step E c Ec. cbn [bind]. assert (Hv : small v). { destruct HA as [[_ F] _]. rewrite Forall_forall in F. apply F. apply in_or_app. right. left. reflexivity. }
    destruct (c =? label).
    + destruct (sv_insert _ _ v HE Hv) as (e & E1 & E2). rewrite E1. cbn [bind fst].
      destruct (sv_remove _ _ v HA Hv) as (a & o & A1 & A2). rewrite A1. cbn [bind fst]. rewrite (set_remove_mid v pre av (proj2 HA)) in A2.
      apply (IH pre a e _ av' exam' n A2 E2); [lia|exact E].
    + step E r Er. destruct r as [av1 exam1]. cbn [fst snd] in E. injection E as <- <-.
      destruct (IH (pre ++ [v]) va ve exam av1 exam1 n) as (va' & ve' & R1 & R2 & R3); [rewrite <- app_assoc; exact HA|exact HE|lia|exact Er|].
      exists va', ve'. rewrite app_length, Nat.add_comm in R1. cbn [length Nat.add] in R1. rewrite <- app_assoc in R2. auto.
Qed.

Record idle (y : cexpl) : Prop := mk_idle {
  id_con : svec (y_con y) []; id_un : lvec (y_un y) []; id_exam : svec (y_exam y) []; id_first : svec (y_first y) []; id_unf : svec (y_unf y) [] }.

Lemma do_label_sim minPts ka a bound label w k s va av y s' av' : adj_rel ka a -> st_rel k s -> svec va av -> idle y ->
  do_label minPts a bound label w s av = Ok (s', av') ->
  exists k' va' y', c_do_label minPts ka bound label w k va y = Ok (k', va', y') /\ st_rel k' s' /\ svec va' av' /\ idle y' /\ st_le s s'.
Proof.
  intros HA HS HV [I1 I2 I3 I4 I5] E. unfold do_label in E. unfold c_do_label. step E r E1. destruct r as [av1 exam].
  destruct (take_label_sim (l_cur s) label av [] va (y_exam y) [] av1 exam (al_size va) HV I3) as (va1 & ve1 & T1 & T2 & T3); [rewrite (sv_size _ _ HV); auto|exact E1|].
  cbn [app length] in T1, T2. rewrite (sr_cur k s HS), T1. cbn [bind]. step E r E2. destruct r as [s1 x1].
  assert (HX0 : x_rel (mk_cx (y_con y) (y_un y) ve1 (y_any y) (y_inc y) 0 (y_first y) (y_unf y)) (mk_x [] [] exam false false 0 [] [])) by (constructor; cbn; try assumption; reflexivity).
  destruct (examine_sim minPts ka a bound label w HA bound k s _ _ s1 x1 HS HX0 eq_refl eq_refl E2) as (k1 & y1 & X1 & X2 & X3 & X4 & X5 & X6).
  rewrite X1. cbn [bind]. step E s2 E3. injection E as <- <-. destruct X3 as [G1 G2 G3 G4 G5 G6]. rewrite G4, (sr_cur k1 s1 X2). rewrite X4 in G1. rewrite X5 in G2.
  assert (HB : exists k2 vf vu lf lu, (if 2 <=? x_nch x1 then
       let! dd := slot (al_data (y_first y1)) 0 in
       let! c := aget (l_cur s1) dd in
       if c =? label then
         let! fu := c_finish_first ka bound (y_first y1) (y_unf y1) in
         let! s := c_add_cluster k1 (fst fu) label w in
         Ok (s, fu)
       else Ok (k1, (y_first y1, y_unf y1))
     else Ok (k1, (y_first y1, y_unf y1))) = Ok (k2, (vf, vu)) /\ st_rel k2 s2 /\ svec vf lf /\ svec vu lu /\ st_le s1 s2).
  { destruct (2 <=? x_nch x1).
    - destruct (x_first x1) as [|dd fr] eqn:Ef; [discriminate|]. rewrite (slot_rep (y_first y1) (dd :: fr) 0 dd (proj1 (proj1 G5)) eq_refl). cbn [bind].
      step E3 c Ec. cbn [bind]. destruct (c =? label).
      + step E3 fst1 E4. destruct (finish_sim ka a HA bound _ _ _ _ fst1 G5 G6 E4) as (vf & vu & F1 & F2 & F3). rewrite F1. cbn [bind fst].
        destruct (add_cluster_sim k1 s1 vf fst1 label w s2 X2 (proj1 F2) E3) as (k2 & K1 & K2 & K3). rewrite K1. cbn [bind]. exists k2, vf, vu, fst1, []. auto.
      + injection E3 as <-. exists k1, (y_first y1), (y_unf y1), (dd :: fr), (x_unf x1). split; [reflexivity|]. split; [exact X2|]. split; [exact G5|]. split; [exact G6|apply st_le_refl].
    - injection E3 as <-. exists k1, (y_first y1), (y_unf y1), (x_first x1), (x_unf x1). split; [reflexivity|]. split; [exact X2|]. split; [exact G5|]. split; [exact G6|apply st_le_refl]. }
  destruct HB as (k2 & vf & vu & lf & lu & B1 & B2 & B3 & B4 & B5). rewrite B1. cbn [bind].
  exists k2, va1. eexists. split; [reflexivity|]. split; [exact B2|]. split; [exact T2|]. split; [|apply st_le_trans with s1; assumption].
  constructor; cbn; try assumption; apply sv_nil.
  - apply (rep_reset _ _ (proj1 (proj1 G3))).
  - apply (rep_reset _ _ (proj1 (proj1 B3))).
  - apply (rep_reset _ _ (proj1 (proj1 B4))).
Qed.

Lemma do_labels_sim minPts ka a bound w : adj_rel ka a -> forall count k s vl al va av y s' av', st_rel k s -> svec vl al -> svec va av -> idle y ->
  do_labels minPts a bound w s al av count = Ok (s', av') ->
  exists k' vl' va', c_do_labels minPts ka bound w k vl va y count = Ok (k', vl', va') /\ st_rel k' s' /\ svec vl' [] /\ svec va' av' /\ st_le s s'.
Proof.
  intros HA. induction count as [|c IH]; intros k s vl al va av y s' av' HS HL HV HI E; cbn [do_labels c_do_labels] in *; rewrite (sv_size _ _ HL); rewrite pos_match in E; destruct (0 <? length al) eqn:E0.
  - discriminate.
  - injection E as <- <-. exists k, vl, va. destruct al; [|discriminate]. split; [reflexivity|]. split; [exact HS|]. split; [exact HL|]. split; [exact HV|apply st_le_refl].
  - step E r E1. destruct r as [label al']. step E r E2. destruct r as [s1 av1]. rewrite <- (sv_size _ _ HL).
    destruct (sv_pop _ _ label al' HL E1) as (v & V1 & V2 & V3). rewrite V1. cbn [bind fst snd got].
    destruct (do_label_sim minPts ka a bound label w k s va av y s1 av1 HA HS HV HI E2) as (k1 & va1 & y1 & D1 & D2 & D3 & D4 & D5). rewrite D1. cbn [bind].
    destruct (IH k1 s1 v al' va1 av1 y1 s' av' D2 V2 D3 D4 E) as (k' & vl' & va' & R1 & R2 & R3 & R4 & R5).
    exists k', vl', va'. split; [exact R1|]. split; [exact R2|]. split; [exact R3|]. split; [exact R4|]. apply st_le_trans with s1; assumption.
  - injection E as <- <-. exists k, vl, va. destruct al; [|discriminate]. split; [reflexivity|]. split; [exact HS|]. split; [exact HL|]. split; [exact HV|apply st_le_refl].
Qed.

(** ** The label counter: never less, and one more cluster for each step *)
Definition counts (s s' : lstate) : Prop := l_next s <= l_next s' /\ length (l_cs s') + l_next s = length (l_cs s) + l_next s'.
Lemma counts_refl s : counts s s. Proof. split; lia. Qed.
Lemma counts_trans s1 s2 s3 : counts s1 s2 -> counts s2 s3 -> counts s1 s3. Proof. unfold counts. lia. Qed.
Lemma create_count cs cur l p label w cs' cur' new : create_new_cluster cs cur l p label w = Ok (cs', cur', new) -> length cs' = length cs.
Proof.
  unfold create_new_cluster. intros E. step E cur1 E1. step E c E2. step E cs1 E3. apply cset_length in E3. destruct (label =? 0).
  - step E c1 E4. step E cs2 E5. apply cset_length in E5. injection E as <- <- <-. lia.
  - unfold cluster_init in E. step E r E4. step E4 c1 E5. step E4 cs2 E6. injection E4 as <-. apply cset_length in E6. injection E as <- <- <-. lia.
Qed.
Lemma add_cluster_next s l label w s' : add_cluster s l label w = Ok s' -> counts s s'.
Proof.
  unfold add_cluster. intros E. step E r E1. destruct r as [[cs cur] new]. apply create_count in E1. injection E as <-. unfold counts. cbn [l_next l_cs].
  rewrite app_length. cbn [length]. lia.
Qed.
Lemma make_noise_next s l label w s' : make_noise s l label w = Ok s' -> counts s s'.
Proof. unfold make_noise. intros E. step E r E1. destruct r as [[cs cur] new]. step E nl E2. apply create_count in E1. injection E as <-. unfold counts. cbn [l_next l_cs]. lia. Qed.
Lemma examine_next minPts a bound label w : forall fuel s x s' x', examine minPts a bound fuel label w s x = Ok (s', x') -> counts s s'.
Proof.
  induction fuel as [|f IH]; intros s x s' x' E; cbn [examine] in E; destruct (x_exam x) as [|v t] eqn:Ex; try discriminate; try (injection E as <- <-; apply counts_refl).
  step E r E1. destruct r as [root exam]. step E x1 E2. step E r E3. destruct r as [s1 nch]. apply IH in E. apply counts_trans with s1; [|exact E].
  destruct ((2 <=? x_nch x1) && (minPts <=? length (x_con x1)) && x_any x1).
  - step E3 r Er. destruct (set_mem (fst r) (x_con x1)); [injection E3 as <- <-; apply counts_refl|]. step E3 s2 E4. injection E3 as <- <-. exact (add_cluster_next _ _ _ _ _ E4).
  - destruct ((length (x_con x1) <? minPts) || negb (x_any x1)); [|injection E3 as <- <-; apply counts_refl]. step E3 s2 E4. injection E3 as <- <-. exact (make_noise_next _ _ _ _ _ E4).
Qed.
Lemma do_label_next minPts a bound label w s av s' av' : do_label minPts a bound label w s av = Ok (s', av') -> counts s s'.
Proof.
  unfold do_label. intros E. step E r E1. destruct r as [av1 exam]. step E r E2. destruct r as [s1 x1]. step E s2 E3. injection E as <- <-.
  apply examine_next in E2. destruct (2 <=? x_nch x1); [|injection E3 as <-; exact E2]. destruct (x_first x1) as [|dd t]; [discriminate|].
  step E3 c Ec. destruct (c =? label); [|injection E3 as <-; exact E2]. step E3 f0 E4. apply add_cluster_next in E3. apply counts_trans with s1; assumption.
Qed.
Lemma do_labels_next minPts a bound w : forall count s al av s' av', do_labels minPts a bound w s al av count = Ok (s', av') -> counts s s'.
Proof.
  induction count as [|c IH]; intros s al av s' av' E; cbn [do_labels] in E; destruct al as [|l0 al]; try discriminate; try (injection E as <- <-; apply counts_refl).
  step E r E1. destruct r as [label al']. step E r E2. destruct r as [s1 av1]. apply IH in E. apply do_label_next in E2. apply counts_trans with s1; assumption.
Qed.
Lemma write_offsets_count line : forall new cs cs', write_offsets cs new line = Ok cs' -> length cs' = length cs.
Proof.
  induction new as [|p new IH]; intros cs cs' E; cbn [write_offsets] in E; [injection E as <-; reflexivity|]. step E c E1. step E cs1 E2. apply IH in E. apply cset_length in E2. lia.
Qed.
Lemma hier_level_next e minPts n compact k h k' h' : hier_level e minPts n compact k h = Ok (k', h') -> counts (h_l h) (h_l h').
Proof.
  unfold hier_level. intros E. step E w E1. step E r E2. destruct r as [[[adj av] al] k1]. destruct al as [|l0 al]; [injection E as <- <-; apply counts_refl|].
  step E r E3. destruct r as [s1 av1]. step E cs E4. injection E as <- <-. cbn [h_l]. apply do_labels_next in E3. apply write_offsets_count in E4.
  unfold counts in *. cbn [l_next l_cs]. lia.
Qed.
Lemma hier_loop_next e minPts n compact : forall fuel k h h', hier_loop fuel e minPts n compact k h = Ok h' -> counts (h_l h) (h_l h').
Proof.
  induction fuel as [|f IH]; intros k h h' E; destruct k as [|k]; cbn [hier_loop] in E; try discriminate; try (injection E as <-; apply counts_refl).
  step E r E1. destruct r as [k1 h1]. cbn [fst snd] in E. apply IH in E. apply hier_level_next in E1. apply counts_trans with (h_l h1); assumption.
Qed.
Lemma hierarchy_next fuel e n a minPts compact h : compute_hierarchy fuel e n a minPts compact = Ok h -> l_next (h_l h) = length (l_cs (h_l h)).
Proof.
  unfold compute_hierarchy. intros E. step E h1 E1. injection E as <-. apply hier_loop_next in E1. unfold counts in E1. cbn [hier_finish h_l hier_start l_next l_cs length] in *. lia.
Qed.

(** ** The graph *)
Definition limit : Z := 2147483648.
Lemma below_small i n : i < n -> (Z.of_nat n <= limit)%Z -> small i.
Proof. unfold small, limit. lia. Qed.
Lemma append_to_sim ka a v x a' : adj_rel ka a -> small x -> append_to a v x = Ok a' -> exists ka', c_append_to ka v x = Ok ka' /\ adj_rel ka' a'.
Proof.
  intros H Hx E. unfold append_to in E. unfold c_append_to. step E l E1. destruct (rel_aget lvec ka a v l H E1) as (kl & K1 & K2). rewrite K1. cbn [bind].
  destruct (lv_append kl l x K2 Hx) as (kl' & A1 & A2). rewrite A1. cbn [bind fst]. apply (rel_aset lvec ka a v _ a' kl' H E A2).
Qed.
Lemma graph_add_sim e i ka a a' : Forall small (e_a e) -> Forall small (e_b e) -> adj_rel ka a -> graph_add e i a = Ok a' -> exists ka', c_graph_add e i ka = Ok ka' /\ adj_rel ka' a'.
Proof.
  intros HA HB H E. unfold graph_add in E. unfold c_graph_add. step E x E1. step E y E2. step E a1 E3. cbn [bind].
  assert (Hx : small x) by (rewrite Forall_forall in HA; apply HA; apply nth_error_In with i; apply aget_inv; exact E1).
  assert (Hy : small y) by (rewrite Forall_forall in HB; apply HB; apply nth_error_In with i; apply aget_inv; exact E2).
  destruct (append_to_sim ka a x y a1 H Hy E3) as (ka1 & K1 & K2). rewrite K1. cbn [bind]. destruct (x =? y); [injection E as <-; eauto|].
  apply (append_to_sim ka1 a1 y x a' K2 Hx E).
Qed.
Lemma for_up_sim {U T} (R : U -> T -> Prop) (f : nat -> U -> res U) (g : nat -> T -> res T) :
  (forall i u t t', R u t -> g i t = Ok t' -> exists u', f i u = Ok u' /\ R u' t') ->
  forall n k u t t', R u t -> for_up k n g t = Ok t' -> exists u', for_up k n f u = Ok u' /\ R u' t'.
Proof.
  intros H. induction n as [|n IH]; intros k u t t' HR E; cbn [for_up] in *; [injection E as <-; eauto|].
  step E t1 E1. destruct (H k u t t1 HR E1) as (u1 & F1 & F2). rewrite F1. cbn [bind]. apply (IH (S k) u1 t1 t' F2 E).
Qed.
Lemma graph_init_sim n e a : Forall small (e_a e) -> Forall small (e_b e) -> graph_init n e = Ok a -> exists ka, c_graph_init n e = Ok ka /\ adj_rel ka a.
Proof.
  intros HA HB E. unfold c_graph_init. destruct (array_list_init (A := nat) 16) as [v| | |] eqn:Ev; try discriminate Ev. cbn [bind].
  apply rep_init in Ev. destruct Ev as [Ev _].
  apply (for_up_sim adj_rel (c_graph_add e) (graph_add e)) with (3 := E).
  - intros i u t t' HR Et. apply graph_add_sim with t; assumption.
  - clear -Ev. induction n as [|n IH]; cbn [repeat]; constructor; [apply lv_nil; exact Ev|exact IH].
Qed.
Lemma aset_length {A} (l l' : list A) i x : aset l i x = Ok l' -> length l' = length l.
Proof. intros E. apply aset_inv in E. destruct E as [_ ->]. apply upd_length. Qed.
Lemma remove_edge_sim ka a va vb a' : adj_rel ka a -> (Z.of_nat (length a) <= limit)%Z -> graph_remove_edge a va vb = Ok a' ->
  exists ka', c_graph_remove_edge ka va vb = Ok ka' /\ adj_rel ka' a' /\ length a' = length a /\ small va /\ small vb.
Proof.
  intros H Hn E. unfold graph_remove_edge in E. unfold c_graph_remove_edge. step E la E1. step E a1 E2. step E lb E3.
  assert (Hva : small va). { apply below_small with (length a); [|exact Hn]. apply nth_error_Some. apply aget_inv in E1. congruence. }
  assert (HL : length a1 = length a) by exact (aset_length _ _ _ _ E2).
  assert (Hvb : small vb). { apply below_small with (length a); [|exact Hn]. rewrite <- HL. apply nth_error_Some. apply aget_inv in E3. congruence. }
  destruct (rel_aget lvec ka a va la H E1) as (kla & K1 & K2). rewrite K1. cbn [bind].
  destruct (lv_remove kla la vb K2 Hvb) as (kla' & o & R1 & R2). rewrite R1. cbn [bind fst].
  destruct (rel_aset lvec ka a va _ a1 kla' H E2 R2) as (ka1 & S1 & S2). rewrite S1. cbn [bind].
  destruct (rel_aget lvec ka1 a1 vb lb S2 E3) as (klb & K3 & K4). rewrite K3. cbn [bind].
  destruct (lv_remove klb lb va K4 Hva) as (klb' & o' & R3 & R4). rewrite R3. cbn [bind fst].
  destruct (rel_aset lvec ka1 a1 vb _ a' klb' S2 E R4) as (ka2 & S3 & S4). exists ka2. split; [exact S3|]. split; [exact S4|]. split; [|auto].
  rewrite <- HL. exact (aset_length _ _ _ _ E).
Qed.

Lemma remove_ties_sim e w cur : Forall small cur -> forall k ka a va av vl al a' av' al' k', adj_rel ka a -> (Z.of_nat (length a) <= limit)%Z -> svec va av -> svec vl al ->
  remove_ties e w cur k a av al = Ok (a', av', al', k') ->
  exists ka' va' vl', c_remove_ties e w cur k ka va vl = Ok (ka', va', vl', k') /\ adj_rel ka' a' /\ svec va' av' /\ svec vl' al' /\ length a' = length a.
Proof.
  intros HC. induction k as [|j IH]; intros ka a va av vl al a' av' al' k' HA Hn HV HL E; cbn [remove_ties c_remove_ties] in *.
  - injection E as <- <- <- <-. exists ka, va, vl. auto.
  - step E tmp E1. cbn [bind]. destruct (feq tmp w); [|injection E as <- <- <- <-; exists ka, va, vl; auto].
    step E x E2. step E y E3. cbn [bind]. step E a1 E4. step E ca E5. cbn [bind].
    destruct (remove_edge_sim ka a x y a1 HA Hn E4) as (ka1 & K1 & K2 & K3 & Hx & Hy). rewrite K1. cbn [bind]. rewrite <- K3 in Hn.
    assert (Hca : small ca) by (rewrite Forall_forall in HC; apply HC; apply nth_error_In with x; apply aget_inv; exact E5).
    destruct (ca =? 0).
    + destruct (IH ka1 a1 va av vl al a' av' al' k' K2 Hn HV HL E) as (ka' & va' & vl' & R1 & R2 & R3 & R4 & R5). exists ka', va', vl'. rewrite <- K3. auto.
    + destruct (sv_insert_into va av x HV Hx) as (v1 & V1 & V2). rewrite V1. cbn [bind].
      destruct (sv_insert_into v1 _ y V2 Hy) as (v2 & V3 & V4). rewrite V3. cbn [bind].
      destruct (sv_insert_into vl al ca HL Hca) as (v3 & V5 & V6). rewrite V5. cbn [bind].
      destruct (IH ka1 a1 v2 _ v3 _ a' av' al' k' K2 Hn V4 V6 E) as (ka' & va' & vl' & R1 & R2 & R3 & R4 & R5). exists ka', va', vl'. rewrite <- K3. auto.
Qed.

Lemma write_offsets_sim line : forall new ks cs cs', cs_rel ks cs -> write_offsets cs new line = Ok cs' ->
  exists ks', rfold (fun p cs => let! o := oget cs p in oset cs p (with_cl o (set_offset (o_cl o) line))) new ks = Ok ks' /\ cs_rel ks' cs' /\ ptrs_from 0 cs' = ptrs_from 0 cs.
Proof.
  induction new as [|p new IH]; intros ks cs cs' H E; cbn [write_offsets rfold] in *; [injection E as <-; eauto|].
  step E c E1. step E cs1 E2. destruct (oget_sim ks cs p c H E1) as (o & O1 & HO). rewrite O1. cbn [bind].
  assert (HO2 : obj_rel (with_cl o (set_offset (o_cl o) line)) (set_offset c line)).
  { destruct HO as (H1 & H2 & H3). split; [|split; [exact H2|exact H3]]. cbn [with_cl o_cl]. rewrite H1. reflexivity. }
  destruct (oset_sim ks cs p _ cs1 _ H E2 HO2) as (ks1 & O2 & HC). rewrite O2. cbn [bind].
  destruct (IH ks1 cs1 cs' HC E) as (ks' & R1 & R2 & R3). exists ks'. split; [exact R1|]. split; [exact R2|].
  rewrite R3. apply (ptrs_cset cs p c _ cs1 (proj1 (cget_nth cs p c) E1) E2).
Qed.

(** ** Levels *)
Record h_rel (g : cstates) (h : hstate) : Prop := mk_h_rel {
  hr_adj : adj_rel (g_adj g) (h_adj h); hr_s : st_rel (g_s g) (h_l h); hr_prev : g_prev g = h_prev h; hr_line : g_line g = h_line h;
  hr_hier : lt_rel (g_hier g) (hget (h_hier h)); hr_sig : g_sig g = h_sig h; hr_av : svec (g_av g) (h_av h); hr_al : svec (g_al g) (h_al h);
  hr_new : l_new (h_l h) = []; hr_n : (Z.of_nat (length (h_adj h)) <= limit)%Z;
  hr_keys : forall i, hget (h_hier h) i <> None -> 1 <= i <= h_line h;
  hr_plab : Forall (fun c => c < l_next (h_l h)) (h_prev h);
  hr_ent : forall i w ls, hget (h_hier h) i = Some (w, ls) -> Forall (fun c => c < l_next (h_l h)) ls }.

Lemma set_init_rep (v : vec) : set_init = Ok v -> rep v [] /\ al_max v = 2.
Proof. intros E. apply rep_init in E. tauto. Qed.
Lemma idle_new : exists e f u c n, set_init (A := nat) = Ok e /\ set_init (A := nat) = Ok f /\ set_init (A := nat) = Ok u /\ set_init (A := nat) = Ok c
  /\ array_list_init (A := nat) (al_max e) = Ok n /\ idle (mk_cx c n e false false 0 f u).
Proof.
  destruct (set_init (A := nat)) as [v| | |] eqn:E; try discriminate E. pose proof (set_init_rep v E) as [H1 H2].
  destruct (array_list_init (A := nat) (al_max v)) as [n| | |] eqn:E2; try (rewrite H2 in E2; discriminate E2).
  exists v, v, v, v, n. do 5 (split; [first [reflexivity|exact E2]|]). apply rep_init in E2. constructor; cbn; try (apply sv_nil; exact H1). apply lv_nil. apply E2.
Qed.

Lemma hget_filter h k j : j <> k -> hget (filter (fun p => negb (fst p =? k)) h) j = hget h j.
Proof.
  intros H. induction h as [|[i v] h IH]; [reflexivity|]. cbn [filter fst]. destruct (Nat.eqb_spec i k) as [->|Hi]; cbn [negb hget].
  - rewrite IH. destruct (Nat.eqb_spec j k); [contradiction|reflexivity].
  - rewrite IH. reflexivity.
Qed.
Lemma hget_put h k v j : hget (hput h k v) j = if j =? k then Some v else hget h j.
Proof. unfold hput. cbn [hget]. destruct (Nat.eqb_spec j k); [reflexivity|]. apply hget_filter. assumption. Qed.

(** Each level takes at least one edge and writes at most one line. *)
Lemma remove_ties_k e w cur : forall k a av al a' av' al' k', remove_ties e w cur k a av al = Ok (a', av', al', k') -> k' <= k.
Proof.
  induction k as [|j IH]; intros a av al a' av' al' k' E; cbn [remove_ties] in E; [injection E as <- <- <- <-; lia|].
  step E tmp E1. destruct (feq tmp w); [|injection E as <- <- <- <-; lia]. step E x E2. step E y E3. step E a1 E4. step E ca E5.
  destruct (ca =? 0); apply IH in E; lia.
Qed.
Lemma hier_level_line e minPts n compact k h k' h' : Forall (fun w => fisnan w = false) (e_w e) -> hier_level e minPts n compact (S k) h = Ok (k', h') -> k' <= k /\ h_line h' + k' <= h_line h + S k.
Proof.
  intros Hnn E. unfold hier_level in E. step E w E1. step E r E2. destruct r as [[[adj av] al] k1].
  assert (Hk : k1 <= k).
  { cbn [remove_ties] in E2. step E2 tmp E3. cbn [Nat.sub] in E1. rewrite Nat.sub_0_r in E1. rewrite E1 in E3. injection E3 as <-.
    assert (Hw : feq w w = true).
    { cut (fisnan w = false); [intros Hq; apply feq_intro; [exact Hq|exact Hq|reflexivity]|]. rewrite Forall_forall in Hnn. apply Hnn. apply nth_error_In with k. apply aget_inv. exact E1. }
    rewrite Hw in E2. step E2 x E4. step E2 y E5. step E2 a1 E6. step E2 ca E7. destruct (ca =? 0); apply remove_ties_k in E2; exact E2. }
  destruct al as [|l0 al]; [injection E as <- <-; cbn; lia|].
  step E r E3. destruct r as [s1 av1]. step E cs E4. injection E as <- <-. cbn [h_line]. destruct (negb compact || h_sig h || (0 <? length (l_new s1))); lia.
Qed.

Lemma hier_level_sim e minPts n compact k g h k' h' : h_rel g h -> (Z.of_nat (l_next (h_l h)) <= limit)%Z -> small (S (h_line h)) -> hier_level e minPts n compact k h = Ok (k', h') ->
  exists g', c_hier_level e minPts n compact k g = Ok (k', g') /\ h_rel g' h'.
Proof.
  intros [H1 H2 H3 H4 H5 H6 H7 H8 H9 H10 H11 H12 H13] Hn Hln E. unfold hier_level in E. unfold c_hier_level. step E w E1. cbn [bind].
  pose proof (sr_new _ _ H2) as Hnew. rewrite H9 in Hnew. pose proof Hnew as (Hsz & _). cbn [length] in Hsz. unfold array_list_empty. rewrite Hsz. cbn [Nat.eqb]; change (1 =? 1)%Z with true; cbn iota.
  step E r E2. destruct r as [[[adj av] al] k1]. rewrite (sr_cur _ _ H2).
  assert (HC : Forall small (l_cur (h_l h))) by (eapply Forall_impl; [|exact (sr_lab _ _ H2)]; cbn; intros c Hc; apply below_small with (l_next (h_l h)); assumption).
  destruct (remove_ties_sim e w (l_cur (h_l h)) HC k _ _ _ _ _ _ _ _ _ _ H1 H10 H7 H8 E2) as (ka & va & vl & R1 & R2 & R3 & R4 & R5). rewrite R1. cbn [bind].
  rewrite (sv_size _ _ R4). destruct al as [|l0 al].
  - cbn [length Nat.ltb Nat.leb]. injection E as <- <-. eexists. split; [reflexivity|].
    constructor; cbn; try assumption. rewrite R5. exact H10.
  - set (al1 := l0 :: al) in *. assert (Hal : (length al1 <? 1) = false) by reflexivity. rewrite Hal.
    destruct idle_new as (ve & vf & vu & vc & vn & I1 & I2 & I3 & I4 & I5 & I6). rewrite I1. cbn [bind]. rewrite I5. cbn [bind]. rewrite I1 in I2, I3, I4. injection I2 as <-. injection I3 as <-. injection I4 as <-.
    step E r E3. destruct r as [s1 av1]. step E cs E4. injection E as <- <-.
    destruct (do_labels_sim minPts ka adj (S n) w R2 (length al1) _ _ vl al1 va av _ s1 av1 H2 R4 R3 I6 E3) as (k2 & vl2 & va2 & D1 & D2 & D3 & D4 & D5).
    rewrite D1. cbn [bind]. pose proof (sr_new _ _ D2) as Hn2. pose proof Hn2 as (Hs2 & _). rewrite H6, Hs2, H4, H3.
    set (rec := negb compact || h_sig h || (0 <? length (l_new s1))) in *.
    assert (HI : exists t, (if rec then lt_insert (g_hier g) (if rec then S (h_line h) else h_line h) (w, h_prev h) else Ok (g_hier g)) = Ok t
      /\ lt_rel t (hget (if rec then hput (h_hier h) (if rec then S (h_line h) else h_line h) (w, h_prev h) else h_hier h))
      /\ forall i, hget (if rec then hput (h_hier h) (if rec then S (h_line h) else h_line h) (w, h_prev h) else h_hier h) i <> None -> 1 <= i <= (if rec then S (h_line h) else h_line h)).
    { destruct rec; [|eauto]. destruct (lt_insert_sim (g_hier g) _ (S (h_line h)) (w, h_prev h) H5 Hln) as (t & T1 & _ & _ & T2).
      { destruct (hget (h_hier h) (S (h_line h))) eqn:Eg; [|reflexivity]. specialize (H11 (S (h_line h))). rewrite Eg in H11. specialize (H11 ltac:(discriminate)). lia. }
      exists t. split; [exact T1|]. split.
      - eapply lt_ext; [|exact T2]. intros j. symmetry. apply hget_put.
      - intros i. rewrite hget_put. destruct (Nat.eqb_spec i (S (h_line h))); [lia|]. intros Hi. specialize (H11 i Hi). lia. }
    destruct HI as (t & T1 & T2 & T3). rewrite T1. cbn [bind].
    unfold c_write_offsets. rewrite (each_rfold _ _ _ _ Hn2).
    match type of E4 with write_offsets _ _ ?ln = _ => destruct (write_offsets_sim ln (l_new s1) _ _ cs (sr_cs _ _ D2) E4) as (ks & W1 & W2 & W3) end.
    rewrite W1. cbn [bind]. eexists. split; [reflexivity|].
    constructor; cbn [g_adj g_s g_prev g_line g_hier g_sig g_av g_al h_adj h_l h_prev h_line h_hier h_sig h_av h_al l_new k_cur k_cs k_ptrs k_next k_noise k_last k_new]; try assumption; try reflexivity.
    + constructor; cbn [k_cur k_cs k_ptrs k_next k_noise k_last k_new l_cur l_cs l_next l_noise l_last l_new].
      * exact (sr_cur _ _ D2).
      * exact W2.
      * rewrite W3. exact (sr_ptrs _ _ D2).
      * exact (sr_next _ _ D2).
      * exact (sr_noise _ _ D2).
      * exact (sr_last _ _ D2).
      * exact (rep_reset _ _ Hn2).
      * exact (sr_pos _ _ D2).
      * exact (sr_lab _ _ D2).
    + exact (sr_cur _ _ D2).
    + destruct (length (l_new s1)); reflexivity.
    + rewrite R5. exact H10.
    + exact (sr_lab _ _ D2).
    + pose proof (do_labels_next _ _ _ _ _ _ _ _ _ _ E3) as [Hmon _]. cbn [l_next].
      assert (Hup : forall ls, Forall (fun c => c < l_next (h_l h)) ls -> Forall (fun c => c < l_next s1) ls) by (intros ls; apply Forall_impl; intros c; lia).
      intros i w' ls. destruct rec; [|intros Hi; apply Hup, (H13 i w' ls Hi)]. rewrite hget_put. destruct (i =? S (h_line h)); [|intros Hi; apply Hup, (H13 i w' ls Hi)].
      intros Hi. injection Hi as _ <-. apply Hup. exact H12.
Qed.

Lemma hier_loop_sim e minPts n compact : Forall (fun w => fisnan w = false) (e_w e) -> forall fuel k g h h', h_rel g h -> hier_loop fuel e minPts n compact k h = Ok h' -> (Z.of_nat (l_next (h_l h')) <= limit)%Z ->
  small (h_line h + k) -> exists g', c_hier_loop fuel e minPts n compact k g = Ok g' /\ h_rel g' h' /\ h_line h' <= h_line h + k.
Proof.
  intros Hnn. induction fuel as [|f IH]; intros k g h h' H E Hn Hs; destruct k as [|k]; cbn [hier_loop c_hier_loop] in *; try discriminate; try (injection E as <-; exists g; split; [reflexivity|]; split; [exact H|lia]).
  step E r E1. destruct r as [k1 h1]. cbn [fst snd] in E. pose proof (hier_level_next _ _ _ _ _ _ _ _ E1) as [L1 _]. pose proof (hier_loop_next _ _ _ _ _ _ _ _ E) as [L2 _].
  destruct (hier_level_line _ _ _ _ _ _ _ _ Hnn E1) as [K1 K2].
  destruct (hier_level_sim e minPts n compact (S k) g h k1 h1 H ltac:(lia)) as (g1 & G1 & G2); [unfold small in *; lia|exact E1|]. rewrite G1. cbn [bind fst snd].
  destruct (IH k1 g1 h1 h' G2 E Hn) as (g' & F1 & F2 & F3); [unfold small in *; lia|]. exists g'. split; [exact F1|]. split; [exact F2|lia].
Qed.

Lemma hier_start_sim list0 tab0 n ka a : rep list0 [] -> lt_rel tab0 (fun _ => None) -> adj_rel ka a -> (Z.of_nat (length a) <= limit)%Z ->
  exists g, c_hier_start list0 tab0 n ka = Ok g /\ h_rel g (hier_start n a).
Proof.
  intros H0 HT HA Hn. unfold c_hier_start. destruct (append_ok list0 [] None H0) as (p1 & P1 & P2). rewrite P1. cbn [bind fst].
  destruct (append_ok p1 _ (Some 1) P2) as (p2 & P3 & P4). rewrite P3. cbn [bind fst].
  destruct (set_init (A := nat)) as [v| | |] eqn:Ev; try discriminate Ev. cbn [bind]. destruct (array_list_init (A := nat) 2) as [nw| | |] eqn:En; try discriminate En. cbn [bind].
  destruct (object_new_sim 1 None fnan n) as (o & O1 & O2). rewrite O1. cbn [bind]. eexists. split; [reflexivity|].
  apply set_init_rep in Ev. apply rep_init in En. unfold hier_start.
  constructor; cbn [g_adj g_s g_prev g_line g_hier g_sig g_av g_al h_adj h_l h_prev h_line h_hier h_sig h_av h_al l_new]; try assumption; try reflexivity; try (apply sv_nil; apply Ev).
  - constructor; cbn [k_cur k_cs k_ptrs k_next k_noise k_last k_new l_cur l_cs l_next l_noise l_last l_new]; try reflexivity.
    + constructor; [exact I|]. constructor; [exact O2|constructor].
    + exact P4.
    + apply En.
    + lia.
    + clear. induction n as [|n IH]; cbn [repeat]; constructor; [lia|exact IH].
  - intros i Hi. cbn in Hi. congruence.
  - cbn [l_next]. clear. induction n as [|n IH]; cbn [repeat]; constructor; [lia|exact IH].
  - intros i w ls Hi. cbn in Hi. discriminate.
Qed.

Lemma compute_hierarchy_sim list0 tab0 fuel e n ka a minPts compact h : rep list0 [] -> lt_rel tab0 (fun _ => None) -> adj_rel ka a -> (Z.of_nat (length a) <= limit)%Z ->
  Forall (fun w => fisnan w = false) (e_w e) -> small (length (e_w e)) -> compute_hierarchy fuel e n a minPts compact = Ok h -> (Z.of_nat (l_next (h_l h)) <= limit)%Z ->
  exists g, c_compute_hierarchy list0 tab0 fuel e n ka minPts compact = Ok g /\ st_rel (g_s g) (h_l h) /\ lt_rel (g_hier g) (hget (h_hier h))
    /\ (forall i, hget (h_hier h) i <> None -> small i) /\ (forall i w ls, hget (h_hier h) i = Some (w, ls) -> Forall small ls).
Proof.
  intros H0 HT HA Hn Hnn Hs E Hl. unfold compute_hierarchy in E. unfold c_compute_hierarchy. step E h1 E1. injection E as <-.
  destruct (hier_start_sim list0 tab0 n ka a H0 HT HA Hn) as (g & G1 & G2). rewrite G1. cbn [bind].
  destruct (hier_loop_sim e minPts n compact Hnn fuel _ g _ h1 G2 E1 Hl) as (g1 & G3 & G4 & G5); [exact Hs|]. rewrite G3. cbn [bind].
  destruct G4 as [H1 H2 H3 H4 H5 H6 H7 H8 H9 H10 H11 H12 H13].
  destruct (lt_insert_sim (g_hier g1) _ 0 (fzero, repeat 0 n) H5) as (t & T1 & _ & _ & T2).
  { unfold small. lia. } { destruct (hget (h_hier h1) 0) eqn:Eg; [|reflexivity]. specialize (H11 0). rewrite Eg in H11. specialize (H11 ltac:(discriminate)). lia. }
  rewrite T1. cbn [bind]. eexists. split; [reflexivity|]. cbn [g_s g_hier hier_finish h_l h_hier]. split; [exact H2|]. split; [|split].
  - eapply lt_ext; [|exact T2]. intros j. symmetry. apply hget_put.
  - intros i. rewrite hget_put. destruct (Nat.eqb_spec i 0); [intros _; unfold small; lia|]. intros Hi. specialize (H11 i Hi). cbn [hier_start h_line] in G5. unfold small in *. lia.
  - intros i w ls. rewrite hget_put. cbn [hier_finish h_l] in Hl. destruct (Nat.eqb_spec i 0).
    + intros Hi. injection Hi as _ <-. clear. induction n as [|n IH]; cbn [repeat]; constructor; [unfold small; lia|exact IH].
    + intros Hi. eapply Forall_impl; [|exact (H13 i w ls Hi)]. intros c Hc. cbn beta in Hc. apply below_small with (l_next (h_l h1)); assumption.
Qed.
