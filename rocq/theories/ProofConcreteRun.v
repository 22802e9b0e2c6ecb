(** The rest of a run on the real containers (ModelConcreteRun.v) follows the one on sequences
    (ModelSelect.v, ModelRun.v). *)
From Coq Require Import Sorted Permutation FinFun.
From Verif Require Import Base F64 F64Facts ListFacts ModelArrayList ProofArrayList ModelUtils ModelDistance ModelMst ModelGraph ModelConcrete ProofConcrete ProofConcreteTable.
From Verif Require ModelHash ModelMap.
From Verif Require Import ModelCluster ModelHier ModelSelect ModelRun ModelConcreteRun ProofConcreteHier.
From Coq Require Import ZifyBool ZifyNat.
From Verif Require Import SpecSeq.
Local Open Scope nat_scope.

(** All clusters have small labels and offsets. *)
Definition lab_ok (cs : clusters) : Prop := forall i c, nth_error cs i = Some (Some c) -> small (c_label c) /\ small (c_offset c).
Lemma lab_get cs x c : lab_ok cs -> cget cs x = Ok c -> small (c_label c) /\ small (c_offset c).
Proof. intros H E. apply cget_nth in E. exact (H x c E). Qed.
Lemma lab_set cs x c cs' : lab_ok cs -> cset cs x c = Ok cs' -> small (c_label c) /\ small (c_offset c) -> lab_ok cs'.
Proof.
  intros H E Hc i d Hi. apply aset_inv in E. destruct E as [Hx ->]. destruct (Nat.eq_dec x i) as [->|Hne].
  - rewrite nth_error_upd_eq in Hi by exact Hx. injection Hi as <-. exact Hc.
  - rewrite nth_error_upd_neq in Hi by congruence. exact (H i d Hi).
Qed.

Lemma block_sim ptrs ks cs x c : rep ptrs (ptrs_from 0 cs) -> cs_rel ks cs -> cget cs x = Ok c -> exists o, block_at ptrs ks x = Ok (x, o) /\ obj_rel o c.
Proof.
  intros HP HC E. destruct (oget_sim ks cs x c HC E) as (o & O1 & O2). exists o. split; [|exact O2]. apply cget_nth in E.
  unfold block_at. rewrite (slot_rep _ _ x (Some x) HP (ptrs_nth _ _ c E 0)). cbn [bind got]. rewrite O1. reflexivity.
Qed.

(** ** Propagation *)
Lemma append_ptr_sim x v l : rep v l -> exists v', append_ptr x v = Ok v' /\ rep v' (l ++ [x]).
Proof. intros H. unfold append_ptr. destruct (append_ok v l x H) as (v' & E & H'). rewrite E. cbn [bind fst]. eauto. Qed.
Lemma append_all_sim from lf : rep from lf -> forall to lt, rep to lt -> exists v', append_all from to = Ok v' /\ rep v' (lt ++ lf).
Proof.
  intros HF. unfold append_all. pose proof HF as (Hs & _). rewrite Hs.
  assert (H : forall a b, lf = a ++ b -> forall to lt, rep to lt -> exists v', for_up (length a) (length b) (fun i l =>
    let! r := array_list_value_at from i in let! c := got (snd r) in append_ptr c l) to = Ok v' /\ rep v' (lt ++ b)).
  { intros a b. revert a. induction b as [|x b IH]; intros a Ha to lt HT; cbn [length for_up].
    - exists to. rewrite app_nil_r. auto.
    - unfold array_list_value_at. assert (al_size from <=? length a = false) by (rewrite Hs, Ha, app_length; cbn [length]; lia). rewrite H.
      assert (Hx : nth_error lf (length a) = Some x) by (rewrite Ha, nth_error_app2, Nat.sub_diag by lia; reflexivity).
      rewrite (slot_rep _ _ _ _ HF Hx). cbn [bind snd got]. destruct (append_ptr_sim x to lt HT) as (v1 & A1 & A2). rewrite A1. cbn [bind].
      destruct (IH (a ++ [x])) with (to := v1) (lt := lt ++ [x]) as (v' & F1 & F2); [rewrite <- app_assoc; exact Ha|exact A2|].
      rewrite app_length in F1. cbn [length] in F1. rewrite Nat.add_1_r in F1. exists v'. split; [exact F1|]. rewrite <- app_assoc in F2. exact F2. }
  intros to lt HT. apply (H [] lf eq_refl to lt HT).
Qed.

Lemma propagate_sim ks cs x cs' : cs_rel ks cs -> lab_ok cs -> cluster_propagate cs x = Ok cs' ->
  exists ks', c_cluster_propagate ks x = Ok ks' /\ cs_rel ks' cs' /\ lab_ok cs' /\ ptrs_from 0 cs' = ptrs_from 0 cs.
Proof.
  intros HC HL E. unfold cluster_propagate in E. unfold c_cluster_propagate. step E c E1.
  destruct (oget_sim ks cs x c HC E1) as (o & O1 & O2 & O3 & O4). rewrite O1. cbn [bind]. rewrite O2. cbn [erase c_parent].
  destruct (c_parent c) as [p|] eqn:Ep; [|injection E as <-; eauto]. cbn [erase c_plow c_death].
  set (c1 := if feq (c_plow c) D_MAX then set_plow c (c_death c) else c) in *.
  assert (Hc1 : (if feq (c_plow c) D_MAX then set_plow (erase c) (c_death c) else erase c) = erase c1) by (unfold c1; destruct (feq (c_plow c) D_MAX); reflexivity).
  rewrite Hc1. step E cs1 E2. pose proof (lab_get cs x c HL E1) as Lc.
  assert (Ld : c_label c1 = c_label c /\ c_offset c1 = c_offset c /\ c_desc c1 = c_desc c /\ c_virtual c1 = c_virtual c) by (unfold c1; destruct (feq (c_plow c) D_MAX); auto).
  destruct Ld as (Ld1 & Ld2 & Ld3 & Ld4).
  assert (HL1 : lab_ok cs1) by (apply (lab_set cs x c1 cs1 HL E2); rewrite Ld1, Ld2; exact Lc).
  destruct (oset_sim ks cs x c1 cs1 (with_cl o (erase c1)) HC E2) as (ks1 & S1 & HC1).
  { split; [reflexivity|]. cbn [with_cl o_virt o_desc]. rewrite Ld3, Ld4. auto. }
  rewrite S1. cbn [bind]. pose proof (ptrs_cset cs x c c1 cs1 (proj1 (cget_nth cs x c) E1) E2 0) as P1.
  step E q E3. destruct (oget_sim ks1 cs1 p q HC1 E3) as (oq & Q1 & Q2 & Q3 & Q4). rewrite Q1. cbn [bind]. rewrite Q2. pose proof (lab_get cs1 p q HL1 E3) as Lq.
  cbn [erase c_plow c_nc c_pnc c_stab c_pstab c_kids].
  set (q1 := if flt (c_plow c1) (c_plow q) then set_plow q (c_plow c1) else q) in *.
  assert (Hq1 : (if flt (c_plow c1) (c_plow q) then set_plow (erase q) (c_plow c1) else erase q) = erase q1) by (unfold q1; destruct (flt (c_plow c1) (c_plow q)); reflexivity).
  rewrite Hq1. assert (Lq1 : c_label q1 = c_label q /\ c_offset q1 = c_offset q /\ c_desc q1 = c_desc q /\ c_virtual q1 = c_virtual q) by (unfold q1; destruct (flt (c_plow c1) (c_plow q)); auto).
  destruct Lq1 as (Lq1 & Lq2 & Lq3 & Lq4).
  assert (Hself : forall nc st cs2, cset cs1 p (add_prop q1 nc st [x]) = Ok cs2 -> exists ks', (let! d := append_ptr x (o_desc oq) in oset ks1 p (mk_obj (add_prop (erase q1) nc st []) (o_virt oq) d)) = Ok ks'
    /\ cs_rel ks' cs2 /\ lab_ok cs2 /\ ptrs_from 0 cs2 = ptrs_from 0 cs).
  { intros nc st cs2 Es. destruct (append_ptr_sim x _ _ Q4) as (d & D1 & D2). rewrite D1. cbn [bind].
    destruct (oset_sim ks1 cs1 p _ cs2 (mk_obj (add_prop (erase q1) nc st []) (o_virt oq) d) HC1 Es) as (ks' & K1 & K2).
    { split; [reflexivity|]. cbn [o_virt o_desc add_prop c_virtual c_desc]. rewrite Lq3, Lq4. auto. }
    exists ks'. split; [exact K1|]. split; [exact K2|]. split; [apply (lab_set cs1 p _ cs2 HL1 Es); cbn [add_prop c_label c_offset]; rewrite Lq1, Lq2; exact Lq|].
    rewrite <- P1. apply (ptrs_cset cs1 p q _ cs2 (proj1 (cget_nth cs1 p q) E3) Es). }
  assert (Hdesc : forall nc st cs2, cset cs1 p (add_prop q1 nc st (c_desc c1)) = Ok cs2 -> exists ks', (let! d := append_all (o_desc o) (o_desc oq) in oset ks1 p (mk_obj (add_prop (erase q1) nc st []) (o_virt oq) d)) = Ok ks'
    /\ cs_rel ks' cs2 /\ lab_ok cs2 /\ ptrs_from 0 cs2 = ptrs_from 0 cs).
  { intros nc st cs2 Es. destruct (append_all_sim _ _ O4 _ _ Q4) as (d & D1 & D2). rewrite D1. cbn [bind].
    destruct (oset_sim ks1 cs1 p _ cs2 (mk_obj (add_prop (erase q1) nc st []) (o_virt oq) d) HC1 Es) as (ks' & K1 & K2).
    { split; [reflexivity|]. cbn [o_virt o_desc add_prop c_virtual c_desc]. rewrite Lq3, Lq4, Ld3. auto. }
    exists ks'. split; [exact K1|]. split; [exact K2|]. split; [apply (lab_set cs1 p _ cs2 HL1 Es); cbn [add_prop c_label c_offset]; rewrite Lq1, Lq2; exact Lq|].
    rewrite <- P1. apply (ptrs_cset cs1 p q _ cs2 (proj1 (cget_nth cs1 p q) E3) Es). }
  unfold handed in E. destruct (negb (c_kids c1) || (c_pnc c1 <? c_nc c1)%Z); [apply Hself; exact E|].
  destruct (c_nc c1 <? c_pnc c1)%Z; [apply Hdesc; exact E|]. destruct (fge (c_stab c1) (c_pstab c1)); [apply Hself|apply Hdesc]; exact E.
Qed.

Lemma slot_ptr ptrs cs i oc : rep ptrs (ptrs_from 0 cs) -> nth_error cs i = Some oc -> slot (al_data ptrs) i = Ok (match oc with Some _ => Some i | None => None end).
Proof.
  intros HP E. apply (slot_rep _ _ _ _ HP). clear HP. change i with (0 + i) at 2. generalize 0. revert i E. induction cs as [|d cs IH]; intros [|i] E b; try discriminate.
  - injection E as ->. destruct oc; cbn; rewrite ?Nat.add_0_r; reflexivity.
  - cbn in E. specialize (IH i E (S b)). rewrite <- plus_n_Sm. destruct d; cbn; exact IH.
Qed.
Lemma collect_sim ptrs ks cs : rep ptrs (ptrs_from 0 cs) -> cs_rel ks cs -> lab_ok cs -> forall order v s added s' added', svec v s ->
  collect_leaves cs order s added = Ok (s', added') -> exists v', c_collect_leaves ptrs ks order v added = Ok (v', added') /\ svec v' s'.
Proof.
  intros HP HC HL. induction order as [|i order IH]; intros v s added s' added' HV E; cbn [collect_leaves c_collect_leaves] in *; [injection E as <- <-; eauto|].
  step E oc E1. pose proof (aget_inv _ _ _ E1) as Hi. rewrite (slot_ptr ptrs cs i oc HP Hi). cbn [bind]. destruct oc as [c|]; [|apply (IH v s added s' added' HV E)].
  assert (Hc : cget cs i = Ok c) by (apply cget_nth; exact Hi). destruct (oget_sim ks cs i c HC Hc) as (o & O1 & O2 & _). rewrite O1. cbn [bind]. rewrite O2. cbn [erase c_kids c_label].
  destruct (c_kids c); [apply (IH v s added s' added' HV E)|]. destruct (sv_insert_into v s (c_label c) HV (proj1 (HL i c Hi))) as (v1 & V1 & V2). rewrite V1. cbn [bind].
  step E added1 E2. cbn [bind]. apply (IH v1 _ added1 s' added' V2 E).
Qed.

Lemma prop_loop_sim ptrs : forall fuel ks cs v s added inf inf' cs' tr, rep ptrs (ptrs_from 0 cs) -> cs_rel ks cs -> lab_ok cs -> svec v s ->
  propagate_loop fuel cs s added inf = Ok (inf', cs', tr) ->
  exists ks', c_propagate_loop fuel ptrs ks v added inf = Ok (inf', ks') /\ cs_rel ks' cs' /\ lab_ok cs' /\ ptrs_from 0 cs' = ptrs_from 0 cs.
Proof.
  induction fuel as [|f IH]; intros ks cs v s added inf inf' cs' tr HP HC HL HV E; cbn [propagate_loop c_propagate_loop] in *;
    (assert (He : (set_empty v =? 1)%Z = match s with [] => true | _ => false end) by (unfold set_empty, array_list_empty; rewrite (sv_size _ _ HV); destruct s; reflexivity));
    rewrite He; destruct s as [|s0 st]; try discriminate; try (injection E as <- <- <-; eauto 6).
  step E r E1. destruct r as [x s1]. destruct (sv_pop v _ x s1 HV E1) as (v1 & V1 & V2 & _). rewrite V1. cbn [bind fst snd got].
  step E cs1 E2. step E c E3. step E r E4. destruct r as [s2 added2]. cbn [fst snd] in E. step E t E5. destruct t as [[inf2 cs2] tr2]. injection E as <- <- <-.
  assert (Hb : exists c0, cget cs x = Ok c0). { unfold cluster_propagate in E2. destruct (cget cs x) as [c0| | |]; try discriminate. eauto. }
  destruct Hb as (c0 & Hc0). destruct (block_sim ptrs ks cs x c0 HP HC Hc0) as (o & O1 & _). rewrite O1. cbn [bind fst].
  destruct (propagate_sim ks cs x cs1 HC HL E2) as (ks1 & K1 & HC1 & HL1 & P1). rewrite K1. cbn [bind].
  destruct (oget_sim ks1 cs1 x c HC1 E3) as (o1 & O2 & O3 & _). rewrite O2. cbn [bind]. rewrite O3. cbn [erase c_stab c_parent].
  rewrite <- P1 in HP. rewrite <- P1. destruct (c_parent c) as [p|]; [|injection E4 as <- <-; apply (IH _ _ _ _ _ _ _ _ _ HP HC1 HL1 V2 E5)].
  step E4 q E6. destruct (oget_sim ks1 cs1 p q HC1 E6) as (oq & Q1 & Q2 & _). rewrite Q1. cbn [bind]. rewrite Q2. cbn [erase c_label].
  step E4 a E7. cbn [bind]. destruct a; [injection E4 as <- <-; apply (IH _ _ _ _ _ _ _ _ _ HP HC1 HL1 V2 E5)|].
  step E4 ad E8. injection E4 as <- <-. destruct (sv_insert_into v1 s1 (c_label q) V2 (proj1 (lab_get cs1 p q HL1 E6))) as (v2 & V3 & V4). rewrite V3. cbn [bind].
  apply (IH _ _ _ _ _ _ _ _ _ HP HC1 HL1 V4 E5).
Qed.

Lemma propagate_tree_sim ptrs fuel ks cs order inf cs' tr : rep ptrs (ptrs_from 0 cs) -> cs_rel ks cs -> lab_ok cs -> propagate_tree fuel cs order = Ok (inf, cs', tr) ->
  exists ks', c_propagate_tree fuel ptrs ks order = Ok (inf, ks') /\ cs_rel ks' cs' /\ lab_ok cs' /\ ptrs_from 0 cs' = ptrs_from 0 cs.
Proof.
  intros HP HC HL E. unfold propagate_tree in E. unfold c_propagate_tree. step E r E1. destruct r as [s added]. cbn [fst snd] in E.
  destruct (set_init (A := nat)) as [v| | |] eqn:Ev; try discriminate Ev. cbn [bind]. apply set_init_rep in Ev.
  assert (Hs : al_size ptrs = length cs) by (rewrite (proj1 HP), ptrs_length; reflexivity). rewrite Hs.
  destruct (collect_sim ptrs ks cs HP HC HL order v [] _ s added (sv_nil v (proj1 Ev)) E1) as (v1 & V1 & V2). rewrite V1. cbn [bind fst snd].
  apply (prop_loop_sim ptrs fuel ks cs v1 s added false inf cs' tr HP HC HL V2 E).
Qed.

(** ** The table of significant clusters *)
Definition sfind (m : list (nat * list nat)) (k : nat) : option (list nat) := option_map snd (find (fun p => fst p =? k) m).
Lemma sfind_add o label m k : sfind (sig_add o label m) k = if k =? o then Some (match sfind m o with Some l => l | None => [] end ++ [label]) else sfind m k.
Proof.
  unfold sfind. induction m as [|[j l] m IH]; cbn [sig_add find fst].
  - destruct (Nat.eqb_spec o k) as [->|Hne]; [rewrite Nat.eqb_refl; reflexivity|]. destruct (Nat.eqb_spec k o); [congruence|reflexivity].
  - destruct (Nat.eqb_spec j o) as [->|Hjo]; cbn [find fst].
    + destruct (Nat.eqb_spec o k) as [->|Hne]; [rewrite Nat.eqb_refl; reflexivity|]. destruct (Nat.eqb_spec k o); [congruence|reflexivity].
    + destruct (Nat.eqb_spec j k) as [->|Hjk]; [destruct (Nat.eqb_spec k o); [congruence|reflexivity]|]. exact IH.
Qed.
Lemma sfind_in m k : sfind m k <> None <-> In k (map fst m).
Proof.
  unfold sfind. induction m as [|[j l] m IH]; cbn [find fst map In option_map]; [tauto|]. destruct (Nat.eqb_spec j k) as [->|Hne]; cbn [option_map]; [split; [auto|discriminate]|].
  rewrite IH. split; [auto|intros [?|?]; [contradiction|assumption]].
Qed.
Lemma sig_add_fst o label m : NoDup (map fst m) -> NoDup (map fst (sig_add o label m)) /\ forall k, In k (map fst (sig_add o label m)) <-> k = o \/ In k (map fst m).
Proof.
  induction m as [|[j l] m IH]; cbn [sig_add map fst]; intros H.
  - split; [repeat constructor; auto|]. intros k. cbn [In]. split; [intros [->|[]]; auto|intros [->|[]]; auto].
  - inversion_clear H as [|? ? Hn Hd]. destruct (Nat.eqb_spec j o) as [->|Hne]; cbn [map fst].
    + split; [constructor; assumption|]. intros k. cbn [In]. split; [tauto|]. intros [->|?]; auto.
    + destruct (IH Hd) as [I1 I2]. split; [constructor; [|exact I1]; intros Hx; apply I2 in Hx; destruct Hx; congruence|]. intros k. cbn [In]. rewrite I2. tauto.
Qed.

Definition vl_rel (v : option vec) (l : option (list nat)) : Prop := match v, l with Some v, Some l => lvec v l | None, None => True | _, _ => False end.
Record sig_rel (t : ltable vec) (m : list (nat * list nat)) : Prop := mk_sig {
  sg_tab : exists f, lt_rel t f /\ forall k, small k -> vl_rel (f k) (sfind m k);
  sg_nd : NoDup (map fst m);
  sg_small : Forall small (map fst m) }.

Lemma group_step_sim ks cs sol ls i x c t m : cs_rel ks cs -> lab_ok cs -> rep sol ls -> nth_error ls i = Some x -> cget cs x = Ok c -> sig_rel t m ->
  exists t', c_group_step ks sol i t = Ok t' /\ sig_rel t' (sig_add (c_offset c) (c_label c) m).
Proof.
  intros HC HL HS Hx Hc [(f & F1 & F2) Hnd Hsm]. unfold c_group_step, array_list_value_at. pose proof HS as (Hsz & _).
  assert (Hi : i < length ls) by (apply nth_error_Some; congruence). replace (al_size sol <=? i) with false by lia.
  rewrite (slot_rep _ _ _ _ HS Hx). cbn [bind fst snd got]. change (1 =? 0)%Z with false. cbn iota.
  destruct (oget_sim ks cs x c HC Hc) as (o & O1 & O2 & _). rewrite O1. cbn [bind]. rewrite O2. cbn [erase c_offset c_label].
  destruct (lab_get cs x c HL Hc) as [Ll Lo]. set (k := c_offset c) in *. set (lb := c_label c) in *.
  assert (Hm : NoDup (map fst (sig_add k lb m)) /\ Forall small (map fst (sig_add k lb m))).
  { destruct (sig_add_fst k lb m Hnd) as [A1 A2]. split; [exact A1|]. apply Forall_forall. intros j Hj. apply A2 in Hj. destruct Hj as [->|Hj]; [exact Lo|]. rewrite Forall_forall in Hsm. auto. }
  assert (Hfin : forall t1 f1 a v, lt_rel t1 f1 -> lt_find t1 k = Ok (Some a) -> ModelMap.pt_load t1 a = Ok v ->
    lvec v (match sfind m k with Some l => l | None => [] end) -> (forall j, small j -> j <> k -> vl_rel (f1 j) (sfind m j)) ->
    exists t', (let! l := ModelMap.pt_load t1 a in let! r := array_list_append l lb in ModelMap.pt_store t1 a (fst r)) = Ok t' /\ sig_rel t' (sig_add k lb m)).
  { intros t1 f1 a v G1 G2 G3 G4 G5. rewrite G3. cbn [bind]. destruct (lv_append v _ lb G4 Ll) as (v' & A1 & A2). rewrite A1. cbn [bind fst].
    destruct (lt_store_sim t1 f1 k a v' G1 Lo G2) as (t' & T1 & T2). exists t'. split; [exact T1|]. constructor; [|apply Hm|apply Hm].
    eexists. split; [exact T2|]. intros j Hj. cbn beta. rewrite sfind_add. destruct (Nat.eqb_spec j k) as [->|Hne]; [exact A2|apply G5; assumption]. }
  pose proof (F2 k Lo) as Hk. destruct (f k) as [v|] eqn:Ef.
  - destruct (lt_find_some t f k v F1 Lo Ef) as (a & A1 & A2). rewrite A1. cbn [bind fst snd]. destruct (sfind m k) as [l|] eqn:El; [|contradiction].
    apply (Hfin t f a v F1 A1 A2 Hk). intros j Hj _. apply F2. exact Hj.
  - rewrite (lt_find_none t f k F1 Lo Ef). cbn [bind]. destruct (array_list_init (A := nat) 16) as [v| | |] eqn:Ev; try discriminate Ev. cbn [bind].
    apply rep_init in Ev. destruct (lt_insert_sim t f k v F1 Lo Ef) as (t1 & T1 & T2 & T3 & T4). rewrite T1. cbn [bind fst snd].
    destruct (sfind m k) as [l|] eqn:El; [contradiction|]. apply (Hfin t1 _ _ v T4 T3).
    + unfold ModelMap.pt_load. apply aget_nth. rewrite T2, nth_error_app2, Nat.sub_diag by lia. reflexivity.
    + apply lv_nil. apply Ev.
    + intros j Hj Hne. cbn beta. destruct (Nat.eqb_spec j k); [contradiction|]. apply F2. exact Hj.
Qed.

Lemma group_sim ks cs sol ls : cs_rel ks cs -> lab_ok cs -> rep sol ls -> forall order t m m', sig_rel t m -> group_solution cs ls order m = Ok m' ->
  exists t', c_group ks sol order t = Ok t' /\ sig_rel t' m'.
Proof.
  intros HC HL HS. induction order as [|i order IH]; intros t m m' HR E; cbn [group_solution c_group] in *; [injection E as <-; eauto|].
  step E x E1. step E c E2. destruct (group_step_sim ks cs sol ls i x c t m HC HL HS (aget_inv _ _ _ E1) E2 HR) as (t1 & T1 & T2). rewrite T1. cbn [bind].
  apply (IH t1 _ m' T2 E).
Qed.

Lemma find_mem v l x : lvec v l -> small x -> exists z, array_list_find vcmp v x 0 = Ok z /\ (z =? -1)%Z = negb (set_mem x l).
Proof.
  intros H Hx. unfold array_list_find. change (0 =? 1)%Z with false. cbn iota.
  assert (E : unordered_search vcmp v x = unordered_search ncmp v x).
  { unfold unordered_search. apply (unordered_search_ext vcmp ncmp (al_data v) x (al_size v)); [|lia]. intros i a Hi Ha. apply (stored v l x H Hx i a Hi Ha). }
  rewrite E. destruct H as [R F]. rewrite (unordered_search_ok ncmp v l x R). eexists. split; [reflexivity|]. clear R F E v.
  induction l as [|y l IH]; [reflexivity|]. cbn [index_of]. unfold set_mem in *. cbn [existsb].
  assert (Eq : eqv ncmp y x = (x =? y)) by (unfold eqv, ncmp, int_compare; destruct (Z.of_nat y >? Z.of_nat x)%Z eqn:E1; [lia|]; destruct (Z.of_nat y =? Z.of_nat x)%Z eqn:E2; lia).
  rewrite Eq. destruct (x =? y); cbn [orb negb]; [reflexivity|]. rewrite <- IH. destruct (index_of (eqv ncmp) l x); lia.
Qed.

Lemma sfind_nth m i k l : NoDup (map fst m) -> nth_error m i = Some (k, l) -> sfind m k = Some l.
Proof.
  unfold sfind. revert i. induction m as [|[j x] m IH]; intros i H E; [destruct i; discriminate|]. cbn [map fst] in H. inversion_clear H as [|? ? Hn Hd]. cbn [find fst].
  destruct i as [|i]; cbn [nth_error] in E; [injection E as -> ->; rewrite Nat.eqb_refl; reflexivity|].
  destruct (Nat.eqb_spec j k) as [->|Hne]; [|apply (IH i Hd E)]. exfalso. apply Hn. apply nth_error_In in E. apply in_map_iff. exists (k, l). auto.
Qed.

Section Labels.
Variables (H : entries) (th : ltable (f64 * list nat)).
Hypotheses (HT : lt_rel th (hget H)) (HK : forall i, hget H i <> None -> small i) (HE : forall i w ls, hget H i = Some (w, ls) -> Forall small ls).

Lemma label_point_sim t m labels labels' i i' j k l : sig_rel t m -> lt_key t i = Ok k -> nth_error m i' = Some (k, l) ->
  label_point H m labels i' j = Ok labels' -> c_label_point th t labels i j = Ok labels'.
Proof.
  intros [(f & F1 & F2) Hnd Hsm] Hk Hm E. unfold label_point in E. rewrite (aget_nth _ _ _ Hm) in E. cbn [bind fst snd] in E.
  destruct (hget H (S k)) as [[w ls]|] eqn:EH; [|discriminate]. cbn [snd] in E. step E lb E1.
  unfold c_label_point. rewrite Hk. cbn [bind].
  assert (Sk : small k). { rewrite Forall_forall in Hsm. apply Hsm. apply in_map_iff. exists (k, l). split; [reflexivity|]. apply nth_error_In in Hm. exact Hm. }
  pose proof (F2 k Sk) as Hv. rewrite (sfind_nth m i' k l Hnd Hm) in Hv. destruct (f k) as [v|] eqn:Ef; [|contradiction].
  destruct (lt_find_some t f k v F1 Sk Ef) as (a & A1 & A2). rewrite A1. cbn [bind got]. rewrite A2. cbn [bind].
  assert (SS : small (S k)) by (apply HK; congruence). destruct (lt_find_some th _ (S k) (w, ls) HT SS EH) as (b & B1 & B2). rewrite B1. cbn [bind got]. rewrite B2. cbn [bind snd].
  rewrite E1. cbn [bind].
  assert (Sl : small lb). { pose proof (HE _ _ _ EH) as Fl. rewrite Forall_forall in Fl. apply Fl. apply aget_inv, nth_error_In in E1. exact E1. }
  destruct (find_mem v l lb Hv Sl) as (z & Z1 & Z2). rewrite Z1. cbn [bind]. rewrite Z2. destruct (set_mem lb l); exact E.
Qed.

Lemma label_points_sim t m (phi : nat -> nat) : sig_rel t m -> (forall i, i < length m -> exists k l, lt_key t i = Ok k /\ nth_error m (phi i) = Some (k, l)) ->
  forall acts labels r, Forall (fun p => fst p < length m) acts -> label_points H m labels (map (fun p => (phi (fst p), snd p)) acts) = Ok r ->
  c_label_points th t labels acts = Ok r.
Proof.
  intros HR HP. induction acts as [|[i j] acts IH]; intros labels r HF E; cbn [map label_points c_label_points fst snd] in *; [exact E|].
  inversion_clear HF as [|? ? Hi HF']. step E l1 E1. destruct (HP i Hi) as (k & l & K1 & K2). rewrite (label_point_sim t m labels l1 i (phi i) j k l HR K1 K2 E1). cbn [bind].
  apply (IH l1 r HF' E).
Qed.
End Labels.

Lemma sig_order t m : sig_rel t m -> al_size (ModelHash.ht_keys (ModelMap.pt_tab t)) = length m /\
  exists phi, (forall i, i < length m -> phi i < length m) /\ (forall i j, phi i = phi j -> i = j) /\
    forall i, i < length m -> exists k l, lt_key t i = Ok k /\ nth_error m (phi i) = Some (k, l).
Proof.
  intros [(f & F1 & F2) Hnd Hsm]. destruct (lt_keys_sim t f F1) as (ks & K1 & K2 & K3 & K4 & K5).
  assert (HP : Permutation (map fst m) ks).
  { apply NoDup_Permutation; [exact Hnd|exact K2|]. rewrite Forall_forall in *. intros k.
    assert (Hq : small k -> f k <> None <-> sfind m k <> None).
    { intros Sk. pose proof (F2 k Sk) as Hv. unfold vl_rel in Hv. destruct (f k), (sfind m k); try contradiction; split; congruence. }
    split; intros Hk.
    - assert (Sk := Hsm k Hk). apply K4; [exact Sk|]. apply Hq; [exact Sk|]. apply sfind_in. exact Hk.
    - assert (Sk := K3 k Hk). apply sfind_in. apply Hq; [exact Sk|]. apply K4; assumption. }
  pose proof (Permutation_length HP) as HL. rewrite map_length in HL. split; [congruence|].
  apply Permutation_nth_error in HP. destruct HP as (_ & phi & P1 & P2). exists phi.
  assert (Hone : forall i, i < length m -> exists k l, lt_key t i = Ok k /\ nth_error m (phi i) = Some (k, l)).
  { intros i Hi. destruct (nth_error ks i) as [k|] eqn:Ek; [|apply nth_error_None in Ek; lia]. specialize (P2 i). rewrite Ek, nth_error_map in P2.
    destruct (nth_error m (phi i)) as [[k' l]|]; [|discriminate]. cbn [option_map fst] in P2. injection P2 as <-. exists k, l. split; [apply K5; exact Ek|reflexivity]. }
  split; [|split; [exact P1|exact Hone]]. intros i Hi. destruct (Hone i Hi) as (k & l & _ & En). apply nth_error_Some. congruence.
Qed.

Lemma list_prod_perm {A B} (l l' : list A) (b : list B) : Permutation l l' -> Permutation (list_prod l b) (list_prod l' b).
Proof.
  induction 1; cbn [list_prod]; [constructor|apply Permutation_app_head; assumption| |etransitivity; eassumption].
  rewrite !app_assoc. apply Permutation_app_tail, Permutation_app_comm.
Qed.
Lemma list_prod_map {A B C} (g : A -> C) (l : list A) (b : list B) : map (fun p => (g (fst p), snd p)) (list_prod l b) = list_prod (map g l) b.
Proof. induction l as [|x l IH]; [reflexivity|]. cbn [list_prod map]. rewrite map_app, IH, map_map. reflexivity. Qed.
Lemma acts_perm k n phi acts : (forall i, i < k -> phi i < k) -> (forall i j, phi i = phi j -> i = j) -> Permutation (list_prod (seq 0 k) (seq 0 n)) acts ->
  Permutation (list_prod (seq 0 k) (seq 0 n)) (map (fun p => (phi (fst p), snd p)) acts).
Proof.
  intros H1 H2 HP. transitivity (map (fun p => (phi (fst p), snd p)) (list_prod (seq 0 k) (seq 0 n))); [|apply Permutation_map; exact HP].
  rewrite list_prod_map. apply list_prod_perm. symmetry. apply NoDup_Permutation_bis.
  - apply FinFun.Injective_map_NoDup; [exact H2|apply seq_NoDup].
  - rewrite map_length. lia.
  - intros x Hx. apply in_map_iff in Hx. destruct Hx as (i & <- & Hi). apply in_seq in Hi. apply in_seq. specialize (H1 i). lia.
Qed.

(** ** hdbscan_find_prominent_clusters: the concrete run is a run of the other layer with
    the steps in another order *)
Lemma prominent_sim n ptrs ks cs H th root (order : nat -> list nat) acts labels : rep ptrs (ptrs_from 0 cs) -> cs_rel ks cs -> lab_ok cs ->
  lt_rel th (hget H) -> (forall i, hget H i <> None -> small i) -> (forall i w ls, hget H i = Some (w, ls) -> Forall small ls) ->
  cget cs 1 = Ok root -> (forall keys, Permutation (list_prod (seq 0 keys) (seq 0 n)) (acts keys)) ->
  (forall acts', (forall keys, Permutation (list_prod (seq 0 keys) (seq 0 n)) (acts' keys)) ->
     find_prominent n cs H (order (length (c_desc root))) acts' = Ok labels) ->
  c_find_prominent n ptrs ks th order acts = Ok labels.
Proof.
  intros HP HC HL HT HK HE Hr Ha Hf. unfold c_find_prominent. destruct (block_sim ptrs ks cs 1 root HP HC Hr) as (o & O1 & O2). rewrite O1. cbn [bind snd].
  destruct O2 as (_ & O3 & Od). rewrite (proj1 Od). destruct (lt_init_sim (V := vec) (Z.of_nat (length (c_desc root)))) as (t & T1 & T2). rewrite T1. cbn [bind].
  assert (Hm : exists m, group_solution cs (c_desc root) (order (length (c_desc root))) [] = Ok m).
  { pose proof (Hf acts Ha) as E. unfold find_prominent in E. rewrite Hr in E. cbn [bind] in E. step E m E1. eauto. }
  destruct Hm as (m & Hm).
  assert (HS0 : sig_rel t []). { constructor; [exists (fun _ => None); split; [exact T2|intros; exact I]|constructor|constructor]. }
  destruct (group_sim ks cs (o_desc o) (c_desc root) HC HL Od _ t [] m HS0 Hm) as (t' & G1 & G2). rewrite G1. cbn [bind].
  destruct (sig_order t' m G2) as (S1 & phi & S2 & S3 & S4). rewrite S1.
  set (acts' := fun keys => if keys =? length m then map (fun p => (phi (fst p), snd p)) (acts keys) else acts keys).
  assert (Ha' : forall keys, Permutation (list_prod (seq 0 keys) (seq 0 n)) (acts' keys)).
  { intros keys. unfold acts'. destruct (Nat.eqb_spec keys (length m)) as [->|Hne]; [|apply Ha]. apply acts_perm; [exact S2|exact S3|apply Ha]. }
  pose proof (Hf acts' Ha') as E. unfold find_prominent in E. rewrite Hr in E. cbn [bind] in E. rewrite Hm in E. cbn [bind] in E. unfold acts' in E. rewrite Nat.eqb_refl in E.
  apply (label_points_sim H th HT HK HE t' m phi G2 S4 _ _ _); [|exact E].
  apply Forall_forall. intros [i j] Hin. apply (Permutation_in _ (Permutation_sym (Ha (length m)))) in Hin. apply in_prod_iff in Hin. destruct Hin as [Hi _]. apply in_seq in Hi. cbn [fst]. lia.
Qed.

(** ** Outlier scores *)
Lemma outliers_sim q ptrs ks cs noise last core n os : rep ptrs (ptrs_from 0 cs) -> cs_rel ks cs -> outlier_scores q cs noise last core n = Ok os ->
  c_outlier_scores q ptrs ks noise last core n = Ok os.
Proof.
  intros HP HC E. unfold outlier_scores, collect_outliers in E. unfold c_outlier_scores. step E l E1. injection E as <-.
  assert (Hl : forall k m acc l, for_up k m (fun i acc => let! o := outlier_of cs noise last core i in Ok (acc ++ [o])) acc = Ok l ->
    for_up k m (fun i acc => let! o := c_outlier_of ptrs ks noise last core i in Ok (acc ++ [o])) acc = Ok l); [|rewrite (Hl _ _ _ _ E1); reflexivity].
  clear E1 l. intros lo m. revert lo. induction m as [|m IH]; intros lo acc l E1; [exact E1|]. cbn [for_up] in *. step E1 acc1 E2. step E2 o E3. injection E2 as <-.
  assert (Ho : c_outlier_of ptrs ks noise last core lo = Ok o); [|rewrite Ho; cbn [bind]; apply IH; exact E1].
  unfold outlier_of in E3. unfold c_outlier_of. step E3 t T1. destruct t as [t|]; [|discriminate]. cbn [bind got]. step E3 c T2. step E3 eps T3. destruct eps as [eps|]; [|discriminate].
  step E3 cd T4. destruct cd as [cd|]; [|discriminate]. injection E3 as <-. destruct (block_sim ptrs ks cs t c HP HC T2) as (b & B1 & B2 & _). rewrite B1. cbn [bind got snd].
  rewrite B2. reflexivity.
Qed.
