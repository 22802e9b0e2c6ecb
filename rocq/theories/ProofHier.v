(** The outer loop of the hierarchy construction. *)
From Coq Require Import Relations Permutation.
From Verif Require Import Base F64 F64Facts ListFacts ModelMst ModelGraph ModelCluster ModelHier ProofMst ProofGraph
  SpecGraph ProofSets ProofExplore ProofTree ProofLabel ProofTies.
From Verif Require Import SpecHier.
From Coq Require Import ZifyBool ZifyNat.
Local Open Scope nat_scope.

Lemma write_offsets_ok line new : forall cs, (forall p, In p new -> exists c, nth_error cs p = Some (Some c)) ->
  exists cs', write_offsets cs new line = Ok cs' /\ length cs' = length cs
  /\ forall p, nth_error cs' p = if in_dec Nat.eq_dec p new then option_map (option_map (fun c => set_offset c line)) (nth_error cs p)
                                 else nth_error cs p.
Proof.
  induction new as [|p new IH]; intros cs H; cbn [write_offsets].
  - exists cs. split; [reflexivity|]. split; [reflexivity|]. intros p. destruct (in_dec Nat.eq_dec p []) as [[]|_]. reflexivity.
  - destruct (H p (or_introl eq_refl)) as [c Hc]. unfold cget. rewrite (aget_nth _ _ _ Hc). cbn [bind].
    assert (Hp : p < length cs) by (apply nth_error_Some; congruence).
    unfold cset. rewrite aset_ok by exact Hp. cbn [bind].
    destruct (IH (upd cs p (Some (set_offset c line)))) as (cs' & R1 & R2 & R3).
    { intros q Hq. rewrite nth_error_upd' by exact Hp. destruct (Nat.eqb_spec q p); [eauto|]. apply H. right. exact Hq. }
    exists cs'. split; [exact R1|]. split; [rewrite R2; apply upd_length|]. intros q. rewrite R3, nth_error_upd' by exact Hp.
    destruct (Nat.eqb_spec q p) as [->|Hq].
    + destruct (in_dec Nat.eq_dec p (p :: new)) as [_|i]; [|exfalso; apply i; left; reflexivity]. rewrite Hc. cbn.
      destruct (in_dec Nat.eq_dec p new); reflexivity.
    + destruct (in_dec Nat.eq_dec q new) as [i|i], (in_dec Nat.eq_dec q (p :: new)) as [j|j]; try reflexivity.
      * exfalso. apply j. right. exact i.
      * destruct j as [j|j]; [congruence|contradiction].
Qed.

(** Two states that differ only in cluster offsets (and in the list of new clusters). *)
Record off_eq (s s' : lstate) : Prop := {
  oe_cur : l_cur s' = l_cur s;
  oe_next : l_next s' = l_next s;
  oe_noise : l_noise s' = l_noise s;
  oe_last : l_last s' = l_last s;
  oe_len : length (l_cs s') = length (l_cs s);
  oe_null : nth_error (l_cs s) 0 = Some None -> nth_error (l_cs s') 0 = Some None;
  oe_c : forall k c, clus s k c -> exists o, clus s' k (set_offset c o);
  oe_c' : forall k c', clus s' k c' -> exists c o, clus s k c /\ c' = set_offset c o }.

Lemma off_eq_parent s s' j p : off_eq s s' -> parentof s j p <-> parentof s' j p.
Proof.
  intros H. split.
  - intros (c & H1 & H2). destruct (oe_c _ _ H j c H1) as [o Ho]. exists (set_offset c o). split; [exact Ho|exact H2].
  - intros (c & H1 & H2). destruct (oe_c' _ _ H j c H1) as (c0 & o & H3 & ->). exists c0. split; [exact H3|exact H2].
Qed.

Lemma off_eq_kid s s' k b : off_eq s s' -> kidof s k b <-> kidof s' k b.
Proof.
  intros H. split.
  - intros (j & c & H1 & H2 & H3). destruct (oe_c _ _ H j c H1) as [o Ho]. exists j, (set_offset c o). auto.
  - intros (j & c & H1 & H2 & H3). destruct (oe_c' _ _ H j c H1) as (c0 & o & H4 & ->). exists j, c0. auto.
Qed.

Lemma CInv_offsets n minPts ws D w B s s' : off_eq s s' -> CInv n minPts ws D w B s -> CInv n minPts ws D w B s'.
Proof.
  intros H HC. pose proof (fun j p => off_eq_parent s s' j p H) as Hp. pose proof (fun k b => off_eq_kid s s' k b H) as Hq.
  destruct H, HC. constructor.
  - congruence.
  - congruence.
  - congruence.
  - congruence.
  - congruence.
  - lia.
  - auto.
  - intros k Hk. destruct (ci_c k ltac:(lia)) as (c & C1 & C2). destruct (oe_c0 k c C1) as [o Ho].
    exists (set_offset c o). split; [exact Ho|]. destruct C2.
    constructor; cbn [c_label c_birth c_death c_num c_offset c_stab c_pstab c_plow c_nc c_pnc c_virtual c_parent c_desc c_kids set_offset];
      rewrite ?oe_cur0, ?oe_last0, ?oe_noise0; auto.
    + rewrite cg_kids. split; intros [j Hj]; exists j; apply Hp; exact Hj.
    + intros Hz. destruct (cg_event Hz) as [F1 F2]. split; [|intros b Hb; apply F2, Hq, Hb].
      destruct F1 as [F1|F1]; [left; exact F1|right; apply Hq; exact F1].
    + destruct cg_ledger as [evs HL]. exists evs. apply (ledger_keep ws D w B B s s' k c (set_offset c o) evs HL); try reflexivity.
      * intros v _. unfold lab. rewrite oe_cur0. reflexivity.
      * split; [intros v Hv; rewrite oe_last0, oe_noise0; auto|]. intros j cj J1 J2. destruct (oe_c0 j cj J1) as [oj Hoj].
        exists (set_offset cj oj). auto.
  - exact ci_born.
  - exact ci_root.
  - intros v Hv. unfold lab. rewrite oe_cur0, oe_next0, oe_noise0, oe_last0. apply ci_lab. exact Hv.
  - intros j p v Hj. unfold lab. rewrite oe_cur0. apply ci_left. apply Hp. exact Hj.
  - intros j k p v Hjk Hj Hk. apply (ci_sib j k p v Hjk); apply Hp; assumption.
Qed.

Lemma feq_trans' a b c : feq a b = true -> feq c b = false -> feq c a = false.
Proof.
  intros H1 H2. destruct (feq c a) eqn:H3; [|reflexivity]. apply feq_true in H1, H3.
  rewrite <- H2. symmetry. destruct H1 as (N1 & N2 & K1), H3 as (N3 & N4 & K3). apply feq_intro; try assumption. congruence.
Qed.

Lemma levels_trans e minPts n compact x y z : levels e minPts n compact x y -> levels e minPts n compact y z -> levels e minPts n compact x z.
Proof. intros H1 H2. revert H1. induction H2 as [x1|x1 y1 z1 H2 IH Hk Hs]; intros H1; [exact H1|]. apply levels_next with y1; auto. Qed.

Lemma cnt_repeat x k : cnt x (repeat x k) = k.
Proof. induction k as [|k IH]; cbn; [reflexivity|]. destruct (Nat.eq_dec x x); lia. Qed.
Lemma nth_repeat' {T} (x d : T) k v : v < k -> nth v (repeat x k) d = x.
Proof. revert v; induction k as [|k IH]; intros [|v] H; cbn; try lia; [reflexivity|]. apply IH. lia. Qed.
Lemma nth_error_repeat' {T} (x : T) k v : v < k -> nth_error (repeat x k) v = Some x.
Proof. revert v; induction k as [|k IH]; intros [|v] H; cbn; try lia; [reflexivity|]. apply IH. lia. Qed.
Lemma nth_error_repeat_in {T} (x y : T) k v : nth_error (repeat x k) v = Some y -> y = x.
Proof. intros H. apply nth_error_In in H. apply repeat_spec in H. exact H. Qed.

Section Hier.
Variables n m minPts : nat.
Variable e : edges.
Variable compact : bool.
Variable D : f64 -> f64 -> Prop.
Hypothesis Hn : (Z.of_nat n < M32)%Z.
Hypothesis Hwf : wf m e.
Hypothesis Hv : forall i, i < m -> va e i < n /\ vb e i < n.
Hypothesis HDt : forall a b c, D a b -> D b c -> D a c.
Hypothesis HDw : forall i j i', i < j -> j < m -> feq (ew e i) (ew e j) = false -> i' <= i -> D (ew e j) (ew e i').

Notation va := (va e).
Notation vb := (vb e).
Notation ew := (ew e).
Notation ws := (e_w e).
Notation CI := (CInv n minPts ws D).
Notation E := (E e).

Record Core (B : list (list nat)) (k : nat) (h : hstate) : Prop := {
  co_k : k <= m;
  co_bd : k = m \/ (k < m /\ (0 < k -> feq (ew (k - 1)) (ew k) = false));
  co_adj : adjInv n e k (h_adj h);
  co_inv0 : exists w0, CI w0 B (h_l h);
  co_inv : forall j, j < k -> CI (ew j) B (h_l h);
  co_birth : forall l c j, clus (h_l h) l c -> 2 <= l -> j < k -> D (c_birth c) (ew j);
  co_new : l_new (h_l h) = [];
  co_av : h_av h = [];
  co_al : h_al h = [];
  co_prev : h_prev h = l_cur (h_l h);
  co_edge : forall i, i < k -> lab (h_l h) (va i) = lab (h_l h) (vb i) }.

(** What one iteration of the outer loop does. *)
Record Lev (B : list (list nat)) (k : nat) (h : hstate) (A : list nat) (B' : list (list nat)) (k' : nat) (s' : lstate) (h' : hstate) : Prop := {
  le_k : k' < k;
  le_adj : adjInv n e k' (h_adj h');
  le_lv : LV n (h_adj h') minPts ws D (ew (k - 1)) B (h_l h) A [] [] B' s';
  le_A : forall v, In v A <-> exists i, k' <= i < k /\ lab (h_l h) (va i) <> 0 /\ (v = va i \/ v = vb i);
  le_tie : forall i, k' <= i < k -> feq (ew i) (ew (k - 1)) = true;
  le_bd : 0 < k' -> feq (ew (k' - 1)) (ew (k - 1)) = false;
  le_off : off_eq s' (h_l h');
  le_new : l_new (h_l h') = [] /\ h_av h' = [] /\ h_al h' = [] /\ h_prev h' = l_cur (h_l h');
  le_case :
    (A = [] /\ B' = B /\ s' = h_l h /\ h_l h' = h_l h /\ h_line h' = h_line h /\ h_hier h' = h_hier h /\ h_sig h' = h_sig h)
    \/ (A <> [] /\ h_sig h' = (l_next (h_l h) <? l_next s')
        /\ ((negb compact || h_sig h || (l_next (h_l h) <? l_next s') = true
             /\ h_line h' = S (h_line h) /\ h_hier h' = hput (h_hier h) (S (h_line h)) (ew (k - 1), l_cur (h_l h)))
            \/ (negb compact || h_sig h || (l_next (h_l h) <? l_next s') = false
             /\ h_line h' = h_line h /\ h_hier h' = h_hier h)));
  le_offs : forall l c, clus s' l c -> clus (h_l h') l (if l_next (h_l h) <=? l then set_offset c (h_line h') else c) }.

Lemma level_ok B k h : 0 < k -> feq (ew (k - 1)) (ew (k - 1)) = true -> Core B k h ->
  exists k' h' s' B' A, hier_level e minPts n compact k h = Ok (k', h') /\ Lev B k h A B' k' s' h'.
Proof.
  intros Hk Hnan [C1 _ C2 _ C4 C5 C6 C7 C8 C9 C10].
  assert (Hlw : length ws = m) by apply Hwf.
  unfold hier_level. rewrite (aget_in ws (k - 1) fzero) by lia. cbn [bind]. fold (ew (k - 1)).
  set (w := ew (k - 1)). set (s := h_l h) in *. rewrite C7, C8.
  assert (HC : CI w B s) by (apply C4; lia).
  destruct (remove_ties_ok n e m Hwf Hv s w (ci_cur _ _ _ _ _ _ _ HC) k (h_adj h) [] [] C1 C2)
    as (adj & av & al & k' & R1 & R2 & R3 & R4 & R5 & R6 & R7 & R8 & R9); [constructor|constructor|].
  rewrite R1. cbn [bind].
  assert (Hk' : k' < k).
  { destruct (Nat.eq_dec k' k) as [->|]; [|lia]. specialize (R9 Hk). unfold w in R9. congruence. }
  assert (R6' : forall v, In v av <-> exists i, k' <= i < k /\ lab s (va i) <> 0 /\ (v = va i \/ v = vb i)).
  { intros v. rewrite R6. split; [intros [[]|H]; exact H|auto]. }
  assert (R7' : forall l, In l al <-> exists i, k' <= i < k /\ lab s (va i) <> 0 /\ l = lab s (va i)).
  { intros l. rewrite R7. split; [intros [[]|H]; exact H|auto]. }
  assert (Hav : forall v, In v av -> v < n /\ In (lab s v) al).
  { intros v Hvi. apply R6' in Hvi. destruct Hvi as (i & I1 & I2 & I3). destruct (Hv i ltac:(lia)) as [V1 V2].
    split; [destruct I3; subst; assumption|]. apply R7'. exists i. split; [exact I1|]. split; [exact I2|].
    destruct I3; subst v; [reflexivity|]. symmetry. apply C10. lia. }
  assert (Hlen : length adj = n) by apply R3.
  assert (Hlt : forall a b, step adj a b -> b < n) by (apply (adj_lt n e m Hwf Hv k'); [lia|exact R3]).
  assert (Hsym : forall a b, step adj a b -> step adj b a) by (apply (adj_sym n e m Hwf Hv k'); [lia|exact R3]).
  assert (Hedge : edge_lab adj s).
  { intros a b Hab. apply (adj_step n e m Hwf Hv k') in Hab; [|lia|exact R3]. destruct Hab as (i & I1 & [[<- <-]|[<- <-]]); [|symmetry]; apply C10; lia. }
  assert (HL : LV n adj minPts ws D w B s av al av B s).
  { constructor.
    - exact HC.
    - exact Hedge.
    - lia.
    - exists []. rewrite app_nil_r. reflexivity.
    - split; [exact R5|]. intros l Hl. apply R7' in Hl. destruct Hl as (i & I1 & I2 & ->). destruct (Hv i ltac:(lia)) as [V1 V2].
      split; [pose proof (proj1 (ci_lab _ _ _ _ _ _ _ HC (va i) V1)); lia|]. exists (va i). split; [|reflexivity].
      apply R6'. exists i. auto.
    - exact R4.
    - intros v. split; [intros Hx; split; [exact Hx|apply Hav; exact Hx]|intros [Hx _]; exact Hx].
    - auto.
    - intros v Hvn Hni. constructor; [auto| |].
      + intros a Ha Hc. exfalso. apply Hni. rewrite <- (edge_conn adj s a v Hedge Hc). apply Hav. exact Ha.
      + intros a Ha Hc. exfalso. apply Hni. rewrite <- (edge_conn adj s a v Hedge Hc). apply Hav. exact Ha.
    - intros j c Hc. exists c. split; [exact Hc|]. split; [apply same_id_refl|reflexivity].
    - intros j c Hc _. eauto.
    - lia.
    - rewrite Nat.sub_diag. cbn. rewrite app_nil_r. reflexivity.
    - lia. }
  destruct al as [|l0 lt] eqn:Eal.
  - (* no cluster affected *)
    assert (av = []) as ->.
    { destruct av as [|v t]; [reflexivity|]. destruct (Hav v (or_introl eq_refl)) as [_ []]. }
    exists k', (mk_h adj s (h_prev h) (h_line h) (h_hier h) (h_sig h) [] []), s, B, [].
    split; [reflexivity|]. constructor; cbn [h_adj h_l h_prev h_line h_hier h_sig h_av h_al]; auto.
    + constructor; auto.
      * intros j c Hc. exists (c_offset c). destruct c; exact Hc.
      * intros j c Hc. exists c, (c_offset c). split; [exact Hc|]. destruct c; reflexivity.
    + left. auto 10.
    + intros l c Hc. fold s. destruct (Nat.leb_spec (l_next s) l) as [Hl|Hl]; [|exact Hc]. exfalso.
      pose proof (clus_lt _ _ _ Hc). rewrite (ci_cs _ _ _ _ _ _ _ HC) in H. lia.
  - rewrite <- Eal in *.
    destruct (do_labels_ok n adj minPts ws D Hn Hlen Hlt Hsym w B s av) with (al := al) (s := s) (av := av) (B := B)
      as (s' & B' & X1 & X2).
    { apply (ci_cur _ _ _ _ _ _ _ HC). }
    { exact Hedge. }
    { intros v Hvi. apply Hav. exact Hvi. }
    { apply nth_In. lia. }
    { intros l c _ Hc Hl. apply (C5 l); [exact Hc|exact Hl|lia]. }
    { exact HL. }
    rewrite X1. cbn [bind].
    pose proof (lv_new _ _ _ _ _ _ _ _ _ _ _ _ _ X2) as Hnew. fold s in C6. rewrite C6 in Hnew. cbn [app] in Hnew.
    pose proof (lv_next _ _ _ _ _ _ _ _ _ _ _ _ _ X2) as Hnx.
    pose proof (lv_inv _ _ _ _ _ _ _ _ _ _ _ _ _ X2) as HC'.
    assert (Hsz : (0 <? length (l_new s')) = (l_next s <? l_next s')).
    { rewrite Hnew, seq_length. destruct (Nat.ltb_spec 0 (l_next s' - l_next s)), (Nat.ltb_spec (l_next s) (l_next s')); lia || reflexivity. }
    rewrite Hsz.
    set (rec := negb compact || h_sig h || (l_next s <? l_next s')).
    set (line := if rec then S (h_line h) else h_line h).
    assert (Hin : forall p, In p (l_new s') <-> l_next s <= p < l_next s') by (intros p; rewrite Hnew, in_seq; lia).
    destruct (write_offsets_ok line (l_new s') (l_cs s')) as (cs' & O1 & O2 & O3).
    { intros p Hp. apply Hin in Hp. destruct (lv_newc _ _ _ _ _ _ _ _ _ _ _ _ _ X2 p Hp) as (c & _ & K & _). exists c. exact K. }
    rewrite O1. cbn [bind].
    eexists k', _, s', B', av. split; [reflexivity|].
    assert (Ho : off_eq s' (mk_l (l_cur s') cs' (l_next s') (l_noise s') (l_last s') [])).
    { constructor; cbn [l_cur l_cs l_next l_noise l_last]; auto.
      - intros Hz. rewrite O3. destruct (in_dec Nat.eq_dec 0 (l_new s')) as [i|i]; [|exact Hz].
        apply Hin in i. pose proof (ci_next _ _ _ _ _ _ _ HC). lia.
      - intros j c Hc. unfold clus in *. cbn [l_cs]. rewrite O3. destruct (in_dec Nat.eq_dec j (l_new s')) as [i|i].
        + exists line. rewrite Hc. reflexivity.
        + exists (c_offset c). rewrite Hc. destruct c; reflexivity.
      - intros j c Hc. unfold clus in *. cbn [l_cs] in Hc. rewrite O3 in Hc. destruct (in_dec Nat.eq_dec j (l_new s')) as [i|i].
        + destruct (nth_error (l_cs s') j) as [[c0|]|]; try discriminate. injection Hc as <-. exists c0, line. auto.
        + exists c, (c_offset c). split; [exact Hc|]. destruct c; reflexivity. }
    constructor; cbn [h_adj h_l h_prev h_line h_hier h_sig h_av h_al l_new l_cur]; auto.
    + right. split.
      { intros Hz. destruct (proj1 (R7' l0)) as (i & I1 & I2 & _); [rewrite Eal; left; reflexivity|].
        assert (In (va i) av) by (apply R6'; exists i; auto). rewrite Hz in H. destruct H. }
      fold s. fold rec. split; [reflexivity|]. unfold line. destruct rec; [left|right]; (split; [reflexivity|]); rewrite ?C9; auto.
    + intros l c Hc. unfold clus in *. cbn [l_cs]. rewrite O3. fold s.
      pose proof (clus_lt s' l c Hc) as Hl. rewrite (ci_cs _ _ _ _ _ _ _ HC') in Hl.
      destruct (in_dec Nat.eq_dec l (l_new s')) as [i|i]; rewrite Hc.
      * apply Hin in i. destruct (Nat.leb_spec (l_next s) l); [reflexivity|lia].
      * destruct (Nat.leb_spec (l_next s) l) as [Hge|Hge]; [|reflexivity]. exfalso. apply i. apply Hin. lia.
Qed.

Lemma near_dec adj A v : length adj = n -> (forall a b, step adj a b -> b < n) -> (forall a b, step adj a b -> step adj b a) ->
  (forall a, In a A -> a < n) -> (exists a, In a A /\ conn adj a v) \/ (forall a, In a A -> ~ conn adj a v).
Proof.
  intros H1 H2 H3. induction A as [|a A IH]; intros HA; [right; intros a []|].
  destruct (conn_dec n adj H1 H2 H3 a v (HA a (or_introl eq_refl))) as [Hc|Hc].
  - left. exists a. split; [left; reflexivity|exact Hc].
  - destruct IH as [(b & Hb & Hcb)|Hno].
    + intros b Hb. apply HA. right. exact Hb.
    + left. exists b. split; [right; exact Hb|exact Hcb].
    + right. intros b [<-|Hb]; [exact Hc|apply Hno; exact Hb].
Qed.

Section Step.
Variables (B : list (list nat)) (k : nat) (h : hstate) (A : list nat) (B' : list (list nat)) (k' : nat) (s' : lstate) (h' : hstate).
Hypothesis HCo : Core B k h.
Hypothesis HLe : Lev B k h A B' k' s' h'.
Notation s := (h_l h).
Notation w := (ew (k - 1)).
Notation adj := (h_adj h').
Notation conn := (conn adj).
Notation valid := (valid adj minPts).

Let Hkm : k <= m := co_k _ _ _ HCo.
Let Hk' : k' < k := le_k _ _ _ _ _ _ _ _ HLe.
Let HA' := le_adj _ _ _ _ _ _ _ _ HLe.
Let HLV := le_lv _ _ _ _ _ _ _ _ HLe.
Let HCs : CI w B s := co_inv _ _ _ HCo (k - 1) ltac:(lia).
Let HCs' : CI w B' s' := lv_inv _ _ _ _ _ _ _ _ _ _ _ _ _ HLV.

Lemma st_len : length adj = n. Proof. apply HA'. Qed.
Lemma st_lt : forall a b, step adj a b -> b < n.
Proof. apply (adj_lt n e m Hwf Hv k'); [lia|exact HA']. Qed.
Lemma st_sym : forall a b, step adj a b -> step adj b a.
Proof. apply (adj_sym n e m Hwf Hv k'); [lia|exact HA']. Qed.
Lemma st_conn a b : conn a b <-> joined (E k') a b.
Proof. apply (conn_joined n e m Hwf Hv k'); [lia|exact HA']. Qed.

Lemma st_A a : In a A -> a < n /\ lab s a <> 0.
Proof.
  intros Ha. apply (le_A _ _ _ _ _ _ _ _ HLe) in Ha. destruct Ha as (i & I1 & I2 & I3). destruct (Hv i ltac:(lia)) as [V1 V2].
  destruct I3 as [->| ->]; [split; assumption|]. split; [exact V2|]. rewrite <- (co_edge _ _ _ HCo i ltac:(lia)). exact I2.
Qed.

Lemma st_edge : edge_lab adj s.
Proof.
  intros a b Hab. apply (adj_step n e m Hwf Hv k') in Hab; [|lia|exact HA'].
  destruct Hab as (i & I1 & [[<- <-]|[<- <-]]); [|symmetry]; apply (co_edge _ _ _ HCo); lia.
Qed.
Lemma st_edge' : edge_lab adj s'.
Proof. apply (lv_edge _ _ _ _ _ _ _ _ _ _ _ _ _ HLV). Qed.
Lemma st_next : l_next s <= l_next s'. Proof. apply (lv_next _ _ _ _ _ _ _ _ _ _ _ _ _ HLV). Qed.

(** The four things that can happen to a vertex at a level. *)
Lemma vcase v : v < n ->
  ((forall a, In a A -> ~ conn a v) /\ lab s' v = lab s v)
  \/ (exists a, In a A /\ conn a v /\ ~ valid a /\ lab s v <> 0 /\ lab s' v = 0)
  \/ (exists a, In a A /\ conn a v /\ valid a /\ lab s v <> 0 /\ lab s' v = lab s v
        /\ forall g, In g A -> lab s g = lab s v -> valid g -> conn g v)
  \/ (exists a, In a A /\ conn a v /\ valid a /\ lab s v <> 0 /\ l_next s <= lab s' v < l_next s'
        /\ (forall u, u < n -> lab s' u = lab s' v -> conn u v) /\ parentof s' (lab s' v) (lab s v)
        /\ exists g, In g A /\ lab s g = lab s v /\ valid g /\ ~ conn g v).
Proof.
  intros Hvn. pose proof (lv_done _ _ _ _ _ _ _ _ _ _ _ _ _ HLV v Hvn (fun x => x)) as [V1 V2 V3].
  destruct (near_dec adj A v st_len st_lt st_sym (fun a Ha => proj1 (st_A a Ha))) as [(a & Ha & Hc)|Hno].
  - assert (Hz : lab s v <> 0) by (rewrite <- (edge_conn adj s a v st_edge Hc); apply st_A; exact Ha).
    destruct (valid_dec n adj minPts st_len st_lt st_sym a (proj1 (st_A a Ha))) as [Hva|Hva].
    + destruct (V3 a Ha Hc Hva) as (_ & _ & [[G1 G2]|(G1 & G2 & G3 & G4)]).
      * right. right. left. exists a. auto 10.
      * right. right. right. exists a. auto 10.
    + right. left. exists a. destruct (V2 a Ha Hc Hva) as (G & _). auto.
  - left. split; [exact Hno|]. apply V1. exact Hno.
Qed.

Lemma lab_noise v : v < n -> lab s v = 0 -> lab s' v = 0.
Proof.
  intros Hvn Hz. destruct (vcase v Hvn) as [[_ H]|[(a & _ & _ & _ & H & _)|[(a & _ & _ & _ & H & _)|(a & _ & _ & _ & H & _)]]]; try contradiction.
  congruence.
Qed.

Lemma lab_old v : v < n -> lab s' v <> 0 -> lab s' v < l_next s -> lab s v = lab s' v.
Proof.
  intros Hvn Hz Hl. destruct (vcase v Hvn) as [[_ H]|[(a & _ & _ & _ & _ & H)|[(a & _ & _ & _ & _ & H & _)|(a & _ & _ & _ & _ & H & _)]]]; try congruence. lia.
Qed.

Lemma D_next j : j < k' -> D w (ew j).
Proof.
  intros Hj. pose proof Hk' as Hk1. pose proof Hkm as Hk2. apply (HDw (k' - 1) (k - 1)); [clear -Hj Hk1; lia|clear -Hk1 Hk2; lia| |clear -Hj; lia]. apply (le_bd _ _ _ _ _ _ _ _ HLe). clear -Hj. lia.
Qed.

Lemma old_clus l c' : clus s' l c' -> l < l_next s -> exists c, clus s l c /\ same_id w c c' /\ (cnt l (l_cur s) = 0 -> c' = c).
Proof.
  intros Hc Hl. destruct (lv_oldp _ _ _ _ _ _ _ _ _ _ _ _ _ HLV l c' Hc Hl) as [c H1].
  destruct (lv_old _ _ _ _ _ _ _ _ _ _ _ _ _ HLV l c H1) as (c2 & H2 & H3 & H4).
  rewrite (clus_fun _ _ _ _ Hc H2). exists c. split; [exact H1|]. split; [exact H3|]. intros Hz. apply H4. auto.
Qed.

Lemma bk_old l : l < l_next s -> bk B' l = bk B l.
Proof.
  intros Hl. destruct (lv_B _ _ _ _ _ _ _ _ _ _ _ _ _ HLV) as [B1 ->]. unfold bk. apply app_nth1.
  rewrite (ci_B _ _ _ _ _ _ _ HCs). exact Hl.
Qed.

Lemma core_step : Core B' k' h'.
Proof.
  pose proof (le_off _ _ _ _ _ _ _ _ HLe) as Ho.
  assert (Hcur : forall v, lab (h_l h') v = lab s' v) by (intros v; unfold lab; rewrite (oe_cur _ _ Ho); reflexivity).
  destruct (le_new _ _ _ _ _ _ _ _ HLe) as (N1 & N2 & N3 & N4).
  constructor.
  - lia.
  - right. split; [lia|]. intros Hp. apply feq_trans' with w; [apply (le_tie _ _ _ _ _ _ _ _ HLe); lia|apply (le_bd _ _ _ _ _ _ _ _ HLe); exact Hp].
  - exact HA'.
  - exists w. apply CInv_offsets with (1 := Ho). exact HCs'.
  - intros j Hj. apply CInv_offsets with (1 := Ho). apply CInv_level with w; [exact HDt|apply D_next; exact Hj|exact HCs'].
  - intros l c j Hc Hl Hj. destruct (oe_c' _ _ Ho l c Hc) as (c0 & o & H1 & ->). cbn [c_birth set_offset].
    destruct (le_lt_dec (l_next s) l) as [Hge|Hlt].
    + pose proof (clus_lt _ _ _ H1) as Hlt'. rewrite (ci_cs _ _ _ _ _ _ _ HCs') in Hlt'.
      destruct (lv_newc _ _ _ _ _ _ _ _ _ _ _ _ _ HLV l ltac:(lia)) as (c1 & p & K1 & _ & _ & K2 & _).
      rewrite (clus_fun _ _ _ _ H1 K1), K2. apply D_next. exact Hj.
    + destruct (old_clus l c0 H1 Hlt) as (c1 & K1 & ((_ & K2 & _) & _) & _). rewrite K2.
      apply (co_birth _ _ _ HCo l); [exact K1|exact Hl|lia].
  - exact N1.
  - exact N2.
  - exact N3.
  - exact N4.
  - intros i Hi. rewrite !Hcur. destruct (Nat.eq_dec (va i) (vb i)) as [->|Hne]; [reflexivity|].
    apply st_edge'. apply (step_adj n e m Hwf Hv k'); [lia|exact HA'|exact Hne|]. exists i. split; [exact Hi|left; auto].
Qed.

Lemma lab_h' v : lab (h_l h') v = lab s' v.
Proof. unfold lab. rewrite (oe_cur _ _ (le_off _ _ _ _ _ _ _ _ HLe)). reflexivity. Qed.
Lemma next_h' : l_next (h_l h') = l_next s'.
Proof. apply (oe_next _ _ (le_off _ _ _ _ _ _ _ _ HLe)). Qed.
Lemma par_h' j p : parentof (h_l h') j p <-> parentof s' j p.
Proof. symmetry. apply off_eq_parent. apply (le_off _ _ _ _ _ _ _ _ HLe). Qed.
End Step.

(** [v] is an end of one of the first [k] edges. *)
Definition incident (k v : nat) : Prop := exists i, i < k /\ (va i = v \/ vb i = v).
Definition Alive (k : nat) (h : hstate) : Prop := forall v, v < n -> lab (h_l h) v <> 0 -> incident m v -> incident k v.

Lemma step_incident k adj a b : k <= m -> adjInv n e k adj -> step adj a b -> incident k a /\ incident k b.
Proof.
  intros Hk HA Hs. apply (adj_step n e m Hwf Hv k) in Hs; [|exact Hk|exact HA].
  destruct Hs as (i & I1 & [[I2 I3]|[I2 I3]]); split; exists i; auto.
Qed.
Lemma conn_incident k adj a b : k <= m -> adjInv n e k adj -> conn adj a b -> a <> b -> incident k a /\ incident k b.
Proof.
  intros Hk HA Hc. induction Hc as [a b Hs|a|a b Hc IH|a b c H1 IH1 H2 IH2]; intros Hne.
  - apply (step_incident k adj); assumption.
  - congruence.
  - destruct IH; [congruence|]. auto.
  - destruct (Nat.eq_dec a b) as [->|Hab]; [apply IH2; exact Hne|].
    destruct (Nat.eq_dec b c) as [->|Hbc]; [apply IH1; exact Hne|].
    split; [apply IH1; exact Hab|apply IH2; exact Hbc].
Qed.

Lemma alive_step B k h A B' k' s' h' : Core B k h -> Lev B k h A B' k' s' h' -> Alive k h -> Alive k' h'.
Proof.
  intros HC HL HA v Hvn Hlab Hinc. rewrite (lab_h' _ _ _ _ _ _ _ _ HL) in Hlab.
  pose proof (le_adj _ _ _ _ _ _ _ _ HL) as HA'. pose proof (le_k _ _ _ _ _ _ _ _ HL) as Hk'. pose proof (co_k _ _ _ HC) as Hkm.
  assert (Hval : forall a, conn (h_adj h') a v -> valid (h_adj h') minPts a -> incident k' v).
  { intros a Hc (l & L1 & L2 & u & L3 & L4). apply L1 in L3.
    assert (Hvu : conn (h_adj h') v u) by (apply conn_trans with a; [apply conn_sym; exact Hc|exact L3]).
    destruct (Nat.eq_dec v u) as [->|Hne].
    - destruct (nb (h_adj h') u) as [|x t] eqn:En; [congruence|].
      apply (step_incident k' (h_adj h') u x); [lia|exact HA'|]. unfold step. rewrite En. left. reflexivity.
    - apply (conn_incident k' (h_adj h') v u); [lia|exact HA'|exact Hvu|exact Hne]. }
  destruct (vcase B k h A B' k' s' h' HC HL v Hvn) as [[Hno H]|[(a & _ & _ & _ & _ & H)|[(a & Ha & Hc & Hva & _)|(a & Ha & Hc & Hva & _)]]].
  - rewrite H in Hlab. destruct (HA v Hvn Hlab Hinc) as (i & I1 & I2).
    destruct (le_lt_dec k' i) as [Hge|Hlt]; [|exists i; auto]. exfalso.
    apply (Hno v); [|apply conn_refl]. apply (le_A _ _ _ _ _ _ _ _ HL). exists i. split; [lia|].
    pose proof (co_edge _ _ _ HC i I1) as He. destruct I2 as [I2|I2]; subst v; (split; [congruence|auto]).
  - contradiction.
  - apply (Hval a); assumption.
  - apply (Hval a); assumption.
Qed.

Lemma hget_hput h k v j : hget (hput h k v) j = if j =? k then Some v else hget h j.
Proof.
  unfold hput. cbn [hget]. destruct (Nat.eqb_spec j k) as [E0|E0]; [reflexivity|].
  induction h as [|[i x] h IH]; [reflexivity|]. cbn [filter fst hget].
  destruct (Nat.eqb_spec i k) as [E1|E1]; cbn [negb hget].
  - rewrite IH. destruct (Nat.eqb_spec j i); [congruence|reflexivity].
  - destruct (Nat.eqb_spec j i); [reflexivity|exact IH].
Qed.

(** The recorded levels. *)
Record Ent (B : list (list nat)) (k : nat) (h : hstate) : Prop := {
  en_dom : forall i, (exists x, hget (h_hier h) i = Some x) <-> 1 <= i <= h_line h;
  en_ok : forall i wt ls, hget (h_hier h) i = Some (wt, ls) ->
     length ls = n /\ In wt ws
     /\ (forall v, v < n -> nth v ls 0 < l_next (h_l h) /\ (nth v ls 0 <> 0 -> In v (bk B (nth v ls 0)))
                     /\ (nth v ls 0 = 0 -> lab (h_l h) v = 0))
     /\ (forall j, j < k -> D wt (ew j));
  en_mono : forall i j wi li wj lj, i < j -> hget (h_hier h) i = Some (wi, li) -> hget (h_hier h) j = Some (wj, lj) ->
     D wi wj /\ forall v, v < n -> nth v li 0 = 0 -> nth v lj 0 = 0;
  en_first : (h_line h = 0 /\ k = m /\ l_cur (h_l h) = repeat 1 n /\ h_sig h = true)
     \/ (1 <= h_line h /\ hget (h_hier h) 1 = Some (ew (m - 1), repeat 1 n)) }.

Lemma ent_step B k h A B' k' s' h' : Core B k h -> Lev B k h A B' k' s' h' -> Ent B k h -> Ent B' k' h'.
Proof.
  intros HC HL [N1 N2 N3 N4].
  pose proof (le_k _ _ _ _ _ _ _ _ HL) as Hk'. pose proof (co_k _ _ _ HC) as Hkm.
  pose proof (st_next _ _ _ _ _ _ _ _ HL) as Hnx.
  pose proof (co_inv _ _ _ HC (k - 1) ltac:(lia)) as HCs.
  destruct (le_case _ _ _ _ _ _ _ _ HL) as [(-> & -> & -> & K1 & K2 & K3 & K4)|(HAn & Hs & K)].
  { constructor; rewrite ?K1, ?K2, ?K3, ?K4.
    - exact N1.
    - intros i wt ls Hi. destruct (N2 i wt ls Hi) as (A1 & A2 & A3 & A4). split; [exact A1|]. split; [exact A2|]. split; [exact A3|].
      intros j Hj. apply A4. lia.
    - exact N3.
    - destruct N4 as [(M1 & M2 & M3 & M4)|N4]; [|right; exact N4]. exfalso.
      assert (Hin : In (va (k - 1)) []).
      { apply (le_A _ _ _ _ _ _ _ _ HL). exists (k - 1). split; [lia|]. split; [|auto].
        unfold lab. rewrite M3. destruct (Hv (k - 1) ltac:(lia)) as [V1 _].
        rewrite nth_repeat_lt || (rewrite (nth_indep _ 0 1) by (rewrite repeat_length; exact V1); rewrite nth_repeat). lia. }
      destruct Hin. }
  assert (Hold : forall i wt ls, hget (h_hier h) i = Some (wt, ls) ->
     length ls = n /\ In wt ws
     /\ (forall v, v < n -> nth v ls 0 < l_next (h_l h') /\ (nth v ls 0 <> 0 -> In v (bk B' (nth v ls 0)))
                     /\ (nth v ls 0 = 0 -> lab (h_l h') v = 0))
     /\ (forall j, j < k' -> D wt (ew j))).
  { intros i wt ls Hi. destruct (N2 i wt ls Hi) as (A1 & A2 & A3 & A4). split; [exact A1|]. split; [exact A2|]. split.
    - intros v Hvn. destruct (A3 v Hvn) as (A5 & A6 & A7). rewrite (next_h' _ _ _ _ _ _ _ _ HL), (lab_h' _ _ _ _ _ _ _ _ HL).
      split; [lia|]. rewrite (bk_old _ _ _ _ _ _ _ _ HC HL) by exact A5. split; [exact A6|].
      intros Hz. apply (lab_noise _ _ _ _ _ _ _ _ HC HL); [exact Hvn|apply A7; exact Hz].
    - intros j Hj. apply A4. lia. }
  destruct K as [(Kr & K1 & K2)|(Kr & K1 & K2)].
  - constructor; rewrite ?K1, ?K2.
    + intros i. rewrite hget_hput. destruct (Nat.eqb_spec i (S (h_line h))) as [->|Hne].
      * split; [lia|]. intros _. eauto.
      * rewrite N1. lia.
    + intros i wt ls. rewrite hget_hput. destruct (Nat.eqb_spec i (S (h_line h))) as [->|Hne]; [|apply Hold].
      intros Heq. injection Heq as <- <-. split; [apply (ci_cur _ _ _ _ _ _ _ HCs)|].
      split; [apply nth_In; destruct Hwf as (_ & _ & ->); lia|]. split.
      * intros v Hvn. fold (lab (h_l h) v). destruct (ci_lab _ _ _ _ _ _ _ HCs v Hvn) as (L1 & L2 & _).
        rewrite (next_h' _ _ _ _ _ _ _ _ HL), (lab_h' _ _ _ _ _ _ _ _ HL). split; [lia|].
        rewrite (bk_old _ _ _ _ _ _ _ _ HC HL) by exact L1. split; [intros Hz; apply L2; exact Hz|].
        apply (lab_noise _ _ _ _ _ _ _ _ HC HL). exact Hvn.
      * intros j Hj. apply (D_next _ _ _ _ _ _ _ _ HC HL). exact Hj.
    + intros i j wi li wj lj Hij. rewrite !hget_hput.
      destruct (Nat.eqb_spec i (S (h_line h))) as [->|Hi].
      { destruct (Nat.eqb_spec j (S (h_line h))); [lia|]. intros _ Hj.
        assert (1 <= j <= h_line h) by (apply N1; eauto). lia. }
      destruct (Nat.eqb_spec j (S (h_line h))) as [->|Hj]; [|apply N3; exact Hij].
      intros Hgi Heq. injection Heq as <- <-. destruct (N2 i wi li Hgi) as (_ & _ & A3 & A4).
      split; [apply A4; lia|]. intros v Hvn Hz. apply (A3 v Hvn). exact Hz.
    + right. split; [lia|]. rewrite hget_hput. destruct N4 as [(M1 & M2 & M3 & M4)|[M1 M2]].
      * rewrite M1. cbn [Nat.eqb]. subst k. rewrite M3. reflexivity.
      * destruct (Nat.eqb_spec 1 (S (h_line h))); [lia|exact M2].
  - constructor; rewrite ?K1, ?K2.
    + exact N1.
    + exact Hold.
    + exact N3.
    + destruct N4 as [(M1 & M2 & M3 & M4)|[M1 M2]]; [|right; auto].
      rewrite M4, orb_true_r in Kr. discriminate.
Qed.

(** Where the points of a cluster can be read. *)
Record Off (B : list (list nat)) (h : hstate) : Prop := {
  of_c : forall l c, clus (h_l h) l c -> 2 <= l ->
     1 <= c_offset c <= h_line h
     /\ (forall i wt ls v, i <= c_offset c -> hget (h_hier h) i = Some (wt, ls) -> v < n -> nth v ls 0 <> l)
     /\ (c_offset c < h_line h -> exists wt ls, hget (h_hier h) (S (c_offset c)) = Some (wt, ls)
           /\ forall v, v < n -> nth v ls 0 = l <-> In v (bk B l))
     /\ (c_offset c = h_line h -> h_sig h = true /\ forall v, v < n -> lab (h_l h) v = l <-> In v (bk B l))
     /\ (exists ls, hget (h_hier h) (c_offset c) = Some (c_birth c, ls));
  of_two : forall j p, parentof (h_l h) j p -> exists j', j' <> j /\ parentof (h_l h) j' p;
  of_root : forall c, clus (h_l h) 1 c -> c_offset c = 0 }.

Lemma off_step B k h A B' k' s' h' : Core B k h -> Lev B k h A B' k' s' h' -> Ent B k h -> Off B h -> Off B' h'.
Proof.
  intros HC HL HE [F1 F2 F3].
  pose proof (le_k _ _ _ _ _ _ _ _ HL) as Hk'. pose proof (co_k _ _ _ HC) as Hkm.
  pose proof (st_next _ _ _ _ _ _ _ _ HL) as Hnx.
  pose proof (co_inv _ _ _ HC (k - 1) ltac:(lia)) as HCs.
  pose proof (lv_inv _ _ _ _ _ _ _ _ _ _ _ _ _ (le_lv _ _ _ _ _ _ _ _ HL)) as HCs'.
  pose proof (le_off _ _ _ _ _ _ _ _ HL) as Ho.
  constructor.
  - intros l c Hc Hl.
    assert (Hcc : exists c0, clus s' l c0 /\ c = if l_next (h_l h) <=? l then set_offset c0 (h_line h') else c0).
    { destruct (oe_c' _ _ Ho l c Hc) as (c0 & o & H1 & _). exists c0. split; [exact H1|].
      apply (clus_fun _ _ _ _ Hc). apply (le_offs _ _ _ _ _ _ _ _ HL). exact H1. }
    destruct Hcc as (c0 & Hc0 & Heq).
    destruct (Nat.leb_spec (l_next (h_l h)) l) as [Hge|Hlt].
    + (* a new cluster *)
      pose proof (clus_lt _ _ _ Hc0) as Hlt'. rewrite (ci_cs _ _ _ _ _ _ _ HCs') in Hlt'.
      destruct (lv_newc _ _ _ _ _ _ _ _ _ _ _ _ _ (le_lv _ _ _ _ _ _ _ _ HL) l ltac:(lia)) as (c1 & p & K1 & _ & _ & K2 & _).
      rewrite (clus_fun _ _ _ _ Hc0 K1) in *. subst c. cbn [c_offset c_birth set_offset]. rewrite K2.
      destruct (le_case _ _ _ _ _ _ _ _ HL) as [(-> & -> & -> & _)|(HAn & Hs & [(Kr & K3 & K4)|(Kr & K3 & K4)])].
      * lia.
      * rewrite K3, K4. split; [lia|]. split.
        { intros i wt ls v Hi Hg Hvn. rewrite hget_hput in Hg. destruct (Nat.eqb_spec i (S (h_line h))) as [->|Hne].
          - injection Hg as <- <-. pose proof (proj1 (ci_lab _ _ _ _ _ _ _ HCs v Hvn)) as Hlab. unfold lab in Hlab. lia.
          - destruct (en_ok _ _ _ HE i wt ls Hg) as (_ & _ & A3 & _). destruct (A3 v Hvn) as [A4 _]. lia. }
        split; [lia|]. split.
        { intros _. split; [rewrite Hs; apply Nat.ltb_lt; lia|]. intros v Hvn. rewrite (lab_h' _ _ _ _ _ _ _ _ HL). split.
          - intros <-. apply (ci_lab _ _ _ _ _ _ _ HCs' v Hvn). lia.
          - apply (lv_birth _ _ _ _ _ _ _ _ _ _ _ _ _ (le_lv _ _ _ _ _ _ _ _ HL)). lia. }
        exists (l_cur (h_l h)). rewrite hget_hput, Nat.eqb_refl. reflexivity.
      * exfalso. destruct (Nat.ltb_spec (l_next (h_l h)) (l_next s')); [|lia]. rewrite orb_true_r in Kr. discriminate.
    + subst c. destruct (old_clus _ _ _ _ _ _ _ _ HL l c0 Hc0 Hlt) as (c1 & H1 & ((_ & I2 & _ & I4) & _) & _).
      rewrite I2, I4. destruct (F1 l c1 H1 Hl) as (G1 & G2 & G3 & G4 & G5).
      rewrite (bk_old _ _ _ _ _ _ _ _ HC HL) by exact Hlt.
      destruct (le_case _ _ _ _ _ _ _ _ HL) as [(_ & _ & Hs & K1 & K2 & K3 & K4)|(HAn & Hs & [(Kr & K3 & K4)|(Kr & K3 & K4)])].
      * rewrite K1, K2, K3, K4. auto.
      * rewrite K3, K4. split; [lia|]. split.
        { intros i wt ls v Hi Hg Hvn. rewrite hget_hput in Hg. destruct (Nat.eqb_spec i (S (h_line h))); [lia|]. apply (G2 i wt ls v); assumption. }
        split.
        { intros Hlt'. rewrite hget_hput. destruct (Nat.eqb_spec (S (c_offset c1)) (S (h_line h))) as [Heq|Hne].
          - destruct G4 as [_ G4]; [lia|]. eexists _, _. split; [reflexivity|]. exact G4.
          - apply G3. lia. }
        split; [lia|]. rewrite hget_hput. destruct (Nat.eqb_spec (c_offset c1) (S (h_line h))); [lia|exact G5].
      * rewrite K3, K4. split; [lia|]. split; [exact G2|]. split; [exact G3|]. split; [|exact G5].
        intros Heq. destruct (G4 Heq) as [G6 _]. rewrite G6, orb_true_r in Kr. discriminate.
  - intros j p Hj. apply (par_h' _ _ _ _ _ _ _ _ HL) in Hj. destruct Hj as (c & Hc & Hp).
    destruct (le_lt_dec (l_next (h_l h)) j) as [Hge|Hlt].
    + pose proof (clus_lt _ _ _ Hc) as Hlt'. rewrite (ci_cs _ _ _ _ _ _ _ HCs') in Hlt'.
      destruct (lv_newc _ _ _ _ _ _ _ _ _ _ _ _ _ (le_lv _ _ _ _ _ _ _ _ HL) j ltac:(lia)) as (c1 & p1 & K1 & K2 & _ & _ & _ & j' & K3 & _ & K4).
      rewrite (clus_fun _ _ _ _ Hc K1), K2 in Hp. injection Hp as <-. exists j'. split; [exact K3|]. apply (par_h' _ _ _ _ _ _ _ _ HL). exact K4.
    + destruct (old_clus _ _ _ _ _ _ _ _ HL j c Hc Hlt) as (c1 & H1 & ((_ & _ & I3 & _) & _) & _).
      destruct (F2 j p) as (j' & J1 & cj & J2 & J3); [exists c1; split; [exact H1|congruence]|].
      exists j'. split; [exact J1|]. apply (par_h' _ _ _ _ _ _ _ _ HL).
      destruct (lv_old _ _ _ _ _ _ _ _ _ _ _ _ _ (le_lv _ _ _ _ _ _ _ _ HL) j' cj J2) as (c2 & X1 & ((_ & _ & X2 & _) & _) & _).
      exists c2. split; [exact X1|congruence].
  - intros c Hc. pose proof (ci_next _ _ _ _ _ _ _ HCs) as H2.
    destruct (oe_c' _ _ Ho 1 c Hc) as (c0 & o & H1 & _).
    pose proof (le_offs _ _ _ _ _ _ _ _ HL 1 c0 H1) as H3. destruct (Nat.leb_spec (l_next (h_l h)) 1); [lia|].
    rewrite (clus_fun _ _ _ _ Hc H3).
    destruct (old_clus _ _ _ _ _ _ _ _ HL 1 c0 H1 ltac:(lia)) as (c1 & H4 & ((_ & _ & _ & I4) & _) & _).
    rewrite I4. apply F3. exact H4.
Qed.

(** ** Connected graphs: the levels are the components *)
Definition big (k u : nat) : Prop := exists l, NoDup l /\ minPts <= length l /\ forall x, In x l -> joined (E k) u x.
Definition ConnL (k : nat) (ls : list nat) : Prop :=
  (forall u, u < n -> nth u ls 0 <> 0 <-> big k u)
  /\ (forall u v, u < n -> v < n -> nth u ls 0 <> 0 -> nth u ls 0 = nth v ls 0 <-> joined (E k) u v).

Lemma joined_closed (R : nat -> nat -> Prop) (P : nat -> Prop) a b : (forall x y, R x y -> R y x) ->
  (forall x y, P x -> R x y -> P y) -> joined R a b -> P a <-> P b.
Proof.
  intros Hs HP Hj. induction Hj as [x y Hxy|x|x y H IH|x y z H1 IH1 H2 IH2].
  - split; intros H; [apply HP with x; assumption|apply HP with y; auto].
  - tauto.
  - tauto.
  - tauto.
Qed.
Lemma joined_mono (R S : nat -> nat -> Prop) a b : (forall x y, R x y -> S x y) -> joined R a b -> joined S a b.
Proof.
  intros H Hj. induction Hj as [x y Hxy|x|x y H1 IH|x y z H1 IH1 H2 IH2].
  - apply rst_step. apply H. exact Hxy.
  - apply rst_refl.
  - apply rst_sym. exact IH.
  - apply rst_trans with y; assumption.
Qed.
Lemma joined_le k k' a b : k' <= k -> joined (E k') a b -> joined (E k) a b.
Proof. intros Hk. apply joined_mono. intros x y. apply E_mono. exact Hk. Qed.
Lemma joined_lt k a b : k <= m -> joined (E k) a b -> a < n <-> b < n.
Proof.
  intros Hk. apply (joined_closed (E k) (fun x => x < n)); [apply E_sym|].
  intros x y _ Hxy. apply (E_lt n e m Hv k x y Hk Hxy).
Qed.
Lemma big_le k k' u : k' <= k -> big k' u -> big k u.
Proof. intros Hk (l & L1 & L2 & L3). exists l. split; [exact L1|]. split; [exact L2|]. intros x Hx. apply (joined_le k k'); auto. Qed.
Lemma big_joined k u v : joined (E k) u v -> big k u -> big k v.
Proof.
  intros Hj (l & L1 & L2 & L3). exists l. split; [exact L1|]. split; [exact L2|]. intros x Hx.
  apply rst_trans with u; [apply rst_sym; exact Hj|apply L3; exact Hx].
Qed.

Lemma joined_removed k k' u v : k' <= k -> joined (E k) u v ->
  joined (E k') u v \/ exists x i, k' <= i < k /\ (x = va i \/ x = vb i) /\ joined (E k') u x.
Proof.
  intros Hk Hj. set (P := fun y => joined (E k') u y \/ exists x i, k' <= i < k /\ (x = va i \/ x = vb i) /\ joined (E k') u x).
  apply (joined_closed (E k) P u v) in Hj; [apply Hj; left; apply rst_refl|apply E_sym|].
  intros x y [Hx|Hx] (i & I1 & I2); [|right; exact Hx].
  destruct (le_lt_dec k' i) as [Hge|Hlt].
  - right. exists x, i. split; [lia|]. split; [destruct I2 as [[I2 _]|[_ I2]]; auto|exact Hx].
  - left. apply rst_trans with x; [exact Hx|]. apply rst_step. exists i. auto.
Qed.

Lemma conn_nb adj a b : (forall x y, step adj x y -> step adj y x) -> conn adj a b -> a <> b -> nb adj a <> [].
Proof.
  intros Hs Hc Hne Hz. apply (joined_closed (step adj) (fun x => x = a) a b Hs) in Hc.
  - apply Hne. symmetry. apply Hc. reflexivity.
  - intros x y -> Hxy. unfold step in Hxy. rewrite Hz in Hxy. destruct Hxy.
Qed.

Hypothesis Hmin : 2 <= minPts.

Lemma valid_big k adj a : k <= m -> adjInv n e k adj -> a < n -> valid adj minPts a <-> big k a.
Proof.
  intros Hk HA Ha. split.
  - intros (l & [L1 L2] & L3 & _). exists l. split; [apply ssorted_nodup; exact L1|]. split; [exact L3|].
    intros x Hx. apply L2 in Hx. apply (conn_joined n e m Hwf Hv k adj) in Hx; assumption.
  - intros (l & L1 & L2 & L3).
    pose proof (ai_len _ _ _ _ HA) as Hlen.
    pose proof (adj_lt n e m Hwf Hv k adj Hk HA) as Hlt. pose proof (adj_sym n e m Hwf Hv k adj Hk HA) as Hsym.
    destruct (comp_ex n adj Hlen Hlt Hsym a Ha) as (l' & C1 & C2). exists l'. split; [split; assumption|].
    assert (Hin : incl l l').
    { intros x Hx. apply C2. apply (conn_joined n e m Hwf Hv k adj); [exact Hk|exact HA|]. apply L3. exact Hx. }
    split; [pose proof (NoDup_incl_length L1 Hin); lia|].
    exists a. split; [apply C2; apply conn_refl|].
    assert (exists x, In x l /\ x <> a) as (x & X1 & X2).
    { destruct l as [|x [|y t]]; cbn in L2; try lia. inversion L1 as [|? ? N1 N2]; subst.
      destruct (Nat.eq_dec x a) as [->|Hx]; [|exists x; split; [left; reflexivity|exact Hx]].
      exists y. split; [right; left; reflexivity|]. intros ->. apply N1. left. reflexivity. }
    apply (conn_nb adj a x Hsym); [|congruence]. apply C2. apply Hin. exact X1.
Qed.

(** Parents are dead when their children are born. *)
Definition DeadP (s : lstate) : Prop := forall j p cj cp, clus s j cj -> c_parent cj = Some p -> clus s p cp ->
  c_num cp = 0%Z /\ c_death cp = c_birth cj.

Section ConnStep.
Variables (B : list (list nat)) (k : nat) (h : hstate) (A : list nat) (B' : list (list nat)) (k' : nat) (s' : lstate) (h' : hstate).
Hypothesis HCo : Core B k h.
Hypothesis HLe : Lev B k h A B' k' s' h'.
Hypothesis HCL : ConnL k (l_cur (h_l h)).
Notation s := (h_l h).
Notation w := (ew (k - 1)).
Notation adj := (h_adj h').
Notation conn := (conn adj).
Notation valid := (valid adj minPts).

Lemma cs_joined u v : u < n -> joined (E k) u v -> lab s u <> 0 -> (forall a, In a A -> ~ conn a u) -> conn u v.
Proof.
  intros Hu Hj Hz Hno. pose proof (le_k _ _ _ _ _ _ _ _ HLe) as Hk'. pose proof (co_k _ _ _ HCo) as Hkm.
  destruct (joined_removed k k' u v ltac:(lia) Hj) as [H|(x & i & I1 & I2 & I3)].
  - apply (st_conn B k h A B' k' s' h' HCo HLe). exact H.
  - exfalso. pose proof (proj2 (st_conn B k h A B' k' s' h' HCo HLe u x) I3) as Hc.
    apply (Hno x); [|apply conn_sym; exact Hc].
    apply (le_A _ _ _ _ _ _ _ _ HLe). exists i. split; [exact I1|]. split; [|exact I2].
    pose proof (edge_conn _ _ _ _ (st_edge B k h A B' k' s' h' HCo HLe) Hc) as He.
    pose proof (co_edge _ _ _ HCo i ltac:(lia)) as He2. destruct I2 as [->| ->]; congruence.
Qed.

Lemma conn_step_L : ConnL k' (l_cur s').
Proof.
  pose proof (le_k _ _ _ _ _ _ _ _ HLe) as Hk'. pose proof (co_k _ _ _ HCo) as Hkm.
  pose proof (le_adj _ _ _ _ _ _ _ _ HLe) as HA'.
  pose proof (fun a b => st_conn B k h A B' k' s' h' HCo HLe a b) as Hcj.
  pose proof (st_edge B k h A B' k' s' h' HCo HLe) as Hed.
  pose proof (st_edge' B k h A B' k' s' h' HLe) as Hed'.
  pose proof (co_inv _ _ _ HCo (k - 1) ltac:(lia)) as HCs.
  destruct HCL as [HL1 HL2].
  assert (Hvb : forall a v, a < n -> conn a v -> valid a <-> big k' v).
  { intros a v Ha Hc. rewrite (valid_big k' adj a ltac:(lia) HA' Ha). apply Hcj in Hc.
    split; apply big_joined; [exact Hc|apply rst_sym; exact Hc]. }
  assert (HAn : forall a, In a A -> a < n) by (intros a Ha; apply (st_A B k h A B' k' s' h' HCo HLe a Ha)).
  split.
  - intros u Hu. fold (lab s' u).
    destruct (vcase B k h A B' k' s' h' HCo HLe u Hu) as [[Hno H]|[(a & Ha & Hc & Hva & _ & H)|[(a & Ha & Hc & Hva & Hz & H & _)|(a & Ha & Hc & Hva & Hz & H & _)]]].
    + rewrite H. split.
      * intros Hz. apply HL1 in Hz as Hb; [|exact Hu]. destruct Hb as (l & L1 & L2 & L3).
        exists l. split; [exact L1|]. split; [exact L2|]. intros x Hx. apply Hcj. apply cs_joined; auto.
      * intros Hb. apply HL1; [exact Hu|]. apply (big_le k k'); [lia|exact Hb].
    + split; [congruence|]. intros Hb. exfalso. apply Hva. apply (Hvb a u); auto.
    + split; [|congruence]. intros _. apply (Hvb a u); auto.
    + split; [intros _; apply (Hvb a u); auto|]. intros _. pose proof (ci_next _ _ _ _ _ _ _ HCs). lia.
  - intros u v Hu Hvn Hz. fold (lab s' u) in *. fold (lab s' v). split; [|intros Hj; apply (edge_conn _ _ _ _ Hed'); apply Hcj; exact Hj].
    intros Heq. apply Hcj.
    pose proof (ci_next _ _ _ _ _ _ _ HCs) as Hnx.
    pose proof (proj1 (ci_lab _ _ _ _ _ _ _ HCs u Hu)) as Hlu. pose proof (proj1 (ci_lab _ _ _ _ _ _ _ HCs v Hvn)) as Hlv.
    assert (Hk1 : lab s u = lab s v -> lab s u <> 0 -> joined (E k) u v) by (intros H1 H2; apply HL2; assumption).
    destruct (vcase B k h A B' k' s' h' HCo HLe u Hu) as [[Hno H]|[(a & Ha & Hc & Hva & _ & H)|[(a & Ha & Hc & Hva & Hzu & H & Hall)|(a & Ha & Hc & Hva & Hzu & H & Hall & _)]]].
    + destruct (vcase B k h A B' k' s' h' HCo HLe v Hvn) as [[Hno2 H2]|[(a2 & Ha2 & Hc2 & Hva2 & _ & H2)|[(a2 & Ha2 & Hc2 & Hva2 & Hz2 & H2 & Hall2)|(a2 & Ha2 & Hc2 & Hva2 & Hz2 & H2 & Hall2 & _)]]].
      * apply cs_joined; [exact Hu| |congruence|exact Hno]. apply Hk1; congruence.
      * congruence.
      * apply cs_joined; [exact Hu| |congruence|exact Hno]. apply Hk1; congruence.
      * lia.
    + congruence.
    + destruct (vcase B k h A B' k' s' h' HCo HLe v Hvn) as [[Hno2 H2]|[(a2 & Ha2 & Hc2 & Hva2 & _ & H2)|[(a2 & Ha2 & Hc2 & Hva2 & Hz2 & H2 & Hall2)|(a2 & Ha2 & Hc2 & Hva2 & Hz2 & H2 & Hall2 & _)]]].
      * apply conn_sym. apply cs_joined; [exact Hvn| |congruence|exact Hno2]. apply rst_sym. apply Hk1; congruence.
      * congruence.
      * apply conn_trans with a2; [|exact Hc2]. apply conn_sym. apply Hall; [exact Ha2| |exact Hva2].
        rewrite (edge_conn _ _ _ _ Hed Hc2). congruence.
      * lia.
    + apply conn_sym. apply Hall; [exact Hvn|congruence].
Qed.

Lemma dead_step : DeadP s -> DeadP (h_l h').
Proof.
  intros HD.
  pose proof (le_k _ _ _ _ _ _ _ _ HLe) as Hk'. pose proof (co_k _ _ _ HCo) as Hkm.
  pose proof (le_lv _ _ _ _ _ _ _ _ HLe) as HLV.
  pose proof (co_inv _ _ _ HCo (k - 1) ltac:(lia)) as HCs.
  pose proof (lv_inv _ _ _ _ _ _ _ _ _ _ _ _ _ HLV) as HCs'.
  pose proof (le_off _ _ _ _ _ _ _ _ HLe) as Ho.
  enough (HD' : DeadP s').
  { intros j p cj cp Hj Hp Hcp. destruct (oe_c' _ _ Ho j cj Hj) as (cj0 & o & J1 & ->). destruct (oe_c' _ _ Ho p cp Hcp) as (cp0 & o' & P1 & ->).
    cbn [c_parent c_num c_death c_birth set_offset] in *. apply (HD' j p); assumption. }
  intros j p cj cp Hj Hp Hcp.
  pose proof (clus_lt _ _ _ Hj) as Hjl. rewrite (ci_cs _ _ _ _ _ _ _ HCs') in Hjl.
  pose proof (ci_next _ _ _ _ _ _ _ HCs) as Hnx.
  destruct (le_lt_dec (l_next s) j) as [Hge|Hlt].
  - destruct (lv_newc _ _ _ _ _ _ _ _ _ _ _ _ _ HLV j ltac:(lia)) as (c1 & p1 & K1 & K2 & K3 & K4 & _).
    rewrite (clus_fun _ _ _ _ Hj K1) in *. rewrite K2 in Hp. injection Hp as ->. rewrite K4.
    (* a point of the new cluster *)
    destruct (ci_c _ _ _ _ _ _ _ HCs' j ltac:(lia)) as (cj' & Hcj' & Hgj). destruct (cg_nonroot _ _ _ _ _ _ _ _ Hgj ltac:(lia)) as (_ & Hmp & _).
    destruct (bk B' j) as [|y t] eqn:Eb; [cbn in Hmp; lia|].
    assert (Hyb : In y (bk B' j)) by (rewrite Eb; left; reflexivity).
    assert (Hyn : y < n) by (apply (ci_born _ _ _ _ _ _ _ HCs' j); exact Hyb).
    pose proof (lv_birth _ _ _ _ _ _ _ _ _ _ _ _ _ HLV j y ltac:(lia) Hyb) as Hyl.
    pose proof (proj1 (ci_lab _ _ _ _ _ _ _ HCs y Hyn)) as Hyl0.
    destruct (vcase B k h A B' k' s' h' HCo HLe y Hyn) as [[_ H]|[(a & Ha & Hc & Hva & _ & H)|[(a & Ha & Hc & Hva & Hzu & H & Hall)|(a & Ha & Hc & Hva & Hzu & H & Hall & Hpar & g & G1 & G2 & G3 & G4)]]]; try lia.
    assert (Hyp : lab s y = p).
    { rewrite Hyl in Hpar. destruct Hpar as (c2 & X1 & X2). rewrite (clus_fun _ _ _ _ X1 K1) in X2. congruence. }
    destruct (ci_c _ _ _ _ _ _ _ HCs' p ltac:(lia)) as (cp' & Hcp' & Hgp). rewrite (clus_fun _ _ _ _ Hcp Hcp') in *.
    assert (Hz : c_num cp' = 0%Z).
    { rewrite (cg_num _ _ _ _ _ _ _ _ Hgp). replace (cnt p (l_cur s')) with 0; [reflexivity|]. symmetry. apply count_occ_not_In.
      intros Hin. apply In_nth with (d := 0) in Hin. destruct Hin as (x & X1 & X2). rewrite (ci_cur _ _ _ _ _ _ _ HCs') in X1. fold (lab s' x) in X2.
      assert (Hxl : lab s x = p) by (rewrite <- X2; apply (lab_old B k h A B' k' s' h' HCo HLe x X1); lia).
      assert (Hjx : joined (E k) x y) by (apply (proj2 HCL); try assumption; fold (lab s x) (lab s y); congruence || (rewrite Hxl; lia)).
      assert (Hcxy : conn x y -> False).
      { intros Hcc. pose proof (edge_conn _ _ _ _ (st_edge' B k h A B' k' s' h' HLe) Hcc). lia. }
      destruct (vcase B k h A B' k' s' h' HCo HLe x X1) as [[Hno _]|[(b & _ & _ & _ & _ & Hb)|[(b & Hb & Hcb & Hvb & Hzb & _ & Hallb)|(b & _ & _ & _ & _ & Hb & _)]]]; try lia.
      - apply Hcxy. apply cs_joined; auto. rewrite Hxl. lia.
      - apply Hcxy. apply conn_trans with a; [|exact Hc]. apply conn_sym. apply Hallb; [exact Ha| |exact Hva].
        rewrite (edge_conn _ _ _ _ (st_edge B k h A B' k' s' h' HCo HLe) Hc). congruence. }
    split; [exact Hz|].
    destruct (old_clus B k h A B' k' s' h' HLe p cp' Hcp' ltac:(lia)) as (c3 & Y1 & (_ & Y2) & _).
    destruct (ci_c _ _ _ _ _ _ _ HCs p ltac:(lia)) as (c4 & Y3 & Hg4). rewrite (clus_fun _ _ _ _ Y1 Y3) in *.
    assert (Hnz : c_num c4 <> 0%Z).
    { rewrite (cg_num _ _ _ _ _ _ _ _ Hg4). enough (cnt p (l_cur s) > 0) by lia. apply count_occ_In. rewrite <- Hyp.
      unfold lab. apply nth_In. rewrite (ci_cur _ _ _ _ _ _ _ HCs). exact Hyn. }
    destruct Y2 as [->|[_ Y2]]; [contradiction|]. apply Y2. exact Hz.
  - destruct (old_clus B k h A B' k' s' h' HLe j cj Hj Hlt) as (cj0 & J1 & ((_ & J2 & J3 & _) & _) & _).
    rewrite J2. rewrite J3 in Hp.
    assert (Hj1 : 2 <= j).
    { destruct j as [|[|j]]; [|exfalso|lia].
      - exfalso. unfold clus in J1. rewrite (ci_null _ _ _ _ _ _ _ HCs) in J1. discriminate.
      - destruct (ci_c _ _ _ _ _ _ _ HCs 1 ltac:(lia)) as (c2 & X1 & X2). rewrite (clus_fun _ _ _ _ J1 X1) in Hp.
        destruct (cg_root _ _ _ _ _ _ _ _ X2 eq_refl) as [X3 _]. congruence. }
    assert (Hpj : 1 <= p < j).
    { destruct (ci_c _ _ _ _ _ _ _ HCs j ltac:(lia)) as (c2 & X1 & X2). rewrite (clus_fun _ _ _ _ J1 X1) in Hp.
      destruct (cg_nonroot _ _ _ _ _ _ _ _ X2 Hj1) as ((p' & X3 & X4 & _) & _). congruence || (assert (p' = p) by congruence; lia). }
    destruct (old_clus B k h A B' k' s' h' HLe p cp Hcp ltac:(lia)) as (cp0 & P1 & _ & P2).
    destruct (HD j p cj0 cp0 J1 Hp P1) as [Z1 Z2].
    destruct (ci_c _ _ _ _ _ _ _ HCs p ltac:(lia)) as (c4 & Y3 & Hg4). rewrite (clus_fun _ _ _ _ P1 Y3) in *.
    rewrite P2; [auto|]. rewrite (cg_num _ _ _ _ _ _ _ _ Hg4) in Z1. lia.
Qed.
End ConnStep.

(** Entries of a connected graph. *)
Definition EntC (h : hstate) : Prop := forall i wt ls, hget (h_hier h) i = Some (wt, ls) ->
  exists ki, 0 < ki <= m /\ wt = ew (ki - 1) /\ (ki = m \/ feq (ew (ki - 1)) (ew ki) = false) /\ ConnL ki ls.

Lemma entc_step B k h A B' k' s' h' : Core B k h -> Lev B k h A B' k' s' h' -> ConnL k (l_cur (h_l h)) -> EntC h -> EntC h'.
Proof.
  intros HC HL HCL HE.
  pose proof (le_k _ _ _ _ _ _ _ _ HL) as Hk'. pose proof (co_k _ _ _ HC) as Hkm.
  destruct (le_case _ _ _ _ _ _ _ _ HL) as [(_ & _ & _ & _ & _ & K3 & _)|(HAn & Hs & [(Kr & K3 & K4)|(Kr & K3 & K4)])].
  - unfold EntC. rewrite K3. exact HE.
  - unfold EntC. rewrite K4. intros i wt ls. rewrite hget_hput. destruct (Nat.eqb_spec i (S (h_line h))) as [_|_]; [|apply HE].
    intros Heq. injection Heq as <- <-. exists k. split; [lia|]. split; [reflexivity|]. split; [|exact HCL].
    destruct (co_bd _ _ _ HC) as [Hb|[_ Hb]]; [auto|]. right. apply Hb. lia.
  - unfold EntC. rewrite K4. exact HE.
Qed.

(** ** The whole loop *)
Record Inv (B : list (list nat)) (k : nat) (h : hstate) : Prop := {
  in_core : Core B k h;
  in_alive : Alive k h;
  in_ent : Ent B k h;
  in_off : Off B h }.
Record InvC (k : nat) (h : hstate) : Prop := {
  ic_conn : ConnL k (l_cur (h_l h));
  ic_dead : DeadP (h_l h);
  ic_ent : EntC h }.

Hypothesis Hn1 : 1 <= n.

Lemma start_clus adj0 l c : clus (h_l (hier_start n adj0)) l c -> l = 1 /\ c = cluster_new 1 None fnan n.
Proof.
  unfold clus, hier_start. cbn [h_l l_cs]. destruct l as [|[|l]]; cbn; [discriminate| |destruct l; discriminate].
  intros H. split; [reflexivity|congruence].
Qed.

Lemma start_CInv adj0 w : CI w [[]; seq 0 n] (h_l (hier_start n adj0)).
Proof.
  assert (Hpar : forall j p, parentof (h_l (hier_start n adj0)) j p -> False).
  { intros j p (c & H1 & H2). apply start_clus in H1. destruct H1 as [_ ->]. discriminate. }
  constructor.
  - cbn. apply repeat_length.
  - cbn. apply repeat_length.
  - cbn. apply repeat_length.
  - reflexivity.
  - reflexivity.
  - cbn. lia.
  - reflexivity.
  - intros k Hk. assert (k = 1) as -> by (cbn in Hk; lia). exists (cluster_new 1 None fnan n). split; [reflexivity|].
    assert (Hnum : c_num (cluster_new 1 None fnan n) = Z.of_nat n).
    { reflexivity. }
    constructor.
    + reflexivity.
    + cbn [h_l hier_start l_cur]. rewrite cnt_repeat. exact Hnum.
    + repeat split.
    + auto.
    + lia.
    + constructor.
    + intros v. cbn. split; [intros []|]. intros H. apply nth_error_repeat_in in H. discriminate.
    + split; [discriminate|]. intros [j Hj]. destruct (Hpar _ _ Hj).
    + rewrite Hnum. lia.
    + reflexivity.
    + rewrite Hnum. lia.
    + exists []. constructor.
      * reflexivity.
      * intros g [].
      * constructor.
      * intros v. split; [intros []|]. intros [V1 V2]. apply V2. unfold bk in V1. cbn [nth] in V1. apply in_seq in V1.
        unfold lab. cbn [h_l hier_start l_cur]. apply nth_repeat'. lia.
      * constructor.
      * intros g [].
      * intros g [].
  - intros k. unfold bk. destruct k as [|[|k]]; cbn [nth].
    + split; [constructor|intros v []].
    + split; [apply seq_NoDup|]. intros v Hvi. apply in_seq in Hvi. lia.
    + destruct k; (split; [constructor|intros v []]).
  - reflexivity.
  - intros v Hvn. unfold lab. cbn [h_l hier_start l_cur l_next l_noise l_last]. rewrite nth_repeat' by exact Hvn.
    split; [lia|]. split; [|lia]. intros _. split; [unfold bk; cbn; apply in_seq; lia|].
    rewrite !nth_error_repeat' by exact Hvn. auto.
  - intros j p v Hj. destruct (Hpar _ _ Hj).
  - intros j k p v _ Hj. destruct (Hpar _ _ Hj).
Qed.

Lemma start_Inv adj0 : adjInv n e m adj0 -> Inv [[]; seq 0 n] m (hier_start n adj0).
Proof.
  intros HA. constructor.
  - constructor; auto.
    + exists fzero. apply start_CInv.
    + intros j Hj. apply start_CInv.
    + intros l c j Hc Hl. apply start_clus in Hc. lia.
    + intros i Hi. destruct (Hv i Hi). unfold lab. cbn [h_l hier_start l_cur]. rewrite !nth_repeat' by assumption. reflexivity.
  - intros v _ _ H. exact H.
  - constructor.
    + intros i. cbn. split; [intros [x H]; discriminate|lia].
    + intros i wt ls H. discriminate.
    + intros i j wi li wj lj _ H. discriminate.
    + left. repeat split.
  - constructor.
    + intros l c Hc Hl. apply start_clus in Hc. lia.
    + intros j p (c & H1 & H2). apply start_clus in H1. destruct H1 as [_ ->]. discriminate.
    + intros c Hc. apply start_clus in Hc. destruct Hc as [_ ->]. reflexivity.
Qed.

Lemma start_InvC adj0 : minPts <= n -> (forall u v, u < n -> v < n -> joined (E m) u v) -> InvC m (hier_start n adj0).
Proof.
  intros Hmn Hj. constructor.
  - cbn [hier_start h_l l_cur]. split.
    + intros u Hu. rewrite nth_repeat' by exact Hu. split; [|lia]. intros _. exists (seq 0 n).
      split; [apply seq_NoDup|]. split; [rewrite seq_length; exact Hmn|]. intros x Hx. apply in_seq in Hx. apply Hj; lia.
    + intros u v Hu Hvn _. rewrite !nth_repeat' by assumption. split; [|reflexivity]. intros _. apply Hj; assumption.
  - intros j p cj cp Hj'. apply start_clus in Hj'. destruct Hj' as [_ ->]. discriminate.
  - intros i wt ls H. discriminate.
Qed.

(** What a level changes. *)
Record Evt (B : list (list nat)) (k : nat) (h : hstate) (B' : list (list nat)) (h' : hstate) : Prop := {
  ev_bk : forall l, l < l_next (h_l h) -> bk B' l = bk B l;
  ev_next : l_next (h_l h) <= l_next (h_l h');
  ev_born : forall l, l_next (h_l h) <= l < l_next (h_l h') ->
     (forall v, v < n -> lab (h_l h') v = l <-> In v (bk B' l))
     /\ exists c, clus (h_l h') l c /\ c_birth c = ew (k - 1);
  ev_noise : forall v, v < n ->
     (lab (h_l h) v <> 0 /\ lab (h_l h') v = 0 /\ nth_error (l_noise (h_l h')) v = Some (Some (ew (k - 1)))
        /\ nth_error (l_last (h_l h')) v = Some (Some (lab (h_l h) v)))
     \/ (nth_error (l_noise (h_l h')) v = nth_error (l_noise (h_l h)) v
         /\ nth_error (l_last (h_l h')) v = nth_error (l_last (h_l h)) v);
  ev_old : forall l c, clus (h_l h) l c -> exists c', clus (h_l h') l c'
     /\ c_label c' = c_label c /\ c_birth c' = c_birth c /\ c_parent c' = c_parent c /\ c_offset c' = c_offset c }.

Lemma evt_step B k h A B' k' s' h' : Core B k h -> Lev B k h A B' k' s' h' -> Evt B k h B' h'.
Proof.
  intros HC HL. pose proof (le_off _ _ _ _ _ _ _ _ HL) as Ho. pose proof (le_lv _ _ _ _ _ _ _ _ HL) as HLV.
  pose proof (le_k _ _ _ _ _ _ _ _ HL) as Hk'. pose proof (co_k _ _ _ HC) as Hkm.
  pose proof (lv_inv _ _ _ _ _ _ _ _ _ _ _ _ _ HLV) as HCs'.
  pose proof (co_inv _ _ _ HC (k - 1) ltac:(lia)) as HCs.
  pose proof (ci_next _ _ _ _ _ _ _ HCs) as Hn2.
  constructor.
  - intros l Hl. apply (bk_old _ _ _ _ _ _ _ _ HC HL l Hl).
  - rewrite (next_h' _ _ _ _ _ _ _ _ HL). apply (st_next _ _ _ _ _ _ _ _ HL).
  - intros l Hl. rewrite (next_h' _ _ _ _ _ _ _ _ HL) in Hl. split.
    + intros v Hvn. rewrite (lab_h' _ _ _ _ _ _ _ _ HL). split.
      * intros <-. apply (ci_lab _ _ _ _ _ _ _ HCs' v Hvn). lia.
      * apply (lv_birth _ _ _ _ _ _ _ _ _ _ _ _ _ HLV). exact Hl.
    + destruct (lv_newc _ _ _ _ _ _ _ _ _ _ _ _ _ HLV l Hl) as (c & p & K1 & _ & _ & K2 & _).
      destruct (oe_c _ _ Ho l c K1) as [o H]. exists (set_offset c o). auto.
  - intros v Hvn. rewrite (oe_noise _ _ Ho), (oe_last _ _ Ho), (lab_h' _ _ _ _ _ _ _ _ HL).
    pose proof (lv_done _ _ _ _ _ _ _ _ _ _ _ _ _ HLV v Hvn (fun x => x)) as [V1 V2 V3].
    destruct (vcase _ _ _ _ _ _ _ _ HC HL v Hvn) as [[H1 _]|[(a & X1 & X2 & X3 & X4 & X5)|[(a & X1 & X2 & X3 & X4)|(a & X1 & X2 & X3 & X4)]]].
    + right. apply (V1 H1).
    + left. destruct (V2 a X1 X2 X3) as (Y1 & Y2 & Y3). auto.
    + right. destruct (V3 a X1 X2 X3) as (Y1 & Y2 & _). auto.
    + right. destruct (V3 a X1 X2 X3) as (Y1 & Y2 & _). auto.
  - intros l c Hc. destruct (lv_old _ _ _ _ _ _ _ _ _ _ _ _ _ HLV l c Hc) as (c1 & H1 & ((I1 & I2 & I3 & I4) & _) & _).
    pose proof (clus_lt _ _ _ Hc) as Hl. rewrite (ci_cs _ _ _ _ _ _ _ HCs) in Hl.
    pose proof (le_offs _ _ _ _ _ _ _ _ HL l c1 H1) as H2. destruct (Nat.leb_spec (l_next (h_l h)) l); [lia|].
    exists c1. auto.
Qed.

Lemma inv_step B k h : 0 < k -> feq (ew (k - 1)) (ew (k - 1)) = true -> Inv B k h ->
  exists k' h' B', hier_level e minPts n compact k h = Ok (k', h') /\ k' < k
  /\ (forall i, k' <= i < k -> feq (ew i) (ew (k - 1)) = true) /\ Inv B' k' h' /\ (InvC k h -> InvC k' h') /\ Evt B k h B' h'.
Proof.
  intros Hk Hnan [H1 H2 H3 H4]. destruct (level_ok B k h Hk Hnan H1) as (k' & h' & s' & B' & A & R & HL).
  exists k', h', B'. split; [exact R|]. split; [apply (le_k _ _ _ _ _ _ _ _ HL)|]. split; [apply (le_tie _ _ _ _ _ _ _ _ HL)|]. split; [|split].
  - constructor.
    + apply (core_step B k h A B' k' s' h'); assumption.
    + apply (alive_step B k h A B' k' s' h'); assumption.
    + apply (ent_step B k h A B' k' s' h'); assumption.
    + apply (off_step B k h A B' k' s' h'); assumption.
  - intros [C1 C2 C3]. constructor.
    + rewrite (oe_cur _ _ (le_off _ _ _ _ _ _ _ _ HL)). apply (conn_step_L B k h A B' k' s' h'); assumption.
    + apply (dead_step B k h A B' k' s' h'); assumption.
    + apply (entc_step B k h A B' k' s' h'); assumption.
  - apply (evt_step B k h A B' k' s' h'); assumption.
Qed.

Lemma stuck_level B k h : 0 < k -> feq (ew (k - 1)) (ew (k - 1)) = false -> Core B k h -> hier_level e minPts n compact k h = Ok (k, h).
Proof.
  intros Hk Hnan HC. unfold hier_level. destruct Hwf as (_ & _ & Hlw). pose proof (co_k _ _ _ HC).
  rewrite (aget_in ws (k - 1) fzero) by lia. cbn [bind]. fold (ew (k - 1)).
  rewrite (co_av _ _ _ HC), (co_al _ _ _ HC). destruct k as [|j]; [lia|]. cbn [remove_ties].
  rewrite (aget_in ws j fzero) by lia. cbn [bind]. fold (ew j). replace (S j - 1) with j in * by lia. rewrite Hnan. cbn [bind].
  pose proof (co_av _ _ _ HC) as E1. pose proof (co_al _ _ _ HC) as E2. destruct h. cbn in *. subst. reflexivity.
Qed.

Lemma stuck_loop i : i < m -> feq (ew i) (ew i) = false -> forall fuel B k h, i < k -> Inv B k h ->
  hier_loop fuel e minPts n compact k h = Fuel.
Proof.
  intros Hi Hnan. induction fuel as [|f IH]; intros B k h Hk HI; (destruct k as [|j]; [lia|]); cbn [hier_loop]; [reflexivity|].
  destruct (feq (ew (S j - 1)) (ew (S j - 1))) eqn:Ef.
  - destruct (inv_step B (S j) h ltac:(lia) Ef HI) as (k' & h' & B' & R & R1 & R2 & R3 & _). rewrite R. cbn [bind fst snd].
    apply (IH B'); [|exact R3]. destruct (le_lt_dec k' i) as [Hle|Hlt]; [|exact Hlt]. exfalso.
    specialize (R2 i ltac:(lia)). apply feq_true in R2. destruct R2 as (R2 & _ & _). rewrite feq_intro in Hnan by auto. discriminate.
  - rewrite (stuck_level B (S j) h ltac:(lia) Ef (in_core _ _ _ HI)). cbn [bind fst snd]. apply (IH B); assumption.
Qed.

Hypothesis Hnan : forall i, i < m -> feq (ew i) (ew i) = true.

Lemma loop_ok : forall fuel B k h, k <= fuel -> Inv B k h ->
  exists h', hier_loop fuel e minPts n compact k h = Ok h'.
Proof.
  induction fuel as [|f IH]; intros B k h Hf HI.
  - assert (k = 0) as -> by lia. exists h. reflexivity.
  - destruct k as [|j]; cbn [hier_loop]; [exists h; auto|].
    pose proof (co_k _ _ _ (in_core _ _ _ HI)) as Hkm.
    destruct (inv_step B (S j) h ltac:(lia) (Hnan (S j - 1) ltac:(lia)) HI) as (k' & h' & B' & R & R1 & R2 & R3 & R4). rewrite R. cbn [bind fst snd].
    apply (IH B' k' h'); [lia|exact R3].
Qed.

Lemma loop_levels : forall fuel k h h', hier_loop fuel e minPts n compact k h = Ok h' -> levels e minPts n compact (k, h) (0, h').
Proof.
  induction fuel as [|f IH]; intros k h h'; (destruct k as [|j]; cbn [hier_loop]; [intros H; injection H as <-; apply levels_refl|]); [discriminate|].
  intros H. destruct (hier_level e minPts n compact (S j) h) as [[k1 h1]| | |] eqn:E1; try discriminate. cbn [bind fst snd] in H.
  apply levels_trans with (k1, h1); [|apply IH; exact H].
  apply levels_next with (S j, h); [apply levels_refl|cbn; lia|exact E1].
Qed.

(** Everything that holds between two moments. *)
Record Path (B : list (list nat)) (k : nat) (h : hstate) (B' : list (list nat)) (k' : nat) (h' : hstate) : Prop := {
  pa_k : k' <= k;
  pa_inv : Inv B' k' h';
  pa_conn : InvC k h -> InvC k' h';
  pa_bk : forall l, l < l_next (h_l h) -> bk B' l = bk B l;
  pa_next : l_next (h_l h) <= l_next (h_l h');
  pa_noise : forall v x, v < n -> nth_error (l_noise (h_l h)) v = Some (Some x) -> nth_error (l_noise (h_l h')) v = Some (Some x);
  pa_last : forall v x, v < n -> nth_error (l_last (h_l h)) v = Some (Some x) -> nth_error (l_last (h_l h')) v = Some (Some x);
  pa_old : forall l c, clus (h_l h) l c -> exists c', clus (h_l h') l c'
     /\ c_label c' = c_label c /\ c_birth c' = c_birth c /\ c_parent c' = c_parent c /\ c_offset c' = c_offset c }.

Lemma levels_path x y : levels e minPts n compact x y -> forall B, Inv B (fst x) (snd x) ->
  exists B', Path B (fst x) (snd x) B' (fst y) (snd y).
Proof.
  intros Hl. induction Hl as [x|x y z Hl IH Hk Hs]; intros B HI.
  - exists B. constructor; eauto 10.
  - destruct (IH B HI) as (B1 & P). destruct y as [k1 h1], z as [k2 h2]. cbn [fst snd] in *.
    pose proof (co_k _ _ _ (in_core _ _ _ (pa_inv _ _ _ _ _ _ P))) as Hkm.
    destruct (inv_step B1 k1 h1 Hk (Hnan (k1 - 1) ltac:(lia)) (pa_inv _ _ _ _ _ _ P)) as (k' & h' & B' & R & R1 & _ & R3 & R4 & R5).
    rewrite R in Hs. injection Hs as <- <-. destruct P as [P1 P2 P3 P4 P5 P6 P7 P8]. exists B'.
    assert (Hnl : forall v, v < n -> nth_error (l_noise (h_l h1)) v = nth_error (l_noise (h_l h')) v
        /\ nth_error (l_last (h_l h1)) v = nth_error (l_last (h_l h')) v
        \/ nth_error (l_noise (h_l h1)) v = Some None /\ nth_error (l_last (h_l h1)) v = Some None).
    { intros v Hvn. destruct (ev_noise _ _ _ _ _ R5 v Hvn) as [(X1 & _)|[X1 X2]]; [|left; auto].
      right. destruct (co_inv0 _ _ _ (in_core _ _ _ P2)) as [w0 HC]. destruct (ci_lab _ _ _ _ _ _ _ HC v Hvn) as (_ & L & _).
      destruct (L X1) as (_ & L1 & L2). auto. }
    constructor.
    + lia.
    + exact R3.
    + auto.
    + intros l Hl'. rewrite (ev_bk _ _ _ _ _ R5) by lia. apply P4. exact Hl'.
    + pose proof (ev_next _ _ _ _ _ R5). lia.
    + intros v w Hvn Hw. specialize (P6 v w Hvn Hw). destruct (Hnl v Hvn) as [[<- _]|[X _]]; congruence.
    + intros v w Hvn Hw. specialize (P7 v w Hvn Hw). destruct (Hnl v Hvn) as [[_ <-]|[_ X]]; congruence.
    + intros l c Hc. destruct (P8 l c Hc) as (c1 & Q1 & Q2 & Q3 & Q4 & Q5).
      destruct (ev_old _ _ _ _ _ R5 l c1 Q1) as (c2 & S1 & S2 & S3 & S4 & S5). exists c2. repeat split; congruence.
Qed.

(** The level at which a cluster was created. *)
Lemma levels_born x y : levels e minPts n compact x y -> forall B l, Inv B (fst x) (snd x) ->
  l_next (h_l (snd x)) <= l < l_next (h_l (snd y)) ->
  exists y1 y2, levels e minPts n compact x y1 /\ 0 < fst y1 /\ hier_level e minPts n compact (fst y1) (snd y1) = Ok y2
    /\ levels e minPts n compact y2 y /\ l_next (h_l (snd y1)) <= l < l_next (h_l (snd y2)).
Proof.
  intros Hl. induction Hl as [x|x y z Hl IH Hk Hs]; intros B l HI Hlt; [lia|].
  destruct (le_lt_dec (l_next (h_l (snd y))) l) as [Hge|Hlt'].
  - exists y, z. split; [exact Hl|]. split; [exact Hk|]. split; [exact Hs|]. split; [apply levels_refl|lia].
  - destruct (IH B l HI ltac:(lia)) as (y1 & y2 & Q1 & Q2 & Q3 & Q4 & Q5). exists y1, y2.
    split; [exact Q1|]. split; [exact Q2|]. split; [exact Q3|]. split; [apply levels_next with y; assumption|exact Q5].
Qed.
End Hier.
