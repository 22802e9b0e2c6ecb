(** One affected cluster: its components without the removed edges. *)
From Verif Require Import Base F64 ListFacts ModelCluster ModelHier ProofSets SpecGraph ProofExplore ProofTree.
From Coq Require Import ZifyBool.
Local Open Scope nat_scope.

Section Label.
Variable n : nat.
Variable adj : list (list nat).
Variable minPts : nat.
Variable ws : list f64.
Variable D : f64 -> f64 -> Prop.
Hypothesis Hn : (Z.of_nat n < M32)%Z.
Hypothesis Hlen : length adj = n.
Hypothesis Hlt : forall a b, step adj a b -> b < n.
Hypothesis Hsym : forall a b, step adj a b -> step adj b a.

Notation conn := (conn adj).
Notation step := (step adj).
Notation comp := (comp adj).
Notation valid := (valid adj minPts).
Notation CInv := (CInv n minPts ws D).

Definition edge_lab (s : lstate) : Prop := forall a b, step a b -> lab s a = lab s b.

Lemma edge_conn s a b : edge_lab s -> conn a b -> lab s a = lab s b.
Proof. intros He H. unfold ProofExplore.conn, joined in H. induction H; [auto|auto|auto|congruence]. Qed.

Lemma relabel_edge s s' r con x : comp r con -> edge_lab s ->
  (forall v, lab s' v = if in_dec Nat.eq_dec v con then x else lab s v) -> edge_lab s'.
Proof.
  intros [_ Hc] He Hl a b Hab. rewrite !Hl.
  assert (Hi : In a con <-> In b con).
  { rewrite !Hc. split; intros H.
    - apply conn_trans with a; [exact H|apply conn_step; exact Hab].
    - apply conn_trans with b; [exact H|]. apply conn_sym. apply conn_step. exact Hab. }
  destruct (in_dec Nat.eq_dec a con), (in_dec Nat.eq_dec b con); tauto || auto.
Qed.

(** The cluster [l] examined at level [w], from state [s0] with affected vertices [E]. *)
Variable w : f64.
Variable l : nat.
Variable B0 : list (list nat).
Variable s0 : lstate.
Variable E : list nat.
Hypothesis HC0 : CInv w B0 s0.
Hypothesis He0 : edge_lab s0.
Hypothesis Hl : 1 <= l < l_next s0.
Hypothesis HE : forall v, In v E -> v < n /\ lab s0 v = l.
Hypothesis HDl : forall c, clus s0 l c -> 2 <= l -> D (c_birth c) w.
Hypothesis Hw : In w ws.

Record LI (H : list nat) (f0 : nat) (B : list (list nat)) (s : lstate) (x : expl) : Prop := {
  li_inv : CInv w B s;
  li_edge : edge_lab s;
  li_next : l_next s0 <= l_next s;
  li_exam_s : ssorted (x_exam x);
  li_exam : incl (x_exam x) E;
  li_cov : forall v, In v E -> In v (x_exam x) \/ exists h, In h H /\ conn h v;
  li_H : incl H E;
  li_examlab : forall v, In v (x_exam x) -> lab s v = l;
  li_un : forall v, v < n -> (forall h, In h H -> ~ conn h v) ->
     lab s v = lab s0 v /\ nth_error (l_noise s) v = nth_error (l_noise s0) v /\ nth_error (l_last s) v = nth_error (l_last s0) v;
  li_bad : forall h v, In h H -> conn h v -> ~ valid h ->
     lab s v = 0 /\ nth_error (l_noise s) v = Some (Some w) /\ nth_error (l_last s) v = Some (Some l);
  li_good : forall h v, In h H -> conn h v -> valid h ->
     nth_error (l_noise s) v = nth_error (l_noise s0) v /\ nth_error (l_last s) v = nth_error (l_last s0) v
     /\ x_first x <> []
     /\ ((conn f0 v /\ lab s v = l)
         \/ (~ conn f0 v /\ l_next s0 <= lab s v < l_next s /\ forall u, u < n -> lab s u = lab s v -> conn u v));
  li_first0 : x_first x = [] -> x_nch x = 0 /\ l_next s = l_next s0 /\ x_unf x = [];
  li_first1 : x_first x <> [] -> In f0 H /\ valid f0 /\ reached adj f0 (x_first x) (x_unf x) /\ ssorted (x_unf x)
     /\ x_nch x = 1 + (l_next s - l_next s0)
     /\ (l_next s0 < l_next s -> exists g, In g H /\ valid g /\ ~ conn f0 g);
  li_con : x_con x = [] /\ x_un x = [];
  li_old : forall k c, clus s0 k c -> exists c', clus s k c' /\ same_id w c c' /\ (k <> l -> c' = c);
  li_newc : forall k, l_next s0 <= k < l_next s -> exists c, clus s k c /\ c_parent c = Some l /\ c_birth c = w /\ c_offset c = 0;
  li_new : l_new s = l_new s0 ++ seq (l_next s0) (l_next s - l_next s0);
  li_B : exists B', B = B0 ++ B';
  li_birth : forall k v, l_next s0 <= k < l_next s -> In v (bk B k) -> lab s v = k }.

(** Points of a cluster born at this level keep its label when other clusters are handled. *)
Lemma birth_keep B s s' P x : (forall k v, l_next s0 <= k < l_next s -> In v (bk B k) -> lab s v = k) ->
  (forall v, In v P -> v < n /\ lab s v = l) -> (forall v, lab s' v = if in_dec Nat.eq_dec v P then x else lab s v) ->
  forall k v, l_next s0 <= k < l_next s -> In v (bk B k) -> lab s' v = k.
Proof.
  intros H1 H2 H3 k v Hk Hv. rewrite H3. destruct (in_dec Nat.eq_dec v P) as [i|i]; [|apply H1; assumption].
  exfalso. pose proof (H1 k v Hk Hv). destruct (H2 v i). lia.
Qed.
Lemma birth_add B s s' P : CInv w B s -> (forall k v, l_next s0 <= k < l_next s -> In v (bk B k) -> lab s v = k) ->
  (forall v, In v P -> v < n /\ lab s v = l) -> (forall v, lab s' v = if in_dec Nat.eq_dec v P then l_next s else lab s v) ->
  l_next s' = S (l_next s) ->
  forall k v, l_next s0 <= k < l_next s' -> In v (bk (B ++ [P]) k) -> lab s' v = k.
Proof.
  intros HC H1 H2 H3 H4 k v Hk Hv. pose proof (ci_B _ _ _ _ _ _ _ HC) as HB.
  destruct (Nat.eq_dec k (l_next s)) as [->|Hne].
  - rewrite <- HB, (bk_new n) in Hv. rewrite H3. destruct (in_dec Nat.eq_dec v P); [reflexivity|contradiction].
  - rewrite bk_app in Hv by lia. apply (birth_keep B s s' P (l_next s)) with (1 := H1); try assumption. lia.
Qed.

Lemma LI_movable H f0 B s x P : LI H f0 B s x -> P <> [] -> ssorted P -> (forall v, In v P -> v < n /\ lab s v = l) ->
  movable n ws D w s l P.
Proof.
  intros HL H1 H2 H3. split; [pose proof (li_next _ _ _ _ _ HL); lia|]. split; [exact H1|]. split; [exact H2|]. split; [exact H3|].
  split; [|exact Hw]. intros c Hc H2l. destruct (ci_c _ _ _ _ _ _ _ HC0 l Hl) as (c0 & Hc0 & _).
  destruct (li_old _ _ _ _ _ HL l c0 Hc0) as (c' & Hc' & ((_ & Hb & _) & _) & _).
  rewrite (clus_fun _ _ _ _ Hc Hc'), Hb. apply HDl; assumption.
Qed.

(** A root whose label is still [l] is unhandled unless it belongs to the first child. *)
Lemma root_unhandled H f0 B s x r : LI H f0 B s x -> r < n -> lab s r = l -> (x_first x <> [] -> ~ conn r f0) ->
  forall h, In h H -> ~ conn h r.
Proof.
  intros HL Hr Hlab Hf h Hh Hc.
  assert (Hhn : h < n) by (apply HE; apply (li_H _ _ _ _ _ HL); exact Hh).
  destruct (valid_dec n adj minPts Hlen Hlt Hsym h Hhn) as [Hv|Hv].
  - destruct (li_good _ _ _ _ _ HL h r Hh Hc Hv) as (_ & _ & G3 & [[G4 _]|(_ & G4 & _)]).
    + apply (Hf G3). apply conn_sym. exact G4.
    + lia.
  - destruct (li_bad _ _ _ _ _ HL h r Hh Hc Hv) as (G & _). lia.
Qed.

Ltac lsplit := repeat match goal with |- _ /\ _ => split end.

Lemma examine_step H f0 B s x root exam :
  LI H f0 B s x -> x_exam x = exam ++ [root] ->
  exists x1, explore minPts adj (S n)
     (mk_x (snd (set_insert root (x_con x))) (x_un x ++ [root]) exam false false (x_nch x) (x_first x) (x_unf x)) = Ok x1
  /\ exists s' nch H' f0' B',
     (if (2 <=? x_nch x1) && (minPts <=? length (x_con x1)) && x_any x1 then
               let! r := list_pop (x_first x1) in
               if set_mem (fst r) (x_con x1) then Ok (s, x_nch x1 - 1)
               else let! s' := add_cluster s (x_con x1) l w in Ok (s', x_nch x1)
             else if (length (x_con x1) <? minPts) || negb (x_any x1) then
               let! s' := make_noise s (x_con x1) l w in Ok (s', x_nch x1)
             else Ok (s, x_nch x1)) = Ok (s', nch)
  /\ LI H' f0' B' s' (mk_x [] [] (x_exam x1) (x_any x1) (x_inc x1) nch (x_first x1) (x_unf x1))
  /\ length (x_exam x1) < length (x_exam x).
Proof.
  intros HL Hex. pose proof (li_con _ _ _ _ _ HL) as [Hcon Hun]. rewrite Hcon, Hun. cbn [set_insert snd app].
  pose proof (li_exam_s _ _ _ _ _ HL) as Hes. rewrite Hex in Hes. apply ssorted_app in Hes. destruct Hes as (Hes & _ & Hes').
  assert (Hri : In root (x_exam x)) by (rewrite Hex; apply in_or_app; right; left; reflexivity).
  pose proof (li_exam _ _ _ _ _ HL root Hri) as HrE.
  destruct (HE root HrE) as [Hrn Hrl0].
  pose proof (li_examlab _ _ _ _ _ HL root Hri) as Hrl.
  pose proof (li_edge _ _ _ _ _ HL) as Hedge.
  pose proof (li_inv _ _ _ _ _ HL) as HC.
  set (x0 := mk_x [root] [root] exam false false (x_nch x) (x_first x) (x_unf x)).
  assert (Hexin : forall y, In y exam <-> In y (x_exam x) /\ y <> root).
  { intros y. rewrite Hex, in_app_iff. cbn [In]. split.
    - intros Hy. split; [auto|]. specialize (Hes' y root Hy (or_introl eq_refl)). lia.
    - intros [[Hy|[Hy|[]]] Hne]; [exact Hy|congruence]. }
  assert (Hei : einv adj root (x_exam x) x0).
  { constructor; cbn [x_con x_un x_exam x_any x0].
    - apply reached_singleton.
    - exact Hes.
    - intros y. rewrite Hexin. cbn [In]. split; intros [H1 H2]; (split; [exact H1|]); intros H3; [destruct H3 as [H3|[]]|]; auto.
    - unfold anyP. split; [discriminate|]. intros (u & [<-|[]] & Hnu & _). exfalso. apply Hnu. left. reflexivity. }
  destruct (explore_ok n adj minPts Hlen Hlt Hsym root (x_exam x) Hrn (S n) x0 Hei) as (x1 & R1 & R2 & _ & R3).
  { cbn. lia. }
  { cbn. unfold good. rewrite andb_false_r. reflexivity. }
  exists x1. split; [exact R1|].
  destruct R2 as [Q1 Q2 Q3 Q4].
  assert (Hlen1 : length (x_exam x1) < length (x_exam x)).
  { assert (Hlt1 : length (x_exam x1) <= length exam).
    { apply NoDup_incl_length; [apply ssorted_nodup; exact Q2|]. intros y Hy. apply Q3 in Hy. apply Hexin. split; [apply Hy|].
      intros ->. destruct Hy as [_ Hy]. apply Hy. apply (proj1 (proj2 Q1)). }
    rewrite Hex, app_length. cbn. lia. }
  cbn [x_inc x_first x_unf x_nch x0 negb andb] in R3.
  assert (Hconn_lt : forall v, conn root v -> v < n) by (intros v Hv; apply (conn_lt n adj Hlt Hsym root v Hv); exact Hrn).
  (* facts that every branch shares *)
  assert (Hcov : forall H', incl (root :: H) H' -> forall v, In v E -> In v (x_exam x1) \/ exists h, In h H' /\ conn h v).
  { intros H' Hi v Hv. destruct (li_cov _ _ _ _ _ HL v Hv) as [Hx|(h & Hh & Hc)].
    - destruct (In_dec Nat.eq_dec v (x_con x1)) as [i|i].
      + right. exists root. split; [apply Hi; left; reflexivity|]. apply (proj1 (proj2 (proj2 Q1))). exact i.
      + left. apply Q3. auto.
    - right. exists h. split; [apply Hi; right; exact Hh|exact Hc]. }
  assert (HexE : incl (x_exam x1) E).
  { intros y Hy. apply (li_exam _ _ _ _ _ HL). apply Q3. exact Hy. }
  assert (HHE : incl (root :: H) E).
  { intros y [<-|Hy]; [exact HrE|apply (li_H _ _ _ _ _ HL); exact Hy]. }
  rewrite <- andb_assoc. change ((minPts <=? length (x_con x1)) && x_any x1) with (good minPts (x_con x1) (x_any x1)).
  destruct R3 as [(S1 & S2 & S3 & S4 & S5)|(_ & S2 & S3 & S4 & S5 & S6)].
  - rewrite S1 in Q1, Q4. pose proof (reached_comp adj Hsym root _ Q1) as Hcomp.
    pose proof (good_valid_iff adj minPts root _ _ Hcomp Q4) as Hgv.
    destruct (good minPts (x_con x1) (x_any x1)) eqn:Hg.
    + (* a second valid component, or the first one again *)
      specialize (S5 eq_refl eq_refl). pose proof (proj1 Hgv eq_refl) as Hvr.
      destruct (li_first1 _ _ _ _ _ HL S5) as (F1 & F2 & F3 & F4 & F5 & F6).
      destruct (Nat.leb_spec 2 (x_nch x1)) as [_|Hbad]; [|lia]. cbn [andb].
      destruct (list_pop_ok (x_first x1)) as (m & fr & Hp & Hf); [congruence|]. rewrite Hp. cbn [bind fst].
      assert (Hm : conn f0 m).
      { destruct F3 as (_ & _ & F3 & _). apply F3. rewrite <- S2, Hf. apply in_or_app. right. left. reflexivity. }
      destruct (set_mem m (x_con x1)) eqn:Em.
      * apply set_mem_In in Em. apply Hcomp in Em.
        assert (Hrf : conn root f0) by (apply conn_trans with m; [exact Em|apply conn_sym; exact Hm]).
        exists s, (x_nch x1 - 1), (root :: H), f0, B. split; [reflexivity|]. split; [|exact Hlen1].
        constructor; cbn [x_con x_un x_exam x_any x_inc x_nch x_first x_unf].
        -- exact HC.
        -- exact Hedge.
        -- apply (li_next _ _ _ _ _ HL).
        -- exact Q2.
        -- exact HexE.
        -- apply Hcov. intros y Hy; exact Hy.
        -- exact HHE.
        -- intros v Hv. apply (li_examlab _ _ _ _ _ HL). apply Q3. exact Hv.
        -- intros v Hv Hh. apply (li_un _ _ _ _ _ HL v Hv). intros h Hh'. apply Hh. right. exact Hh'.
        -- intros h v [<-|Hh] Hc Hnv; [contradiction|]. apply (li_bad _ _ _ _ _ HL h v); assumption.
        -- intros h v [<-|Hh] Hc Hnv.
           ++ rewrite S2. apply (li_good _ _ _ _ _ HL f0 v F1); [|exact F2]. apply conn_trans with root; [apply conn_sym; exact Hrf|exact Hc].
           ++ rewrite S2. apply (li_good _ _ _ _ _ HL h v); assumption.
        -- congruence.
        -- intros _. rewrite S2, S3. split; [right; exact F1|]. split; [exact F2|]. split; [exact F3|]. split; [exact F4|].
           split; [lia|]. intros Hx. destruct (F6 Hx) as (g & G1 & G2). exists g. split; [right; exact G1|exact G2].
        -- split; reflexivity.
        -- apply (li_old _ _ _ _ _ HL).
        -- apply (li_newc _ _ _ _ _ HL).
        -- apply (li_new _ _ _ _ _ HL).
        -- apply (li_B _ _ _ _ _ HL).
        -- apply (li_birth _ _ _ _ _ HL).
      * assert (Hrf : ~ conn root f0).
        { intros Hc. assert (In m (x_con x1)) by (apply Hcomp; apply conn_trans with f0; assumption).
          apply set_mem_In in H0. congruence. }
        pose proof (root_unhandled H f0 B s x root HL Hrn Hrl (fun _ => Hrf)) as Hunh.
        assert (HP : forall v, In v (x_con x1) -> v < n /\ lab s v = l).
        { intros v Hv. apply Hcomp in Hv. split; [apply Hconn_lt; exact Hv|]. rewrite <- Hrl. symmetry. apply edge_conn; assumption. }
        assert (Hne : x_con x1 <> []) by (intros Hz; destruct Q1 as (_ & Q1 & _); rewrite Hz in Q1; exact Q1).
        assert (Hmin : minPts <= length (x_con x1)).
        { unfold good in Hg. apply andb_true_iff in Hg. apply Nat.leb_le. apply Hg. }
        destruct (add_cluster_ok n minPts ws D Hn w B s l (x_con x1) HC) as (s' & A1 & A2 & A3 & A4 & A5 & A6 & A7 & A8 & A9 & A10).
        { apply (LI_movable H f0 B s x); try assumption. apply Hcomp. }
        { exact Hmin. }
        rewrite A1. cbn [bind].
        exists s', (x_nch x1), (root :: H), f0, (B ++ [x_con x1]). split; [reflexivity|]. split; [|exact Hlen1].
        pose proof (li_next _ _ _ _ _ HL) as Hnx.
        assert (Hunl : forall v, ~ conn root v -> lab s' v = lab s v).
        { intros v Hv. rewrite A5. destruct (in_dec Nat.eq_dec v (x_con x1)) as [i|i]; [|reflexivity]. apply Hcomp in i. contradiction. }
        assert (Hnl : forall v, conn root v -> lab s' v = l_next s).
        { intros v Hv. rewrite A5. destruct (in_dec Nat.eq_dec v (x_con x1)) as [i|i]; [reflexivity|]. exfalso. apply i. apply Hcomp. exact Hv. }
        constructor; cbn [x_con x_un x_exam x_any x_inc x_nch x_first x_unf].
        -- exact A2.
        -- apply (relabel_edge s s' root (x_con x1) (l_next s)); assumption.
        -- lia.
        -- exact Q2.
        -- exact HexE.
        -- apply Hcov. intros y Hy; exact Hy.
        -- exact HHE.
        -- intros v Hv. apply Q3 in Hv. destruct Hv as [Hv1 Hv2]. rewrite Hunl by (intros Hc; apply Hv2; apply Hcomp; exact Hc).
           apply (li_examlab _ _ _ _ _ HL). exact Hv1.
        -- intros v Hv Hh. rewrite A6, A7. rewrite Hunl by (apply Hh; left; reflexivity).
           apply (li_un _ _ _ _ _ HL v Hv). intros h Hh'. apply Hh. right. exact Hh'.
        -- intros h v [<-|Hh] Hc Hnv; [contradiction|]. rewrite A6, A7.
           rewrite Hunl; [apply (li_bad _ _ _ _ _ HL h v); assumption|].
           intros Hr. apply (Hunh h Hh). apply conn_trans with v; [exact Hc|apply conn_sym; exact Hr].
        -- intros h v [<-|Hh] Hc Hnv.
           ++ rewrite A6, A7, S2.
              assert (Hvun : forall h, In h H -> ~ conn h v).
              { intros h Hh Hc'. apply (Hunh h Hh). apply conn_trans with v; [exact Hc'|apply conn_sym; exact Hc]. }
              destruct (li_un _ _ _ _ _ HL v (Hconn_lt v Hc) Hvun) as (_ & U2 & U3).
              split; [exact U2|]. split; [exact U3|]. split; [exact S5|]. right.
              split; [intros Hf0; apply Hrf; apply conn_trans with v; [exact Hc|apply conn_sym; exact Hf0]|].
              rewrite (Hnl v Hc). split; [lia|]. intros u Hu Hlu.
              destruct (conn_dec n adj Hlen Hlt Hsym root u Hrn) as [Hcu|Hcu].
              ** apply conn_trans with root; [apply conn_sym; exact Hcu|exact Hc].
              ** rewrite (Hunl u Hcu) in Hlu. destruct (ci_lab _ _ _ _ _ _ _ HC u Hu) as [HH _]. lia.
           ++ rewrite A6, A7, S2. destruct (li_good _ _ _ _ _ HL h v Hh Hc Hnv) as (G1 & G2 & G3 & G4).
              split; [exact G1|]. split; [exact G2|]. split; [exact G3|].
              assert (Hnr : ~ conn root v).
              { intros Hr. apply (Hunh h Hh). apply conn_trans with v; [exact Hc|apply conn_sym; exact Hr]. }
              rewrite (Hunl v Hnr). destruct G4 as [G4|(G4 & G5 & G6)]; [left; exact G4|]. right.
              split; [exact G4|]. split; [lia|]. intros u Hu Hlu.
              destruct (conn_dec n adj Hlen Hlt Hsym root u Hrn) as [Hcu|Hcu].
              ** rewrite (Hnl u Hcu) in Hlu. lia.
              ** rewrite (Hunl u Hcu) in Hlu. apply G6; assumption.
        -- congruence.
        -- intros _. rewrite S2, S3. split; [right; exact F1|]. split; [exact F2|]. split; [exact F3|]. split; [exact F4|].
           split; [lia|]. intros _. exists root. split; [left; reflexivity|]. split; [exact Hvr|]. intros Hc. apply Hrf. apply conn_sym. exact Hc.
        -- split; reflexivity.
        -- intros k c Hk. destruct (li_old _ _ _ _ _ HL k c Hk) as (c' & K1 & K2 & K3).
           destruct (A8 k c' K1) as (c'' & K4 & K5 & K6). exists c''. split; [exact K4|].
           split; [apply same_id_trans with c'; assumption|]. intros Hkl. rewrite K6 by exact Hkl. apply K3. exact Hkl.
        -- intros k Hk. destruct (Nat.eq_dec k (l_next s)) as [->|Hne']; [exact A10|].
           destruct (li_newc _ _ _ _ _ HL k ltac:(lia)) as (c & K1 & K2 & K3 & K4).
           destruct (A8 k c K1) as (c'' & K5 & K6 & K7). exists c''. rewrite (K7 ltac:(lia)) in *. auto.
        -- rewrite A4, (li_new _ _ _ _ _ HL), A3.
           replace (S (l_next s) - l_next s0) with ((l_next s - l_next s0) + 1) by lia. rewrite seq_app, <- app_assoc.
           cbn [seq]. repeat f_equal. lia.
        -- destruct (li_B _ _ _ _ _ HL) as [B' ->]. exists (B' ++ [x_con x1]). rewrite app_assoc. reflexivity.
        -- apply (birth_add B s s' (x_con x1) HC (li_birth _ _ _ _ _ HL)); assumption.
    + (* too small: noise *)
      rewrite andb_false_r. assert (Hnv : ~ valid root) by (intros Hv; apply Hgv in Hv; discriminate).
      assert (Hcond : (length (x_con x1) <? minPts) || negb (x_any x1) = true).
      { rewrite Nat.ltb_antisym, <- negb_andb. fold (good minPts (x_con x1) (x_any x1)). rewrite Hg. reflexivity. }
      rewrite Hcond.
      assert (Hunh : forall h, In h H -> ~ conn h root).
      { apply (root_unhandled H f0 B s x root HL Hrn Hrl). intros Hf Hc.
        destruct (li_first1 _ _ _ _ _ HL Hf) as (F1 & F2 & _). apply Hnv. apply (valid_conn adj minPts f0); [apply conn_sym; exact Hc|exact F2]. }
      assert (HP : forall v, In v (x_con x1) -> v < n /\ lab s v = l).
      { intros v Hv. apply Hcomp in Hv. split; [apply Hconn_lt; exact Hv|]. rewrite <- Hrl. symmetry. apply edge_conn; assumption. }
      assert (Hne : x_con x1 <> []) by (intros Hz; destruct Q1 as (_ & Q1 & _); rewrite Hz in Q1; exact Q1).
      destruct (make_noise_ok n minPts ws D Hn w B s l (x_con x1) HC) as (s' & A1 & A2 & A3 & A4 & A5 & A6 & A7 & A8 & A9).
      { apply (LI_movable H f0 B s x); try assumption. apply Hcomp. }
      rewrite A1. cbn [bind].
      exists s', (x_nch x1), (root :: H), f0, B. split; [reflexivity|]. split; [|exact Hlen1].
      pose proof (li_next _ _ _ _ _ HL) as Hnx.
      assert (Hunl : forall v, ~ conn root v -> lab s' v = lab s v /\ nth_error (l_noise s') v = nth_error (l_noise s) v
                /\ nth_error (l_last s') v = nth_error (l_last s) v).
      { intros v Hv. rewrite A5, A6, A7. destruct (in_dec Nat.eq_dec v (x_con x1)) as [i|i]; [|auto]. apply Hcomp in i. contradiction. }
      assert (Hnl : forall v, conn root v -> lab s' v = 0 /\ nth_error (l_noise s') v = Some (Some w) /\ nth_error (l_last s') v = Some (Some l)).
      { intros v Hv. rewrite A5, A6, A7. destruct (in_dec Nat.eq_dec v (x_con x1)) as [i|i]; [auto|]. exfalso. apply i. apply Hcomp. exact Hv. }
      constructor; cbn [x_con x_un x_exam x_any x_inc x_nch x_first x_unf].
      * exact A2.
      * apply (relabel_edge s s' root (x_con x1) 0); assumption.
      * lia.
      * exact Q2.
      * exact HexE.
      * apply Hcov. intros y Hy; exact Hy.
      * exact HHE.
      * intros v Hv. apply Q3 in Hv. destruct Hv as [Hv1 Hv2].
        destruct (Hunl v) as [-> _]; [intros Hc; apply Hv2; apply Hcomp; exact Hc|].
        apply (li_examlab _ _ _ _ _ HL). exact Hv1.
      * intros v Hv Hh. destruct (Hunl v (Hh root (or_introl eq_refl))) as (-> & -> & ->).
        apply (li_un _ _ _ _ _ HL v Hv). intros h Hh'. apply Hh. right. exact Hh'.
      * intros h v [<-|Hh] Hc Hnv'; [apply Hnl; exact Hc|].
        destruct (Hunl v) as (-> & -> & ->); [|apply (li_bad _ _ _ _ _ HL h v); assumption].
        intros Hr. apply (Hunh h Hh). apply conn_trans with v; [exact Hc|apply conn_sym; exact Hr].
      * intros h v [<-|Hh] Hc Hnv'; [contradiction|].
        assert (Hnr : ~ conn root v).
        { intros Hr. apply (Hunh h Hh). apply conn_trans with v; [exact Hc|apply conn_sym; exact Hr]. }
        destruct (Hunl v Hnr) as (-> & -> & ->). rewrite S2, A3.
        destruct (li_good _ _ _ _ _ HL h v Hh Hc Hnv') as (G1 & G2 & G3 & G4).
        split; [exact G1|]. split; [exact G2|]. split; [exact G3|].
        destruct G4 as [G4|(G4 & G5 & G6)]; [left; exact G4|]. right.
        split; [exact G4|]. split; [lia|]. intros u Hu Hlu.
        destruct (conn_dec n adj Hlen Hlt Hsym root u Hrn) as [Hcu|Hcu].
        -- destruct (Hnl u Hcu) as [Hz _]. rewrite Hz in Hlu. lia.
        -- destruct (Hunl u Hcu) as [Hz _]. rewrite Hz in Hlu. apply G6; assumption.
      * rewrite S2, S3, A3. intros Hf. destruct (li_first0 _ _ _ _ _ HL Hf) as (Z1 & Z2 & Z3). split; [lia|auto].
      * rewrite S2, S3, A3. intros Hf. destruct (li_first1 _ _ _ _ _ HL Hf) as (F1 & F2 & F3 & F4 & F5 & F6).
        split; [right; exact F1|]. split; [exact F2|]. split; [exact F3|]. split; [exact F4|].
        split; [lia|]. intros Hx. destruct (F6 Hx) as (g & G1 & G2). exists g. split; [right; exact G1|exact G2].
      * split; reflexivity.
      * intros k c Hk. destruct (li_old _ _ _ _ _ HL k c Hk) as (c' & K1 & K2 & K3).
        destruct (A8 k c' K1) as (c'' & K4 & K5 & K6). exists c''. split; [exact K4|].
        split; [apply same_id_trans with c'; assumption|]. intros Hkl. rewrite K6 by exact Hkl. apply K3. exact Hkl.
      * rewrite A3. intros k Hk. destruct (li_newc _ _ _ _ _ HL k Hk) as (c & K1 & K2 & K3 & K4).
        destruct (A8 k c K1) as (c'' & K5 & K6 & K7). exists c''. rewrite (K7 ltac:(lia)) in *. auto.
      * rewrite A4, A3. apply (li_new _ _ _ _ _ HL).
      * apply (li_B _ _ _ _ _ HL).
      * rewrite A3. apply (birth_keep B s s' (x_con x1) 0 (li_birth _ _ _ _ _ HL)); assumption.
  - (* the first valid component, only partly explored *)
    destruct (li_first0 _ _ _ _ _ HL S2) as (Z1 & Z2 & Z3).
    destruct (Nat.leb_spec 2 (x_nch x1)) as [Hbad|_]; [lia|]. cbn [andb].
    pose proof (good_valid n adj minPts Hlen Hlt Hsym root _ _ _ Hrn Q1 Q4 S3) as Hvr.
    assert (Hcond : (length (x_con x1) <? minPts) || negb (x_any x1) = false).
    { unfold good in S3. apply andb_true_iff in S3. destruct S3 as [G1 G2]. rewrite G2. apply Nat.leb_le in G1.
      destruct (Nat.ltb_spec (length (x_con x1)) minPts); [lia|reflexivity]. }
    rewrite Hcond. exists s, (x_nch x1), (root :: H), root, B. split; [reflexivity|]. split; [|exact Hlen1].
    assert (Hunh : forall h, In h H -> ~ conn h root).
    { apply (root_unhandled H f0 B s x root HL Hrn Hrl). congruence. }
    assert (Hne : x_con x1 <> []) by (intros Hz; destruct Q1 as (_ & Q1 & _); rewrite Hz in Q1; exact Q1).
    assert (Hinv : forall h, In h H -> ~ valid h).
    { intros h Hh Hv. destruct (li_good _ _ _ _ _ HL h h Hh (conn_refl adj h) Hv) as (_ & _ & G & _). contradiction. }
    constructor; cbn [x_con x_un x_exam x_any x_inc x_nch x_first x_unf].
    + exact HC.
    + exact Hedge.
    + apply (li_next _ _ _ _ _ HL).
    + exact Q2.
    + exact HexE.
    + apply Hcov. intros y Hy; exact Hy.
    + exact HHE.
    + intros v Hv. apply (li_examlab _ _ _ _ _ HL). apply Q3. exact Hv.
    + intros v Hv Hh. apply (li_un _ _ _ _ _ HL v Hv). intros h Hh'. apply Hh. right. exact Hh'.
    + intros h v [<-|Hh] Hc Hnv; [contradiction|]. apply (li_bad _ _ _ _ _ HL h v); assumption.
    + intros h v [<-|Hh] Hc Hnv; [|exfalso; apply (Hinv h Hh Hnv)].
      assert (Hvun : forall h, In h H -> ~ conn h v).
      { intros h Hh Hc'. apply (Hunh h Hh). apply conn_trans with v; [exact Hc'|apply conn_sym; exact Hc]. }
      destruct (li_un _ _ _ _ _ HL v (Hconn_lt v Hc) Hvun) as (_ & U2 & U3).
      split; [exact U2|]. split; [exact U3|]. rewrite S5. split; [exact Hne|]. left. split; [exact Hc|].
      rewrite <- Hrl. symmetry. apply edge_conn; assumption.
    + rewrite S5. intros Hz. contradiction.
    + intros _. rewrite S5, S6, Z3. split; [left; reflexivity|]. split; [exact Hvr|].
      destruct (set_insert_all_spec (x_un x1) []) as [I1 I2]; [constructor|].
      split; [|split; [exact I1|split; [lia|lia]]].
      destruct Q1 as (C1 & C2 & C3 & C4 & C5 & C6).
      split; [exact C1|]. split; [exact C2|]. split; [exact C3|]. split; [apply ssorted_nodup; exact I1|].
      split; [intros y Hy; apply I2 in Hy; destruct Hy as [Hy|[]]; apply C5; exact Hy|].
      intros u b Hu Hnu. apply (C6 u b Hu). intros Hi. apply Hnu. apply I2. auto.
    + split; reflexivity.
    + apply (li_old _ _ _ _ _ HL).
    + apply (li_newc _ _ _ _ _ HL).
    + apply (li_new _ _ _ _ _ HL).
    + apply (li_B _ _ _ _ _ HL).
    + apply (li_birth _ _ _ _ _ HL).
Qed.

Lemma examine_ok : forall fuel s x H f0 B, LI H f0 B s x -> length (x_exam x) < fuel ->
  exists s' x' H' f0' B', examine minPts adj (S n) fuel l w s x = Ok (s', x') /\ LI H' f0' B' s' x' /\ x_exam x' = [].
Proof.
  induction fuel as [|f IH]; intros s x H f0 B HL Hf; [lia|].
  cbn [examine]. destruct (x_exam x) as [|a t] eqn:Eex.
  - exists s, x, H, f0, B. split; [reflexivity|]. split; [exact HL|exact Eex].
  - rewrite <- Eex in *. destruct (list_pop_ok (x_exam x)) as (root & exam & Ep & Ee); [congruence|].
    rewrite Ep. cbn [bind].
    destruct (examine_step H f0 B s x root exam HL Ee) as (x1 & X1 & s' & nch & H' & f0' & B' & X2 & X3 & X4).
    rewrite X1. cbn [bind]. rewrite X2. cbn [bind]. apply IH with (1 := X3). cbn [x_exam]. lia.
Qed.

(** The effect of examining cluster [l]. *)
Record LP (B' : list (list nat)) (s' : lstate) : Prop := {
  lp_inv : CInv w B' s';
  lp_edge : edge_lab s';
  lp_B : exists B1, B' = B0 ++ B1;
  lp_next : l_next s' = l_next s0 \/ l_next s0 + 2 <= l_next s';
  lp_same : forall v, v < n -> (forall a, In a E -> ~ conn a v) ->
     lab s' v = lab s0 v /\ nth_error (l_noise s') v = nth_error (l_noise s0) v /\ nth_error (l_last s') v = nth_error (l_last s0) v;
  lp_bad : forall a v, In a E -> conn a v -> ~ valid a ->
     lab s' v = 0 /\ nth_error (l_noise s') v = Some (Some w) /\ nth_error (l_last s') v = Some (Some l);
  lp_good : forall a v, In a E -> conn a v -> valid a ->
     nth_error (l_noise s') v = nth_error (l_noise s0) v /\ nth_error (l_last s') v = nth_error (l_last s0) v
     /\ ((lab s' v = l /\ forall g, In g E -> valid g -> conn g v)
         \/ (l_next s0 <= lab s' v < l_next s' /\ (forall u, u < n -> lab s' u = lab s' v -> conn u v)
             /\ exists g, In g E /\ valid g /\ ~ conn g v));
  lp_old : forall k c, clus s0 k c -> exists c', clus s' k c' /\ same_id w c c' /\ (k <> l -> c' = c);
  lp_newc : forall k, l_next s0 <= k < l_next s' -> exists c, clus s' k c /\ c_parent c = Some l /\ c_birth c = w /\ c_offset c = 0;
  lp_new : l_new s' = l_new s0 ++ seq (l_next s0) (l_next s' - l_next s0);
  lp_birth : forall k v, l_next s0 <= k < l_next s' -> In v (bk B' k) -> lab s' v = k }.

Lemma LI_start : ssorted E -> LI [] 0 B0 s0 (mk_x [] [] E false false 0 [] []).
Proof.
  intros Hs. constructor; cbn [x_con x_un x_exam x_any x_inc x_nch x_first x_unf]; auto.
  - intros v Hv. exact Hv.
  - intros v [].
  - intros v Hv. apply HE. exact Hv.
  - intros h v [].
  - intros h v [].
  - congruence.
  - intros k c Hc. exists c. split; [exact Hc|]. split; [apply same_id_refl|reflexivity].
  - lia.
  - rewrite Nat.sub_diag. cbn. rewrite app_nil_r. reflexivity.
  - exists []. rewrite app_nil_r. reflexivity.
  - lia.
Qed.

Lemma finish_label H f0 B s x : LI H f0 B s x -> x_exam x = [] ->
  exists s' B',
    (if 2 <=? x_nch x then
       match x_first x with
       | [] => UB
       | dd :: _ =>
           let! c := aget (l_cur s) dd in
           if c =? l then
             let! first := finish_first adj (S n) (x_first x) (x_unf x) in
             add_cluster s first l w
           else Ok s
       end
     else Ok s) = Ok s' /\ LP B' s'.
Proof.
  intros HL Hex. pose proof (li_inv _ _ _ _ _ HL) as HC. pose proof (li_next _ _ _ _ _ HL) as Hnx.
  assert (Hhan : forall a, In a E -> exists h, In h H /\ conn h a).
  { intros a Ha. destruct (li_cov _ _ _ _ _ HL a Ha) as [Hx|Hx]; [rewrite Hex in Hx; destruct Hx|exact Hx]. }
  assert (Hback : forall v, v < n -> (forall a, In a E -> ~ conn a v) -> forall h, In h H -> ~ conn h v).
  { intros v Hv Ha h Hh. apply Ha. apply (li_H _ _ _ _ _ HL). exact Hh. }
  destruct (Nat.leb_spec 2 (x_nch x)) as [H2|H2].
  - destruct (x_first x) as [|dd t] eqn:Ef.
    { destruct (li_first0 _ _ _ _ _ HL Ef). lia. }
    destruct (li_first1 _ _ _ _ _ HL) as (F1 & F2 & F3 & F4 & F5 & F6); [congruence|].
    assert (Hf0n : f0 < n) by (apply HE; apply (li_H _ _ _ _ _ HL); exact F1).
    assert (Hddc : conn f0 dd) by (apply (proj1 (proj2 (proj2 F3))); rewrite Ef; left; reflexivity).
    assert (Hf0l : forall v, conn f0 v -> v < n /\ lab s v = l).
    { intros v Hv. split; [apply (conn_lt n adj Hlt Hsym f0 v Hv); exact Hf0n|].
      destruct (li_good _ _ _ _ _ HL f0 v F1 Hv F2) as (_ & _ & _ & [[_ G]|[G _]]); [exact G|contradiction]. }
    destruct (Hf0l dd Hddc) as [Hddn Hddl].
    rewrite (aget_nth (l_cur s) dd l).
    2: { rewrite <- Hddl. unfold lab. apply nth_error_nth'. rewrite (ci_cur _ _ _ _ _ _ _ HC). exact Hddn. }
    cbn [bind]. rewrite Nat.eqb_refl. rewrite <- Ef.
    destruct (finish_ok n adj Hlen Hlt Hsym f0 Hf0n (S n) (x_first x) (x_unf x) F4 F3) as (P & P1 & P2).
    { assert (length (x_unf x) <= length (x_first x)).
      { apply NoDup_incl_length; [apply ssorted_nodup; exact F4|]. apply F3. }
      lia. }
    rewrite P1. cbn [bind].
    assert (HPl : forall v, In v P -> v < n /\ lab s v = l) by (intros v Hv; apply Hf0l; apply P2; exact Hv).
    assert (HPne : P <> []).
    { intros Hz. assert (In f0 P) by (apply P2; apply conn_refl). rewrite Hz in H0. exact H0. }
    destruct (add_cluster_ok n minPts ws D Hn w B s l P HC) as (s' & A1 & A2 & A3 & A4 & A5 & A6 & A7 & A8 & A9 & A10).
    { apply (LI_movable H f0 B s x); try assumption. apply P2. }
    { destruct F2 as (l' & L1 & L2 & _). rewrite (comp_unique adj f0 P l' P2 L1). exact L2. }
    exists s', (B ++ [P]). split; [exact A1|].
    assert (Hunl : forall v, ~ conn f0 v -> lab s' v = lab s v).
    { intros v Hv. rewrite A5. destruct (in_dec Nat.eq_dec v P) as [i|i]; [|reflexivity]. apply P2 in i. contradiction. }
    assert (Hnl : forall v, conn f0 v -> lab s' v = l_next s).
    { intros v Hv. rewrite A5. destruct (in_dec Nat.eq_dec v P) as [i|i]; [reflexivity|]. exfalso. apply i. apply P2. exact Hv. }
    assert (Hsplit : l_next s0 < l_next s) by lia.
    constructor.
    + exact A2.
    + apply (relabel_edge s s' f0 P (l_next s)); [exact P2|apply (li_edge _ _ _ _ _ HL)|exact A5].
    + destruct (li_B _ _ _ _ _ HL) as [B1 ->]. exists (B1 ++ [P]). rewrite app_assoc. reflexivity.
    + right. lia.
    + intros v Hv Ha. rewrite A6, A7. rewrite Hunl.
      * apply (li_un _ _ _ _ _ HL v Hv). apply Hback; assumption.
      * apply (Hback v Hv Ha f0 F1).
    + intros a v Ha Hc Hnv. destruct (Hhan a Ha) as (h & Hh & Hch).
      assert (Hnh : ~ valid h) by (intros Hv; apply Hnv; apply (valid_conn adj minPts h); assumption).
      rewrite A6, A7, Hunl.
      * apply (li_bad _ _ _ _ _ HL h v Hh); [apply conn_trans with a; assumption|exact Hnh].
      * intros Hfv. apply Hnv. apply (valid_conn adj minPts f0); [|exact F2]. apply conn_trans with v; [exact Hfv|apply conn_sym; exact Hc].
    + intros a v Ha Hc Hva. destruct (Hhan a Ha) as (h & Hh & Hch).
      assert (Hvh : valid h) by (apply (valid_conn adj minPts a); [apply conn_sym; exact Hch|exact Hva]).
      assert (Hhv : conn h v) by (apply conn_trans with a; assumption).
      destruct (li_good _ _ _ _ _ HL h v Hh Hhv Hvh) as (G1 & G2 & G3 & G4).
      rewrite A6, A7. split; [exact G1|]. split; [exact G2|]. right.
      destruct G4 as [[G4 G5]|(G4 & G5 & G6)].
      * rewrite (Hnl v G4). split; [lia|]. split.
        -- intros u Hu Hlu. destruct (conn_dec n adj Hlen Hlt Hsym f0 u Hf0n) as [Hcu|Hcu].
           ++ apply conn_trans with f0; [apply conn_sym; exact Hcu|exact G4].
           ++ rewrite (Hunl u Hcu) in Hlu. destruct (ci_lab _ _ _ _ _ _ _ HC u Hu) as [HH _]. lia.
        -- destruct (F6 Hsplit) as (g & Y1 & Y2 & Y3). exists g. split; [apply (li_H _ _ _ _ _ HL); exact Y1|]. split; [exact Y2|].
           intros Hg. apply Y3. apply conn_trans with v; [exact G4|apply conn_sym; exact Hg].
      * rewrite (Hunl v G4). split; [lia|]. split.
        -- intros u Hu Hlu. destruct (conn_dec n adj Hlen Hlt Hsym f0 u Hf0n) as [Hcu|Hcu].
           ++ rewrite (Hnl u Hcu) in Hlu. lia.
           ++ rewrite (Hunl u Hcu) in Hlu. apply G6; assumption.
        -- exists f0. split; [apply (li_H _ _ _ _ _ HL); exact F1|]. split; [exact F2|exact G4].
    + intros k c Hk. destruct (li_old _ _ _ _ _ HL k c Hk) as (c' & K1 & K2 & K3).
      destruct (A8 k c' K1) as (c'' & K4 & K5 & K6). exists c''. split; [exact K4|].
      split; [apply same_id_trans with c'; assumption|]. intros Hkl. rewrite K6 by exact Hkl. apply K3. exact Hkl.
    + intros k Hk. destruct (Nat.eq_dec k (l_next s)) as [->|Hne']; [exact A10|].
      destruct (li_newc _ _ _ _ _ HL k ltac:(lia)) as (c & K1 & K2 & K3 & K4).
      destruct (A8 k c K1) as (c'' & K5 & K6 & K7). exists c''. rewrite (K7 ltac:(lia)) in *. auto.
    + rewrite A4, (li_new _ _ _ _ _ HL), A3.
      replace (S (l_next s) - l_next s0) with ((l_next s - l_next s0) + 1) by lia. rewrite seq_app, <- app_assoc.
      cbn [seq]. repeat f_equal. lia.
    + apply (birth_add B s s' P HC (li_birth _ _ _ _ _ HL)); assumption.
  - exists s, B. split; [reflexivity|].
    assert (Heq : l_next s = l_next s0).
    { destruct (x_first x) as [|dd t] eqn:Ef; [apply (li_first0 _ _ _ _ _ HL Ef)|].
      destruct (li_first1 _ _ _ _ _ HL) as (_ & _ & _ & _ & F5 & _); [congruence|]. lia. }
    constructor.
    + exact HC.
    + apply (li_edge _ _ _ _ _ HL).
    + apply (li_B _ _ _ _ _ HL).
    + left. exact Heq.
    + intros v Hv Ha. apply (li_un _ _ _ _ _ HL v Hv). apply Hback; assumption.
    + intros a v Ha Hc Hnv. destruct (Hhan a Ha) as (h & Hh & Hch).
      apply (li_bad _ _ _ _ _ HL h v Hh); [apply conn_trans with a; assumption|].
      intros Hv. apply Hnv. apply (valid_conn adj minPts h); assumption.
    + intros a v Ha Hc Hva. destruct (Hhan a Ha) as (h & Hh & Hch).
      assert (Hvh : valid h) by (apply (valid_conn adj minPts a); [apply conn_sym; exact Hch|exact Hva]).
      assert (Hhv : conn h v) by (apply conn_trans with a; assumption).
      destruct (li_good _ _ _ _ _ HL h v Hh Hhv Hvh) as (G1 & G2 & G3 & G4).
      split; [exact G1|]. split; [exact G2|]. left.
      destruct G4 as [[G4 G5]|(G4 & G5 & G6)]; [|lia]. split; [exact G5|].
      intros g Hg Hvg. destruct (Hhan g Hg) as (h' & Hh' & Hch').
      assert (Hvh' : valid h') by (apply (valid_conn adj minPts g); [apply conn_sym; exact Hch'|exact Hvg]).
      destruct (li_good _ _ _ _ _ HL h' g Hh' Hch' Hvh') as (_ & _ & _ & [[G7 _]|(_ & G7 & _)]); [|lia].
      apply conn_trans with f0; [apply conn_sym; exact G7|exact G4].
    + apply (li_old _ _ _ _ _ HL).
    + apply (li_newc _ _ _ _ _ HL).
    + apply (li_new _ _ _ _ _ HL).
    + apply (li_birth _ _ _ _ _ HL).
Qed.
End Label.

Section Level.
Variable n : nat.
Variable adj : list (list nat).
Variable minPts : nat.
Variable ws : list f64.
Variable D : f64 -> f64 -> Prop.
Hypothesis Hn : (Z.of_nat n < M32)%Z.
Hypothesis Hlen : length adj = n.
Hypothesis Hlt : forall a b, step adj a b -> b < n.
Hypothesis Hsym : forall a b, step adj a b -> step adj b a.

Notation conn := (conn adj).
Notation valid := (valid adj minPts).
Notation CInv := (CInv n minPts ws D).

Lemma take_label_ok s l : length (l_cur s) = n -> forall av exam, ssorted av -> ssorted exam -> (forall v, In v av -> v < n) ->
  exists av' exam', take_label (l_cur s) l av exam = Ok (av', exam')
  /\ ssorted av' /\ ssorted exam'
  /\ (forall v, In v av' <-> In v av /\ lab s v <> l) /\ (forall v, In v exam' <-> In v exam \/ (In v av /\ lab s v = l)).
Proof.
  intros Hc. induction av as [|a av IH]; intros exam H1 H2 H3; cbn [take_label].
  - exists [], exam. split; [reflexivity|]. split; [exact H1|]. split; [exact H2|].
    split; intros v; cbn [In]; tauto.
  - apply ssorted_cons in H1. destruct H1 as [H1 Ha].
    rewrite (aget_nth (l_cur s) a (lab s a)) by (apply nth_error_nth'; rewrite Hc; apply H3; left; reflexivity).
    cbn [bind]. destruct (Nat.eqb_spec (lab s a) l) as [El|El].
    + destruct (snd_set_insert a exam H2) as [I1 I2].
      destruct (IH (snd (set_insert a exam)) H1 I1) as (av' & exam' & R1 & R2 & R3 & R4 & R5).
      { intros v Hv. apply H3. right. exact Hv. }
      exists av', exam'. split; [exact R1|]. split; [exact R2|]. split; [exact R3|]. split; intros v.
      * rewrite R4. cbn [In]. split; [tauto|]. intros [[->|Hv] Hne]; [contradiction|auto].
      * rewrite R5, I2. cbn [In]. split; [intros [[->|Hv]|Hv]; tauto|]. intros [Hv|[[->|Hv] Hv']]; auto.
    + destruct (IH exam H1 H2) as (av' & exam' & R1 & R2 & R3 & R4 & R5).
      { intros v Hv. apply H3. right. exact Hv. }
      rewrite R1. cbn [bind fst snd]. exists (a :: av'), exam'. split; [reflexivity|].
      split; [apply ssorted_cons; split; [exact R2|]; intros y Hy; apply R4 in Hy; apply Ha; apply Hy|].
      split; [exact R3|]. split; intros v.
      * cbn [In]. rewrite R4. split; [intros [<-|Hv]; tauto|tauto].
      * rewrite R5. cbn [In]. split; [tauto|]. intros [Hv|[[->|Hv] Hv']]; auto. contradiction.
Qed.

Lemma do_label_ok w l B0 s0 av : CInv w B0 s0 -> edge_lab adj s0 -> 1 <= l < l_next s0 ->
  ssorted av -> (forall v, In v av -> v < n) ->
  (forall c, clus s0 l c -> 2 <= l -> D (c_birth c) w) -> In w ws ->
  exists s' av' E B', do_label minPts adj (S n) l w s0 av = Ok (s', av')
  /\ ssorted av' /\ (forall v, In v av' <-> In v av /\ lab s0 v <> l)
  /\ (forall v, In v E <-> In v av /\ lab s0 v = l)
  /\ LP n adj minPts ws D w l B0 s0 E B' s'.
Proof.
  intros HC He Hl Ha Hav HDl Hw. unfold do_label.
  destruct (take_label_ok s0 l (ci_cur _ _ _ _ _ _ _ HC) av [] Ha) as (av' & E & T1 & T2 & T3 & T4 & T5); [constructor|exact Hav|].
  rewrite T1. cbn [bind].
  assert (HEi : forall v, In v E <-> In v av /\ lab s0 v = l) by (intros v; rewrite T5; cbn; tauto).
  assert (HE : forall v, In v E -> v < n /\ lab s0 v = l) by (intros v Hv; apply HEi in Hv; split; [apply Hav|]; apply Hv).
  destruct (examine_ok n adj minPts ws D Hn Hlen Hlt Hsym w l B0 s0 E HC Hl HE HDl Hw (S n) s0 (mk_x [] [] E false false 0 [] []) [] 0 B0)
    as (s1 & x1 & H1 & f1 & B1 & X1 & X2 & X3).
  { apply LI_start; assumption. }
  { cbn [x_exam]. pose proof (ssorted_length E n T3 (fun v Hv => proj1 (HE v Hv))). lia. }
  rewrite X1. cbn [bind].
  destruct (finish_label n adj minPts ws D Hn Hlen Hlt Hsym w l B0 s0 E HC Hl HE HDl Hw H1 f1 B1 s1 x1 X2 X3) as (s' & B' & Y1 & Y2).
  rewrite Y1. cbn [bind]. exists s', av', E, B'. auto.
Qed.

(** The effect of a level on one vertex; [A] are the affected vertices, [s0] the state before. *)
Record VP (w : f64) (s0 : lstate) (A : list nat) (s : lstate) (v : nat) : Prop := {
  vp_same : (forall a, In a A -> ~ conn a v) ->
     lab s v = lab s0 v /\ nth_error (l_noise s) v = nth_error (l_noise s0) v /\ nth_error (l_last s) v = nth_error (l_last s0) v;
  vp_bad : forall a, In a A -> conn a v -> ~ valid a ->
     lab s v = 0 /\ nth_error (l_noise s) v = Some (Some w) /\ nth_error (l_last s) v = Some (Some (lab s0 v));
  vp_good : forall a, In a A -> conn a v -> valid a ->
     nth_error (l_noise s) v = nth_error (l_noise s0) v /\ nth_error (l_last s) v = nth_error (l_last s0) v
     /\ ((lab s v = lab s0 v /\ forall g, In g A -> lab s0 g = lab s0 v -> valid g -> conn g v)
         \/ (l_next s0 <= lab s v < l_next s /\ (forall u, u < n -> lab s u = lab s v -> conn u v)
             /\ parentof s (lab s v) (lab s0 v)
             /\ exists g, In g A /\ lab s0 g = lab s0 v /\ valid g /\ ~ conn g v)) }.

Record LV (w : f64) (B0 : list (list nat)) (s0 : lstate) (A : list nat) (al av : list nat) (B : list (list nat)) (s : lstate) : Prop := {
  lv_inv : CInv w B s;
  lv_edge : edge_lab adj s;
  lv_next : l_next s0 <= l_next s;
  lv_B : exists B1, B = B0 ++ B1;
  lv_al : ssorted al /\ forall l, In l al -> 1 <= l < l_next s0 /\ exists a, In a A /\ lab s0 a = l;
  lv_av_s : ssorted av;
  lv_av : forall v, In v av <-> In v A /\ In (lab s0 v) al;
  lv_todo : forall v, v < n -> In (lab s0 v) al ->
     lab s v = lab s0 v /\ nth_error (l_noise s) v = nth_error (l_noise s0) v /\ nth_error (l_last s) v = nth_error (l_last s0) v;
  lv_done : forall v, v < n -> ~ In (lab s0 v) al -> VP w s0 A s v;
  lv_old : forall k c, clus s0 k c -> exists c', clus s k c' /\ same_id w c c'
     /\ (In k al \/ cnt k (l_cur s0) = 0 -> c' = c);
  lv_oldp : forall k c', clus s k c' -> k < l_next s0 -> exists c, clus s0 k c;
  lv_newc : forall k, l_next s0 <= k < l_next s -> exists c p, clus s k c /\ c_parent c = Some p /\ 1 <= p < l_next s0 /\ c_birth c = w /\ c_offset c = 0
     /\ exists j, j <> k /\ l_next s0 <= j < l_next s /\ parentof s j p;
  lv_new : l_new s = l_new s0 ++ seq (l_next s0) (l_next s - l_next s0);
  lv_birth : forall k v, l_next s0 <= k < l_next s -> In v (bk B k) -> lab s v = k }.

Lemma do_labels_ok w B0 s0 A : length (l_cur s0) = n -> edge_lab adj s0 -> (forall v, In v A -> v < n) -> In w ws ->
  (forall l c, 1 <= l < l_next s0 -> clus s0 l c -> 2 <= l -> D (c_birth c) w) ->
  forall al s av B, LV w B0 s0 A al av B s ->
  exists s' B', do_labels minPts adj (S n) w s al av (length al) = Ok (s', []) /\ LV w B0 s0 A [] [] B' s'.
Proof.
  intros Hcur0 He0 HA Hw HD0 al. induction al as [|l al IH] using rev_ind; intros s av B HL.
  - cbn. assert (av = []) as ->.
    { destruct av as [|v t]; [reflexivity|]. exfalso. destruct (proj1 (lv_av _ _ _ _ _ _ _ _ HL v)) as [_ []]. left. reflexivity. }
    exists s, B. split; [reflexivity|exact HL].
  - rewrite app_length. cbn [length]. rewrite Nat.add_1_r. cbn [do_labels].
    destruct (al ++ [l]) as [|x0 t0] eqn:Eal; [destruct al; discriminate|]. rewrite <- Eal in *. clear Eal x0 t0.
    unfold list_pop. rewrite rev_unit, rev_involutive. cbn [bind].
    destruct HL as [L1 L2 L3 L4 [L5 L5'] L6 L7 L8 L9 L10 L10p L11 L12 L13].
    destruct (L5' l) as [Hl (al0 & Hal0 & Hal0l)]; [apply in_or_app; right; left; reflexivity|].
    apply ssorted_app in L5. destruct L5 as (L5 & _ & L5l).
    assert (Hlnot : ~ In l al) by (intros Hi; specialize (L5l l l Hi (or_introl eq_refl)); lia).
    assert (Havn : forall v, In v av -> v < n) by (intros v Hv; apply HA; apply L7; exact Hv).
    destruct (do_label_ok w l B s av L1 L2 ltac:(lia) L6 Havn) as (s' & av' & E & B' & R1 & R2 & R3 & R4 & R5); [|exact Hw|].
    { intros c Hc H2. destruct (ci_c _ _ _ _ _ _ _ L1 l ltac:(lia)) as (cx & Hcx & _).
      destruct (L10p l c Hc ltac:(lia)) as (c0 & Hc0). destruct (L10 l c0 Hc0) as (c' & Hc' & ((_ & Hb & _) & _) & _).
      rewrite (clus_fun _ _ _ _ Hc Hc'), Hb. apply (HD0 l); assumption. }
    rewrite R1. cbn [bind]. apply (IH s' av' B').
    assert (Havl : forall v, In v av -> lab s v = lab s0 v).
    { intros v Hv. apply L8; [apply Havn; exact Hv|]. apply L7. exact Hv. }
    assert (HEA : forall v, In v E <-> In v A /\ lab s0 v = l).
    { intros v. rewrite R4. split.
      - intros [Hv Hvl]. rewrite (Havl v Hv) in Hvl. split; [apply L7; exact Hv|exact Hvl].
      - intros [Hv Hvl]. assert (In v av) by (apply L7; split; [exact Hv|]; rewrite Hvl; apply in_or_app; right; left; reflexivity).
        split; [exact H|]. rewrite (Havl v H). exact Hvl. }
    destruct R5 as [P1 P2 P3 P4 P5 P6 P7 P8 P9 P10 P11].
    assert (Hnx' : l_next s <= l_next s') by (destruct P4; lia).
    assert (Hother : forall v, v < n -> lab s0 v <> l ->
       lab s' v = lab s v /\ nth_error (l_noise s') v = nth_error (l_noise s) v /\ nth_error (l_last s') v = nth_error (l_last s) v).
    { intros v Hv Hne. apply P5; [exact Hv|]. intros a Ha Hc. apply HEA in Ha. destruct Ha as [_ Ha].
      pose proof (edge_conn adj s0 a v He0 Hc). congruence. }
    assert (Hpar' : forall j p, parentof s j p -> parentof s' j p).
    { intros j p (c & Hc & Hp). destruct (P8 j c Hc) as (c' & K1 & ((_ & _ & K2 & _) & _) & _). exists c'. split; [exact K1|congruence]. }
    constructor.
    + exact P1.
    + exact P2.
    + lia.
    + destruct L4 as [B1 ->], P3 as [B2 ->]. exists (B1 ++ B2). rewrite app_assoc. reflexivity.
    + split; [exact L5|]. intros k Hk. apply L5'. apply in_or_app. auto.
    + exact R2.
    + intros v. rewrite R3, L7, in_app_iff. cbn [In]. split.
      * intros [[Hv [Hv'|[Hv'|[]]]] Hne]; [auto|]. exfalso. apply Hne.
        assert (In v av) by (apply L7; split; [exact Hv|]; apply in_or_app; right; left; exact Hv'). rewrite (Havl v H). congruence.
      * intros [Hv Hv']. split; [auto|]. assert (In v av) by (apply L7; split; [exact Hv|]; apply in_or_app; left; exact Hv').
        rewrite (Havl v H). intros Hx. rewrite Hx in Hv'. contradiction.
    + intros v Hv Hi. assert (Hne : lab s0 v <> l) by congruence.
      destruct (Hother v Hv Hne) as (-> & -> & ->). apply L8; [exact Hv|]. apply in_or_app. auto.
    + intros v Hv Hi. destruct (Nat.eq_dec (lab s0 v) l) as [Evl|Evl].
      * destruct (L8 v Hv) as (U1 & U2 & U3); [rewrite Evl; apply in_or_app; right; left; reflexivity|].
        constructor.
        -- intros Ha. rewrite <- U1, <- U2, <- U3. apply P5; [exact Hv|]. intros a Hae. apply Ha. apply HEA. exact Hae.
        -- intros a Ha Hc Hnv. rewrite Evl. apply (P6 a v); [|exact Hc|exact Hnv]. apply HEA. split; [exact Ha|].
           rewrite (edge_conn adj s0 a v He0 Hc). exact Evl.
        -- intros a Ha Hc Hva.
           assert (HaE : In a E) by (apply HEA; split; [exact Ha|]; rewrite (edge_conn adj s0 a v He0 Hc); exact Evl).
           destruct (P7 a v HaE Hc Hva) as (G1 & G2 & G3). rewrite <- U2, <- U3. split; [exact G1|]. split; [exact G2|].
           destruct G3 as [[G3 G4]|(G3 & G4 & g & G5 & G6 & G7)].
           ++ left. split; [congruence|]. intros g Hg Hgl. apply G4. apply HEA. split; [exact Hg|congruence].
           ++ right. split; [lia|]. split; [exact G4|]. split.
              ** destruct (P9 (lab s' v) G3) as (c & K1 & K2 & _). exists c. split; [exact K1|congruence].
              ** exists g. apply HEA in G5. split; [apply G5|]. split; [destruct G5; congruence|]. auto.
      * assert (Hdone : VP w s0 A s v).
        { apply L9; [exact Hv|]. intros Hx. apply in_app_or in Hx. destruct Hx as [Hx|[Hx|[]]]; [contradiction|congruence]. }
        destruct (Hother v Hv Evl) as (U1 & U2 & U3). destruct Hdone as [V1 V2 V3].
        constructor; rewrite U1, U2, U3; [exact V1|exact V2|].
        intros a Ha Hc Hva. destruct (V3 a Ha Hc Hva) as (G1 & G2 & G3). split; [exact G1|]. split; [exact G2|].
        destruct G3 as [G3|(G3 & G4 & G5 & G6)]; [left; exact G3|]. right. split; [lia|]. split; [|split; [apply Hpar'; exact G5|exact G6]].
        intros u Hu Hlu. destruct (Nat.eq_dec (lab s0 u) l) as [Eul|Eul].
        -- (* u was just relabelled: its label is 0, l or fresh *)
           exfalso. destruct (L8 u Hu) as (W1 & _ & _); [rewrite Eul; apply in_or_app; right; left; reflexivity|].
           assert (Hdec : (exists a, In a E /\ conn a u) \/ (forall a, In a E -> ~ conn a u)).
           { clear -Hlen Hlt Hsym HEA HA. induction E as [|e E' IHE]; [right; intros a []|].
             assert (HA' : forall v, In v (e :: E') -> v < n) by (intros v Hv; apply HEA in Hv; apply HA; apply Hv).
             assert (Hdec : (exists a, In a E' /\ conn a u) \/ (forall a, In a E' -> ~ conn a u)).
             { clear IHE HEA. induction E' as [|e' E'' IHE']; [right; intros a []|].
               destruct (conn_dec n adj Hlen Hlt Hsym e' u) as [Hc|Hc]; [apply HA'; right; left; reflexivity| |].
               - left. exists e'. split; [left; reflexivity|exact Hc].
               - destruct IHE' as [(a & Ha & Hc')|Hno].
                 + intros v [<-|Hv]; [apply HA'; left; reflexivity|]. apply HA'. right. right. exact Hv.
                 + left. exists a. split; [right; exact Ha|exact Hc'].
                 + right. intros a [<-|Ha]; [exact Hc|apply Hno; exact Ha]. }
             destruct (conn_dec n adj Hlen Hlt Hsym e u) as [Hc|Hc]; [apply HA'; left; reflexivity| |].
             - left. exists e. split; [left; reflexivity|exact Hc].
             - destruct Hdec as [(a & Ha & Hc')|Hno].
               + left. exists a. split; [right; exact Ha|exact Hc'].
               + right. intros a [<-|Ha]; [exact Hc|apply Hno; exact Ha]. }
           destruct Hdec as [(b & Hb & Hcb)|Hno].
           ++ assert (Hbn : b < n) by (apply HA; apply HEA; exact Hb).
              destruct (valid_dec n adj minPts Hlen Hlt Hsym b Hbn) as [Hvb|Hvb].
              ** destruct (P7 b u Hb Hcb Hvb) as (_ & _ & [[X _]|(X & _)]); [lia|].
                 destruct (ci_lab _ _ _ _ _ _ _ L1 v Hv) as [HH _]. lia.
              ** destruct (P6 b u Hb Hcb Hvb) as (X & _). lia.
           ++ destruct (P5 u Hu Hno) as (X & _). lia.
        -- destruct (Hother u Hu Eul) as (W1 & _). rewrite W1 in Hlu. apply G4; assumption.
    + intros k c Hk. destruct (L10 k c Hk) as (c' & K1 & K2 & K2'). destruct (P8 k c' K1) as (c'' & K3 & K4 & K5).
      exists c''. split; [exact K3|]. split; [apply same_id_trans with c'; assumption|].
      intros Hq. assert (Hkl : k <> l).
      { intros ->. destruct Hq as [Hq|Hq]; [contradiction|]. revert Hq. apply Nat.neq_0_lt_0. 
        apply (count_occ_In Nat.eq_dec). rewrite <- Hal0l. apply nth_In. rewrite Hcur0. apply HA. exact Hal0. }
      rewrite (K5 Hkl). apply K2'. destruct Hq as [Hq|Hq]; [left; apply in_or_app; auto|auto].
    + intros k c' Hc' Hk. destruct (ci_null _ _ _ _ _ _ _ P1) as [].
      destruct (Nat.eq_dec k 0) as [->|Hk0].
      { exfalso. unfold clus in Hc'. rewrite (ci_null _ _ _ _ _ _ _ P1) in Hc'. discriminate. }
      destruct (ci_c _ _ _ _ _ _ _ L1 k ltac:(lia)) as (cx & Hcx & _). apply (L10p k cx Hcx Hk).
    + intros k Hk. destruct (le_lt_dec (l_next s) k) as [Hge|Hge].
      * destruct (P9 k ltac:(lia)) as (c & K1 & K2 & K3 & K4). exists c, l. split; [exact K1|]. split; [exact K2|].
        split; [lia|]. split; [exact K3|]. split; [exact K4|].
        destruct P4 as [P4|P4]; [lia|].
        assert (exists j, j <> k /\ l_next s <= j < l_next s') as (j & J1 & J2).
        { destruct (Nat.eq_dec k (l_next s)) as [->|Hne]; [exists (S (l_next s))|exists (l_next s)]; lia. }
        exists j. split; [exact J1|]. split; [lia|]. destruct (P9 j J2) as (cj & X1 & X2 & _). exists cj. auto.
      * destruct (L11 k ltac:(lia)) as (c & p & K1 & K2 & K3 & K4 & K5 & j & K6 & K7 & K8).
        destruct (P8 k c K1) as (c' & Y1 & ((Y2 & Y3 & Y4 & Y5) & _) & _). exists c', p.
        split; [exact Y1|]. split; [congruence|]. split; [exact K3|]. split; [congruence|]. split; [congruence|].
        exists j. split; [exact K6|]. split; [lia|]. apply Hpar'. exact K8.
    + rewrite P10, L12, <- app_assoc. f_equal.
      replace (l_next s' - l_next s0) with ((l_next s - l_next s0) + (l_next s' - l_next s)) by lia.
      rewrite seq_app. f_equal. f_equal. lia.
    + intros k v Hk Hv. destruct (le_lt_dec (l_next s) k) as [Hge|Hge]; [apply P11; [lia|exact Hv]|].
      destruct P3 as [B2 ->]. pose proof (ci_B _ _ _ _ _ _ _ L1) as HB. unfold bk in Hv.
      rewrite app_nth1 in Hv by lia. fold (bk B k) in Hv.
      pose proof (L13 k v ltac:(lia) Hv) as Hlv. pose proof (proj2 (ci_born _ _ _ _ _ _ _ L1 k) v Hv) as Hvn.
      destruct (P5 v Hvn) as [-> _]; [|exact Hlv].
      intros a Ha Hc. apply R4 in Ha. destruct Ha as [_ Ha]. pose proof (edge_conn adj s a v L2 Hc). lia.
Qed.
End Level.
