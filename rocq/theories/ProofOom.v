(** Lemmas for C103: lists, sets and tables when requests for memory can be refused. *)
From Coq Require Import Sorted Permutation.
From Verif Require Import Base ListFacts F64 ModelArrayList SpecSeq ProofArrayList ModelLife ModelLedger ModelHash ModelOom SpecOom.
From Coq Require Import ZifyBool ZifyNat.
From Verif Require ModelCells.
Local Open Scope nat_scope.

Section Proofs.
Variable grants : nat -> bool.

Lemma filter_notin b l : ~ In b l -> filter (fun x => negb (x =? b)) l = l.
Proof.
  induction l as [|x l IH]; intros H; [reflexivity|]. cbn [filter].
  destruct (Nat.eqb_spec x b) as [->|N]; [exfalso; apply H; now left|].
  cbn [negb]. f_equal. apply IH. intros C. apply H. now right.
Qed.

Lemma existsb_in b l : existsb (Nat.eqb b) l = true <-> In b l.
Proof.
  rewrite existsb_exists. split.
  - intros (x & I & E). apply Nat.eqb_eq in E. now subst.
  - intros I. exists b. split; [exact I|apply Nat.eqb_refl].
Qed.

Lemma free1_first b n l : ~ In b l -> free1 b (mk_heap n (b :: l)) = Ok (mk_heap n l).
Proof.
  intros H. unfold free1. cbn [hp_live hp_next existsb filter]. rewrite Nat.eqb_refl. cbn [orb negb].
  now rewrite filter_notin.
Qed.
Lemma free1_second a b n l : a <> b -> ~ In b l -> free1 b (mk_heap n (a :: b :: l)) = Ok (mk_heap n (a :: l)).
Proof.
  intros D H. unfold free1. cbn [hp_live hp_next existsb filter].
  destruct (Nat.eqb_spec a b) as [E|_]; [congruence|].
  rewrite Nat.eqb_refl. cbn [negb]. rewrite Bool.orb_true_r, filter_notin by exact H. reflexivity.
Qed.

Lemma ask_granted h : grants (hp_next h) = true -> ask grants h = (Some (hp_next h), mk_heap (S (hp_next h)) (hp_next h :: hp_live h)).
Proof. intros H. unfold ask. now rewrite H. Qed.
Lemma ask_refused h : refused grants h -> ask grants h = (None, mk_heap (S (hp_next h)) (hp_live h)).
Proof. intros H. unfold ask. red in H. now rewrite H. Qed.

Lemma orderly_fresh h : orderly h -> ~ In (hp_next h) (hp_live h).
Proof. intros [_ H] C. specialize (H _ C). lia. Qed.
Lemma orderly_ask h : orderly h -> orderly (mk_heap (S (hp_next h)) (hp_next h :: hp_live h)).
Proof.
  intros O. split; cbn [hp_live hp_next].
  - constructor; [now apply orderly_fresh|apply O].
  - intros b [<-|I]; [lia|]. destruct O as [_ O]. specialize (O _ I). lia.
Qed.
Lemma orderly_skip h : orderly h -> orderly (mk_heap (S (hp_next h)) (hp_live h)).
Proof. intros [N O]. split; [exact N|]. cbn. intros b I. specialize (O _ I). lia. Qed.
Lemma orderly_cons n b l : orderly (mk_heap n (b :: l)) -> orderly (mk_heap n l) /\ ~ In b l.
Proof.
  intros [N O]. cbn in *. inversion N; subst. split; [|assumption]. split; [assumption|].
  cbn. intros x I. apply O. now right.
Qed.

Section Lists.
Context {A : Type}.
Variable compare : A -> A -> Z.
Notation olist := (olist A).

(** The list has its two blocks, everything else is [L]. *)
Definition holds (l : olist) (h : heap) (L : list nat) : Prop :=
  orderly h /\ exists d, ol_blk l = Some d /\ hp_live h = d :: ol_hdr l :: L.

Lemma init_cases k h : 0 < k -> orderly h ->
  (exists l h', oom_list_init (A := A) grants k h = Ok (Some l, h') /\ ol_val l = AL (repeat None k) 0 k /\
     holds l h' (hp_live h) /\ hp_next h' = hp_next h + 2 /\ grants (hp_next h) = true /\ grants (S (hp_next h)) = true) \/
  (exists h', oom_list_init (A := A) grants k h = Ok (None, h') /\ hp_live h' = hp_live h /\ hp_next h <= hp_next h' /\
     (refused grants h \/ grants (S (hp_next h)) = false)).
Proof.
  intros K O. unfold oom_list_init. destruct (Nat.ltb_spec 0 k); [|lia].
  destruct (grants (hp_next h)) eqn:G1.
  - rewrite (ask_granted h G1). pose proof (orderly_ask h O) as O1.
    destruct (grants (S (hp_next h))) eqn:G2.
    + left. rewrite (ask_granted (mk_heap (S (hp_next h)) (hp_next h :: hp_live h)) G2). cbn [hp_next hp_live].
      do 2 eexists. split; [reflexivity|]. cbn [ol_val hp_next]. split; [reflexivity|].
      split; [|split; [lia|auto]]. split.
      * apply (orderly_ask _ O1).
      * eexists. split; reflexivity.
    + right. rewrite (ask_refused (mk_heap (S (hp_next h)) (hp_next h :: hp_live h)) G2). cbn [hp_next hp_live].
      rewrite free1_first by (now apply orderly_fresh). cbn [bind].
      eexists. split; [reflexivity|]. cbn. repeat split; auto.
  - right. rewrite (ask_refused h G1). eexists. split; [reflexivity|]. cbn. repeat split; auto.
Qed.

Lemma delete_holds l h L : holds l h L -> exists h', oom_delete l h = Ok h' /\ hp_live h' = L /\ orderly h'.
Proof.
  intros (O & d & E & Lv). destruct h as [n lv]. cbn in Lv. subst lv. unfold oom_delete. rewrite E.
  destruct (orderly_cons _ _ _ O) as [O1 N1]. rewrite free1_first by exact N1. cbn [bind].
  destruct (orderly_cons _ _ _ O1) as [O2 N2]. rewrite free1_first by exact N2.
  eexists. split; [reflexivity|]. split; [reflexivity|exact O2].
Qed.

Lemma again_granted l h L : holds l h L -> grants (hp_next h) = true ->
  exists h', ask_again grants (ol_blk l) h = Ok (Some (hp_next h), h') /\ orderly h' /\
    hp_live h' = hp_next h :: ol_hdr l :: L /\ hp_next h' = S (hp_next h).
Proof.
  intros (O & d & E & Lv) G. unfold ask_again. rewrite E. unfold touch1.
  rewrite (proj2 (existsb_in d (hp_live h))) by (rewrite Lv; now left). cbn [bind].
  rewrite (ask_granted h G). rewrite Lv. destruct h as [n lv]. cbn [hp_next hp_live] in *. subst lv.
  pose proof (orderly_fresh _ O) as F. cbn in F. destruct (orderly_cons _ _ _ O) as [O1 N1].
  rewrite free1_second; [|intros ->; apply F; now left|exact N1]. cbn [bind].
  eexists. split; [reflexivity|]. cbn [hp_live hp_next]. split; [|auto].
  apply (orderly_ask _ O1).
Qed.

Lemma again_refused l h L : holds l h L -> refused grants h ->
  ask_again grants (ol_blk l) h = Ok (None, mk_heap (S (hp_next h)) (hp_live h)).
Proof.
  intros (O & d & E & Lv) G. unfold ask_again. rewrite E. unfold touch1.
  rewrite (proj2 (existsb_in d (hp_live h))) by (rewrite Lv; now left). cbn [bind].
  rewrite (ask_refused h G). reflexivity.
Qed.

Definition full (l : olist) : Prop := al_size (ol_val l) = al_max (ol_val l).
Definition fits (l : olist) (h : heap) : Prop := full l -> grants (hp_next h) = true.

Lemma fits_dec l h : fits l h \/ (full l /\ refused grants h).
Proof.
  unfold fits, full, refused. destruct (Nat.eq_dec (al_size (ol_val l)) (al_max (ol_val l))); destruct (grants (hp_next h)) eqn:G; auto;
    left; intros; contradiction.
Qed.

Lemma room_fits l h L : holds l h L -> fits l h ->
  exists l' h', oom_room grants l h = Ok (l', 1%Z, h') /\ holds l' h' L /\ ol_hdr l' = ol_hdr l /\
    ol_val l' = (if al_size (ol_val l) =? al_max (ol_val l) then array_list_grow (ol_val l) else ol_val l) /\
    hp_next h <= hp_next h' <= S (hp_next h).
Proof.
  intros H F. unfold oom_room. destruct (Nat.eqb_spec (al_size (ol_val l)) (al_max (ol_val l))) as [E|E].
  - unfold oom_grow. destruct (again_granted l h L H (F E)) as (h' & E1 & O & Lv & Nx). rewrite E1. cbn [bind fst snd].
    do 2 eexists. split; [reflexivity|]. cbn [ol_hdr ol_val]. repeat split; auto; try apply O; try lia.
    eexists. split; [reflexivity|exact Lv].
  - do 2 eexists. split; [reflexivity|]. repeat split; auto; try lia; apply H.
Qed.

Lemma append_fits l h L x a c : holds l h L -> fits l h -> array_list_append (ol_val l) x = Ok (a, c) ->
  exists l' h', oom_append grants l x h = Ok (l', c, h') /\ holds l' h' L /\ ol_val l' = a /\ hp_next h <= hp_next h' <= S (hp_next h).
Proof.
  intros H F E. destruct (room_fits l h L H F) as (l1 & h1 & E1 & H1 & Hd & V1 & N1).
  unfold oom_append. rewrite E1. cbn [bind]. change (1 <? 0)%Z with false. cbn iota.
  unfold array_list_append in E. rewrite <- V1 in E.
  destruct (array_list_insertion_helper (ol_val l1) x (al_size (ol_val l1))) as [a1| | |]; cbn [bind] in E |- *; try discriminate.
  injection E as <- <-. do 2 eexists. split; [reflexivity|]. split; [exact H1|]. split; [reflexivity|exact N1].
Qed.

Lemma insert_at_fits l h L x p a c : holds l h L -> fits l h -> array_list_insert_at (ol_val l) x p = Ok (a, c) ->
  exists l' h', oom_insert_at grants l x p h = Ok (l', c, h') /\ holds l' h' L /\ ol_val l' = a /\ hp_next h <= hp_next h' <= S (hp_next h).
Proof.
  intros H F E. destruct (room_fits l h L H F) as (l1 & h1 & E1 & H1 & Hd & V1 & N1).
  unfold oom_insert_at. rewrite E1. cbn [bind].
  unfold array_list_insert_at in E. rewrite <- V1 in E.
  destruct (al_size (ol_val l1) <? p); [discriminate|].
  destruct (memmove (al_data (ol_val l1)) (p + 1) p (al_size (ol_val l1) - p)) as [d| | |]; cbn [bind] in E |- *; try discriminate.
  destruct (array_list_insertion_helper (AL d (S (al_size (ol_val l1))) (al_max (ol_val l1))) x p) as [a1| | |]; cbn [bind] in E |- *; try discriminate.
  injection E as <- <-. do 2 eexists. split; [reflexivity|]. split; [exact H1|]. split; [reflexivity|exact N1].
Qed.

(** What is left of a list after a refused growth. *)
Definition ruined (l : olist) : olist := mk_olist (ol_hdr l) None (AL [] (al_size (ol_val l)) (al_max (ol_val l))).

Lemma append_refused l h L x : holds l h L -> full l -> refused grants h ->
  oom_append grants l x h = Ok (ruined l, 0%Z, mk_heap (S (hp_next h)) (hp_live h)).
Proof.
  intros H F R. unfold oom_append, oom_room. red in F. rewrite F, Nat.eqb_refl. unfold oom_grow.
  rewrite (again_refused l h L H R). cbn [bind fst snd]. reflexivity.
Qed.

Lemma insert_refused l h L x p : holds l h L -> full l -> refused grants h -> oom_insert_at grants l x p h = UB.
Proof using.
  clear compare. intros H F R. unfold oom_insert_at, oom_room. red in F. rewrite F, Nat.eqb_refl. unfold oom_grow.
  rewrite (again_refused l h L H R). cbn [bind fst snd ol_val al_size al_data].
  destruct (_ <? p); [reflexivity|]. unfold memmove. cbn [length].
  destruct (Nat.leb_spec (p + 1 + (al_size (ol_val l) - p)) 0); [lia|]. rewrite Bool.andb_false_r. reflexivity.
Qed.

(** One call on a list that stores [s]: as on the sequence, or refused. *)
Notation eqv := (ProofArrayList.eqv compare).
Definition grows (o : lop A) : Prop := match o with LAppend _ | LInsertAt _ _ => True | _ => False end.

Lemma oom_lstep_ok l h L s o : holds l h L -> rep (ol_val l) s -> seq_ok s o ->
  (exists l' h', oom_lstep grants compare l h o = Ok (l', h', snd (seq_step eqv s o)) /\ holds l' h' L /\ rep (ol_val l') (fst (seq_step eqv s o))) \/
  (grows o /\ full l /\ refused grants h).
Proof.
  intros H R S. destruct (lstep_ok compare (ol_val l) s o R S) as (a & E & R').
  destruct (fits_dec l h) as [F|[F G]].
  - left. destruct o as [x|x p|x i|i|x| |i|x| | |b]; cbn [lstep] in E.
    3-10: unfold oom_lstep; cbn [lstep]; rewrite E; cbn [bind fst snd]; do 2 eexists; split; [reflexivity|]; split; [exact H|exact R'].
    + cbn [oom_lstep]. destruct (array_list_append (ol_val l) x) as [[a1 c]| | |] eqn:E1; cbn [bind fst snd] in E; try discriminate.
      destruct (append_fits l h L x a1 c H F E1) as (l' & h' & E2 & H2 & V2 & _). rewrite E2. cbn [bind].
      do 2 eexists. split; [|split; [exact H2|]].
      * f_equal. f_equal. congruence.
      * rewrite V2. injection E as -> _. exact R'.
    + cbn [oom_lstep]. destruct (array_list_insert_at (ol_val l) x p) as [[a1 c]| | |] eqn:E1; cbn [bind fst snd] in E; try discriminate.
      destruct (insert_at_fits l h L x p a1 c H F E1) as (l' & h' & E2 & H2 & V2 & _). rewrite E2. cbn [bind].
      do 2 eexists. split; [|split; [exact H2|]].
      * f_equal. f_equal. congruence.
      * rewrite V2. injection E as -> _. exact R'.
    + cbn [seq_ok] in S. subst b. cbn [oom_lstep]. unfold oom_clear. cbn [bind fst snd].
      exists (with_val l (array_list_clear (ol_val l) false)), h. split; [|split; [exact H|]].
      * cbn [seq_step snd]. reflexivity.
      * unfold with_val. cbn [ol_val]. assert (a = array_list_clear (ol_val l) false) as <- by congruence. exact R'.
  - destruct o as [x|x p|x i|i|x| |i|x| | |b]; cbn [lstep] in E.
    1-2: right; repeat split; auto; exact I.
    1-8: left; unfold oom_lstep; cbn [lstep]; rewrite E; cbn [bind fst snd]; do 2 eexists; split; [reflexivity|]; split; [exact H|exact R'].
    left. cbn [seq_ok] in S. subst b. cbn [oom_lstep]. unfold oom_clear. cbn [bind fst snd].
    exists (with_val l (array_list_clear (ol_val l) false)), h. split; [|split; [exact H|]].
    + cbn [seq_step snd]. reflexivity.
    + unfold with_val. cbn [ol_val]. assert (a = array_list_clear (ol_val l) false) as <- by congruence. exact R'.
Qed.

Lemma oom_lrun_ok ops : forall l h L s, holds l h L -> rep (ol_val l) s -> hist_ok eqv s ops ->
  exists pre post l' h', ops = pre ++ post /\
    oom_lrun grants compare l h pre = Ok (l', h', snd (seq_run eqv s pre)) /\
    holds l' h' L /\ rep (ol_val l') (fst (seq_run eqv s pre)) /\ hist_ok eqv (fst (seq_run eqv s pre)) post /\
    (post = [] \/ exists o post', post = o :: post' /\ grows o /\ full l' /\ refused grants h').
Proof.
  induction ops as [|o ops IH]; intros l h L s H R K.
  - exists [], [], l, h. cbn. split; [reflexivity|]. split; [reflexivity|]. split; [exact H|]. split; [exact R|]. split; [exact I|now left].
  - destruct K as [K1 K2]. destruct (oom_lstep_ok l h L s o H R K1) as [(l1 & h1 & E1 & H1 & R1)|(G & F & N)].
    + destruct (IH l1 h1 L _ H1 R1 K2) as (pre & post & l' & h' & E & E2 & H2 & R2 & K3 & Q).
      exists (o :: pre), post, l', h'. split; [now rewrite E|]. cbn [oom_lrun seq_run]. rewrite E1. cbn [bind fst snd].
      rewrite E2. cbn [bind fst snd]. auto.
    + exists [], (o :: ops), l, h. cbn [oom_lrun seq_run fst snd app].
      split; [reflexivity|]. split; [reflexivity|]. split; [exact H|]. split; [exact R|]. split; [now split|]. right. eauto 6.
Qed.

(** Every element of a ruined list is lost. *)
Lemma ruined_slot l i : slot (al_data (ol_val (ruined l))) i = UB.
Proof. unfold slot, ruined. cbn. now destruct i. Qed.

Lemma ruined_retry l h y : full l -> grants (hp_next h) = true ->
  exists l3 h3, oom_append grants (ruined l) y h = Ok (l3, 1%Z, h3) /\ al_size (ol_val l3) = S (al_size (ol_val l)) /\
    forall i, i < al_size (ol_val l) -> slot (al_data (ol_val l3)) i = UB.
Proof using.
  clear compare. intros F G. destruct l as [hd bk [dt sz mx]]. unfold full in F. cbn [ol_val al_size al_max] in *. subst mx.
  unfold oom_append, oom_room, ruined. cbn [ol_val al_size al_max ol_hdr]. rewrite Nat.eqb_refl.
  unfold oom_grow, ask_again. cbn [ol_blk bind]. rewrite (ask_granted h G). cbn [bind fst snd ol_val ol_hdr].
  change (1 <? 0)%Z with false. cbn iota.
  pose proof (highestPowerof2_gt (sz * 2)) as HP.
  unfold array_list_insertion_helper, array_list_grow. cbn [ol_val al_data al_size al_max].
  rewrite aset_ok by (rewrite realloc_length; lia). cbn [bind al_data al_size al_max].
  do 2 eexists. split; [reflexivity|]. cbn [with_val ol_val al_size al_data]. split; [reflexivity|].
  intros i Hi. unfold slot. rewrite nth_error_upd_neq by lia. unfold realloc. rewrite firstn_nil. cbn [app length]. rewrite Nat.sub_0_r.
  rewrite nth_error_repeat by lia. reflexivity.
Qed.

(** *** Sets *)
Lemma set_insert_split l h x :
  (exists p, set_insert compare (ol_val l) x = array_list_insert_at (ol_val l) x p /\ oom_set_insert grants compare l x h = oom_insert_at grants l x p h) \/
  (set_insert compare (ol_val l) x = Ok (ol_val l, 0%Z) /\ oom_set_insert grants compare l x h = Ok (l, 0%Z, h)) \/
  (forall r, set_insert compare (ol_val l) x <> Ok r).
Proof.
  unfold set_insert, oom_set_insert. destruct (0 <? al_size (ol_val l)).
  - destruct (set_search compare (S (al_size (ol_val l))) (al_data (ol_val l)) 0 (al_size (ol_val l)) x) as [[p|u]| | |]; cbn [bind].
    + left. exists p. split; reflexivity.
    + right. left. split; reflexivity.
    + right. right. discriminate.
    + right. right. discriminate.
    + right. right. discriminate.
  - left. exists 0. split; reflexivity.
Qed.

Lemma insert_at_code (a : alist A) x p a' c : array_list_insert_at a x p = Ok (a', c) -> c = 1%Z.
Proof.
  unfold array_list_insert_at. destruct (_ <? p); [discriminate|].
  destruct (memmove _ _ _ _) as [d| | |]; cbn [bind]; try discriminate.
  destruct (array_list_insertion_helper _ x p) as [a1| | |]; cbn [bind]; try discriminate. intros E. now injection E.
Qed.

Hypothesis TO : total_order compare.

Lemma oom_sstep_ok l h L s o : holds l h L -> rep (ol_val l) s -> StronglySorted (before compare) s ->
  (exists l' h' s' P' out, oom_sstep grants compare l h o = Ok (l', h', out) /\ holds l' h' L /\ rep (ol_val l') s' /\
     set_step s (fun x => In x s) o P' out /\ enumerates compare s' P') \/
  (exists x, o = SInsert x /\ ~ In x s /\ full l /\ refused grants h /\ oom_sstep grants compare l h o = UB).
Proof.
  intros H R S. destruct (sstep_ok compare TO (ol_val l) s o R S) as (a & s' & P' & out & E & R' & St & En).
  destruct o as [x|x|i|x|i| |].
  2-7: left; exists (with_val l a), h, s', P', out; unfold oom_sstep; rewrite E; cbn [bind fst snd];
       split; [reflexivity|]; split; [exact H|]; split; [exact R'|]; split; [exact St|exact En].
  cbn [sstep] in E. cbn [oom_sstep].
  destruct (set_insert_split l h x) as [(p & E1 & E2)|[(E1 & E2)|N]].
  - rewrite E1 in E. rewrite E2.
    destruct (array_list_insert_at (ol_val l) x p) as [[a1 c]| | |] eqn:E3; cbn [bind fst snd] in E; try discriminate.
    pose proof (insert_at_code _ _ _ _ _ E3) as ->.
    destruct (fits_dec l h) as [F|[F G]].
    + left. destruct (insert_at_fits l h L x p a1 1%Z H F E3) as (l' & h' & E4 & H4 & V4 & _).
      exists l', h', s', P', out. rewrite E4. cbn [bind]. injection E as <- <-.
      split; [reflexivity|]. split; [exact H4|]. split; [now rewrite V4|]. split; [exact St|exact En].
    + right. exists x. split; [reflexivity|]. cbn [set_step] in St. destruct St as [_ [[N _]|[_ C]]].
      * split; [exact N|]. split; [exact F|]. split; [exact G|]. rewrite (insert_refused l h L x p H F G). reflexivity.
      * subst out. discriminate.
  - left. rewrite E1 in E. cbn [bind fst snd] in E. rewrite E2. cbn [bind].
    exists l, h, s', P', out. assert (a = ol_val l) as -> by congruence. assert (out = (0%Z, None)) as -> by congruence.
    split; [reflexivity|]. split; [exact H|]. split; [exact R'|]. split; [exact St|exact En].
  - destruct (set_insert compare (ol_val l) x) as [r| | |] eqn:E1; cbn [bind] in E; try discriminate. now destruct (N r).
Qed.

Lemma oom_srun_ok ops : forall l h L s, holds l h L -> rep (ol_val l) s -> StronglySorted (before compare) s ->
  exists pre post l' h' outs s', ops = pre ++ post /\ oom_srun grants compare l h pre = Ok (l', h', outs) /\
    holds l' h' L /\ rep (ol_val l') s' /\ StronglySorted (before compare) s' /\ set_history compare s pre outs s' /\
    (post = [] \/ exists x post', post = SInsert x :: post' /\ ~ In x s' /\ full l' /\ refused grants h' /\
       oom_sstep grants compare l' h' (SInsert x) = UB).
Proof.
  induction ops as [|o ops IH]; intros l h L s H R S.
  - exists [], [], l, h, [], s. cbn. split; [reflexivity|]. split; [reflexivity|]. split; [exact H|]. split; [exact R|].
    split; [exact S|]. split; [constructor|now left].
  - destruct (oom_sstep_ok l h L s o H R S) as [(l1 & h1 & s1 & P1 & out & E1 & H1 & R1 & St & En)|(x & -> & N & F & G & U)].
    + destruct (IH l1 h1 L s1 H1 R1 (proj1 En)) as (pre & post & l' & h' & outs & s' & E & E2 & H2 & R2 & S2 & Hi & Q).
      exists (o :: pre), post, l', h', (out :: outs), s'. split; [now rewrite E|]. cbn [oom_srun]. rewrite E1. cbn [bind fst snd].
      rewrite E2. cbn [bind fst snd]. split; [reflexivity|]. split; [exact H2|]. split; [exact R2|]. split; [exact S2|].
      split; [|exact Q]. econstructor; eauto.
    + exists [], (SInsert x :: ops), l, h, [], s. cbn [oom_srun app]. split; [reflexivity|]. split; [reflexivity|].
      split; [exact H|]. split; [exact R|]. split; [exact S|]. split; [constructor|]. right. exists x, ops. auto.
Qed.
End Lists.

(** *** Tables *)
Section Tables.
Context {K : Type}.
Variable compare : K -> K -> Z.
Variable hash : K -> nat -> nat.

(** A list whose block is allocated, in any memory. *)
Definition keeps (l : olist K) (h : heap) : Prop := orderly h /\ exists d, ol_blk l = Some d /\ In d (hp_live h).

Lemma plenty_step h h' : plenty grants h -> hp_next h <= hp_next h' -> plenty grants h'.
Proof. intros P L n N. apply P. lia. Qed.

Lemma orderly_free b h h' : orderly h -> free1 b h = Ok h' -> orderly h' /\ hp_next h' = hp_next h /\ (forall x, In x (hp_live h) -> x <> b -> In x (hp_live h')).
Proof.
  intros [N O] E. unfold free1 in E. destruct (existsb _ _); [|discriminate]. injection E as <-. cbn [hp_live hp_next].
  split; [|split; [reflexivity|]].
  - split; cbn [hp_live hp_next]; [now apply NoDup_filter|]. intros x I. apply filter_In in I. apply O, I.
  - intros x I D. apply filter_In. split; [exact I|]. destruct (Nat.eqb_spec x b); [contradiction|reflexivity].
Qed.
Lemma free1_in b h : In b (hp_live h) -> exists h', free1 b h = Ok h'.
Proof. intros I. unfold free1. rewrite (proj2 (existsb_in b (hp_live h)) I). eauto. Qed.

Lemma free1_length b h h' : orderly h -> free1 b h = Ok h' -> S (length (hp_live h')) = length (hp_live h).
Proof.
  intros [N _] E. unfold free1 in E. destruct (existsb _ _) eqn:X; [|discriminate]. injection E as <-. cbn [hp_live].
  apply existsb_in in X. induction (hp_live h) as [|y l IH]; [contradiction|]. inversion N as [|y' l' Ny Nl]; subst. cbn [filter length].
  destruct (Nat.eqb_spec y b) as [->|Ne]; cbn [negb]; [now rewrite filter_notin|]. cbn [length]. f_equal. apply IH; [exact Nl|]. destruct X; [contradiction|assumption].
Qed.

Lemma room_keeps l h : keeps l h -> plenty grants h ->
  exists l' h', oom_room grants l h = Ok (l', 1%Z, h') /\ keeps l' h' /\
    ol_val l' = (if al_size (ol_val l) =? al_max (ol_val l) then array_list_grow (ol_val l) else ol_val l) /\
    hp_next h <= hp_next h' /\ length (hp_live h') = length (hp_live h).
Proof.
  intros Kp P. unfold oom_room. destruct (_ =? _).
  - destruct Kp as (O & d & E & I). unfold oom_grow, ask_again. rewrite E. unfold touch1.
    rewrite (proj2 (existsb_in d (hp_live h)) I). cbn [bind].
    rewrite (ask_granted h) by (apply P; lia).
    destruct (free1_in d (mk_heap (S (hp_next h)) (hp_next h :: hp_live h))) as [h' E']; [now right|].
    rewrite E'. cbn [bind fst snd].
    destruct (orderly_free _ _ _ (orderly_ask h O) E') as (O' & N' & L').
    do 2 eexists. split; [reflexivity|]. pose proof (free1_length _ _ _ (orderly_ask h O) E') as Q. cbn [hp_live length] in Q.
    split; [|split; [reflexivity|split; [rewrite N'; cbn; lia|lia]]].
    split; [exact O'|]. eexists. split; [reflexivity|]. apply L'; [now left|].
    intros <-. now apply (orderly_fresh h O).
  - do 2 eexists. split; [reflexivity|]. split; [exact Kp|]. split; [reflexivity|split; [lia|reflexivity]].
Qed.

Lemma set_insert_keeps l h x a c : keeps l h -> plenty grants h -> set_insert compare (ol_val l) x = Ok (a, c) ->
  exists l' h', oom_set_insert grants compare l x h = Ok (l', c, h') /\ keeps l' h' /\ ol_val l' = a /\ hp_next h <= hp_next h' /\ length (hp_live h') = length (hp_live h).
Proof.
  intros Kp P E. destruct (set_insert_split compare l h x) as [(p & E1 & E2)|[(E1 & E2)|N]].
  - rewrite E1 in E. rewrite E2. destruct (room_keeps l h Kp P) as (l1 & h1 & E3 & K1 & V1 & N1).
    unfold oom_insert_at. rewrite E3. cbn [bind]. unfold array_list_insert_at in E. rewrite <- V1 in E.
    destruct (al_size (ol_val l1) <? p); [discriminate|].
    destruct (memmove (al_data (ol_val l1)) (p + 1) p (al_size (ol_val l1) - p)) as [d| | |]; cbn [bind] in E |- *; try discriminate.
    destruct (array_list_insertion_helper (AL d (S (al_size (ol_val l1))) (al_max (ol_val l1))) x p) as [a1| | |]; cbn [bind] in E |- *; try discriminate.
    injection E as <- <-. do 2 eexists. split; [reflexivity|]. split; [exact K1|]. split; [reflexivity|exact N1].
  - rewrite E1 in E. rewrite E2. injection E as <- <-. do 2 eexists. split; [reflexivity|]. split; [exact Kp|]. split; [reflexivity|split; [lia|reflexivity]].
  - now destruct (N (a, c)).
Qed.

(** The table has its set of keys. *)
Definition usable (t : otable K) (h : heap) : Prop := orderly h /\ exists k d, ot_keys t = Some (k, Some d) /\ In d (hp_live h).

Lemma insert_new t key value r : hashtable_lookup_entry compare hash t key = Ok None -> hashtable_insert compare hash t key value = Ok r ->
  exists s, set_insert compare (ht_keys t) key = Ok s /\ ht_keys (fst r) = fst s /\ fst (snd r) = 1%Z.
Proof.
  intros E H. unfold hashtable_insert in H. rewrite E in H. cbn [bind] in H.
  destruct (memcpy _ _ _) as [data| | |]; cbn [bind] in H; try discriminate.
  destruct (ModelCells.halloc _ _) as [h e]. destruct (aget _ _) as [front| | |]; cbn [bind] in H; try discriminate.
  match type of H with bind ?X _ = _ => destruct X as [h2| | |] end; cbn [bind] in H; try discriminate.
  destruct (aset _ _ _) as [tb| | |]; cbn [bind] in H; try discriminate.
  destruct (set_insert compare (ht_keys t) key) as [s| | |]; cbn [bind] in H; try discriminate.
  injection H as <-. exists s. repeat split; reflexivity.
Qed.
Lemma insert_old t key value r e : hashtable_lookup_entry compare hash t key = Ok (Some e) -> hashtable_insert compare hash t key value = Ok r ->
  ht_keys (fst r) = ht_keys t /\ fst (snd r) = (-1)%Z.
Proof.
  intros E H. unfold hashtable_insert in H. rewrite E in H. cbn [bind] in H.
  destruct (ModelCells.hload _ _) as [c| | |]; cbn [bind] in H; try discriminate.
  destruct (memcpy _ _ _) as [d1| | |]; cbn [bind] in H; try discriminate.
  destruct (memcpy _ _ _) as [d2| | |]; cbn [bind] in H; try discriminate.
  destruct (ModelCells.set_val _ _ _) as [h| | |]; cbn [bind] in H; try discriminate.
  destruct (memcpy _ _ _) as [d3| | |]; cbn [bind] in H; try discriminate.
  injection H as <-. split; reflexivity.
Qed.

Lemma three_asks h : plenty grants h -> orderly h -> exists a b c h1 h2 h3,
  ask grants h = (Some a, h1) /\ ask grants h1 = (Some b, h2) /\ ask grants h2 = (Some c, h3) /\
  orderly h3 /\ hp_next h <= hp_next h3 /\ (forall x, In x (hp_live h) -> In x (hp_live h3)) /\ length (hp_live h3) = 3 + length (hp_live h).
Proof.
  intros P O. do 6 eexists. split; [apply ask_granted, P; lia|].
  split; [apply ask_granted, P; cbn; lia|]. split; [apply ask_granted, P; cbn; lia|].
  split; [|split; [|split]].
  - exact (orderly_ask _ (orderly_ask _ (orderly_ask _ O))).
  - cbn. lia.
  - cbn. auto.
  - reflexivity.
Qed.

Lemma oom_insert_ok t h key value r : usable t h -> plenty grants h -> hashtable_insert compare hash (ot_val t) key value = Ok r ->
  exists t' h', oom_insert grants compare hash t key value h = Ok (t', snd r, h') /\ ot_val t' = fst r /\ usable t' h' /\ hp_next h <= hp_next h' /\
    length (hp_live h') = length (hp_live h) + (if (fst (snd r) =? 1)%Z then 3 else 0).
Proof.
  intros (O & k & d & Ek & I) P E. unfold oom_insert.
  destruct (hashtable_lookup_entry compare hash (ot_val t) key) as [e| | |] eqn:El.
  2-4: unfold hashtable_insert in E; rewrite El in E; discriminate.
  cbn [bind]. destruct e as [e|].
  - rewrite (ask_granted h) by (apply P; lia). rewrite E. cbn [bind].
    rewrite free1_first by (now apply orderly_fresh). cbn [bind].
    do 2 eexists. split; [reflexivity|]. split; [reflexivity|]. split; [|split; [cbn; lia|]].
    + split; [now apply orderly_skip|]. exists k, d. split; [exact Ek|exact I].
    + destruct (insert_old _ _ _ _ _ El E) as (_ & ->). cbn. lia.
  - destruct (three_asks h P O) as (a & b & c & h1 & h2 & h3 & E1 & E2 & E3 & O3 & N3 & L3 & M3).
    rewrite E1, E2, E3, Ek. cbn [fst snd].
    destruct (insert_new _ _ _ _ El E) as ([sa sc] & Es & Vk & Vc).
    destruct (set_insert_keeps (mk_olist k (Some d) (ht_keys (ot_val t))) h3 key sa sc) as (l' & h' & E4 & K4 & V4 & N4 & M4).
    + split; [exact O3|]. exists d. split; [reflexivity|now apply L3].
    + now apply (plenty_step h).
    + exact Es.
    + rewrite E4. cbn [bind]. rewrite E. cbn [bind].
      do 2 eexists. split; [reflexivity|]. split; [reflexivity|]. split; [|split; [lia|rewrite Vc; change (1 =? 1)%Z with true; cbn iota; lia]].
      destruct K4 as (O4 & d' & Ed & I4). split; [exact O4|]. cbn [ot_keys]. exists (ol_hdr l'), d'. split; [now rewrite Ed|exact I4].
Qed.

Lemma oom_insert_new_refused t h key value : hashtable_lookup_entry compare hash (ot_val t) key = Ok None ->
  (exists i, hp_next h <= i < hp_next h + 3 /\ grants i = false) -> oom_insert grants compare hash t key value h = UB.
Proof.
  intros E (i & Hi & G). unfold oom_insert. rewrite E. cbn [bind]. unfold ask. cbn [hp_next].
  assert (C : grants (hp_next h) = false \/ grants (S (hp_next h)) = false \/ grants (S (S (hp_next h))) = false).
  { assert (i = hp_next h \/ i = S (hp_next h) \/ i = S (S (hp_next h))) as [->|[->| ->]] by lia; auto. }
  destruct (grants (hp_next h)) eqn:G1; cbn [hp_next];
  destruct (grants (S (hp_next h))) eqn:G2; cbn [hp_next];
  destruct (grants (S (S (hp_next h)))) eqn:G3; try reflexivity. intuition discriminate.
Qed.

Lemma oom_insert_old_refused t h key value e : hashtable_lookup_entry compare hash (ot_val t) key = Ok (Some e) ->
  refused grants h -> oom_insert grants compare hash t key value h = UB.
Proof. intros E G. unfold oom_insert. rewrite E. cbn [bind]. now rewrite (ask_refused h G). Qed.

Lemma oom_hrun_ok ops : forall t h t' outs, usable t h -> plenty grants h -> hrun compare hash (ot_val t) (map as_hop ops) = Ok (t', outs) ->
  exists ot' h', oom_hrun grants compare hash t h ops = Ok (ot', h', outs) /\ ot_val ot' = t' /\ usable ot' h' /\ plenty grants h' /\
    length (hp_live h') = length (hp_live h) + 3 * new_keys ops outs.
Proof.
  induction ops as [|o ops IH]; intros t h t' outs U P E; cbn [map hrun oom_hrun] in *.
  - injection E as <- <-. exists t, h. cbn [new_keys]. rewrite Nat.mul_0_r, Nat.add_0_r. auto.
  - destruct (hstep compare hash (ot_val t) (as_hop o)) as [[t1 out]| | |] eqn:E1; cbn [bind fst snd] in E; try discriminate.
    destruct (hrun compare hash t1 (map as_hop ops)) as [[t2 outs2]| | |] eqn:E2; cbn [bind fst snd] in E; try discriminate.
    injection E as <- <-.
    destruct o as [k v|k b|]; cbn [as_hop hstep] in E1.
    + cbn [oom_hstep]. destruct (oom_insert_ok t h k v _ U P E1) as (ot & h1 & E3 & V3 & U3 & N3 & M3). rewrite E3. cbn [bind fst snd].
      destruct (IH ot h1 t2 outs2 U3 (plenty_step h h1 P N3)) as (ot' & h' & E4 & V4 & U4 & P4 & M4); [rewrite V3; exact E2|].
      rewrite E4. cbn [bind fst snd]. exists ot', h'. repeat (split; [auto|]). rewrite M4, M3. cbn [new_keys fst snd]. destruct (fst out =? 1)%Z; lia.
    + cbn [oom_hstep]. unfold oom_lookup. destruct (hashtable_lookup compare hash (ot_val t) k b) as [r| | |]; cbn [bind] in E1; try discriminate.
      injection E1 as <- <-. cbn [bind fst snd].
      destruct (IH t h t2 outs2 U P E2) as (ot' & h' & E4 & V4 & U4 & P4 & M4). rewrite E4. cbn [bind fst snd]. exists ot', h'. auto.
    + cbn [oom_hstep]. unfold oom_size. destruct U as (O & k & d & Ek & I). rewrite Ek. injection E1 as <- <-. cbn [bind fst snd].
      destruct (IH t h t2 outs2) as (ot' & h' & E4 & V4 & U4 & P4 & M4); [split; [exact O|eauto]|exact P|exact E2|].
      rewrite E4. cbn [bind fst snd]. exists ot', h'. auto.
Qed.
End Tables.

(** *** Graphs *)
Definition has (l : olist nat) (d : nat) : Prop := ol_blk l = Some d.
(** Lists with blocks of their own. *)
Definition apart (ls : list (olist nat)) (h : heap) : Prop :=
  orderly h /\
  (forall i l, nth_error ls i = Some l -> exists d, has l d /\ In d (hp_live h)) /\
  (forall i j li lj d, nth_error ls i = Some li -> nth_error ls j = Some lj -> has li d -> has lj d -> i = j).
Definition contents (ls : list (olist nat)) (ns : nat -> list nat) : Prop :=
  forall v l, nth_error ls v = Some l -> rep (ol_val l) (ns v).

Lemma append_frame l h d x s : orderly h -> has l d -> In d (hp_live h) -> plenty grants h -> rep (ol_val l) s ->
  exists l' d' h', oom_append grants l x h = Ok (l', 1%Z, h') /\ has l' d' /\ In d' (hp_live h') /\ (d' = d \/ d' = hp_next h) /\
    rep (ol_val l') (s ++ [x]) /\ orderly h' /\ hp_next h <= hp_next h' /\ (forall y, In y (hp_live h) -> y <> d -> In y (hp_live h')).
Proof.
  intros O E I P R. destruct (append_ok (ol_val l) s x R) as (a & Ea & Ra). unfold oom_append, oom_room.
  unfold array_list_append in Ea. destruct (al_size (ol_val l) =? al_max (ol_val l)).
  - unfold oom_grow, ask_again. rewrite E. unfold touch1. rewrite (proj2 (existsb_in d (hp_live h)) I). cbn [bind].
    rewrite (ask_granted h) by (apply P; lia).
    destruct (free1_in d (mk_heap (S (hp_next h)) (hp_next h :: hp_live h))) as [h' E']; [now right|]. rewrite E'. cbn [bind fst snd].
    change (1 <? 0)%Z with false. cbn iota. cbn [ol_val].
    destruct (array_list_insertion_helper (array_list_grow (ol_val l)) x (al_size (array_list_grow (ol_val l)))) as [a1| | |]; cbn [bind] in Ea |- *; try discriminate.
    injection Ea as Ea. subst a. destruct (orderly_free _ _ _ (orderly_ask h O) E') as (O' & N' & L').
    do 2 eexists. exists h'. split; [reflexivity|]. split; [reflexivity|]. cbn [with_val ol_val].
    assert (hp_next h <> d) by (intros <-; now apply (orderly_fresh h O)).
    split; [apply L'; [now left|assumption]|]. split; [now right|]. split; [exact Ra|]. split; [exact O'|].
    split; [rewrite N'; cbn; lia|]. intros y Iy Ny. apply L'; [now right|exact Ny].
  - cbn [bind]. change (1 <? 0)%Z with false. cbn iota.
    destruct (array_list_insertion_helper (ol_val l) x (al_size (ol_val l))) as [a1| | |]; cbn [bind] in Ea |- *; try discriminate.
    injection Ea as Ea. subst a. do 2 eexists. exists h. split; [reflexivity|]. split; [exact E|]. cbn [with_val ol_val].
    split; [exact I|]. split; [now left|]. split; [exact Ra|]. split; [exact O|]. split; [lia|auto].
Qed.

Lemma upd_at {A} (ls : list A) v l i : v < length ls -> nth_error (upd ls v l) i = if i =? v then Some l else nth_error ls i.
Proof using.
  clear grants. intros V. destruct (Nat.eqb_spec i v) as [->|N]; [now apply nth_error_upd_eq|apply nth_error_upd_neq; congruence].
Qed.

Lemma oom_at_ok ls h ns v x : apart ls h -> contents ls ns -> plenty grants h -> v < length ls ->
  exists ls' h', oom_at grants ls v x h = Ok (ls', h') /\ apart ls' h' /\ length ls' = length ls /\ plenty grants h' /\
    contents ls' (fun u => if u =? v then ns u ++ [x] else ns u).
Proof.
  intros (O & B & D) C P V. destruct (aget_ok ls v V) as (l & El & Nl). unfold oom_at. rewrite El. cbn [bind].
  destruct (B v l Nl) as (d & Hd & Id).
  destruct (append_frame l h d x (ns v) O Hd Id P (C v l Nl)) as (l' & d' & h' & E & Hd' & Id' & Dd & R & O' & N & F).
  rewrite E. cbn [bind]. rewrite aset_ok by exact V. cbn [bind].
  do 2 eexists. split; [reflexivity|]. split; [|split; [apply upd_length|split; [eapply plenty_step; eauto|]]].
  - split; [exact O'|]. split.
    + intros i li Hi. rewrite upd_at in Hi by exact V. destruct (Nat.eqb_spec i v) as [->|Ne].
      * injection Hi as <-. eauto.
      * destruct (B i li Hi) as (di & Hdi & Idi). exists di. split; [exact Hdi|]. apply F; [exact Idi|]. intros ->. apply Ne. eapply D; eauto.
    + intros i j li lj e Hi Hj Hei Hej. rewrite upd_at in Hi, Hj by exact V.
      destruct (Nat.eqb_spec i v) as [->|Ni]; destruct (Nat.eqb_spec j v) as [->|Nj]; auto.
      * injection Hi as <-.
        unfold has in Hei, Hd'. assert (e = d') as -> by congruence. destruct Dd as [->| ->]; [eapply D; eauto|].
        destruct (B j lj Hj) as (dj & Hdj & Idj). unfold has in Hdj, Hej. assert (dj = hp_next h) by congruence. subst dj. exfalso. now apply (orderly_fresh h O).
      * injection Hj as <-.
        unfold has in Hej, Hd'. assert (e = d') as -> by congruence. destruct Dd as [->| ->]; [eapply D; eauto|].
        destruct (B i li Hi) as (dj & Hdj & Idj). unfold has in Hdj, Hei. assert (dj = hp_next h) by congruence. subst dj. exfalso. now apply (orderly_fresh h O).
      * eapply D; eauto.
  - intros u lu Hu. rewrite upd_at in Hu by exact V. destruct (Nat.eqb_spec u v) as [->|Nu].
    + injection Hu as <-. exact R.
    + now apply C.
Qed.

(** The neighbours an edge gives a vertex. *)
Definition ends (v : nat) (e : nat * nat) : list nat :=
  (if v =? fst e then [snd e] else []) ++ (if (v =? snd e) && negb (fst e =? snd e) then [fst e] else []).

Lemma oom_edges_ok es : forall ls h ns, apart ls h -> contents ls ns -> plenty grants h ->
  Forall (fun e => fst e < length ls /\ snd e < length ls) es ->
  exists ls' h', oom_edges grants es ls h = Ok (ls', h') /\ length ls' = length ls /\ contents ls' (fun v => ns v ++ flat_map (ends v) es).
Proof.
  induction es as [|[a b] es IH]; intros ls h ns Ap C P F.
  - exists ls, h. split; [reflexivity|]. split; [reflexivity|]. intros v l H. cbn [flat_map]. rewrite app_nil_r. now apply C.
  - inversion F as [|e es' Fe Fs]; subst. cbn [fst snd] in Fe. destruct Fe as [Fa Fb]. cbn [oom_edges].
    destruct (oom_at_ok ls h ns a b Ap C P Fa) as (ls1 & h1 & E1 & A1 & L1 & P1 & C1). rewrite E1. cbn [bind fst snd].
    destruct (Nat.eqb_spec a b) as [Hab|Nab].
    + cbn [bind fst snd]. destruct (IH ls1 h1 _ A1 C1 P1) as (ls2 & h2 & E2 & L2 & C2); [now rewrite L1|].
      exists ls2, h2. split; [exact E2|]. split; [congruence|]. intros v l H. specialize (C2 v l H). cbv beta in C2. cbn [flat_map]. unfold ends at 1. cbn [fst snd].
      destruct (Nat.eqb_spec a b); [|contradiction]. rewrite Bool.andb_false_r, app_nil_r.
      destruct (v =? a); [rewrite <- app_assoc in C2; exact C2|exact C2].
    + destruct (oom_at_ok ls1 h1 _ b a A1 C1 P1) as (ls2 & h2 & E2 & A2 & L2 & P2 & C2); [now rewrite L1|]. rewrite E2. cbn [bind fst snd].
      destruct (IH ls2 h2 _ A2 C2 P2) as (ls3 & h3 & E3 & L3 & C3); [now rewrite L2, L1|].
      exists ls3, h3. split; [exact E3|]. split; [congruence|]. intros v l H. specialize (C3 v l H). cbv beta in C3. cbn [flat_map]. unfold ends at 1. cbn [fst snd].
      destruct (Nat.eqb_spec a b); [contradiction|]. cbn [negb]. rewrite Bool.andb_true_r.
      destruct (v =? a), (v =? b); rewrite <- ?app_assoc in C3; exact C3.
Qed.

Lemma oom_lists_ok n : forall h, orderly h -> plenty grants h ->
  exists ls h', oom_lists grants n h = Ok (ls, h') /\ length ls = n /\ apart ls h' /\ plenty grants h' /\ contents ls (fun _ => []) /\
    hp_next h <= hp_next h' /\ (forall d, In d (hp_live h) -> In d (hp_live h')) /\
    (forall i l d, nth_error ls i = Some l -> has l d -> hp_next h <= d).
Proof.
  induction n as [|n IH]; intros h O P.
  - exists [], h. split; [reflexivity|]. split; [reflexivity|]. split.
    { split; [exact O|]. split; [intros [|i] l; discriminate|intros [|i] j li lj d; discriminate]. }
    split; [exact P|]. split; [intros [|v] l; discriminate|]. split; [lia|]. split; [auto|intros [|i] l d; discriminate].
  - cbn [oom_lists]. destruct (init_cases (A := nat) 16 h ltac:(lia) O) as [(l & h1 & E & V & H & Nx & G1 & G2)|(h1 & E & L & Nx & G)].
    2:{ exfalso. unfold refused in G. rewrite !P in G by lia. destruct G; discriminate. }
    rewrite E. cbn [bind fst snd]. destruct H as (O1 & d & Ed & Lv).
    assert (P1 : plenty grants h1) by (eapply plenty_step; eauto; lia).
    destruct (IH h1 O1 P1) as (ls & h2 & E2 & L2 & (O2 & B2 & D2) & P2 & C2 & N2 & K2 & U2). rewrite E2. cbn [bind fst snd].
    assert (Hd : hp_next h <= d < hp_next h1).
    { split; [|apply O1; rewrite Lv; now left]. unfold oom_list_init in E. cbn [Nat.ltb Nat.leb] in E.
      rewrite (ask_granted h G1) in E. rewrite ask_granted in E by exact G2. injection E as <- <-. cbn in Ed. injection Ed as <-. lia. }
    do 2 eexists. split; [reflexivity|]. cbn [length]. split; [now rewrite L2|]. split; [|split; [exact P2|split; [|split; [lia|split]]]].
    + split; [exact O2|]. split.
      * intros [|i] li Hi; cbn in Hi; [|eauto]. injection Hi as <-. exists d. split; [exact Ed|]. apply K2. rewrite Lv. now left.
      * intros [|i] [|j] li lj e Hi Hj Hei Hej; cbn in Hi, Hj; auto.
        -- injection Hi as <-. specialize (U2 _ _ _ Hj Hej). unfold has in Hei. assert (e = d) by congruence. lia.
        -- injection Hj as <-. specialize (U2 _ _ _ Hi Hei). unfold has in Hej. assert (e = d) by congruence. lia.
        -- f_equal. eapply D2; eauto.
    + intros [|v] lv Hv; cbn in Hv; [|eapply C2; eauto]. injection Hv as <-. rewrite V.
      apply (rep_init 16 _). reflexivity.
    + intros e Ie. apply K2. rewrite Lv. now right; right.
    + intros [|i] li e Hi He; cbn in Hi; [injection Hi as <-; unfold has in He; assert (e = d) by congruence; lia|].
      specialize (U2 _ _ _ Hi He). lia.
Qed.

(** A list is refused. *)
Lemma oom_lists_refused n : forall h, orderly h -> ~ lasts grants (2 * n) h -> oom_lists grants n h = UB.
Proof.
  induction n as [|n IH]; intros h O N.
  - exfalso. apply N. intros i Hi. lia.
  - cbn [oom_lists]. destruct (init_cases (A := nat) 16 h ltac:(lia) O) as [(l & h1 & E & V & H & Nx & G1 & G2)|(h1 & E & L & Nx & G)];
      rewrite E; cbn [bind fst snd]; [|reflexivity].
    rewrite IH; [reflexivity|apply H|]. intros C. apply N. intros i Hi.
    destruct (Nat.eq_dec i (hp_next h)) as [->|]; [exact G1|]. destruct (Nat.eq_dec i (S (hp_next h))) as [->|]; [exact G2|].
    apply C. lia.
Qed.

Lemma skipn_step {A} (x : A) i : forall s, nth_error s i = Some x -> skipn i s = x :: skipn (S i) s.
Proof using. clear grants. induction i as [|i IH]; intros [|y s] E; cbn in E; try discriminate; [injection E as ->; reflexivity|apply (IH s E)]. Qed.

Lemma neighbours_ok g v l s : nth_error (og_lists g) v = Some l -> rep (ol_val l) s -> oom_neighbours g v = Ok s.
Proof using.
  clear grants. intros N R. unfold oom_neighbours. rewrite (aget_nth _ _ _ N). cbn [bind].
  assert (Q : forall n i, i + n = length s -> oom_read (ol_val l) i n = Ok (skipn i s)).
  { induction n as [|n IH]; intros i Hi.
    - cbn. rewrite skipn_all2 by lia. reflexivity.
    - cbn [oom_read]. destruct (nth_error s i) as [x|] eqn:Ex; [|apply nth_error_None in Ex; lia].
      rewrite (slot_rep _ _ _ _ R Ex). cbn [bind]. rewrite IH by lia. cbn [bind]. f_equal.
      symmetry. now apply skipn_step. }
  destruct R as (Hs & _). rewrite Q by (rewrite Hs; reflexivity). reflexivity.
Qed.
End Proofs.
