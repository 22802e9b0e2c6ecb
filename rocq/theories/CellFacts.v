(** Facts about doubly linked chains of cells. *)
From Coq Require Import Permutation.
From Verif Require Import Base ListFacts ModelCells.

Section Facts.
Context {A : Type}.
Notation heap := (heap A).
Notation addrs := (@map (nat * A) nat fst).

Definition firstp (cs : list (nat * A)) (q : option nat) : option nat :=
  match cs with [] => q | (a, _) :: _ => Some a end.
Fixpoint lastp (pr : option nat) (cs : list (nat * A)) : option nat :=
  match cs with [] => pr | (a, _) :: t => lastp (Some a) t end.

(** Well linked in both directions: the first cell has prev [pr], the last next [q]. *)
Fixpoint seg (h : heap) (pr : option nat) (cs : list (nat * A)) (q : option nat) : Prop :=
  match cs with
  | [] => True
  | (a, v) :: t => nth_error h a = Some (Some (Cell v (firstp t q) pr)) /\ seg h (Some a) t q
  end.

(** Well linked along [next] only. *)
Fixpoint nseg (h : heap) (cs : list (nat * A)) (q : option nat) : Prop :=
  match cs with
  | [] => True
  | (a, v) :: t => (exists pr, nth_error h a = Some (Some (Cell v (firstp t q) pr))) /\ nseg h t q
  end.

Lemma seg_nseg h pr cs q : seg h pr cs q -> nseg h cs q.
Proof.
  revert pr; induction cs as [|[a v] t IH]; cbn; intros pr H; auto.
  destruct H as [H1 H2]. split; eauto.
Qed.

Lemma firstp_app l1 l2 q : firstp (l1 ++ l2) q = firstp l1 (firstp l2 q).
Proof. destruct l1 as [|[a v] t]; reflexivity. Qed.

Lemma lastp_app pr l1 l2 : lastp pr (l1 ++ l2) = lastp (lastp pr l1) l2.
Proof. revert pr; induction l1 as [|[a v] t IH]; intros pr; cbn; auto. Qed.

Lemma seg_app h pr l1 l2 q :
  seg h pr (l1 ++ l2) q <-> seg h pr l1 (firstp l2 q) /\ seg h (lastp pr l1) l2 q.
Proof.
  revert pr; induction l1 as [|[a v] t IH]; intros pr; cbn [app seg lastp].
  - tauto.
  - rewrite IH, firstp_app. tauto.
Qed.

Lemma nseg_app h l1 l2 q :
  nseg h (l1 ++ l2) q <-> nseg h l1 (firstp l2 q) /\ nseg h l2 q.
Proof.
  induction l1 as [|[a v] t IH]; cbn [app nseg].
  - tauto.
  - rewrite IH, firstp_app. tauto.
Qed.

Lemma seg_upd h pr cs q a c : ~ In a (addrs cs) -> seg h pr cs q -> seg (upd h a c) pr cs q.
Proof.
  revert pr; induction cs as [|[b v] t IH]; cbn; intros pr Hn H; auto.
  destruct H as [H1 H2]. split; [|apply IH; tauto].
  rewrite nth_error_upd_neq by (intros E; apply Hn; auto). exact H1.
Qed.

Lemma nseg_upd h cs q a c : ~ In a (addrs cs) -> nseg h cs q -> nseg (upd h a c) cs q.
Proof.
  induction cs as [|[b v] t IH]; cbn; intros Hn H; auto.
  destruct H as [[p H1] H2]. split; [|apply IH; tauto].
  exists p. rewrite nth_error_upd_neq by (intros E; apply Hn; auto). exact H1.
Qed.

Lemma seg_alloc h pr cs q c : seg h pr cs q -> seg (h ++ [c]) pr cs q.
Proof.
  revert pr; induction cs as [|[b v] t IH]; cbn; intros pr H; auto.
  destruct H as [H1 H2]. split; auto.
  rewrite nth_error_app1; auto. apply nth_error_Some. congruence.
Qed.

Lemma nseg_lt h cs q a : nseg h cs q -> In a (addrs cs) -> a < length h.
Proof.
  induction cs as [|[b v] t IH]; cbn; intros H Hin; [tauto|].
  destruct H as [[p H1] H2]. destruct Hin as [<-|Hin]; auto.
  apply nth_error_Some. congruence.
Qed.

Lemma nodup_lt_length (l : list nat) n : NoDup l -> (forall a, In a l -> a < n) -> length l <= n.
Proof.
  intros Hd Hl. rewrite <- (seq_length n 0). apply NoDup_incl_length; auto.
  intros a Ha. apply in_seq. specialize (Hl a Ha). lia.
Qed.

Lemma nseg_length h cs q : nseg h cs q -> NoDup (addrs cs) -> length cs <= length h.
Proof.
  intros H Hd. rewrite <- (map_length fst cs). apply nodup_lt_length; auto.
  intros a. now apply (nseg_lt h cs q).
Qed.

Lemma find_cell_ok test h cs : nseg h cs None -> forall fuel, length cs < fuel ->
  find_cell test fuel h (firstp cs None) = Ok (option_map fst (find (fun x => test (snd x)) cs)).
Proof.
  induction cs as [|[a v] t IH]; cbn [firstp nseg]; intros H fuel Hf.
  - destruct fuel; [lia|]. reflexivity.
  - destruct fuel as [|f]; [cbn in Hf; lia|]. destruct H as [[p H1] H2].
    cbn [find_cell hload]. rewrite H1. cbn [bind c_val c_next find snd].
    destruct (test v); [reflexivity|]. apply IH; auto. cbn in Hf. lia.
Qed.

Lemma hload_eq (h : heap) a c : nth_error h a = Some (Some c) -> hload h (Some a) = Ok c.
Proof. cbn. now intros ->. Qed.

Lemma hstore_eq (h : heap) a c c' : nth_error h a = Some (Some c) -> hstore h (Some a) c' = Ok (upd h a (Some c')).
Proof. cbn. now intros ->. Qed.

Lemma hfree_eq (h : heap) a c : nth_error h a = Some (Some c) -> hfree h (Some a) = Ok (upd h a None).
Proof. cbn. now intros ->. Qed.

Lemma set_next_eq (h : heap) a v n p q :
  nth_error h a = Some (Some (Cell v n p)) ->
  set_next h (Some a) q = Ok (upd h a (Some (Cell v q p))).
Proof.
  intros H. unfold set_next. rewrite (hload_eq _ _ _ H). cbn [bind c_val c_prev].
  now rewrite (hstore_eq _ _ _ _ H).
Qed.

Lemma set_prev_eq (h : heap) a v n p q :
  nth_error h a = Some (Some (Cell v n p)) ->
  set_prev h (Some a) q = Ok (upd h a (Some (Cell v n q))).
Proof.
  intros H. unfold set_prev. rewrite (hload_eq _ _ _ H). cbn [bind c_val c_next].
  now rewrite (hstore_eq _ _ _ _ H).
Qed.

Lemma set_val_eq (h : heap) a v n p w :
  nth_error h a = Some (Some (Cell v n p)) ->
  set_val h (Some a) w = Ok (upd h a (Some (Cell w n p))).
Proof.
  intros H. unfold set_val. rewrite (hload_eq _ _ _ H). cbn [bind c_prev c_next].
  now rewrite (hstore_eq _ _ _ _ H).
Qed.

Lemma some_lt {B} (h : list B) a c : nth_error h a = Some c -> a < length h.
Proof. intros H. apply nth_error_Some. congruence. Qed.

(** Redirecting the [next] of the last cell. *)
Lemma seg_set_last h pr l b w q q' :
  NoDup (addrs (l ++ [(b, w)])) -> seg h pr (l ++ [(b, w)]) q ->
  exists h', set_next h (Some b) q' = Ok h' /\ seg h' pr (l ++ [(b, w)]) q' /\
             (forall a, a <> b -> nth_error h' a = nth_error h a) /\ length h' = length h.
Proof.
  intros Hd H. rewrite seg_app in H. cbn in H. destruct H as (H1 & H2 & _).
  rewrite map_app in Hd. cbn in Hd.
  exists (upd h b (Some (Cell w q' (lastp pr l)))).
  split; [now apply set_next_eq with (n := q)|]. split; [|split].
  - rewrite seg_app. cbn. split.
    + apply seg_upd; [|exact H1].
      apply NoDup_remove_2 in Hd. rewrite app_nil_r in Hd. exact Hd.
    + split; auto. rewrite nth_error_upd_eq; auto. eapply some_lt; eauto.
  - intros a Ha. now rewrite nth_error_upd_neq by auto.
  - apply upd_length.
Qed.

(** Changing the [prev] of the first cell. *)
Lemma seg_set_first h pr b w l q pr' :
  ~ In b (addrs l) -> seg h pr ((b, w) :: l) q ->
  exists h', set_prev h (Some b) pr' = Ok h' /\ seg h' pr' ((b, w) :: l) q /\
             (forall a, a <> b -> nth_error h' a = nth_error h a) /\ length h' = length h.
Proof.
  intros Hd H. cbn in H. destruct H as [H1 H2].
  exists (upd h b (Some (Cell w (firstp l q) pr'))).
  split; [now apply set_prev_eq with (p := pr)|]. split; [|split].
  - cbn. split; [|now apply seg_upd]. rewrite nth_error_upd_eq; auto. eapply some_lt; eauto.
  - intros a Ha. now rewrite nth_error_upd_neq by auto.
  - apply upd_length.
Qed.

(** Segments only depend on their own addresses. *)
Lemma seg_ext h h' pr cs q :
  (forall a, In a (addrs cs) -> nth_error h' a = nth_error h a) -> seg h pr cs q -> seg h' pr cs q.
Proof.
  revert pr; induction cs as [|[b v] t IH]; cbn; intros pr He H; auto.
  destruct H as [H1 H2]. split; [rewrite He by auto; exact H1|]. apply IH; auto.
Qed.

Lemma nseg_ext h h' cs q :
  (forall a, In a (addrs cs) -> nth_error h' a = nth_error h a) -> nseg h cs q -> nseg h' cs q.
Proof.
  induction cs as [|[b v] t IH]; cbn; intros He H; auto.
  destruct H as [[p H1] H2]. split; [exists p; rewrite He by auto; exact H1|]. apply IH; auto.
Qed.
End Facts.
