(** Proofs for C97. *)
From Coq Require Import Permutation.
From Verif Require Import Base ListFacts ModelLife SpecLife PropLife ModelLedger SpecLedger.
From Coq Require Import ZifyBool ZifyNat.
Local Open Scope nat_scope.

(** [x] of the blocks [k] are allocated. *)
Definition has (k : list nat) (h : heap) : Prop := forall x, cnt k x <= cnt (hp_live h) x.
(** The heap with [k] replaced by [k']. *)
Definition swaps (k k' : list nat) (h h' : heap) : Prop := wf h' /\ forall x, cnt (hp_live h') x + cnt k x = cnt (hp_live h) x + cnt k' x.

Ltac lg := unfold has, swaps, tb, gb, eb, kb, lb in *; 
  repeat match goal with H : _ /\ _ |- _ => destruct H end;
  try (split; [assumption|]);
  let x := fresh "x" in intros x;
  repeat match goal with H : forall _ : nat, _ = _ |- _ => specialize (H x) | H : forall _ : nat, _ <= _ |- _ => specialize (H x) end;
  cbn [a_hdr a_blk n_entry n_data n_key n_val t_blk t_arr t_keys t_ents k_blk k_set k_desc g_blk g_arr g_a g_b g_w g_adj map concat fst snd] in *;
  rewrite ?map_app, ?concat_app, ?cnt_app, ?cnt_nil in *;
  cbn [a_hdr a_blk n_entry n_data n_key n_val t_blk t_arr t_keys t_ents k_blk k_set k_desc g_blk g_arr g_a g_b g_w g_adj map concat fst snd] in *; rewrite ?cnt_app, ?cnt_nil in *; lia.

Lemma swaps_wf k k' h h' : swaps k k' h h' -> wf h'. Proof. intros [H _]; exact H. Qed.

Lemma malloc_ok h : wf h -> exists b h', malloc h = (b, h') /\ swaps [] (one b) h h'.
Proof.
  intros HW. unfold malloc. destruct (alloc_ok 1 h HW) as (W & C & _ & Hl & _). destruct (alloc 1 h) as [bs h1]. cbn [fst snd] in *.
  destruct bs as [|b [|? ?]]; try discriminate. exists b, h1. split; [reflexivity|]. split; [exact W|]. intros x. rewrite C. unfold one. rewrite cnt_nil. lia.
Qed.
Lemma touch_ok b h : has (one b) h -> touch1 b h = Ok tt.
Proof.
  intros H. unfold touch1. rewrite (proj2 (existsb_in b _)); [reflexivity|]. apply cnt_in. specialize (H b). unfold one, cnt at 1 in H. cbn [count_occ] in H.
  destruct (Nat.eq_dec b b); [lia|contradiction].
Qed.
Lemma free_ok b h : wf h -> has (one b) h -> exists h', free1 b h = Ok h' /\ swaps (one b) [] h h'.
Proof.
  intros HW H. destruct (free1_ok b h HW) as (h' & E & W & C).
  { apply cnt_in. specialize (H b). unfold one, cnt at 1 in H. cbn [count_occ] in H. destruct (Nat.eq_dec b b); [lia|contradiction]. }
  exists h'. split; [exact E|]. split; [exact W|]. intros x. specialize (C x). unfold one. rewrite cnt_nil. lia.
Qed.

Lemma linit_ok h : wf h -> exists l h', l_init h = (l, h') /\ swaps [] (lb l) h h'.
Proof.
  intros HW. unfold l_init. destruct (malloc_ok h HW) as (p & h1 & -> & S1). destruct (malloc_ok h1 (swaps_wf _ _ _ _ S1)) as (d & h2 & -> & S2).
  eexists _, _. split; [reflexivity|]. lg.
Qed.
Lemma luse_ok l h : has (lb l) h -> l_use l h = Ok tt.
Proof. intros H. unfold l_use. rewrite touch_ok by lg. cbn [bind]. apply touch_ok. lg. Qed.
Lemma lrealloc_ok l h : wf h -> has (lb l) h -> exists l' h', l_realloc l h = Ok (l', h') /\ swaps (lb l) (lb l') h h'.
Proof.
  intros HW H. unfold l_realloc. rewrite touch_ok by lg. cbn [bind]. destruct (free_ok (a_blk l) h HW) as (h1 & -> & S1); [lg|]. cbn [bind].
  destruct (malloc_ok h1 (swaps_wf _ _ _ _ S1)) as (d & h2 & -> & S2). eexists _, _. split; [reflexivity|]. lg.
Qed.
Lemma lput_ok g l h : wf h -> has (lb l) h -> exists l' h', l_put g l h = Ok (l', h') /\ swaps (lb l) (lb l') h h'.
Proof.
  intros HW H. unfold l_put. rewrite luse_ok by exact H. cbn [bind]. destruct g; [apply lrealloc_ok; assumption|]. exists l, h. split; [reflexivity|]. lg.
Qed.
Lemma lputs_ok gs : forall l h, wf h -> has (lb l) h -> exists l' h', l_puts gs l h = Ok (l', h') /\ swaps (lb l) (lb l') h h'.
Proof.
  induction gs as [|g gs IH]; intros l h HW H; cbn [l_puts].
  - exists l, h. split; [reflexivity|]. lg.
  - destruct (lput_ok g l h HW H) as (l1 & h1 & -> & S1). cbn [bind fst snd]. destruct (IH l1 h1) as (l2 & h2 & -> & S2); [apply S1|clear IH; lg|].
    eexists _, _. split; [reflexivity|]. clear IH. lg.
Qed.
Lemma ldelete_ok l h : wf h -> has (lb l) h -> exists h', l_delete l h = Ok h' /\ swaps (lb l) [] h h'.
Proof.
  intros HW H. unfold l_delete. rewrite touch_ok by lg. cbn [bind]. destruct (free_ok (a_blk l) h HW) as (h1 & -> & S1); [lg|]. cbn [bind].
  destruct (free_ok (a_hdr l) h1 (swaps_wf _ _ _ _ S1)) as (h2 & -> & S2); [lg|]. eexists. split; [reflexivity|]. lg.
Qed.
Lemma ldeletes_ok ls : forall h, wf h -> has (concat (map lb ls)) h -> exists h', l_deletes ls h = Ok h' /\ swaps (concat (map lb ls)) [] h h'.
Proof.
  induction ls as [|l ls IH]; intros h HW H; cbn [l_deletes].
  - exists h. split; [reflexivity|]. lg.
  - destruct (ldelete_ok l h HW) as (h1 & -> & S1); [clear IH; lg|]. cbn [bind]. destruct (IH h1) as (h2 & -> & S2); [apply S1|clear IH; lg|].
    eexists. split; [reflexivity|]. clear IH; lg.
Qed.

Lemma tinit_ok h : wf h -> exists t h', t_init h = (t, h') /\ t_ents t = [] /\ swaps [] (tb t) h h'.
Proof.
  intros HW. unfold t_init. destruct (malloc_ok h HW) as (p & h1 & -> & S1). destruct (malloc_ok h1 (swaps_wf _ _ _ _ S1)) as (d & h2 & -> & S2).
  destruct (linit_ok h2 (swaps_wf _ _ _ _ S2)) as (l & h3 & -> & S3). eexists _, _. split; [reflexivity|]. split; [reflexivity|]. lg.
Qed.
Lemma tinsert_ok g v t h : wf h -> has (tb t ++ lb v) h -> exists t' h', t_insert g v t h = Ok (t', h') /\ length (t_ents t') = S (length (t_ents t)) /\ swaps (tb t ++ lb v) (tb t') h h'.
Proof.
  intros HW H. unfold t_insert. rewrite touch_ok by lg. cbn [bind]. rewrite touch_ok by lg. cbn [bind].
  destruct (malloc_ok h HW) as (e & h1 & -> & S1). destruct (malloc_ok h1 (swaps_wf _ _ _ _ S1)) as (d & h2 & -> & S2). destruct (malloc_ok h2 (swaps_wf _ _ _ _ S2)) as (k & h3 & -> & S3).
  destruct (lput_ok g (t_keys t) h3 (swaps_wf _ _ _ _ S3)) as (l & h4 & -> & S4); [lg|]. cbn [bind fst snd]. eexists _, _. split; [reflexivity|].
  split; [cbn [t_ents]; rewrite app_length; cbn; lia|]. lg.
Qed.
Lemma tfree_ok es : forall h, wf h -> has (concat (map eb es)) h -> exists h', t_free_ents es h = Ok h' /\ swaps (concat (map eb es)) [] h h'.
Proof.
  induction es as [|e es IH]; intros h HW H; cbn [t_free_ents].
  - exists h. split; [reflexivity|]. lg.
  - rewrite touch_ok by (clear IH; lg). cbn [bind].
    destruct (free_ok (n_key e) h HW) as (h1 & -> & S1); [clear IH; lg|]. cbn [bind].
    destruct (free_ok (n_data e) h1 (swaps_wf _ _ _ _ S1)) as (h2 & -> & S2); [clear IH; lg|]. cbn [bind].
    destruct (free_ok (n_entry e) h2 (swaps_wf _ _ _ _ S2)) as (h3 & -> & S3); [clear IH; lg|]. cbn [bind].
    destruct (ldelete_ok (n_val e) h3 (swaps_wf _ _ _ _ S3)) as (h4 & -> & S4); [clear IH; lg|]. cbn [bind].
    destruct (IH h4) as (h5 & -> & S5); [apply S4|clear IH; lg|]. eexists. split; [reflexivity|]. clear IH; lg.
Qed.
Lemma tclear_ok t h : wf h -> has (tb t) h -> exists t' h', t_clear t h = Ok (t', h') /\ t_ents t' = [] /\ swaps (tb t) (tb t') h h'.
Proof.
  intros HW H. unfold t_clear. rewrite touch_ok by lg. cbn [bind].
  destruct (malloc_ok h HW) as (k & h1 & -> & S1). destruct (malloc_ok h1 (swaps_wf _ _ _ _ S1)) as (d & h2 & -> & S2).
  rewrite touch_ok by lg. cbn [bind]. destruct (tfree_ok (t_ents t) h2 (swaps_wf _ _ _ _ S2)) as (h3 & -> & S3); [lg|]. cbn [bind].
  destruct (free_ok k h3 (swaps_wf _ _ _ _ S3)) as (h4 & -> & S4); [lg|]. cbn [bind].
  destruct (free_ok d h4 (swaps_wf _ _ _ _ S4)) as (h5 & -> & S5); [lg|]. cbn [bind].
  destruct (lrealloc_ok (t_keys t) h5 (swaps_wf _ _ _ _ S5)) as (l & h6 & -> & S6); [lg|]. cbn [bind fst snd].
  eexists _, _. split; [reflexivity|]. split; [reflexivity|]. lg.
Qed.
Lemma tdestroy_ok t h : wf h -> has (tb t) h -> exists h', t_destroy t h = Ok h' /\ swaps (tb t) [] h h'.
Proof.
  intros HW H. unfold t_destroy. destruct (tclear_ok t h HW H) as (t1 & h1 & -> & E1 & S1). cbn [bind fst snd].
  assert (S1' : swaps (tb t) (one (t_blk t1) ++ one (t_arr t1) ++ lb (t_keys t1)) h h1) by (unfold tb at 2 in S1; rewrite E1 in S1; cbn [map concat] in S1; rewrite app_nil_r in S1; exact S1). clear S1.
  destruct (ldelete_ok (t_keys t1) h1 (swaps_wf _ _ _ _ S1')) as (h2 & -> & S2); [lg|]. cbn [bind].
  destruct (free_ok (t_arr t1) h2 (swaps_wf _ _ _ _ S2)) as (h3 & -> & S3); [lg|]. cbn [bind].
  destruct (free_ok (t_blk t1) h3 (swaps_wf _ _ _ _ S3)) as (h4 & -> & S4); [lg|]. eexists. split; [reflexivity|]. lg.
Qed.

Lemma clinit_ok p h : wf h -> match p with Some c => has (kb c) h | None => True end -> exists c h', cl_init p h = Ok (c, h') /\ swaps [] (kb c) h h'.
Proof.
  intros HW H. unfold cl_init. destruct (malloc_ok h HW) as (b & h1 & -> & S1).
  replace (match p with None => Ok tt | Some p => touch1 (k_blk p) h1 end) with (Ok tt) by (destruct p; [symmetry; apply touch_ok; lg|reflexivity]). cbn [bind].
  destruct (linit_ok h1 (swaps_wf _ _ _ _ S1)) as (s & h2 & -> & S2). destruct (linit_ok h2 (swaps_wf _ _ _ _ S2)) as (d & h3 & -> & S3).
  eexists _, _. split; [reflexivity|]. clear H. lg.
Qed.
Lemma cldestroy_ok c h : wf h -> has (kb c) h -> exists h', cl_destroy c h = Ok h' /\ swaps (kb c) [] h h'.
Proof.
  intros HW H. unfold cl_destroy. rewrite touch_ok by lg. cbn [bind].
  destruct (ldelete_ok (k_set c) h HW) as (h1 & -> & S1); [lg|]. cbn [bind].
  destruct (ldelete_ok (k_desc c) h1 (swaps_wf _ _ _ _ S1)) as (h2 & -> & S2); [lg|]. cbn [bind].
  destruct (free_ok (k_blk c) h2 (swaps_wf _ _ _ _ S2)) as (h3 & -> & S3); [lg|]. eexists. split; [reflexivity|]. lg.
Qed.
Lemma cldestroys_ok cs : forall h, wf h -> has (concat (map kb cs)) h -> exists h', cl_destroys cs h = Ok h' /\ swaps (concat (map kb cs)) [] h h'.
Proof.
  induction cs as [|c cs IH]; intros h HW H; cbn [cl_destroys].
  - exists h. split; [reflexivity|]. lg.
  - destruct (cldestroy_ok c h HW) as (h1 & -> & S1); [clear IH; lg|]. cbn [bind]. destruct (IH h1) as (h2 & -> & S2); [apply S1|clear IH; lg|].
    eexists. split; [reflexivity|]. clear IH; lg.
Qed.

Lemma adj_ok n : forall h, wf h -> exists ls h', adj_lists n h = Ok (ls, h') /\ length ls = length n /\ swaps [] (concat (map lb ls)) h h'.
Proof.
  induction n as [|gs n IH]; intros h HW; cbn [adj_lists].
  - exists [], h. split; [reflexivity|]. split; [reflexivity|]. lg.
  - destruct (linit_ok h HW) as (l & h1 & -> & S1). destruct (lputs_ok gs l h1 (swaps_wf _ _ _ _ S1)) as (l1 & h2 & -> & S2); [clear IH; lg|]. cbn [bind fst snd].
    destruct (IH h2) as (ls & h3 & -> & El & S3); [apply S2|]. cbn [bind fst snd]. eexists _, _. split; [reflexivity|]. split; [cbn; lia|]. clear IH; lg.
Qed.
Lemma tree_ok n h : wf h -> exists g h', led_tree n h = Ok (g, h') /\ length (g_adj g) = length n /\ swaps [] (gb g) h h'.
Proof.
  intros HW. unfold led_tree. destruct (linit_ok h HW) as (a & h1 & -> & S1). destruct (linit_ok h1 (swaps_wf _ _ _ _ S1)) as (b & h2 & -> & S2).
  destruct (linit_ok h2 (swaps_wf _ _ _ _ S2)) as (w & h3 & -> & S3). rewrite !luse_ok by lg. cbn [bind].
  destruct (malloc_ok h3 (swaps_wf _ _ _ _ S3)) as (g & h4 & -> & S4). destruct (malloc_ok h4 (swaps_wf _ _ _ _ S4)) as (e & h5 & -> & S5).
  destruct (adj_ok n h5 (swaps_wf _ _ _ _ S5)) as (ls & h6 & -> & El & S6). cbn [bind fst snd]. eexists _, _. split; [reflexivity|]. split; [exact El|]. lg.
Qed.
Lemma gdestroy_ok g h : wf h -> has (gb g) h -> exists h', g_destroy g h = Ok h' /\ swaps (gb g) [] h h'.
Proof.
  intros HW H. unfold g_destroy. rewrite touch_ok by lg. cbn [bind].
  destruct (ldelete_ok (g_a g) h HW) as (h1 & -> & S1); [lg|]. cbn [bind].
  destruct (ldelete_ok (g_b g) h1 (swaps_wf _ _ _ _ S1)) as (h2 & -> & S2); [lg|]. cbn [bind].
  destruct (ldelete_ok (g_w g) h2 (swaps_wf _ _ _ _ S2)) as (h3 & -> & S3); [lg|]. cbn [bind].
  rewrite touch_ok by lg. cbn [bind].
  destruct (ldeletes_ok (g_adj g) h3 (swaps_wf _ _ _ _ S3)) as (h4 & -> & S4); [lg|]. cbn [bind].
  destruct (free_ok (g_arr g) h4 (swaps_wf _ _ _ _ S4)) as (h5 & -> & S5); [lg|]. cbn [bind].
  destruct (free_ok (g_blk g) h5 (swaps_wf _ _ _ _ S5)) as (h6 & -> & S6); [lg|]. eexists. split; [reflexivity|]. lg.
Qed.

Lemma has_nth cs i c h : nth_error cs i = Some c -> has (concat (map kb cs)) h -> has (kb c) h.
Proof.
  intros E H. apply nth_error_split in E as (a & b & -> & _). intros x. specialize (H x). rewrite map_app, concat_app in H. cbn [map concat] in H. rewrite !cnt_app in H. lia.
Qed.
Lemma asetc_ok (cs : list clu) i c c' : nth_error cs i = Some c -> exists cs', aset cs i c' = Ok cs' /\ length cs' = length cs /\
  (forall x, cnt (concat (map kb cs')) x + cnt (kb c) x = cnt (concat (map kb cs)) x + cnt (kb c') x).
Proof.
  intros E. pose proof (nth_error_Some cs i) as Hs. rewrite E in Hs. assert (Hi : i < length cs) by (apply Hs; discriminate). clear Hs.
  unfold aset. rewrite (proj2 (Nat.ltb_lt _ _) Hi). eexists. split; [reflexivity|]. split; [apply upd_length|].
  revert i E Hi. induction cs as [|d cs IH]; intros [|i] E Hi x; cbn [length nth_error] in *; try lia.
  - injection E as ->. cbn [upd map concat]. rewrite !cnt_app. lia.
  - cbn [upd map concat]. rewrite !cnt_app. specialize (IH i E ltac:(lia) x). lia.
Qed.

(** The memory of the hierarchy loop. *)
Definition sb (s : led) : list nat := lb (w_list s) ++ concat (map kb (w_cs s)) ++ lb (w_newl s) ++ tb (w_hier s).
Definition linv (s : led) : Prop := wf (w_heap s) /\ w_cs s <> [] /\ Forall (fun n => n < length (w_cs s)) (w_new s).

Lemma examined_ok p s : linv s -> has (sb s) (w_heap s) -> exists i c, examined p s = Ok (i, c) /\ nth_error (w_cs s) i = Some c /\ has (kb c) (w_heap s).
Proof.
  intros (HW & Hc & Hn) H. unfold examined. rewrite luse_ok by (unfold sb in H; lg). cbn [bind].
  destruct (aget_ok (w_cs s) (p mod length (w_cs s))) as (c & -> & E).
  { apply Nat.mod_upper_bound. destruct (w_cs s); [contradiction|discriminate]. }
  cbn [bind]. eexists _, _. split; [reflexivity|]. split; [exact E|]. apply (has_nth _ _ _ _ E). unfold sb in H. clear - H. intros x. specialize (H x). rewrite !cnt_app in H. lia.
Qed.
Lemma new_ok p g1 g2 s : linv s -> has (sb s) (w_heap s) -> exists s', new_cluster p g1 g2 s = Ok s' /\ linv s' /\
  length (w_cs s') = S (length (w_cs s)) /\ length (t_ents (w_hier s')) = length (t_ents (w_hier s)) /\ swaps (sb s) (sb s') (w_heap s) (w_heap s').
Proof.
  intros HI H. destruct (examined_ok p s HI H) as (i & c & E & En & Hk). destruct HI as (HW & Hc & Hn). unfold new_cluster. rewrite E. cbn [bind fst snd].
  rewrite touch_ok by (clear H; lg). cbn [bind]. destruct (clinit_ok (Some c) (w_heap s) HW Hk) as (k & h1 & -> & S1). cbn [bind fst snd]. clear Hk.
  unfold sb in *. destruct (lput_ok g1 (w_newl s) h1 (swaps_wf _ _ _ _ S1)) as (n & h2 & -> & S2); [lg|]. cbn [bind fst snd].
  destruct (lput_ok g2 (w_list s) h2 (swaps_wf _ _ _ _ S2)) as (l & h3 & -> & S3); [lg|]. cbn [bind fst snd].
  eexists. split; [reflexivity|]. cbn [w_list w_cs w_newl w_new w_hier w_heap]. split; [|split; [|split; [reflexivity|lg]]].
  - split; [apply S3|]. cbn [w_cs w_new]. split; [destruct (w_cs s); discriminate|]. rewrite app_length. apply Forall_app. split; [|repeat constructor; cbn; lia].
    eapply Forall_impl; [|exact Hn]. intros a Ha. cbv beta in *. lia.
  - rewrite app_length. cbn. lia.
Qed.
Lemma noise_ok p gs s : linv s -> has (sb s) (w_heap s) -> exists s', noise_cluster p gs s = Ok s' /\ linv s' /\
  length (w_cs s') = length (w_cs s) /\ length (t_ents (w_hier s')) = length (t_ents (w_hier s)) /\ swaps (sb s) (sb s') (w_heap s) (w_heap s').
Proof.
  intros HI H. destruct (examined_ok p s HI H) as (i & c & E & En & Hk). destruct HI as (HW & Hc & Hn). unfold noise_cluster. rewrite E. cbn [bind fst snd].
  rewrite touch_ok by (clear H; lg). cbn [bind]. destruct (lputs_ok gs (k_set c) (w_heap s) HW) as (k & h1 & -> & S1); [clear H; lg|]. cbn [bind fst snd].
  destruct (asetc_ok (w_cs s) i c (mk_clu (k_blk c) k (k_desc c)) En) as (cs & -> & El & Ec). cbn [bind].
  eexists. split; [reflexivity|]. unfold sb in *. cbn [w_list w_cs w_newl w_new w_hier w_heap]. split; [|split; [exact El|split; [reflexivity|clear H Hk; lg]]].
  split; [apply S1|]. cbn [w_cs w_new]. split; [destruct cs; [destruct (w_cs s); [contradiction|discriminate]|discriminate]|]. rewrite El. exact Hn.
Qed.

Definition xb (t : temps) : list nat := lb (x_exam t) ++ lb (x_first t) ++ lb (x_unf t) ++ lb (x_con t) ++ lb (x_un t).
Ltac lgs := unfold xb, sb, set_heap in *; cbn [w_list w_cs w_newl w_new w_hier w_heap x_exam x_first x_unf x_con x_un] in *; lg.

Lemma comp_ok c t s : linv s -> has (xb t ++ sb s) (w_heap s) -> exists t' s', do_comp c (t, s) = Ok (t', s') /\ linv s' /\
  length (w_cs s') = length (w_cs s) + split_of (p_kind c) /\ length (t_ents (w_hier s')) = length (t_ents (w_hier s)) /\
  swaps (xb t ++ sb s) (xb t' ++ sb s') (w_heap s) (w_heap s').
Proof.
  intros (HW & Hc & Hn) H. unfold do_comp. rewrite luse_ok by lgs. cbn [bind].
  destruct (lputs_ok (p_con c) (x_con t) (w_heap s) HW) as (con & h1 & -> & S1); [lgs|]. cbn [bind fst snd].
  destruct (lputs_ok (p_un c) (x_un t) h1 (swaps_wf _ _ _ _ S1)) as (un & h2 & -> & S2); [lgs|]. cbn [bind fst snd].
  destruct (lputs_ok (p_first c) (x_first t) h2 (swaps_wf _ _ _ _ S2)) as (fi & h3 & -> & S3); [lgs|]. cbn [bind fst snd].
  destruct (lputs_ok (p_unf c) (x_unf t) h3 (swaps_wf _ _ _ _ S3)) as (unf & h4 & -> & S4); [lgs|]. cbn [bind fst snd].
  assert (Q : exists s', match p_kind c with KSplit p g1 g2 => new_cluster p g1 g2 (set_heap s h4) | KNoise p gs => noise_cluster p gs (set_heap s h4) | KOther => Ok (set_heap s h4) end = Ok s' /\ linv s' /\
    length (w_cs s') = length (w_cs s) + split_of (p_kind c) /\ length (t_ents (w_hier s')) = length (t_ents (w_hier s)) /\ swaps (sb (set_heap s h4)) (sb s') h4 (w_heap s')).
  { assert (I : linv (set_heap s h4)) by (split; [apply S4|split; assumption]).
    assert (B : has (sb (set_heap s h4)) (w_heap (set_heap s h4))) by lgs. destruct (p_kind c) as [p g1 g2|p gs|]; cbn [split_of].
    - destruct (new_ok p g1 g2 _ I B) as (s' & E & I' & L1 & L2 & S'). exists s'. split; [exact E|]. split; [exact I'|]. split; [cbn [set_heap w_cs] in L1; lia|]. split; [exact L2|exact S'].
    - destruct (noise_ok p gs _ I B) as (s' & E & I' & L1 & L2 & S'). exists s'. split; [exact E|]. split; [exact I'|]. split; [cbn [set_heap w_cs] in L1; lia|]. split; [exact L2|exact S'].
    - eexists. split; [reflexivity|]. split; [exact I|]. split; [cbn [set_heap w_cs]; lia|]. split; [reflexivity|]. split; [apply S4|]. intros x. cbn [set_heap w_heap]. lia. }
  destruct Q as (s' & -> & I' & L1 & L2 & S'). cbn [bind].
  assert (W' : wf (w_heap s')) by apply I'.
  rewrite !touch_ok by lgs. cbn [bind]. eexists _, _. split; [reflexivity|]. split; [exact I'|]. split; [exact L1|]. split; [exact L2|]. lgs.
Qed.
Lemma comps_ok cs : forall t s, linv s -> has (xb t ++ sb s) (w_heap s) -> exists t' s', do_comps cs (t, s) = Ok (t', s') /\ linv s' /\
  length (w_cs s') = length (w_cs s) + list_sum (map (fun c => split_of (p_kind c)) cs) /\ length (t_ents (w_hier s')) = length (t_ents (w_hier s)) /\
  swaps (xb t ++ sb s) (xb t' ++ sb s') (w_heap s) (w_heap s').
Proof.
  induction cs as [|c cs IH]; intros t s HI H; cbn [do_comps].
  - exists t, s. split; [reflexivity|]. split; [exact HI|]. split; [cbn; lia|]. split; [reflexivity|]. split; [apply HI|]. lia.
  - destruct (comp_ok c t s HI H) as (t1 & s1 & -> & I1 & L1 & M1 & S1). cbn [bind].
    destruct (IH t1 s1 I1) as (t2 & s2 & E & I2 & L2 & M2 & S2). { intros x. destruct S1 as [_ S1]. specialize (S1 x). specialize (H x). lia. }
    exists t2, s2. split; [exact E|]. split; [exact I2|]. split; [cbn [map list_sum fold_right]; unfold list_sum in *; lia|]. split; [lia|].
    destruct S1 as [_ S1], S2 as [W2 S2]. split; [exact W2|]. intros x. specialize (S1 x). specialize (S2 x). lia.
Qed.
Lemma label_ok aff lab w t s : linv s -> has (lb aff ++ lb lab ++ xb t ++ sb s) (w_heap s) -> exists t' s', do_label aff lab w (t, s) = Ok (t', s') /\ linv s' /\
  length (w_cs s') = length (w_cs s) + label_splits w /\ length (t_ents (w_hier s')) = length (t_ents (w_hier s)) /\
  swaps (xb t ++ sb s) (xb t' ++ sb s') (w_heap s) (w_heap s').
Proof.
  intros (HW & Hc & Hn) H. unfold do_label. rewrite !luse_ok by lgs. cbn [bind].
  destruct (lputs_ok (b_exam w) (x_exam t) (w_heap s) HW) as (ex & h1 & -> & S1); [lgs|]. cbn [bind fst snd].
  destruct (comps_ok (b_comps w) (mk_temps ex (x_first t) (x_unf t) (x_con t) (x_un t)) (set_heap s h1)) as (t2 & s2 & -> & (W2 & C2 & N2) & L2 & M2 & S2).
  { split; [apply S1|split; assumption]. } { lgs. }
  cbn [bind]. cbn [set_heap w_cs w_hier] in L2, M2. rewrite luse_ok by lgs. cbn [bind]. unfold label_splits. destruct (b_split w) as [[[fs us] [[p g1] g2]]|].
  - destruct (lputs_ok fs (x_first t2) (w_heap s2) W2) as (fi & h3 & -> & S3); [lgs|]. cbn [bind fst snd].
    destruct (lputs_ok us (x_unf t2) h3 (swaps_wf _ _ _ _ S3)) as (un & h4 & -> & S4); [lgs|]. cbn [bind fst snd].
    destruct (new_ok p g1 g2 (set_heap s2 h4)) as (s5 & -> & I5 & L5 & M5 & S5). { split; [apply S4|split; assumption]. } { lgs. }
    cbn [bind]. cbn [set_heap w_cs w_hier] in L5, M5. eexists _, _. split; [reflexivity|]. split; [exact I5|]. split; [lia|]. split; [lia|]. lgs.
  - eexists _, _. split; [reflexivity|]. split; [split; [exact W2|split; assumption]|]. split; [lia|]. split; [lia|]. lgs.
Qed.
Lemma labels_ok aff lab ws : forall t s, linv s -> has (lb aff ++ lb lab ++ xb t ++ sb s) (w_heap s) -> exists t' s', do_labels aff lab ws (t, s) = Ok (t', s') /\ linv s' /\
  length (w_cs s') = length (w_cs s) + list_sum (map label_splits ws) /\ length (t_ents (w_hier s')) = length (t_ents (w_hier s)) /\
  swaps (xb t ++ sb s) (xb t' ++ sb s') (w_heap s) (w_heap s').
Proof.
  induction ws as [|w ws IH]; intros t s HI H; cbn [do_labels].
  - exists t, s. split; [reflexivity|]. split; [exact HI|]. split; [cbn; lia|]. split; [reflexivity|]. split; [apply HI|]. lia.
  - destruct (label_ok aff lab w t s HI H) as (t1 & s1 & -> & I1 & L1 & M1 & S1). cbn [bind].
    destruct (IH t1 s1 I1) as (t2 & s2 & E & I2 & L2 & M2 & S2). { intros x. destruct S1 as [_ S1]. specialize (S1 x). specialize (H x). rewrite !cnt_app in *. lia. }
    exists t2, s2. split; [exact E|]. split; [exact I2|]. split; [cbn [map list_sum fold_right]; unfold list_sum in *; lia|]. split; [lia|].
    destruct S1 as [_ S1], S2 as [W2 S2]. split; [exact W2|]. intros x. specialize (S1 x). specialize (S2 x). lia.
Qed.
Lemma entry_ok g t h : wf h -> has (tb t) h -> exists t' h', new_entry g t h = Ok (t', h') /\ length (t_ents t') = S (length (t_ents t)) /\ swaps (tb t) (tb t') h h'.
Proof.
  intros HW H. unfold new_entry. destruct (malloc_ok h HW) as (e & h1 & -> & S1). destruct (malloc_ok h1 (swaps_wf _ _ _ _ S1)) as (l & h2 & -> & S2).
  destruct (tinsert_ok g (mk_alst e l) t h2 (swaps_wf _ _ _ _ S2)) as (t' & h3 & -> & El & S3). { clear - H S1 S2. lg. }
  exists t', h3. split; [reflexivity|]. split; [exact El|]. clear - H S1 S2 S3. unfold lb in S3. cbn [a_hdr a_blk] in S3. destruct S1 as [_ S1], S2 as [_ S2], S3 as [W3 S3]. split; [exact W3|].
  intros x. specialize (S1 x). specialize (S2 x). specialize (S3 x). rewrite !cnt_app, ?cnt_nil in *. lia.
Qed.
Lemma touch_new_ok ns cs h : Forall (fun n => n < length cs) ns -> has (concat (map kb cs)) h -> touch_new ns cs h = Ok tt.
Proof.
  intros Hn H. induction Hn as [|n ns Hn Hf IH]; cbn [touch_new]; [reflexivity|]. destruct (aget_ok cs n Hn) as (c & -> & E). cbn [bind].
  rewrite touch_ok; [exact IH|]. pose proof (has_nth _ _ _ _ E H) as Hk. clear - Hk. lg.
Qed.
Lemma level_ok v aff lab s : linv s -> has (lb aff ++ lb lab ++ sb s) (w_heap s) -> exists aff' lab' s', do_level v (aff, lab, s) = Ok (aff', lab', s') /\ linv s' /\
  length (w_cs s') = length (w_cs s) + level_splits v /\ length (t_ents (w_hier s')) = length (t_ents (w_hier s)) + level_stored v /\
  swaps (lb aff ++ lb lab ++ sb s) (lb aff' ++ lb lab' ++ sb s') (w_heap s) (w_heap s').
Proof.
  intros (HW & Hc & Hn) H. unfold do_level. rewrite touch_ok by lgs. cbn [bind].
  destruct (lputs_ok (v_aff v) aff (w_heap s) HW) as (a & h1 & -> & S1); [lgs|]. cbn [bind fst snd].
  destruct (lputs_ok (v_lab v) lab h1 (swaps_wf _ _ _ _ S1)) as (b & h2 & -> & S2); [lgs|]. cbn [bind fst snd].
  unfold level_splits, level_stored. destruct (v_work v) as [[ws en]|]; cbn [w_heap].
  2:{ eexists _, _, _. split; [reflexivity|]. split; [split; [apply S2|split; [exact Hc|constructor]]|]. split; [cbn [w_cs]; lia|]. split; [cbn [w_hier]; lia|]. lgs. }
  destruct (linit_ok h2 (swaps_wf _ _ _ _ S2)) as (x1 & h3 & -> & S3). destruct (linit_ok h3 (swaps_wf _ _ _ _ S3)) as (x2 & h4 & -> & S4).
  destruct (linit_ok h4 (swaps_wf _ _ _ _ S4)) as (x3 & h5 & -> & S5). destruct (linit_ok h5 (swaps_wf _ _ _ _ S5)) as (x4 & h6 & -> & S6).
  destruct (linit_ok h6 (swaps_wf _ _ _ _ S6)) as (x5 & h7 & -> & S7).
  destruct (labels_ok a b ws (mk_temps x1 x2 x3 x4 x5) (set_heap (mk_led (w_list s) (w_cs s) (w_newl s) [] (w_hier s) h2) h7)) as (t8 & s8 & -> & (W8 & C8 & N8) & L8 & M8 & S8).
  { split; [apply S7|split; [exact Hc|constructor]]. } { lgs. }
  cbn [bind]. cbn [set_heap w_cs w_hier w_heap] in L8, M8, S8.
  assert (S8' : swaps (lb aff ++ lb lab ++ sb s) (lb a ++ lb b ++ xb t8 ++ sb s8) (w_heap s) (w_heap s8)) by lgs.
  assert (H8 : has (lb a ++ lb b ++ xb t8 ++ sb s8) (w_heap s8)).
  { clear - H S8'. destruct S8' as [_ S]. intros x. specialize (S x). specialize (H x). lia. }
  clear S1 S2 S3 S4 S5 S6 S7 S8 H.
  destruct (ldelete_ok (x_con t8) (w_heap s8) W8) as (h9 & -> & S9); [lgs|]. cbn [bind].
  destruct (ldelete_ok (x_un t8) h9 (swaps_wf _ _ _ _ S9)) as (h10 & -> & S10); [lgs|]. cbn [bind].
  destruct (ldelete_ok (x_exam t8) h10 (swaps_wf _ _ _ _ S10)) as (h11 & -> & S11); [lgs|]. cbn [bind].
  destruct (ldelete_ok (x_first t8) h11 (swaps_wf _ _ _ _ S11)) as (h12 & -> & S12); [lgs|]. cbn [bind].
  destruct (ldelete_ok (x_unf t8) h12 (swaps_wf _ _ _ _ S12)) as (h13 & -> & S13); [lgs|]. cbn [bind].
  assert (Q : exists t' h', match en with None => Ok (w_hier s8, h13) | Some g => new_entry g (w_hier s8) h13 end = Ok (t', h') /\
    length (t_ents t') = length (t_ents (w_hier s8)) + match en with Some _ => 1 | None => 0 end /\ swaps (tb (w_hier s8)) (tb t') h13 h').
  { destruct en as [g|].
    - destruct (entry_ok g (w_hier s8) h13 (swaps_wf _ _ _ _ S13)) as (t' & h' & E & El & S); [lgs|]. exists t', h'. split; [exact E|]. split; [lia|exact S].
    - eexists _, _. split; [reflexivity|]. split; [lia|]. split; [apply S13|]. lia. }
  destruct Q as (t' & h' & -> & El & S'). cbn [bind fst snd].
  rewrite touch_new_ok; [|exact N8|lgs]. cbn [bind]. rewrite touch_ok by lgs. cbn [bind].
  eexists _, _, _. split; [reflexivity|]. split; [split; [apply S'|split; [exact C8|constructor]]|]. split; [exact L8|]. split; [cbn [w_hier]; rewrite El, M8; reflexivity|]. lgs.
Qed.
Lemma levels_ok vs : forall aff lab s, linv s -> has (lb aff ++ lb lab ++ sb s) (w_heap s) -> exists aff' lab' s', do_levels vs (aff, lab, s) = Ok (aff', lab', s') /\ linv s' /\
  length (w_cs s') = length (w_cs s) + list_sum (map level_splits vs) /\ length (t_ents (w_hier s')) = length (t_ents (w_hier s)) + list_sum (map level_stored vs) /\
  swaps (lb aff ++ lb lab ++ sb s) (lb aff' ++ lb lab' ++ sb s') (w_heap s) (w_heap s').
Proof.
  induction vs as [|v vs IH]; intros aff lab s HI H; cbn [do_levels].
  - eexists _, _, _. split; [reflexivity|]. split; [exact HI|]. split; [cbn; lia|]. split; [cbn; lia|]. split; [apply HI|]. lia.
  - destruct (level_ok v aff lab s HI H) as (a1 & b1 & s1 & -> & I1 & L1 & M1 & S1). cbn [bind].
    destruct (IH a1 b1 s1 I1) as (a2 & b2 & s2 & E & I2 & L2 & M2 & S2). { intros x. destruct S1 as [_ S1]. specialize (S1 x). specialize (H x). lia. }
    eexists _, _, _. split; [exact E|]. split; [exact I2|]. split; [cbn [map list_sum fold_right]; unfold list_sum in *; lia|]. split; [cbn [map list_sum fold_right]; unfold list_sum in *; lia|].
    destruct S1 as [_ S1], S2 as [W2 S2]. split; [exact W2|]. intros x. specialize (S1 x). specialize (S2 x). lia.
Qed.
Lemma hierarchy_ok z l t h : wf h -> has (lb l ++ tb t) h -> t_ents t = [] -> exists l' cs t' h', led_hierarchy z l t h = Ok (l', cs, t', h') /\
  length cs = clusters_made z /\ length (t_ents t') = levels_stored z /\ cs <> [] /\ swaps (lb l ++ tb t) (lb l' ++ concat (map kb cs) ++ tb t') h h'.
Proof.
  intros HW H Et. unfold led_hierarchy.
  destruct (lput_ok (z_null z) l h HW) as (l1 & h1 & -> & S1); [lg|]. cbn [bind fst snd].
  destruct (clinit_ok None h1 (swaps_wf _ _ _ _ S1) I) as (c & h2 & -> & S2). cbn [bind fst snd].
  destruct (lput_ok (z_root z) l1 h2 (swaps_wf _ _ _ _ S2)) as (l3 & h3 & -> & S3); [lg|]. cbn [bind fst snd].
  destruct (linit_ok h3 (swaps_wf _ _ _ _ S3)) as (lab & h4 & -> & S4). destruct (linit_ok h4 (swaps_wf _ _ _ _ S4)) as (aff & h5 & -> & S5).
  destruct (linit_ok h5 (swaps_wf _ _ _ _ S5)) as (nl & h6 & -> & S6).
  destruct (levels_ok (z_levels z) aff lab (mk_led l3 [c] nl [] t h6)) as (a7 & b7 & s7 & -> & (W7 & C7 & N7) & L7 & M7 & S7).
  { split; [apply S6|split; [discriminate|constructor]]. } { lgs. }
  cbn [bind w_cs w_hier w_heap length] in *. rewrite Et in M7. cbn [length] in M7.
  destruct (ldelete_ok (w_newl s7) (w_heap s7) W7) as (h8 & -> & S8); [lgs|]. cbn [bind].
  destruct (entry_ok (z_last z) (w_hier s7) h8 (swaps_wf _ _ _ _ S8)) as (t9 & h9 & -> & E9 & S9); [lgs|]. cbn [bind fst snd].
  destruct (ldelete_ok b7 h9 (swaps_wf _ _ _ _ S9)) as (h10 & -> & S10); [lgs|]. cbn [bind].
  destruct (ldelete_ok a7 h10 (swaps_wf _ _ _ _ S10)) as (h11 & -> & S11); [lgs|]. cbn [bind].
  eexists _, _, _, _. split; [reflexivity|]. split; [exact L7|]. split; [unfold levels_stored; lia|]. split; [exact C7|]. lgs.
Qed.
Lemma descs_ok ds : forall cs h, wf h -> cs <> [] -> has (concat (map kb cs)) h -> exists cs' h', led_descs ds cs h = Ok (cs', h') /\ length cs' = length cs /\ swaps (concat (map kb cs)) (concat (map kb cs')) h h'.
Proof.
  induction ds as [|[p gs] ds IH]; intros cs h HW Hc H; cbn [led_descs].
  - eexists _, _. split; [reflexivity|]. split; [reflexivity|]. split; [exact HW|]. lia.
  - destruct (aget_ok cs (p mod length cs)) as (c & -> & E). { apply Nat.mod_upper_bound. destruct cs; [contradiction|discriminate]. }
    cbn [bind]. pose proof (has_nth _ _ _ _ E H) as Hk. rewrite touch_ok by (clear IH; clear H; lg). cbn [bind].
    destruct (lputs_ok gs (k_desc c) h HW) as (l & h1 & -> & S1); [clear IH; clear H; lg|]. cbn [bind fst snd].
    destruct (asetc_ok cs _ c (mk_clu (k_blk c) (k_set c) l) E) as (cs1 & -> & El & Ec). cbn [bind].
    assert (S2 : swaps (concat (map kb cs)) (concat (map kb cs1)) h h1) by (clear IH; clear H Hk; lg).
    destruct (IH cs1 h1 (swaps_wf _ _ _ _ S1)) as (cs2 & h2 & E2 & L2 & S3). { destruct cs1; [destruct cs; [contradiction|discriminate]|discriminate]. }
    { intros x. destruct S2 as [_ S2]. specialize (S2 x). specialize (H x). lia. }
    eexists _, _. split; [exact E2|]. split; [lia|]. destruct S2 as [_ S2], S3 as [W3 S3]. split; [exact W3|]. intros x. specialize (S2 x). specialize (S3 x). lia.
Qed.
Lemma propagate_ok z cs h : wf h -> cs <> [] -> has (concat (map kb cs)) h -> exists cs' h', led_propagate z cs h = Ok (cs', h') /\ length cs' = length cs /\ swaps (concat (map kb cs)) (concat (map kb cs')) h h'.
Proof.
  intros HW Hc H. unfold led_propagate. destruct (linit_ok h HW) as (x0 & h1 & -> & S1). destruct (lputs_ok (z_exam z) x0 h1 (swaps_wf _ _ _ _ S1)) as (x & h2 & -> & S2); [lg|]. cbn [bind fst snd].
  destruct (descs_ok (z_desc z) cs h2 (swaps_wf _ _ _ _ S2) Hc) as (cs3 & h3 & -> & L3 & S3); [lg|]. cbn [bind fst snd].
  destruct (ldelete_ok x h3 (swaps_wf _ _ _ _ S3)) as (h4 & -> & S4); [lg|]. cbn [bind]. eexists _, _. split; [reflexivity|]. split; [exact L3|]. lg.
Qed.
Lemma offsets_ok os : forall t h, wf h -> has (tb t) h -> exists t' h', led_offsets os t h = Ok (t', h') /\ swaps (tb t) (tb t') h h'.
Proof.
  induction os as [|[gs g] os IH]; intros t h HW H; cbn [led_offsets].
  - eexists _, _. split; [reflexivity|]. split; [exact HW|]. lia.
  - destruct (linit_ok h HW) as (l & h1 & -> & S1). destruct (lputs_ok gs l h1 (swaps_wf _ _ _ _ S1)) as (l2 & h2 & -> & S2); [clear IH; lg|]. cbn [bind fst snd].
    destruct (tinsert_ok g l2 t h2 (swaps_wf _ _ _ _ S2)) as (t3 & h3 & -> & _ & S3); [clear IH; lg|]. cbn [bind fst snd].
    assert (S4 : swaps (tb t) (tb t3) h h3).
    { destruct S1 as [_ S1], S2 as [_ S2], S3 as [W3 S3]. split; [exact W3|]. intros x. specialize (S1 x). specialize (S2 x). specialize (S3 x). rewrite cnt_app, ?cnt_nil in *. lia. }
    destruct (IH t3 h3 (swaps_wf _ _ _ _ S3)) as (t5 & h5 & E5 & S5). { intros x. destruct S4 as [_ S4]. specialize (S4 x). specialize (H x). lia. }
    eexists _, _. split; [exact E5|]. destruct S4 as [_ S4], S5 as [W5 S5]. split; [exact W5|]. intros x. specialize (S4 x). specialize (S5 x). lia.
Qed.
Lemma prominent_ok z t cs h : wf h -> cs <> [] -> has (tb t ++ concat (map kb cs)) h -> exists b h', led_prominent z t cs h = Ok (b, h') /\ swaps [] (one b) h h'.
Proof.
  intros HW Hc H. unfold led_prominent. destruct (aget_ok cs 0) as (r & -> & E). { destruct cs; [contradiction|cbn; lia]. }
  cbn [bind]. rewrite luse_ok.
  2:{ assert (Hk : has (kb r) h) by (apply (has_nth cs 0 r h E); intros x; specialize (H x); rewrite cnt_app in H; lia). clear - Hk. lg. }
  cbn [bind]. destruct (tinit_ok h HW) as (t1 & h1 & -> & _ & S1). destruct (offsets_ok (z_offsets z) t1 h1 (swaps_wf _ _ _ _ S1)) as (t2 & h2 & -> & S2). { clear - S1. lg. }
  cbn [bind fst snd]. destruct (malloc_ok h2 (swaps_wf _ _ _ _ S2)) as (b & h3 & -> & S3). rewrite touch_ok by lg. cbn [bind].
  destruct (tdestroy_ok t2 h3 (swaps_wf _ _ _ _ S3)) as (h4 & -> & S4). { clear - S1 S2 S3 H. destruct S1 as [_ S1], S2 as [_ S2], S3 as [_ S3]. intros x. specialize (S1 x). specialize (S2 x). specialize (S3 x). rewrite ?cnt_nil in *. lia. }
  cbn [bind]. eexists _, _. split; [reflexivity|]. clear H. destruct S1 as [_ S1], S2 as [_ S2], S3 as [_ S3], S4 as [W4 S4]. split; [exact W4|]. intros x. specialize (S1 x). specialize (S2 x). specialize (S3 x). specialize (S4 x). rewrite ?cnt_nil in *. lia.
Qed.
