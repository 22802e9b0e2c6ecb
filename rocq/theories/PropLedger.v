(** C97: a run gives back all its working memory. *)
From Coq Require Import Permutation.
From Verif Require Import Base ListFacts ModelLife SpecLife PropLife ModelLedger SpecLedger ProofLedger.
From Coq Require Import ZifyBool ZifyNat.
Local Open Scope nat_scope.

(** The blocks held after a run: 22, two per point, five per stored level and five per
    cluster. *)
Definition held (z : decisions) : nat := 22 + 2 * length (z_adj z) + 5 * levels_stored z + 5 * clusters_made z.

Lemma dorun_ok z o h l st d c : wf h -> u_clusters o = Some (l, []) -> u_stab o = Some st -> u_dist o = Some d -> u_core o = Some c -> has (lb l ++ one d ++ one c) h ->
  exists o' h' a b g t l' cs, led_do_run z o h = Ok (o', h') /\ o' = mk_dobj (Some a) (Some b) (Some g) (Some t) (Some (l', cs)) (Some st) (Some d) (Some c) /\
    length (g_adj g) = length (z_adj z) /\ length cs = clusters_made z /\ length (t_ents t) = levels_stored z /\
    swaps (lb l) (one a ++ one b ++ gb g ++ tb t ++ lb l' ++ concat (map kb cs)) h h'.
Proof.
  intros HW El Est Ed Ec H. unfold led_do_run. destruct (tinit_ok h HW) as (t0 & h1 & -> & Et0 & S1). rewrite Ed, Ec, El. cbn [deref1 bind].
  rewrite !touch_ok by lg. cbn [bind]. destruct (tree_ok (z_adj z) h1 (swaps_wf _ _ _ _ S1)) as (g & h2 & -> & Lg & S2). cbn [bind fst snd].
  assert (B2 : swaps [] (tb t0 ++ gb g) h h2).
  { destruct S1 as [_ S1], S2 as [W2 S2]. split; [exact W2|]. intros x. specialize (S1 x). specialize (S2 x). rewrite cnt_app, ?cnt_nil in *. lia. }
  destruct (hierarchy_ok z l t0 h2 (swaps_wf _ _ _ _ S2)) as (l3 & cs3 & t3 & h3 & -> & Lc & Lt & Nc & S3); [|exact Et0|].
  { destruct B2 as [_ B2]. intros x. specialize (B2 x). specialize (H x). rewrite ?cnt_app, ?cnt_nil in *. lia. }
  cbn [bind]. assert (B3 : swaps (lb l) (gb g ++ lb l3 ++ concat (map kb cs3) ++ tb t3) h h3).
  { destruct B2 as [_ B2], S3 as [W3 S3]. split; [exact W3|]. intros x. specialize (B2 x). specialize (S3 x). rewrite ?cnt_app, ?cnt_nil in *. lia. }
  assert (H3 : has (tb t3 ++ concat (map kb cs3)) h3).
  { destruct B3 as [_ B3]. intros x. specialize (B3 x). specialize (H x). rewrite ?cnt_app in *. lia. }
  destruct (propagate_ok z cs3 h3 (swaps_wf _ _ _ _ S3) Nc) as (cs4 & h4 & -> & L4 & S4). { intros x. specialize (H3 x). rewrite cnt_app in H3. lia. }
  cbn [bind fst snd]. destruct (prominent_ok z t3 cs4 h4 (swaps_wf _ _ _ _ S4)) as (a & h5 & -> & S5).
  { destruct cs4; [destruct cs3; [contradiction|discriminate]|discriminate]. }
  { destruct S4 as [_ S4]. intros x. specialize (S4 x). specialize (H3 x). rewrite ?cnt_app in *. lia. }
  cbn [bind fst snd]. destruct (malloc_ok h5 (swaps_wf _ _ _ _ S5)) as (b & h6 & -> & S6).
  eexists _, _, a, b, g, t3, l3, cs4. split; [reflexivity|]. split; [rewrite Est; reflexivity|]. split; [exact Lg|]. split; [lia|]. split; [exact Lt|].
  destruct B3 as [_ B3], S4 as [_ S4], S5 as [_ S5], S6 as [W6 S6]. split; [exact W6|]. intros x. specialize (B3 x). specialize (S4 x). specialize (S5 x). specialize (S6 x). rewrite ?cnt_app, ?cnt_nil in *. lia.
Qed.

Lemma lb_len l : length (lb l) = 2. Proof. reflexivity. Qed.
Lemma concat_len {A} (f : A -> list nat) n l : (forall x, length (f x) = n) -> length (concat (map f l)) = n * length l.
Proof. intros Hf. induction l as [|x l IH]; cbn [map concat length]; [lia|]. rewrite app_length, IH, Hf. lia. Qed.
Lemma tb_len t : length (tb t) = 4 + 5 * length (t_ents t).
Proof. unfold tb. rewrite !app_length, (concat_len eb 5) by reflexivity. cbn [length lb one app]. lia. Qed.
Lemma gb_len g : length (gb g) = 8 + 2 * length (g_adj g).
Proof. unfold gb. rewrite !app_length, (concat_len lb 2) by reflexivity. cbn [length lb one app]. lia. Qed.

(** The state of an object between two calls. *)
Definition shape (p : stage) (o : dobj) : Prop :=
  match p with
  | Fresh | Blank => o = no_object
  | Full => exists c st d k, u_clusters o = Some c /\ u_stab o = Some st /\ t_ents st = [] /\ u_dist o = Some d /\ u_core o = Some k
  | Empty => exists l st d k, o = mk_dobj None None None None (Some (l, [])) (Some st) (Some d) (Some k) /\ t_ents st = []
  end.
Definition good (h0 : heap) (p : stage) (s : dobj * heap) : Prop :=
  shape p (fst s) /\ wf (snd s) /\ forall x, cnt (hp_live (snd s)) x = cnt (object_blocks (fst s)) x + cnt (hp_live h0) x.

Lemma run_ok z o h : wf h -> exists o' h', led_run z o h = Ok (o', h') /\ shape Full o' /\ length (object_blocks o') = held z /\ swaps [] (object_blocks o') h h'.
Proof.
  intros HW. unfold led_run. destruct (malloc_ok h HW) as (d & h1 & -> & S1). destruct (malloc_ok h1 (swaps_wf _ _ _ _ S1)) as (k & h2 & -> & S2).
  destruct (linit_ok h2 (swaps_wf _ _ _ _ S2)) as (l & h3 & -> & S3). destruct (tinit_ok h3 (swaps_wf _ _ _ _ S3)) as (st & h4 & -> & Es & S4).
  destruct (dorun_ok z (mk_dobj (u_labels o) (u_scores o) (u_mst o) (u_hier o) (Some (l, [])) (Some st) (Some d) (Some k)) h4 l st d k) as (o' & h' & a & b & g & t & l' & cs & E & Eo & Lg & Lc & Lt & S5); try reflexivity.
  { apply S4. }
  { destruct S1 as [_ S1], S2 as [_ S2], S3 as [_ S3], S4 as [_ S4]. intros x. specialize (S1 x). specialize (S2 x). specialize (S3 x). specialize (S4 x). rewrite ?cnt_app, ?cnt_nil in *. lia. }
  exists o', h'. split; [exact E|]. subst o'. split; [do 4 eexists; split; [reflexivity|]; split; [reflexivity|]; split; [exact Es|split; reflexivity]|]. 
  unfold object_blocks. cbn [opt u_labels u_scores u_mst u_hier u_clusters u_stab u_dist u_core fst snd]. split.
  - rewrite !app_length, !tb_len, gb_len, (concat_len kb 5) by reflexivity. rewrite Lg, Lc, Lt, Es. unfold held. cbn [length lb one app]. lia.
  - destruct S1 as [_ S1], S2 as [_ S2], S3 as [_ S3], S4 as [_ S4], S5 as [W5 S5]. split; [exact W5|]. intros x. specialize (S1 x). specialize (S2 x). specialize (S3 x). specialize (S4 x). specialize (S5 x). rewrite ?cnt_app, ?cnt_nil in *. lia.
Qed.

Lemma when_ok {A} (blk : A -> list nat) (f : A -> heap -> res heap) p h :
  (forall x, wf h -> has (blk x) h -> exists h', f x h = Ok h' /\ swaps (blk x) [] h h') ->
  wf h -> has (opt blk p) h -> exists h', when p f h = Ok h' /\ swaps (opt blk p) [] h h'.
Proof.
  intros Hf HW H. destruct p as [x|]; cbn [when opt] in *; [apply Hf; assumption|]. exists h. split; [reflexivity|]. split; [exact HW|]. lia.
Qed.
Lemma minimal_ok o h : wf h -> has (object_blocks o) h -> exists o' h', led_minimal_clean o h = Ok (o', h') /\
  u_labels o' = None /\ u_scores o' = None /\ u_mst o' = None /\ u_hier o' = None /\ u_clusters o' = option_map (fun c => (fst c, [])) (u_clusters o) /\
  match u_stab o with None => u_stab o' = None | Some _ => exists st, u_stab o' = Some st /\ t_ents st = [] end /\ u_dist o' = u_dist o /\ u_core o' = u_core o /\
  swaps (object_blocks o) (object_blocks o') h h'.
Proof.
  intros HW H. unfold led_minimal_clean. unfold object_blocks in H.
  destruct (when_ok one free1 (u_labels o) h (fun x => free_ok x h) HW) as (h1 & -> & S1). { intros x. specialize (H x). rewrite !cnt_app in H. lia. }
  cbn [bind]. assert (W1 := swaps_wf _ _ _ _ S1). destruct S1 as [_ S1]. rewrite ?cnt_nil in *.
  destruct (when_ok one free1 (u_scores o) h1 (fun x => free_ok x h1) W1) as (h2 & -> & S2). { intros x. specialize (H x). specialize (S1 x). rewrite !cnt_app, ?cnt_nil in *. lia. }
  cbn [bind]. assert (W2 := swaps_wf _ _ _ _ S2). destruct S2 as [_ S2].
  destruct (when_ok gb g_destroy (u_mst o) h2 (fun x => gdestroy_ok x h2) W2) as (h3 & -> & S3). { intros x. specialize (H x). specialize (S1 x). specialize (S2 x). rewrite !cnt_app, ?cnt_nil in *. lia. }
  cbn [bind]. assert (W3 := swaps_wf _ _ _ _ S3). destruct S3 as [_ S3].
  destruct (when_ok tb t_destroy (u_hier o) h3 (fun x => tdestroy_ok x h3) W3) as (h4 & -> & S4). { intros x. specialize (H x). specialize (S1 x). specialize (S2 x). specialize (S3 x). rewrite !cnt_app, ?cnt_nil in *. lia. }
  cbn [bind]. assert (W4 := swaps_wf _ _ _ _ S4). destruct S4 as [_ S4].
  assert (Q : exists h', when (u_clusters o) (fun c h => let! _ := l_use (fst c) h in cl_destroys (snd c) h) h4 = Ok h' /\
    swaps (opt (fun c => concat (map kb (snd c))) (u_clusters o)) [] h4 h').
  { destruct (u_clusters o) as [[l cs]|]; cbn [when opt fst snd] in *.
    - rewrite luse_ok. 2:{ intros x. specialize (H x). specialize (S1 x). specialize (S2 x). specialize (S3 x). specialize (S4 x). rewrite !cnt_app, ?cnt_nil in *. lia. }
      cbn [bind]. apply cldestroys_ok; [exact W4|]. intros x. specialize (H x). specialize (S1 x). specialize (S2 x). specialize (S3 x). specialize (S4 x). rewrite !cnt_app, ?cnt_nil in *. lia.
    - exists h4. split; [reflexivity|]. split; [exact W4|]. lia. }
  destruct Q as (h5 & -> & S5). cbn [bind]. assert (W5 := swaps_wf _ _ _ _ S5). destruct S5 as [_ S5].
  assert (Q : exists st h', match u_stab o with None => Ok (None, h5) | Some t => let! r := t_clear t h5 in Ok (Some (fst r), snd r) end = Ok (st, h') /\
    match u_stab o with None => st = None | Some _ => exists u, st = Some u /\ t_ents u = [] end /\ swaps (opt tb (u_stab o)) (opt tb st) h5 h').
  { destruct (u_stab o) as [t|]; cbn [opt] in *.
    - destruct (tclear_ok t h5 W5) as (t' & h' & -> & E' & S').
      { intros x. specialize (H x). specialize (S1 x). specialize (S2 x). specialize (S3 x). specialize (S4 x). specialize (S5 x). destruct (u_clusters o) as [[l cs]|]; cbn [opt fst snd] in *; rewrite !cnt_app, ?cnt_nil in *; lia. }
      cbn [bind fst snd]. eexists _, _. split; [reflexivity|]. split; [exists t'; split; [reflexivity|exact E']|exact S'].
    - eexists _, _. split; [reflexivity|]. split; [reflexivity|]. split; [exact W5|]. intros x. cbn [opt]. lia. }
  destruct Q as (st & h6 & -> & Est & S6). cbn [bind fst snd].
  eexists _, _. split; [reflexivity|]. cbn [u_labels u_scores u_mst u_hier u_clusters u_stab u_dist u_core]. do 5 (split; [reflexivity|]). split; [exact Est|]. do 2 (split; [reflexivity|]).
  split; [apply S6|]. destruct S6 as [_ S6]. intros x. specialize (S1 x). specialize (S2 x). specialize (S3 x). specialize (S4 x). specialize (S5 x). specialize (S6 x).
  unfold object_blocks. cbn [u_labels u_scores u_mst u_hier u_clusters u_stab u_dist u_core opt]. clear H.
  destruct (u_clusters o) as [[l cs]|]; cbn [opt option_map fst snd map concat] in *; rewrite ?cnt_app, ?cnt_nil in *; lia.
Qed.
Lemma clean_ok o h : wf h -> has (object_blocks o) h -> exists h', led_clean o h = Ok (no_object, h') /\ swaps (object_blocks o) [] h h'.
Proof.
  intros HW H. unfold led_clean.
  destruct (when_ok one free1 (u_dist o) h (fun x => free_ok x h) HW) as (h1 & -> & S1). { intros x. specialize (H x). unfold object_blocks in H. rewrite !cnt_app in H. lia. }
  cbn [bind]. assert (W1 := swaps_wf _ _ _ _ S1). destruct S1 as [_ S1].
  destruct (when_ok one free1 (u_core o) h1 (fun x => free_ok x h1) W1) as (h2 & -> & S2). { intros x. specialize (H x). specialize (S1 x). unfold object_blocks in H. rewrite !cnt_app, ?cnt_nil in *. lia. }
  cbn [bind]. assert (W2 := swaps_wf _ _ _ _ S2). destruct S2 as [_ S2].
  set (o2 := mk_dobj (u_labels o) (u_scores o) (u_mst o) (u_hier o) (u_clusters o) (u_stab o) None None).
  assert (Eo : forall x, cnt (object_blocks o) x = cnt (object_blocks o2) x + cnt (opt one (u_dist o)) x + cnt (opt one (u_core o)) x).
  { intros x. unfold object_blocks, o2. cbn [u_labels u_scores u_mst u_hier u_clusters u_stab u_dist u_core opt]. rewrite !cnt_app, ?cnt_nil. lia. }
  destruct (minimal_ok o2 h2 W2) as (o3 & h3 & E3 & N1 & N2 & N3 & N4 & Ec & Est & Ed & Ek & S3).
  { intros x. specialize (H x). specialize (S1 x). specialize (S2 x). specialize (Eo x). rewrite ?cnt_nil in *. lia. }
  assert (E3' : led_minimal_clean o h2 = Ok (mk_dobj (u_labels o3) (u_scores o3) (u_mst o3) (u_hier o3) (u_clusters o3) (u_stab o3) (u_dist o) (u_core o), h3)).
  { clear - E3. unfold led_minimal_clean in *. cbn [o2 u_labels u_scores u_mst u_hier u_clusters u_stab u_dist u_core] in E3.
    destruct (when (u_labels o) free1 h2) as [?| | |]; cbn [bind] in *; try discriminate. destruct (when (u_scores o) free1 _) as [?| | |]; cbn [bind] in *; try discriminate.
    destruct (when (u_mst o) _ _) as [?| | |]; cbn [bind] in *; try discriminate. destruct (when (u_hier o) _ _) as [?| | |]; cbn [bind] in *; try discriminate.
    destruct (when (u_clusters o) _ _) as [?| | |]; cbn [bind] in *; try discriminate. destruct (match u_stab o with Some _ => _ | None => _ end) as [[? ?]| | |]; cbn [bind fst snd] in *; try discriminate.
    injection E3 as <- <-. reflexivity. }
  rewrite E3'. cbn [bind fst snd u_clusters u_stab]. clear E3 E3'. assert (W3 := swaps_wf _ _ _ _ S3). destruct S3 as [_ S3].
  cbn [o2 u_clusters u_stab] in Ec, Est.
  assert (B3 : forall x, cnt (object_blocks o3) x = cnt (opt lb (option_map fst (u_clusters o3))) x + cnt (opt tb (u_stab o3)) x).
  { intros x. unfold object_blocks. rewrite N1, N2, N3, N4, Ed, Ek. cbn [opt o2 u_dist u_core app]. rewrite Ec. destruct (u_clusters o) as [[l cs]|]; cbn [option_map opt fst snd map concat]; rewrite ?cnt_app, ?cnt_nil; lia. }
  assert (Q : exists h', when (u_clusters o3) (fun c h => l_delete (fst c) h) h3 = Ok h' /\ swaps (opt lb (option_map fst (u_clusters o3))) [] h3 h').
  { destruct (u_clusters o3) as [[l cs]|]; cbn [when option_map opt fst].
    - apply ldelete_ok; [exact W3|]. intros x. specialize (S3 x). specialize (B3 x). specialize (Eo x). specialize (S1 x). specialize (S2 x). specialize (H x). cbn [opt option_map fst] in B3. rewrite ?cnt_nil in *. lia.
    - exists h3. split; [reflexivity|]. split; [exact W3|]. lia. }
  destruct Q as (h4 & -> & S4). cbn [bind]. assert (W4 := swaps_wf _ _ _ _ S4). destruct S4 as [_ S4].
  destruct (when_ok tb t_destroy (u_stab o3) h4 (fun x => tdestroy_ok x h4) W4) as (h5 & -> & S5).
  { intros x. specialize (S3 x). specialize (S4 x). specialize (B3 x). specialize (Eo x). specialize (S1 x). specialize (S2 x). specialize (H x). rewrite ?cnt_nil in *. lia. }
  cbn [bind]. eexists. split; [reflexivity|]. split; [apply S5|]. destruct S5 as [_ S5]. intros x. specialize (S1 x). specialize (S2 x). specialize (S3 x). specialize (S4 x). specialize (S5 x). specialize (B3 x). specialize (Eo x). rewrite ?cnt_nil in *. lia.
Qed.

Lemma rerun_ok z o h h0 p : p = Full \/ p = Empty -> good h0 p (o, h) -> exists o' h', led_rerun z o h = Ok (o', h') /\ good h0 Full (o', h') /\ length (object_blocks o') = held z.
Proof.
  intros Hp (Hs & HW & Hc). cbn [fst snd] in *. unfold led_rerun.
  assert (Hs' : exists c st d k, u_clusters o = Some c /\ u_stab o = Some st /\ u_dist o = Some d /\ u_core o = Some k).
  { destruct Hp; subst p; cbn [shape] in Hs.
    - destruct Hs as (c & st & d & k & E1 & E2 & _ & E3 & E4). exists c, st, d, k. tauto.
    - destruct Hs as (l & st & d & k & -> & _). exists (l, []), st, d, k. repeat split. }
  clear Hs. destruct Hs' as (c & st & d & k & Ec & Est & Ed & Ek).
  destruct (minimal_ok o h HW) as (o1 & h1 & -> & N1 & N2 & N3 & N4 & Ec1 & Est1 & Ed1 & Ek1 & S1). { intros x. rewrite Hc. lia. }
  cbn [bind fst snd]. rewrite Ek1, Ek. cbn [deref1 bind]. rewrite Ec in Ec1. rewrite Est in Est1. destruct Est1 as (st1 & Est1 & En1). cbn [option_map] in Ec1.
  assert (B1 : object_blocks o1 = lb (fst c) ++ tb st1 ++ one d ++ one k).
  { unfold object_blocks. rewrite N1, N2, N3, N4, Ec1, Est1, Ed1, Ek1, Ed, Ek. cbn [opt fst snd map concat app]. rewrite app_nil_r. reflexivity. }
  assert (H1 : has (lb (fst c) ++ tb st1 ++ one d ++ one k) h1). { intros x. rewrite <- B1. destruct S1 as [_ S1]. specialize (S1 x). rewrite Hc in S1. lia. }
  rewrite touch_ok by (intros x; specialize (H1 x); rewrite !cnt_app in H1; lia). cbn [bind].
  destruct (dorun_ok z o1 h1 (fst c) st1 d k) as (o' & h' & a & b & g & t & l' & cs & E & Eo & Lg & Lc & Lt & S2); try congruence.
  { apply S1. } { intros x. specialize (H1 x). rewrite !cnt_app in *. lia. }
  exists o', h'. split; [exact E|]. subst o'. split.
  - split; [cbn [fst shape]; do 4 eexists; split; [reflexivity|]; split; [reflexivity|]; split; [exact En1|split; reflexivity]|]. split; [apply S2|]. cbn [fst snd].
    destruct S1 as [_ S1], S2 as [_ S2]. rewrite B1 in S1. unfold object_blocks at 1. cbn [opt u_labels u_scores u_mst u_hier u_clusters u_stab u_dist u_core fst snd].
    intros x. specialize (S1 x). specialize (S2 x). specialize (Hc x). rewrite ?cnt_app in *. lia.
  - unfold object_blocks. cbn [opt u_labels u_scores u_mst u_hier u_clusters u_stab u_dist u_core fst snd].
    rewrite !app_length, !tb_len, gb_len, (concat_len kb 5) by reflexivity. rewrite Lg, Lc, Lt, En1. unfold held. cbn [length lb one app]. lia.
Qed.

Lemma call_ok h0 p q c s : good h0 p s -> allowed p c = Some q -> exists s', led_call c s = Ok s' /\ good h0 q s' /\
  match c with LRun z | LRerun z => length (object_blocks (fst s')) = held z | _ => True end.
Proof.
  destruct s as [o h]. intros HG HA.
  assert (HH : has (object_blocks o) h) by (intros x; destruct HG as (_ & _ & Hc); cbn [fst snd] in Hc; rewrite Hc; lia).
  assert (HW : wf h) by apply HG.
  destruct c as [z|z| |]; cbn [led_call fst snd].
  - assert (Hs : o = no_object) by (destruct HG as (Hs & _); destruct p; try discriminate; exact Hs). assert (q = Full) by (destruct p; try discriminate; injection HA as <-; reflexivity).
    destruct HG as (_ & _ & Hc). cbn [fst snd] in *. subst o q.
    destruct (run_ok z no_object h HW) as (o' & h' & -> & Hs' & Hl & S). eexists. split; [reflexivity|]. split; [|exact Hl]. split; [exact Hs'|]. split; [apply S|]. cbn [fst snd].
    destruct S as [_ S]. intros x. specialize (S x). specialize (Hc x). cbn in Hc. rewrite ?cnt_nil in *. lia.
  - assert (Hp : (p = Full \/ p = Empty) /\ q = Full) by (destruct p; try discriminate; injection HA as <-; auto). destruct Hp as [Hp ->].
    destruct (rerun_ok z o h h0 p Hp HG) as (o' & h' & -> & HG' & Hl). eexists. split; [reflexivity|]. split; [exact HG'|exact Hl].
  - destruct (minimal_ok o h HW HH) as (o1 & h1 & -> & N1 & N2 & N3 & N4 & Ec1 & Est1 & Ed1 & Ek1 & S1). eexists. split; [reflexivity|]. split; [|exact I].
    destruct HG as (Hs & _ & Hc). cbn [fst snd] in *.
    assert (Sh : shape q o1).
    { assert (Go : forall c st d k, u_clusters o = Some c -> u_stab o = Some st -> u_dist o = Some d -> u_core o = Some k -> shape Empty o1).
      { intros c st d k Ec Est Ed Ek. rewrite Ec in Ec1. rewrite Est in Est1. destruct Est1 as (st1 & Est1 & En1). rewrite Ed in Ed1. rewrite Ek in Ek1. cbn [option_map] in Ec1.
        exists (fst c), st1, d, k. split; [|exact En1]. destruct o1; cbn in *. subst. reflexivity. }
      destruct p; try discriminate; injection HA as <-; cbn [shape] in Hs.
      - subst o. cbn in *. destruct o1; cbn in *. subst. reflexivity.
      - destruct Hs as (c & st & d & k & E1 & E2 & _ & E3 & E4). eapply Go; eassumption.
      - destruct Hs as (l & st & d & k & -> & _). eapply Go; reflexivity. }
    split; [exact Sh|]. split; [apply S1|]. cbn [fst snd]. destruct S1 as [_ S1]. intros x. specialize (S1 x). specialize (Hc x). lia.
  - destruct (clean_ok o h HW HH) as (h1 & -> & S1). eexists. split; [reflexivity|]. split; [|exact I]. destruct HG as (_ & _ & Hc). cbn [fst snd] in *.
    assert (q = Blank) by (destruct p; try discriminate; injection HA as <-; reflexivity). subst q. split; [reflexivity|]. split; [apply S1|]. cbn [fst snd]. destruct S1 as [_ S1]. intros x. specialize (S1 x). specialize (Hc x). cbn. rewrite ?cnt_nil in *. lia.
Qed.
Lemma calls_ok h0 cs : forall p q s, good h0 p s -> allowed_all p cs = Some q -> exists s', led_calls cs s = Ok s' /\ good h0 q s'.
Proof.
  induction cs as [|c cs IH]; intros p q s HG HA; cbn [allowed_all led_calls] in *.
  - injection HA as <-. exists s. split; [reflexivity|exact HG].
  - destruct (allowed p c) as [r|] eqn:Er; [|discriminate]. destruct (call_ok h0 p r c s HG Er) as (s' & -> & HG' & _). cbn [bind]. exact (IH r q s' HG' HA).
Qed.
Lemma allowed_app cs ds : forall p, allowed_all p (cs ++ ds) = match allowed_all p cs with Some q => allowed_all q ds | None => None end.
Proof. induction cs as [|c cs IH]; intros p; cbn [allowed_all app]; [reflexivity|]. destruct (allowed p c); [apply IH|reflexivity]. Qed.
Lemma calls_app cs ds : forall s, led_calls (cs ++ ds) s = let! s := led_calls cs s in led_calls ds s.
Proof. induction cs as [|c cs IH]; intros s; cbn [led_calls app bind]; [reflexivity|]. destruct (led_call c s); cbn [bind]; [apply IH|reflexivity..]. Qed.
Lemma good_blank h0 : wf h0 -> good h0 Fresh (no_object, h0).
Proof. intros H. split; [reflexivity|]. split; [exact H|]. reflexivity. Qed.
Lemma good_perm h0 p s : good h0 p s -> Permutation (hp_live (snd s)) (object_blocks (fst s) ++ hp_live h0).
Proof. intros (_ & _ & Hc). apply cnt_perm. intros x. rewrite cnt_app. apply Hc. Qed.

(** C97 For every history of runs, reruns, emptyings and cleanings of one object, whatever
    the data makes the run do: no call frees a block twice or touches a freed one, and
    afterwards the allocated blocks are those there before the first call and those the
    object refers to, so no working memory is left; after hdbscan_clean there are only the
    former. *)
Theorem C97_working_memory_is_given_back h cs p :
  wf h -> allowed_all Fresh cs = Some p ->
  exists o h', led_calls cs (no_object, h) = Ok (o, h') /\ NoDup (hp_live h') /\
    Permutation (hp_live h') (object_blocks o ++ hp_live h) /\
    (p = Blank -> Permutation (hp_live h') (hp_live h)).
Proof.
  intros HW HA. destruct (calls_ok h cs Fresh p _ (good_blank h HW) HA) as ([o h'] & E & HG). exists o, h'. split; [exact E|]. split; [apply HG|].
  pose proof (good_perm _ _ _ HG) as HP. cbn [fst snd] in HP. split; [exact HP|]. intros ->. destruct HG as (Hs & _). cbn [fst shape] in Hs. subst o. exact HP.
Qed.
(** The memory after a run or a rerun depends on that run only: 22 blocks, two per point, five
    per stored level and five per cluster, however many runs came before. *)
Theorem C97_memory_held h cs c z p :
  wf h -> c = LRun z \/ c = LRerun z -> allowed_all Fresh (cs ++ [c]) = Some p ->
  exists o h', led_calls (cs ++ [c]) (no_object, h) = Ok (o, h') /\
    length (hp_live h') = length (hp_live h) + (22 + 2 * length (z_adj z) + 5 * levels_stored z + 5 * clusters_made z).
Proof.
  intros HW Hc HA. rewrite allowed_app in HA. destruct (allowed_all Fresh cs) as [q|] eqn:Eq; [|discriminate]. cbn [allowed_all] in HA.
  destruct (allowed q c) as [r|] eqn:Er; [|discriminate].
  destruct (calls_ok h cs Fresh q _ (good_blank h HW) Eq) as (s1 & E1 & G1). destruct (call_ok h q r c s1 G1 Er) as ([o h'] & E2 & G2 & Hl).
  exists o, h'. rewrite calls_app, E1. cbn [bind led_calls]. rewrite E2. split; [reflexivity|].
  pose proof (Permutation_length (good_perm _ _ _ G2)) as HP. cbn [fst snd] in HP. rewrite HP, app_length. destruct Hc; subst c; cbn [fst] in Hl; rewrite Hl; unfold held; lia.
Qed.
(** Refuted: "running twice on one object needs no cleaning". The results, distances, clusters
    and stabilities of the first run are lost: after the cleaning, exactly the blocks of the
    first run remain. *)
Theorem C97_run_twice_leaks_refuted h z z' :
  wf h -> exists h', led_calls [LRun z; LRun z'; LClean] (no_object, h) = Ok (no_object, h') /\
    length (hp_live h') = length (hp_live h) + (22 + 2 * length (z_adj z) + 5 * levels_stored z + 5 * clusters_made z).
Proof.
  intros HW. cbn [led_calls led_call fst snd]. destruct (run_ok z no_object h HW) as (o1 & h1 & -> & _ & L1 & S1). cbn [bind fst snd].
  destruct (run_ok z' o1 h1 (swaps_wf _ _ _ _ S1)) as (o2 & h2 & -> & _ & L2 & S2). cbn [bind fst snd]. destruct S1 as [W1 S1].
  destruct (clean_ok o2 h2 (swaps_wf _ _ _ _ S2)) as (h3 & -> & S3). { destruct S2 as [_ S2]. intros x. specialize (S2 x). rewrite ?cnt_nil in *. lia. }
  cbn [bind]. exists h3. split; [reflexivity|]. destruct S2 as [_ S2], S3 as [_ S3].
  assert (P : Permutation (hp_live h3) (object_blocks o1 ++ hp_live h)). { apply cnt_perm. intros x. specialize (S1 x). specialize (S2 x). specialize (S3 x). rewrite ?cnt_app, ?cnt_nil in *. lia. }
  rewrite (Permutation_length P), app_length, L1. unfold held. lia.
Qed.

(** Three points; a first level where one cluster is split in two and its noise goes to the
    virtual child, a skipped round, a level that creates a cluster from the first component
    and is stored. *)
Definition z_example : decisions :=
  mk_dec [[true]; [true; true]; [true]] true true
    [mk_level [true; false] [true] (Some ([mk_labelw [true] [mk_comp [true; true] [true] [true] [] (KSplit 0 true false); mk_comp [false] [true] [] [true] (KNoise 0 [true; false])]
        (Some ([true], [true], (0, false, true)))], Some true));
     mk_level [] [] None;
     mk_level [true] [true] (Some ([mk_labelw [true] [mk_comp [] [] [] [] KOther] None], None))]
    true [true; false] [(2, [true]); (1, [false; true])] [([true], true); ([true; true], false)].
Example C97_example :
  (exists p, allowed_all Fresh [LRun z_example; LRerun z_example; LMinimalClean; LRerun z_example; LClean; LRun z_example] = Some p) /\
  clusters_made z_example = 3 /\ levels_stored z_example = 2 /\
  match led_calls [LRun z_example; LRerun z_example] (no_object, empty_heap) with Ok (_, h) => length (hp_live h) = 53 | _ => False end /\
  match led_calls [LRun z_example; LRerun z_example; LMinimalClean; LClean] (no_object, empty_heap) with Ok (_, h) => hp_live h = [] | _ => False end.
Proof. split; [eexists; reflexivity|]. split; [vm_compute; reflexivity|]. split; [vm_compute; reflexivity|]. split; vm_compute; reflexivity. Qed.
Example C97_leak_example : match led_calls [LRun z_example; LRun z_example; LClean] (no_object, empty_heap) with Ok (_, h) => length (hp_live h) = 53 | _ => False end.
Proof. vm_compute. reflexivity. Qed.

Print Assumptions C97_working_memory_is_given_back.
Print Assumptions C97_memory_held.
Print Assumptions C97_run_twice_leaks_refuted.
