(** C85: the dictionaries of the Python binding. *)
From Coq Require Import Permutation Sorted Reals.
From Verif Require Import Base F64 ListFacts ModelArrayList ModelHash ModelPrimes ModelUtils ModelDistance ModelMst ModelGraph ModelCluster ModelHier ModelSelect ModelRun ModelMap ModelPython ModelPyDict
  SpecSeq SpecGraph SpecHier SpecTree ProofArrayList PropPrimes PropCollections ProofMap PropClusterMap PropUtils ProofDistance ProofCore PropDistance ProofMst PropMst PropGraph ProofHier ProofHierEnd PropHier ProofTreeSel PropSelect PropProminent PropOutlier ProofRun PropRun PropSize PropPython.
From Verif Require ModelPrint PropPrintMore.
From Coq Require Import ZifyBool ZifyNat.
Local Open Scope nat_scope.

(** ** Specification *)

(** The dictionary has a key for every label that occurs among the points b, ..., e-1, and
    under it the increasing array of these points. *)
Definition grouped (labels : list Z) (b e : nat) (d : dict) : Prop :=
  forall c, match dict_get d c with
    | Some l => l <> [] /\ StronglySorted Z.lt l /\ forall z, In z l <-> exists i, z = Z.of_nat i /\ b <= i < e /\ nth_error labels i = Some c
    | None => forall i, b <= i < e -> nth_error labels i <> Some c
    end.
(** A reference to a dictionary that is alive, or NULL. *)
Definition alive (p : option nat) (m : dmembers) : Prop :=
  match p with None => True | Some id => exists n d, nth_error (m_dicts m) id = Some (Some (S n, d)) end.
Definition refs (p : option nat) (m : dmembers) : nat :=
  match p with None => 0 | Some id => match nth_error (m_dicts m) id with Some (Some (n, _)) => n | _ => 0 end end.
(** A label as the int with the same bits: the same number below 2^31. *)
Definition as_int (c : nat) : Z := if (Z.of_nat c mod M32 <? 2147483648)%Z then (Z.of_nat c mod M32)%Z else (Z.of_nat c mod M32 - M32)%Z.

(** ** Dictionaries *)
Lemma dict_get_set d k v c : dict_get (dict_set d k v) c = if (c =? k)%Z then Some v else dict_get d c.
Proof.
  unfold dict_set. cbn [dict_get]. destruct (Z.eqb_spec c k) as [->|Hne]; [reflexivity|].
  induction d as [|[j w] d IH]; cbn [filter dict_get]; [reflexivity|]. cbn [fst]. destruct (Z.eqb_spec j k) as [->|Hj]; cbn [negb].
  - rewrite IH. destruct (Z.eqb_spec c k); [contradiction|reflexivity].
  - cbn [dict_get]. rewrite IH. reflexivity.
Qed.
Lemma i32_same z : (0 <= z < 2147483648)%Z -> i32_of_u32 z = z.
Proof. intros H. unfold i32_of_u32. destruct (Z.ltb_spec z 2147483648); lia. Qed.

Lemma array_of_ok al l : rep al l -> (forall z, In z l -> (0 <= z < 2147483648)%Z) -> array_of al = Ok l.
Proof.
  intros HR Hz. unfold array_of. destruct HR as (HS & _ & _ & _ & HX). rewrite HS.
  destruct (for_up_inv (fun i xs => xs = firstn i l) (fun j xs => let! x := slot (al_data al) j in Ok (xs ++ [i32_of_u32 x])) 0 (length l) []) as (xs & E & HF).
  - reflexivity.
  - intros i xs Hi ->. assert (Hn : exists z, nth_error l i = Some z) by (destruct (nth_error l i) eqn:En; [eauto|apply nth_error_None in En; lia]). destruct Hn as (z & Hn).
    unfold slot at 1. rewrite (HX i z Hn). cbn [bind]. eexists. split; [reflexivity|]. rewrite i32_same by (apply Hz; eapply nth_error_In; eauto).
    clear -Hn. revert i Hn. induction l as [|x l IH]; intros i Hn; [destruct i; discriminate|]. destruct i as [|i]; cbn [nth_error firstn app] in *; [congruence|]. f_equal. apply IH. exact Hn.
  - rewrite E. f_equal. rewrite HF. cbn [Nat.add]. apply firstn_all.
Qed.

Lemma fill_map_ok labels first n t m : lists_ok labels first n t m -> (forall i c, first <= i < first + n -> nth_error labels i = Some c -> (0 <= c < 2147483648)%Z) -> (Z.of_nat (first + n) <= 2147483648)%Z ->
  exists d, fill_map t = Ok d /\ forall c, dict_get d c = match indices labels first n c with [] => None | _ => Some (map Z.of_nat (indices labels first n c)) end.
Proof.
  intros (HG & Hm & Hk) HL HB. unfold fill_map. destruct (pt_size_ok t m HG) as [S1 S2]. destruct (pt_keys t m HG) as (ls & K1 & K2 & K3 & K4).
  rewrite S2, Nat2Z.id. assert (HLn : length ls = length m) by lia. rewrite <- HLn.
  assert (Hls : forall c, In c ls <-> indices labels first n c <> []).
  { intros c. rewrite <- Hk. split; apply Permutation_in; [exact K2|apply Permutation_sym; exact K2]. }
  assert (Hin : forall c, In c ls -> (0 <= c < 2147483648)%Z).
  { intros c Hc. apply Hls in Hc. destruct (indices labels first n c) as [|i r] eqn:Ei; [contradiction|]. assert (Hx : In i (indices labels first n c)) by (rewrite Ei; left; reflexivity). apply indices_in in Hx. apply (HL i); apply Hx. }
  assert (HV : forall c, In c ls -> exists al, pt_deref t c = Ok al /\ rep al (map Z.of_nat (indices labels first n c))).
  { intros c Hc. pose proof (Hin c Hc) as Hr. apply (Permutation_in _ K2) in Hc. apply in_map_iff in Hc. destruct Hc as ([c' a] & Ec & Hc). cbn [fst] in Ec. subst c'.
    rewrite (pt_deref_ok t m c HG) by (unfold label_ok, M32; lia). rewrite (proj2 (pfind_in m c a (pg_nd _ _ HG)) Hc). destruct (Hm c a Hc) as (al & Ha & Hrep). exists al. unfold aget. rewrite Ha. split; [reflexivity|exact Hrep]. }
  match goal with |- context[for_up 0 _ ?f _] => destruct (for_up_inv (fun i d => forall c, dict_get d c = if in_dec Z.eq_dec c (firstn i ls) then Some (map Z.of_nat (indices labels first n c)) else None) f 0 (length ls) []) as (d & E & HF) end.
  - intros c. reflexivity.
  - intros i d Hi HD. assert (Hn : exists c, nth_error ls i = Some c) by (destruct (nth_error ls i) eqn:En; [eauto|apply nth_error_None in En; lia]). destruct Hn as (c & Hn). rewrite (K4 i c Hn). cbn [bind].
    pose proof (nth_error_In _ _ Hn) as Hc. destruct (HV c Hc) as (al & -> & Hrep). cbn [bind]. rewrite (array_of_ok al _ Hrep).
    2: { intros z Hz. apply in_map_iff in Hz. destruct Hz as (j & <- & Hj). apply indices_in in Hj. lia. }
    cbn [bind]. eexists. split; [reflexivity|]. intros k. rewrite dict_get_set, HD. rewrite i32_same by (apply Hin; exact Hc).
    assert (Hsnoc : firstn (S i) ls = firstn i ls ++ [c]).
    { clear -Hn. revert i Hn. induction ls as [|x l IH]; intros i Hn; [destruct i; discriminate|]. destruct i as [|i]; cbn [nth_error firstn app] in *; [congruence|]. f_equal. apply IH. exact Hn. }
    rewrite Hsnoc. destruct (Z.eqb_spec k c) as [->|Hne].
    + destruct (in_dec Z.eq_dec c (firstn i ls ++ [c])) as [|Hx]; [reflexivity|]. exfalso. apply Hx, in_or_app. right. left. reflexivity.
    + destruct (in_dec Z.eq_dec k (firstn i ls)) as [Hx|Hx], (in_dec Z.eq_dec k (firstn i ls ++ [c])) as [Hy|Hy]; try reflexivity; exfalso; [apply Hy, in_or_app; auto|].
      apply in_app_or in Hy. destruct Hy as [Hy|[Hy|[]]]; [contradiction|congruence].
  - exists d. split; [exact E|]. intros c. rewrite HF. cbn [Nat.add]. rewrite firstn_all. pose proof (Hls c) as Hc. destruct (in_dec Z.eq_dec c ls) as [Hx|Hx].
    + apply Hc in Hx. destruct (indices labels first n c); [contradiction|reflexivity].
    + destruct (indices labels first n c) eqn:Ei; [reflexivity|]. exfalso. apply Hx, Hc. discriminate.
Qed.

Lemma grouped_ok labels b n d : (forall c, dict_get d c = match indices labels b n c with [] => None | _ => Some (map Z.of_nat (indices labels b n c)) end) -> grouped labels b (b + n) d.
Proof.
  intros H c. rewrite H. assert (HS : StronglySorted Z.lt (map Z.of_nat (indices labels b n c))).
  { unfold indices. clear. revert b. induction n as [|n IH]; intros b; cbn [seq filter]; [constructor|].
    destruct (match nth_error labels b with Some x => (x =? c)%Z | None => false end); [|apply IH]. cbn [map]. constructor; [apply IH|].
    apply Forall_forall. intros x Hx. apply in_map_iff in Hx. destruct Hx as (y & <- & Hx). apply filter_In in Hx. destruct Hx as [Hx _]. apply in_seq in Hx. lia. }
  pose proof (indices_in labels b n c) as HI. destruct (indices labels b n c) as [|x l].
  - intros i Hi Hc. assert (In i []) by (apply HI; split; [lia|exact Hc]). contradiction.
  - split; [discriminate|]. split; [exact HS|]. intros z. rewrite in_map_iff. split.
    + intros (i & <- & Hi). apply HI in Hi. exists i. split; [reflexivity|exact Hi].
    + intros (i & -> & Hi). exists i. split; [reflexivity|]. apply HI. exact Hi.
Qed.

(** ** The labels of an object after a call *)
Definition answers (c : pcall) (i : nat) : Prop :=
  match c with PRun j a _ => j = i /\ usable a | PRerun j m _ => j = i /\ (2 <= m < 2147483648)%Z | _ => False end.
Lemma labels_from_scan fuel q c i p p' : answers c i -> py_call fuel q c p = Ok p' ->
  exists self o r, self_of i p' = Ok self /\ g_scan p' = Used o /\ o_res o = Some r /\ y_rows self <= length (r_labels r) /\
    py_labels i p' = Ok (Some (firstn (y_rows self) (map (fun l => u32 (Z.of_nat l)) (r_labels r)))).
Proof.
  intros HA E.
  assert (G : forall ls self0 o sl, get_labels self0 o ls = Ok sl -> i < length (g_objs p) -> p' = mk_py (Used o) (upd (g_objs p) i (Some (fst sl))) (snd sl) ->
    exists self o r, self_of i p' = Ok self /\ g_scan p' = Used o /\ o_res o = Some r /\ y_rows self <= length (r_labels r) /\
      py_labels i p' = Ok (Some (firstn (y_rows self) (map (fun l => u32 (Z.of_nat l)) (r_labels r))))).
  { intros ls self0 o sl EG Hi ->. unfold get_labels in EG. destruct (o_res o) as [r|] eqn:Er; [|discriminate]. destruct (Nat.leb_spec (y_rows self0) (length (r_labels r))) as [Hle|]; [|discriminate].
    injection EG as <-. cbn [fst snd]. assert (Es : nth_error (upd (g_objs p) i (Some (mk_pyobj (y_min self0) (y_cols self0) (y_rows self0) (Some (length ls))))) i = Some (Some (mk_pyobj (y_min self0) (y_cols self0) (y_rows self0) (Some (length ls))))) by (apply nth_error_upd_eq; exact Hi).
    eexists. exists o, r. unfold self_of at 1. cbn [g_objs g_scan g_lists]. rewrite Es. split; [reflexivity|]. split; [reflexivity|]. split; [exact Er|]. cbn [y_rows]. split; [exact Hle|].
    unfold py_labels, self_of. cbn [g_objs g_lists]. rewrite Es. cbn [bind y_labels]. rewrite nth_error_app2, Nat.sub_diag by lia. cbn [nth_error]. rewrite firstn_map. reflexivity. }
  assert (Hself : forall self, self_of i p = Ok self -> i < length (g_objs p)).
  { intros self H. unfold self_of in H. apply nth_error_Some. destruct (nth_error (g_objs p) i); [discriminate|discriminate H]. }
  destruct c as [|j a s|j m s|]; cbn [answers] in HA; try contradiction; destruct HA as [-> HA]; cbn [py_call] in E.
  - unfold py_run in E. destruct (self_of i p) as [self| | |] eqn:Ei; cbn [bind] in E; try discriminate E. destruct HA as (ds & rows & cols & HT & _). rewrite table_code in HT.
    destruct (datatype_of (n_elements a)) as [ds'|]; [|discriminate HT]. destruct (shape_of (n_dims a)) as [rc| | |]; cbn [bind] in E; try discriminate E.
    destruct (g_scan p) as [|o|o]; [discriminate E| |]; (destruct (hdbscan_run fuel s q ds' (fst rc) (snd rc) true o) as [o'| | |]; cbn [bind] in E; try discriminate E;
      match type of E with (bind ?g _) = _ => destruct g as [sl| | |] eqn:EG; cbn [bind] in E; try discriminate E end; injection E as <-; apply (G _ _ _ _ EG (Hself _ eq_refl) eq_refl)).
  - unfold py_rerun in E. destruct (self_of i p) as [self| | |] eqn:Ei; cbn [bind] in E; try discriminate E.
    destruct (xdecref (y_labels self) (g_lists p)) as [ls| | |]; cbn [bind] in E; try discriminate E. replace (in_i32 m) with true in E by (unfold in_i32; lia). cbn [negb] in E.
    assert (Hu : u32 m = m) by (unfold u32, M32; apply Z.mod_small; lia). rewrite Hu in E. replace (m <? 2)%Z with false in E by lia.
    destruct (g_scan p) as [|o|o]; try discriminate E. destruct (hdbscan_rerun fuel s q m o) as [o'| | |]; cbn [bind] in E; try discriminate E.
    match type of E with (bind ?g _) = _ => destruct g as [sl| | |] eqn:EG; cbn [bind] in E; try discriminate E end. injection E as <-. apply (G _ _ _ _ EG (Hself _ eq_refl) eq_refl).
Qed.

Lemma py_calls_app fuel q cs1 cs2 : forall p, py_calls fuel q (cs1 ++ cs2) p = let! p := py_calls fuel q cs1 p in py_calls fuel q cs2 p.
Proof. induction cs1 as [|c cs1 IH]; intros p; cbn [app py_calls]; [reflexivity|]. destruct (py_call fuel q c p); cbn [bind]; [apply IH|reflexivity..]. Qed.
Lemma pworld_calls_app cs1 cs2 : forall w, pworld_calls (cs1 ++ cs2) w = match pworld_calls cs1 w with Some w => pworld_calls cs2 w | None => None end.
Proof. induction cs1 as [|c cs1 IH]; intros w; cbn [app pworld_calls]; [reflexivity|]. destruct (pworld_call c w); [apply IH|reflexivity]. Qed.
Lemma program_ok fuel q cs w : sorts q -> Forall (fair fuel) cs -> pworld_calls cs pworld0 = Some w -> exists p, py_calls fuel q cs py_start = Ok p /\ py_ok fuel q w p.
Proof.
  intros Hq. assert (G : forall cs w0 p0, Forall (fair fuel) cs -> pworld_calls cs w0 = Some w -> py_ok fuel q w0 p0 -> exists p, py_calls fuel q cs p0 = Ok p /\ py_ok fuel q w p).
  { clear cs. induction cs as [|c cs IH]; intros w0 p0 Hfair Hw HP; cbn [pworld_calls py_calls] in *; [injection Hw as <-; eauto|].
    destruct (pworld_call c w0) as [w1|] eqn:E; [|discriminate]. inversion_clear Hfair as [|? ? Hc Hcs].
    destruct (pworld_step fuel q c w0 w1 p0 Hq Hc E HP) as (p1 & -> & HP1). cbn [bind]. apply (IH w1); assumption. }
  intros Hfair Hw. apply (G cs pworld0 py_start Hfair Hw). split; [exact I|]. split; [intros H; contradiction|]. split; [constructor|]. split; [constructor|intros id []].
Qed.
Lemma clustering_small fuel q m a l ds rows cols : clustering fuel q m a l -> table a = Some (ds, rows, cols) -> 5 <= rows -> (Z.of_nat rows <= 65536)%Z -> holds ds rows cols ->
  2 * rows - 1 <= fuel -> (2 <= m < M32)%Z -> sorts q -> (Z.of_nat (length l) <= 65536)%Z /\ forall c, In c l -> (0 <= c < 2147483648)%Z.
Proof.
  intros (ds' & rows' & cols' & s & o & r & HT & Hs & E & Er & -> & HLn) HT' H1 H2 HL Hf Hm Hq. rewrite HT' in HT. injection HT as <- <- <-.
  destruct (C69_cluster_sizes ds rows cols m fuel s q H1 H2 HL Hm Hf Hs Hq) as (o' & r' & E' & Er' & _ & _ & Hlt & _ & Hb). rewrite E in E'. injection E' as <-. rewrite Er in Er'. injection Er' as <-.
  split; [lia|]. intros c Hc. apply in_map_iff in Hc. destruct Hc as (x & <- & Hx). specialize (Hlt x Hx).
  destruct (Nat.lt_ge_cases (length (r_clusters r)) 3) as [H3|H3]; [lia|]. specialize (Hb H3). clear -Hb Hlt H2 Hm. nia.
Qed.
(** After an answering call: the labels of the object are those of [scan], and small. *)
Lemma after_call fuel q cs c i w : sorts q -> Forall (fair fuel) (cs ++ [c]) -> answers c i -> pworld_calls (cs ++ [c]) pworld0 = Some w ->
  exists p self o r l, py_calls fuel q (cs ++ [c]) py_start = Ok p /\ py_labels i p = Ok (Some l) /\ self_of i p = Ok self /\ g_scan p = Used o /\ o_res o = Some r /\
    l = firstn (y_rows self) (map (fun l => u32 (Z.of_nat l)) (r_labels r)) /\ y_rows self <= length (r_labels r) /\
    (Z.of_nat (length l) <= 65536)%Z /\ forall c, In c l -> (0 <= c < 2147483648)%Z.
Proof.
  intros Hq Hfair HA Hw. destruct (program_ok fuel q _ w Hq Hfair Hw) as (p & E & HP). pose proof E as E0. rewrite py_calls_app in E0.
  destruct (py_calls fuel q cs py_start) as [p0| | |] eqn:Ep; cbn [bind] in E0; try discriminate E0. cbn [py_calls] in E0.
  destruct (py_call fuel q c p0) as [p1| | |] eqn:Ec; cbn [bind] in E0; try discriminate E0. injection E0 as ->.
  destruct (labels_from_scan fuel q c i p0 p HA Ec) as (self & o & r & L1 & L2 & L3 & L4 & L5).
  exists p, self, o, r. eexists. split; [exact E|]. split; [exact L5|]. split; [exact L1|]. split; [exact L2|]. split; [exact L3|]. split; [reflexivity|]. split; [exact L4|].
  rewrite pworld_calls_app in Hw. destruct (pworld_calls cs pworld0) as [w0|] eqn:Ew; [|discriminate]. cbn [pworld_calls] in Hw. destruct (pworld_call c w0) as [w1|] eqn:Ew1; [|discriminate]. injection Hw as ->.
  assert (HE : exists a k n e, u_stage w = Data a /\ nth_error (u_objs w) i = Some (Some e) /\ e_from e = Some (u_min w, a, k) /\ e_refs e = S n).
  { destruct c as [|j a s|j m s|]; cbn [answers] in HA; try contradiction; destruct HA as [-> HA]; cbn [pworld_call] in Ew1.
    - destruct (nth_error (u_objs w0) i) as [[e|]|] eqn:Ei; try discriminate. injection Ew1 as <-. cbn [u_stage u_objs u_min]. exists a, (rows_of a), 1. eexists. split; [reflexivity|].
      split; [apply nth_error_upd_eq; apply nth_error_Some; congruence|]. split; reflexivity.
    - destruct (nth_error (u_objs w0) i) as [[e|]|] eqn:Ei; try discriminate. destruct (release_ok e); [|discriminate]. replace ((0 <=? m)%Z && (m <? 2)%Z) with false in Ew1 by lia.
      replace (in_i32 m) with true in Ew1 by (unfold in_i32; lia). cbn [orb negb] in Ew1. destruct (u_stage w0) as [| |a|]; try discriminate. destruct ((2 <=? m)%Z && (e_rows e <=? rows_of a)); [|discriminate].
      injection Ew1 as <-. cbn [u_stage u_objs u_min]. exists a, (e_rows e), 1. eexists. split; [reflexivity|]. split; [apply nth_error_upd_eq; apply nth_error_Some; congruence|]. split; reflexivity. }
  destruct HE as (a & k & n & e & W1 & W2 & W3 & W4). destruct HP as (HS & _ & HF & _). unfold scan_ok in HS. rewrite W1, L2 in HS. destruct HS as (_ & _ & Hm & ds & rows & cols & HT & H1 & H2 & HL & Hf & _).
  destruct (Forall2_nth _ _ _ _ _ HF W2) as (y & Ey & HO). destruct y as [y|]; [|contradiction]. destruct HO as [_ HO]. rewrite W3 in HO. destruct (y_labels y) as [id|] eqn:El; [|contradiction].
  destruct HO as (l & C & N). rewrite W4 in N. unfold py_labels, self_of in L5. rewrite Ey in L5. cbn [bind] in L5. rewrite El, N in L5. injection L5 as <-.
  destruct (clustering_small fuel q _ a l ds rows cols C HT H1 H2 HL Hf Hm Hq) as [B1 B2]. split; [rewrite firstn_length; lia|].
  intros z Hz. apply B2. rewrite <- (firstn_skipn k l). apply in_or_app. left. exact Hz.
Qed.

Lemma nth_firstn {A} (l : list A) k i : i < k -> nth_error (firstn k l) i = nth_error l i.
Proof. revert k i. induction l as [|x l IH]; intros [|k] i H; try lia; [rewrite firstn_nil; reflexivity|]. destruct i as [|i]; cbn [firstn nth_error]; [reflexivity|]. apply IH. lia. Qed.
Lemma indices_firstn l k b n c : b + n <= k -> indices (firstn k l) b n c = indices l b n c.
Proof. intros H. unfold indices. apply filter_ext_in. intros i Hi. apply in_seq in Hi. rewrite nth_firstn by lia. reflexivity. Qed.
Lemma release_alive p m : alive p m -> exists ds, dict_xdecref p (m_dicts m) = Ok ds /\ length ds = length (m_dicts m) /\ forall id, Some id <> p -> nth_error ds id = nth_error (m_dicts m) id.
Proof.
  destruct p as [id|]; cbn [alive dict_xdecref]; [|intros _; exists (m_dicts m); auto]. intros (n & d & H). rewrite H.
  assert (G : forall x, exists ds, Ok (upd (m_dicts m) id x) = Ok ds /\ length ds = length (m_dicts m) /\ forall j, Some j <> Some id -> nth_error ds j = nth_error (m_dicts m) j).
  { intros x. eexists. split; [reflexivity|]. split; [apply upd_length|]. intros j Hj. apply nth_error_upd_neq. congruence. }
  destruct n; apply G.
Qed.

(** ** C85.  getClusterMap after a run or an accepted rerun: the labels of the object, grouped. *)
Theorem C85_cluster_map : forall fuel qsort cs c i w, sorts qsort -> Forall (fair fuel) (cs ++ [c]) -> answers c i -> pworld_calls (cs ++ [c]) pworld0 = Some w ->
  exists p labels, py_calls fuel qsort (cs ++ [c]) py_start = Ok p /\ py_labels i p = Ok (Some labels) /\
    forall b e m, b <= e <= length labels -> e - b = 0 \/ 3 <= e - b -> alive (m_map m) m ->
    exists m' id d, py_get_cluster_map p (Some (Z.of_nat b, Z.of_nat e)) m = Ok (m', Some id) /\ grouped labels b e d /\
      (* the member and the caller hold the two references to it *)
      m_map m' = Some id /\ read_dict (Some id) m' = Ok (Some d) /\ refs (Some id) m' = 2 /\ id = length (m_dicts m) /\
      (* nothing else changes but the old dictionary *)
      m_hier m' = m_hier m /\ forall j, j < length (m_dicts m) -> Some j <> m_map m -> nth_error (m_dicts m') j = nth_error (m_dicts m) j.
Proof.
  intros fuel q cs c i w Hq Hfair HA Hw. destruct (after_call fuel q cs c i w Hq Hfair HA Hw) as (p & self & o & r & l & E & L1 & _ & L2 & L3 & L4 & L5 & L6 & L7).
  exists p, l. split; [exact E|]. split; [exact L1|]. intros b e m Hbe Hn Ha. unfold py_get_cluster_map. destruct (release_alive _ _ Ha) as (ds & -> & HD & HO). cbn [bind].
  unfold scan_labels. rewrite L2, L3. cbn [bind]. set (L := map (fun l => u32 (Z.of_nat l)) (r_labels r)) in *.
  assert (HLl : length l = y_rows self) by (rewrite L4, firstn_length; unfold L; rewrite map_length; lia).
  assert (HLL : length l <= length L) by (unfold L; rewrite map_length; lia).
  unfold u32 at 1 2. rewrite !Z.mod_small by (unfold M32; lia).
  assert (HF : Forall label_ok L). { apply Forall_forall. intros z Hz. unfold L in Hz. apply in_map_iff in Hz. destruct Hz as (x & <- & _). unfold label_ok, u32, M32. apply Z.mod_pos_bound. lia. }
  destruct (create_upto L b e HF ltac:(unfold M32; lia) ltac:(lia) Hn) as (t & mm & -> & HI). cbn [bind].
  destruct (fill_map_ok L b (e - b) t mm HI) as (d & -> & HG); [|lia|].
  { intros j z Hj Hz. apply L7. apply (nth_error_In _ j). rewrite L4, nth_firstn by lia. exact Hz. }
  cbn [bind]. eexists. exists (length ds), d. split; [reflexivity|]. cbn [m_map m_hier m_dicts read_dict refs]. split.
  { replace e with (b + (e - b)) by lia. apply grouped_ok. intros z. rewrite HG, L4. rewrite (indices_firstn L) by lia. reflexivity. }
  rewrite nth_error_app2, Nat.sub_diag by lia. cbn [nth_error]. split; [reflexivity|]. split; [reflexivity|]. split; [reflexivity|]. split; [exact HD|]. split; [reflexivity|].
  intros j Hj Hne. rewrite nth_error_app1 by lia. apply HO. exact Hne.
Qed.
Print Assumptions C85_cluster_map.

(** ** The hierarchy *)
Lemma as_int_ok c : i32_of_u32 (u32 (Z.of_nat c)) = as_int c.
Proof. reflexivity. Qed.
Lemma fill_levels_ok n es : (forall k v, hget es k = Some v -> length (snd v) = n) -> forall ks d, NoDup ks -> (forall k, In k ks -> exists v, hget es k = Some v) ->
  exists d', fill_levels n es ks d = Ok d' /\ forall z, dict_get d' z = if in_dec Z.eq_dec z (map Z.of_nat ks) then option_map (fun v => map as_int (snd v)) (hget es (Z.to_nat z)) else dict_get d z.
Proof.
  intros HN. induction ks as [|k ks IH]; intros d Hd Hk; cbn [fill_levels map]; [exists d; split; reflexivity|].
  inversion_clear Hd as [|? ? Hni Hd']. destruct (Hk k (or_introl eq_refl)) as ([w ls] & Ek). rewrite Ek. pose proof (HN k _ Ek) as HL. cbn [snd] in HL. rewrite HL, Nat.leb_refl.
  destruct (IH (dict_set d (Z.of_nat k) (map (fun c => i32_of_u32 (u32 (Z.of_nat c))) (firstn n ls))) Hd' (fun j Hj => Hk j (or_intror Hj))) as (d' & -> & HG). exists d'. split; [reflexivity|].
  intros z. rewrite HG, dict_get_set. destruct (in_dec Z.eq_dec z (map Z.of_nat ks)) as [Hi|Hi]; [destruct (in_dec Z.eq_dec z (Z.of_nat k :: map Z.of_nat ks)) as [|Hx]; [reflexivity|exfalso; apply Hx; right; exact Hi]|].
  destruct (Z.eqb_spec z (Z.of_nat k)) as [->|Hne].
  - destruct (in_dec Z.eq_dec (Z.of_nat k) (Z.of_nat k :: map Z.of_nat ks)) as [|Hx]; [|exfalso; apply Hx; left; reflexivity]. rewrite Nat2Z.id, Ek. cbn [option_map snd]. rewrite <- HL, firstn_all. f_equal.
  - destruct (in_dec Z.eq_dec z (Z.of_nat k :: map Z.of_nat ks)) as [[Hx|Hx]|Hx]; [congruence|contradiction|reflexivity].
Qed.
Lemma run_levels ds rows cols m fuel s q o : 5 <= rows -> (Z.of_nat rows <= 65536)%Z -> holds ds rows cols -> (2 <= m < M32)%Z -> 2 * rows - 1 <= fuel -> valid s -> sorts q ->
  fresh_run fuel s q m ds rows cols true = Ok o -> exists r levels, o_res o = Some r /\ o_n o = rows /\ NoDup (map fst (r_hier r)) /\ 2 <= length levels /\
    (forall k, hget (r_hier r) k = nth_error levels k) /\ (forall w ls, In (w, ls) levels -> length ls = rows) /\ nth_error levels 0 = Some (fzero, repeat 0 rows).
Proof.
  intros H1 H2 HL Hm Hf Hs Hq E. destruct (run_parts ds rows cols m fuel H1 H2 HL Hm Hf) as (d & P & _ & _ & _ & H). destruct (H s q Hs Hq) as (labels & os & E' & _). clear H. rewrite E in E'. injection E' as ->. clear E.
  destruct P as [e0 adj e h K inf cs tr root A1 A2 A3 A4 A5 A6 A7 A8 A9 A10 A11]. cbn [p_h p_cs] in *.
  destruct (C29_hierarchy_entries rows e0 e adj (Z.to_nat m) false fuel h A4 A5 A6 ltac:(lia) A8) as (L & HL1 & _ & Hdom & Hlen & _ & H0 & _).
  pose proof (PropPrintMore.hier_keys _ _ _ _ _ _ _ A8) as HN. cbn [o_res o_n].
  set (dflt := (fzero, @nil nat)). set (levels := map (fun i => match hget (h_hier h) i with Some v => v | None => dflt end) (seq 0 (S L))).
  assert (HLv : length levels = S L) by (unfold levels; rewrite map_length, seq_length; reflexivity).
  assert (Hnth : forall i, hget (h_hier h) i = nth_error levels i).
  { intros i. unfold levels. rewrite nth_error_map. destruct (Nat.le_gt_cases i L) as [Hi|Hi].
    - rewrite (nth_error_nth' _ 0) by (rewrite seq_length; lia). rewrite seq_nth by lia. cbn [option_map Nat.add]. destruct (proj2 (Hdom i) Hi) as (w & ls & Hx). unfold entry in Hx. rewrite Hx. reflexivity.
    - replace (nth_error (seq 0 (S L)) i) with (@None nat) by (symmetry; apply nth_error_None; rewrite seq_length; lia). cbn [option_map].
      destruct (hget (h_hier h) i) as [[w ls]|] eqn:Ei; [|reflexivity]. assert (i <= L) by (apply Hdom; exists w, ls; exact Ei). lia. }
  eexists. exists levels. split; [reflexivity|]. cbn [r_hier]. split; [reflexivity|]. split; [exact HN|]. split; [lia|]. split; [exact Hnth|]. split.
  - intros w ls Hin. apply In_nth_error in Hin. destruct Hin as (i & Hi). rewrite <- Hnth in Hi. apply (Hlen i w ls Hi).
  - rewrite <- Hnth. exact H0.
Qed.
(** The state of [scan] after an answering call is that of one run of the library. *)
Lemma scan_fresh fuel q cs c i w : sorts q -> Forall (fair fuel) (cs ++ [c]) -> answers c i -> pworld_calls (cs ++ [c]) pworld0 = Some w ->
  exists p o a ds rows cols s, py_calls fuel q (cs ++ [c]) py_start = Ok p /\ g_scan p = Used o /\ u_stage w = Data a /\ table a = Some (ds, rows, cols) /\
    5 <= rows /\ (Z.of_nat rows <= 65536)%Z /\ holds ds rows cols /\ 2 * rows - 1 <= fuel /\ valid s /\ (2 <= u_min w < M32)%Z /\ fresh_run fuel s q (u_min w) ds rows cols true = Ok o.
Proof.
  intros Hq Hfair HA Hw. destruct (program_ok fuel q _ w Hq Hfair Hw) as (p & E & _). apply Forall_app in Hfair. destruct Hfair as [Hf1 Hf2]. inversion_clear Hf2 as [|? ? Hfc _].
  rewrite pworld_calls_app in Hw. destruct (pworld_calls cs pworld0) as [w0|] eqn:Ew; [|discriminate]. cbn [pworld_calls] in Hw. destruct (pworld_call c w0) as [w1|] eqn:Ew1; [|discriminate]. injection Hw as ->.
  destruct (program_ok fuel q cs w0 Hq Hf1 Ew) as (p0 & E0 & HP). rewrite py_calls_app, E0 in E. rewrite py_calls_app, E0. cbn [bind py_calls] in E |- *.
  destruct (py_call fuel q c p0) as [p1| | |] eqn:Ec; cbn [bind] in E; try discriminate E. injection E as ->. cbn [bind]. destruct HP as (HS & HN & HF & _).
  destruct c as [|j a s|j m s|]; cbn [answers] in HA; try contradiction; destruct HA as [-> HA]; cbn [pworld_call fair] in Ew1, Hfc.
  - destruct (nth_error (u_objs w0) i) as [[e|]|] eqn:Ei; try discriminate. injection Ew1 as <-. cbn [u_stage u_min]. destruct Hfc as (_ & Hs & Hf). destruct HA as (ds & rows & cols & HT & H1 & H2 & HL).
    assert (Hr : rows_of a = rows) by (unfold rows_of; rewrite HT; reflexivity). rewrite Hr in Hf.
    cbn [py_call] in Ec. unfold py_run in Ec. destruct (self_of i p0) as [self| | |]; cbn [bind] in Ec; try discriminate Ec.
    pose proof HT as HT'. rewrite table_code in HT'. destruct (datatype_of (n_elements a)) as [ds'|]; [|discriminate HT'].
    assert (HSh : shape_of (n_dims a) = Ok (rows, cols) /\ ds' = ds) by (destruct (n_dims a) as [|r [|c [|? ?]]]; try discriminate HT'; injection HT' as <- <- <-; auto). destruct HSh as [HSh ->]. rewrite HSh in Ec. cbn [bind fst snd] in Ec.
    assert (HO : forall o, g_scan p0 = Raw o \/ g_scan p0 = Used o -> o_min o = u_min w0 /\ o_self o = true /\ (2 <= u_min w0 < M32)%Z).
    { intros o Ho. unfold scan_ok in HS. destruct (u_stage w0), (g_scan p0) as [|o1|o1]; try contradiction; destruct Ho as [Ho|Ho]; try discriminate Ho; injection Ho as <-; tauto. }
    destruct (g_scan p0) as [|o0|o0]; [discriminate Ec| |];
      (destruct (HO o0) as (O1 & O2 & O3); [auto|]; rewrite (run_from fuel s q ds rows cols true o0 (u_min w0) O1 O2) in Ec by lia; destruct (fresh_run fuel s q (u_min w0) ds rows cols true) as [o| | |] eqn:EF; cbn [bind] in Ec; try discriminate Ec;
       match type of Ec with (bind ?g _) = _ => destruct g as [sl| | |]; cbn [bind] in Ec; try discriminate Ec end; injection Ec as <-; cbn [g_scan];
       eexists; exists o, a, ds, rows, cols, s; split; [reflexivity|]; cbn [g_scan]; auto 15).
  - destruct (nth_error (u_objs w0) i) as [[e|]|] eqn:Ei; try discriminate. destruct (release_ok e); [|discriminate]. replace ((0 <=? m)%Z && (m <? 2)%Z) with false in Ew1 by lia.
    assert (Hi : in_i32 m = true) by (unfold in_i32; lia). rewrite Hi in Ew1. cbn [orb negb] in Ew1. unfold scan_ok in HS. destruct (u_stage w0) as [| |a|]; try discriminate. destruct ((2 <=? m)%Z && (e_rows e <=? rows_of a)); [|discriminate].
    injection Ew1 as <-. cbn [u_stage u_min]. destruct (g_scan p0) as [|o0|o0] eqn:Eg; try contradiction. destruct HS as (_ & _ & _ & ds & rows & cols & HT & H1 & H2 & HL & Hf & HR).
    cbn [py_call] in Ec. unfold py_rerun in Ec. destruct (self_of i p0) as [self| | |]; cbn [bind] in Ec; try discriminate Ec. destruct (xdecref (y_labels self) (g_lists p0)) as [ls| | |]; cbn [bind] in Ec; try discriminate Ec.
    rewrite Hi in Ec. cbn [negb] in Ec. assert (Hu : u32 m = m) by (unfold u32, M32; apply Z.mod_small; lia). rewrite Hu in Ec. replace (m <? 2)%Z with false in Ec by lia. rewrite Eg in Ec.
    assert (Hm : (2 <= m < M32)%Z) by (unfold M32; lia). rewrite (rerun_fresh fuel s q m ds rows cols true o0 HR Hm) in Ec. destruct (fresh_run fuel s q m ds rows cols true) as [o| | |] eqn:EF; cbn [bind] in Ec; try discriminate Ec.
    match type of Ec with (bind ?g _) = _ => destruct g as [sl| | |]; cbn [bind] in Ec; try discriminate Ec end. injection Ec as <-. eexists. exists o, a, ds, rows, cols, s. split; [reflexivity|]. cbn [g_scan]. auto 15.
Qed.

(** C85.  getHierarchies puts the labels of every level into the member, under its number. *)
Theorem C85_hierarchies : forall fuel qsort cs c i w, sorts qsort -> Forall (fair fuel) (cs ++ [c]) -> answers c i -> pworld_calls (cs ++ [c]) pworld0 = Some w ->
  exists p a ds rows cols s o r levels, py_calls fuel qsort (cs ++ [c]) py_start = Ok p /\
    (* the hierarchy of one run of the library on the current data *)
    u_stage w = Data a /\ table a = Some (ds, rows, cols) /\ valid s /\ fresh_run fuel s qsort (u_min w) ds rows cols true = Ok o /\ o_res o = Some r /\
    (forall k, hget (r_hier r) k = nth_error levels k) /\ 2 <= length levels /\
    forall m, alive (m_hier m) m ->
    exists m' id d, py_get_hierarchies p m = Ok (m', 1%Z) /\ m_hier m' = Some id /\ read_dict (Some id) m' = Ok (Some d) /\
      (forall k, dict_get d k = if (0 <=? k)%Z then option_map (fun v => map as_int (snd v)) (nth_error levels (Z.to_nat k)) else None) /\
      (forall k l, dict_get d k = Some l -> length l = rows) /\
      m_map m' = m_map m /\ forall j, j < length (m_dicts m) -> Some j <> m_hier m -> nth_error (m_dicts m') j = nth_error (m_dicts m) j.
Proof.
  intros fuel q cs c i w Hq Hfair HA Hw. destruct (scan_fresh fuel q cs c i w Hq Hfair HA Hw) as (p & o & a & ds & rows & cols & s & E & G & W & HT & H1 & H2 & HL & Hf & Hs & Hm & EF).
  destruct (run_levels ds rows cols _ fuel s q o H1 H2 HL Hm Hf Hs Hq EF) as (r & levels & Er & En & HN & H2l & Hh & Hlen & _).
  exists p, a, ds, rows, cols, s, o, r, levels. split; [exact E|]. split; [exact W|]. split; [exact HT|]. split; [exact Hs|]. split; [exact EF|]. split; [exact Er|]. split; [exact Hh|]. split; [exact H2l|].
  intros m Ha. unfold py_get_hierarchies. destruct (release_alive _ _ Ha) as (dd & -> & HD & HO). cbn [bind]. rewrite G, Er, En.
  assert (HLs : forall k v, hget (r_hier r) k = Some v -> length (snd v) = rows) by (intros k [w1 ls] Hk; rewrite Hh in Hk; apply (Hlen w1 ls (nth_error_In _ _ Hk))).
  destruct (PropPrintMore.key_order_spec (r_hier r)) as [K1 _].
  destruct (fill_levels_ok rows (r_hier r) HLs (ModelPrint.key_order (r_hier r)) []) as (d & -> & HG).
  { apply (Permutation_NoDup K1 HN). }
  { intros k Hk. apply PropPrintMore.hget_in. apply (Permutation_in _ (Permutation_sym K1) Hk). }
  cbn [bind]. assert (HG' : forall k, dict_get d k = if (0 <=? k)%Z then option_map (fun v => map as_int (snd v)) (nth_error levels (Z.to_nat k)) else None).
  { intros k. rewrite HG, Hh. cbn [dict_get]. destruct (in_dec Z.eq_dec k (map Z.of_nat (ModelPrint.key_order (r_hier r)))) as [Hi|Hi].
    - apply in_map_iff in Hi. destruct Hi as (j & <- & _). destruct (Z.leb_spec 0 (Z.of_nat j)); [reflexivity|lia].
    - destruct (Z.leb_spec 0 k) as [Hk|]; [|reflexivity]. destruct (nth_error levels (Z.to_nat k)) as [v|] eqn:El; [|reflexivity]. exfalso. apply Hi. rewrite <- Hh in El. apply in_map_iff. exists (Z.to_nat k). split; [lia|].
      apply (Permutation_in _ K1). apply PropPrintMore.hget_in. eauto. }
  eexists. exists (length dd), d. split; [reflexivity|]. cbn [m_hier m_map m_dicts read_dict]. split; [reflexivity|]. rewrite nth_error_app2, Nat.sub_diag by lia. cbn [nth_error]. split; [reflexivity|]. split; [exact HG'|]. split.
  { intros k l Hk. rewrite HG' in Hk. destruct (0 <=? k)%Z; [|discriminate]. destruct (nth_error levels (Z.to_nat k)) as [[w1 ls]|] eqn:El; [|discriminate]. cbn [option_map snd] in Hk. injection Hk as <-. rewrite map_length. apply (Hlen w1 ls (nth_error_In _ _ El)). }
  split; [reflexivity|]. intros j Hj Hne. rewrite nth_error_app1 by lia. apply HO. exact Hne.
Qed.
Print Assumptions C85_hierarchies.

(** ** What goes wrong *)

(** A range of one or two points ends the interpreter. *)
Theorem C85_short_range_refuted : forall fuel qsort cs c i w, sorts qsort -> Forall (fair fuel) (cs ++ [c]) -> answers c i -> pworld_calls (cs ++ [c]) pworld0 = Some w ->
  exists p labels, py_calls fuel qsort (cs ++ [c]) py_start = Ok p /\ py_labels i p = Ok (Some labels) /\
    forall b e m, b <= e <= length labels -> e - b = 1 \/ e - b = 2 -> alive (m_map m) m -> py_get_cluster_map p (Some (Z.of_nat b, Z.of_nat e)) m = Abort.
Proof.
  intros fuel q cs c i w Hq Hfair HA Hw. destruct (after_call fuel q cs c i w Hq Hfair HA Hw) as (p & self & o & r & l & E & L1 & _ & L2 & L3 & L4 & L5 & L6 & L7).
  destruct (scan_fresh fuel q cs c i w Hq Hfair HA Hw) as (p' & o' & a & ds & rows & cols & s & E' & G & W & HT & H1 & H2 & HL & Hf & Hs & Hm & EF). rewrite E in E'. injection E' as <-. rewrite L2 in G. injection G as <-.
  exists p, l. split; [exact E|]. split; [exact L1|]. intros b e m Hbe Hn Ha. unfold py_get_cluster_map. destruct (release_alive _ _ Ha) as (dd & -> & _). cbn [bind].
  unfold scan_labels. rewrite L2, L3. cbn [bind].
  assert (HLr : length (r_labels r) = rows).
  { destruct (run_parts ds rows cols _ fuel H1 H2 HL Hm Hf) as (d & P & _ & _ & _ & H). destruct (H s q Hs Hq) as (ll & os & E' & HLl & _). rewrite EF in E'. injection E' as E'. rewrite E' in L3. cbn [o_res] in L3. injection L3 as <-. exact HLl. }
  set (L := map (fun l => u32 (Z.of_nat l)) (r_labels r)) in *. assert (HLL : length l <= length L) by (rewrite L4, firstn_length; lia). assert (HLr' : length L = rows) by (unfold L; rewrite map_length; exact HLr).
  unfold u32 at 1 2. rewrite !Z.mod_small by (unfold M32; lia).
  rewrite (C42_short_ranges_abort L b e); [reflexivity| |unfold M32; lia|lia|exact Hn].
  apply Forall_forall. intros z Hz. unfold L in Hz. apply in_map_iff in Hz. destruct Hz as (x & <- & _). unfold label_ok, u32, M32. apply Z.mod_pos_bound. lia.
Qed.
Print Assumptions C85_short_range_refuted.

Lemma for_up_ub {S} (body : nat -> S -> res S) (P : nat -> S -> Prop) b k n s : P b s -> (forall i s, b <= i < b + k -> P i s -> exists s', body i s = Ok s' /\ P (Datatypes.S i) s') ->
  (forall s, body (b + k) s = UB) -> for_up b (k + Datatypes.S n) body s = UB.
Proof.
  revert b s. induction k as [|k IH]; intros b s HP Hstep HU; cbn [Nat.add for_up].
  - specialize (HU s). rewrite Nat.add_0_r in HU. rewrite HU. reflexivity.
  - destruct (Hstep b s ltac:(lia) HP) as (s' & -> & HP'). cbn [bind]. apply IH; [exact HP'| |].
    + intros i s0 Hi. apply Hstep. lia.
    + intros s0. replace (Datatypes.S b + k) with (b + Datatypes.S k) by lia. apply HU.
Qed.
(** A range that goes past the last point is not noticed: memory outside the array is read. *)
Theorem C85_long_range_refuted : forall p labels b e m, scan_labels (g_scan p) = Ok labels -> Forall label_ok labels -> b <= length labels < e -> 3 <= e - b -> (Z.of_nat e < 2147483648)%Z -> alive (m_map m) m ->
  py_get_cluster_map p (Some (Z.of_nat b, Z.of_nat e)) m = UB.
Proof.
  intros p L b e m HL HF Hbe Hn He Ha. unfold py_get_cluster_map. destruct (release_alive _ _ Ha) as (dd & -> & _). cbn [bind]. rewrite HL. cbn [bind].
  unfold u32. rewrite !Z.mod_small by (unfold M32; lia). unfold create_cluster_map.
  assert (Hs : u32 (Z.of_nat e - Z.of_nat b) = Z.of_nat (e - b)) by (unfold u32; rewrite Z.mod_small by (unfold M32; lia); lia). rewrite Hs.
  destruct (C11_at_least_one_bucket (Z.of_nat (e - b) / 4)) as (bk & -> & _). cbn [bind]. destruct (pt_init_ok (V := alist Z) (Z.to_nat bk)) as (tab & -> & G0). cbn [bind]. rewrite Nat2Z.id.
  replace (Z.to_nat (Z.of_nat e - Z.of_nat b)) with ((length L - b) + S (e - length L - 1)) by lia.
  rewrite (for_up_ub _ (fun i t => exists m, lists_ok L b (i - b) t m)); [reflexivity| | |].
  - exists []. rewrite Nat.sub_diag. split; [exact G0|]. split; [intros c a []|]. intros c. cbn. split; [tauto|]. intros H. apply H. reflexivity.
  - intros i t Hi (mm & HI). destruct (map_step_ok L (Z.of_nat (e - b)) b (i - b) t mm HF ltac:(lia) ltac:(lia) HI) as (t' & m' & E & H).
    replace (b + (i - b)) with i in E by lia. exists t'. split; [exact E|]. exists m'. replace (S i - b) with (S (i - b)) by lia. exact H.
  - intros t. unfold map_step. replace (b + (length L - b)) with (length L) by lia. unfold aget. rewrite (proj2 (nth_error_None L (length L)) (Nat.le_refl _)). reflexivity.
Qed.
Print Assumptions C85_long_range_refuted.

(** A call with wrong arguments releases the member and keeps the pointer: once the program has
    dropped what it got, reading clusterMap or calling the method again is undefined. *)
Theorem C85_rejected_call_refuted : forall p id d m, m_map m = Some id -> nth_error (m_dicts m) id = Some (Some (2, d)) ->
  exists m1 m2, drop (Some id) m = Ok m1 /\ py_get_cluster_map p None m1 = Ok (m2, None) /\ read_dict (m_map m2) m2 = UB /\ forall args, py_get_cluster_map p args m2 = UB.
Proof.
  intros p id d m Hm Hd. assert (Hlt : id < length (m_dicts m)) by (apply nth_error_Some; congruence). unfold drop. cbn [dict_xdecref]. rewrite Hd. cbn [bind]. eexists. eexists. split; [reflexivity|].
  unfold py_get_cluster_map at 1. cbn [m_map m_dicts]. rewrite Hm. cbn [dict_xdecref]. rewrite nth_error_upd_eq by exact Hlt. cbn [bind m_map m_hier m_dicts]. split; [reflexivity|].
  assert (Hn : nth_error (upd (upd (m_dicts m) id (Some (1, d))) id None) id = Some None) by (apply nth_error_upd_eq; rewrite upd_length; exact Hlt).
  split; [cbn [read_dict m_map m_dicts]; rewrite Hn; reflexivity|]. intros args. unfold py_get_cluster_map. cbn [m_map m_dicts dict_xdecref]. rewrite Hn. reflexivity.
Qed.
Print Assumptions C85_rejected_call_refuted.

(** Every dictionary of getHierarchies is leaked: the next call leaves it with a reference that
    nothing holds (the program was never given one). *)
Theorem C85_hierarchies_leak_refuted : forall p m m1 m2 x y, py_get_hierarchies p m = Ok (m1, x) -> py_get_hierarchies p m1 = Ok (m2, y) ->
  exists id d, m_hier m1 = Some id /\ nth_error (m_dicts m1) id = Some (Some (2, d)) /\
    nth_error (m_dicts m2) id = Some (Some (1, d)) /\ m_hier m2 <> Some id /\ m_map m2 = m_map m.
Proof.
  assert (G : forall p m m1 x, py_get_hierarchies p m = Ok (m1, x) -> exists dd d, dict_xdecref (m_hier m) (m_dicts m) = Ok dd /\ m1 = mk_dm (m_map m) (Some (length dd)) (dd ++ [Some (2, d)])).
  { intros p m m1 x E. unfold py_get_hierarchies in E. destruct (dict_xdecref (m_hier m) (m_dicts m)) as [dd| | |]; cbn [bind] in E; try discriminate E. exists dd.
    destruct (g_scan p) as [|o|o]; try discriminate E; (destruct (o_res o); [|discriminate E]; match type of E with (bind ?g _) = _ => destruct g as [d| | |]; cbn [bind] in E; try discriminate E end; injection E as <- _; exists d; auto). }
  intros p m m1 m2 x y E1 E2. destruct (G _ _ _ _ E1) as (dd & d & _ & ->). exists (length dd), d. cbn [m_hier m_dicts m_map]. split; [reflexivity|].
  assert (Hd : nth_error (dd ++ [Some (2, d)]) (length dd) = Some (Some (2, d))) by (rewrite nth_error_app2, Nat.sub_diag by lia; reflexivity). split; [exact Hd|].
  destruct (G _ _ _ _ E2) as (d2 & d' & E & ->). cbn [m_hier m_dicts m_map] in *. cbn [dict_xdecref] in E. rewrite Hd in E. injection E as <-.
  assert (Hlt : length dd < length (dd ++ [Some (2, d)])) by (rewrite app_length; cbn; lia).
  rewrite nth_error_app1 by (rewrite upd_length; exact Hlt). split; [apply nth_error_upd_eq; exact Hlt|]. split; [|reflexivity]. rewrite upd_length. intros X. injection X as X. lia.
Qed.
Print Assumptions C85_hierarchies_leak_refuted.

(** Before the first run getHierarchies ends the interpreter. *)
Theorem C85_before_run_refuted : forall minPoints p p' m, (2 <= minPoints < M32)%Z -> py_new minPoints p = Ok p' -> alive (m_hier m) m -> py_get_hierarchies p' m = Abort.
Proof.
  intros mp p p' m Hm E Ha. unfold py_new in E. assert (Hu : u32 mp = mp) by (unfold u32; apply Z.mod_small; lia). rewrite Hu in E. replace (mp <? 2)%Z with false in E by lia.
  unfold hdbscan_init in E. replace (1 <? mp)%Z with true in E by lia. cbn [bind] in E. injection E as <-. unfold py_get_hierarchies. destruct (release_alive _ _ Ha) as (dd & -> & _). reflexivity.
Qed.
Print Assumptions C85_before_run_refuted.

(** ** Examples *)
Definition no_dicts : dmembers := mk_dm None None [].
Definition ex_calls : list pcall := [PNew 2; PRun 0 six_array in_turn].
(** The program meets the hypotheses of the theorems. *)
Example C85_hypotheses : Forall (fair 11) ([PNew 2] ++ [PRun 0 six_array in_turn]) /\ answers (PRun 0 six_array in_turn) 0 /\
  exists w, pworld_calls ([PNew 2] ++ [PRun 0 six_array in_turn]) pworld0 = Some w.
Proof.
  split; [apply Forall_cons; [exact I|]; apply Forall_cons; [|apply Forall_nil]; split; [exact six_usable|split; [apply schedules_valid|cbn; lia]]|]. split; [split; [reflexivity|exact six_usable]|]. eexists. reflexivity.
Qed.
Example C85_example : match py_calls 11 insertion_sort ex_calls py_start with
  | Ok p => match py_labels 0 p, py_get_cluster_map p (Some (1, 6)%Z) no_dicts, py_get_hierarchies p no_dicts with
    | Ok (Some l), Ok (m1, Some 0), Ok (m2, 1%Z) =>
        l = [2; 2; 2; 3; 3; 3]%Z /\ read_dict (Some 0) m1 = Ok (Some [(3, [3; 4; 5]); (2, [1; 2])]%Z) /\
        read_dict (m_hier m2) m2 = Ok (Some [(4, [2; 2; 0; 0; 0; 0]); (3, [2; 2; 2; 3; 3; 0]); (2, [2; 2; 2; 3; 3; 3]); (1, [1; 1; 1; 1; 1; 1]); (0, [0; 0; 0; 0; 0; 0])]%Z)
    | _, _, _ => False end
  | _ => False end.
Proof. vm_compute. auto. Qed.
(** The errors, on the same object. *)
Example C85_errors : match py_calls 11 insertion_sort ex_calls py_start with
  | Ok p => py_get_cluster_map p (Some (0, 2)%Z) no_dicts = Abort /\ py_get_cluster_map p (Some (3, 7)%Z) no_dicts = UB /\
      match py_get_cluster_map p (Some (0, 6)%Z) no_dicts with
      | Ok (m1, id) => match drop id m1 with
          | Ok m2 => match py_get_cluster_map p None m2 with Ok (m3, None) => read_dict (m_map m3) m3 = UB | _ => False end
          | _ => False end
      | _ => False end
  | _ => False end.
Proof. vm_compute. auto. Qed.
