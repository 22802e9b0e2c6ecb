(** C70, C71: the Java binding. *)
From Coq Require Import Permutation Sorted Reals Relations.
From Verif Require Import Base F64 F64Facts F64Arith ListFacts ModelUtils ModelDistance ModelMst ModelGraph ModelCluster ModelHier ModelSelect ModelRun ModelJava SpecGraph SpecHier SpecTree
  PropUtils ProofDistance ProofCore PropDistance ProofMst PropMst PropGraph ProofHier ProofHierEnd PropHier ProofTreeSel PropSelect PropProminent PropOutlier ProofRun PropRun PropSize.
From Coq Require Import ZifyBool ZifyNat.
Local Open Scope nat_scope.

(** ** Specification *)

(** The number of columns is that of the first row; the other rows have at least as many. *)
Definition width (rows : list (list f64)) : nat := length (hd [] rows).
Definition acceptable (rows : list (list f64)) : bool :=
  (5 <=? length rows) && (Z.of_nat (length rows) <=? 65536)%Z && (Z.of_nat (length rows) * Z.of_nat (width rows) <=? 2147483647)%Z
  && forallb (fun r => width rows <=? length r) rows.
(** The numbers that are clustered. *)
Definition used (rows : list (list f64)) : list f64 := concat (map (firstn (width rows)) rows).

(** The labels that one run of the library gives to these rows. *)
Definition clustering (fuel : nat) (qsort : list outlier -> list outlier) (minPts : Z) (rows : list (list f64)) (labels : list Z) : Prop :=
  exists s o r, valid s /\ fresh_run fuel s qsort minPts (DDouble (used rows)) (length rows) (width rows) true = Ok o /\ o_res o = Some r /\
    labels = map Z.of_nat (r_labels r).

(** What the labels of the objects come from, if all objects share one minPoints (set by the
    last constructor or reRun) and one dataset (set by the last run, forgotten by a
    constructor). *)
Record world := mk_world { w_min : Z; w_data : option (list (list f64)); w_from : list (option (Z * list (list f64))) }.
Definition world_call (c : jcall) (w : world) : option world :=
  match c with
  | JNew m => if (2 <=? m)%Z && (m <? 2147483648)%Z then Some (mk_world m None (w_from w ++ [None])) else None
  | JRun i rows _ => if acceptable rows && (i <? length (w_from w)) then Some (mk_world (w_min w) (Some rows) (upd (w_from w) i (Some (w_min w, rows)))) else None
  | JRerun i m _ => match w_data w with
      | Some rows => if (2 <=? m)%Z && (m <? 2147483648)%Z && (i <? length (w_from w)) then Some (mk_world m (Some rows) (upd (w_from w) i (Some (m, rows)))) else None
      | None => None
      end
  end.
Fixpoint world_calls (cs : list jcall) (w : world) : option world :=
  match cs with [] => Some w | c :: cs' => match world_call c w with Some w => world_calls cs' w | None => None end end.
Definition world0 : world := mk_world 3 None [].

(** What a user of the class expects: each object has its own minPoints and its own data. *)
Record own := mk_own { own_min : Z; own_data : option (list (list f64)); own_from : option (Z * list (list f64)) }.
Definition own_call (c : jcall) (l : list own) : option (list own) :=
  match c with
  | JNew m => if (2 <=? m)%Z && (m <? 2147483648)%Z then Some (l ++ [mk_own m None None]) else None
  | JRun i rows _ => match nth_error l i with
      | Some o => if acceptable rows then Some (upd l i (mk_own (own_min o) (Some rows) (Some (own_min o, rows)))) else None
      | None => None end
  | JRerun i m _ => match nth_error l i with
      | Some (mk_own _ (Some rows) _) => if (2 <=? m)%Z && (m <? 2147483648)%Z then Some (upd l i (mk_own m (Some rows) (Some (m, rows)))) else None
      | _ => None end
  end.
Fixpoint own_calls (cs : list jcall) (l : list own) : option (list own) :=
  match cs with [] => Some l | c :: cs' => match own_call c l with Some l => own_calls cs' l | None => None end end.

(** Only the object created last is used; [k] objects exist. *)
Fixpoint latest_only (k : nat) (cs : list jcall) : bool :=
  match cs with
  | [] => true
  | JNew _ :: cs' => latest_only (S k) cs'
  | JRun i _ _ :: cs' | JRerun i _ _ :: cs' => (S i =? k) && latest_only k cs'
  end.

(** The schedules of the runs are valid and the fuel suffices. *)
Definition fair (fuel : nat) (c : jcall) : Prop :=
  match c with JNew _ => True | JRun _ rows s => valid s /\ 2 * length rows - 1 <= fuel | JRerun _ _ s => valid s end.

(** The labels field of an object, and what it should hold. *)
Definition holds_labels (fuel : nat) (qsort : list outlier -> list outlier) (from : option (Z * list (list f64))) (labels : option (list Z)) : Prop :=
  match from, labels with
  | None, None => True
  | Some (m, rows), Some l => clustering fuel qsort m rows l
  | _, _ => False
  end.

(** ** Proofs *)
Lemma copy_row_ok : forall cols row, cols <= length row -> copy_row cols row = Ok (firstn cols row).
Proof.
  induction cols as [|c IH]; intros row H; [reflexivity|]. destruct row as [|x row]; [cbn in H; lia|]. cbn [copy_row firstn length] in *. rewrite IH by lia. reflexivity.
Qed.
Lemma copy_rows_ok cols : forall rows, forallb (fun r => cols <=? length r) rows = true -> copy_rows cols rows = Ok (concat (map (firstn cols) rows)).
Proof.
  induction rows as [|r rows IH]; intros H; [reflexivity|]. cbn [forallb] in H. apply andb_true_iff in H. destruct H as [H1 H2]. apply Nat.leb_le in H1.
  cbn [copy_rows map concat]. rewrite (copy_row_ok _ _ H1). cbn [bind]. rewrite (IH H2). reflexivity.
Qed.
Lemma flatten_ok rows : acceptable rows = true -> flatten rows = Ok (width rows, used rows) /\ length (used rows) = length rows * width rows.
Proof.
  intros H. unfold acceptable in H. apply andb_true_iff in H. destruct H as [H H4]. apply andb_true_iff in H. destruct H as [H H3]. apply andb_true_iff in H. destruct H as [H1 H2].
  split.
  - destruct rows as [|r rows]; [discriminate H1|]. unfold flatten. unfold width in *. cbn [hd] in *.
    assert (E : in_i32 (Z.of_nat (length (r :: rows)) * Z.of_nat (length r)) = true).
    { unfold in_i32. apply andb_true_iff. split; [|exact H3]. apply Z.leb_le. pose proof (Zle_0_nat (length (r :: rows))). pose proof (Zle_0_nat (length r)). nia. }
    rewrite E. rewrite (copy_rows_ok _ _ H4). reflexivity.
  - unfold used. generalize dependent (width rows). intros c _ H4. clear H1 H2. induction rows as [|r rows IH]; [reflexivity|]. cbn [forallb map concat length] in *.
    apply andb_true_iff in H4. destruct H4 as [A B]. apply Nat.leb_le in A. rewrite app_length, firstn_length, IH by exact B. lia.
Qed.

Lemma run_from fuel s q ds rows cols rowwise o m : o_min o = m -> o_self o = true -> (1 < m)%Z ->
  hdbscan_run fuel s q ds rows cols rowwise o = fresh_run fuel s q m ds rows cols rowwise.
Proof.
  intros Hm Hs H1. unfold fresh_run, hdbscan_init. replace (1 <? m)%Z with true by lia. cbn [bind]. unfold hdbscan_run. cbn [o_min o_self]. rewrite Hm.
  destruct (distance_compute ds rows cols (u32 (m - 1))) as [d| | |]; cbn [bind]; try reflexivity. destruct (cluster_capacity _ =? 0); [reflexivity|].
  unfold do_run. cbn [o_dist o_clusters o_n o_self o_min]. rewrite Hs. reflexivity.
Qed.

Lemma run_labels fuel s q m rows : acceptable rows = true -> (2 <= m < M32)%Z -> 2 * length rows - 1 <= fuel -> valid s -> sorts q ->
  exists o l, fresh_run fuel s q m (DDouble (used rows)) (length rows) (width rows) true = Ok o /\ get_labels_array o (length rows) = Ok l /\ clustering fuel q m rows l /\
    o_min o = m /\ o_self o = true /\ o_n o = length rows.
Proof.
  intros HA Hm Hf Hs Hq. destruct (flatten_ok rows HA) as [_ HLu].
  unfold acceptable in HA. apply andb_true_iff in HA. destruct HA as [HA _]. apply andb_true_iff in HA. destruct HA as [HA _]. apply andb_true_iff in HA. destruct HA as [H1 H2].
  apply Nat.leb_le in H1. apply Z.leb_le in H2.
  pose proof (holds_double (used rows) (length rows) (width rows) HLu) as HL.
  destruct (C69_cluster_sizes (DDouble (used rows)) (length rows) (width rows) m fuel s q H1 H2 HL Hm Hf Hs Hq) as (o & r & E & Er & _ & _ & Hlt & _ & Hb).
  destruct (run_parts (DDouble (used rows)) (length rows) (width rows) m fuel H1 H2 HL Hm Hf) as (d & P & _ & _ & _ & H). destruct (H s q Hs Hq) as (labels & os & E' & HLl & _). clear H.
  assert (Ho : o_min o = m /\ o_self o = true /\ o_n o = length rows /\ length (r_labels r) = length rows).
  { rewrite E in E'. injection E' as E'. rewrite E' in Er |- *. cbn [o_res o_min o_self o_n] in *. injection Er as <-. auto. }
  clear E' HLl labels os P d. destruct Ho as (O1 & O2 & O3 & HLl).
  assert (Hsmall : forall c, In c (r_labels r) -> (Z.of_nat c < 2147483648)%Z).
  { intros c Hc. specialize (Hlt c Hc). destruct (Nat.lt_ge_cases (length (r_clusters r)) 3) as [H3|H3]; [lia|]. specialize (Hb H3). clear -Hb Hlt H2 Hm. nia. }
  exists o, (map Z.of_nat (r_labels r)). split; [exact E|]. split.
  - unfold get_labels_array. rewrite Er. replace (length rows <=? length (r_labels r)) with true by (symmetry; apply Nat.leb_le; lia).
    rewrite <- HLl, firstn_all. f_equal. apply map_ext_in. intros c Hc. specialize (Hsmall c Hc). unfold i32_of_u32, u32. rewrite Z.mod_small by (unfold M32; lia).
    replace (Z.of_nat c <? 2147483648)%Z with true by lia. reflexivity.
  - split; [exists s, o, r; auto|auto].
Qed.

(** The state of the library after some calls. *)
Definition scan_ok (fuel : nat) (q : list outlier -> list outlier) (w : world) (o : hdb) : Prop :=
  o_min o = w_min w /\ o_self o = true /\ (2 <= w_min w < M32)%Z /\
  match w_data w with
  | None => True
  | Some rows => acceptable rows = true /\ 2 * length rows - 1 <= fuel /\ ran (DDouble (used rows)) (length rows) (width rows) true o /\ o_n o = length rows
  end.

Lemma Forall2_upd {A B} (R : A -> B -> Prop) l l' i a b : Forall2 R l l' -> R a b -> Forall2 R (upd l i a) (upd l' i b).
Proof.
  intros H HR. revert i. induction H as [|x y l l' Hxy H IH]; intros i; [constructor|]. destruct i; cbn [upd]; constructor; auto.
Qed.

Lemma world_step fuel q c w w' v : sorts q -> fair fuel c -> world_call c w = Some w' ->
  scan_ok fuel q w (j_scan v) -> Forall2 (holds_labels fuel q) (w_from w) (j_labels v) ->
  exists v', java_call fuel q c v = Ok v' /\ scan_ok fuel q w' (j_scan v') /\ Forall2 (holds_labels fuel q) (w_from w') (j_labels v').
Proof.
  assert (HM : (M32 = 4294967296)%Z) by reflexivity.
  intros Hq Hfair Hw (S1 & S2 & S3 & S4) HF. destruct c as [m|i rows s|i m s]; cbn [world_call fair java_call] in *.
  - destruct ((2 <=? m)%Z && (m <? 2147483648)%Z) eqn:E; [|discriminate]. injection Hw as <-. apply andb_true_iff in E. destruct E as [E1 E2]. apply Z.leb_le in E1. apply Z.ltb_lt in E2.
    unfold java_new, hdbscan_init_again, u32. rewrite Z.mod_small by lia. replace (1 <? m)%Z with true by lia. cbn [bind]. eexists. split; [reflexivity|]. cbn [j_scan j_labels w_from].
    split; [split; [reflexivity|]; split; [reflexivity|]; split; [cbn [w_min]; lia|exact I]|]. apply Forall2_app; [exact HF|]. constructor; [exact I|constructor].
  - destruct Hfair as [Hs Hf]. destruct (acceptable rows && (i <? length (w_from w))) eqn:E; [|discriminate]. injection Hw as <-. apply andb_true_iff in E. destruct E as [HA Hi].
    destruct (run_labels fuel s q (w_min w) rows HA S3 Hf Hs Hq) as (o & l & E1 & E2 & E3 & O1 & O2 & O3).
    unfold java_run. destruct (flatten_ok rows HA) as [-> _]. cbn [bind]. rewrite (run_from _ _ _ _ _ _ _ _ (w_min w) S1 S2 ltac:(lia)), E1. cbn [bind]. rewrite E2. cbn [bind].
    eexists. split; [reflexivity|]. cbn [j_scan j_labels w_from]. split.
    + split; [exact O1|]. split; [exact O2|]. split; [exact S3|]. cbn [w_data]. split; [exact HA|]. split; [exact Hf|]. split; [|exact O3]. apply (run_ran _ _ _ _ _ _ _ _ _ E1).
    + apply Forall2_upd; [exact HF|]. exact E3.
  - destruct (w_data w) as [rows|] eqn:Ed; [|discriminate]. destruct ((2 <=? m)%Z && (m <? 2147483648)%Z && (i <? length (w_from w))) eqn:E; [|discriminate]. injection Hw as <-.
    apply andb_true_iff in E. destruct E as [E Hi]. apply andb_true_iff in E. destruct E as [E1 E2]. apply Z.leb_le in E1. apply Z.ltb_lt in E2.
    destruct S4 as (HA & Hf & HR & Hn). destruct (run_labels fuel s q m rows HA ltac:(lia) Hf Hfair Hq) as (o & l & R1 & R2 & R3 & O1 & O2 & O3).
    unfold java_rerun, u32. rewrite Z.mod_small by lia. assert (Hm : (2 <= m < M32)%Z) by lia. rewrite (rerun_fresh _ _ _ _ _ _ _ _ _ HR Hm), R1. cbn [bind]. rewrite O3, R2. cbn [bind].
    eexists. split; [reflexivity|]. cbn [j_scan j_labels w_from]. split.
    + split; [exact O1|]. split; [exact O2|]. split; [cbn [w_min]; lia|]. cbn [w_data]. split; [exact HA|]. split; [exact Hf|]. split; [|exact O3]. apply (run_ran _ _ _ _ _ _ _ _ _ R1).
    + apply Forall2_upd; [exact HF|]. exact R3.
Qed.

(** ** C70.  Every program: the labels of each object, in terms of the shared state. *)
Theorem C70_java_programs : forall fuel qsort cs w, sorts qsort -> Forall (fair fuel) cs -> world_calls cs world0 = Some w ->
  exists v0 v, jvm_start = Ok v0 /\ java_calls fuel qsort cs v0 = Ok v /\ Forall2 (holds_labels fuel qsort) (w_from w) (j_labels v).
Proof.
  intros fuel q cs w Hq Hfair Hw. exists (mk_jvm (mk_hdb 3 0 true None None None) []). assert (E0 : jvm_start = Ok (mk_jvm (mk_hdb 3 0 true None None None) [])) by reflexivity.
  assert (G : forall cs w0 v0, Forall (fair fuel) cs -> world_calls cs w0 = Some w -> scan_ok fuel q w0 (j_scan v0) -> Forall2 (holds_labels fuel q) (w_from w0) (j_labels v0) ->
    exists v, java_calls fuel q cs v0 = Ok v /\ Forall2 (holds_labels fuel q) (w_from w) (j_labels v)).
  { clear cs Hfair Hw E0. induction cs as [|c cs IH]; intros w0 v0 Hfair Hw HS HF; cbn [world_calls java_calls] in *; [injection Hw as <-; eauto|].
    destruct (world_call c w0) as [w1|] eqn:E; [|discriminate]. inversion_clear Hfair as [|? ? Hc Hcs].
    destruct (world_step fuel q c w0 w1 v0 Hq Hc E HS HF) as (v1 & E1 & HS1 & HF1). rewrite E1. cbn [bind]. apply (IH w1 v1); assumption. }
  destruct (G cs world0 (mk_jvm (mk_hdb 3 0 true None None None) []) Hfair Hw) as (v & E & HF); [|constructor|].
  { split; [reflexivity|]. split; [reflexivity|]. split; [unfold M32; cbn; lia|exact I]. }
  exists v. split; [exact E0|]. split; [exact E|exact HF].
Qed.
Print Assumptions C70_java_programs.

(** Programs that use only the object created last: each object behaves as if it had its own
    state. *)
Theorem C70_latest_object : forall fuel qsort cs l, sorts qsort -> Forall (fair fuel) cs -> own_calls cs [] = Some l -> latest_only 0 cs = true ->
  exists v0 v, jvm_start = Ok v0 /\ java_calls fuel qsort cs v0 = Ok v /\ Forall2 (fun o labels => holds_labels fuel qsort (own_from o) labels) l (j_labels v).
Proof.
  intros fuel q cs l Hq Hfair Hl Hlat.
  assert (G : forall cs l0 w0, own_calls cs l0 = Some l -> latest_only (length l0) cs = true -> map own_from l0 = w_from w0 ->
    (l0 <> [] -> exists l1 o, l0 = l1 ++ [o] /\ own_min o = w_min w0 /\ own_data o = w_data w0) -> exists w, world_calls cs w0 = Some w /\ map own_from l = w_from w).
  { clear cs Hfair Hl Hlat. induction cs as [|c cs IH]; intros l0 w0 Hl Hlat HF Hlast; cbn [own_calls world_calls] in *; [injection Hl as <-; eauto|].
    destruct (own_call c l0) as [l1|] eqn:E; [|discriminate]. destruct c as [m|i rows s|i m s]; cbn [own_call world_call latest_only] in *.
    - destruct ((2 <=? m)%Z && (m <? 2147483648)%Z); [|discriminate]. injection E as <-. apply (IH _ _ Hl).
      + rewrite app_length. cbn [length]. rewrite Nat.add_comm. exact Hlat.
      + cbn [w_from]. rewrite map_app, HF. reflexivity.
      + intros _. exists l0, (mk_own m None None). auto.
    - apply andb_true_iff in Hlat. destruct Hlat as [Hi Hlat]. apply Nat.eqb_eq in Hi.
      destruct Hlast as (la & o & -> & M & D); [intros ->; discriminate|]. rewrite app_length in Hi. cbn [length] in Hi. assert (i = length la) by lia. subst i.
      rewrite nth_error_app2, Nat.sub_diag in E by lia. cbn [nth_error] in E. destruct (acceptable rows); [|discriminate]. injection E as <-.
      assert (Hu : forall A (la : list A) o x, upd (la ++ [o]) (length la) x = la ++ [x]) by (clear; induction la as [|a la IH]; intros; cbn [app length upd]; [reflexivity|rewrite IH; reflexivity]).
      rewrite Hu in Hl. assert (Hlen : length la <? length (w_from w0) = true) by (apply Nat.ltb_lt; rewrite <- HF, map_length, app_length; cbn; lia). rewrite Hlen. cbn [andb].
      apply (IH _ _ Hl).
      + rewrite app_length in *. exact Hlat.
      + cbn [w_from]. rewrite <- HF, !map_app. cbn [map own_from]. rewrite <- (map_length own_from la), Hu, M. reflexivity.
      + intros _. eexists _, _. split; [reflexivity|]. cbn [own_min own_data w_min w_data]. auto.
    - apply andb_true_iff in Hlat. destruct Hlat as [Hi Hlat]. apply Nat.eqb_eq in Hi.
      destruct Hlast as (la & o & -> & M & D); [intros ->; discriminate|]. rewrite app_length in Hi. cbn [length] in Hi. assert (i = length la) by lia. subst i.
      rewrite nth_error_app2, Nat.sub_diag in E by lia. cbn [nth_error] in E. destruct o as [m0 data from]. cbn [own_min own_data] in M, D. destruct data as [rows|]; [|discriminate]. rewrite <- D.
      destruct ((2 <=? m)%Z && (m <? 2147483648)%Z); [|discriminate]. injection E as <-.
      assert (Hu : forall A (la : list A) o x, upd (la ++ [o]) (length la) x = la ++ [x]) by (clear; induction la as [|a la IH]; intros; cbn [app length upd]; [reflexivity|rewrite IH; reflexivity]).
      rewrite Hu in Hl. assert (Hlen : length la <? length (w_from w0) = true) by (apply Nat.ltb_lt; rewrite <- HF, map_length, app_length; cbn; lia). rewrite Hlen. cbn [andb].
      apply (IH _ _ Hl).
      + rewrite app_length in *. exact Hlat.
      + cbn [w_from]. rewrite <- HF, !map_app. cbn [map own_from]. rewrite <- (map_length own_from la), Hu. reflexivity.
      + intros _. eexists _, _. split; [reflexivity|]. cbn [own_min own_data w_min w_data]. auto. }
  destruct (G cs [] world0 Hl Hlat eq_refl) as (w & Ew & Efrom); [intros H; contradiction|].
  destruct (C70_java_programs fuel q cs w Hq Hfair Ew) as (v0 & v & E0 & E & HF). exists v0, v. split; [exact E0|]. split; [exact E|].
  rewrite <- Efrom in HF. clear -HF. remember (j_labels v) as labs. clear Heqlabs. revert labs HF. induction l as [|o l IH]; intros labs HF; inversion HF; subst; constructor; auto.
Qed.
Print Assumptions C70_latest_object.

(** A row shorter than the first one is read past its end; no rows at all. *)
Theorem C70_short_row_refuted : forall fuel s qsort i rows v, (rows = [] \/ exists r, In r rows /\ length r < width rows) -> java_run fuel s qsort i rows v = UB.
Proof.
  intros fuel s q i rows v H. assert (E : flatten rows = UB); [|unfold java_run; rewrite E; reflexivity].
  destruct H as [-> |(r & Hr & Hlt)]; [reflexivity|]. unfold flatten. destruct rows as [|r0 rows]; [reflexivity|]. unfold width in Hlt. cbn [hd] in Hlt.
  destruct (in_i32 _); [|reflexivity]. assert (Hrow : forall c r, length r < c -> copy_row c r = UB).
  { clear. induction c as [|c IH]; intros r H; [lia|]. destruct r as [|x r]; [reflexivity|]. cbn [copy_row length] in *. rewrite IH by lia. reflexivity. }
  assert (HE : copy_rows (length r0) (r0 :: rows) = UB); [|rewrite HE; reflexivity].
  generalize dependent (length r0). intros c Hlt. clear -Hr Hlt Hrow. revert Hr. generalize (r0 :: rows) as l. clear r0 rows. intros l.
  assert (Hc : forall r, copy_row c r = UB \/ exists a, copy_row c r = Ok a).
  { intros x. destruct (Nat.le_gt_cases c (length x)); [right; eexists; apply copy_row_ok; assumption|left; apply Hrow; assumption]. }
  induction l as [|x l IH]; intros Hr; [destruct Hr|]. cbn [copy_rows]. destruct (Hc x) as [-> |(a & Ea)]; [reflexivity|]. rewrite Ea. cbn [bind].
  destruct Hr as [->|Hr]; [rewrite (Hrow c r Hlt) in Ea; discriminate|]. rewrite (IH Hr). reflexivity.
Qed.
Print Assumptions C70_short_row_refuted.

(** Two objects, used in turn.  The first was made with minPoints 2, but its run uses the 5 of
    the second (all points are noise); after the second has run other data, a reRun of the
    first clusters those. *)
Definition six_rows : list (list f64) := map (fun z => [f_of_Z z]) [0; 1; 3; 10; 12; 15]%Z.
Definition five_rows : list (list f64) := map (fun z => [f_of_Z z]) [0; 1; 3; 10; 12]%Z.
Definition two_objects : list jcall := [JNew 2; JNew 5; JRun 0 six_rows in_turn].
Definition two_datasets : list jcall := [JNew 2; JNew 2; JRun 0 six_rows in_turn; JRun 1 five_rows in_turn; JRerun 0 2 in_turn].
Definition java_labels (cs : list jcall) : res (list (option (list Z))) :=
  let! v := jvm_start in let! v := java_calls 11 insertion_sort cs v in Ok (j_labels v).

Lemma java_labels_eq cs v0 v : jvm_start = Ok v0 -> java_calls 11 insertion_sort cs v0 = Ok v -> java_labels cs = Ok (j_labels v).
Proof. intros E0 E. unfold java_labels. rewrite E0. cbn [bind]. rewrite E. reflexivity. Qed.
Lemma six_flat : length (used six_rows) = 6 * 1 /\ length six_rows = 6 /\ width six_rows = 1.
Proof. repeat split. Qed.
Lemma six_summary : summary (fresh_run 11 in_turn insertion_sort 2 (DDouble (used six_rows)) 6 1 true) = Ok ([2; 2; 2; 3; 3; 3], [0; 1; 3; 4; 5; 2]%Z, [3; 2]).
Proof. vm_compute. reflexivity. Qed.
Lemma six_labels l : clustering 11 insertion_sort 2 six_rows l -> l <> repeat 0%Z 6.
Proof.
  intros (s & o & r & Hs & Eo & Er & ->). destruct six_flat as (F1 & F2 & F3). rewrite F2, F3 in Eo. pose proof six_summary as Es. revert F1 Eo Es. generalize (used six_rows) as data. intros data F1 Eo Es.
  pose proof (holds_double data 6 1 F1) as Hh.
  pose proof (C56_results_do_not_depend_on_schedule (DDouble data) 6 1 2 11 11 s in_turn insertion_sort insertion_sort ltac:(lia) ltac:(lia) Hh ltac:(unfold M32; lia) ltac:(lia) ltac:(lia) Hs (proj1 schedules_valid) insertion_sort_sorts insertion_sort_sorts) as Ec.
  rewrite <- Ec, Eo in Es. unfold summary in Es. cbn [bind] in Es. rewrite Er in Es. destruct (cget (r_clusters r) 1); try discriminate Es. cbn [bind] in Es. injection Es as Es _ _.
  rewrite Es. discriminate.
Qed.

Theorem C70_objects_share_state_refuted :
  exists cs l, Forall (fair 11) cs /\ own_calls cs [] = Some l /\
    forall v0 v, jvm_start = Ok v0 -> java_calls 11 insertion_sort cs v0 = Ok v -> ~ Forall2 (fun o labels => holds_labels 11 insertion_sort (own_from o) labels) l (j_labels v).
Proof.
  exists two_objects, [mk_own 2 (Some six_rows) (Some (2%Z, six_rows)); mk_own 5 None None]. split; [|split].
  - constructor; [exact I|]. constructor; [exact I|]. constructor; [|constructor]. split; [apply schedules_valid|cbn; lia].
  - reflexivity.
  - intros v0 v E0 E HF. assert (EL : java_labels two_objects = Ok [Some (repeat 0%Z 6); None]) by (vm_compute; reflexivity).
    rewrite (java_labels_eq _ _ _ E0 E) in EL. injection EL as EL. rewrite EL in HF.
    inversion_clear HF as [|? ? ? ? H _]. apply (six_labels _ H). reflexivity.
Qed.
Print Assumptions C70_objects_share_state_refuted.

(** After a constructor a reRun has no clusters to work with, although data were clustered. *)
Theorem C70_rerun_after_constructor_refuted : forall fuel qsort i m m' s v v1, java_new m v = Ok v1 -> java_rerun fuel s qsort i m' v1 = UB.
Proof.
  intros fuel q i m m' s v v1 H. unfold java_new, hdbscan_init_again in H. destruct (1 <? u32 m)%Z; [|discriminate]. cbn [bind] in H. injection H as <-.
  unfold java_rerun, hdbscan_rerun. cbn [j_scan o_dist o_clusters]. destruct (o_dist (j_scan v)); reflexivity.
Qed.
Print Assumptions C70_rerun_after_constructor_refuted.

Example C70_example : own_calls [JNew 3; JRun 0 six_rows backwards; JRerun 0 2 in_turn; JNew 5; JRun 1 six_rows in_turn] [] =
    Some [mk_own 2 (Some six_rows) (Some (2%Z, six_rows)); mk_own 5 (Some six_rows) (Some (5%Z, six_rows))] /\
  java_labels [JNew 3; JRun 0 six_rows backwards; JRerun 0 2 in_turn; JNew 5; JRun 1 six_rows in_turn] = Ok [Some [2; 2; 2; 3; 3; 3]%Z; Some (repeat 0%Z 6)] /\
  java_labels two_datasets = Ok [Some [2; 2; 2; 3; 3]%Z; Some [2; 2; 2; 3; 3]%Z].
Proof. split; [reflexivity|]. split; vm_compute; reflexivity. Qed.

(** ** C71.  getClusterMap. *)
Definition positions (k : Z) (labels : list Z) : list nat := filter (fun i => (nth i labels 0 =? k)%Z) (seq 0 (length labels)).

Lemma jget_jput t k l k' : jget (jput t k l) k' = if (k =? k')%Z then Some l else jget t k'.
Proof.
  induction t as [|[a b] t IH]; cbn [jput jget]; [destruct (k =? k')%Z; reflexivity|].
  destruct (Z.eqb_spec a k) as [->|Hne]; cbn [jget]; [destruct (k =? k')%Z; reflexivity|]. rewrite IH.
  destruct (Z.eqb_spec a k') as [->|Hk]; [|reflexivity]. destruct (Z.eqb_spec k k') as [->|_]; [congruence|reflexivity].
Qed.
Lemma jput_keys t k l : NoDup (map fst t) -> NoDup (map fst (jput t k l)) /\ (forall x, In x (map fst (jput t k l)) -> In x (map fst t) \/ x = k).
Proof.
  induction t as [|[a b] t IH]; intros H; cbn [jput map fst].
  - split; [constructor; [intros []|constructor]|]. intros x [<-|[]]. right. reflexivity.
  - inversion_clear H as [|? ? Ha Ht]. destruct (Z.eqb_spec a k) as [->|Hne]; cbn [map fst].
    + split; [constructor; assumption|]. intros x [<-|Hx]; [left; left; reflexivity|left; right; exact Hx].
    + destruct (IH Ht) as [I1 I2]. split; [constructor; [|exact I1]|].
      * intros H. destruct (I2 _ H) as [H'|H']; congruence.
      * intros x [<-|Hx]; [left; left; reflexivity|]. destruct (I2 x Hx) as [H'|H']; [left; right; exact H'|right; exact H'].
Qed.

Theorem C71_java_cluster_map : forall labels,
  (java_cluster_map labels = None <-> labels = None \/ labels = Some []) /\
  forall l t, labels = Some l -> java_cluster_map labels = Some t ->
    NoDup (map fst t) /\
    forall k, jget t k = if existsb (Z.eqb k) l then Some (positions k l) else None.
Proof.
  intros labels. split.
  - destruct labels as [l|]; cbn [java_cluster_map]; [|split; auto]. destruct l as [|x l]; cbn [length Nat.eqb]; [split; auto|]. split; [discriminate|]. intros [H|H]; discriminate.
  - intros l t -> Ht. unfold java_cluster_map in Ht. destruct (length l =? 0); [discriminate|]. injection Ht as <-. unfold positions.
    assert (G : forall n, n <= length l -> NoDup (map fst (fold_left (cluster_step l) (seq 0 n) [])) /\
      forall k, jget (fold_left (cluster_step l) (seq 0 n) []) k =
        if existsb (Z.eqb k) (firstn n l) then Some (filter (fun i => (nth i l 0 =? k)%Z) (seq 0 n)) else None).
    { induction n as [|n IH]; intros Hn; [split; [constructor|reflexivity]|]. destruct IH as [I1 I2]; [lia|].
      rewrite seq_S, fold_left_app, Nat.add_0_l. cbn [fold_left]. set (t := fold_left (cluster_step l) (seq 0 n) []) in *. clearbody t.
      assert (Hf : firstn (S n) l = firstn n l ++ [nth n l 0%Z]).
      { clear -Hn. revert n Hn. induction l as [|x l IH]; intros n Hn; [cbn in Hn; lia|]. destruct n as [|n]; [reflexivity|]. cbn [length] in Hn. cbn [firstn nth app]. f_equal. apply IH. lia. }
      assert (Hnone : forall k, existsb (Z.eqb k) (firstn n l) = false -> filter (fun i => (nth i l 0 =? k)%Z) (seq 0 n) = []).
      { clear -Hn. intros k Hk. destruct (filter (fun i => (nth i l 0 =? k)%Z) (seq 0 n)) as [|i r] eqn:E; [reflexivity|]. exfalso.
        assert (Hi : In i (filter (fun i => (nth i l 0 =? k)%Z) (seq 0 n))) by (rewrite E; left; reflexivity). apply filter_In in Hi. destruct Hi as [Hi Ei]. apply in_seq in Hi.
        assert (Ht : existsb (Z.eqb k) (firstn n l) = true); [|congruence]. apply existsb_exists. exists (nth i l 0%Z). split; [|lia].
        assert (En : nth i l 0%Z = nth i (firstn n l) 0%Z).
        { clear -Hi. revert i n Hi. induction l as [|x l IH]; intros i n Hi; [rewrite firstn_nil; reflexivity|]. destruct n as [|n]; [lia|]. destruct i as [|i]; [reflexivity|]. cbn [nth firstn]. apply IH. lia. }
        rewrite En. apply nth_In. rewrite firstn_length. lia. }
      assert (Hstep : cluster_step l t n = jput t (nth n l 0%Z) (filter (fun i => (nth i l 0 =? nth n l 0)%Z) (seq 0 n) ++ [n])).
      { unfold cluster_step. rewrite I2. destruct (existsb (Z.eqb (nth n l 0%Z)) (firstn n l)) eqn:E; [reflexivity|]. rewrite (Hnone _ E). reflexivity. }
      rewrite Hstep. split; [apply jput_keys; exact I1|]. intros k. rewrite jget_jput, I2, Hf, existsb_app, filter_app. cbn [existsb filter].
      destruct (Z.eqb_spec (nth n l 0%Z) k) as [->|Hne]; [rewrite Z.eqb_refl, orb_true_r; reflexivity|].
      replace (k =? nth n l 0)%Z with false by lia. rewrite !orb_false_r, app_nil_r. reflexivity. }
    destruct (G (length l) (le_n _)) as [G1 G2]. split; [exact G1|]. intros k. rewrite G2, firstn_all. reflexivity.
Qed.
Print Assumptions C71_java_cluster_map.

Example C71_example : java_cluster_map (Some [2; 2; 0; 3; 2; 0]%Z) = Some [(2%Z, [0; 1; 4]); (0%Z, [2; 5]); (3%Z, [3])].
Proof. reflexivity. Qed.
