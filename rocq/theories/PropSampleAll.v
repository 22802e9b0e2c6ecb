(** C106: the sample program from the data file to the two lists. *)
From Coq Require Import Sorted Permutation.
From Verif Require Import Base F64 F64Facts F64Arith ModelArrayList PropCollections ModelCells ModelHash ModelUtils ModelDistance ModelMap ModelMst ModelRun ModelSession
  SpecSample ModelSample ProofSample PropSample SpecStats PropDistance PropOutlier ProofRun PropRun PropSize PropMinMax ProofStats PropStats PropCpp PropSession ModelCppSession PropCppSession.
From Coq Require Import ZifyBool ZifyNat.
Local Open Scope nat_scope.

(** C106, from the file on.  A table of 5 to 65536 rows of numbers whose distances are numbers is
    read, clustered and listed by size; if the confidences are numbers, the program ends. *)
Theorem C106_file_to_session : forall atof name tbl f cols minPts fuel s qsort pow stats,
  file_of tbl f -> 5 <= length tbl -> (Z.of_nat (length tbl) <= 65536)%Z -> Forall (fun r => length r = cols) tbl -> (Z.of_nat (length tbl * cols) < M32)%Z ->
  (2 <= minPts < M32)%Z -> 2 * length tbl - 1 <= fuel -> valid s -> sorts qsort ->
  distances_are_numbers (DDouble (map atof (concat tbl))) (length tbl) cols ->
  exists data rs cs o r p by_size, getDset atof name (Some f) = Ok (Some (data, rs, cs)) /\
    fresh_run fuel s qsort minPts (DDouble data) (Z.to_nat rs) (Z.to_nat cs) true = Ok o /\ o_res o = Some r /\
    prepare fuel pow stats o = Ok p /\ stores (pr_sorted p) by_size /\ NoDup by_size /\ (forall c, In c by_size <-> In c (label_list r)) /\
    StronglySorted (fun c c' => count_occ Z.eq_dec (label_list r) c <= count_occ Z.eq_dec (label_list r) c') by_size /\
    ((forall c v, In c by_size -> pt_deref (pr_distances p) c = Ok v -> fisnan (v_dr_conf v) = false) ->
     exists al by_confidence score blocks, session fuel pow stats o = Ok (al, score, blocks) /\ stores al by_confidence /\ Permutation by_size by_confidence /\ (-2 <= score <= 4)%Z).
Proof.
  intros atof name tbl f cols m fuel s q pow stats F H5 HL HC HM Hm Hf Hs Hq HN. assert (HB : (M32 = 4294967296)%Z) by reflexivity.
  destruct (C105_reads_tables atof name tbl f cols F) as [E _]; [destruct tbl; [cbn in H5; lia|discriminate]|exact HC|exact HM|lia|].
  destruct (C106_session (DDouble (map atof (concat tbl))) (length tbl) cols m fuel s q pow stats H5 HL) as (o & r & p & kv & bs & E1 & E2 & E3 & _ & _ & S & N & I & O & _ & _ & _ & W);
    [|exact Hm|exact Hf|exact Hs|exact Hq|exact HN|].
  { apply holds_double. rewrite map_length. apply (concat_same tbl cols HC). }
  do 3 eexists. exists o, r, p, bs. split; [exact E|]. rewrite !Nat2Z.id. split; [exact E1|]. split; [exact E2|]. split; [exact E3|]. split; [exact S|]. split; [exact N|]. split; [exact I|]. split; [exact O|].
  intros HW. destruct (W HW) as (al & bc & ks & sc & a & b & A1 & A2 & A3 & _ & _ & _ & A4 & _). exists al, bc, sc, (a, b). auto.
Qed.
Print Assumptions C106_file_to_session.

(** A file of nine lines of one digit each, in three groups, and a reader of digits. *)
Definition nine : list Z := [0; 1; 1; 4; 5; 5; 9; 9; 8]%Z.
Definition digit_file : list Z := concat (map (fun d => [48 + d; 10]%Z) nine).
Definition digit_table : list (list (list Z)) := map (fun d => [[48 + d]%Z]) nine.
Definition digit (w : list Z) : f64 := match w with [c] => f_of_Z (c - 48) | _ => fzero end.
Example C106_file_example : file_of digit_table digit_file /\ Forall (fun r => length r = 1) digit_table /\ length digit_table = 9 /\
  distances_are_numbers (DDouble (map digit (concat digit_table))) 9 1 /\
  (let! d := getDset digit 4 (Some digit_file) in
   match d with
   | Some (data, rs, cs) =>
       let! o := fresh_run 17 in_turn insertion_sort 2 (DDouble data) (Z.to_nat rs) (Z.to_nat cs) true in
       let! r := session 17 pow34 blank o in Ok (firstn (al_size (fst (fst r))) (al_data (fst (fst r))), snd (fst r))
   | None => UB
   end) = Ok ([Some 4; Some 2; Some 3]%Z, (-2)%Z).
Proof.
  split; [|split; [repeat constructor|split; [reflexivity|split; [|]]]].
  - unfold digit_table, digit_file. assert (HD : forall d, In d nine -> (0 <= d <= 9)%Z) by (unfold nine; cbn [In]; intros; lia). revert HD.
    generalize nine. intros l. induction l as [|d l IH]; intros HD; cbn [map concat]; [constructor|].
    change ([48 + d; 10]%Z ++ concat (map (fun d => [48 + d; 10]%Z) l)) with ([48 + d]%Z ++ 10%Z :: concat (map (fun d => [48 + d; 10]%Z) l)).
    specialize (HD d (or_introl eq_refl)) as Hd. apply file_line; [cbn; lia| |apply IH; intros x Hx; apply HD; right; exact Hx].
    change [48 + d]%Z with ([] ++ [48 + d] ++ [])%Z at 2. apply line_word; [constructor| |constructor; constructor|left; reflexivity].
    split; [discriminate|]. split; [intros x [<-|[]]; split; [unfold separator; cbn [In]; lia|lia]|]. intros x E. assert (x = (48 + d)%Z) by congruence. lia.
  - apply (line_numbers nine); [reflexivity|vm_compute; reflexivity].
  - vm_compute. reflexivity.
Qed.

(** When the confidences are numbers: if no label has an infinite ratio of its largest to its
    smallest distance and one has a positive ratio, they lie between 0 and 100 and both programs
    end. *)
Theorem C106_session_ends : forall ds rows cols minPts fuel s qsort pow stats,
  5 <= rows -> (Z.of_nat rows <= 65536)%Z -> holds ds rows cols -> (2 <= minPts < M32)%Z -> 2 * rows - 1 <= fuel -> valid s -> sorts qsort ->
  distances_are_numbers ds rows cols ->
  exists o p kv, fresh_run fuel s qsort minPts ds rows cols true = Ok o /\ prepare fuel pow stats o = Ok p /\ reads (pr_distances p) kv /\
    ((forall c v, In (c, v) kv -> fle fzero (intra_ratio v) = true /\ fle (intra_ratio v) D_MAX = true) ->
     (exists c v, In (c, v) kv /\ flt fzero (intra_ratio v) = true) ->
     (forall c v, In (c, v) kv -> fle fzero (v_dr_conf v) = true /\ fle (v_dr_conf v) (f_of_Z 100) = true) /\
     (exists res, session fuel pow stats o = Ok res) /\ (exists res, cpp_session fuel pow stats o = Ok res)).
Proof.
  intros ds rows cols m fuel s q pow stats Hr1 Hr HL Hm Hf Hs Hq HN.
  destruct (C106_session ds rows cols m fuel s q pow stats Hr1 Hr HL Hm Hf Hs Hq HN) as (o0 & r0 & p0 & kv0 & bs & E0 & Er0 & Ep0 & R0 & P0 & _ & _ & _ & _ & _ & _ & _ & W0).
  destruct (C107_cpp_session ds rows cols m fuel s q pow stats Hr1 Hr HL Hm Hf Hs Hq HN) as (o1 & r1 & p1 & q1 & E1 & _ & Ep1 & _ & R1 & _ & _ & _ & _ & W1).
  destruct (run_ready ds rows cols m fuel s q Hr1 Hr HL Hm Hf Hs Hq HN) as (o & r & d & E & Er & Od & On & Ln & Lo & HC & _ & HD).
  destruct (tables (label_list r) d (low_labels _ Lo)) as (ct & kc & t & kt & Ec & Tc & Et & Tt & Hk & Pk & Hlen & _); [lia|lia|rewrite Ln; exact HC|rewrite Ln; exact HD|].
  destruct (prepare_ok fuel pow stats o r d ct kc t kt Er Od) as (t' & mc & md & st & al & l & Es & _ & _ & T' & Ep & _ & _ & P & Ll & Hl & Hle & _); try assumption; [lia| |lia|lia|].
  { intros H. rewrite H in Ln. cbn in Ln. lia. }
  rewrite E in E0, E1. injection E0 as <-. injection E1 as <-. rewrite Ep in Ep0, Ep1. injection Ep0 as <-. injection Ep1 as <-. cbn [pr_distances] in *.
  set (kv := map (with_conf mc md) kt) in *.
  assert (R' : reads t' kv) by apply T'.
  assert (kv0 = kv) by (apply (reads_same t'); assumption). assert (Q : cp_distances q1 = kv) by (apply (reads_same t'); assumption). subst kv0. rewrite Q in W1.
  exists o, (mk_prepared ct t' st al), kv. cbn [pr_distances]. split; [exact E|]. split; [exact Ep|]. split; [exact R'|]. intros HR (c0 & v0 & Hin0 & Hpos).
  assert (Hkt : forall x, In x kt -> In (with_conf mc md x) kv) by (intros x Hx; apply in_map, Hx).
  destruct (C45_confidence_range false pow t kt stats Tt) as (t2 & s2 & kv2 & Es2 & T2 & _ & B & _).
  { unfold M32. lia. }
  { intros [c v] Hx. apply (HR c (snd (with_conf mc md (c, v)))). apply (Hkt (c, v) Hx). }
  { apply in_map_iff in Hin0. destruct Hin0 as ([c v] & Ex & Hx). exists (c, v). split; [exact Hx|]. injection Ex as <- <-. exact Hpos. }
  rewrite Es in Es2. injection Es2 as <- <-. assert (kv2 = kv) by (apply (reads_same t'); [apply T2|exact R']). subst kv2.
  assert (B' : forall c v, In (c, v) kv -> fle fzero (v_dr_conf v) = true /\ fle (v_dr_conf v) (f_of_Z 100) = true) by (intros c v Hin; apply (B (c, v) Hin)).
  assert (NN : forall c v, In (c, v) kv -> fisnan (v_dr_conf v) = false) by (intros c v Hin; apply (fle_true _ _ (proj1 (B' c v Hin)))).
  split; [exact B'|]. split.
  - destruct W0 as (al' & bc & ks & sc & a & b & S & _); [|eauto]. intros c v Hc Hv. apply (Permutation_in _ (Permutation_sym P0)) in Hc.
    apply in_map_iff in Hc. destruct Hc as ([c' w] & Ec' & Hin). cbn [fst] in Ec'. subst c'. pose proof (NN c w Hin) as Hw.
    apply In_nth_error in Hin. destruct Hin as (i & Hi). destruct R' as (_ & _ & R3). destruct (R3 i c w Hi) as [_ Hv']. rewrite Hv in Hv'. injection Hv' as ->. exact Hw.
  - destruct (W1 NN) as (l' & S & _). eauto.
Qed.
Print Assumptions C106_session_ends.
(** The nine points apart meet both conditions: the distances that the two programs share. *)
Example C106_apart_ratios :
  (let! o := fresh_run 17 in_turn insertion_sort 2 (line_data apart) 9 1 true in
   let! q := cpp_prepare 17 pow34 blank o in
   let rs := map (fun x => intra_ratio (snd x)) (cp_distances q) in
   Ok (map fst (cp_distances q), forallb (fun x => fle fzero x && fle x D_MAX) rs, existsb (flt fzero) rs)) = Ok ([3; 4; 5]%Z, true, true).
Proof. vm_compute. reflexivity. Qed.
