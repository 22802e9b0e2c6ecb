(** C105: the reader of data files of the sample program. *)
From Coq Require Import Permutation Sorted.
From Flocq Require Import IEEE754.BinarySingleNaN.
From Verif Require Import Base F64 ListFacts ModelUtils ModelArrayList ModelDistance ModelSelect ModelRun PropDistance PropOutlier ProofRun PropRun ModelSample SpecSample ProofSample.
From Coq Require Import ZifyBool ZifyNat.
Local Open Scope nat_scope.

(** A file of lines of words: the numbers of all the words in order, the number of lines, and the
    mean number of words in a line, rounded down. *)
Theorem C105_reads_words : forall atof name tbl f, file_of tbl f -> tbl <> [] -> (Z.of_nat (length (concat tbl)) < M32)%Z -> (Z.of_nat (length tbl) < M32)%Z ->
  getDset atof name (Some f) = Ok (Some (map atof (concat tbl), Z.of_nat (length tbl), (Z.of_nat (length (concat tbl)) / Z.of_nat (length tbl))%Z)).
Proof. intros atof name tbl f F N HM HL. rewrite (reads atof name tbl f F N HL), u32_id by lia. reflexivity. Qed.
Print Assumptions C105_reads_words.

Lemma concat_same {A} (tbl : list (list A)) cols : Forall (fun r => length r = cols) tbl -> length (concat tbl) = length tbl * cols.
Proof. induction 1 as [|r tbl H _ IH]; cbn [concat length]; [reflexivity|]. rewrite app_length, IH, H. lia. Qed.

(** A table: its numbers row by row, its rows and its columns. *)
Theorem C105_reads_tables : forall atof name tbl f cols, file_of tbl f -> tbl <> [] -> Forall (fun r => length r = cols) tbl ->
  (Z.of_nat (length tbl * cols) < M32)%Z -> (Z.of_nat (length tbl) < M32)%Z ->
  getDset atof name (Some f) = Ok (Some (map atof (concat tbl), Z.of_nat (length tbl), Z.of_nat cols)) /\
  forall i j r w, nth_error tbl i = Some r -> nth_error r j = Some w -> nth_error (map atof (concat tbl)) (i * cols + j) = Some (atof w).
Proof.
  intros atof name tbl f cols F N HC HM HL. split.
  - rewrite (C105_reads_words atof name tbl f F N) by (rewrite ?(concat_same tbl cols HC); lia). rewrite (concat_same tbl cols HC).
    destruct tbl as [|r tbl]; [congruence|]. replace (Z.of_nat (length (r :: tbl) * cols)) with (Z.of_nat cols * Z.of_nat (length (r :: tbl)))%Z by lia.
    rewrite Z.div_mul by (cbn [length]; lia). reflexivity.
  - intros i j r w Hr Hw. rewrite nth_error_map. enough (E : nth_error (concat tbl) (i * cols + j) = Some w) by (rewrite E; reflexivity).
    clear F N HM HL. revert i Hr. induction HC as [|r0 tbl H0 _ IH]; intros i Hr; [destruct i; discriminate|]. cbn [concat].
    assert (Lj : j < length r) by (apply nth_error_Some; congruence).
    destruct i as [|i]; cbn [nth_error] in Hr; [injection Hr as ->; rewrite nth_error_app1 by lia; exact Hw|].
    rewrite nth_error_app2 by lia. replace (S i * cols + j - length r0) with (i * cols + j) by lia. apply IH. exact Hr.
Qed.
Print Assumptions C105_reads_tables.

(** From the file to the labels: a table of 5 to 65536 rows is read and clustered. *)
Theorem C105_file_to_labels : forall atof name tbl f cols minPts fuel s qsort,
  file_of tbl f -> 5 <= length tbl -> (Z.of_nat (length tbl) <= 65536)%Z -> Forall (fun r => length r = cols) tbl -> (Z.of_nat (length tbl * cols) < M32)%Z ->
  (2 <= minPts < M32)%Z -> 2 * length tbl - 1 <= fuel -> valid s -> sorts qsort ->
  exists data rs cs o r, getDset atof name (Some f) = Ok (Some (data, rs, cs)) /\
    fresh_run fuel s qsort minPts (DDouble data) (Z.to_nat rs) (Z.to_nat cs) true = Ok o /\ o_res o = Some r /\ length (r_labels r) = length tbl.
Proof.
  intros atof name tbl f cols m fuel s q F H5 HL HC HM Hm Hf Hs Hq. assert (HB : (M32 = 4294967296)%Z) by reflexivity.
  destruct (C105_reads_tables atof name tbl f cols F) as [E _]; [destruct tbl; [cbn in H5; lia|discriminate]|exact HC|exact HM|lia|].
  destruct (C51_run_is_total (DDouble (map atof (concat tbl))) (length tbl) cols m fuel s q H5 HL) as (o & r & Er & Eo & Lr & _); [|exact Hm|exact Hf|exact Hs|exact Hq|].
  { apply holds_double. rewrite map_length. apply (concat_same tbl cols HC). }
  do 3 eexists. exists o, r. split; [exact E|]. rewrite !Nat2Z.id. auto.
Qed.
Print Assumptions C105_file_to_labels.

(** Any file of ASCII bytes, not empty and shorter than 4 GB, is read, and the rows and columns
    never claim more numbers than there are. *)
Theorem C105_any_file : forall atof name f, f <> [] -> (Z.of_nat (length f) < M32)%Z -> (forall c, In c f -> (0 <= c < 128)%Z) ->
  exists data rs cs, getDset atof name (Some f) = Ok (Some (data, rs, cs)) /\ (1 <= rs <= Z.of_nat (length f))%Z /\ (0 <= cs)%Z /\ (rs * cs <= Z.of_nat (length data))%Z.
Proof.
  intros atof name f Nf HM Ha. unfold getDset. destruct list_of_10 as (al & E & R). rewrite E. cbn [bind].
  destruct (any_lines atof (S (length f)) f al [] 0 ltac:(lia) Ha R ltac:(lia) ltac:(lia)) as (al' & l' & rs & E' & R' & L' & B & P). rewrite E'. cbn [bind]. specialize (P Nf).
  destruct (Z.eqb_spec rs 0); [lia|]. cbn [app] in R'. rewrite (ProofSample.copy_rep _ _ R'). cbn [bind]. destruct R' as (Hs & _). rewrite Hs, u32_id by lia.
  do 3 eexists. split; [reflexivity|]. split; [lia|]. split; [apply Z.div_pos; lia|]. apply Z.mul_div_le. lia.
Qed.
Print Assumptions C105_any_file.

(** Refuted: "blank lines do not matter".  A blank line in front of a table counts as a row, and
    the columns are too few, so that all rows but the first are read from the wrong place. *)
Theorem C105_blank_line_refuted : forall atof name tbl f cols, file_of tbl f -> tbl <> [] -> Forall (fun r => length r = cols) tbl -> 1 <= cols ->
  (Z.of_nat (length tbl * cols) < M32)%Z -> (Z.of_nat (S (length tbl)) < M32)%Z ->
  exists cs, getDset atof name (Some (10%Z :: f)) = Ok (Some (map atof (concat tbl), Z.of_nat (S (length tbl)), cs)) /\ (cs < Z.of_nat cols)%Z.
Proof.
  intros atof name tbl f cols F N HC H1 HM HL. eexists. split.
  - apply (C105_reads_words atof name ([] :: tbl) ([] ++ 10%Z :: f)); [|discriminate|cbn [concat app]; rewrite (concat_same tbl cols HC); exact HM|exact HL].
    apply file_line; [cbn; lia|constructor; constructor|exact F].
  - cbn [concat app]. rewrite (concat_same tbl cols HC). cbn [length]. apply Z.div_lt_upper_bound; nia.
Qed.
Print Assumptions C105_blank_line_refuted.

(** Refuted: "a line is a row".  A line of one word of more than 2047 bytes is read as two rows
    of one number each. *)
Theorem C105_long_line_refuted : forall atof name w1 w2, length w1 = 2047 -> 2 <= length w2 <= 2046 ->
  (forall c, In c (w1 ++ w2) -> ~ separator c /\ c <> 10%Z /\ c <> 0%Z) ->
  word (w1 ++ w2) /\ line_of [w1 ++ w2] (w1 ++ w2) /\
  getDset atof name (Some (w1 ++ w2 ++ [10%Z])) = Ok (Some ([atof w1; atof w2], 2%Z, 1%Z)).
Proof.
  intros atof name w1 w2 L1 L2 H.
  assert (W : word (w1 ++ w2)).
  { split; [intros E; apply (f_equal (@length Z)) in E; rewrite app_length in E; cbn in E; lia|]. split; [exact H|].
    intros c E. apply (f_equal (@length Z)) in E. rewrite app_length in E. cbn in E. lia. }
  split; [exact W|]. split.
  { replace (w1 ++ w2) with ([] ++ (w1 ++ w2) ++ []) at 2 by (cbn [app]; apply app_nil_r). apply line_word; [constructor|exact W|constructor; constructor|now left]. }
  assert (Wp : forall w, 2 <= length w -> (forall c, In c w -> In c (w1 ++ w2)) -> word w).
  { intros w L S. split; [intros ->; cbn in L; lia|]. split; [intros c Hc; apply H, S, Hc|]. intros c ->. cbn in L. lia. }
  assert (W1 : word w1) by (apply Wp; [lia|intros c Hc; apply in_or_app; now left]).
  assert (W2 : word w2) by (apply Wp; [lia|intros c Hc; apply in_or_app; now right]).
  assert (B1 : forall c, In c w1 -> c <> 10%Z /\ c <> 0%Z) by (intros c Hc; destruct (H c) as (_ & A); [apply in_or_app; now left|exact A]).
  assert (F2 : file_of [[w2]] (w2 ++ [10%Z])).
  { apply file_line; [lia| |constructor]. replace w2 with ([] ++ w2 ++ []) at 2 by (cbn [app]; apply app_nil_r). apply line_word; [constructor|exact W2|constructor; constructor|now left]. }
  unfold getDset. destruct list_of_10 as (al & E & R). rewrite E. cbn [bind].
  remember (S (length (w1 ++ w2 ++ [10%Z]))) as fuel eqn:Ef. destruct fuel as [|fuel]; [discriminate|]. cbn [read_lines].
  assert (Nw : exists c l, w1 ++ w2 ++ [10%Z] = c :: l) by (destruct w1 as [|c w1]; [cbn in L1; lia|cbn; eauto]). destruct Nw as (c & l & Nw). rewrite Nw at 1. rewrite Nw. rewrite <- Nw.
  rewrite <- L1 at 1. rewrite fgets_full by (intros x Hx; apply B1, Hx). rewrite c_string_whole by (intros x Hx; apply B1, Hx).
  assert (S1 : strtoks w1 [] = [w1]).
  { pose proof (strtoks_line [w1] ([] ++ w1 ++ []) [] (line_word [] w1 [] [] (Forall_nil _) W1 (line_blank [] (Forall_nil _)) (or_introl eq_refl)) (or_introl eq_refl)) as Q.
    cbn [app] in Q. rewrite !app_nil_r in Q. exact Q. }
  rewrite S1. destruct (read_words atof [w1] (Forall_cons _ W1 (Forall_nil _)) al [] R) as (a1 & E1 & R1). rewrite E1. cbn [bind].
  rewrite !app_length in Ef. cbn [length] in Ef.
  destruct (read_file atof [[w2]] (w2 ++ [10%Z]) F2 fuel a1 _ (u32 (0 + 1)) ltac:(rewrite app_length; cbn [length]; lia) R1 ltac:(vm_compute; congruence) ltac:(vm_compute; reflexivity)) as (a2 & E2 & R2).
  rewrite E2. cbn [bind]. change (u32 (0 + 1) + Z.of_nat (length [[w2]]))%Z with 2%Z. change (2 =? 0)%Z with false. cbn iota.
  rewrite (ProofSample.copy_rep _ _ R2). cbn [bind]. destruct R2 as (Hs & _). rewrite Hs. reflexivity.
Qed.
Print Assumptions C105_long_line_refuted.

(** Refuted: "every file is read or reported".  An empty file divides by zero, and a file that
    cannot be opened and has a name of more than 2027 bytes overruns the buffer of the message;
    with a shorter name the program ends. *)
Theorem C105_all_files_refuted : forall atof name,
  getDset atof name (Some []) = UB /\ getDset atof name None = (if 2027 <? name then UB else Ok None).
Proof.
  intros atof name. split; [reflexivity|]. unfold getDset. cbn [array_list_init]. change (0 <? 10) with true. cbn [bind].
  destruct (Nat.ltb_spec 2048 (19 + name + 2)), (Nat.ltb_spec 2027 name); try reflexivity; lia.
Qed.
Print Assumptions C105_all_files_refuted.

(** Refuted: "white space does not matter".  A form feed between spaces hides the rest of its
    line, and a lone byte outside ASCII is undefined. *)
Theorem C105_odd_bytes_refuted : forall atof name,
  getDset atof name (Some [49; 32; 12; 32; 50; 10]%Z) = Ok (Some ([atof [49%Z]], 1%Z, 1%Z)) /\
  getDset atof name (Some [49; 32; 176; 32; 50; 10]%Z) = UB.
Proof. intros. split; vm_compute; reflexivity. Qed.
Print Assumptions C105_odd_bytes_refuted.

(** "1,2\n 3, 4\r\n5 6": three rows of two, with the usual separators and no last newline. *)
Definition three_rows : list Z := [49; 44; 50; 10; 32; 51; 44; 32; 52; 13; 10; 53; 32; 54]%Z.
Example three_rows_file : file_of [[[49]; [50]]; [[51]; [52]]; [[53]; [54]]]%Z three_rows.
Proof.
  assert (W : forall c, (48 <= c <= 57)%Z -> word [c]).
  { intros c Hc. split; [discriminate|]. split; [intros x [<-|[]]; split; [unfold separator; cbn [In]; lia|lia]|]. intros x E. injection E as <-. lia. }
  assert (L : forall s c t d e, Forall separator s -> Forall separator (t :: nil) -> (48 <= c <= 57)%Z -> (48 <= d <= 57)%Z -> forall m, Forall separator m -> Forall separator e ->
            line_of [[c]; [d]] (s ++ [c] ++ ((t :: m) ++ [d] ++ e))).
  { intros s c t d e Hs Ht Hc Hd m Hm He. apply line_word; [exact Hs|now apply W| |right; exists t, (m ++ [d] ++ e); split; [reflexivity|now inversion Ht]].
    apply line_word; [inversion Ht; constructor; assumption|now apply W|constructor; exact He|]. destruct He as [|x e Hx He]; [now left|right; eauto]. }
  assert (S : forall l, forallb (fun c => existsb (Z.eqb c) [32; 44; 9; 13; 11]%Z) l = true -> Forall separator l).
  { intros l H. apply Forall_forall. intros x Hx. rewrite forallb_forall in H. specialize (H x Hx). apply existsb_exists in H. destruct H as (y & Hy & Ey). apply Z.eqb_eq in Ey. subst y. exact Hy. }
  change three_rows with (([] ++ [49%Z] ++ ((44%Z :: []) ++ [50%Z] ++ [])) ++ 10%Z :: ([32%Z] ++ [51%Z] ++ ((44%Z :: [32%Z]) ++ [52%Z] ++ [13%Z])) ++ 10%Z :: ([] ++ [53%Z] ++ ((32%Z :: []) ++ [54%Z] ++ []))).
  apply file_line; [cbn; lia|apply L; try (apply S; reflexivity); lia|]. apply file_line; [cbn; lia|apply L; try (apply S; reflexivity); lia|].
  apply file_last; [discriminate|cbn; lia|apply L; try (apply S; reflexivity); lia].
Qed.
Example three_rows_read : forall atof, getDset atof 4 (Some three_rows) = Ok (Some (map atof [[49]; [50]; [51]; [52]; [53]; [54]]%Z, 3%Z, 2%Z)).
Proof. intros. vm_compute. reflexivity. Qed.
(** One number of 2050 digits. *)
Example long_number : let w1 := repeat 49%Z 2047 in let w2 := [50; 51; 52]%Z in
  length w1 = 2047 /\ 2 <= length w2 <= 2046 /\ forall c, In c (w1 ++ w2) -> ~ separator c /\ c <> 10%Z /\ c <> 0%Z.
Proof.
  cbn zeta. split; [apply repeat_length|]. split; [cbn; lia|]. intros c Hc. assert (48 < c < 57)%Z.
  { apply in_app_or in Hc as [Hc|Hc]; [apply repeat_spec in Hc; lia|]. cbn [In] in Hc. lia. }
  unfold separator. cbn [In]. lia.
Qed.
