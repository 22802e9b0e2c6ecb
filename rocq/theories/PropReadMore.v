(** C102, continued: hierarchies and outlier scores. *)
From Coq Require Import Reals Lra Permutation Sorted.
From Flocq Require Import Core.Core IEEE754.BinarySingleNaN.
From Verif Require Import Base F64 F64Facts ListFacts ModelText ProofText ModelUtils ModelArrayList ModelDistance ModelMst ModelGraph ModelCluster ModelHier ModelSelect ModelRun ModelPrint
  SpecMain PropDistance PropOutlier ProofRun PropRun PropPrint PropPrintMore PropPrintMaps ProofMap PropReadBack PropAccuracy.
From Coq Require Import ZifyBool ZifyNat.
Local Open Scope nat_scope.
Local Notation length := List.length.

(** A run that the library accepts, as in C64, C78 and C79. *)
Definition accepted (ds : dataset) (rows cols minPts fuel : nat) (s : schedule) (qsort : list outlier -> list outlier) : Prop :=
  5 <= rows /\ (Z.of_nat rows <= 65536)%Z /\ holds ds rows cols /\ 2 <= minPts <= rows /\ 2 * rows - 1 <= fuel /\ valid s /\ sorts qsort.

Lemma lines_count {T} (g : T -> string) (P : T -> Prop) (same : T -> T -> Prop) :
  (forall x y s s', P x -> P y -> (g x ++ s = g y ++ s')%string -> same x y /\ s = s') ->
  forall l l' r r', Forall P l -> Forall P l' -> length l = length l' ->
    (cat (map g l) ++ r = cat (map g l') ++ r')%string -> Forall2 same l l' /\ r = r'.
Proof.
  intros HG. induction l as [|x l IH]; intros [|y l'] r r' Hl Hl' HL E; try discriminate HL; rewrite ?map_cons, ?cat_cons in E; [auto|].
  rewrite <- !sapp_assoc in E. destruct (HG _ _ _ _ (Forall_inv Hl) (Forall_inv Hl') E) as [H E'].
  destruct (IH _ _ _ (Forall_inv_tail Hl) (Forall_inv_tail Hl') (eq_add_S _ _ HL) E') as [H' ->]. auto.
Qed.

Section Text.
Variables nan date : string.
Hypothesis Hnan : nan_text nan.
Lemma nat_member_inj x y s s' : ((dec (Z.of_nat x) ++ " ") ++ s = (dec (Z.of_nat y) ++ " ") ++ s')%string -> x = y /\ s = s'.
Proof.
  intros E. rewrite <- !sapp_assoc in E. cbn [append] in E. apply cut_num in E; [|reflexivity|apply dec_numeric|apply dec_numeric].
  destruct E as [E ->]. apply dec_inj, Nat2Z.inj in E. auto.
Qed.
Lemma level_inj i j w w' l l' s s' : (level_line nan i w l ++ s = level_line nan j w' l' ++ s')%string -> (i = j /\ agree 15 w w' /\ l = l') /\ s = s'.
Proof.
  intros E. unfold level_line in E. repeat (cbn [append] in E; rewrite <- ?sapp_assoc in E).
  apply cut_num in E; [|reflexivity|apply dec_numeric|apply dec_numeric]. destruct E as [E F]. apply dec_inj, Nat2Z.inj in E. injection F as F.
  apply (field nan Hnan) in F; [|reflexivity]. destruct F as [HA F]. injection F as F.
  apply (lines_inj (fun c => dec (Z.of_nat c) ++ " ")%string (fun _ => True) eq stops) in F; [| | |apply Forall_forall; auto|apply Forall_forall; auto|reflexivity|reflexivity].
  - destruct F as [F F']. apply Forall2_eq in F. injection F' as ->. auto.
  - intros x y r r' _ _. apply nat_member_inj.
  - intros x r _. rewrite <- sapp_assoc. apply no_stop; apply dec_numeric.
Qed.

Lemma cut_line z z' u u' : (dec z ++ newline ++ u = dec z' ++ newline ++ u')%string -> z = z' /\ u = u'.
Proof. intros E. apply (cut_num (ascii_of_nat 10)) in E; [|reflexivity|apply dec_numeric|apply dec_numeric]. destruct E as [E ->]. apply dec_inj in E. auto. Qed.
(** Two runs whose hierarchies print the same text have the same number of points and the same
    levels: the labels are the same and the distances agree to 15 digits. *)
Theorem C102_hierarchies_can_be_read_back : forall ds rows cols minPts fuel s qsort ds' rows' cols' minPts' fuel' s' qsort',
  accepted ds rows cols minPts fuel s qsort -> accepted ds' rows' cols' minPts' fuel' s' qsort' ->
  exists o r o' r' text text',
    fresh_run fuel s qsort (Z.of_nat minPts) ds rows cols true = Ok o /\ o_res o = Some r /\ print_hierarchies nan date (r_hier r) rows None = Ok text /\
    fresh_run fuel' s' qsort' (Z.of_nat minPts') ds' rows' cols' true = Ok o' /\ o_res o' = Some r' /\ print_hierarchies nan date (r_hier r') rows' None = Ok text' /\
    (text = text' -> rows = rows' /\ forall level,
       match hget (r_hier r) level, hget (r_hier r') level with
       | Some (w, labels), Some (w', labels') => agree 15 w w' /\ labels = labels'
       | None, None => True
       | _, _ => False
       end).
Proof.
  intros ds rows cols minPts fuel s qsort ds' rows' cols' minPts' fuel' s' qsort' (A1 & A2 & A3 & A4 & A5 & A6 & A7) (B1 & B2 & B3 & B4 & B5 & B6 & B7).
  destruct (C79_hierarchies_print nan date ds rows cols minPts fuel s qsort A1 A2 A3 A4 A5 A6 A7) as (o & r & lv & E & Er & L2 & Hg & Hl & Hp).
  destruct (C79_hierarchies_print nan date ds' rows' cols' minPts' fuel' s' qsort' B1 B2 B3 B4 B5 B6 B7) as (o' & r' & lv' & E' & Er' & L2' & Hg' & Hl' & Hp').
  exists o, r, o', r'. do 2 eexists. split; [exact E|]. split; [exact Er|]. split; [exact Hp|]. split; [exact E'|]. split; [exact Er'|]. split; [exact Hp'|].
  intros T. set (tail := info date (slashes 134 ++ newline ++ newline)%string) in T. apply keep in T. unfold info in T. rewrite <- !sapp_assoc in T. do 3 apply keep in T. apply cut_line in T. destruct T as [HN T]. apply Nat2Z.inj in HN.
  apply (lines_count (fun p => level_line nan (fst p) (fst (snd p)) (snd (snd p))) (fun _ => True) (fun p q => fst p = fst q /\ agree 15 (fst (snd p)) (fst (snd q)) /\ snd (snd p) = snd (snd q))) in T;
    [|intros x y u u' _ _; apply level_inj|apply Forall_forall; auto|apply Forall_forall; auto|rewrite !combine_length, !seq_length; lia].
  destruct T as [T _].
  assert (HX : forall level, match nth_error lv level, nth_error lv' level with
     | Some (w, labels), Some (w', labels') => agree 15 w w' /\ labels = labels' | None, None => True | _, _ => False end).
  { clear - T HN. set (A := agree 15) in *. clearbody A. intros level. revert T HN. generalize 0. revert lv' level. induction lv as [|[w l] lv IH]; intros [|[w' l'] lv'] [|level] a T HN; try discriminate HN; cbn [nth_error]; auto.
    - cbn [List.length seq combine] in T. inversion T as [|? ? ? ? (_ & HA & HL) _]. subst. cbn [fst snd] in *. auto.
    - cbn [List.length seq combine] in T. inversion T as [|? ? ? ? _ T']. subst. apply (IH lv' level (S a) T'). injection HN as HN. exact HN. }
  split.
  - specialize (HX 0). destruct lv as [|[w l] lv]; [cbn in L2; lia|]. destruct lv' as [|[w' l'] lv']; [cbn in L2'; lia|]. cbn [nth_error] in HX. destruct HX as [_ HX].
    rewrite <- (Hl w l (or_introl eq_refl)), <- (Hl' w' l' (or_introl eq_refl)), HX. reflexivity.
  - intros level. rewrite Hg, Hg'. apply HX.
Qed.

Lemma score_inj x y u u' : (score_line nan x ++ u = score_line nan y ++ u')%string -> (os_id x = os_id y /\ agree 6 (os_core x) (os_core y) /\ agree 6 (os_score x) (os_score y)) /\ u = u'.
Proof.
  intros E. unfold score_line in E. repeat (cbn [append] in E; rewrite <- ?sapp_assoc in E).
  apply cut_num in E; [|reflexivity|apply dec_numeric|apply dec_numeric]. destruct E as [E F]. apply dec_inj in E. injection F as F.
  apply (field nan Hnan) in F; [|reflexivity]. destruct F as [HA F]. injection F as F. apply (field nan Hnan) in F; [|reflexivity]. destruct F as [HB F]. injection F as ->. auto.
Qed.
(** Two runs whose outlier scores print the same text have the same points in the same order,
    with core distances and scores that agree to six digits. *)
Theorem C102_scores_can_be_read_back : forall ds rows cols minPts fuel s qsort ds' rows' cols' minPts' fuel' s' qsort',
  accepted ds rows cols minPts fuel s qsort -> accepted ds' rows' cols' minPts' fuel' s' qsort' ->
  (forall i j, i < j -> j < rows -> is_finite (euclidean ds cols i j) = true /\ (B2R (euclidean ds cols i j) <= 10 ^ 68)%R) ->
  (forall i j, i < j -> j < rows' -> is_finite (euclidean ds' cols' i j) = true /\ (B2R (euclidean ds' cols' i j) <= 10 ^ 68)%R) ->
  exists o r o' r',
    fresh_run fuel s qsort (Z.of_nat minPts) ds rows cols true = Ok o /\ o_res o = Some r /\
    fresh_run fuel' s' qsort' (Z.of_nat minPts') ds' rows' cols' true = Ok o' /\ o_res o' = Some r' /\
    (3 <= length (r_clusters r) -> 3 <= length (r_clusters r') ->
     exists text text', print_outlier_scores nan date (r_outliers r) = Ok text /\ print_outlier_scores nan date (r_outliers r') = Ok text' /\
       (text = text' -> Forall2 (fun x y => os_id x = os_id y /\ agree 6 (os_core x) (os_core y) /\ agree 6 (os_score x) (os_score y)) (r_outliers r) (r_outliers r'))).
Proof.
  intros ds rows cols minPts fuel s qsort ds' rows' cols' minPts' fuel' s' qsort' (A1 & A2 & A3 & A4 & A5 & A6 & A7) (B1 & B2 & B3 & B4 & B5 & B6 & B7) HD HD'.
  destruct (C78_outlier_scores_print nan date ds rows cols minPts fuel s qsort Hnan A1 A2 A3 A4 A5 A6 A7 HD) as (o & r & E & Er & Hp).
  destruct (C78_outlier_scores_print nan date ds' rows' cols' minPts' fuel' s' qsort' Hnan B1 B2 B3 B4 B5 B6 B7 HD') as (o' & r' & E' & Er' & Hp').
  exists o, r, o', r'. split; [exact E|]. split; [exact Er|]. split; [exact E'|]. split; [exact Er'|]. intros L L'. do 2 eexists. split; [apply (Hp L)|]. split; [apply (Hp' L')|].
  intros T. apply keep in T. apply (lines_inj (score_line nan) (fun _ => True) (fun x y => os_id x = os_id y /\ agree 6 (os_core x) (os_core y) /\ agree 6 (os_score x) (os_score y)) stops) in T; [apply T| | |apply Forall_forall; auto|apply Forall_forall; auto|reflexivity|reflexivity].
  - intros x y u u' _ _. apply score_inj.
  - intros x u _. unfold score_line. rewrite <- sapp_assoc. apply no_stop; apply dec_numeric.
Qed.
End Text.
Print Assumptions C102_hierarchies_can_be_read_back.
Print Assumptions C102_scores_can_be_read_back.

(** ** Non-vacuity: points moved along the line print the same texts, other points do not *)
Example C102_runs_example :
  shown [0; 1; 2; 20; 21; 23]%Z (fun r => shown [5; 6; 7; 25; 26; 28]%Z (fun r' =>
    print_hierarchies "nan" "now" (r_hier r) 6 None = print_hierarchies "nan" "now" (r_hier r') 6 None /\ print_outlier_scores "nan" "now" (r_outliers r) = print_outlier_scores "nan" "now" (r_outliers r'))) /\
  shown [0; 1; 2; 20; 21; 23]%Z (fun r => shown [0; 1; 2; 20; 21; 24]%Z (fun r' =>
    print_hierarchies "nan" "now" (r_hier r) 6 None <> print_hierarchies "nan" "now" (r_hier r') 6 None /\ print_outlier_scores "nan" "now" (r_outliers r) <> print_outlier_scores "nan" "now" (r_outliers r'))).
Proof. vm_compute. split; (split; [reflexivity|reflexivity]) || (split; intros H; discriminate H). Qed.
Example C102_accepted_example : accepted spread 6 1 3 11 in_turn insertion_sort.
Proof. destruct C94_example as ((_ & _ & HL & _) & _ & Hv & Hs & H5 & Hf). unfold accepted. split; [lia|]. split; [lia|]. split; [exact HL|]. split; [lia|]. split; [lia|]. split; [exact Hv|exact Hs]. Qed.
