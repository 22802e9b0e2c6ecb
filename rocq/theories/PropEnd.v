(** C57, C41: from the data of hdbscan_run to labels and scores. *)
From Coq Require Import Permutation Sorted Reals Relations.
From Flocq Require Import IEEE754.BinarySingleNaN.
From Verif Require Import Base F64 F64Facts F64Arith ListFacts ModelUtils ModelDistance ModelMst ModelGraph ModelCluster ModelHier ModelSelect ModelRun SpecGraph SpecHier SpecTree
  PropUtils ProofDistance ProofCore PropDistance PropMst PropGraph ProofHier ProofHierEnd PropHier ProofTreeSel PropSelect PropProminent PropOutlier ProofRun PropRun.
From Coq Require Import ZifyBool ZifyNat.
Local Open Scope nat_scope.

Lemma parts_levels d n m' m fuel (P : parts d n m' fuel) : m' = m -> 2 <= m <= n -> (Z.of_nat n < M32)%Z -> readable d n -> below_max d n -> 2 * n - 1 <= fuel ->
  forall i w ls, 1 <= i -> entry (p_h _ _ _ _ P) i w ls -> components (close d n w) m n ls.
Proof.
  intros -> Hm Hn HR HB Hf i w ls Hi Hent. destruct (C28_levels_are_reachability_components d n m false fuel Hm Hn HR HB Hf) as (e & h & E & H).
  unfold build_hierarchy in E. rewrite (p_mst _ _ _ _ P) in E. cbn [bind] in E. rewrite (p_init _ _ _ _ P) in E. cbn [bind] in E.
  rewrite (p_sort _ _ _ _ P) in E. cbn [bind] in E. rewrite (p_hier _ _ _ _ P) in E. cbn [bind] in E. injection E as _ <-. apply (H i w ls Hi Hent).
Qed.

(** The points that carry a label other than 0 are exactly a component, with at least
    minPoints points, of the graph "mutual reachability distance at most w" for some level w. *)
Theorem C57_labels_are_dense_components : forall ds rows cols minPts fuel s qsort,
  5 <= rows -> (Z.of_nat rows <= 65536)%Z -> holds ds rows cols -> 2 <= minPts <= rows ->
  (forall i j, i < j -> j < rows -> flt (euclidean ds cols i j) D_MAX = true) -> 2 * rows - 1 <= fuel -> valid s -> sorts qsort ->
  exists d o r, distance_compute ds rows cols (Z.of_nat minPts - 1) = Ok d /\
    (forall i j, i < j -> j < rows -> distance_get d (Z.of_nat i) (Z.of_nat j) = Ok (euclidean ds cols i j)) /\
    fresh_run fuel s qsort (Z.of_nat minPts) ds rows cols true = Ok o /\ o_res o = Some r /\ length (r_labels r) = rows /\
    forall u c, u < rows -> c <> 0 -> nth_error (r_labels r) u = Some c ->
      exists w, many (close d rows w) minPts u /\
        forall v, v < rows -> nth_error (r_labels r) v = Some c <-> joined (close d rows w) u v.
Proof.
  intros ds rows cols m fuel s q Hr1 Hr HL Hm Hfin Hf Hs Hq.
  destruct (data_below ds rows cols m Hm Hr HL Hfin) as (d & Ed & HR & HB & Hget).
  destruct (run_parts ds rows cols (Z.of_nat m) fuel Hr1 Hr HL ltac:(unfold M32; lia) Hf) as (d' & P & Ed' & _ & _ & H). rewrite Ed in Ed'. injection Ed' as <-.
  destruct (H s q Hs Hq) as (labels & os & E & HLl & Hlab & _). clear H.
  exists d. eexists. eexists. split; [exact Ed|]. split; [exact Hget|]. split; [exact E|]. split; [reflexivity|]. cbn [r_labels]. split; [exact HLl|].
  intros u c Hu Hc Hn. apply (Hlab u c Hu Hc) in Hn. destruct Hn as [Hsel Hmem].
  assert (Hcomp : exists w ls, components (close d rows w) m rows ls /\ forall v, nth_error ls v = Some c <-> member (p_h _ _ _ _ P) c v).
  { destruct Hmem as (cc & w & ls & M1 & M2 & M3). exists w, ls. split.
    - apply (parts_levels d rows (Z.to_nat (Z.of_nat m)) m fuel P (Nat2Z.id m) Hm ltac:(unfold M32; lia) HR HB Hf (S (c_offset cc)) w ls ltac:(lia) M2).
    - intros v. split; [intros Hv; exists cc, w, ls; auto|]. intros (c2 & w2 & ls2 & N1 & N2 & N3). unfold cluster_at, entry in *. rewrite M1 in N1. injection N1 as <-. rewrite M2 in N2. injection N2 as <- <-. exact N3. }
  destruct Hcomp as (w & ls & (C1 & C2 & C3) & Hls). exists w.
  assert (Hnu : nth u ls 0 = c) by (apply nth_error_nth, Hls; exact Hmem).
  split; [apply C2; [exact Hu|]; rewrite Hnu; exact Hc|].
  intros v Hv. rewrite (Hlab v c Hv Hc), <- Hls. rewrite <- (C3 u v Hu Hv) by (rewrite Hnu; exact Hc). rewrite Hnu. split.
  - intros [_ Hn]. symmetry. apply nth_error_nth. exact Hn.
  - intros Hn. split; [exact Hsel|]. rewrite (nth_error_nth' _ 0) by lia. congruence.
Qed.
Print Assumptions C57_labels_are_dense_components.

(** The scores of a run on data with finite distances that found two clusters or more
    (r_clusters holds the unused entry 0, the root and the other clusters). *)
Theorem C41_scores_of_a_run : forall ds rows cols minPts fuel s qsort,
  5 <= rows -> (Z.of_nat rows <= 65536)%Z -> holds ds rows cols -> 2 <= minPts <= rows ->
  (forall i j, i < j -> j < rows -> flt (euclidean ds cols i j) D_MAX = true) -> 2 * rows - 1 <= fuel -> valid s -> sorts qsort ->
  exists o r, fresh_run fuel s qsort (Z.of_nat minPts) ds rows cols true = Ok o /\ o_res o = Some r /\
    length (r_outliers r) = rows /\
    (3 <= length (r_clusters r) -> forall x, In x (r_outliers r) -> fle fzero (os_score x) = true /\ fle (os_score x) fone = true).
Proof.
  intros ds rows cols m fuel s q Hr1 Hr HL Hm Hfin Hf Hs Hq.
  destruct (data_below ds rows cols m Hm Hr HL Hfin) as (d & Ed & HR & HB & Hget).
  destruct (run_parts ds rows cols (Z.of_nat m) fuel Hr1 Hr HL ltac:(unfold M32; lia) Hf) as (d' & P & Ed' & _ & HN & H). rewrite Ed in Ed'. injection Ed' as <-.
  destruct (H s q Hs Hq) as (labels & os & E & HLl & _ & Eo). clear H.
  eexists. eexists. split; [exact E|]. split; [reflexivity|]. cbn [r_outliers r_clusters]. clear E HLl labels.
  destruct P as [e0 adj e h K inf cs' trace root E1 E2 E3 HG Hcov Hso Hfw Eh HLK Hp Hroot]. cbn [p_cs p_h] in *. rewrite Nat2Z.id in Eh.
  assert (Hcore : forall v, v < rows -> exists c, nth_error (d_core d) v = Some (Some c) /\ fisnan c = false).
  { intros v Hv. destruct (proj2 HR v Hv) as (c & Hc). exists c. split; [exact Hc|]. apply (ge0_notnan c). apply (proj2 HN v c Hv Hc). }
  pose proof (Hp _ _ (Permutation_refl _) (le_n K)) as Ep.
  split.
  - destruct (C40_outlier_scores rows e0 e adj m false fuel h HG Hcov Hso Hfw (proj1 Hm) ltac:(lia) Eh K _ K inf cs' trace HLK (Permutation_refl _) (le_n K) Ep (d_core d) q Hcore Hq) as (os' & Eo' & H1 & _).
    rewrite Eo in Eo'. injection Eo' as <-. apply Permutation_length in H1. rewrite !map_length, seq_length in H1. lia.
  - destruct (build_input d rows ltac:(lia) ltac:(unfold M32; lia) HR HB) as (e0' & adj' & e' & F1 & F2 & F3 & _ & _ & Hcon & _).
    rewrite E1 in F1. injection F1 as <-. rewrite E3 in F3. injection F3 as <-.
    intros HK. refine (C41_scores_between_0_and_1 rows e0 e adj m false fuel h HG Hcov Hcon Hso Hfw Hm ltac:(lia) Eh K _ K inf cs' trace HLK (Permutation_refl _) (le_n K) Ep (d_core d) q os Hcore Hq Eo _).
    destruct (C33_hierarchy_gives_tree rows e0 e adj m false fuel h HG Hcov (proj1 Hm) Eh) as (K' & HT & HF & _).
    destruct HT as (HTl & HT'). assert (K' = K) by lia. subst K'.
    destruct (run_result _ _ _ _ _ _ _ (conj HTl HT') HF (Permutation_refl _) (le_n K) Ep) as (_ & _ & g & HRp & _).
    destruct HRp as [HRl _]. lia.
Qed.
Print Assumptions C41_scores_of_a_run.

(** The data set of PropRun.v meets the hypotheses of both theorems, with three clusters. *)
Definition finite_pairs (ds : dataset) (rows cols : nat) : bool :=
  forallb (fun j => forallb (fun i => flt (euclidean ds cols i j) D_MAX) (seq 0 j)) (seq 0 rows).
Lemma finite_pairs_ok ds rows cols : finite_pairs ds rows cols = true -> forall i j, i < j -> j < rows -> flt (euclidean ds cols i j) D_MAX = true.
Proof.
  unfold finite_pairs. rewrite forallb_forall. intros H i j Hi Hj. specialize (H j ltac:(apply in_seq; lia)). rewrite forallb_forall in H.
  apply H. apply in_seq. lia.
Qed.
Example six_finite : finite_pairs (DDouble six) 6 1 = true /\ holds (DDouble six) 6 1.
Proof. split; [vm_compute; reflexivity|apply holds_double; reflexivity]. Qed.
Example six_clusters : match fresh_run 11 in_turn insertion_sort 2 (DDouble six) 6 1 true with
  | Ok o => match o_res o with Some r => (length (r_clusters r) =? 4) && (length (r_labels r) =? 6) | None => false end | _ => false end = true.
Proof. vm_compute. reflexivity. Qed.
