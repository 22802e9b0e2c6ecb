(** C80: printing maps, statistics and graphs. *)
From Coq Require Import Reals Lra Permutation Sorted.
From Flocq Require Import Core.Core IEEE754.BinarySingleNaN.
From Verif Require Import Base F64 F64Facts ListFacts ModelText ProofText ModelUtils ModelArrayList ModelDistance ModelGraph ModelHier ModelPrint PropPrint PropPrintMore
  ModelMap SpecStats ProofArrayList ProofMap PropCollections PropClusterMap ProofStats.
From Coq Require Import ZifyBool ZifyNat.
Local Open Scope nat_scope.
Local Notation length := List.length.

(** ** C80: the cluster map *)
Lemma print_pos {T} (f : nat -> res string) (g : T -> string) (l : list T) :
  (forall i x, nth_error l i = Some x -> f i = Ok (g x)) -> print_all f (seq 0 (length l)) = Ok (cat (map g l)).
Proof.
  intros H. assert (HG : forall l0 a, (forall i x, nth_error l0 i = Some x -> f (a + i) = Ok (g x)) -> print_all f (seq a (length l0)) = Ok (cat (map g l0))).
  { induction l0 as [|x l0 IH]; intros a H0; [reflexivity|]. cbn [List.length seq print_all map cat fold_right]. pose proof (H0 0 x eq_refl) as E. rewrite Nat.add_0_r in E. rewrite E. cbn [bind].
    rewrite IH; [reflexivity|]. intros i y Hi. specialize (H0 (S i) y Hi). rewrite <- H0. f_equal. lia. }
  apply (HG l 0). exact H.
Qed.
Lemma dec_i32 z : (0 <= z < 2147483648)%Z -> i32_of_u32 z = z /\ slen (dec z) <= 10.
Proof. intros H. split; [apply i32_small; exact H|]. apply dec_pos_le; [|lia]. change (10 ^ Z.of_nat 10)%Z with 10000000000%Z. lia. Qed.
Lemma sapp_nil (a : string) : (a ++ "" = a)%string.
Proof. induction a as [|x a IH]; cbn; [reflexivity|]. rewrite IH. reflexivity. Qed.
Lemma filter_le {T} (f : T -> bool) l : length (filter f l) <= length l.
Proof. induction l as [|x l IH]; cbn [filter List.length]; [lia|]. destruct (f x); cbn [List.length]; lia. Qed.
Section Maps.
Variables (nan date : string).
Hypothesis Hnan : nan_text nan.
(** The positions of a label, in increasing order. *)
Definition positions (labels : list Z) (c : Z) : list nat := indices labels 0 (length labels) c.
Theorem C80_cluster_map_print : forall labels,
  Forall (fun l => 0 <= l < 2147483648)%Z labels -> 3 <= length labels -> (Z.of_nat (length labels) < 2147483648)%Z ->
  exists t keys, create_cluster_map labels 0 (Z.of_nat (length labels)) = Ok t /\
    StronglySorted Z.lt keys /\ (forall c, In c keys <-> In c labels) /\
    print_cluster_map date t = Ok (cat (map (fun c => dec c ++ " -> [" ++ cat (map (fun i => dec (Z.of_nat i) ++ " ") (positions labels c)) ++ "]" ++ newline) keys))%string /\
    print_cluster_sizes date t = Ok (cat (map (fun c => dec c ++ " : " ++ dec (Z.of_nat (length (positions labels c))) ++ newline) keys))%string.
Proof.
  intros labels HF H3 HM. assert (HF' : Forall label_ok labels) by (eapply Forall_impl; [|exact HF]; unfold label_ok, M32; intros; lia).
  destruct (create_ok labels 0 (length labels) HF' ltac:(unfold M32; lia) ltac:(lia) ltac:(lia)) as (t & m & E & HG & Hm & Hk). rewrite Nat.sub_0_r in *.
  destruct (pt_keys t m HG) as (ls & K1 & K2 & K3 & K4).
  assert (HIn : forall c, In c ls <-> In c labels).
  { intros c. transitivity (In c (map fst m)); [split; apply Permutation_in; [exact K2|apply Permutation_sym; exact K2]|]. rewrite Hk. split.
    - intros H. destruct (indices labels 0 (length labels) c) as [|i l] eqn:Ei; [contradiction|]. assert (Hx : In i (indices labels 0 (length labels) c)) by (rewrite Ei; left; reflexivity). apply indices_in in Hx. apply (nth_error_In _ i). apply Hx.
    - intros H Hn. apply In_nth_error in H. destruct H as (i & Hi). assert (Hx : In i (indices labels 0 (length labels) c)) by (apply indices_in; split; [|exact Hi]; assert (i < length labels) by (apply nth_error_Some; congruence); lia). rewrite Hn in Hx. destruct Hx. }
  assert (HR : forall c, In c ls -> (0 <= c < 2147483648)%Z) by (intros c Hc; apply HIn in Hc; rewrite Forall_forall in HF; apply HF; exact Hc).
  assert (HV : forall c, In c ls -> exists al, pt_deref t c = Ok al /\ rep al (map Z.of_nat (positions labels c))).
  { intros c Hc. pose proof (HR c Hc) as Hr. apply (Permutation_in _ K2) in Hc. apply in_map_iff in Hc. destruct Hc as ([c' a] & Ec & Hc). cbn [fst] in Ec. subst c'.
    rewrite (pt_deref_ok t m c HG) by (unfold label_ok, M32; lia). rewrite (proj2 (pfind_in m c a (pg_nd _ _ HG)) Hc). destruct (Hm c a Hc) as (al & Ha & Hrep). exists al. unfold aget. rewrite Ha. split; [reflexivity|exact Hrep]. }
  assert (HP : forall c i, In i (positions labels c) -> (0 <= Z.of_nat i < 2147483648)%Z).
  { intros c i Hi. apply indices_in in Hi. destruct Hi as [Hi _]. lia. }
  exists t, ls. split; [exact E|]. split; [|split; [exact HIn|]].
  { clear -K3 HR. induction ls as [|x ls IH]; [constructor|]. cbn [map] in K3. inversion K3 as [|? ? A B]; subst. constructor; [apply IH; [exact A|intros c Hc; apply HR; right; exact Hc]|].
    apply Forall_forall. intros y Hy. rewrite Forall_forall in B. specialize (B (lkey y) (in_map _ _ _ Hy)). unfold lkey in B. rewrite !i32_small in B by (apply HR; (left; reflexivity) || (right; exact Hy)). exact B. }
  unfold print_cluster_map, print_cluster_sizes, log. rewrite K1. split.
  - apply print_pos. intros i c Hi. pose proof (nth_error_In _ _ Hi) as Hc. rewrite (K4 i c Hi). cbn [bind]. destruct (HV c Hc) as (al & -> & Hrep). cbn [bind]. destruct (dec_i32 c (HR c Hc)) as [Q1 Q2]. rewrite Q1.
    rewrite sprintf_ok by (slen; lia). cbn [bind append logger_write].
    assert (HS : al_size al = length (map Z.of_nat (positions labels c))) by (apply Hrep). rewrite HS.
    rewrite (print_pos _ (fun v => dec v ++ " ")%string).
    + cbn [bind]. rewrite map_map. repeat (cbn [append]; rewrite <- ?sapp_assoc). reflexivity.
    + intros j v Hj. assert (Hsl : slot (al_data al) j = Ok v) by (unfold slot; destruct Hrep as (_ & _ & _ & _ & HX); rewrite (HX j v Hj); reflexivity). rewrite Hsl. cbn [bind]. pose proof (nth_error_In _ _ Hj) as Hv. apply in_map_iff in Hv. destruct Hv as (p & <- & Hp).
      destruct (dec_i32 _ (HP c p Hp)) as [P1 P2]. rewrite P1. rewrite sprintf_ok by (slen; lia). reflexivity.
  - apply print_pos. intros i c Hi. pose proof (nth_error_In _ _ Hi) as Hc. rewrite (K4 i c Hi). cbn [bind]. destruct (HV c Hc) as (al & -> & Hrep). cbn [bind]. destruct (dec_i32 c (HR c Hc)) as [Q1 Q2]. rewrite Q1.
    assert (HS : al_size al = length (map Z.of_nat (positions labels c))) by (apply Hrep). rewrite HS, map_length.
    assert (HL : (0 <= Z.of_nat (length (positions labels c)) < 2147483648)%Z).
    { unfold positions, indices. match goal with |- context[filter ?f ?l] => pose proof (filter_le f l) as X end. rewrite seq_length in X. lia. }
    destruct (dec_i32 _ HL) as [_ L2]. rewrite sprintf_ok by (slen; lia). reflexivity.
Qed.

(** ** The distance map *)
Definition distance_lines (k : Z) (v : dvals) : string :=
  (dec k ++ " -> {" ++ newline ++
   tab ++ "min_cr : " ++ fmt nan 6 (v_min_cr v) ++ ", max_cr : " ++ fmt nan 6 (v_max_cr v) ++ ", cr_confidence : " ++ fmt nan 6 (v_cr_conf v) ++ newline ++
   tab ++ "min_dr : " ++ fmt nan 6 (v_min_dr v) ++ ", max_dr : " ++ fmt nan 6 (v_max_dr v) ++ ", dr_confidence : " ++ fmt nan 6 (v_dr_conf v) ++ newline ++
   "}" ++ newline ++ newline)%string.
Definition distance_text (kv : list (Z * dvals)) : string :=
  (newline ++ slashes 55 ++ " Printing Distances " ++ slashes 55 ++ newline ++ cat (map (fun p => distance_lines (fst p) (snd p)) kv) ++ slashes 135 ++ newline ++ newline)%string.
(** Any smallest distance (DBL_MAX for a cluster of one point); the other values below 10^10. *)
Definition prints (v : dvals) : Prop :=
  at_most (10 ^ 10 - 1) (v_min_cr v) /\ at_most (10 ^ 10 - 1) (v_max_cr v) /\ at_most (10 ^ 10 - 1) (v_cr_conf v) /\
  at_most (10 ^ 10 - 1) (v_max_dr v) /\ at_most (10 ^ 10 - 1) (v_dr_conf v).
Lemma row_len k v : slen (distance_lines k v) = slen (dec k) + 89 + slen (fmt nan 6 (v_min_cr v)) + slen (fmt nan 6 (v_max_cr v)) + slen (fmt nan 6 (v_cr_conf v))
  + slen (fmt nan 6 (v_min_dr v)) + slen (fmt nan 6 (v_max_dr v)) + slen (fmt nan 6 (v_dr_conf v)).
Proof. unfold distance_lines. slen. lia. Qed.
Lemma row_fits (k : Z) v : (0 <= k < 2147483648)%Z ->
  (let! s := sprintf 512 "" (dec (i32_of_u32 k) ++ " -> {" ++ newline) in
   let! s := sprintf 512 s (tab ++ "min_cr : " ++ fmt nan 6 (v_min_cr v) ++ ", max_cr : " ++ fmt nan 6 (v_max_cr v) ++ ", cr_confidence : " ++ fmt nan 6 (v_cr_conf v) ++ newline) in
   let! s := sprintf 512 s (tab ++ "min_dr : " ++ fmt nan 6 (v_min_dr v) ++ ", max_dr : " ++ fmt nan 6 (v_max_dr v) ++ ", dr_confidence : " ++ fmt nan 6 (v_dr_conf v) ++ newline) in
   let! s := sprintf 512 s ("}" ++ newline ++ newline) in log date s)%string = (if slen (distance_lines k v) <? 512 then Ok (distance_lines k v) else UB).
Proof.
  intros Hk. destruct (dec_i32 k Hk) as [-> L]. pose proof (row_len k v) as HR. destruct (Nat.ltb_spec (slen (distance_lines k v)) 512) as [H|H].
  - rewrite sprintf_ok by (slen; lia). cbn [bind]. rewrite sprintf_ok by (slen; lia). cbn [bind]. rewrite sprintf_ok by (slen; lia). cbn [bind]. rewrite sprintf_ok by (slen; lia). cbn [bind].
    unfold log, logger_write, distance_lines. repeat (cbn [append]; rewrite <- ?sapp_assoc). reflexivity.
  - rewrite sprintf_ok by (slen; lia). cbn [bind].
    match goal with |- bind (sprintf ?a ?b ?c) _ = _ => destruct (sprintf_or a b c) as [X|(s2 & X)]; rewrite X; [reflexivity|] end. cbn [bind]. unfold sprintf in X. match type of X with (if ?b then _ else _) = _ => destruct b; [injection X as <-|discriminate X] end.
    match goal with |- bind (sprintf ?a ?b ?c) _ = _ => destruct (sprintf_or a b c) as [X|(s2 & X)]; rewrite X; [reflexivity|] end. cbn [bind]. unfold sprintf in X. match type of X with (if ?b then _ else _) = _ => destruct b; [injection X as <-|discriminate X] end.
    rewrite sprintf_ub; [reflexivity|]. repeat (rewrite ?slen_app; cbn [String.length newline tab append]). lia.
Qed.
Theorem C80_distance_map_print : forall t kv, reads t kv ->
  (forall k v, In (k, v) kv -> (0 <= k < 2147483648)%Z /\ prints v) ->
  print_distance_map nan date t = Ok (distance_text kv).
Proof.
  intros t kv (R1 & _ & R3) H. unfold print_distance_map, distance_text. rewrite R1. unfold log at 1. cbn [logger_write bind]. fold (log date).
  rewrite (print_pos _ (fun p => distance_lines (fst p) (snd p))); [cbn [bind]; unfold log; cbn [logger_write bind]; repeat (cbn [append]; rewrite <- ?sapp_assoc); reflexivity|].
  intros i [k v] Hi. destruct (R3 i k v Hi) as [E1 E2]. rewrite E1. cbn [bind]. rewrite E2. cbn [bind fst snd]. destruct (H k v (nth_error_In _ _ Hi)) as [Hk (B1 & B2 & B3 & B4 & B5)]. rewrite row_fits by exact Hk.
  apply (fmt_bounded nan 6 10 _ Hnan) in B1, B2, B3, B4, B5; try lia. pose proof (fmt_any nan 6 (v_min_dr v) (nan_len nan Hnan)) as B6. destruct (dec_i32 k Hk) as [_ L]. pose proof (row_len k v).
  replace (slen (distance_lines k v) <? 512) with true by (symmetry; apply Nat.ltb_lt; lia). reflexivity.
Qed.
(** A cluster of one point whose core distance is huge. *)
Theorem C80_distance_map_overflow_refuted : forall t kv k v, reads t kv -> (forall k v, In (k, v) kv -> (0 <= k < 2147483648)%Z) ->
  In (k, v) kv -> v_min_dr v = D_MAX -> is_finite (v_max_cr v) = true -> (10 ^ 100 <= B2R (v_max_cr v))%R ->
  print_distance_map nan date t = UB.
Proof.
  intros t kv k v (R1 & _ & R3) H Hin Hd F HB. unfold print_distance_map. rewrite R1. unfold log at 1. cbn [logger_write bind]. fold (log date).
  apply In_nth_error in Hin. destruct Hin as (i & Hi). rewrite (print_all_ub _ _ i); [reflexivity| | |].
  - intros j Hj. apply in_seq in Hj. assert (Hlt : j < length kv) by lia. apply nth_error_Some in Hlt. destruct (nth_error kv j) as [[k' v']|] eqn:Ej; [|congruence]. destruct (R3 j k' v' Ej) as [E1 E2]. rewrite E1. cbn [bind]. rewrite E2. cbn [bind].
    rewrite row_fits by (apply (H k' v'), (nth_error_In _ _ Ej)). destruct (_ <? 512); [right; eexists; reflexivity|left; reflexivity].
  - apply in_seq. assert (i < length kv) by (apply nth_error_Some; congruence). lia.
  - destruct (R3 i k v Hi) as [E1 E2]. rewrite E1. cbn [bind]. rewrite E2. cbn [bind]. rewrite row_fits by (apply (H k v), (nth_error_In _ _ Hi)).
    replace (slen (distance_lines k v) <? 512) with false; [reflexivity|]. symmetry. apply Nat.ltb_ge. rewrite row_len, Hd.
    pose proof (fmt_long nan 6 100 _ F) as Q. rewrite Rabs_pos_eq in Q by (assert (0 <= 10 ^ 100)%R by (apply pow_le; lra); lra). specialize (Q HB). pose proof (dec_pos k).
    assert (QM : slen (fmt nan 6 D_MAX) = 316) by (vm_compute; reflexivity). lia.
Qed.

(** ** The statistics *)
Definition series_of (s : svals) : list f64 := [sv_max s; sv_mean s; sv_skew s; sv_kurt s; sv_var s; sv_sd s].
Definition value_line (who what : string) (x : f64) : string := (who ++ " - " ++ what ++ ": " ++ fmt nan 5 x ++ newline)%string.
Definition series_text (who : string) (s : svals) : string :=
  (value_line who "Max 			" (sv_max s) ++ value_line who "Mean 			" (sv_mean s) ++ value_line who "Skewness 		" (sv_skew s) ++
   value_line who "Kurtosis 		" (sv_kurt s) ++ value_line who "Variance 		" (sv_var s) ++ value_line who "Standard Dev 	" (sv_sd s))%string.
Definition stats_text (s : cstats) : string :=
  (slashes 54 ++ " Statistical Values " ++ slashes 56 ++ newline ++ "Cluster Count 					: " ++ dec (st_count s) ++ newline ++
   series_text "Core Distances" (st_core s) ++ newline ++ series_text "Intra Distances" (st_intra s) ++ slashes 134 ++ newline ++ newline)%string.
Lemma cat_app a b : cat (a ++ b) = (cat a ++ cat b)%string.
Proof. induction a as [|x a IH]; cbn [List.app cat fold_right]; [reflexivity|]. fold (cat (a ++ b)%list) (cat a). rewrite IH. apply sapp_assoc. Qed.
Lemma sprintf_all_fits size l : forall s, slen s < size -> sprintf_all size s l = if slen s + slen (cat l) <? size then Ok (s ++ cat l)%string else UB.
Proof.
  induction l as [|t l IH]; intros s Hs; cbn [sprintf_all cat fold_right].
  - cbn [String.length]. rewrite Nat.add_0_r. replace (slen s <? size) with true by lia. rewrite sapp_nil. reflexivity.
  - fold (cat l). rewrite slen_app. destruct (Nat.ltb_spec (slen s + slen t) size) as [H|H].
    + rewrite sprintf_ok by exact H. cbn [bind]. rewrite IH by (rewrite slen_app; lia). rewrite slen_app, <- sapp_assoc, Nat.add_assoc. reflexivity.
    + rewrite sprintf_ub by exact H. cbn [bind]. replace (_ <? size) with false by lia. reflexivity.
Qed.
Lemma slashes_len k : slen (slashes k) = k.
Proof. unfold slashes. induction k as [|k IH]; cbn; [reflexivity|]. rewrite IH. reflexivity. Qed.
Definition widths (l : list f64) : nat := fold_right (fun x n => slen (fmt nan 5 x) + n) 0 l.
Lemma series_len who x : slen (series_text who x) = 6 * slen who + 98 + widths (series_of x).
Proof. unfold series_text, value_line, widths, series_of. cbn [fold_right]. slen. lia. Qed.
Lemma stats_len s : slen (stats_text s) = 660 + slen (dec (st_count s)) + widths (series_of (st_core s)) + widths (series_of (st_intra s)).
Proof. unfold stats_text. rewrite !slen_app, !series_len. slen. rewrite !slashes_len. lia. Qed.
Lemma series_cat who x : cat (series_lines nan who x) = series_text who x.
Proof. unfold series_lines, series_text, stat_line, value_line. cbn [cat fold_right]. repeat (cbn [append]; rewrite <- ?sapp_assoc). rewrite ?sapp_nil. reflexivity. Qed.
Lemma stats_cat s : (0 <= st_count s < 2147483648)%Z -> cat (stats_lines nan s) = stats_text s.
Proof.
  intros H. unfold stats_lines, stats_text. rewrite !cat_app, !series_cat. destruct (dec_i32 _ H) as [-> _]. cbn [cat fold_right].
  generalize (slashes 54) (slashes 56) (slashes 134) (series_text "Core Distances" (st_core s)) (series_text "Intra Distances" (st_intra s)). intros a b c d e.
  repeat (cbn [append]; rewrite <- ?sapp_assoc). rewrite ?sapp_nil. reflexivity.
Qed.
Lemma widths_le k l : (forall x, In x l -> slen (fmt nan 5 x) <= k) -> widths l <= k * length l.
Proof. induction l as [|x l IH]; intros H; cbn [widths fold_right List.length]; [lia|]. fold (widths l). pose proof (H x (or_introl eq_refl)). specialize (IH ltac:(intros; apply H; right; assumption)). lia. Qed.
Lemma widths_ge x l : In x l -> slen (fmt nan 5 x) <= widths l.
Proof. induction l as [|y l IH]; intros H; [destruct H|]. cbn [widths fold_right]. fold (widths l). destruct H as [->|H]; [lia|]. specialize (IH H). lia. Qed.
Theorem C80_stats_print : forall s, (0 <= st_count s < 2147483648)%Z ->
  (slen (stats_text s) < 1200 -> print_stats nan date s = Ok (stats_text s)) /\
  (1200 <= slen (stats_text s) -> print_stats nan date s = UB) /\
  ((forall x, In x (series_of (st_core s) ++ series_of (st_intra s)) -> at_most (10 ^ 37 - 1) x) -> print_stats nan date s = Ok (stats_text s)).
Proof.
  intros s Hc. assert (HF : print_stats nan date s = if slen (stats_text s) <? 1200 then Ok (stats_text s) else UB).
  { unfold print_stats. rewrite sprintf_all_fits by (cbn; lia). rewrite (stats_cat s Hc). cbn [String.length Nat.add append]. destruct (_ <? 1200); reflexivity. }
  assert (H1 : slen (stats_text s) < 1200 -> print_stats nan date s = Ok (stats_text s)) by (intros H; rewrite HF; apply Nat.ltb_lt in H; rewrite H; reflexivity).
  split; [exact H1|]. split; [intros H; rewrite HF; apply Nat.ltb_ge in H; rewrite H; reflexivity|].
  intros HB. apply H1. rewrite stats_len. destruct (dec_i32 _ Hc) as [_ L].
  pose proof (widths_le 44 (series_of (st_core s))) as W1. pose proof (widths_le 44 (series_of (st_intra s))) as W2. change (length (series_of (st_core s))) with 6 in W1. change (length (series_of (st_intra s))) with 6 in W2.
  specialize (W1 ltac:(intros x Hx; apply (fmt_bounded nan 5 37 x Hnan); [apply HB, in_or_app; left; exact Hx|lia])). specialize (W2 ltac:(intros x Hx; apply (fmt_bounded nan 5 37 x Hnan); [apply HB, in_or_app; right; exact Hx|lia])).
  cbn [Nat.mul Nat.add] in W1, W2. lia.
Qed.
Theorem C80_stats_overflow_refuted : forall s x y, (0 <= st_count s < 2147483648)%Z ->
  In x (series_of (st_core s)) -> In y (series_of (st_intra s)) -> is_finite x = true -> is_finite y = true -> (10 ^ 263 <= Rabs (B2R x))%R -> (10 ^ 263 <= Rabs (B2R y))%R ->
  print_stats nan date s = UB.
Proof.
  intros s x y Hc Hx Hy Fx Fy Bx By. apply (C80_stats_print s Hc). rewrite stats_len. apply widths_ge in Hx, Hy. pose proof (fmt_long nan 5 263 x Fx Bx). pose proof (fmt_long nan 5 263 y Fy By). pose proof (dec_pos (st_count s)). lia.
Qed.

(** ** Graphs *)
Definition list_text {T} (f : T -> string) (l : list T) : string := cat (map (fun x => f x ++ ", ")%string l).
Definition graph_text (n : nat) (va vb : list Z) (w : list f64) (adj : list (list Z)) : string :=
  let count {T} (l : list T) := dec (Z.of_nat (length l)) in
  ("numVertices: " ++ dec (Z.of_nat n) ++ ", verticesA.length: " ++ count va ++ ",  verticesB.length: " ++ count vb ++ ", edgeWeights.length: " ++ count w ++ ", edges.length: " ++ dec (Z.of_nat n) ++ newline ++
   newline ++ "Vertices A" ++ newline ++ list_text dec va ++ newline ++ newline ++ "Vertices B" ++ newline ++ list_text dec vb ++
   newline ++ newline ++ "nedgeWeights" ++ newline ++ list_text (fmt nan 6) w ++ newline ++ newline ++ "Edges" ++ newline ++
   cat (map (fun l => "[" ++ list_text dec l ++ "]" ++ newline) adj))%string.
Lemma numbers_ok {T} (f : T -> string) (g : T -> string) l : (forall x, In x l -> f x = g x /\ slen (g x) <= 297) -> numbers date 300 ", " f l = Ok (list_text g l).
Proof.
  intros H. unfold numbers, list_text. apply print_all_ok. intros x Hx. destruct (H x Hx) as [-> L]. rewrite sprintf_ok by (slen; lia). reflexivity.
Qed.
Definition vertex (v : Z) : Prop := (0 <= v < 2147483648)%Z.
Lemma vertex_text v : vertex v -> dec (i32_of_u32 v) = dec v /\ slen (dec v) <= 297.
Proof. intros H. destruct (dec_i32 v H) as [-> L]. split; [reflexivity|lia]. Qed.
Lemma count_len n : (Z.of_nat n < 2147483648)%Z -> slen (dec (Z.of_nat n)) <= 10.
Proof. intros H. apply (dec_i32 (Z.of_nat n)). lia. Qed.
Theorem C80_graph_print : forall n va vb w adj,
  (Z.of_nat n < 2147483648)%Z -> (Z.of_nat (length va) < 2147483648)%Z -> length vb = length va -> length w = length va ->
  Forall vertex va -> Forall vertex vb -> Forall (Forall vertex) adj -> Forall (at_most (10 ^ 289 - 1)) w ->
  graph_print nan date n va vb w adj = Ok (graph_text n va vb w adj).
Proof.
  intros n va vb w adj Hn Hl Eb Ew Ha Hb Hadj Hw. rewrite !Forall_forall in *. unfold graph_print. cbn zeta. pose proof (count_len n Hn) as L1. pose proof (count_len (length va) Hl) as L2.
  rewrite sprintf_ok by (rewrite Eb, Ew; slen; lia). cbn [bind]. rewrite sprintf_ok by (rewrite Eb, Ew; slen; lia). cbn [bind append].
  unfold log at 1. cbn [logger_write bind].
  rewrite (print_all_ok _ (fun v => dec v ++ ", ")%string) by (intros v Hv; destruct (vertex_text v (Ha v Hv)) as [-> _]; reflexivity). cbn [bind].
  rewrite (numbers_ok _ dec vb) by (intros v Hv; apply vertex_text, Hb, Hv). rewrite (numbers_ok _ (fmt nan 6) w) by (intros v Hv; split; [reflexivity|]; apply (fmt_bounded nan 6 289 v Hnan); [apply Hw, Hv|lia]).
  rewrite (print_all_ok _ (fun l => "[" ++ list_text dec l ++ "]" ++ newline)%string).
  2: { intros l Hl'. rewrite (numbers_ok _ dec l) by (intros v Hv; apply vertex_text; specialize (Hadj l Hl'); rewrite Forall_forall in Hadj; apply Hadj, Hv). reflexivity. }
  unfold log. cbn [logger_write bind]. unfold graph_text. cbn zeta. fold (list_text dec va). repeat (cbn [append]; rewrite <- ?sapp_assoc). reflexivity.
Qed.
(** An edge of weight DBL_MAX, as the construction of the tree leaves for points it could
    not reach. *)
Theorem C80_unreached_point_overflow_refuted : forall n va vb w adj,
  (Z.of_nat n < 2147483648)%Z -> (Z.of_nat (length va) < 2147483648)%Z -> length vb = length va -> length w = length va ->
  Forall vertex va -> Forall vertex vb -> In D_MAX w -> graph_print nan date n va vb w adj = UB.
Proof.
  intros n va vb w adj Hn Hl Eb Ew Ha Hb Hw. rewrite !Forall_forall in *. unfold graph_print. cbn zeta. pose proof (count_len n Hn) as L1. pose proof (count_len (length va) Hl) as L2.
  rewrite sprintf_ok by (rewrite Eb, Ew; slen; lia). cbn [bind]. rewrite sprintf_ok by (rewrite Eb, Ew; slen; lia). cbn [bind append].
  unfold log at 1. cbn [logger_write bind].
  rewrite (print_all_ok _ (fun v => dec v ++ ", ")%string) by (intros v Hv; destruct (vertex_text v (Ha v Hv)) as [-> _]; reflexivity). cbn [bind].
  rewrite (numbers_ok _ dec vb) by (intros v Hv; apply vertex_text, Hb, Hv). unfold numbers at 1. rewrite (print_all_ub _ w D_MAX); [reflexivity| |exact Hw|].
  - intros x _. match goal with |- ok_or_ub (bind (sprintf ?a ?b ?c) _) => destruct (sprintf_or a b c) as [Z|(t & Z)]; rewrite Z; [left; reflexivity|right; eexists; reflexivity] end.
  - rewrite sprintf_ub; [reflexivity|]. slen. assert (QM : slen (fmt nan 6 D_MAX) = 316) by (vm_compute; reflexivity). lia.
Qed.
End Maps.
Print Assumptions C80_cluster_map_print.
Print Assumptions C80_distance_map_print.
Print Assumptions C80_distance_map_overflow_refuted.
Print Assumptions C80_stats_print.
Print Assumptions C80_stats_overflow_refuted.
Print Assumptions C80_graph_print.
Print Assumptions C80_unreached_point_overflow_refuted.

(** ** Non-vacuity *)
Example C80_map_example :
  match create_cluster_map [2; 0; 2; 3; 0]%Z 0 5 with
  | Ok t => print_cluster_map "" t = Ok ("0 -> [1 4 ]" ++ newline ++ "2 -> [0 2 ]" ++ newline ++ "3 -> [3 ]" ++ newline)%string /\
            print_cluster_sizes "" t = Ok ("0 : 2" ++ newline ++ "2 : 2" ++ newline ++ "3 : 1" ++ newline)%string
  | _ => False end.
Proof. vm_compute. split; reflexivity. Qed.
(** The extremes of two clusters, of which one has a single point; ratios up to 10^280. *)
Definition small_vals : dvals := mk_dvals fone (f_of_Z 3) fzero (f_of_Z 5) fone fzero.
Definition one_vals (core : f64) : dvals := mk_dvals core core fzero D_MIN D_MAX fzero.
Definition vals_table (c : f64) : res (ptable dvals) :=
  let! tab := ModelHash.hashtable_init_size 5 4 8 in
  let! t := pt_insert (mk_ptable tab [small_vals; one_vals c]) 1 0 in pt_insert t 2 1.
Example C80_distance_map_example :
  match vals_table (f_of_Z 2) with
  | Ok t => print_distance_map "nan" "" t = Ok (distance_text "nan" [(1, small_vals); (2, one_vals (f_of_Z 2))]%Z)
  | _ => False end /\
  match vals_table (f_of_Z (10 ^ 101)) with Ok t => print_distance_map "nan" "" t = UB | _ => False end.
Proof. split; vm_compute; reflexivity. Qed.
Definition plain_series : svals := mk_svals (f_of_Z 2) fone fone (f_of_Z 3) fnan fzero.
Definition huge_series : svals := mk_svals (f_of_Z (10 ^ 270)) fone fone (f_of_Z 3) fnan fzero.
Example C80_stats_example :
  print_stats "nan" "" (mk_cstats 3 plain_series plain_series) = Ok (stats_text "nan" (mk_cstats 3 plain_series plain_series)) /\
  print_stats "nan" "" (mk_cstats 3 huge_series huge_series) = UB.
Proof. split; vm_compute; reflexivity. Qed.
Example C80_graph_example :
  graph_print "nan" "" 2 [0; 0]%Z [1; 0]%Z [fone; f_of_Z 4] [[1; 0]; [0]]%Z = Ok (graph_text "nan" 2 [0; 0]%Z [1; 0]%Z [fone; f_of_Z 4] [[1; 0]; [0]]%Z) /\
  graph_print "nan" "" 2 [0; 0]%Z [1; 0]%Z [D_MAX; f_of_Z 4] [[1; 0]; [0]]%Z = UB.
Proof. split; vm_compute; reflexivity. Qed.
