(** C90: results read from C and from C++. *)
From Verif Require Import Base ListFacts ModelAbi SpecAbi.
From Coq Require Import ZifyBool ZifyNat.
Local Open Scope nat_scope.

Definition word (s : nat) : Prop := s = 4 \/ s = 8.
Lemma align_ge o s : word s -> o <= align_up o s.
Proof. intros [-> | ->]; unfold align_up; cbn [Nat.sub]; pose proof (Nat.div_mod (o + 3) 4); pose proof (Nat.mod_upper_bound (o + 3) 4); pose proof (Nat.div_mod (o + 7) 8); pose proof (Nat.mod_upper_bound (o + 7) 8); lia. Qed.
Lemma align_ge_pos o s : 1 <= s -> o <= align_up o s.
Proof. intros H. unfold align_up. pose proof (Nat.div_mod (o + (s - 1)) s). pose proof (Nat.mod_upper_bound (o + (s - 1)) s). lia. Qed.
Lemma end_ge sizes : Forall word sizes -> forall o, o <= member_end o sizes.
Proof. induction 1 as [|s l H F IH]; intros o; cbn [member_end]; [lia|]. pose proof (align_ge o s H). specialize (IH (align_up o s + s)). lia. Qed.
Lemma member_in sizes : Forall word sizes -> forall o f s, nth_error sizes f = Some s -> o <= member_at o sizes f /\ member_at o sizes f + s <= member_end o sizes.
Proof.
  induction 1 as [|s l H F IH]; intros o f t E; [destruct f; discriminate|]. cbn [member_at member_end]. pose proof (align_ge o s H). destruct f as [|f].
  - injection E as <-. pose proof (end_ge l F (align_up o s + s)). lia.
  - cbn [nth_error] in E. destruct (IH (align_up o s + s) f t E). lia.
Qed.
Lemma max_pos o sizes : 1 <= fold_right Nat.max (Nat.max 1 o) sizes.
Proof. induction sizes as [|s l IH]; cbn [fold_right]; lia. Qed.
Lemma size_ge o sizes : member_end o sizes <= record_size o sizes.
Proof. unfold record_size. apply align_ge_pos, max_pos. Qed.

Lemma store_ok m a v : a + length v <= length m -> exists m', store m a v = Ok m' /\ length m' = length m /\
  (forall k, k < a \/ a + length v <= k -> nth_error m' k = nth_error m k) /\ (forall k, k < length v -> nth_error m' (a + k) = nth_error (map Some v) k).
Proof.
  intros H. unfold store. replace (a + length v <=? length m) with true by (symmetry; apply Nat.leb_le; exact H).
  eexists. split; [reflexivity|]. assert (L1 : length (firstn a m) = a) by (rewrite firstn_length; lia). split; [rewrite !app_length, L1, map_length, skipn_length; lia|]. split.
  - intros k [Hk|Hk].
    + rewrite nth_error_app1 by lia. rewrite <- (firstn_skipn a m) at 2. rewrite nth_error_app1 by lia. reflexivity.
    + rewrite nth_error_app2 by lia. rewrite nth_error_app2 by (rewrite map_length; lia). rewrite L1, map_length.
      rewrite <- (firstn_skipn (a + length v) m) at 2. rewrite nth_error_app2; rewrite firstn_length; [|lia]. f_equal. lia.
  - intros k Hk. rewrite nth_error_app2 by lia. rewrite nth_error_app1 by (rewrite map_length; lia). f_equal. lia.
Qed.

Lemma fill_ok sizes vs : Forall word sizes -> Forall2 (fun s (v : list Z) => length v = s) sizes vs -> forall m base o, base + member_end o sizes <= length m ->
  exists m', c_fill m base o sizes vs = Ok m' /\ length m' = length m /\
  (forall k, k < base + o \/ base + member_end o sizes <= k -> nth_error m' k = nth_error m k) /\
  (forall f v k, nth_error vs f = Some v -> k < length v -> nth_error m' (base + member_at o sizes f + k) = nth_error (map Some v) k).
Proof.
  intros HW HV. revert HW. induction HV as [|s v sizes vs Hv HF IH]; intros HW m base o HL.
  - exists m. split; [reflexivity|]. split; [reflexivity|]. split; [reflexivity|]. intros f v k E. destruct f; discriminate.
  - inversion HW as [|? ? W1 W2]; subst. cbn [c_fill member_end] in *. pose proof (align_ge o (length v) W1). pose proof (end_ge sizes W2 (align_up o (length v) + length v)).
    destruct (store_ok m (base + align_up o (length v)) v) as (m1 & E1 & L1 & A1 & B1); [lia|]. rewrite E1. cbn [bind].
    destruct (IH W2 m1 base (align_up o (length v) + length v)) as (m2 & E2 & L2 & A2 & B2); [lia|]. exists m2. split; [exact E2|]. split; [lia|]. split.
    + intros k Hk. rewrite A2 by lia. apply A1. lia.
    + intros f w k Ef Hk. destruct f as [|f]; cbn [nth_error member_at] in *.
      * injection Ef as <-. rewrite A2 by lia. apply B1. exact Hk.
      * apply B2; assumption.
Qed.

Lemma fill_all_ok d rows : Forall word (d_sizes d) -> typed d rows -> forall m base, base + length rows * c_size d <= length m ->
  exists m', c_fill_all d m base rows = Ok m' /\ length m' = length m /\
  (forall k, k < base \/ base + length rows * c_size d <= k -> nth_error m' k = nth_error m k) /\
  (forall i f v k, holds_value rows i f v -> k < length v -> nth_error m' (base + i * c_size d + member_at 0 (d_sizes d) f + k) = nth_error (map Some v) k).
Proof.
  intros HW HT. pose proof (size_ge 0 (d_sizes d)) as HS. fold (c_size d) in HS. induction HT as [|vs rows HV HF IH]; intros m base HL.
  - exists m. split; [reflexivity|]. split; [reflexivity|]. split; [reflexivity|]. intros i f v k (vs & E & _). destruct i; discriminate.
  - cbn [c_fill_all length] in *. destruct (fill_ok (d_sizes d) vs HW HV m base 0) as (m1 & E1 & L1 & A1 & B1); [unfold c_size, c_start in *; lia|].
    unfold c_start in *. rewrite E1. cbn [bind]. destruct (IH m1 (base + c_size d)) as (m2 & E2 & L2 & A2 & B2); [lia|]. exists m2. split; [exact E2|]. split; [lia|].
    assert (HS2 : member_end 0 (d_sizes d) <= c_size d) by exact HS. split.
    + intros k Hk. rewrite A2 by lia. apply A1. lia.
    + intros i f v k (ws & Ei & Ef) Hk. destruct i as [|i]; cbn [nth_error] in Ei.
      * injection Ei as <-. rewrite Nat.mul_0_l, Nat.add_0_r. rewrite A2; [apply B1; assumption|]. left.
        destruct (nth_error (d_sizes d) f) as [s|] eqn:Es.
        -- destruct (member_in _ HW 0 f s Es). assert (length v = s); [|lia]. clear -HV Ef Es. revert f Ef Es. induction HV as [|a b l r H F IH]; intros f Ef Es; destruct f; try discriminate; cbn [nth_error] in *; [congruence|eauto].
        -- exfalso. apply nth_error_None in Es. assert (length (d_sizes d) = length vs) by (clear -HV; induction HV; cbn; congruence). assert (f < length vs) by (apply nth_error_Some; congruence). lia.
      * specialize (B2 i f v k (ex_intro _ ws (conj Ei Ef)) Hk). replace (base + S i * c_size d) with (base + c_size d + i * c_size d) by lia. exact B2.
Qed.

Lemma array_ok d rows : Forall word (d_sizes d) -> typed d rows -> exists m, c_array d rows = Ok m /\ length m = length rows * c_size d /\
  forall i f v k, holds_value rows i f v -> k < length v -> nth_error m (i * c_size d + member_at 0 (d_sizes d) f + k) = nth_error (map Some v) k.
Proof.
  intros HW HT. destruct (fill_all_ok d rows HW HT (repeat None (length rows * c_size d)) 0) as (m & E & L & _ & B); [rewrite repeat_length; lia|].
  exists m. split; [exact E|]. rewrite repeat_length in L. split; [exact L|]. intros i f v k. apply B.
Qed.
Lemma load_gives m a (v : list Z) n : n = length v -> a + n <= length m -> (forall k, k < n -> nth_error m (a + k) = nth_error (map Some v) k) -> gives (load m a n) v.
Proof.
  intros -> HL H. unfold gives, load. replace (a + length v <=? length m) with true by (symmetry; apply Nat.leb_le; exact HL). f_equal.
  apply (nth_ext _ _ None None); [rewrite firstn_length, skipn_length, map_length; lia|]. intros k Hk. rewrite firstn_length, skipn_length in Hk.
  apply nth_error_nth with (d := None). rewrite nth_error_firstn. replace (k <? length v) with true by (symmetry; apply Nat.ltb_lt; lia). rewrite nth_error_skipn. rewrite (H k) by lia. apply nth_error_nth'. rewrite map_length. lia.
Qed.

Lemma value_length d rows i f v : typed d rows -> holds_value rows i f v -> nth_error (d_sizes d) f = Some (length v) /\ i < length rows.
Proof.
  intros HT (vs & E & Ef). split; [|apply nth_error_Some; congruence]. unfold typed in HT. rewrite Forall_forall in HT. specialize (HT vs (nth_error_In _ _ E)).
  clear E. revert f Ef. induction HT as [|a b l r H F IH]; intros f Ef; destruct f; try discriminate; cbn [nth_error] in *; [congruence|eauto].
Qed.
Lemma load_out m a n : length m < a + n -> load m a n = UB.
Proof. intros H. unfold load. replace (a + n <=? length m) with false by (symmetry; apply Nat.leb_gt; exact H). reflexivity. Qed.

(** C90.  Every member of every record in an array C has filled: C reads it back, and so
    does C++ when the record has no virtual functions. *)
Theorem C90_plain_records_agree : forall d rows, Forall (fun s => s = 4 \/ s = 8) (d_sizes d) -> typed d rows ->
  exists m, c_array d rows = Ok m /\
  forall i f v, holds_value rows i f v -> gives (c_read d m i f) v /\ (d_virtual d = false -> gives (cpp_read d m i f) v).
Proof.
  intros d rows HW HT. destruct (array_ok d rows HW HT) as (m & E & L & B). exists m. split; [exact E|]. intros i f v Hv.
  destruct (value_length d rows i f v HT Hv) as [Es Hi]. destruct (member_in (d_sizes d) HW 0 f _ Es) as [_ M]. assert (HS : member_end 0 (d_sizes d) <= c_size d) by apply (size_ge 0 (d_sizes d)).
  assert (N : nth f (d_sizes d) 0 = length v) by (apply nth_error_nth; exact Es).
  assert (G : gives (c_read d m i f) v).
  { unfold c_read. rewrite N. apply load_gives; [reflexivity| |intros k Hk; apply (B i f v k Hv Hk)]. rewrite L. unfold c_start.
    assert (S i * c_size d <= length rows * c_size d) by (apply Nat.mul_le_mono_r; lia). lia. }
  split; [exact G|]. intros HV. unfold cpp_read, cpp_size, cpp_start. rewrite HV. exact G.
Qed.
Print Assumptions C90_plain_records_agree.

(** The records without virtual functions: the clustering itself, the values of the
    distance maps, the statistics, the entries of the hierarchy and the lists. *)
Theorem C90_results_agree : forall d rows,
  In d [d_hdbscan; d_distance_values; d_stats; d_hierarchy_entry; d_list] -> typed d rows ->
  exists m, c_array d rows = Ok m /\ forall i f v, holds_value rows i f v -> gives (cpp_read d m i f) v.
Proof.
  intros d rows HI HT. assert (HW : Forall (fun s => s = 4 \/ s = 8) (d_sizes d) /\ d_virtual d = false).
  { cbn [In] in HI. destruct HI as [<-|[<-|[<-|[<-|[<-|[]]]]]]; (split; [repeat (constructor; [lia|]); constructor|reflexivity]). }
  destruct HW as [HW HV]. destruct (C90_plain_records_agree d rows HW HT) as (m & E & H). exists m. split; [exact E|]. intros i f v Hv. apply (H i f v Hv). exact HV.
Qed.
Print Assumptions C90_results_agree.

Lemma shifted d rows m i f j g n (v : list Z) : (forall i f v k, holds_value rows i f v -> k < length v -> nth_error m (i * c_size d + member_at 0 (d_sizes d) f + k) = nth_error (map Some v) k) ->
  length m = length rows * c_size d -> Forall word (d_sizes d) -> typed d rows -> holds_value rows j g v ->
  i * cpp_size d + member_at (cpp_start d) (d_sizes d) f = j * c_size d + member_at 0 (d_sizes d) g -> n = nth f (d_sizes d) 0 -> n <= length v -> gives (cpp_read d m i f) (firstn n v).
Proof.
  intros B L HW HT Hv E -> Hn. destruct (value_length d rows j g v HT Hv) as [Es Hj]. destruct (member_in (d_sizes d) HW 0 g _ Es) as [_ M]. assert (HS : member_end 0 (d_sizes d) <= c_size d) by apply (size_ge 0 (d_sizes d)).
  assert (S j * c_size d <= length rows * c_size d) by (apply Nat.mul_le_mono_r; lia).
  unfold cpp_read. rewrite E. apply load_gives; [rewrite firstn_length; lia|lia|]. intros k Hk. rewrite (B j g v k Hv) by lia. rewrite <- firstn_map, nth_error_firstn.
  replace (k <? nth f (d_sizes d) 0) with true by (symmetry; apply Nat.ltb_lt; lia). reflexivity.
Qed.
Lemma shifted_all d rows m i f j g (v : list Z) : (forall i f v k, holds_value rows i f v -> k < length v -> nth_error m (i * c_size d + member_at 0 (d_sizes d) f + k) = nth_error (map Some v) k) ->
  length m = length rows * c_size d -> Forall word (d_sizes d) -> typed d rows -> holds_value rows j g v ->
  i * cpp_size d + member_at (cpp_start d) (d_sizes d) f = j * c_size d + member_at 0 (d_sizes d) g -> nth f (d_sizes d) 0 = nth g (d_sizes d) 0 -> gives (cpp_read d m i f) v.
Proof.
  intros B L HW HT Hv E Hn. destruct (value_length d rows j g v HT Hv) as [Es _]. assert (N : nth g (d_sizes d) 0 = length v) by (apply nth_error_nth; exact Es).
  rewrite <- (firstn_all v). apply (shifted d rows m i f j g (length v) v B L HW HT Hv E); [congruence|lia].
Qed.

(** The outlier scores of a run read from C++: the score of the first point is its core
    distance; in general the score of point [i] is the word 4i+1 of an array with three
    words for every point; the id of the last point lies outside the block, and from three
    points on so does its score. *)
Theorem C90_outlier_scores_refuted : forall rows, rows <> [] -> typed d_outlier rows ->
  exists m, c_array d_outlier rows = Ok m /\
    (forall v, holds_value rows 0 1 v -> gives (cpp_read d_outlier m 0 0) v) /\
    (forall i j f v, f <= 1 -> 4 * i + 1 = 3 * j + f -> holds_value rows j f v -> gives (cpp_read d_outlier m i 0) v) /\
    cpp_read d_outlier m (length rows - 1) 2 = UB /\
    (3 <= length rows -> cpp_read d_outlier m (length rows - 1) 0 = UB).
Proof.
  intros rows HN HT. assert (HW : Forall word (d_sizes d_outlier)) by (repeat (constructor; [unfold word; lia|]); constructor).
  destruct (array_ok d_outlier rows HW HT) as (m & E & L & B). exists m. split; [exact E|].
  assert (SZ : c_size d_outlier = 24 /\ cpp_size d_outlier = 32) by (split; reflexivity). destruct SZ as [SZ1 SZ2].
  assert (G : forall i j f v, f <= 1 -> 4 * i + 1 = 3 * j + f -> holds_value rows j f v -> gives (cpp_read d_outlier m i 0) v).
  { intros i j f v Hf Hij Hv. apply (shifted_all d_outlier rows m i 0 j f v B L HW HT Hv).
    - rewrite SZ1, SZ2. destruct f as [|[|f]]; [| |lia]; cbn [member_at cpp_start d_virtual d_outlier d_sizes align_up Nat.div Nat.divmod fst Nat.add Nat.sub Nat.mul]; vm_compute (align_up _ _); lia.
    - destruct f as [|[|f]]; [| |lia]; reflexivity. }
  split; [intros v; apply (G 0 0 1); lia|]. split; [exact G|]. assert (1 <= length rows) by (destruct rows; [contradiction|cbn; lia]).
  split; [|intros H3]; apply load_out; rewrite L, SZ1, SZ2.
  - change (member_at (cpp_start d_outlier) (d_sizes d_outlier) 2) with 24. change (nth 2 (d_sizes d_outlier) 0) with 4. lia.
  - change (member_at (cpp_start d_outlier) (d_sizes d_outlier) 0) with 8. change (nth 0 (d_sizes d_outlier) 0) with 8. lia.
Qed.
Print Assumptions C90_outlier_scores_refuted.

(** A cluster read from C++: the level at which it was born is the one at which it died, its
    stability is the propagated one, its parent the list of its descendants, its label half
    of a double; whether it has children lies outside the block. *)
Theorem C90_clusters_refuted : forall vs, typed d_cluster [vs] ->
  exists m, c_array d_cluster [vs] = Ok m /\
    (forall v, nth_error vs 2 = Some v -> gives (cpp_read d_cluster m 0 1) v) /\
    (forall v, nth_error vs 6 = Some v -> gives (cpp_read d_cluster m 0 5) v) /\
    (forall v, nth_error vs 12 = Some v -> gives (cpp_read d_cluster m 0 11) v) /\
    (forall v, nth_error vs 1 = Some v -> gives (cpp_read d_cluster m 0 0) (firstn 4 v)) /\
    cpp_read d_cluster m 0 13 = UB.
Proof.
  intros vs HT. assert (HW : Forall word (d_sizes d_cluster)) by (repeat (constructor; [unfold word; lia|]); constructor).
  destruct (array_ok d_cluster [vs] HW HT) as (m & E & L & B). exists m. split; [exact E|].
  assert (HH : forall f v, nth_error vs f = Some v -> holds_value [vs] 0 f v) by (intros f v Hf; exists vs; split; [reflexivity|exact Hf]).
  split; [intros v Hv; apply (shifted_all d_cluster [vs] m 0 1 0 2 v B L HW HT (HH _ _ Hv)); reflexivity|].
  split; [intros v Hv; apply (shifted_all d_cluster [vs] m 0 5 0 6 v B L HW HT (HH _ _ Hv)); reflexivity|].
  split; [intros v Hv; apply (shifted_all d_cluster [vs] m 0 11 0 12 v B L HW HT (HH _ _ Hv)); reflexivity|].
  split; [|apply load_out; rewrite L; vm_compute; lia].
  intros v Hv. apply (shifted d_cluster [vs] m 0 0 0 1 4 v B L HW HT (HH _ _ Hv)); [reflexivity|reflexivity|].
  destruct (value_length d_cluster [vs] 0 1 v HT (HH _ _ Hv)) as [Ev _]. cbn in Ev. injection Ev as <-. lia.
Qed.
Print Assumptions C90_clusters_refuted.

(** The spanning tree and a constraint read from C++. *)
Theorem C90_graph_and_constraint_refuted :
  (forall vs, typed d_graph [vs] -> exists m, c_array d_graph [vs] = Ok m /\
     (forall v, nth_error vs 1 = Some v -> gives (cpp_read d_graph m 0 0) (firstn 4 v)) /\
     (forall f v, 1 <= f <= 3 -> nth_error vs (S f) = Some v -> gives (cpp_read d_graph m 0 f) v) /\
     cpp_read d_graph m 0 4 = UB) /\
  (forall vs, typed d_constraint [vs] -> exists m, c_array d_constraint [vs] = Ok m /\
     (forall v, nth_error vs 2 = Some v -> gives (cpp_read d_constraint m 0 0) v) /\
     cpp_read d_constraint m 0 1 = UB /\ cpp_read d_constraint m 0 2 = UB).
Proof.
  split; intros vs HT.
  - assert (HW : Forall word (d_sizes d_graph)) by (repeat (constructor; [unfold word; lia|]); constructor).
    destruct (array_ok d_graph [vs] HW HT) as (m & E & L & B). exists m. split; [exact E|].
    assert (HH : forall f v, nth_error vs f = Some v -> holds_value [vs] 0 f v) by (intros f v Hf; exists vs; split; [reflexivity|exact Hf]).
    split; [|split; [|apply load_out; rewrite L; vm_compute; lia]].
    + intros v Hv. apply (shifted d_graph [vs] m 0 0 0 1 4 v B L HW HT (HH _ _ Hv)); [reflexivity|reflexivity|].
      destruct (value_length d_graph [vs] 0 1 v HT (HH _ _ Hv)) as [Ev _]. cbn in Ev. injection Ev as <-. lia.
    + intros f v Hf Hv. apply (shifted_all d_graph [vs] m 0 f 0 (S f) v B L HW HT (HH _ _ Hv)); destruct f as [|[|[|[|f]]]]; try lia; reflexivity.
  - assert (HW : Forall word (d_sizes d_constraint)) by (repeat (constructor; [unfold word; lia|]); constructor).
    destruct (array_ok d_constraint [vs] HW HT) as (m & E & L & B). exists m. split; [exact E|].
    assert (HH : forall f v, nth_error vs f = Some v -> holds_value [vs] 0 f v) by (intros f v Hf; exists vs; split; [reflexivity|exact Hf]).
    split; [|split; apply load_out; rewrite L; vm_compute; lia].
    intros v Hv. apply (shifted_all d_constraint [vs] m 0 0 0 2 v B L HW HT (HH _ _ Hv)); reflexivity.
Qed.
Print Assumptions C90_graph_and_constraint_refuted.

(** Two points with outlier scores made of the bytes 1 and 4, core distances 2 and 5, ids 3
    and 6. *)
Definition two_scores : list (list (list Z)) :=
  [[repeat 1 8; repeat 2 8; repeat 3 4]; [repeat 4 8; repeat 5 8; repeat 6 4]]%Z.
Example C90_example : typed d_outlier two_scores /\
  match c_array d_outlier two_scores with
  | Ok m => gives (c_read d_outlier m 1 0) (repeat 4 8)%Z /\ gives (cpp_read d_outlier m 0 0) (repeat 2 8)%Z /\
            cpp_read d_outlier m 1 0 = Ok (repeat (Some 6) 4 ++ repeat None 4)%Z /\ cpp_read d_outlier m 1 1 = UB
  | _ => False end.
Proof. split; [repeat constructor|]. vm_compute. repeat split. Qed.
Definition one_stats : list (list (list Z)) := [repeat 9 4 :: map (fun k => repeat (Z.of_nat k) 8) (seq 0 12)]%Z.
Example C90_example_stats : typed d_stats one_stats /\
  match c_array d_stats one_stats with Ok m => gives (cpp_read d_stats m 0 7) (repeat 6 8)%Z | _ => False end.
Proof. split; [repeat constructor|]. vm_compute. reflexivity. Qed.
