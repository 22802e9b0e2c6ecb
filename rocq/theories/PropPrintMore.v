(** C79: printing the hierarchy. *)
From Coq Require Import Reals Lra Permutation Sorted.
From Flocq Require Import Core.Core IEEE754.BinarySingleNaN.
From Verif Require Import Base F64 F64Facts F64Arith ListFacts ModelText ProofText ModelUtils ModelArrayList ModelDistance ModelMst ModelGraph ModelCluster ModelHier ModelSelect ModelRun ModelMap ModelPrint
  SpecGraph SpecHier SpecTree SpecMain SpecStats PropUtils ProofDistance PropDistance PropMst PropGraph ProofTree ProofHier ProofHierEnd PropHier ProofSelect ProofTreeSel PropSelect PropOutlier ProofRun PropRun PropScale PropPrint.
From Coq Require Import ZifyBool ZifyNat.
Local Open Scope nat_scope.
Local Notation length := List.length.

(** ** C79: the hierarchy *)
Lemma filter_keys (h : entries) k : NoDup (map fst h) -> NoDup (map fst (filter (fun p => negb (fst p =? k)) h)).
Proof.
  induction h as [|[a v] h IH]; cbn [map filter fst]; intros H; [constructor|]. inversion H as [|? ? H1 H2]; subst.
  destruct (negb (a =? k)); cbn [map fst]; [constructor|]; auto. intros H3. apply H1. apply in_map_iff in H3. destruct H3 as (p & E & Hp). apply filter_In in Hp. rewrite <- E. apply in_map, Hp.
Qed.
Lemma hput_keys h k v : NoDup (map fst h) -> NoDup (map fst (hput h k v)).
Proof.
  intros H. unfold hput. cbn [map fst]. constructor; [|apply filter_keys; exact H].
  intros H1. apply in_map_iff in H1. destruct H1 as (p & E & Hp). apply filter_In in Hp. lia.
Qed.
Lemma level_keys e m n c k h r : hier_level e m n c k h = Ok r -> NoDup (map fst (h_hier h)) -> NoDup (map fst (h_hier (snd r))).
Proof.
  unfold hier_level. intros H HN. destruct (aget (e_w e) (k - 1)) as [w| | |]; try discriminate H. cbn [bind] in H.
  destruct (remove_ties e w (l_cur (h_l h)) k (h_adj h) (h_av h) (h_al h)) as [[[[adj av] al] k']| | |]; try discriminate H. cbn [bind] in H. destruct al as [|a al]; [injection H as <-; exact HN|].
  destruct (do_labels _ _ _ _ _ _ _ _) as [[l av']| | |]; try discriminate H. cbn [bind] in H. cbn zeta in H. destruct (write_offsets _ _ _) as [cs| | |]; try discriminate H. cbn [bind] in H.
  injection H as <-. cbn [snd h_hier]. destruct (negb c || h_sig h || _); [apply hput_keys|]; exact HN.
Qed.
Lemma loop_keys e m n c : forall f k h r, hier_loop f e m n c k h = Ok r -> NoDup (map fst (h_hier h)) -> NoDup (map fst (h_hier r)).
Proof.
  induction f as [|f IH]; intros k h r H HN; (destruct k as [|k]; cbn [hier_loop] in H; [injection H as <-; exact HN|]); [discriminate H|].
  destruct (hier_level e m n c (S k) h) as [x| | |] eqn:E; try discriminate H. cbn [bind] in H. apply (IH _ _ _ H). apply (level_keys _ _ _ _ _ _ _ E HN).
Qed.
Lemma hier_keys fuel e n adj m c h : compute_hierarchy fuel e n adj m c = Ok h -> NoDup (map fst (h_hier h)).
Proof.
  unfold compute_hierarchy. intros H. destruct (hier_loop fuel e m n c _ _) as [g| | |] eqn:E; try discriminate H. cbn [bind] in H. injection H as <-. cbn [hier_finish h_hier].
  apply hput_keys. apply (loop_keys _ _ _ _ _ _ _ _ E). constructor.
Qed.
Lemma hget_in h k : (exists v, hget h k = Some v) <-> In k (map fst h).
Proof.
  induction h as [|[a v] h IH]; cbn [hget map fst In]; [split; [intros (v & H); discriminate H|intros []]|].
  destruct (Nat.eqb_spec k a) as [->|Hne]; [split; [auto|intros _; exists v; reflexivity]|]. rewrite IH. split; [auto|intros [->|H]; [contradiction|exact H]].
Qed.
Lemma key_insert_perm k l : Permutation (k :: l) (key_insert k l).
Proof. induction l as [|x l IH]; cbn [key_insert]; [apply Permutation_refl|]. destruct (k <=? x); [apply Permutation_refl|]. rewrite perm_swap. constructor. exact IH. Qed.
Lemma key_insert_sorted k l : StronglySorted le l -> StronglySorted le (key_insert k l).
Proof.
  induction 1 as [|x l H IH HF]; cbn [key_insert]; [repeat constructor|]. destruct (Nat.leb_spec k x) as [Hk|Hk].
  - constructor; [constructor; assumption|]. constructor; [exact Hk|]. eapply Forall_impl; [|exact HF]. intros; lia.
  - constructor; [exact IH|]. rewrite <- key_insert_perm. constructor; [lia|exact HF].
Qed.
Lemma key_order_spec es : Permutation (map fst es) (key_order es) /\ StronglySorted le (key_order es).
Proof.
  unfold key_order. induction (map fst es) as [|k l [IH1 IH2]]; cbn [fold_right]; [split; [apply Permutation_refl|constructor]|].
  split; [rewrite <- key_insert_perm; constructor; exact IH1|apply key_insert_sorted; exact IH2].
Qed.
Lemma sorted_unique (l : list nat) : StronglySorted le l -> forall l', StronglySorted le l' -> Permutation l l' -> l = l'.
Proof.
  induction 1 as [|x l H IH HF]; intros l' H' HP; [apply Permutation_nil in HP; subst; reflexivity|].
  destruct l' as [|y l']; [apply Permutation_sym, Permutation_nil in HP; discriminate HP|]. inversion H' as [|? ? H1 H2]; subst.
  assert (x = y).
  { rewrite Forall_forall in HF, H2. assert (In y (x :: l)) by (apply (Permutation_in _ (Permutation_sym HP)); left; reflexivity). assert (In x (y :: l')) by (apply (Permutation_in _ HP); left; reflexivity).
    destruct H0 as [->|H0]; [reflexivity|]. destruct H3 as [->|H3]; [reflexivity|]. specialize (HF y H0). specialize (H2 x H3). lia. }
  subst y. f_equal. apply IH; [exact H1|]. apply (Permutation_cons_inv HP).
Qed.
Lemma seq_sorted a n : StronglySorted le (seq a n).
Proof. revert a. induction n as [|n IH]; intros a; cbn [seq]; constructor; [apply IH|]. apply Forall_forall. intros x Hx. apply in_seq in Hx. lia. Qed.
Lemma i32_small z : (0 <= z < 2147483648)%Z -> i32_of_u32 z = z.
Proof. intros H. unfold i32_of_u32. destruct (Z.ltb_spec z 2147483648); lia. Qed.

Lemma edge_count d n e0 e : 1 <= n -> readable d n -> construct_mst d n true = Ok e0 -> graph_quicksort_by_edge_weight e0 = Ok e -> length (e_w e) = n - 1 + n.
Proof.
  intros Hn HR E1 E2. destruct (C20_spanning_tree_construction d n Hn HR) as (e' & E & La & Lb & Lw & _). rewrite E1 in E. injection E as <-.
  destruct (C23_quicksort_by_edge_weight e0 ltac:(unfold aligned; lia)) as (e' & E & Hal & HP & _). rewrite E2 in E. injection E as <-.
  pose proof (perm_weights e0 e HP ltac:(unfold aligned; lia) Hal) as Q. apply Permutation_length in Q. lia.
Qed.

Lemma sapp_assoc (a b c : string) : (a ++ (b ++ c) = (a ++ b) ++ c)%string.
Proof. induction a as [|x a IH]; cbn; [reflexivity|]. rewrite IH. reflexivity. Qed.

Section Hierarchies.
Variables (nan date : string) (ds : dataset) (rows cols minPts fuel : nat) (s : schedule) (qsort : list outlier -> list outlier).
Hypothesis Hr1 : 5 <= rows.
Hypothesis Hr : (Z.of_nat rows <= 65536)%Z.
Hypothesis HL : holds ds rows cols.
Hypothesis Hm : 2 <= minPts <= rows.
Hypothesis Hfuel : 2 * rows - 1 <= fuel.
Hypothesis Hs : valid s.
Hypothesis Hq : sorts qsort.
Definition info (t : string) : string := (date ++ " INFO: " ++ t)%string.
Definition level_line (level : nat) (w : f64) (labels : list nat) : string :=
  (dec (Z.of_nat level) ++ " : " ++ fmt nan 15 w ++ " -> [" ++ cat (map (fun c => dec (Z.of_nat c) ++ " ") labels) ++ "]" ++ newline)%string.
Theorem C79_hierarchies_print :
  exists o r levels, fresh_run fuel s qsort (Z.of_nat minPts) ds rows cols true = Ok o /\ o_res o = Some r /\
    2 <= length levels /\
    (forall i, hget (r_hier r) i = nth_error levels i) /\
    (forall w labels, In (w, labels) levels -> length labels = rows) /\
    print_hierarchies nan date (r_hier r) rows None = Ok (
      info (newline ++ slashes 54 ++ " Printing Hierarchies " ++ slashes 54 ++ newline) ++
      info ("hierarchy size = " ++ dec (Z.of_nat (length levels)) ++ newline) ++
      cat (map (fun p => level_line (fst p) (fst (snd p)) (snd (snd p))) (combine (seq 0 (length levels)) levels)) ++
      info (slashes 134 ++ newline ++ newline))%string.
Proof.
  pose proof (run_parts ds rows cols (Z.of_nat minPts) fuel Hr1 Hr HL ltac:(unfold M32; lia) Hfuel) as X. rewrite Nat2Z.id in X. destruct X as (d & P & _ & HRd & _ & HP).
  destruct (HP s qsort Hs Hq) as (labels & os & E & _). clear HP. pose proof (part_count d rows minPts fuel P (proj1 Hm) Hr) as HK.
  destruct P as [e0 adj e h K inf cs tr root A1 A2 A3 A4 A5 A6 A7 A8 A9 A10 A11]. cbn [p_h p_cs p_K] in *.
  destruct (C29_hierarchy_entries rows e0 e adj minPts false fuel h A4 A5 A6 (proj1 Hm) A8) as (L & HL1 & _ & Hdom & Hlen & Hdec & H0 & _ & _ & HWe).
  pose proof (edge_count d rows e0 e ltac:(lia) HRd A1 A3) as HEl.
  pose proof (hier_keys _ _ _ _ _ _ _ A8) as HN.
  assert (Hlab : forall i w ls, hget (h_hier h) i = Some (w, ls) -> forall c, In c ls -> c <= K).
  { intros i w ls Hi c Hc. destruct (Nat.eq_dec i 0) as [->|Hi0].
    - unfold entry in H0. rewrite H0 in Hi. injection Hi as <- <-. apply repeat_spec in Hc. lia.
    - pose proof (gt_w e A6) as Hgw. destruct (done_rel gtw rows e0 e adj minPts false fuel h A4 (proj1 Hm) gt_t Hgw A8) as (g & B & Hg & -> & Hnan & HI & _).
      destruct (co_inv0 _ _ _ _ _ _ _ _ (in_core _ _ _ _ _ _ _ _ HI)) as [w0 HC]. pose proof (entry_finish rows e minPts (proj1 Hm) gtw gt_t Hgw g i w ls) as Hef. unfold entry in Hef. apply Hef in Hi; [|lia].
      destruct (en_ok _ _ _ _ _ _ _ (in_ent _ _ _ _ _ _ _ _ HI) i w ls Hi) as (Hl & _ & Hv & _). apply (In_nth _ _ 0) in Hc. destruct Hc as (v & Hvl & <-). destruct (Hv v ltac:(lia)) as (Hx & _).
      pose proof (ci_cs _ _ _ _ _ _ _ HC) as Hcs. cbn [hier_finish h_l] in A9. lia. }
  assert (HLc : L <= 2 * rows).
  { set (f := fun i => match hget (h_hier h) i with Some (w, _) => w | None => fzero end).
    assert (HIn : incl (map f (seq 1 L)) (e_w e)).
    { intros x Hx. apply in_map_iff in Hx. destruct Hx as (i & <- & Hi). apply in_seq in Hi. destruct (proj2 (Hdom i) ltac:(lia)) as (w & ls & Hx). unfold f. unfold entry in Hx. rewrite Hx. apply (HWe i w ls ltac:(lia) Hx). }
    assert (HNd : NoDup (map f (seq 1 L))).
    { assert (HQ : forall n0 a, (forall i j, a <= i < j -> j < a + n0 -> f i <> f j) -> NoDup (map f (seq a n0))).
      { induction n0 as [|n0 IH]; intros a Hf; cbn [seq map]; constructor; [|apply IH; intros i j Hi Hj; apply Hf; lia]. intros Hx. apply in_map_iff in Hx. destruct Hx as (j & Ej & Hj). apply in_seq in Hj. apply (Hf a j ltac:(lia) ltac:(lia)). congruence. }
      apply HQ. intros i j Hi Hj Eij. destruct (proj2 (Hdom i) ltac:(lia)) as (wi & li & Hxi). destruct (proj2 (Hdom j) ltac:(lia)) as (wj & lj & Hxj).
      pose proof (Hdec i j wi li wj lj ltac:(lia) Hxi Hxj) as Hlt. unfold f in Eij. unfold entry in Hxi, Hxj. rewrite Hxi, Hxj in Eij. subst wj. apply flt_true in Hlt. destruct Hlt as (_ & _ & Hlt). apply (Z.lt_irrefl _ Hlt). }
    pose proof (NoDup_incl_length HNd HIn) as HX. rewrite map_length, seq_length in HX. rewrite HEl in HX. lia. }
  set (dflt := (fzero, @nil nat)). set (levels := map (fun i => match hget (h_hier h) i with Some v => v | None => dflt end) (seq 0 (S L))).
  assert (HLv : length levels = S L) by (unfold levels; rewrite map_length, seq_length; reflexivity).
  assert (Hnth : forall i, hget (h_hier h) i = nth_error levels i).
  { intros i. unfold levels. rewrite nth_error_map. destruct (Nat.le_gt_cases i L) as [Hi|Hi].
    - rewrite (nth_error_nth' _ 0) by (rewrite seq_length; lia). rewrite seq_nth by lia. cbn [option_map Nat.add]. destruct (proj2 (Hdom i) Hi) as (w & ls & Hx). unfold entry in Hx. rewrite Hx. reflexivity.
    - replace (nth_error (seq 0 (S L)) i) with (@None nat) by (symmetry; apply nth_error_None; rewrite seq_length; lia). cbn [option_map].
      destruct (hget (h_hier h) i) as [[w ls]|] eqn:Ei; [|reflexivity]. assert (i <= L) by (apply Hdom; exists w, ls; exact Ei). lia. }
  assert (HKeys : Permutation (map fst (h_hier h)) (seq 0 (S L))).
  { apply NoDup_Permutation; [exact HN|apply seq_NoDup|]. intros k. rewrite <- hget_in, in_seq. split.
    - intros ([w ls] & Hx). assert (k <= L) by (apply Hdom; exists w, ls; exact Hx). lia.
    - intros Hk. destruct (proj2 (Hdom k) ltac:(lia)) as (w & ls & Hx). exists (w, ls). exact Hx. }
  assert (HO : key_order (h_hier h) = seq 0 (S L)).
  { destruct (key_order_spec (h_hier h)) as [Q1 Q2]. apply sorted_unique; [exact Q2|apply seq_sorted|]. rewrite <- Q1. exact HKeys. }
  assert (HLe : length (h_hier h) = S L) by (apply Permutation_length in HKeys; rewrite map_length, seq_length in HKeys; exact HKeys).
  eexists. eexists. exists levels. split; [exact E|]. split; [reflexivity|]. split; [lia|]. split; [exact Hnth|]. split.
  { intros w ls Hin. apply In_nth_error in Hin. destruct Hin as (i & Hi). rewrite <- Hnth in Hi. apply (Hlen i w ls Hi). }
  cbn [r_hier]. unfold print_hierarchies. rewrite !logger_ok. cbn [bind]. rewrite HLe, HLv. clear E.
  rewrite sprintf_ok.
  2: { slen. pose proof (dec_pos_le (Z.of_nat (S L)) 10) as X.
       assert (HLr : (Z.of_nat (S L) < 10 ^ Z.of_nat 10)%Z) by (change (10 ^ Z.of_nat 10)%Z with 10000000000%Z; lia).
       specialize (X ltac:(lia) ltac:(lia)). lia. }
  cbn [bind append]. rewrite !logger_ok. cbn [bind]. rewrite HO.
  assert (HC : combine (seq 0 (S L)) levels = map (fun i => (i, match hget (h_hier h) i with Some v => v | None => dflt end)) (seq 0 (S L))).
  { unfold levels. generalize (seq 0 (S L)). intros l. induction l as [|x l IH]; cbn; [reflexivity|]. f_equal. exact IH. }
  rewrite HC, map_map. cbn [fst snd].
  rewrite (print_all_ok _ (fun i => level_line i (fst (match hget (h_hier h) i with Some v => v | None => dflt end)) (snd (match hget (h_hier h) i with Some v => v | None => dflt end)))).
  { cbn [bind]. reflexivity. }
  intros i Hi. apply in_seq in Hi. destruct (proj2 (Hdom i) ltac:(lia)) as (w & ls & Hx). pose proof (Hlen i w ls Hx) as HLn. unfold entry in Hx. rewrite Hx. cbn [bind fst snd].
  assert (HPA : print_all (fun j => let! c := aget ls j in Ok (dec (i32_of_u32 (Z.of_nat c)) ++ " ")%string) (seq 0 rows) = Ok (cat (map (fun c => dec (Z.of_nat c) ++ " ") ls))%string).
  { rewrite (print_all_ok _ (fun j => dec (Z.of_nat (nth j ls 0)) ++ " ")%string).
    - f_equal. f_equal. rewrite <- HLn. clear. induction ls as [|c ls IH] using rev_ind; [reflexivity|]. rewrite app_length, seq_app, !map_app. cbn [List.length seq map Nat.add]. f_equal.
      + rewrite <- IH. apply map_ext_in. intros j Hj. apply in_seq in Hj. rewrite app_nth1 by lia. reflexivity.
      + rewrite nth_middle. reflexivity.
    - intros j Hj. apply in_seq in Hj. unfold aget. rewrite (nth_error_nth' ls 0) by lia. cbn [bind]. rewrite i32_small; [reflexivity|].
      assert (nth j ls 0 <= K) by (apply (Hlab i w ls Hx), nth_In; lia). lia. }
  rewrite HPA. cbn [bind]. unfold level_line. repeat (cbn [append]; rewrite <- ?sapp_assoc). reflexivity.
Qed.
(** With a file name the call is undefined. *)
Theorem C79_file_name_refuted es n name : print_hierarchies nan date es n (Some name) = UB.
Proof. reflexivity. Qed.
End Hierarchies.
Print Assumptions C79_hierarchies_print.
Print Assumptions C79_file_name_refuted.

(** Even if the array of the stack happens to hold a string: [m] holds the text [t] when it
    starts with its characters and a zero. *)
Definition nul : ascii := ascii_of_nat 0.
Definition holds_text (m : list (option ascii)) (t : string) : Prop :=
  ~ In nul (list_ascii_of_string t) /\ exists rest, m = (map Some (list_ascii_of_string t) ++ Some nul :: rest)%list.

Lemma strlen_ok m t : holds_text m t -> c_strlen m = Ok (String.length t).
Proof.
  intros (Hn & rest & ->). induction t as [|c t IH]; cbn [list_ascii_of_string map app c_strlen String.length]; [reflexivity|].
  destruct (Nat.eqb_spec (nat_of_ascii c) 0) as [E|E].
  - exfalso. apply Hn. left. rewrite <- (ascii_nat_embedding c), E. reflexivity.
  - rewrite IH by (intros H; apply Hn; right; exact H). reflexivity.
Qed.
Lemma text_length t : length (list_ascii_of_string t) = String.length t.
Proof. induction t as [|c t IH]; cbn; [reflexivity|]. f_equal. exact IH. Qed.
Lemma text_app t u : list_ascii_of_string (t ++ u) = (list_ascii_of_string t ++ list_ascii_of_string u)%list.
Proof. induction t as [|c t IH]; cbn; [reflexivity|]. f_equal. exact IH. Qed.
Lemma strcat_ok m t u : holds_text m t -> ~ In nul (list_ascii_of_string u) ->
  (String.length t + String.length u < length m -> exists m', strcat m u = Ok m' /\ length m' = length m /\ holds_text m' (t ++ u)) /\
  (length m <= String.length t + String.length u -> strcat m u = UB).
Proof.
  intros HT Hu. unfold strcat. rewrite (strlen_ok m t HT). cbn [bind]. destruct HT as (Hn & rest & ->). split; intros Hl.
  - destruct (Nat.ltb_spec (String.length t + String.length u) (length (map Some (list_ascii_of_string t) ++ Some nul :: rest)%list)); [|lia].
    eexists. split; [reflexivity|]. split.
    + rewrite !app_length, firstn_length, !map_length, skipn_length, !app_length in *. cbn [length] in *. rewrite !map_length, !text_length in *. lia.
    + split; [rewrite text_app; intros H0; apply in_app_or in H0; tauto|].
      exists (skipn (String.length t + String.length u + 1) (map Some (list_ascii_of_string t) ++ Some nul :: rest)).
      rewrite firstn_app, map_length, text_length, Nat.sub_diag, firstn_O, app_nil_r, firstn_all2 by (rewrite map_length, text_length; lia).
      rewrite text_app, !map_app, <- !app_assoc. reflexivity.
  - destruct (Nat.ltb_spec (String.length t + String.length u) (length (map Some (list_ascii_of_string t) ++ Some nul :: rest)%list)); [lia|reflexivity].
Qed.
(** The file gets the name [old] from the stack before its own, and an array that is too short
    is overrun: with an empty [old] this happens to names of 86 characters and more. *)
Theorem C79_file_name_from_stack : forall m old name suffix, holds_text m old -> ~ In nul (list_ascii_of_string name) -> ~ In nul (list_ascii_of_string suffix) ->
  (String.length old + String.length name + String.length suffix < length m ->
     exists m', file_name m name suffix = Ok m' /\ length m' = length m /\ holds_text m' (old ++ name ++ suffix)) /\
  (length m <= String.length old + String.length name + String.length suffix -> file_name m name suffix = UB).
Proof.
  intros m old name suffix HT Hn Hs. unfold file_name. destruct (strcat_ok m old name HT Hn) as [H1 H2].
  destruct (Nat.lt_ge_cases (String.length old + String.length name) (length m)) as [Hl|Hl].
  - destruct (H1 Hl) as (m1 & -> & L1 & T1). cbn [bind]. destruct (strcat_ok m1 (old ++ name) suffix T1 Hs) as [H3 H4].
    assert (El : String.length (old ++ name) = String.length old + String.length name) by (rewrite <- !text_length, text_app, app_length; reflexivity).
    rewrite El, L1 in H3, H4. split; intros H.
    + destruct (H3 H) as (m2 & -> & L2 & T2). exists m2. split; [reflexivity|]. split; [lia|]. rewrite sapp_assoc. exact T2.
    + apply H4. lia.
  - split; intros H; [lia|]. rewrite (H2 Hl). reflexivity.
Qed.
Print Assumptions C79_file_name_from_stack.
Example C79_file_name_example :
  (let! m := file_name (Some "/"%char :: Some nul :: repeat None 98) "out" "_hierarchy.csv" in Ok (firstn 19 m)) = Ok (map Some (list_ascii_of_string "/out_hierarchy.csv") ++ [Some nul])%list /\
  file_name (Some nul :: repeat None 99) (string_of_list_ascii (repeat "a"%char 86)) "_hierarchy.csv" = UB.
Proof. vm_compute. split; reflexivity. Qed.

Example C79_example : shown [0; 1; 2; 20; 21; 23]%Z (fun r => print_hierarchies "nan" "now" (r_hier r) 6 None =
  Ok ("now INFO: " ++ newline ++ slashes 54 ++ " Printing Hierarchies " ++ slashes 54 ++ newline ++ "now INFO: hierarchy size = 4" ++ newline
   ++ "0 : 0.000000000000000 -> [0 0 0 0 0 0 ]" ++ newline ++ "1 : 18.000000000000000 -> [1 1 1 1 1 1 ]" ++ newline
   ++ "2 : 2.000000000000000 -> [2 2 2 3 3 3 ]" ++ newline ++ "3 : 1.000000000000000 -> [2 2 2 3 3 0 ]" ++ newline
   ++ "now INFO: " ++ slashes 134 ++ newline ++ newline)%string).
Proof. vm_compute. reflexivity. Qed.
