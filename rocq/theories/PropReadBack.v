(** C102: what the printing functions write can be read back. *)
From Coq Require Import Reals Lra Permutation Sorted.
From Flocq Require Import Core.Core IEEE754.BinarySingleNaN.
From Verif Require Import Base F64 F64Facts ListFacts ModelText ProofText ModelUtils ModelArrayList ModelDistance ModelMap ModelCpp ModelPrint ModelCppPrint
  SpecStats ProofDistance PropDistance PropPrint PropPrintMore PropPrintMaps ProofMap PropCollections PropClusterMap ProofStats ProofCpp PropCpp.
From Coq Require Import ZifyBool ZifyNat.
Local Open Scope nat_scope.
Local Notation length := List.length.

(** ** Specification *)
(** Two numbers that agree to [p] digits after the point: both NaN, the same infinity, or within
    10^-p of each other. *)
Definition agree (p : nat) (x y : f64) : Prop :=
  match x, y with
  | B754_nan, B754_nan => True
  | B754_infinity s, B754_infinity s' => s = s'
  | _, _ => is_finite x = true /\ is_finite y = true /\ (Rabs (B2R x - B2R y) <= / 10 ^ p)%R
  end.
Definition agree_vals (v w : dvals) : Prop :=
  agree 6 (v_min_cr v) (v_min_cr w) /\ agree 6 (v_max_cr v) (v_max_cr w) /\ agree 6 (v_cr_conf v) (v_cr_conf w) /\
  agree 6 (v_min_dr v) (v_min_dr w) /\ agree 6 (v_max_dr v) (v_max_dr w) /\ agree 6 (v_dr_conf v) (v_dr_conf w).

(** ** Splitting texts *)
Fixpoint every (p : ascii -> bool) (s : string) : bool :=
  match s with EmptyString => true | String c r => p c && every p r end.
Definition numeric (c : ascii) : bool :=
  let n := nat_of_ascii c in ((48 <=? n) && (n <=? 57)) || existsb (Ascii.eqb c) ["-"; "."; "i"; "n"; "f"; "a"]%char.
Lemma every_app p a b : every p (a ++ b)%string = every p a && every p b.
Proof. induction a as [|c a IH]; cbn [append every]; [reflexivity|]. rewrite IH. destruct (p c); reflexivity. Qed.
Lemma every_digits s : all_digits s -> every numeric s = true.
Proof.
  induction s as [|c s IH]; [reflexivity|]. intros [Hc Hs]. cbn [every]. rewrite (IH Hs), andb_true_r. unfold numeric. cbv zeta.
  replace (48 <=? nat_of_ascii c) with true by lia. replace (nat_of_ascii c <=? 57) with true by lia. reflexivity.
Qed.
Lemma cut p x a : forall a' s s', p x = false -> every p a = true -> every p a' = true ->
  (a ++ String x s = a' ++ String x s')%string -> a = a' /\ s = s'.
Proof.
  induction a as [|c a IH]; intros [|c' a'] s s' Hx Ha Ha' E; cbn [append every] in *.
  - injection E as ->. auto.
  - injection E as -> _. rewrite Hx in Ha'. discriminate Ha'.
  - injection E as -> _. rewrite Hx in Ha. discriminate Ha.
  - injection E as -> E. apply andb_prop in Ha, Ha'. destruct (IH a' s s' Hx (proj2 Ha) (proj2 Ha') E) as [-> ->]. auto.
Qed.
Lemma cut_num x a a' s s' : numeric x = false -> every numeric a = true -> every numeric a' = true ->
  (a ++ String x s = a' ++ String x s')%string -> a = a' /\ s = s'.
Proof. apply cut. Qed.
Lemma keep a s s' : (a ++ s = a ++ s')%string -> s = s'.
Proof. induction a as [|c a IH]; cbn [append]; [auto|]. intros E. injection E. exact IH. Qed.

Lemma cat_cons x l : cat (x :: l) = (x ++ cat l)%string.
Proof. reflexivity. Qed.
(** The lines of two texts, up to where they end. *)
Lemma lines_inj {T} (g : T -> string) (P : T -> Prop) (same : T -> T -> Prop) (ends : string -> Prop) :
  (forall x y s s', P x -> P y -> (g x ++ s = g y ++ s')%string -> same x y /\ s = s') ->
  (forall x s, P x -> ~ ends (g x ++ s)%string) ->
  forall l l' r r', Forall P l -> Forall P l' -> ends r -> ends r' ->
    (cat (map g l) ++ r = cat (map g l') ++ r')%string -> Forall2 same l l' /\ r = r'.
Proof.
  intros HG HE. induction l as [|x l IH]; intros [|y l'] r r' Hl Hl' Hr Hr' E; rewrite ?map_cons, ?cat_cons in E.
  - auto.
  - exfalso. rewrite <- sapp_assoc in E. cbn [map cat fold_right append] in E. inversion Hl'; subst. apply (HE y (cat (map g l') ++ r')%string); [assumption|]. exact Hr.
  - exfalso. rewrite <- sapp_assoc in E. cbn [map] in E. change (cat [] ++ r')%string with r' in E. inversion Hl; subst. apply (HE x (cat (map g l) ++ r)%string); [assumption|]. exact Hr'.
  - rewrite <- !sapp_assoc in E. destruct (HG _ _ _ _ (Forall_inv Hl) (Forall_inv Hl') E) as [H E'].
    destruct (IH _ _ _ (Forall_inv_tail Hl) (Forall_inv_tail Hl') Hr Hr' E') as [H' ->]. auto.
Qed.
(** A text that does not go on with a number. *)
Definition stops (r : string) : Prop := match r with EmptyString => True | String c _ => numeric c = false end.
Lemma no_stop a s : every numeric a = true -> 1 <= slen a -> ~ stops (a ++ s)%string.
Proof. destruct a as [|c a]; cbn [slen every append stops String.length]; [lia|]. intros H _ H'. rewrite H' in H. discriminate H. Qed.

(** ** Numbers *)
Lemma dec_numeric z : every numeric (dec z) = true /\ 1 <= slen (dec z).
Proof.
  split; [|apply dec_pos]. destruct (C77_text_of_an_integer z) as (sg & ds & -> & -> & HD & _). rewrite every_app, (every_digits _ HD), andb_true_r. destruct (z <? 0)%Z; reflexivity.
Qed.
Lemma digit_first d a : all_digits (String d a) -> d <> "-"%char.
Proof. intros [H _] ->. cbn in H. lia. Qed.
Lemma sign_split (b b' : bool) d d' r r' : all_digits d -> all_digits d' -> 1 <= slen d -> 1 <= slen d' ->
  ((if b then "-" else "") ++ d ++ r = (if b' then "-" else "") ++ d' ++ r')%string -> b = b' /\ (d ++ r = d' ++ r')%string.
Proof.
  intros H H' L L' E. destruct d as [|c d]; [cbn in L; lia|]. destruct d' as [|c' d']; [cbn in L'; lia|].
  destruct b, b'; cbn [append] in E; [injection E as -> E; cbn [append]; rewrite E; auto| | |auto].
  - injection E as E _. symmetry in E. destruct (digit_first _ _ H' E).
  - injection E as E _. destruct (digit_first _ _ H E).
Qed.
Lemma dec_inj z z' : dec z = dec z' -> z = z'.
Proof.
  intros E. destruct (C77_text_of_an_integer z) as (s & d & E1 & -> & D1 & P1 & R1). destruct (C77_text_of_an_integer z') as (s' & d' & E2 & -> & D2 & P2 & R2).
  rewrite E1, E2 in E. destruct (sign_split (z <? 0)%Z (z' <? 0)%Z d d' "" "" D1 D2 (proj1 P1) (proj1 P2)) as [HS HD]; [rewrite !sapp_nil; exact E|]. rewrite !sapp_nil in HD. subst d'. lia.
Qed.
Lemma i32_inj a b : label_ok a -> label_ok b -> i32_of_u32 a = i32_of_u32 b -> a = b.
Proof. unfold label_ok, i32_of_u32, M32. intros. destruct (Z.ltb_spec a 2147483648), (Z.ltb_spec b 2147483648); lia. Qed.
Lemma fmt_numeric nan p x : nan_text nan -> every numeric (fmt nan p x) = true /\ 1 <= slen (fmt nan p x).
Proof.
  intros HN. destruct (is_finite x) eqn:F.
  - destruct (C77_text_of_a_double nan p x F) as (s & w & f & -> & -> & D1 & P1 & D2 & _). rewrite !every_app, (every_digits _ D1), (every_digits _ D2), !slen_app. cbn [every numeric String.length].
    split; [destruct (Bsign x); reflexivity|]. lia.
  - destruct x as [s|s| |s m e B]; try discriminate F; cbn [fmt]; [destruct s; cbn; split; [reflexivity|lia|reflexivity|lia]|]. destruct HN as [->| ->]; cbn; (split; [reflexivity|lia]).
Qed.
Fixpoint dotted (s : string) : bool := match s with EmptyString => false | String c r => Ascii.eqb c "." || dotted r end.
Lemma dotted_app a b : dotted (a ++ b)%string = dotted a || dotted b.
Proof. induction a as [|c a IH]; cbn [append dotted]; [reflexivity|]. rewrite IH. destruct (Ascii.eqb c "."); reflexivity. Qed.
Lemma fmt_dotted nan p x : nan_text nan -> dotted (fmt nan p x) = is_finite x.
Proof.
  intros HN. destruct (is_finite x) eqn:F.
  - destruct (C77_text_of_a_double nan p x F) as (s & w & f & -> & _). rewrite !dotted_app. cbn [dotted Ascii.eqb Bool.eqb orb]. rewrite !orb_true_r. reflexivity.
  - destruct x as [s|s| |s m e B]; try discriminate F; cbn [fmt]; [destruct s; reflexivity|]. destruct HN as [->| ->]; reflexivity.
Qed.
Lemma digits_no_dot d : all_digits d -> every (fun c => negb (Ascii.eqb c ".")) d = true.
Proof.
  induction d as [|c d IH]; [reflexivity|]. intros [Hc Hd]. cbn [every]. rewrite (IH Hd), andb_true_r. destruct (Ascii.eqb_spec c "."); [|reflexivity]. subst c. cbn in Hc. lia.
Qed.
Lemma fmt_agree nan p x y : nan_text nan -> fmt nan p x = fmt nan p y -> agree p x y.
Proof.
  intros HN E. assert (HF : is_finite x = is_finite y) by (rewrite <- (fmt_dotted nan p x HN), <- (fmt_dotted nan p y HN), E; reflexivity).
  destruct (is_finite x) eqn:F; symmetry in HF.
  - assert (HA : (Rabs (B2R x - B2R y) <= / 10 ^ p)%R).
    { destruct (C77_text_of_a_double nan p x F) as (s & w & f & E1 & -> & D1 & P1 & D2 & L1 & A1 & _). destruct (C77_text_of_a_double nan p y HF) as (s' & w' & f' & E2 & -> & D1' & P1' & D2' & L1' & A1' & _).
      rewrite E1, E2 in E. apply sign_split in E; [|exact D1|exact D1'|apply P1|apply P1']. destruct E as [HS E]. cbn [append] in E.
      apply (cut (fun c => negb (Ascii.eqb c "."))) in E; [|reflexivity|apply digits_no_dot; assumption|apply digits_no_dot; assumption]. destruct E as [<- <-].
      set (q := (IZR (read 0 w) + IZR (read 0 f) / 10 ^ p)%R) in *. set (h := (/ 10 ^ p)%R) in *.
      replace (/ 2 / 10 ^ p)%R with (h / 2)%R in A1, A1' by (unfold h; field; apply pow_nonzero; lra). 
      assert (HX : (Rabs (Rabs (B2R x) - Rabs (B2R y)) <= h)%R).
      { apply Rabs_le. apply Rabs_le_inv in A1, A1'. split; lra. }
      assert (SX : forall z : f64, is_finite z = true -> B2R z = (if Bsign z then - Rabs (B2R z) else Rabs (B2R z))%R).
      { intros [[|]|sg| |sg m e B] Fz; try discriminate Fz; cbn [Bsign B2R]; rewrite ?Rabs_R0; try lra.
        destruct sg; cbn [cond_Zopp]; [rewrite Rabs_left1|rewrite Rabs_pos_eq]; try lra; [apply F2R_le_0|apply F2R_ge_0]; cbn; lia. }
      rewrite (SX x F), (SX y HF), <- HS. destruct (Bsign x); [|exact HX]. replace (- Rabs (B2R x) - - Rabs (B2R y))%R with (- (Rabs (B2R x) - Rabs (B2R y)))%R by ring. rewrite Rabs_Ropp. exact HX. }
    unfold agree. destruct x, y; try discriminate F; try discriminate HF; auto.
  - destruct x as [s|s| |s m e B]; try discriminate F; destruct y as [s'|s'| |s' m' e' B']; try discriminate HF; cbn [fmt minus] in E; cbn [agree]; try exact I.
    + destruct s, s'; try reflexivity; discriminate E.
    + exfalso. destruct HN as [->| ->]; destruct s; discriminate E.
    + exfalso. destruct HN as [->| ->]; destruct s'; discriminate E.
Qed.

(** ** Cluster maps *)
Definition member_text (v : Z) : string := (dec (i32_of_u32 v) ++ " ")%string.
Definition cluster_text (e : Z * list Z) : string := (dec (i32_of_u32 (fst e)) ++ " -> [" ++ cat (map member_text (snd e)) ++ "]" ++ newline)%string.
Definition size_text (e : Z * list Z) : string := (dec (i32_of_u32 (fst e)) ++ " : " ++ dec (Z.of_nat (length (snd e))) ++ newline)%string.
Lemma map_text m : cpp_print_cluster_map m = Ok (cat (map cluster_text m)).
Proof.
  apply print_all_ok. intros [c l] _. cbn [fst snd]. rewrite (print_pos _ member_text l).
  - cbn [printf bind]. unfold cluster_text. cbn [fst snd]. repeat (cbn [append]; rewrite <- ?sapp_assoc). reflexivity.
  - intros i x Hi. unfold aget. rewrite Hi. reflexivity.
Qed.
Lemma sizes_text m : cpp_print_cluster_sizes m = Ok (cat (map size_text m)).
Proof. apply print_all_ok. reflexivity. Qed.
Lemma member_inj x y s s' : label_ok x -> label_ok y -> (member_text x ++ s = member_text y ++ s')%string -> x = y /\ s = s'.
Proof.
  intros Hx Hy E. unfold member_text in E. rewrite <- !sapp_assoc in E. cbn [append] in E. apply cut_num in E; [|reflexivity|apply dec_numeric|apply dec_numeric].
  destruct E as [E ->]. split; [|reflexivity]. apply i32_inj; auto using dec_inj.
Qed.
Definition entry_ok (e : Z * list Z) : Prop := label_ok (fst e) /\ Forall label_ok (snd e).
Lemma Forall2_eq {A} (l l' : list A) : Forall2 eq l l' -> l = l'.
Proof. induction 1; congruence. Qed.
Lemma cluster_inj e f s s' : entry_ok e -> entry_ok f -> (cluster_text e ++ s = cluster_text f ++ s')%string -> e = f /\ s = s'.
Proof.
  destruct e as [c l], f as [d l']. intros [H1 H2] [H3 H4] E. cbn [fst snd] in *. unfold cluster_text in E. cbn [fst snd] in E. repeat (cbn [append] in E; rewrite <- ?sapp_assoc in E).
  apply cut_num in E; [|reflexivity|apply dec_numeric|apply dec_numeric]. destruct E as [E E']. apply dec_inj, i32_inj in E; [|assumption|assumption]. subst d.
  injection E' as E'. 
  apply (lines_inj member_text label_ok eq stops) in E'; [|exact member_inj| |exact H2|exact H4|reflexivity|reflexivity].
  - destruct E' as [E' E'']. apply Forall2_eq in E'. subst l'. injection E'' as ->. auto.
  - intros x r _. unfold member_text. rewrite <- sapp_assoc. apply no_stop; apply dec_numeric.
Qed.
Lemma cluster_starts e s : ~ stops (cluster_text e ++ s)%string.
Proof. unfold cluster_text. rewrite <- sapp_assoc. apply no_stop; apply dec_numeric. Qed.
Lemma cat_inj m m' : Forall entry_ok m -> Forall entry_ok m' -> cat (map cluster_text m) = cat (map cluster_text m') -> m = m'.
Proof.
  intros H H' E. apply Forall2_eq. apply (lines_inj cluster_text entry_ok eq stops cluster_inj (fun x s _ => cluster_starts x s) m m' "" "" H H' I I). rewrite !sapp_nil. exact E.
Qed.
Lemma map_entries labels m : Forall label_ok labels -> (Z.of_nat (length labels) <= M32)%Z -> cpp_lists labels 0 (length labels) m -> Forall entry_ok m.
Proof.
  intros HL HN [_ HI]. apply Forall_forall. intros [c l] Hin. apply HI in Hin. destruct Hin as [Hne ->]. split; cbn [fst snd].
  - destruct (indices labels 0 (length labels) c) as [|i r] eqn:Ei; [contradiction|]. assert (Hx : In i (indices labels 0 (length labels) c)) by (rewrite Ei; left; reflexivity).
    apply indices_in in Hx. rewrite Forall_forall in HL. apply HL, (nth_error_In _ i), Hx.
  - apply Forall_forall. intros z Hz. apply in_map_iff in Hz. destruct Hz as (i & <- & Hi). apply indices_in in Hi. unfold label_ok. lia.
Qed.
Lemma map_labels l1 l2 m : cpp_lists l1 0 (length l1) m -> cpp_lists l2 0 (length l2) m -> l1 = l2.
Proof.
  intros [_ H1] [_ H2]. apply nth_error_ext. intros i.
  assert (HH : forall l l' c, (forall c v, In (c, v) m <-> indices l 0 (length l) c <> [] /\ v = map Z.of_nat (indices l 0 (length l) c)) ->
    (forall c v, In (c, v) m <-> indices l' 0 (length l') c <> [] /\ v = map Z.of_nat (indices l' 0 (length l') c)) -> nth_error l i = Some c -> nth_error l' i = Some c).
  { intros l l' c A B E. assert (Hi : In i (indices l 0 (length l) c)) by (apply indices_in; split; [|exact E]; assert (i < length l) by (apply nth_error_Some; congruence); lia).
    destruct (proj1 (B c (map Z.of_nat (indices l 0 (length l) c)))) as [_ E'].
    - apply A. split; [intros X; rewrite X in Hi; destruct Hi|reflexivity].
    - apply (in_map Z.of_nat) in Hi. rewrite E' in Hi. apply in_map_iff in Hi. destruct Hi as (j & Ej & Hj). apply Nat2Z.inj in Ej. subst j. apply indices_in in Hj. apply Hj. }
  destruct (nth_error l1 i) as [c|] eqn:E; [symmetry; apply (HH l1 l2 c H1 H2 E)|]. destruct (nth_error l2 i) as [c|] eqn:E2; [|reflexivity]. rewrite (HH l2 l1 c H2 H1 E2) in E. discriminate E.
Qed.

(** The labels of all points can be read from the text of printClusterMap. *)
Theorem C102_labels_can_be_read_back : forall l1 l2,
  Forall (fun c => 0 <= c < 4294967296)%Z l1 -> Forall (fun c => 0 <= c < 4294967296)%Z l2 ->
  (Z.of_nat (length l1) < 4294967296)%Z -> (Z.of_nat (length l2) < 4294967296)%Z ->
  exists m1 m2 t1 t2,
    cpp_create_cluster_map l1 0 (Z.of_nat (length l1)) = Ok m1 /\ cpp_print_cluster_map m1 = Ok t1 /\
    cpp_create_cluster_map l2 0 (Z.of_nat (length l2)) = Ok m2 /\ cpp_print_cluster_map m2 = Ok t2 /\
    (t1 = t2 -> l1 = l2).
Proof.
  intros l1 l2 H1 H2 N1 N2. destruct (cpp_create_ok l1 0 (length l1) ltac:(lia)) as (m1 & E1 & L1). destruct (cpp_create_ok l2 0 (length l2) ltac:(lia)) as (m2 & E2 & L2).
  rewrite Nat.sub_0_r in L1, L2. do 4 eexists. split; [exact E1|]. split; [apply map_text|]. split; [exact E2|]. split; [apply map_text|]. intros E.
  apply cat_inj in E; [subst m2; apply (map_labels _ _ _ L1 L2)|apply (map_entries l1 m1 H1); [unfold M32; lia|exact L1]|apply (map_entries l2 m2 H2); [unfold M32; lia|exact L2]].
Qed.

Lemma indices_count labels c : length (indices labels 0 (length labels) c) = count_occ Z.eq_dec labels c.
Proof.
  unfold indices. induction labels as [|x l IH] using rev_ind; [reflexivity|]. rewrite app_length, count_occ_app. cbn [List.length]. rewrite Nat.add_comm. cbn [Nat.add]. rewrite seq_S, filter_app, app_length.
  rewrite <- IH. f_equal.
  - f_equal. apply filter_ext_in. intros i Hi. apply in_seq in Hi. rewrite nth_error_app1 by lia. reflexivity.
  - cbn [filter Nat.add]. rewrite nth_error_app2, Nat.sub_diag by lia. cbn [nth_error count_occ]. destruct (Z.eqb_spec x c), (Z.eq_dec x c); try contradiction; reflexivity.
Qed.
Lemma size_inj e f s s' : entry_ok e -> entry_ok f -> (size_text e ++ s = size_text f ++ s')%string -> (fst e = fst f /\ length (snd e) = length (snd f)) /\ s = s'.
Proof.
  intros [H1 _] [H2 _] E. unfold size_text in E. repeat (cbn [append] in E; rewrite <- ?sapp_assoc in E).
  apply cut_num in E; [|reflexivity|apply dec_numeric|apply dec_numeric]. destruct E as [E E']. apply dec_inj, i32_inj in E; [|assumption|assumption].
  injection E' as E'. unfold newline in E'. cbn [append] in E'. apply cut_num in E'; [|reflexivity|apply dec_numeric|apply dec_numeric]. destruct E' as [E' ->]. apply dec_inj, Nat2Z.inj in E'. auto.
Qed.
Lemma sizes_inj m m' : Forall entry_ok m -> Forall entry_ok m' -> cat (map size_text m) = cat (map size_text m') ->
  map (fun e => (fst e, length (snd e))) m = map (fun e => (fst e, length (snd e))) m'.
Proof.
  intros H H' E. assert (HF : Forall2 (fun e f => fst e = fst f /\ length (snd e) = length (snd f)) m m').
  { apply (lines_inj size_text entry_ok _ stops size_inj) with (r := ""%string) (r' := ""%string); try assumption; try exact I; [|rewrite !sapp_nil; exact E].
    intros x s _. unfold size_text. rewrite <- sapp_assoc. apply no_stop; apply dec_numeric. }
  clear - HF. induction HF as [|e f l l' [H1 H2] _ IH]; [reflexivity|]. cbn [map]. rewrite IH, H1, H2. reflexivity.
Qed.
Lemma sizes_count labels m c : cpp_lists labels 0 (length labels) m -> count_occ Z.eq_dec labels c = match sm_find (map (fun e => (fst e, length (snd e))) m) c with Some n => n | None => 0 end.
Proof.
  intros [HO HI]. rewrite <- indices_count. assert (HM : forall l : smap (list Z), sm_find (map (fun e => (fst e, length (snd e))) l) c = option_map (@List.length Z) (sm_find l c)).
  { induction l as [|[k v] l IH]; [reflexivity|]. cbn [map sm_find fst snd]. destruct (c =? k)%Z; [reflexivity|exact IH]. }
  rewrite HM. destruct (sm_find m c) as [l|] eqn:E; cbn [option_map].
  - apply (sm_find_in m c l HO) in E. apply HI in E. destruct E as [_ ->]. rewrite map_length. reflexivity.
  - destruct (indices labels 0 (length labels) c) as [|i r] eqn:Ei; [reflexivity|]. exfalso. apply sm_find_none in E. apply E.
    change c with (fst (c, map Z.of_nat (i :: r))). apply in_map, HI. rewrite Ei. split; [discriminate|reflexivity].
Qed.
Lemma sorted_ext (l : list Z) : forall l', StronglySorted Z.lt l -> StronglySorted Z.lt l' -> (forall x, In x l <-> In x l') -> l = l'.
Proof.
  induction l as [|x l IH]; intros [|y l'] H H' HE; [reflexivity|destruct (proj2 (HE y) (or_introl eq_refl))|destruct (proj1 (HE x) (or_introl eq_refl))|].
  inversion_clear H. inversion_clear H'. rewrite Forall_forall in *. assert (x = y).
  { destruct (proj1 (HE x) (or_introl eq_refl)) as [|A]; [congruence|]. destruct (proj2 (HE y) (or_introl eq_refl)) as [|B]; [congruence|]. specialize (H1 _ B). specialize (H2 _ A). lia. }
  subst y. f_equal. apply IH; auto. intros z. split; intros Hz.
  - destruct (proj1 (HE z) (or_intror Hz)) as [<-|]; [|assumption]. specialize (H1 _ Hz). lia.
  - destruct (proj2 (HE z) (or_intror Hz)) as [<-|]; [|assumption]. specialize (H2 _ Hz). lia.
Qed.
Lemma map_of_keys labels m : cpp_lists labels 0 (length labels) m -> m = map (fun c => (c, map Z.of_nat (positions labels c))) (map fst m).
Proof.
  intros [_ HI]. rewrite map_map. rewrite <- (map_id m) at 1. apply map_ext_in. intros [c l] Hin. cbn [fst]. apply HI in Hin. destruct Hin as [_ ->]. reflexivity.
Qed.
Lemma lists_keys_in labels m c : cpp_lists labels 0 (length labels) m -> In c (map fst m) <-> In c labels.
Proof.
  intros HL. rewrite (cpp_lists_keys _ _ _ _ _ HL). pose proof (indices_some labels 0 (length labels) c ltac:(lia)) as HS. rewrite Nat.sub_0_r in HS. rewrite HS. split.
  - intros (i & _ & H). apply (nth_error_In _ i H).
  - intros H. apply In_nth_error in H. destruct H as (i & H). exists i. split; [|exact H]. assert (i < length labels) by (apply nth_error_Some; congruence). lia.
Qed.
(** The number of points with each label can be read from the text of printClusterSizes, and
    nothing more. *)
Theorem C102_sizes_can_be_read_back : forall l1 l2,
  Forall (fun c => 0 <= c < 4294967296)%Z l1 -> Forall (fun c => 0 <= c < 4294967296)%Z l2 ->
  (Z.of_nat (length l1) < 4294967296)%Z -> (Z.of_nat (length l2) < 4294967296)%Z ->
  exists m1 m2 t1 t2,
    cpp_create_cluster_map l1 0 (Z.of_nat (length l1)) = Ok m1 /\ cpp_print_cluster_sizes m1 = Ok t1 /\
    cpp_create_cluster_map l2 0 (Z.of_nat (length l2)) = Ok m2 /\ cpp_print_cluster_sizes m2 = Ok t2 /\
    (t1 = t2 <-> forall c, count_occ Z.eq_dec l1 c = count_occ Z.eq_dec l2 c).
Proof.
  intros l1 l2 H1 H2 N1 N2. destruct (cpp_create_ok l1 0 (length l1) ltac:(lia)) as (m1 & E1 & L1). destruct (cpp_create_ok l2 0 (length l2) ltac:(lia)) as (m2 & E2 & L2).
  rewrite Nat.sub_0_r in L1, L2. do 4 eexists. split; [exact E1|]. split; [apply sizes_text|]. split; [exact E2|]. split; [apply sizes_text|]. split.
  - intros E c. apply sizes_inj in E; [|apply (map_entries l1 m1 H1); [unfold M32; lia|exact L1]|apply (map_entries l2 m2 H2); [unfold M32; lia|exact L2]].
    rewrite (sizes_count _ _ c L1), (sizes_count _ _ c L2), E. reflexivity.
  - intros HC. rewrite (map_of_keys _ _ L1), (map_of_keys _ _ L2). replace (map fst m2) with (map fst m1).
    + rewrite !map_map. f_equal. apply map_ext. intros e. unfold size_text. cbn [fst snd]. rewrite !map_length. unfold positions. rewrite !indices_count, HC. reflexivity.
    + apply sorted_ext; [apply L1|apply L2|]. intros c. rewrite (lists_keys_in _ _ c L1), (lists_keys_in _ _ c L2), !(count_occ_In Z.eq_dec), HC. reflexivity.
Qed.

(** ** C and C++ write the same *)
Theorem C102_c_and_cpp_print_the_same : forall date labels,
  Forall (fun c => 0 <= c < 2147483648)%Z labels -> 3 <= length labels -> (Z.of_nat (length labels) < 2147483648)%Z ->
  exists t m text sizes,
    create_cluster_map labels 0 (Z.of_nat (length labels)) = Ok t /\ cpp_create_cluster_map labels 0 (Z.of_nat (length labels)) = Ok m /\
    print_cluster_map date t = Ok text /\ cpp_print_cluster_map m = Ok text /\
    print_cluster_sizes date t = Ok sizes /\ cpp_print_cluster_sizes m = Ok sizes.
Proof.
  intros date labels HF H3 HM. destruct (C80_cluster_map_print date labels HF H3 HM) as (t & keys & E & HS & HK & P1 & P2).
  destruct (cpp_create_ok labels 0 (length labels) ltac:(lia)) as (m & E' & HL). rewrite Nat.sub_0_r in HL.
  do 4 eexists. split; [exact E|]. split; [exact E'|]. split; [exact P1|].
  assert (EK : map fst m = keys) by (apply sorted_ext; [apply HL|exact HS|]; intros c; rewrite (lists_keys_in _ _ c HL), HK; reflexivity).
  assert (HD : forall c, In c keys -> i32_of_u32 c = c) by (intros c Hc; apply HK in Hc; rewrite Forall_forall in HF; apply dec_i32, HF, Hc).
  split; [|split; [exact P2|]].
  - rewrite map_text, (map_of_keys _ _ HL), EK, map_map. do 2 f_equal. apply map_ext_in. intros c Hc. unfold cluster_text. cbn [fst snd]. rewrite (HD c Hc), map_map. do 3 f_equal. f_equal.
    apply map_ext_in. intros i Hi. apply indices_in in Hi. unfold member_text. rewrite (proj1 (dec_i32 (Z.of_nat i) ltac:(lia))). reflexivity.
  - rewrite sizes_text, (map_of_keys _ _ HL), EK, map_map. do 2 f_equal. apply map_ext_in. intros c Hc. unfold size_text. cbn [fst snd]. rewrite (HD c Hc), map_length. reflexivity.
Qed.
(** So the labels can be read from what C writes. *)
Theorem C102_labels_can_be_read_back_from_c : forall date l1 l2,
  Forall (fun c => 0 <= c < 2147483648)%Z l1 -> Forall (fun c => 0 <= c < 2147483648)%Z l2 ->
  3 <= length l1 -> 3 <= length l2 -> (Z.of_nat (length l1) < 2147483648)%Z -> (Z.of_nat (length l2) < 2147483648)%Z ->
  exists m1 m2 t1 t2,
    create_cluster_map l1 0 (Z.of_nat (length l1)) = Ok m1 /\ print_cluster_map date m1 = Ok t1 /\
    create_cluster_map l2 0 (Z.of_nat (length l2)) = Ok m2 /\ print_cluster_map date m2 = Ok t2 /\
    (t1 = t2 -> l1 = l2).
Proof.
  intros date l1 l2 F1 F2 G1 G2 N1 N2. destruct (C102_c_and_cpp_print_the_same date l1 F1 G1 N1) as (a & m & t & z & A1 & A2 & A3 & A4 & _).
  destruct (C102_c_and_cpp_print_the_same date l2 F2 G2 N2) as (a' & m' & t' & z' & B1 & B2 & B3 & B4 & _).
  exists a, a', t, t'. split; [exact A1|]. split; [exact A3|]. split; [exact B1|]. split; [exact B3|]. intros E.
  destruct (C102_labels_can_be_read_back l1 l2) as (x & x' & y & y' & X1 & X2 & X3 & X4 & X5); try lia; try (eapply Forall_impl; [|eassumption]; intros c Hc; cbv beta in *; lia).
  apply X5. congruence.
Qed.

(** ** Distance maps *)
Section Doubles.
Variable nan : string.
Hypothesis Hnan : nan_text nan.
Definition vals_text (e : Z * dvals) : string :=
  (dec (i32_of_u32 (fst e)) ++ " -> {" ++ newline ++
   "min_cr : " ++ fmt nan 6 (v_min_cr (snd e)) ++ ", max_cr : " ++ fmt nan 6 (v_max_cr (snd e)) ++ ", cr_confidence : " ++ fmt nan 6 (v_cr_conf (snd e)) ++ newline ++
   "min_dr : " ++ fmt nan 6 (v_min_dr (snd e)) ++ ", max_dr : " ++ fmt nan 6 (v_max_dr (snd e)) ++ ", dr_confidence : " ++ fmt nan 6 (v_dr_conf (snd e)) ++ newline ++
   "}" ++ newline ++ newline)%string.
Definition vals_map_text (m : smap dvals) : string :=
  (newline ++ slashes 40 ++ " Distances " ++ slashes 47 ++ newline ++ cat (map vals_text m) ++ slashes 87 ++ newline ++ newline)%string.
Lemma vals_printed m : cpp_print_distance_map nan m = Ok (vals_map_text m).
Proof.
  unfold cpp_print_distance_map. rewrite (print_all_ok _ vals_text).
  - cbn [printf bind]. unfold vals_map_text. repeat (cbn [append]; rewrite <- ?sapp_assoc). reflexivity.
  - intros e _. cbn [printf bind]. unfold vals_text. repeat (cbn [append]; rewrite <- ?sapp_assoc). reflexivity.
Qed.
Lemma field p x y c s s' : numeric c = false -> (fmt nan p x ++ String c s = fmt nan p y ++ String c s')%string -> agree p x y /\ s = s'.
Proof. intros Hc E. apply cut_num in E; [|exact Hc|apply fmt_numeric, Hnan|apply fmt_numeric, Hnan]. destruct E as [E ->]. split; [apply (fmt_agree nan p _ _ Hnan E)|reflexivity]. Qed.
Lemma vals_inj e f s s' : label_ok (fst e) -> label_ok (fst f) -> (vals_text e ++ s = vals_text f ++ s')%string -> (fst e = fst f /\ agree_vals (snd e) (snd f)) /\ s = s'.
Proof.
  intros H1 H2 E. unfold vals_text, newline in E. repeat (cbn [append] in E; rewrite <- ?sapp_assoc in E).
  apply cut_num in E; [|reflexivity|apply dec_numeric|apply dec_numeric]. destruct E as [E E']. apply dec_inj, i32_inj in E; [|assumption|assumption]. rename E' into F.
  injection F as F. apply field in F; [|reflexivity]. destruct F as [A1 F]. injection F as F. apply field in F; [|reflexivity]. destruct F as [A2 F]. injection F as F. apply field in F; [|reflexivity]. destruct F as [A3 F].
  injection F as F. apply field in F; [|reflexivity]. destruct F as [A4 F]. injection F as F. apply field in F; [|reflexivity]. destruct F as [A5 F]. injection F as F. apply field in F; [|reflexivity]. destruct F as [A6 F].
  injection F as ->. unfold agree_vals. auto 10.
Qed.
(** Every distance map prints, however large its values; the labels and the values to six digits
    can be read back. *)
Theorem C102_distance_map_can_be_read_back : forall m1 m2 : smap dvals,
  Forall (fun e => 0 <= fst e < 4294967296)%Z m1 -> Forall (fun e => 0 <= fst e < 4294967296)%Z m2 ->
  exists t1 t2, cpp_print_distance_map nan m1 = Ok t1 /\ cpp_print_distance_map nan m2 = Ok t2 /\
    (t1 = t2 -> Forall2 (fun e f => fst e = fst f /\ agree_vals (snd e) (snd f)) m1 m2).
Proof.
  intros m1 m2 H1 H2. do 2 eexists. split; [apply vals_printed|]. split; [apply vals_printed|]. intros E. unfold vals_map_text in E. do 5 apply keep in E.
  apply (lines_inj vals_text (fun e => label_ok (fst e)) _ stops vals_inj) in E; [apply E| |exact H1|exact H2|reflexivity|reflexivity].
  intros x s _. unfold vals_text. rewrite <- sapp_assoc. apply no_stop; apply dec_numeric.
Qed.

(** ** All distances *)
Lemma nth_error_seq a n i : i < n -> nth_error (seq a n) i = Some (a + i).
Proof. revert a i. induction n as [|n IH]; intros a [|i] H; [lia|lia|cbn [seq nth_error]; f_equal; lia|]. cbn [seq nth_error]. rewrite IH by lia. f_equal. lia. Qed.
Definition row_text (l : list f64) : string := ("[" ++ cat (map (fun v => fmt nan 6 v ++ " ") l) ++ "]" ++ newline)%string.
Lemma row_inj l l' s s' : (row_text l ++ s = row_text l' ++ s')%string -> Forall2 (agree 6) l l' /\ s = s'.
Proof.
  intros E. unfold row_text in E. repeat (cbn [append] in E; rewrite <- ?sapp_assoc in E). injection E as E.
  apply (lines_inj (fun v => fmt nan 6 v ++ " ")%string (fun _ => True) (agree 6) stops) in E; [| | |apply Forall_forall; auto|apply Forall_forall; auto|reflexivity|reflexivity].
  - destruct E as [E E']. injection E' as ->. auto.
  - intros x y r r' _ _ F. rewrite <- !sapp_assoc in F. cbn [append] in F. apply field in F; [exact F|reflexivity].
  - intros x r _. rewrite <- sapp_assoc. apply no_stop; apply fmt_numeric, Hnan.
Qed.
(** The distance of points i and j of a data set. *)
Definition table_of (ds : dataset) (rows cols : nat) : list (list f64) :=
  map (fun i => map (fun j => if i =? j then fzero else euclidean ds cols (Nat.min i j) (Nat.max i j)) (seq 0 rows)) (seq 0 rows).
Theorem C102_print_distances : forall ds rows cols k, 1 <= rows -> (Z.of_nat rows <= 65536)%Z -> holds ds rows cols -> (0 <= k < M32 - 1)%Z ->
  exists d, distance_compute ds rows cols k = Ok d /\
    print_distances nan d rows = Ok (cat (map row_text (table_of ds rows cols)) ++ newline)%string.
Proof.
  intros ds rows cols k H1 Hr HL Hk. destruct (C15_distance_get_euclidean ds rows cols k H1 Hr HL Hk) as (d & Ed & _ & _ & _ & HG). exists d. split; [exact Ed|].
  unfold print_distances. unfold table_of. rewrite map_map. rewrite (print_all_ok _ (fun i : nat => row_text (map (fun j => if i =? j then fzero else euclidean ds cols (Nat.min i j) (Nat.max i j)) (seq 0 rows)))); [reflexivity|].
  intros i Hi. apply in_seq in Hi. rewrite (print_all_ok _ (fun j : nat => fmt nan 6 (if Nat.eqb i j then fzero else euclidean ds cols (Nat.min i j) (Nat.max i j)) ++ " ")%string).
  - cbn [printf bind]. unfold row_text. rewrite map_map. repeat (cbn [append]; rewrite <- ?sapp_assoc). reflexivity.
  - intros j Hj. apply in_seq in Hj. destruct (HG i j ltac:(lia) ltac:(lia)) as [-> _]. reflexivity.
Qed.
Theorem C102_distances_can_be_read_back : forall ds ds' rows rows' cols cols' k k',
  1 <= rows -> (Z.of_nat rows <= 65536)%Z -> holds ds rows cols -> (0 <= k < M32 - 1)%Z ->
  1 <= rows' -> (Z.of_nat rows' <= 65536)%Z -> holds ds' rows' cols' -> (0 <= k' < M32 - 1)%Z ->
  exists d d' t t', distance_compute ds rows cols k = Ok d /\ distance_compute ds' rows' cols' k' = Ok d' /\
    print_distances nan d rows = Ok t /\ print_distances nan d' rows' = Ok t' /\
    (t = t' -> rows = rows' /\ forall i j, i < j -> j < rows -> agree 6 (euclidean ds cols i j) (euclidean ds' cols' i j)).
Proof.
  intros ds ds' rows rows' cols cols' k k' A1 A2 A3 A4 B1 B2 B3 B4.
  destruct (C102_print_distances ds rows cols k A1 A2 A3 A4) as (d & Ed & Pd). destruct (C102_print_distances ds' rows' cols' k' B1 B2 B3 B4) as (d' & Ed' & Pd').
  exists d, d'. do 2 eexists. split; [exact Ed|]. split; [exact Ed'|]. split; [exact Pd|]. split; [exact Pd'|]. intros E.
  apply (lines_inj row_text (fun _ => True) (Forall2 (agree 6)) (fun r => r = newline)) in E; [| | |apply Forall_forall; auto|apply Forall_forall; auto|reflexivity|reflexivity].
  - destruct E as [E _]. assert (HL : rows = rows').
    { clear - E. assert (X : forall l l', Forall2 (Forall2 (agree 6)) l l' -> length l = length l') by (induction 1; cbn [List.length]; congruence). apply X in E. unfold table_of in E. rewrite !map_length, !seq_length in E. exact E. }
    split; [exact HL|]. subst rows'. intros i j Hij Hj.
    assert (HN : forall T (R : T -> T -> Prop) l l', Forall2 R l l' -> forall n x y, nth_error l n = Some x -> nth_error l' n = Some y -> R x y).
    { intros T R l l' HF. induction HF as [|x y l l' Hxy _ IH]; intros [|n] a b; cbn [nth_error]; try discriminate; [congruence|apply IH]. }
    assert (HR : forall dd cc i, i < rows -> nth_error (table_of dd rows cc) i = Some (map (fun j => if i =? j then fzero else euclidean dd cc (Nat.min i j) (Nat.max i j)) (seq 0 rows))).
    { intros dd cc i0 Hi. unfold table_of. rewrite nth_error_map. rewrite nth_error_seq by exact Hi. reflexivity. }
    pose proof (HN _ _ _ _ E i _ _ (HR ds cols i ltac:(lia)) (HR ds' cols' i ltac:(lia))) as E'.
    assert (HC : forall dd cc, nth_error (map (fun j => if i =? j then fzero else euclidean dd cc (Nat.min i j) (Nat.max i j)) (seq 0 rows)) j = Some (euclidean dd cc i j)).
    { intros dd cc. rewrite nth_error_map. rewrite nth_error_seq by exact Hj. cbn [option_map Nat.add]. replace (i =? j) with false by lia. rewrite Nat.min_l, Nat.max_r by lia. reflexivity. }
    exact (HN _ _ _ _ E' j _ _ (HC ds cols) (HC ds' cols')).
  - intros x y r r' _ _. apply row_inj.
  - intros x r _ H. discriminate H.
Qed.

(** ** The candidates for the tree *)
(** Three lists of one length: a line for each of their elements.  A shorter second or third
    list is read past its end. *)
Theorem C102_graph_components : forall near others ds l1 l2 l3, stores near l1 -> stores others l2 -> stores ds l3 ->
  length l1 <= length l2 -> length l1 <= length l3 -> Forall vertex l1 -> Forall vertex l2 ->
  print_graph_components nan near others ds =
    Ok (string_of_list_ascii (repeat ">"%char 48) ++ "nearestMRDNeighbors" ++ string_of_list_ascii (repeat ">"%char 55) ++ newline ++
        cat (map (fun p => dec (Z.of_nat (fst p)) ++ " --- (" ++ dec (fst (snd p)) ++ ", " ++ dec (fst (snd (snd p))) ++ ") : " ++ fmt nan 6 (snd (snd (snd p))) ++ newline)
             (combine (seq 0 (length l1)) (combine l1 (combine l2 l3)))) ++
        newline ++ string_of_list_ascii (repeat ">"%char 103) ++ newline ++ newline ++ newline ++ newline)%string.
Proof.
  intros near others ds l1 l2 l3 [S1 F1] [S2 F2] [S3 F3] L2 L3 V1 V2.
  assert (HS : forall A (al : alist A) l, al_size al = length l -> firstn (al_size al) (al_data al) = map Some l -> forall i a, nth_error l i = Some a -> slot (al_data al) i = Ok a).
  { intros A al l HA HF i a Hi. unfold slot. assert (Hlt : i < al_size al) by (rewrite HA; apply nth_error_Some; congruence).
    assert (E : nth_error (firstn (al_size al) (al_data al)) i = Some (Some a)) by (rewrite HF, nth_error_map, Hi; reflexivity).
    rewrite nth_error_firstn in E. apply Nat.ltb_lt in Hlt. rewrite Hlt in E. rewrite E. reflexivity. }
  unfold print_graph_components. set (lines := combine (seq 0 (length l1)) (combine l1 (combine l2 l3))).
  assert (HLen : length lines = length l1) by (unfold lines; rewrite !combine_length, seq_length; lia).
  rewrite S1, <- HLen. rewrite (print_pos _ (fun p => dec (Z.of_nat (fst p)) ++ " --- (" ++ dec (fst (snd p)) ++ ", " ++ dec (fst (snd (snd p))) ++ ") : " ++ fmt nan 6 (snd (snd (snd p))) ++ newline)%string lines).
  - cbn [printf bind]. repeat (cbn [append]; rewrite <- ?sapp_assoc). reflexivity.
  - intros i [n [a [b c]]] Hi. assert (HC : forall A B (l : list A) (l' : list B) j x y, nth_error (combine l l') j = Some (x, y) -> nth_error l j = Some x /\ nth_error l' j = Some y).
    { clear. intros A B. induction l as [|x0 l IH]; intros [|y0 l'] [|j] x y; cbn [combine nth_error]; try discriminate; [|apply IH]. intros E. injection E as -> ->. auto. }
    apply HC in Hi. destruct Hi as [H1 Hi]. apply HC in Hi. destruct Hi as [H2 Hi]. apply HC in Hi. destruct Hi as [H3 H4].
    assert (Hlt : i < length l1) by (apply nth_error_Some; congruence). rewrite nth_error_seq in H1 by exact Hlt. injection H1 as <-. cbn [fst snd Nat.add].
    rewrite (HS _ _ _ S1 F1 _ _ H2), (HS _ _ _ S2 F2 _ _ H3), (HS _ _ _ S3 F3 _ _ H4). cbn [bind printf].
    rewrite Forall_forall in V1, V2. rewrite (proj1 (vertex_text a (V1 _ (nth_error_In _ _ H2)))), (proj1 (vertex_text b (V2 _ (nth_error_In _ _ H3)))). reflexivity.
Qed.
End Doubles.
Print Assumptions C102_labels_can_be_read_back.
Print Assumptions C102_sizes_can_be_read_back.
Print Assumptions C102_c_and_cpp_print_the_same.
Print Assumptions C102_labels_can_be_read_back_from_c.
Print Assumptions C102_distance_map_can_be_read_back.
Print Assumptions C102_print_distances.
Print Assumptions C102_distances_can_be_read_back.
Print Assumptions C102_graph_components.

(** ** Non-vacuity *)
Example C102_map_example :
  match cpp_create_cluster_map [2; 0; 4294967295; 3; 0]%Z 0 5 with
  | Ok m => cpp_print_cluster_map m = Ok ("0 -> [1 4 ]" ++ newline ++ "2 -> [0 ]" ++ newline ++ "3 -> [3 ]" ++ newline ++ "-1 -> [2 ]" ++ newline)%string /\
            cpp_print_cluster_sizes m = Ok ("0 : 2" ++ newline ++ "2 : 1" ++ newline ++ "3 : 1" ++ newline ++ "-1 : 1" ++ newline)%string
  | _ => False end.
Proof. vm_compute. split; reflexivity. Qed.
(** The same map overflows the buffer of the C function (C80). *)
Example C102_distance_map_example :
  match cpp_print_distance_map "nan" [(1, one_vals (f_of_Z (10 ^ 101)))]%Z with Ok t => slen t = 833 | _ => False end /\
  match vals_table (f_of_Z (10 ^ 101)) with Ok t => print_distance_map "nan" "" t = UB | _ => False end.
Proof. split; vm_compute; reflexivity. Qed.
Definition three_points : dataset := DInt [0; 0; 3; 4; 6; 8]%Z.
Example C102_distances_example :
  match distance_compute three_points 3 2 2 with
  | Ok d => print_distances "nan" d 3 = Ok ("[0.000000 5.000000 10.000000 ]" ++ newline ++ "[5.000000 0.000000 5.000000 ]" ++ newline ++ "[10.000000 5.000000 0.000000 ]" ++ newline ++ newline)%string
  | _ => False end.
Proof. vm_compute. reflexivity. Qed.
Example C102_components_example :
  match print_graph_components "nan" (AL [Some 1; Some 0]%Z 2 2) (AL [Some 0; Some 1]%Z 2 2) (AL [Some fone; Some fone] 2 2) with Ok _ => True | _ => False end /\
  print_graph_components "nan" (AL [Some 1; Some 0]%Z 2 2) (AL [Some 0]%Z 1 1) (AL [Some fone; Some fone] 2 2) = UB.
Proof. split; vm_compute; [exact I|reflexivity]. Qed.
