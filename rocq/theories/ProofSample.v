(** Proofs about the reader of the sample program. *)
From Verif Require Import Base F64 ListFacts ModelArrayList ProofArrayList ModelSample SpecSample.
From Coq Require Import ZifyBool ZifyNat.
Local Open Scope nat_scope.

Lemma delim_sep c : delim c = true <-> separator c \/ c = 10%Z.
Proof. unfold delim, separator. rewrite existsb_exists. cbn [In]. split; [intros (x & H & E); apply Z.eqb_eq in E; subst; intuition|intros H; exists c; rewrite Z.eqb_refl; intuition]. Qed.
Lemma not_delim c : ~ separator c -> c <> 10%Z -> delim c = false.
Proof. intros A B. destruct (delim c) eqn:E; [|reflexivity]. apply delim_sep in E. tauto. Qed.

Lemma strtoks_seps s l : Forall separator s -> strtoks (s ++ l) [] = strtoks l [].
Proof. induction 1 as [|c s H _ IH]; [reflexivity|]. cbn [app strtoks]. rewrite (proj2 (delim_sep c)) by auto. exact IH. Qed.
Lemma strtoks_word w l : (forall c, In c w -> delim c = false) -> forall cur, strtoks (w ++ l) cur = strtoks l (rev w ++ cur).
Proof.
  induction w as [|c w IH]; intros H cur; [reflexivity|]. cbn [app strtoks rev]. rewrite (H c) by now left. rewrite IH by (intros; apply H; now right).
  now rewrite <- app_assoc.
Qed.
Lemma strtoks_end l cur : cur <> [] -> (l = [] \/ exists c l', l = c :: l' /\ delim c = true) -> strtoks l cur = rev cur :: strtoks l [].
Proof.
  intros N [->|(c & l' & -> & D)]; cbn [strtoks]; [destruct cur; congruence|]. rewrite D. destruct cur; congruence.
Qed.
Definition newline_or_end (e : list Z) : Prop := e = [] \/ e = [10%Z].
Lemma strtoks_line ws t e : line_of ws t -> newline_or_end e -> strtoks (t ++ e) [] = ws.
Proof.
  intros H E. induction H as [s Hs|s w ws l Hs Hw Hl IH Hc].
  - rewrite strtoks_seps by exact Hs. destruct E as [->| ->]; reflexivity.
  - rewrite <- app_assoc. rewrite strtoks_seps by exact Hs. rewrite <- app_assoc.
    destruct Hw as (N & Hw & _). rewrite strtoks_word by (intros c Hi; destruct (Hw c Hi) as (A & B & _); now apply not_delim).
    rewrite app_nil_r. rewrite strtoks_end.
    + rewrite rev_involutive. now rewrite IH.
    + intros Q. apply N. rewrite <- (rev_involutive w), Q. reflexivity.
    + destruct Hc as [->|(c & l' & -> & S)].
      * cbn [app]. destruct E as [->| ->]; [now left|right; exists 10%Z, []; auto].
      * right. exists c, (l' ++ e). split; [reflexivity|]. apply delim_sep. now left.
Qed.
Lemma line_bytes ws t : line_of ws t -> forall c, In c t -> c <> 10%Z /\ c <> 0%Z.
Proof.
  assert (S : forall c, separator c -> c <> 10%Z /\ c <> 0%Z) by (unfold separator; cbn [In]; intuition lia).
  induction 1 as [s Hs|s w ws l Hs Hw Hl IH Hc]; intros c Hi; [rewrite Forall_forall in Hs; auto|].
  apply in_app_or in Hi as [Hi|Hi]; [rewrite Forall_forall in Hs; auto|]. apply in_app_or in Hi as [Hi|Hi]; [|auto].
  destruct Hw as (_ & Hw & _). destruct (Hw c Hi); tauto.
Qed.
Lemma line_words ws t : line_of ws t -> Forall word ws.
Proof. induction 1; auto. Qed.

Lemma fgets_line t f : (forall c, In c t -> c <> 10%Z) -> forall room, length t < room -> fgets room (t ++ 10%Z :: f) = (t ++ [10%Z], f).
Proof.
  induction t as [|c t IH]; intros H room L; destruct room as [|room]; cbn [length] in L; try lia; cbn [app fgets]; [reflexivity|].
  destruct (Z.eqb_spec c 10); [exfalso; apply (H c); [now left|assumption]|]. rewrite IH by (try (intros; apply H; now right); lia). reflexivity.
Qed.
Lemma fgets_last t : (forall c, In c t -> c <> 10%Z) -> forall room, length t <= room -> fgets room t = (t, []).
Proof.
  induction t as [|c t IH]; intros H room L; destruct room as [|room]; cbn [length] in L; try lia; cbn [fgets]; [reflexivity|reflexivity|].
  destruct (Z.eqb_spec c 10); [exfalso; apply (H c); [now left|assumption]|]. rewrite IH by (try (intros; apply H; now right); lia). reflexivity.
Qed.
Lemma fgets_full w f : (forall c, In c w -> c <> 10%Z) -> fgets (length w) (w ++ f) = (w, f).
Proof.
  induction w as [|c w IH]; intros H; cbn [length app fgets]; [reflexivity|].
  destruct (Z.eqb_spec c 10); [exfalso; apply (H c); [now left|assumption]|]. rewrite IH by (intros; apply H; now right). reflexivity.
Qed.
Lemma fgets_split room : forall f line rest, fgets room f = (line, rest) -> f = line ++ rest /\ (0 < room -> f <> [] -> line <> []).
Proof.
  induction room as [|room IH]; intros f line rest E; cbn [fgets] in E; [injection E as <- <-; split; [reflexivity|lia]|].
  destruct f as [|c f]; [injection E as <- <-; split; [reflexivity|congruence]|].
  destruct (c =? 10)%Z; [injection E as <- <-; split; [reflexivity|discriminate]|].
  destruct (fgets room f) as [l r] eqn:Er. injection E as <- <-. destruct (IH _ _ _ Er) as [-> _]. split; [reflexivity|discriminate].
Qed.
Lemma c_string_whole l : (forall c, In c l -> c <> 0%Z) -> c_string l = l.
Proof. induction l as [|c l IH]; intros H; [reflexivity|]. cbn [c_string]. destruct (Z.eqb_spec c 0); [exfalso; apply (H c); [now left|assumption]|]. rewrite IH by (intros; apply H; now right). reflexivity. Qed.
Lemma c_string_in l c : In c (c_string l) -> In c l.
Proof. induction l as [|d l IH]; cbn [c_string]; [tauto|]. destruct (d =? 0)%Z; cbn [In]; tauto. Qed.
Lemma strtoks_in l : forall cur t c, In t (strtoks l cur) -> In c t -> In c l \/ In c cur.
Proof.
  induction l as [|d l IH]; intros cur t c Ht Hc; cbn [strtoks] in Ht.
  - destruct cur as [|x cur]; [destruct Ht|]. destruct Ht as [<-|[]]. right. now apply in_rev.
  - destruct (delim d).
    + destruct cur as [|x cur]; [destruct (IH _ _ _ Ht Hc) as [?|[]]; left; now right|].
      destruct Ht as [<-|Ht]; [right; now apply in_rev|]. destruct (IH _ _ _ Ht Hc) as [?|[]]; left; now right.
    + destruct (IH _ _ _ Ht Hc) as [?|[->|?]]; [left; now right|left; now left|now right].
Qed.

Lemma lone_word w : word w -> lone_space w = Ok false.
Proof.
  intros (_ & Hw & H1). destruct w as [|c [|d w]]; try reflexivity. cbn [lone_space]. destruct (H1 c eq_refl) as [A B].
  replace ((128 <=? c) && negb (c =? 255))%Z with false by lia. f_equal. destruct (isspace c) eqn:E; [|reflexivity]. exfalso.
  apply existsb_exists in E. destruct E as (x & Hx & E). apply Z.eqb_eq in E. subst x.
  destruct (Hw c) as (S & S10 & _); [now left|]. unfold separator in S. cbn [In] in *. intuition.
Qed.

Section Reader.
Variable atof : list Z -> f64.

Lemma read_words ws : Forall word ws -> forall al l, rep al l -> exists al', read_tokens atof al ws = Ok al' /\ rep al' (l ++ map atof ws).
Proof.
  induction 1 as [|w ws Hw _ IH]; intros al l R; cbn [read_tokens map]; [exists al; rewrite app_nil_r; auto|].
  rewrite (lone_word w Hw). cbn [bind]. destruct (append_ok al l (atof w) R) as (a1 & E & R1). rewrite E. cbn [bind fst].
  destruct (IH _ _ R1) as (a2 & E2 & R2). exists a2. split; [exact E2|]. rewrite <- app_assoc in R2. exact R2.
Qed.
Lemma u32_id x : (0 <= x < M32)%Z -> u32 x = x.
Proof. apply Z.mod_small. Qed.
Lemma read_file tbl f : file_of tbl f -> forall fuel al l rs, length f < fuel -> rep al l -> (0 <= rs)%Z -> (rs + Z.of_nat (length tbl) < M32)%Z ->
  exists al', read_lines atof fuel f al rs = Ok (al', (rs + Z.of_nat (length tbl))%Z) /\ rep al' (l ++ map atof (concat tbl)).
Proof.
  induction 1 as [|ws t Nt Lt Ht|ws t tbl f Lt Ht Hf IH]; intros fuel al l rs Hfuel R H0 HM; (destruct fuel as [|fuel]; [lia|]); cbn [read_lines].
  - exists al. cbn. rewrite app_nil_r. rewrite Z.add_0_r. auto.
  - destruct t as [|c0 t0] eqn:Et; [congruence|]. rewrite <- Et in *. clear Et c0 t0.
    rewrite (fgets_last t) by (try (intros c Hc; apply (line_bytes _ _ Ht c Hc)); exact Lt).
    rewrite c_string_whole by (intros c Hc; apply (line_bytes _ _ Ht c Hc)).
    pose proof (strtoks_line ws t [] Ht (or_introl eq_refl)) as E. rewrite app_nil_r in E. rewrite E.
    destruct (read_words ws (line_words _ _ Ht) al l R) as (a1 & E1 & R1). rewrite E1. cbn [bind].
    destruct fuel as [|fuel]; [destruct t; [congruence|cbn in Hfuel; lia]|]. cbn [read_lines]. exists a1. cbn [length concat] in *.
    rewrite u32_id by lia. rewrite app_nil_r. split; [reflexivity|exact R1].
  - rewrite (fgets_line t f) by (try (intros c Hc; apply (line_bytes _ _ Ht c Hc)); lia).
    rewrite c_string_whole by (intros c Hc; apply in_app_or in Hc as [Hc|[<-|[]]]; [apply (line_bytes _ _ Ht c Hc)|lia]).
    rewrite (strtoks_line ws t [10%Z] Ht (or_intror eq_refl)).
    destruct (read_words ws (line_words _ _ Ht) al l R) as (a1 & E1 & R1). rewrite E1. cbn [bind].
    rewrite app_length in Hfuel. cbn [length] in Hfuel, HM.
    destruct (IH fuel a1 _ (u32 (rs + 1)) ltac:(lia) R1) as (a2 & E2 & R2); [rewrite u32_id by lia; lia|rewrite u32_id by lia; lia|].
    exists a2. rewrite u32_id in * by lia. destruct t; cbn [app]; rewrite E2; (split; [f_equal; f_equal; cbn [length]; lia|]);
    cbn [concat]; rewrite map_app, app_assoc; exact R2.
Qed.
Lemma copy_all l : forall d i, (forall j a, nth_error l j = Some a -> nth_error d (i + j) = Some (Some a)) -> copy_out d (length l) i = Ok l.
Proof.
  induction l as [|a l IH]; intros d i H; cbn [length copy_out]; [reflexivity|].
  unfold slot. pose proof (H 0 a eq_refl) as H0. rewrite Nat.add_0_r in H0. rewrite H0. cbn [bind].
  rewrite IH; [reflexivity|]. intros j b Hj. specialize (H (S j) b Hj). now replace (S i + j) with (i + S j) by lia.
Qed.
Lemma copy_rep al l : rep al l -> copy_out (al_data al) (al_size al) 0 = Ok l.
Proof. intros (Hs & _ & _ & _ & Hn). rewrite Hs. apply copy_all. exact Hn. Qed.
Lemma list_of_10 : exists al, array_list_init (A := f64) 10 = Ok al /\ rep al [].
Proof. eexists. split; [reflexivity|]. apply (rep_init 10). reflexivity. Qed.

Lemma reads name tbl f : file_of tbl f -> tbl <> [] -> (Z.of_nat (length tbl) < M32)%Z ->
  getDset atof name (Some f) = Ok (Some (map atof (concat tbl), Z.of_nat (length tbl), (u32 (Z.of_nat (length (concat tbl))) / Z.of_nat (length tbl))%Z)).
Proof.
  intros F N HM. unfold getDset. destruct list_of_10 as (al & E & R). rewrite E. cbn [bind].
  destruct (read_file tbl f F (S (length f)) al [] 0 ltac:(lia) R ltac:(lia) ltac:(lia)) as (al' & E' & R'). rewrite E'. cbn [bind].
  cbn [app] in R'. rewrite Z.add_0_l. destruct tbl as [|ws tbl]; [congruence|]. cbn [length] in *.
  destruct (Z.eqb_spec (Z.of_nat (S (length tbl))) 0); [lia|]. rewrite (copy_rep _ _ R'). cbn [bind].
  destruct R' as (Hs & _). rewrite Hs, map_length. reflexivity.
Qed.

(** Any file of ASCII bytes. *)
Lemma read_ascii toks : (forall t c, In t toks -> In c t -> (0 <= c < 128)%Z) -> forall al l, rep al l -> exists al' l', read_tokens atof al toks = Ok al' /\ rep al' (l ++ l') /\ length l' <= length toks.
Proof.
  induction toks as [|t toks IH]; intros H al l R; cbn [read_tokens]; [exists al, []; rewrite app_nil_r; auto|].
  assert (E : exists b, lone_space t = Ok b).
  { destruct t as [|c [|d t]]; cbn [lone_space]; eauto. destruct (H [c] c) as [A B]; [now left|now left|]. replace ((128 <=? c) && negb (c =? 255))%Z with false by lia. eauto. }
  destruct E as (b & ->). cbn [bind]. destruct b; [exists al, []; rewrite app_nil_r; split; [reflexivity|]; split; [exact R|cbn; lia]|].
  destruct (append_ok al l (atof t) R) as (a1 & E & R1). rewrite E. cbn [bind fst].
  destruct (IH (fun t' c Ht => H t' c (or_intror Ht)) _ _ R1) as (a2 & l' & E2 & R2 & L2). exists a2, (atof t :: l'). split; [exact E2|]. rewrite <- app_assoc in R2. split; [exact R2|cbn; lia].
Qed.
Lemma strtoks_count l : forall cur, length (strtoks l cur) <= length l + length cur.
Proof.
  induction l as [|c l IH]; intros cur; cbn [strtoks].
  - destruct cur; cbn; lia.
  - destruct (delim c); [|specialize (IH (c :: cur)); cbn in *; lia]. destruct cur; specialize (IH []); cbn in *; lia.
Qed.
Lemma c_string_short l : length (c_string l) <= length l.
Proof. induction l as [|c l IH]; cbn [c_string]; [lia|]. destruct (c =? 0)%Z; cbn; lia. Qed.
Lemma any_lines fuel : forall f al l rs, length f < fuel -> (forall c, In c f -> (0 <= c < 128)%Z) -> rep al l -> (0 <= rs)%Z -> (rs + Z.of_nat (length f) < M32)%Z ->
  exists al' l' rs', read_lines atof fuel f al rs = Ok (al', rs') /\ rep al' (l ++ l') /\ length l' <= length f /\ (rs <= rs' <= rs + Z.of_nat (length f))%Z /\ (f <> [] -> rs < rs')%Z.
Proof.
  induction fuel as [|fuel IH]; intros f al l rs Hf Ha R H0 HM; [lia|]. cbn [read_lines].
  destruct f as [|c0 f0] eqn:Ef; [exists al, [], rs; rewrite app_nil_r; cbn [length]; split; [reflexivity|]; split; [exact R|]; split; [lia|]; split; [lia|congruence]|].
  rewrite <- Ef in *. assert (Nf : f <> []) by (subst; discriminate). clear Ef c0 f0.
  destruct (fgets 2047 f) as [line rest] eqn:Eg. destruct (fgets_split _ _ _ _ Eg) as [-> Hl].
  assert (Nl : line <> []) by (apply Hl; [lia|exact Nf]). rewrite app_length in *. assert (1 <= length line) by (destruct line; [congruence|cbn; lia]).
  destruct (read_ascii (strtoks (c_string line) [])) with (al := al) (l := l) as (a1 & l1 & E1 & R1 & L1); [|exact R|].
  { intros t c Ht Hc. apply Ha. apply in_or_app. left. apply c_string_in. destruct (strtoks_in _ _ _ _ Ht Hc) as [?|[]]; assumption. }
  rewrite E1. cbn [bind]. assert (Hc1 : length l1 <= length line).
  { pose proof (strtoks_count (c_string line) []). pose proof (c_string_short line). cbn [length] in *. lia. }
  destruct (IH rest a1 (l ++ l1) (u32 (rs + 1))) as (a2 & l2 & rs2 & E2 & R2 & L2 & B2 & _); [lia|intros c Hc; apply Ha; apply in_or_app; now right|exact R1|rewrite u32_id by lia; lia|rewrite u32_id by lia; lia|].
  rewrite u32_id in * by lia. exists a2, (l1 ++ l2), rs2. rewrite app_assoc, app_length.
  split; [exact E2|]. split; [exact R2|]. split; [lia|]. split; lia.
Qed.
End Reader.
