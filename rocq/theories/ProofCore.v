(** Proofs about the core distance buffer of ModelDistance.v. *)
From Coq Require Import Permutation Sorted.
From Flocq Require Import IEEE754.BinarySingleNaN.
From Verif Require Import Base ListFacts F64 F64Facts ModelDistance ProofDistance.
From Coq Require Import ZifyBool.
Local Open Scope Z_scope.

Definition KM : Z := fkey D_MAX.

(** ** The binary search *)
Lemma mid_bounds low high : (low < high)%nat -> (low <= low + (high - low) / 2 < high)%nat.
Proof.
  intros H. pose proof (Nat.div_lt (high - low) 2). pose proof (Nat.div_le_mono 0 (high - low) 2). lia.
Qed.

Lemma find_pos_safe t : forall fuel buf low high,
  (low < high)%nat -> (high <= length buf)%nat -> (high - low < fuel)%nat ->
  exists r, find_pos fuel buf t low high = Ok r /\ (low <= r <= high)%nat.
Proof.
  induction fuel as [|f IH]; intros buf low high Hlh Hh Hf; [lia|]. cbn [find_pos].
  pose proof (mid_bounds low high Hlh) as Hm. set (mid := (low + (high - low) / 2)%nat) in *.
  destruct (aget_ok buf mid) as (x & -> & _); [lia|]. cbn [bind].
  destruct (fgt x t).
  - destruct (Nat.ltb_spec low mid).
    + destruct (IH buf low mid) as (r & E & Hr); try lia. exists r. split; auto. lia.
    + exists low. split; auto. lia.
  - destruct (feq x t).
    + exists low. split; auto. lia.
    + destruct (Nat.ltb_spec (S mid) high).
      * destruct (IH buf (S mid) high) as (r & E & Hr); try lia. exists r. split; auto. lia.
      * exists (S mid). split; auto. lia.
Qed.

Lemma find_pos_nan t : fisnan t = true -> forall fuel buf low high,
  (low < high)%nat -> (high <= length buf)%nat -> (high - low < fuel)%nat ->
  find_pos fuel buf t low high = Ok high.
Proof.
  intros Hn. induction fuel as [|f IH]; intros buf low high Hlh Hh Hf; [lia|]. cbn [find_pos].
  pose proof (mid_bounds low high Hlh) as Hm. set (mid := (low + (high - low) / 2)%nat) in *.
  destruct (aget_ok buf mid) as (x & -> & _); [lia|]. cbn [bind].
  unfold fgt. change (Bltb t x) with (flt t x). rewrite (flt_nan_l t x Hn), (feq_nan_r x t Hn).
  destruct (Nat.ltb_spec (S mid) high).
  - apply IH; lia.
  - f_equal. lia.
Qed.

(** In a sorted buffer that does not contain [t], the position found separates the
    smaller from the larger elements. *)
Lemma find_pos_sorted t : notnan t -> forall fuel buf low high,
  (forall i x, nth_error buf i = Some x -> notnan x /\ fkey x <> fkey t) ->
  (forall i j x y, (i <= j)%nat -> nth_error buf i = Some x -> nth_error buf j = Some y -> fkey x <= fkey y) ->
  (low < high)%nat -> (high <= length buf)%nat -> (high - low < fuel)%nat ->
  (forall i x, (i < low)%nat -> nth_error buf i = Some x -> fkey x < fkey t) ->
  (forall i x, (high <= i)%nat -> nth_error buf i = Some x -> fkey t < fkey x) ->
  exists r, find_pos fuel buf t low high = Ok r /\ (r <= high)%nat /\
    (forall i x, (i < r)%nat -> nth_error buf i = Some x -> fkey x < fkey t) /\
    (forall i x, (r <= i)%nat -> nth_error buf i = Some x -> fkey t < fkey x).
Proof.
  intros Ht. induction fuel as [|f IH]; intros buf low high Hne Hs Hlh Hh Hf Hl Hu; [lia|]. cbn [find_pos].
  pose proof (mid_bounds low high Hlh) as Hm. set (mid := (low + (high - low) / 2)%nat) in *.
  destruct (aget_ok buf mid) as (x & -> & Hx); [lia|]. cbn [bind].
  destruct (Hne _ _ Hx) as [Hnx Hkx].
  unfold fgt. change (Bltb t x) with (flt t x). rewrite flt_key, feq_key by auto.
  destruct (Z.ltb_spec (fkey t) (fkey x)).
  - assert (Hu' : forall i y, (mid <= i)%nat -> nth_error buf i = Some y -> fkey t < fkey y).
    { intros i y Hi Hy. pose proof (Hs mid i x y Hi Hx Hy). lia. }
    destruct (Nat.ltb_spec low mid).
    + destruct (IH buf low mid) as (r & E & Hr & H1 & H2); auto; try lia.
      exists r. split; auto. split; [lia|]. auto.
    + exists low. split; auto. split; [lia|]. split; auto. intros i y Hi. apply Hu'. lia.
  - destruct (Z.eqb_spec (fkey x) (fkey t)); [contradiction|].
    assert (Hl' : forall i y, (i < S mid)%nat -> nth_error buf i = Some y -> fkey y < fkey t).
    { intros i y Hi Hy. pose proof (Hs i mid y x ltac:(lia) Hy Hx). lia. }
    destruct (Nat.ltb_spec (S mid) high).
    + destruct (IH buf (S mid) high) as (r & E & Hr & H1 & H2); auto; try lia.
      exists r. split; auto.
    + exists (S mid). split; auto. split; [lia|]. split; auto. intros i y Hi. apply Hu. lia.
Qed.

(** ** Sorted insertion of keys *)
Fixpoint insZ (t : Z) (l : list Z) : list Z :=
  match l with
  | [] => [t]
  | x :: l' => if t <? x then t :: l else x :: insZ t l'
  end.

Lemma insZ_perm t l : Permutation (insZ t l) (t :: l).
Proof.
  induction l as [|x l IH]; cbn [insZ]; auto. destruct (t <? x); auto.
  rewrite IH. apply perm_swap.
Qed.

Lemma insZ_sorted t l : StronglySorted Z.le l -> StronglySorted Z.le (insZ t l).
Proof.
  induction 1 as [|x l Hs IH Hf]; cbn [insZ]; [repeat constructor|].
  destruct (Z.ltb_spec t x).
  - constructor; [constructor; auto|]. constructor; [lia|].
    eapply Forall_impl; [|exact Hf]. cbn. lia.
  - constructor; auto. rewrite Forall_forall in *. intros y Hy.
    apply (Permutation_in _ (insZ_perm t l)) in Hy. destruct Hy as [<-|Hy]; [lia|auto].
Qed.

Lemma firstn_ins_ge t l : StronglySorted Z.le l -> forall i m,
  nth_error l i = Some m -> m <= t -> firstn (S i) (insZ t l) = firstn (S i) l.
Proof.
  induction 1 as [|x l Hs IH Hf]; intros i m Hi Hm; [destruct i; discriminate|].
  cbn [insZ]. destruct (Z.ltb_spec t x).
  - exfalso. destruct i as [|i].
    + injection Hi as ->. lia.
    + cbn in Hi. apply nth_error_In in Hi. rewrite Forall_forall in Hf. specialize (Hf _ Hi). lia.
  - destruct i as [|i]; [reflexivity|]. cbn [firstn]. f_equal. cbn in Hi. apply (IH i m Hi Hm).
Qed.

Lemma firstn_ins_lt t : forall l r s, (r < s)%nat -> (s <= length l)%nat ->
  (forall i x, (i < r)%nat -> nth_error l i = Some x -> x <= t) ->
  (forall x, nth_error l r = Some x -> t < x) ->
  firstn s (insZ t l) = firstn r l ++ t :: firstn (s - r - 1) (skipn r l).
Proof.
  induction l as [|x l IH]; intros r s Hr Hs H1 H2; [cbn [length] in Hs; lia|].
  cbn [insZ]. destruct r as [|r].
  - specialize (H2 x eq_refl). destruct (Z.ltb_spec t x); [|lia].
    destruct s as [|s]; [lia|]. cbn [firstn app skipn]. now replace (S s - 0 - 1)%nat with s by lia.
  - specialize (H1 0%nat x) as H0. cbn in H0. specialize (H0 ltac:(lia) eq_refl).
    destruct (Z.ltb_spec t x); [lia|]. destruct s as [|s]; [lia|]. cbn [firstn app skipn].
    f_equal. replace (S s - S r - 1)%nat with (s - r - 1)%nat by lia. apply IH.
    + lia.
    + cbn [length] in Hs. lia.
    + intros i y Hi Hy. apply (H1 (S i) y); [lia|auto].
    + auto.
Qed.

Lemma sorted_nth l : StronglySorted Z.le l -> forall i j x y, (i <= j)%nat ->
  nth_error l i = Some x -> nth_error l j = Some y -> x <= y.
Proof.
  induction 1 as [|a l Hs IH Hf]; intros i j x y Hij Hx Hy; [destruct i; discriminate|].
  destruct i as [|i].
  - injection Hx as ->. destruct j as [|j]; [injection Hy as ->; lia|].
    cbn in Hy. apply nth_error_In in Hy. rewrite Forall_forall in Hf. auto.
  - destruct j as [|j]; [lia|]. cbn in Hx, Hy. apply (IH i j x y); auto. lia.
Qed.

(** Rank of the element at position [i] of a sorted list. *)
Lemma sorted_rank l : StronglySorted Z.le l -> forall i c, nth_error l i = Some c ->
  (length (filter (fun v => (v <? c)%Z) l) <= i < length (filter (fun v => (v <=? c)%Z) l))%nat.
Proof.
  induction 1 as [|a l Hs IH Hf]; intros i c Hi; [destruct i; discriminate|].
  cbn [filter]. destruct i as [|i].
  - injection Hi as ->. rewrite Z.ltb_irrefl, Z.leb_refl. cbn [length].
    assert (E : filter (fun v => v <? c) l = []).
    { clear -Hf. induction Hf as [|x l Hx _ IH]; cbn [filter]; [reflexivity|]. destruct (Z.ltb_spec x c); [lia|auto]. }
    rewrite E. cbn [length]. lia.
  - cbn in Hi. specialize (IH i c Hi).
    assert (a <= c). { apply nth_error_In in Hi. rewrite Forall_forall in Hf. auto. }
    destruct (Z.leb_spec a c); [|lia]. destruct (Z.ltb_spec a c); cbn [length]; lia.
Qed.

Lemma filter_perm_length {A} (f : A -> bool) l l' : Permutation l l' ->
  length (filter f l) = length (filter f l').
Proof.
  induction 1 as [|a l l' _ IH|a b l|l l' l'' _ IH1 _ IH2]; cbn [filter]; auto.
  - destruct (f a); cbn [length]; congruence.
  - destruct (f a), (f b); reflexivity.
  - congruence.
Qed.

(** ** The buffer *)
Definition below (v : f64) : bool := flt v D_MAX.

(** Keys of the values that count, inserted in order into [s] sentinels. *)
Fixpoint keysF (s : nat) (P : list f64) : list Z :=
  match P with
  | [] => repeat KM s
  | t :: P' => if below t then insZ (fkey t) (keysF s P') else keysF s P'
  end.

Lemma repeat_sorted s : StronglySorted Z.le (repeat KM s).
Proof.
  induction s as [|s IH]; cbn [repeat]; constructor; auto.
  apply Forall_forall. intros x Hx. apply repeat_spec in Hx. lia.
Qed.
Lemma keysF_sorted s P : StronglySorted Z.le (keysF s P).
Proof.
  induction P as [|t P IH]; cbn [keysF]; [apply repeat_sorted|].
  destruct (below t); auto. now apply insZ_sorted.
Qed.
Lemma keysF_perm s P : Permutation (keysF s P) (map fkey (filter below P) ++ repeat KM s).
Proof.
  induction P as [|t P IH]; cbn [keysF filter]; [reflexivity|].
  destruct (below t); auto. rewrite insZ_perm. cbn [map app]. now constructor.
Qed.
Lemma keysF_length s P : (s <= length (keysF s P))%nat.
Proof.
  rewrite (Permutation_length (keysF_perm s P)), app_length, repeat_length. lia.
Qed.

(** What the buffer holds in any case. *)
Definition buf_ok (s : nat) (P : list f64) (buf : list f64) : Prop :=
  length buf = s /\ Forall (fun x => x = D_MAX \/ (In x P /\ below x = true)) buf.

Lemma below_key x : below x = true <-> notnan x /\ fkey x < KM.
Proof.
  unfold below. split.
  - intros H. apply flt_true in H. tauto.
  - intros [H1 H2]. rewrite flt_key by (auto; apply D_MAX_notnan). apply Z.ltb_lt. exact H2.
Qed.

Lemma buf_elem s P buf x : buf_ok s P buf -> In x buf -> notnan x /\ fkey x <= KM.
Proof.
  intros [_ H] Hx. rewrite Forall_forall in H. destruct (H x Hx) as [->|[_ Hb]].
  - split; [apply D_MAX_notnan|]. unfold KM. lia.
  - apply below_key in Hb. split; [tauto|lia].
Qed.

Lemma In_firstn {A} (x : A) n l : In x (firstn n l) -> In x l.
Proof. intros H. rewrite <- (firstn_skipn n l). apply in_or_app. auto. Qed.
Lemma In_skipn {A} (x : A) n l : In x (skipn n l) -> In x l.
Proof. intros H. rewrite <- (firstn_skipn n l). apply in_or_app. auto. Qed.

(** What one step does, without any assumption on ties. *)
Lemma buf_step_safe s P buf t : (0 < s)%nat -> buf_ok s P buf ->
  exists buf', buf_step s t buf = Ok buf' /\ buf_ok s (t :: P) buf' /\
    (below t = false -> buf' = buf) /\
    (forall last, nth_error buf (s - 1) = Some last -> fkey last <= fkey t -> buf' = buf).
Proof.
  intros Hs HB. destruct HB as [HL HF] eqn:HE. assert (HB' : buf_ok s P buf) by (split; auto). clear HE.
  unfold buf_step. destruct (aget_ok buf (s - 1)) as (last & -> & Hlast); [lia|]. cbn [bind].
  destruct (buf_elem s P buf last HB' (nth_error_In _ _ Hlast)) as [Hnl Hkl].
  assert (HBt : buf_ok s (t :: P) buf).
  { split; auto. eapply Forall_impl; [|exact HF]. cbn. intros x [Hx|[Hx Hb]]; auto. }
  unfold fgt. change (Bltb last t) with (flt last t). destruct (flt last t) eqn:Egt.
  - exists buf. auto.
  - destruct (fisnan t) eqn:En.
    + rewrite (find_pos_nan t En) by lia. cbn [bind]. rewrite Nat.ltb_irrefl. cbn [andb].
      exists buf. auto.
    + destruct (find_pos_safe t (S s) buf 0 s) as (r & -> & Hr); try lia. cbn [bind].
      rewrite flt_key in Egt by auto. unfold fne. change (Beqb last t) with (feq last t).
      rewrite feq_key by auto.
      destruct ((r <? s)%nat && negb (fkey last =? fkey t)) eqn:E.
      * assert (Hbt : below t = true) by (apply below_key; split; [exact En|lia]).
        eexists. split; [reflexivity|]. split; [|split].
        -- split.
           ++ rewrite app_length. cbn [length]. rewrite !firstn_length, skipn_length. lia.
           ++ apply Forall_app. destruct HBt as [_ HBt]. rewrite Forall_forall in HBt. split; [|constructor].
              ** apply Forall_forall. intros x Hx. apply HBt. now apply In_firstn in Hx.
              ** right. split; [now left|auto].
              ** apply Forall_forall. intros x Hx. apply HBt. apply In_firstn in Hx. now apply In_skipn in Hx.
        -- congruence.
        -- intros l0 Hl0 Hle. rewrite Hl0 in Hlast. injection Hlast as ->. lia.
      * exists buf. auto.
Qed.

(** Keys of the buffer when no tie is met. *)
Definition buf_keys (s : nat) (P buf : list f64) : Prop :=
  buf_ok s P buf /\ map fkey buf = firstn s (keysF s P).

Lemma buf_keys_nth s P buf i x : buf_keys s P buf -> nth_error buf i = Some x ->
  nth_error (keysF s P) i = Some (fkey x) /\ (i < s)%nat.
Proof.
  intros [[HL _] HK] Hx.
  assert (Hi : (i < s)%nat) by (rewrite <- HL; apply nth_error_Some; congruence).
  split; auto. apply (map_nth_error fkey) in Hx. rewrite HK in Hx.
  rewrite nth_error_firstn in Hx. now destruct (Nat.ltb_spec i s).
Qed.

Lemma buf_step_keys s P buf t : (0 < s)%nat -> buf_keys s P buf ->
  (below t = true -> ~ In (fkey t) (map fkey (filter below P))) \/ (s <= 2)%nat ->
  exists buf', buf_step s t buf = Ok buf' /\ buf_keys s (t :: P) buf'.
Proof.
  intros Hs HB Htie. pose proof HB as [[HL HF] HK].
  destruct (buf_step_safe s P buf t Hs (proj1 HB)) as (buf' & E & HB' & Hsame & Hge).
  exists buf'. split; auto. split; auto.
  cbn [keysF]. destruct (below t) eqn:Hb; [|rewrite Hsame by auto; exact HK].
  apply below_key in Hb. destruct Hb as [Hnt Hkt].
  destruct (aget_ok buf (s - 1)) as (last & Elast & Hlast); [lia|].
  destruct (buf_keys_nth s P buf _ _ HB Hlast) as [HKlast _].
  pose proof (keysF_sorted s P) as Hsorted. pose proof (keysF_length s P) as HFL.
  destruct (Z.leb_spec (fkey last) (fkey t)) as [Hle|Hlt].
  { rewrite (Hge last Hlast Hle), HK.
    replace s with (S (s - 1)) at 1 3 by lia. symmetry.
    apply (firstn_ins_ge (fkey t) _ Hsorted (s - 1) (fkey last)); auto. }
  clear Hsame Hge.
  assert (Hnn : forall i x, nth_error buf i = Some x -> notnan x).
  { intros i x Hx. eapply buf_elem; [exact (proj1 HB)|]. eapply nth_error_In; eauto. }
  assert (Hord : forall i j x y, (i <= j)%nat -> nth_error buf i = Some x -> nth_error buf j = Some y -> fkey x <= fkey y).
  { intros i j x y Hij Hx Hy. destruct (buf_keys_nth _ _ _ _ _ HB Hx). destruct (buf_keys_nth _ _ _ _ _ HB Hy).
    eapply (sorted_nth _ Hsorted i j); eauto. }
  (* the position found separates *)
  assert (Hpos : exists r, find_pos (S s) buf t 0 s = Ok r /\ (r < s)%nat /\
    ((forall i x, (i < r)%nat -> nth_error buf i = Some x -> fkey x <= fkey t) /\
     (forall x, nth_error buf r = Some x -> fkey t < fkey x) \/
     exists b, s = 2%nat /\ r = 0%nat /\ nth_error buf 0 = Some b /\ fkey b = fkey t)).
  { assert (Hcase : (forall i x, nth_error buf i = Some x -> notnan x /\ fkey x <> fkey t) \/
                    (s = 2%nat /\ exists b, nth_error buf 0 = Some b /\ fkey b = fkey t)).
    { destruct Htie as [Hni|H2].
      - left. intros i x Hx. split; [eauto|]. intros Ek.
        pose proof HF as HF'. rewrite Forall_forall in HF'.
        destruct (HF' x (nth_error_In _ _ Hx)) as [->|[Hin Hbx]].
        + unfold KM in Hkt. lia.
        + apply Hni; [reflexivity|]. rewrite <- Ek. apply in_map. apply filter_In. auto.
      - destruct (aget_ok buf 0) as (b & _ & Hb0); [lia|].
        destruct (Z.eq_dec (fkey b) (fkey t)) as [Eb|].
        { right. split; [|eauto]. assert (s <> 1)%nat; [|lia]. intros ->. cbn [Nat.sub] in Hlast. rewrite Hlast in Hb0. injection Hb0 as ->. lia. }
        left. intros i x Hx. split; [eauto|].
        destruct (buf_keys_nth _ _ _ _ _ HB Hx) as [_ Hi].
        assert (i = 0%nat \/ i = 1%nat) as [->| ->] by lia; [congruence|].
        replace (s - 1)%nat with 1%nat in Hlast by lia. rewrite Hlast in Hx. injection Hx as ->. lia. }
    destruct Hcase as [Hne|(-> & b & Hb0 & Hbk)].
    - destruct (find_pos_sorted t Hnt (S s) buf 0 s Hne Hord) as (r & Er & Hr & H1 & H2); try lia.
      { intros i x Hi Hx. exfalso. assert (i < length buf)%nat by (apply nth_error_Some; congruence). lia. }
      exists r. split; auto. split.
      + destruct (Nat.ltb_spec r s); auto. exfalso.
        assert (fkey last < fkey t) by (apply (H1 (s - 1)%nat); [lia|auto]). lia.
      + left. split.
        * intros i x Hi Hx. specialize (H1 i x Hi Hx). lia.
        * intros x Hx. apply (H2 r); auto.
    - exists 0%nat. change (2 - 1)%nat with 1%nat in Hlast.
      assert (Ef : find_pos 3 buf t 0 2 = Ok 0%nat).
      { cbn [find_pos]. change (0 + (2 - 0) / 2)%nat with 1%nat. rewrite (aget_nth _ _ _ Hlast). cbn [bind].
        unfold fgt. change (@Bltb 53 1024) with flt. rewrite flt_key by eauto.
        replace (fkey t <? fkey last) with true by lia. change (0 <? 1)%nat with true. cbv iota.
        change (0 + (1 - 0) / 2)%nat with 0%nat. rewrite (aget_nth _ _ _ Hb0). cbn [bind].
        rewrite flt_key, feq_key by eauto.
        replace (fkey t <? fkey b) with false by lia. replace (fkey b =? fkey t) with true by lia. reflexivity. }
      split; [exact Ef|]. split; [lia|]. right. exists b. auto. }
  destruct Hpos as (r & Er & Hr & Hsep).
  (* the step inserts *)
  unfold buf_step in E. rewrite Elast in E. cbn [bind] in E.
  unfold fgt in E. change (Bltb last t) with (flt last t) in E. rewrite flt_key in E by eauto.
  replace (fkey last <? fkey t) with false in E by lia.
  rewrite Er in E. cbn [bind] in E.
  unfold fne in E. change (Beqb last t) with (feq last t) in E. rewrite feq_key in E by eauto.
  replace ((r <? s)%nat && negb (fkey last =? fkey t)) with true in E by lia.
  injection E as <-.
  rewrite map_app. cbn [map]. rewrite <- !firstn_map, <- skipn_map, HK.
  rewrite firstn_firstn, Nat.min_l by lia.
  rewrite skipn_firstn_comm, firstn_firstn, Nat.min_l by lia.
  destruct Hsep as [[H1 H2]|(b & -> & -> & Hb0 & Hbk)].
  - symmetry. apply firstn_ins_lt; auto.
    + intros i x Hi Hx. destruct (aget_ok buf i) as (y & _ & Hy); [lia|].
      destruct (buf_keys_nth _ _ _ _ _ HB Hy) as [Hy' _]. rewrite Hx in Hy'. injection Hy' as ->. eapply H1; eauto.
    + intros x Hx. destruct (aget_ok buf r) as (y & _ & Hy); [lia|].
      destruct (buf_keys_nth _ _ _ _ _ HB Hy) as [Hy' _]. rewrite Hx in Hy'. injection Hy' as ->. auto.
  - destruct (buf_keys_nth _ _ _ _ _ HB Hb0) as [Hb0' _].
    destruct (keysF 2 P) as [|k0 [|k1 ks]]; [discriminate|cbn in HFL; lia|].
    cbn in Hb0', HKlast. injection Hb0' as ->. injection HKlast as ->.
    cbn [insZ]. replace (fkey t <? fkey b) with false by lia. replace (fkey t <? fkey last) with true by lia.
    cbn [firstn app skipn Nat.sub]. now rewrite Hbk.
Qed.

(** ** One row *)
Fixpoint buf_run (s : nat) (row buf : list f64) : res (list f64) :=
  match row with
  | [] => Ok buf
  | t :: row => let! buf' := buf_step s t buf in buf_run s row buf'
  end.
Definition core_row (s : nat) (row : list f64) : res f64 :=
  let! buf := buf_run s row (repeat D_MAX s) in aget buf (s - 1).

Lemma buf_ok_init s : buf_ok s [] (repeat D_MAX s).
Proof.
  split; [apply repeat_length|]. apply Forall_forall. intros x Hx. apply repeat_spec in Hx. auto.
Qed.

Lemma buf_run_safe s : (0 < s)%nat -> forall row P buf, buf_ok s P buf ->
  exists buf', buf_run s row buf = Ok buf' /\ buf_ok s (rev row ++ P) buf'.
Proof.
  intros Hs. induction row as [|t row IH]; intros P buf HB; cbn [buf_run rev app]; [eauto|].
  destruct (buf_step_safe s P buf t Hs HB) as (b1 & -> & HB1 & _). cbn [bind].
  destruct (IH (t :: P) b1 HB1) as (b2 & E & HB2). exists b2. split; auto.
  rewrite <- app_assoc. exact HB2.
Qed.

Lemma buf_run_keys s : (0 < s)%nat -> forall row P buf, buf_keys s P buf ->
  NoDup (map fkey (filter below (row ++ P))) \/ (s <= 2)%nat ->
  exists buf', buf_run s row buf = Ok buf' /\ buf_keys s (rev row ++ P) buf'.
Proof.
  intros Hs. induction row as [|t row IH]; intros P buf HB Hd; cbn [buf_run rev app]; [eauto|].
  destruct (buf_step_keys s P buf t Hs HB) as (b1 & -> & HB1).
  { destruct Hd as [Hd|]; auto. left. intros Hb Hin. cbn [app filter] in Hd. rewrite Hb in Hd. cbn [map] in Hd.
    inversion Hd as [|? ? Hni _]; subst. apply Hni. rewrite filter_app, map_app. apply in_or_app. auto. }
  cbn [bind]. destruct (IH (t :: P) b1 HB1) as (b2 & E & HB2).
  { destruct Hd as [Hd|]; auto. left. eapply Permutation_NoDup; [|exact Hd].
    apply Permutation_map. cbn [app]. 
    assert (HP : Permutation (t :: row ++ P) (row ++ t :: P)) by apply Permutation_middle.
    clear -HP. revert HP. generalize (t :: row ++ P) (row ++ t :: P).
    induction 1 as [|a l l' _ IH|a b l|l l' l'' _ IH1 _ IH2]; cbn [filter]; auto.
    - destruct (below a); auto.
    - destruct (below a), (below b); auto. apply perm_swap.
    - now rewrite IH1. }
  exists b2. split; auto. rewrite <- app_assoc. exact HB2.
Qed.

(** Never NaN, never above D_MAX. *)
Lemma core_row_safe s row : (0 < s)%nat ->
  exists c, core_row s row = Ok c /\ (c = D_MAX \/ (In c row /\ below c = true)).
Proof.
  intros Hs. unfold core_row.
  destruct (buf_run_safe s Hs row [] _ (buf_ok_init s)) as (buf & -> & HL & HF). cbn [bind].
  destruct (aget_ok buf (s - 1)) as (c & E & Hc); [lia|].
  exists c. split; auto. rewrite Forall_forall in HF.
  destruct (HF c (nth_error_In _ _ Hc)) as [H|[H Hb]]; auto.
  right. split; auto. rewrite app_nil_r in H. now apply in_rev.
Qed.

Lemma filter_keys_lt c row : notnan c -> fkey c <= KM ->
  length (filter (fun v => flt v c) row) = length (filter (fun k => k <? fkey c) (map fkey (filter below row))).
Proof.
  intros Hn Hk. induction row as [|v row IH]; cbn [filter map]; [reflexivity|].
  destruct (below v) eqn:Hb; cbn [filter map].
  - apply below_key in Hb. rewrite flt_key by tauto. destruct (fkey v <? fkey c); cbn [length]; congruence.
  - destruct (flt v c) eqn:E; auto. exfalso. apply flt_true in E.
    assert (below v = true) by (apply below_key; split; [tauto|lia]). congruence.
Qed.
Lemma filter_keys_le c row : notnan c -> fkey c < KM ->
  length (filter (fun v => fle v c) row) = length (filter (fun k => k <=? fkey c) (map fkey (filter below row))).
Proof.
  intros Hn Hk. induction row as [|v row IH]; cbn [filter map]; [reflexivity|].
  destruct (below v) eqn:Hb; cbn [filter map].
  - apply below_key in Hb. rewrite fle_key by tauto. destruct (fkey v <=? fkey c); cbn [length]; congruence.
  - destruct (fle v c) eqn:E; auto. exfalso. apply fle_true in E.
    assert (below v = true) by (apply below_key; split; [tauto|lia]). congruence.
Qed.

Lemma filter_all {A} (f : A -> bool) l : (forall x, In x l -> f x = true) -> filter f l = l.
Proof.
  induction l as [|a l IH]; intros H; cbn [filter]; [reflexivity|].
  rewrite H by now left. f_equal. apply IH. intros x Hx. apply H. now right.
Qed.
Lemma filter_none {A} (f : A -> bool) l : (forall x, In x l -> f x = false) -> filter f l = [].
Proof.
  induction l as [|a l IH]; intros H; cbn [filter]; [reflexivity|].
  rewrite H by now left. apply IH. intros x Hx. apply H. now right.
Qed.
Lemma filter_length_le {A} (f : A -> bool) l : (length (filter f l) <= length l)%nat.
Proof. induction l as [|a l IH]; cbn [filter length]; auto. destruct (f a); cbn [length]; lia. Qed.

Lemma core_row_kth s row : (0 < s)%nat ->
  NoDup (map fkey (filter below row)) \/ (s <= 2)%nat ->
  exists c, core_row s row = Ok c /\
    ((s <= length (filter below row))%nat ->
       In c row /\ below c = true /\
       (length (filter (fun v => flt v c) row) < s <= length (filter (fun v => fle v c) row))%nat) /\
    ((length (filter below row) < s)%nat -> c = D_MAX).
Proof.
  intros Hs Hd. destruct (core_row_safe s row Hs) as (c & Ec & Hc). exists c. split; auto.
  unfold core_row in Ec.
  destruct (buf_run_keys s Hs row [] (repeat D_MAX s)) as (buf & Eb & HB).
  { split; [apply buf_ok_init|]. cbn [keysF]. rewrite firstn_all2 by (rewrite repeat_length; lia).
    clear. induction s as [|s IH]; cbn [repeat map]; [reflexivity|]. now rewrite IH. }
  { now rewrite app_nil_r. }
  rewrite Eb in Ec. cbn [bind] in Ec. apply aget_inv in Ec. rewrite app_nil_r in HB.
  destruct (buf_keys_nth _ _ _ _ _ HB Ec) as [Hn _].
  assert (Hcn : notnan c /\ fkey c <= KM).
  { eapply buf_elem; [exact (proj1 HB)|]. eapply nth_error_In; eauto. }
  destruct Hcn as [Hcn Hck].
  pose proof (sorted_rank _ (keysF_sorted s (rev row)) _ _ Hn) as Hrank.
  rewrite !(filter_perm_length _ _ _ (keysF_perm s (rev row))) in Hrank.
  assert (HP : Permutation (map fkey (filter below (rev row))) (map fkey (filter below row))).
  { apply Permutation_map. clear. induction row as [|a row IH]; cbn [rev]; [reflexivity|].
    rewrite filter_app. cbn [filter]. destruct (below a).
    - rewrite <- Permutation_cons_append. now constructor.
    - now rewrite app_nil_r. }
  rewrite !filter_app, !app_length in Hrank.
  rewrite !(filter_perm_length _ _ _ HP) in Hrank.
  set (G := map fkey (filter below row)) in *.
  assert (HG : forall k, In k G -> k < KM).
  { intros k Hk. apply in_map_iff in Hk. destruct Hk as (x & <- & Hx). apply filter_In in Hx. now apply below_key. }
  assert (HGL : length G = length (filter below row)) by (unfold G; apply map_length).
  split.
  - intros Hge. assert (Hlt : fkey c < KM).
    { destruct (Z.ltb_spec (fkey c) KM); auto. exfalso. assert (Ek : fkey c = KM) by lia. rewrite Ek in Hrank.
      rewrite (filter_all _ G) in Hrank; [lia|]. intros k Hk. apply Z.ltb_lt. auto. }
    rewrite filter_keys_lt, filter_keys_le by auto. fold G.
    rewrite !(filter_none _ (repeat KM s)) in Hrank
      by (intros x Hx; apply repeat_spec in Hx; subst x; lia).
    cbn [length] in Hrank. destruct Hc as [->|[Hin Hb]]; [unfold KM in Hlt; lia|].
    split; auto. split; auto. lia.
  - intros Hlt. destruct Hc as [->|[Hin Hb]]; auto. exfalso.
    apply below_key in Hb.
    rewrite !(filter_none _ (repeat KM s)) in Hrank
      by (intros x Hx; apply repeat_spec in Hx; subst x; lia).
    pose proof (filter_length_le (fun v => v <=? fkey c) G). cbn [length] in Hrank. lia.
Qed.

(** ** The whole array *)
Lemma core_of_row d i (r : nat -> f64) :
  (forall j, (j < Z.to_nat (d_rows d))%nat -> distance_get d (Z.of_nat i) (Z.of_nat j) = Ok (r j)) ->
  (0 < buf_size (d_k d))%nat ->
  core_of d i = core_row (buf_size (d_k d)) (map r (seq 0 (Z.to_nat (d_rows d)))).
Proof.
  intros Hr Hs. unfold core_of, core_row. replace (buf_size (d_k d) =? 0)%nat with false by lia.
  set (s := buf_size (d_k d)). set (n := Z.to_nat (d_rows d)) in *.
  assert (H : forall m k buf, (k + m <= n)%nat ->
    for_up k m (fun j buf => let! t := distance_get d (Z.of_nat i) (Z.of_nat j) in buf_step s t buf) buf =
    buf_run s (map r (seq k m)) buf).
  { induction m as [|m IH]; intros k buf Hk; cbn [for_up seq map buf_run]; [reflexivity|].
    rewrite Hr by lia. cbn [bind]. destruct (buf_step s (r k) buf); cbn [bind]; auto. apply IH. lia. }
  rewrite H by lia. reflexivity.
Qed.

Lemma core_array d (c : nat -> f64) :
  length (d_core d) = Z.to_nat (d_rows d) ->
  (forall i, (i < Z.to_nat (d_rows d))%nat -> core_of d i = Ok (c i)) ->
  distance_get_core_distances d =
  Ok (mk_distance (d_rows d) (d_cols d) (d_k d) (d_dist d) (map (fun i => Some (c i)) (seq 0 (Z.to_nat (d_rows d))))).
Proof.
  intros HL Hc. unfold distance_get_core_distances. set (n := Z.to_nat (d_rows d)) in *.
  change (fun i core => let! c0 := core_of d i in zset core (Z.of_nat i) c0)
    with (fun i core => wstep (fun i => Z.of_nat i) (core_of d) i core).
  rewrite for_up_wrun.
  destruct (wrun_ok (fun i => Z.of_nat i) (core_of d) c (seq 0 n) (d_core d)) as (m & E & HLm & H1 & _).
  - intros i Hi. apply in_seq in Hi. split; [apply Hc; lia|]. lia.
  - apply NoDup_map_inj; [|apply seq_NoDup]. intros x y _ _ Hxy. lia.
  - rewrite E. cbn [bind]. do 2 f_equal.
    apply nth_error_ext. intros i.
    destruct (Nat.ltb_spec i n).
    + specialize (H1 i). rewrite Nat2Z.id in H1. rewrite H1 by (apply in_seq; lia).
      rewrite nth_error_map, (nth_error_nth' _ 0%nat) by (rewrite seq_length; auto).
      rewrite seq_nth by auto. reflexivity.
    + replace (nth_error m i) with (@None (option f64)) by (symmetry; apply nth_error_None; lia).
      symmetry. apply nth_error_None. rewrite map_length, seq_length. lia.
Qed.

(** ** More neighbours asked for than there are points *)
Lemma find_pos_left t : forall fuel buf low high r,
  find_pos fuel buf t low high = Ok r ->
  r = low \/ exists x, nth_error buf (r - 1) = Some x /\ flt t x = false /\ (0 < r)%nat.
Proof.
  induction fuel as [|f IH]; intros buf low high r; cbn [find_pos]; [discriminate|].
  set (mid := (low + (high - low) / 2)%nat).
  destruct (aget buf mid) as [x| | |] eqn:Ex; cbn [bind]; try discriminate.
  apply aget_inv in Ex. unfold fgt. change (@Bltb 53 1024) with flt.
  destruct (flt t x) eqn:E1.
  - destruct (low <? mid)%nat; [apply IH|]. intros H; injection H as <-. auto.
  - assert (Hx : exists x, nth_error buf (S mid - 1) = Some x /\ flt t x = false /\ (0 < S mid)%nat).
    { exists x. replace (S mid - 1)%nat with mid by lia. split; [auto|split; [auto|lia]]. }
    destruct (feq x t); [intros H; injection H as <-; auto|].
    destruct (S mid <? high)%nat.
    + intros H. apply IH in H. destruct H as [->|H]; auto.
    + intros H; injection H as <-. auto.
Qed.

Lemma buf_step_tail s r t buf buf' : (0 < s)%nat -> length buf = s ->
  (forall i, (r <= i < s)%nat -> nth_error buf i = Some D_MAX) ->
  buf_step s t buf = Ok buf' ->
  length buf' = s /\ forall i, (S r <= i < s)%nat -> nth_error buf' i = Some D_MAX.
Proof.
  intros Hs HL Ht. unfold buf_step. destruct (aget_ok buf (s - 1)) as (last & -> & Hlast); [lia|]. cbn [bind].
  assert (Hsame : Ok buf = Ok buf' -> length buf' = s /\ forall i, (S r <= i < s)%nat -> nth_error buf' i = Some D_MAX).
  { intros E. injection E as <-. split; auto. intros i Hi. apply Ht. lia. }
  unfold fgt. change (@Bltb 53 1024) with flt. destruct (flt last t) eqn:Egt; [auto|].
  destruct (find_pos (S s) buf t 0 s) as [low| | |] eqn:Ef; cbn [bind]; try discriminate.
  destruct ((low <? s)%nat && fne last t) eqn:Ec; [|auto].
  intros E. injection E as <-. apply andb_prop in Ec. destruct Ec as [Hlow Hne].
  apply Nat.ltb_lt in Hlow. split.
  { rewrite app_length. cbn [length]. rewrite !firstn_length, skipn_length. lia. }
  intros i Hi.
  assert (Hlr : (low <= r)%nat).
  { destruct (Nat.le_gt_cases low r) as [|Hgt]; auto. exfalso.
    assert (Hl : nth_error buf (s - 1) = Some D_MAX) by (apply Ht; lia).
    rewrite Hl in Hlast. injection Hlast as <-.
    destruct (find_pos_left _ _ _ _ _ _ Ef) as [->|(x & Hx & Hf & H0)]; [lia|].
    rewrite (Ht (low - 1)%nat) in Hx by lia. injection Hx as <-.
    unfold fne in Hne. change (@Beqb 53 1024) with feq in Hne.
    destruct (fisnan t) eqn:En.
    - rewrite (find_pos_nan t En) in Ef by lia. injection Ef as <-. lia.
    - assert (Hnt : notnan t) by exact En.
      rewrite flt_key in Egt, Hf by (auto; apply D_MAX_notnan). rewrite feq_key in Hne by (auto; apply D_MAX_notnan).
      apply Z.ltb_ge in Egt, Hf. apply Bool.negb_true_iff, Z.eqb_neq in Hne. apply Hne. clear - Egt Hf.
      apply Z.le_antisymm; assumption. }
  rewrite nth_error_app2 by (rewrite firstn_length; lia). rewrite firstn_length.
  replace (Nat.min low (length buf)) with low by lia.
  destruct (i - low)%nat as [|j] eqn:Ej; [lia|]. cbn [nth_error].
  rewrite nth_error_firstn. replace (j <? s - low - 1)%nat with true by (symmetry; apply Nat.ltb_lt; lia).
  rewrite nth_error_skipn. apply Ht. lia.
Qed.

Lemma buf_run_tail s : (0 < s)%nat -> forall row r buf buf', length buf = s ->
  (forall i, (r <= i < s)%nat -> nth_error buf i = Some D_MAX) ->
  buf_run s row buf = Ok buf' ->
  forall i, (r + length row <= i < s)%nat -> nth_error buf' i = Some D_MAX.
Proof.
  intros Hs. induction row as [|t row IH]; intros r buf buf' HL Ht; cbn [buf_run length].
  - intros E. injection E as <-. intros i Hi. apply Ht. lia.
  - destruct (buf_step s t buf) as [b1| | |] eqn:E1; cbn [bind]; try discriminate.
    destruct (buf_step_tail s r t buf b1 Hs HL Ht E1) as [HL1 Ht1].
    intros E i Hi. apply (IH (S r) b1 buf' HL1 Ht1 E). lia.
Qed.

Lemma core_row_few s row : (length row < s)%nat -> core_row s row = Ok D_MAX.
Proof.
  intros Hs. unfold core_row.
  destruct (buf_run_safe s ltac:(lia) row [] _ (buf_ok_init s)) as (buf & E & HL & _). rewrite E. cbn [bind].
  apply aget_nth. eapply (buf_run_tail s) with (r := 0%nat); [lia| | |exact E|lia].
  - apply repeat_length.
  - intros i Hi. rewrite <- (Nat.add_0_l i). rewrite nth_error_nth' with (d := D_MAX) by (rewrite repeat_length; lia).
    f_equal. clear. generalize (0 + i)%nat as k. intros k. revert k. induction s as [|s IH]; intros [|k]; cbn; auto.
Qed.

(** ** At least as many finite distances as neighbours asked for *)
Definition filled (s p : nat) (buf : list f64) : Prop :=
  length buf = s /\ (forall i x, (i < p)%nat -> nth_error buf i = Some x -> below x = true) /\
  (forall i, (p <= i < s)%nat -> nth_error buf i = Some D_MAX).

Lemma find_pos_filled t s p buf : below t = true -> (p <= s)%nat -> filled s p buf -> forall fuel low high r,
  (low <= p)%nat -> find_pos fuel buf t low high = Ok r -> (r <= p)%nat.
Proof.
  intros Ht Hp (HL & H1 & H2). induction fuel as [|f IH]; intros low high r Hlow; cbn [find_pos]; [discriminate|].
  set (mid := (low + (high - low) / 2)%nat).
  destruct (aget buf mid) as [x| | |] eqn:Ex; cbn [bind]; try discriminate. apply aget_inv in Ex.
  assert (Hm : flt t x = false -> (S mid <= p)%nat).
  { intros Hf. destruct (Nat.le_gt_cases p mid) as [Hge|]; [exfalso|lia].
    assert (mid < s)%nat by (rewrite <- HL; apply nth_error_Some; congruence).
    rewrite (H2 mid) in Ex by lia. injection Ex as <-. unfold below in Ht. congruence. }
  unfold fgt. change (@Bltb 53 1024) with flt. destruct (flt t x) eqn:E1.
  - destruct (low <? mid)%nat; [apply IH; exact Hlow|]. intros H; injection H as <-. exact Hlow.
  - specialize (Hm eq_refl). destruct (feq x t); [intros H; injection H as <-; exact Hlow|].
    destruct (S mid <? high)%nat; [apply IH; exact Hm|]. intros H; injection H as <-. exact Hm.
Qed.

Lemma buf_step_filled s p t buf buf' : (0 < s)%nat -> (p <= s)%nat -> filled s p buf -> buf_step s t buf = Ok buf' ->
  filled s (if below t then Nat.min s (S p) else p) buf'.
Proof.
  intros Hs Hp HF. pose proof HF as (HL & H1 & H2). unfold buf_step.
  destruct (aget_ok buf (s - 1)) as (last & -> & Hlast); [lia|]. cbn [bind].
  unfold fgt. change (@Bltb 53 1024) with flt.
  assert (Hlt : (p < s)%nat -> last = D_MAX) by (intros H; rewrite (H2 (s - 1)%nat) in Hlast by lia; congruence).
  assert (Hps : p = s -> below last = true) by (intros ->; apply (H1 (s - 1)%nat); [lia|exact Hlast]).
  assert (Hkeep : (p < s)%nat /\ below t = false \/ p = s -> Ok buf = Ok buf' -> filled s (if below t then Nat.min s (S p) else p) buf').
  { intros Hc E. injection E as <-. destruct (below t) eqn:Eb; [|exact HF]. destruct Hc as [[_ Hc]|Hc]; [discriminate|].
    replace (Nat.min s (S p)) with p by lia. exact HF. }
  destruct (flt last t) eqn:Egt.
  { apply Hkeep. destruct (Nat.eq_dec p s) as [|Hne]; [auto|left]. split; [lia|]. rewrite (Hlt ltac:(lia)) in Egt.
    apply flt_true in Egt. destruct Egt as (_ & Nt & K). destruct (below t) eqn:Eb; [|reflexivity].
    apply below_key in Eb. unfold KM in Eb. destruct Eb as [_ Eb]. clear -K Eb. exfalso. apply (Z.lt_irrefl (fkey D_MAX)). eapply Z.lt_trans; eassumption. }
  destruct (find_pos (S s) buf t 0 s) as [low| | |] eqn:Ef; cbn [bind]; try discriminate.
  destruct (below t) eqn:Eb.
  - pose proof (find_pos_filled t s p buf Eb Hp HF _ _ _ _ (Nat.le_0_l _) Ef) as Hlow.
    destruct ((low <? s)%nat && fne last t) eqn:Ec.
    + apply andb_prop in Ec. destruct Ec as [Hls _]. apply Nat.ltb_lt in Hls.
      intros E. injection E as <-. split.
      { rewrite app_length. cbn [length]. rewrite !firstn_length, skipn_length. lia. }
      assert (Hget : forall i, nth_error (firstn low buf ++ t :: firstn (s - low - 1) (skipn low buf)) i =
        if (i <? low)%nat then nth_error buf i else if (i =? low)%nat then Some t else if (i <? s)%nat then nth_error buf (i - 1) else None).
      { intros i. destruct (Nat.ltb_spec i low) as [Hi|Hi].
        - rewrite nth_error_app1 by (rewrite firstn_length; lia). rewrite nth_error_firstn.
          replace (i <? low)%nat with true by (symmetry; apply Nat.ltb_lt; lia). reflexivity.
        - rewrite nth_error_app2 by (rewrite firstn_length; lia). rewrite firstn_length.
          replace (Nat.min low (length buf)) with low by lia. destruct (Nat.eqb_spec i low) as [->|Hne].
          + rewrite Nat.sub_diag. reflexivity.
          + destruct (i - low)%nat as [|j] eqn:Ej; [lia|]. cbn [nth_error]. rewrite nth_error_firstn.
            destruct (Nat.ltb_spec i s), (Nat.ltb_spec j (s - low - 1)); try lia; [|reflexivity].
            rewrite nth_error_skipn. f_equal. lia. }
      split.
      * intros i x Hi. rewrite Hget. destruct (Nat.ltb_spec i low) as [Hil|Hil]; [apply H1; lia|].
        destruct (Nat.eqb_spec i low) as [->|Hne]; [intros E; injection E as <-; exact Eb|].
        destruct (Nat.ltb_spec i s); [|discriminate]. apply H1. lia.
      * intros i Hi. rewrite Hget. destruct (Nat.ltb_spec i low); [lia|]. destruct (Nat.eqb_spec i low); [lia|].
        destruct (Nat.ltb_spec i s); [|lia]. apply H2. lia.
    + apply Hkeep. apply Bool.andb_false_iff in Ec. destruct (Nat.eq_dec p s) as [|Hne]; [auto|exfalso].
      destruct Ec as [Ec|Ec]; [apply Nat.ltb_ge in Ec; lia|].
      rewrite (Hlt ltac:(lia)) in Ec. unfold fne in Ec. change (@Beqb 53 1024) with feq in Ec. apply Bool.negb_false_iff in Ec.
      apply feq_true in Ec. destruct Ec as (_ & _ & K). apply below_key in Eb. destruct Eb as [_ Eb]. unfold KM in Eb. rewrite K in Eb.
      apply (Z.lt_irrefl _ Eb).
  - assert (Hno : (low <? s)%nat && fne last t = false).
    { destruct (fisnan t) eqn:En.
      - rewrite (find_pos_nan t En) in Ef by lia. injection Ef as <-. rewrite Nat.ltb_irrefl. reflexivity.
      - assert (Nt : notnan t) by exact En.
        assert (Hge : KM <= fkey t).
        { destruct (Z.le_gt_cases KM (fkey t)) as [|Hg]; [assumption|]. rewrite (proj2 (below_key t) (conj Nt Hg)) in Eb. discriminate. }
        assert (Hl : notnan last /\ fkey last <= KM).
        { destruct (Nat.eq_dec p s) as [E|E]; [specialize (Hps E); apply below_key in Hps; destruct Hps; split; [assumption|apply Z.lt_le_incl; assumption]|].
          rewrite Hlt by lia. split; [apply D_MAX_notnan|apply Z.le_refl]. }
        rewrite flt_key in Egt by (auto; apply Hl). apply Z.ltb_ge in Egt.
        assert (Hk : fkey last = fkey t).
        { apply Z.le_antisymm; [eapply Z.le_trans; [apply Hl|exact Hge]|exact Egt]. }
        unfold fne. change (@Beqb 53 1024) with feq. rewrite feq_key by (auto; apply Hl). rewrite Hk, Z.eqb_refl. apply Bool.andb_false_r. }
    rewrite Hno. intros E. injection E as <-. exact HF.
Qed.

Lemma buf_run_filled s : (0 < s)%nat -> forall row p buf buf', (p <= s)%nat -> filled s p buf -> buf_run s row buf = Ok buf' ->
  filled s (Nat.min s (p + length (filter below row))) buf'.
Proof.
  intros Hs. induction row as [|t row IH]; intros p buf buf' Hp HF; cbn [buf_run filter length].
  - intros E. injection E as <-. replace (Nat.min s (p + 0)) with p by lia. exact HF.
  - destruct (buf_step s t buf) as [b1| | |] eqn:E1; cbn [bind]; try discriminate. intros E.
    pose proof (buf_step_filled s p t buf b1 Hs Hp HF E1) as H1. apply (IH _ b1 buf') in H1; [|destruct (below t); lia|exact E].
    destruct (below t); cbn [length]; [|exact H1].
    replace (Nat.min s (p + S (length (filter below row)))) with (Nat.min s (Nat.min s (S p) + length (filter below row))) by lia. exact H1.
Qed.

Lemma core_row_enough s row : (0 < s)%nat ->
  exists c, core_row s row = Ok c /\ ((s <= length (filter below row))%nat -> below c = true) /\ ((length (filter below row) < s)%nat -> c = D_MAX).
Proof.
  intros Hs. unfold core_row.
  destruct (buf_run_safe s Hs row [] _ (buf_ok_init s)) as (buf & E & HL & _). rewrite E. cbn [bind].
  assert (H0 : filled s 0 (repeat D_MAX s)).
  { split; [apply repeat_length|]. split; [intros; lia|]. intros i Hi.
    rewrite nth_error_nth' with (d := D_MAX) by (rewrite repeat_length; lia). f_equal. clear. revert i.
    induction s as [|s IH]; intros [|k]; cbn; auto. }
  apply (buf_run_filled s Hs row 0 _ buf) in H0; [|lia|exact E]. destruct H0 as (F1 & F2 & F3).
  destruct (aget_ok buf (s - 1)) as (c & Ec & Hc); [lia|]. exists c. split; [exact Ec|]. split; intros H.
  - apply (F2 (s - 1)%nat); [lia|exact Hc].
  - rewrite (F3 (s - 1)%nat) in Hc by lia. congruence.
Qed.
