(** C72: the Python binding. *)
From Coq Require Import Permutation Sorted Reals Relations.
From Verif Require Import Base F64 F64Facts F64Arith ListFacts ModelUtils ModelDistance ModelMst ModelGraph ModelCluster ModelHier ModelSelect ModelRun ModelPython SpecGraph SpecHier SpecTree
  PropUtils ProofDistance ProofCore PropDistance ProofMst PropMst PropGraph ProofHier ProofHierEnd PropHier ProofTreeSel PropSelect PropProminent PropOutlier ProofRun PropRun PropSize.
From Coq Require Import ZifyBool ZifyNat.
Local Open Scope nat_scope.

(** ** Specification *)

(** The data of an array of doubles, floats, ints, longs or shorts. *)
Definition data_of (e : elements) : option dataset :=
  match e with
  | NDouble l => Some (DDouble l)
  | NFloat l => Some (DFloat l)
  | NInt l => Some (DInt l)
  | NLong l => Some (DLong l)
  | NShort l => Some (DShort l)
  | NOther => None
  end.
(** Arrays with one or two dimensions: the data, the number of rows and of columns. *)
Definition table (a : narray) : option (dataset * nat * nat) :=
  match data_of (n_elements a), n_dims a with
  | Some ds, [r] => Some (ds, r, 1)
  | Some ds, [r; c] => Some (ds, r, c)
  | _, _ => None
  end.
Definition usable (a : narray) : Prop :=
  exists ds rows cols, table a = Some (ds, rows, cols) /\ 5 <= rows /\ (Z.of_nat rows <= 65536)%Z /\ holds ds rows cols.
Definition rows_of (a : narray) : nat := match table a with Some (_, r, _) => r | None => 0 end.

(** The labels one run of the library gives to the rows of an array. *)
Definition clustering (fuel : nat) (qsort : list outlier -> list outlier) (minPts : Z) (a : narray) (labels : list Z) : Prop :=
  exists ds rows cols s o r, table a = Some (ds, rows, cols) /\ valid s /\ fresh_run fuel s qsort minPts ds rows cols true = Ok o /\ o_res o = Some r /\
    labels = map Z.of_nat (r_labels r) /\ length labels = rows.

(** What really happens: all objects share minPoints (of the last constructor or rerun) and
    the state of the data.  [e_from] tells which labels an object has: minPoints, array and how
    many of the labels; [e_refs] how many references to the list are left. *)
Inductive stage := Nothing | Created | Data (a : narray) | Emptied.
Record expect := mk_expect { e_rows : nat; e_from : option (Z * narray * nat); e_refs : nat }.
Record pworld := mk_pworld { u_min : Z; u_stage : stage; u_objs : list (option expect) }.
Definition pworld0 : pworld := mk_pworld 0 Nothing [].

Definition cleanable (s : stage) : bool := match s with Data _ | Emptied => true | _ => false end.
Definition release_ok (e : expect) : bool := match e_from e with None => true | Some _ => 1 <=? e_refs e end.
Definition pworld_call (c : pcall) (w : pworld) : option pworld :=
  match c with
  | PNew m =>
      if (2 <=? m)%Z && (m <? M32)%Z then Some (mk_pworld m Created (u_objs w ++ [Some (mk_expect 0 None 0)]))
      else if (0 <=? m)%Z && (m <? 2)%Z && cleanable (u_stage w) then Some (mk_pworld (u_min w) Emptied (u_objs w ++ [None]))
      else None
  | PRun i a _ => match nth_error (u_objs w) i with
      | Some (Some _) => Some (mk_pworld (u_min w) (Data a) (upd (u_objs w) i (Some (mk_expect (rows_of a) (Some (u_min w, a, rows_of a)) 2))))
      | _ => None end
  | PRerun i m _ => match nth_error (u_objs w) i with
      | Some (Some e) =>
          if release_ok e then
            if (0 <=? m)%Z && (m <? 2)%Z || negb (in_i32 m)
            then Some (mk_pworld (u_min w) (u_stage w) (upd (u_objs w) i (Some (mk_expect (e_rows e) (e_from e) (e_refs e - 1)))))
            else match u_stage w with
              | Data a => if (2 <=? m)%Z && (e_rows e <=? rows_of a)
                          then Some (mk_pworld m (Data a) (upd (u_objs w) i (Some (mk_expect (e_rows e) (Some (m, a, e_rows e)) 2)))) else None
              | _ => None end
          else None
      | _ => None end
  | PDel i => match nth_error (u_objs w) i with
      | Some (Some e) => if release_ok e && cleanable (u_stage w) then Some (mk_pworld (u_min w) Emptied (upd (u_objs w) i None)) else None
      | _ => None end
  end.
Fixpoint pworld_calls (cs : list pcall) (w : pworld) : option pworld :=
  match cs with [] => Some w | c :: cs' => match pworld_call c w with Some w => pworld_calls cs' w | None => None end end.

(** The arrays are usable, the schedules valid, and the fuel suffices. *)
Definition fair (fuel : nat) (c : pcall) : Prop :=
  match c with PRun _ a s => usable a /\ valid s /\ 2 * rows_of a - 1 <= fuel | PRerun _ _ s => valid s | _ => True end.

(** ** Proofs *)
Lemma table_code a : table a = match datatype_of (n_elements a), n_dims a with Some ds, [r] => Some (ds, r, 1) | Some ds, [r; c] => Some (ds, r, c) | _, _ => None end.
Proof. unfold table. destruct (n_elements a); reflexivity. Qed.
Lemma run_from fuel s q ds rows cols rowwise o m : o_min o = m -> o_self o = true -> (1 < m)%Z ->
  hdbscan_run fuel s q ds rows cols rowwise o = fresh_run fuel s q m ds rows cols rowwise.
Proof.
  intros Hm Hs H1. unfold fresh_run, hdbscan_init. replace (1 <? m)%Z with true by lia. cbn [bind]. unfold hdbscan_run. cbn [o_min o_self]. rewrite Hm.
  destruct (distance_compute ds rows cols (u32 (m - 1))) as [d| | |]; cbn [bind]; try reflexivity. destruct (cluster_capacity _ =? 0); [reflexivity|].
  unfold do_run. cbn [o_dist o_clusters o_n o_self o_min]. rewrite Hs. reflexivity.
Qed.

Lemma run_array fuel s q m a ds rows cols : table a = Some (ds, rows, cols) -> 5 <= rows -> (Z.of_nat rows <= 65536)%Z -> holds ds rows cols -> (2 <= m < M32)%Z ->
  2 * rows - 1 <= fuel -> valid s -> sorts q ->
  exists o l, fresh_run fuel s q m ds rows cols true = Ok o /\ clustering fuel q m a l /\ o_min o = m /\ o_self o = true /\ length l = rows /\
    (exists r, o_res o = Some r /\ length (r_labels r) = rows /\ forall k, map (fun l => u32 (Z.of_nat l)) (firstn k (r_labels r)) = firstn k l).
Proof.
  intros HA H1 H2 HL Hm Hf Hs Hq.
  destruct (C69_cluster_sizes ds rows cols m fuel s q H1 H2 HL Hm Hf Hs Hq) as (o & r & E & Er & _ & _ & Hlt & _ & Hb).
  destruct (run_parts ds rows cols m fuel H1 H2 HL Hm Hf) as (d & P & _ & _ & _ & H). destruct (H s q Hs Hq) as (labels & os & E' & HLl & _). clear H.
  assert (Ho : o_min o = m /\ o_self o = true /\ length (r_labels r) = rows).
  { rewrite E in E'. injection E' as E'. rewrite E' in Er |- *. cbn [o_res o_min o_self o_n] in *. injection Er as <-. auto. }
  clear E' HLl labels os P d. destruct Ho as (O1 & O2 & HLl).
  assert (Hsmall : forall c, In c (r_labels r) -> (Z.of_nat c < M32)%Z).
  { intros c Hc. specialize (Hlt c Hc). unfold M32 in *. destruct (Nat.lt_ge_cases (length (r_clusters r)) 3) as [H3|H3]; [lia|]. specialize (Hb H3). clear -Hb Hlt H2 Hm. nia. }
  exists o, (map Z.of_nat (r_labels r)). split; [exact E|]. split; [exists ds, rows, cols, s, o, r; rewrite map_length; auto 10|]. split; [exact O1|]. split; [exact O2|]. split; [rewrite map_length; exact HLl|].
  exists r. split; [exact Er|]. split; [exact HLl|]. intros k. rewrite firstn_map. apply map_ext_in. intros c Hc. unfold u32. apply Z.mod_small. split; [lia|]. apply Hsmall.
  rewrite <- (firstn_skipn k (r_labels r)). apply in_or_app. left. exact Hc.
Qed.

(** The state of [scan]. *)
Definition scan_ok (fuel : nat) (w : pworld) (g : scan_state) : Prop :=
  match u_stage w, g with
  | Nothing, NoScan => True
  | Created, Raw o => o_min o = u_min w /\ o_self o = true /\ (2 <= u_min w < M32)%Z
  | Emptied, Used o => o_min o = u_min w /\ o_self o = true /\ (2 <= u_min w < M32)%Z
  | Data a, Used o => o_min o = u_min w /\ o_self o = true /\ (2 <= u_min w < M32)%Z /\
      exists ds rows cols, table a = Some (ds, rows, cols) /\ 5 <= rows /\ (Z.of_nat rows <= 65536)%Z /\ holds ds rows cols /\ 2 * rows - 1 <= fuel /\ ran ds rows cols true o
  | _, _ => False
  end.
(** An object and its list. *)
Definition obj_ok (fuel : nat) (q : list outlier -> list outlier) (ls : list (option (nat * list Z))) (e : option expect) (o : option pyobj) : Prop :=
  match e, o with
  | None, None => True
  | Some e, Some o => y_rows o = e_rows e /\
      match e_from e, y_labels o with
      | None, None => True
      | Some (m, a, k), Some id => exists l, clustering fuel q m a l /\ nth_error ls id = Some (match e_refs e with O => None | S _ => Some (e_refs e, firstn k l) end)
      | _, _ => False
      end
  | _, _ => False
  end.
Definition lists_of (objs : list (option pyobj)) : list nat :=
  flat_map (fun o => match o with Some o => match y_labels o with Some id => [id] | None => [] end | None => [] end) objs.
Definition py_ok (fuel : nat) (q : list outlier -> list outlier) (w : pworld) (p : py) : Prop :=
  scan_ok fuel w (g_scan p) /\ (g_objs p <> [] -> u_stage w <> Nothing) /\ Forall2 (obj_ok fuel q (g_lists p)) (u_objs w) (g_objs p) /\
  NoDup (lists_of (g_objs p)) /\ (forall id, In id (lists_of (g_objs p)) -> id < length (g_lists p)).

Lemma nth_upd_other {A} (l : list A) i j x : i <> j -> nth_error (upd l i x) j = nth_error l j.
Proof. revert i j. induction l as [|a l IH]; intros i j H; [reflexivity|]. destruct i, j; cbn; try reflexivity; try congruence. apply IH. congruence. Qed.
Lemma nth_upd_same {A} (l : list A) i x : i < length l -> nth_error (upd l i x) i = Some x.
Proof. revert i. induction l as [|a l IH]; intros i H; [cbn in H; lia|]. destruct i; cbn [upd nth_error length] in *; [reflexivity|]. apply IH. lia. Qed.
Lemma len_upd {A} (l : list A) i x : length (upd l i x) = length l.
Proof. revert i. induction l as [|a l IH]; intros i; [reflexivity|]. destruct i; cbn [upd length]; [reflexivity|]. rewrite IH. reflexivity. Qed.

Lemma Forall2_len {A B} (R : A -> B -> Prop) l l' : Forall2 R l l' -> length l = length l'.
Proof. induction 1; cbn [length]; congruence. Qed.

Definition ids (o : option pyobj) : list nat := match o with Some o => match y_labels o with Some id => [id] | None => [] end | None => [] end.
Lemma lists_split (objs : list (option pyobj)) i o : nth_error objs i = Some o -> exists a b : list (option pyobj), objs = a ++ o :: b /\ length a = i /\ forall x, upd objs i x = a ++ x :: b.
Proof.
  revert i. induction objs as [|y objs IH]; intros i H; [destruct i; discriminate|]. destruct i as [|i].
  - injection H as ->. exists [], objs. repeat split.
  - destruct (IH i H) as (a & b & -> & L & U). exists (y :: a), b. split; [reflexivity|]. split; [cbn; lia|]. intros x. cbn [upd]. rewrite U. reflexivity.
Qed.
Lemma lists_app a b : lists_of (a ++ b) = lists_of a ++ lists_of b.
Proof. apply flat_map_app. Qed.

(** The effect of a call on the object it is made on. *)
Lemma objs_step fuel q us os ls i (e' : option expect) (o o' : option pyobj) ls' :
  Forall2 (obj_ok fuel q ls) us os -> nth_error os i = Some o ->
  NoDup (lists_of os) -> (forall id, In id (lists_of os) -> id < length ls) ->
  (forall id, ~ In id (ids o) -> id < length ls -> nth_error ls' id = nth_error ls id) -> length ls <= length ls' ->
  obj_ok fuel q ls' e' o' -> (forall id, In id (ids o') -> In id (ids o) \/ length ls <= id < length ls') ->
  Forall2 (obj_ok fuel q ls') (upd us i e') (upd os i o') /\ NoDup (lists_of (upd os i o')) /\ (forall id, In id (lists_of (upd os i o')) -> id < length ls').
Proof.
  intros HF Ho Hnd Hin Hls Hlen Hok Hids. destruct (lists_split os i o Ho) as (a & b & -> & La & Hu).
  rewrite Hu. rewrite !lists_app in *. cbn [lists_of flat_map] in *. change (flat_map _ b) with (lists_of b) in *. change (match o with Some o0 => match y_labels o0 with Some id => [id] | None => [] end | None => [] end) with (ids o) in *.
  change (match o' with Some o0 => match y_labels o0 with Some id => [id] | None => [] end | None => [] end) with (ids o').
  apply Forall2_app_inv_r in HF. destruct HF as (ua & ub & Fa & Fb & ->). inversion Fb as [|e x ub' y Fe Fb']; subst.
  assert (Eu : upd (ua ++ e :: ub') (length a) e' = ua ++ e' :: ub').
  { rewrite <- (Forall2_len _ _ _ Fa). clear. induction ua as [|u ua IH]; cbn [app length upd]; [reflexivity|]. rewrite IH. reflexivity. }
  rewrite Eu.
  assert (Hkeep : forall us os, Forall2 (obj_ok fuel q ls) us os -> (forall id, In id (lists_of os) -> (id < length ls) /\ ~ In id (ids o)) -> Forall2 (obj_ok fuel q ls') us os).
  { clear -Hls. intros us os HF. induction HF as [|e o1 us os H HF IH]; intros Hid; [constructor|]. constructor.
    - unfold obj_ok in *. destruct e as [e|], o1 as [o1|]; try exact H. destruct H as [H1 H2]. split; [exact H1|]. destruct (e_from e) as [[[m ar] k]|], (y_labels o1) as [id|] eqn:Ey; try exact H2.
      destruct H2 as (l & C & N). exists l. split; [exact C|]. rewrite Hls; [exact N| |]; apply Hid; cbn [lists_of flat_map]; apply in_or_app; left; rewrite Ey; left; reflexivity.
    - apply IH. intros id Hi. apply Hid. cbn [lists_of flat_map]. apply in_or_app. right. exact Hi. }
  assert (Ha : forall id, In id (lists_of a) -> id < length ls /\ ~ In id (ids o)).
  { intros id Hi. split; [apply Hin; apply in_or_app; left; exact Hi|]. intros Hc. apply (NoDup_app_disj _ _ id Hnd Hi). apply in_or_app. left. exact Hc. }
  assert (Hb : forall id, In id (lists_of b) -> id < length ls /\ ~ In id (ids o)).
  { intros id Hi. split; [apply Hin; apply in_or_app; right; apply in_or_app; right; exact Hi|]. intros Hc. apply (NoDup_app_disj _ _ id (NoDup_app_r _ _ Hnd) Hc Hi). }
  split; [|split].
  - apply Forall2_app; [apply Hkeep; assumption|]. constructor; [exact Hok|apply Hkeep; assumption].
  - apply NoDup_app_intro; [apply (NoDup_app_l _ _ Hnd)| |].
    + apply NoDup_app_intro; [|apply (NoDup_app_r _ _ (NoDup_app_r _ _ Hnd))|].
      * unfold ids. destruct o' as [o'|]; [destruct (y_labels o'); repeat constructor; intros []|constructor].
      * intros id Hi Hj. destruct (Hids id Hi) as [H|H]; [apply (proj2 (Hb id Hj)); exact H|]. apply Hb in Hj. lia.
    + intros id Hi Hj. apply in_app_or in Hj. destruct Hj as [Hj|Hj].
      * destruct (Hids id Hj) as [H|H]; [apply (proj2 (Ha id Hi)); exact H|]. apply Ha in Hi. lia.
      * apply (NoDup_app_disj _ _ id Hnd Hi). apply in_or_app. right. exact Hj.
  - intros id Hi. apply in_app_or in Hi. destruct Hi as [Hi|Hi]; [apply Ha in Hi; lia|]. apply in_app_or in Hi. destruct Hi as [Hi|Hi]; [|apply Hb in Hi; lia].
    destruct (Hids id Hi) as [H|H]; [|lia]. assert (id < length ls) by (apply Hin; apply in_or_app; right; apply in_or_app; left; exact H). lia.
Qed.

(** Releasing the labels of an object. *)
Lemma xdecref_ok fuel q ls e o : obj_ok fuel q ls (Some e) (Some o) -> release_ok e = true ->
  exists ls', xdecref (y_labels o) ls = Ok ls' /\ length ls' = length ls /\ (forall id, ~ In id (ids (Some o)) -> nth_error ls' id = nth_error ls id) /\
    forall m' c', obj_ok fuel q ls' (Some (mk_expect (e_rows e) (e_from e) (e_refs e - 1))) (Some (mk_pyobj m' c' (y_rows o) (y_labels o))).
Proof.
  intros [H1 H2] HR. unfold release_ok in HR. cbn [ids]. unfold xdecref, obj_ok. cbn [y_rows y_labels e_rows e_from e_refs].
  destruct (e_from e) as [[[m a] k]|], (y_labels o) as [id|]; try contradiction.
  - destruct H2 as (l & C & N). rewrite N. assert (Hlt : id < length ls) by (apply nth_error_Some; congruence). apply Nat.leb_le in HR.
    destruct (e_refs e) as [|[|c]] eqn:Er; [lia| |].
    + eexists. split; [reflexivity|]. split; [apply len_upd|]. split; [intros j Hj; apply nth_upd_other; intros ->; apply Hj; left; reflexivity|]. intros _ _. split; [exact H1|].
      exists l. split; [exact C|]. cbn [Nat.sub]. apply nth_upd_same. exact Hlt.
    + eexists. split; [reflexivity|]. split; [apply len_upd|]. split; [intros j Hj; apply nth_upd_other; intros ->; apply Hj; left; reflexivity|]. intros _ _. split; [exact H1|].
      exists l. split; [exact C|]. cbn [Nat.sub]. rewrite nth_upd_same by exact Hlt. reflexivity.
  - exists ls. split; [reflexivity|]. split; [reflexivity|]. split; [reflexivity|]. intros _ _. split; [exact H1|exact I].
Qed.

Lemma Forall2_nth {A B} (R : A -> B -> Prop) l l' i a : Forall2 R l l' -> nth_error l i = Some a -> exists b, nth_error l' i = Some b /\ R a b.
Proof.
  intros H. revert i. induction H as [|x y l l' Hxy H IH]; intros i E; [destruct i; discriminate|]. destruct i; [injection E as <-; exists y; auto|apply IH; exact E].
Qed.

Lemma clean_ok fuel w g : scan_ok fuel w g -> cleanable (u_stage w) = true -> exists g', scan_clean g = Ok g' /\ forall us, scan_ok fuel (mk_pworld (u_min w) Emptied us) g'.
Proof.
  unfold scan_ok. intros H HC. destruct (u_stage w) as [| |a|]; try discriminate; (destruct g as [|o|o]; try contradiction); cbn [scan_clean].
  - destruct H as (H1 & H2 & H3 & _). eexists. split; [reflexivity|]. intros us. cbn [u_stage u_min o_min o_self]. auto.
  - destruct H as (H1 & H2 & H3). eexists. split; [reflexivity|]. intros us. cbn [u_stage u_min o_min o_self]. auto.
Qed.

Lemma pworld_step fuel q c w w' p : sorts q -> fair fuel c -> pworld_call c w = Some w' -> py_ok fuel q w p -> exists p', py_call fuel q c p = Ok p' /\ py_ok fuel q w' p'.
Proof.
  assert (HM : (M32 = 4294967296)%Z) by reflexivity.
  intros Hq Hfair Hw (HS & HN & HF & Hnd & Hin). destruct c as [m|i a s|i m s|i]; cbn [pworld_call fair py_call] in *.
  - destruct ((2 <=? m)%Z && (m <? M32)%Z) eqn:E.
    + apply andb_true_iff in E. destruct E as [E1 E2]. apply Z.leb_le in E1. apply Z.ltb_lt in E2. injection Hw as <-.
      unfold py_new, hdbscan_init, u32. rewrite Z.mod_small by lia. replace (m <? 2)%Z with false by lia. replace (1 <? m)%Z with true by lia. cbn [bind]. eexists. split; [reflexivity|].
      unfold py_ok. cbn [g_scan g_objs g_lists u_stage u_objs u_min]. split; [cbn [scan_ok u_stage u_min o_min o_self]; split; [reflexivity|]; split; [reflexivity|lia]|].
      split; [intros _; discriminate|]. split; [apply Forall2_app; [exact HF|]; constructor; [|constructor]; split; [reflexivity|exact I]|].
      rewrite lists_app. cbn [lists_of flat_map y_labels]. rewrite !app_nil_r. split; [exact Hnd|exact Hin].
    + destruct ((0 <=? m)%Z && (m <? 2)%Z && cleanable (u_stage w)) eqn:E'; [|discriminate]. injection Hw as <-. apply andb_true_iff in E'. destruct E' as [E' HC]. apply andb_true_iff in E'. destruct E' as [E1 E2].
      apply Z.leb_le in E1. apply Z.ltb_lt in E2. unfold py_new, u32. rewrite Z.mod_small by lia. replace (m <? 2)%Z with true by lia. unfold py_dealloc.
      destruct (clean_ok fuel w _ HS HC) as (g' & -> & HS'). cbn [bind xdecref g_scan g_objs g_lists]. eexists. split; [reflexivity|].
      unfold py_ok. cbn [g_scan g_objs g_lists u_stage u_objs u_min]. split; [apply HS'|]. split; [intros _; discriminate|].
      split; [apply Forall2_app; [exact HF|]; constructor; [exact I|constructor]|]. rewrite lists_app. cbn [lists_of flat_map]. rewrite !app_nil_r. split; [exact Hnd|exact Hin].
  - destruct (nth_error (u_objs w) i) as [[e|]|] eqn:Ei; try discriminate. injection Hw as <-. destruct Hfair as ((ds & rows & cols & HT & H5 & H6 & HL) & Hs & Hf).
    destruct (Forall2_nth _ _ _ _ _ HF Ei) as (o & Eo & HO). destruct o as [o|]; [|contradiction].
    assert (Hrows : rows_of a = rows) by (unfold rows_of; rewrite HT; reflexivity). rewrite Hrows in *.
    unfold py_run, self_of. rewrite Eo. cbn [bind].
    assert (Hd : datatype_of (n_elements a) = Some ds /\ shape_of (n_dims a) = Ok (rows, cols)).
    { rewrite table_code in HT. destruct (datatype_of (n_elements a)) as [ds'|]; [|discriminate]. destruct (n_dims a) as [|r [|c [|]]]; try discriminate HT; injection HT; intros; subst; auto. }
    destruct Hd as [-> ->]. cbn [bind fst snd].
    assert (Hsc : exists o0, (g_scan p = Raw o0 \/ g_scan p = Used o0) /\ o_min o0 = u_min w /\ o_self o0 = true /\ (2 <= u_min w < M32)%Z).
    { assert (Hst : u_stage w <> Nothing) by (apply HN; intros E0; rewrite E0 in Eo; destruct i; discriminate). unfold scan_ok in HS. destruct (u_stage w) as [| |a'|]; [congruence|..]; destruct (g_scan p) as [|o0|o0]; try contradiction; exists o0.
      - auto. - destruct HS as (S1 & S2 & S3 & _). auto. - auto. }
    destruct Hsc as (o0 & Hg & S1 & S2 & S3).
    destruct (run_array fuel s q (u_min w) a ds rows cols HT H5 H6 HL S3 Hf Hs Hq) as (o1 & l & R1 & R2 & R3 & R4 & R5 & r & Rr & Rl & Rf).
    set (self := mk_pyobj (y_min o) cols rows (y_labels o)).
    assert (Egl : get_labels self o1 (g_lists p) = Ok (mk_pyobj (y_min o) cols rows (Some (length (g_lists p))), g_lists p ++ [Some (2, firstn rows l)])).
    { unfold get_labels. rewrite Rr. cbn [y_rows self]. rewrite Rl, Nat.leb_refl, Rf. reflexivity. }
    eexists. split.
    { destruct Hg as [-> | ->]; rewrite (run_from _ _ _ _ _ _ _ o0 (u_min w) S1 S2 ltac:(lia)), R1; cbn [bind]; rewrite Egl; cbn [bind fst snd]; reflexivity. }
    unfold py_ok. cbn [g_scan g_objs g_lists u_stage u_objs u_min]. split.
    { cbn [scan_ok u_stage u_min]. split; [exact R3|]. split; [exact R4|]. split; [exact S3|]. exists ds, rows, cols. split; [exact HT|]. split; [exact H5|]. split; [exact H6|]. split; [exact HL|]. split; [exact Hf|]. apply (run_ran _ _ _ _ _ _ _ _ _ R1). }
    split; [intros _; discriminate|].
    destruct (objs_step fuel q (u_objs w) (g_objs p) (g_lists p) i (Some (mk_expect rows (Some (u_min w, a, rows)) 2)) (Some o) (Some (mk_pyobj (y_min o) cols rows (Some (length (g_lists p)))))
      (g_lists p ++ [Some (2, firstn rows l)]) HF Eo Hnd Hin) as (G1 & G2 & G3).
    + intros id _ Hlt. apply nth_error_app1. exact Hlt.
    + rewrite app_length. lia.
    + cbn [obj_ok y_rows y_labels e_rows e_from e_refs]. split; [reflexivity|]. exists l. split; [exact R2|]. rewrite nth_error_app2, Nat.sub_diag by lia. reflexivity.
    + intros id [<-|[]]. right. rewrite app_length. cbn [length]. lia.
    + split; [exact G1|]. split; [exact G2|exact G3].
  - destruct (nth_error (u_objs w) i) as [[e|]|] eqn:Ei; try discriminate. destruct (release_ok e) eqn:HR; [|discriminate].
    destruct (Forall2_nth _ _ _ _ _ HF Ei) as (o & Eo & HO). destruct o as [o|]; [|contradiction].
    destruct (xdecref_ok fuel q _ e o HO HR) as (ls' & X1 & X2 & X3 & X4).
    unfold py_rerun, self_of. rewrite Eo. cbn [bind]. rewrite X1. cbn [bind].
    assert (Hrej : forall o', ids (Some o') = ids (Some o) -> obj_ok fuel q ls' (Some (mk_expect (e_rows e) (e_from e) (e_refs e - 1))) (Some o') ->
      py_ok fuel q (mk_pworld (u_min w) (u_stage w) (upd (u_objs w) i (Some (mk_expect (e_rows e) (e_from e) (e_refs e - 1))))) (mk_py (g_scan p) (upd (g_objs p) i (Some o')) ls')).
    { intros o' Eids Hok. unfold py_ok. cbn [g_scan g_objs g_lists u_stage u_objs u_min]. split; [exact HS|]. split.
      - intros _. apply HN. intros E0. rewrite E0 in Eo. destruct i; discriminate.
      - apply (objs_step fuel q _ _ (g_lists p) i _ (Some o) (Some o') ls' HF Eo Hnd Hin); [intros id Hid _; apply X3; exact Hid|lia|exact Hok|]. intros id Hid. left. rewrite <- Eids. exact Hid. }
    destruct (in_i32 m) eqn:Em; cbn [negb].
    + destruct ((0 <=? m)%Z && (m <? 2)%Z) eqn:E2.
      * cbn [orb] in Hw. injection Hw as <-. apply andb_true_iff in E2. destruct E2 as [E2 E3]. apply Z.leb_le in E2. apply Z.ltb_lt in E3.
        unfold u32. rewrite Z.mod_small by lia. replace (m <? 2)%Z with true by lia. eexists. split; [reflexivity|]. apply Hrej; [reflexivity|]. apply X4.
      * cbn [orb negb] in Hw. destruct (u_stage w) as [| |a|] eqn:Est; try discriminate. destruct ((2 <=? m)%Z && (e_rows e <=? rows_of a)) eqn:E3; [|discriminate]. injection Hw as <-.
        apply andb_true_iff in E3. destruct E3 as [E3 E4]. apply Z.leb_le in E3. apply Nat.leb_le in E4. unfold in_i32 in Em. apply andb_true_iff in Em. destruct Em as [_ Em]. apply Z.leb_le in Em.
        unfold u32. rewrite Z.mod_small by lia. replace (m <? 2)%Z with false by lia. unfold scan_ok in HS. rewrite Est in HS. destruct (g_scan p) as [|o0|o0]; try contradiction.
        destruct HS as (S1 & S2 & S3 & ds & rows & cols & HT & H5 & H6 & HL & Hf & Hran).
        assert (Hrows : rows_of a = rows) by (unfold rows_of; rewrite HT; reflexivity). rewrite Hrows in *.
        assert (Hm : (2 <= m < M32)%Z) by lia.
        destruct (run_array fuel s q m a ds rows cols HT H5 H6 HL Hm Hf Hfair Hq) as (o1 & l & R1 & R2 & R3 & R4 & R5 & r & Rr & Rl & Rf).
        rewrite (rerun_fresh _ _ _ _ _ _ _ _ _ Hran Hm), R1. cbn [bind].
        destruct HO as [Hyr _].
        assert (Egl : get_labels (mk_pyobj m (y_cols o) (y_rows o) (y_labels o)) o1 ls' = Ok (mk_pyobj m (y_cols o) (y_rows o) (Some (length ls')), ls' ++ [Some (2, firstn (e_rows e) l)])).
        { unfold get_labels. rewrite Rr. cbn [y_rows]. rewrite Hyr, Rl. replace (e_rows e <=? rows) with true by (symmetry; apply Nat.leb_le; exact E4). rewrite Rf. reflexivity. }
        rewrite Egl. cbn [bind fst snd]. eexists. split; [reflexivity|].
        unfold py_ok. cbn [g_scan g_objs g_lists u_stage u_objs u_min]. split.
        { cbn [scan_ok u_stage u_min]. split; [exact R3|]. split; [exact R4|]. split; [lia|]. exists ds, rows, cols. split; [exact HT|]. split; [exact H5|]. split; [exact H6|]. split; [exact HL|]. split; [exact Hf|]. apply (run_ran _ _ _ _ _ _ _ _ _ R1). }
        split; [intros _; discriminate|].
        destruct (objs_step fuel q (u_objs w) (g_objs p) (g_lists p) i (Some (mk_expect (e_rows e) (Some (m, a, e_rows e)) 2)) (Some o) (Some (mk_pyobj m (y_cols o) (y_rows o) (Some (length ls'))))
          (ls' ++ [Some (2, firstn (e_rows e) l)]) HF Eo Hnd Hin) as (G1 & G2 & G3).
        -- intros id Hid Hlt. rewrite nth_error_app1 by lia. apply X3. exact Hid.
        -- rewrite app_length. lia.
        -- cbn [obj_ok y_rows y_labels e_rows e_from e_refs]. split; [exact Hyr|]. exists l. split; [exact R2|]. rewrite nth_error_app2, Nat.sub_diag by lia. reflexivity.
        -- intros id [<-|[]]. right. rewrite app_length. cbn [length]. lia.
        -- split; [exact G1|]. split; [exact G2|exact G3].
    + rewrite orb_true_r in Hw. injection Hw as <-. assert (Eu : g_objs p = upd (g_objs p) i (Some o)).
      { clear -Eo. revert i Eo. generalize (g_objs p) as l. induction l as [|x l IH]; intros i Eo; [destruct i; discriminate|]. destruct i; cbn [upd nth_error] in *; [injection Eo as ->; reflexivity|]. rewrite <- IH; auto. }
      rewrite Eu. eexists. split; [reflexivity|]. apply Hrej; [reflexivity|]. specialize (X4 (y_min o) (y_cols o)). destruct o; exact X4.
  - destruct (nth_error (u_objs w) i) as [[e|]|] eqn:Ei; try discriminate. destruct (release_ok e && cleanable (u_stage w)) eqn:E; [|discriminate]. injection Hw as <-.
    apply andb_true_iff in E. destruct E as [HR HC].
    destruct (Forall2_nth _ _ _ _ _ HF Ei) as (o & Eo & HO). destruct o as [o|]; [|contradiction].
    destruct (xdecref_ok fuel q _ e o HO HR) as (ls' & X1 & X2 & X3 & X4).
    unfold py_del, self_of. rewrite Eo. cbn [bind]. unfold py_dealloc. destruct (clean_ok fuel w _ HS HC) as (g' & -> & HS'). cbn [bind]. rewrite X1. cbn [bind g_scan g_objs g_lists].
    eexists. split; [reflexivity|]. unfold py_ok. cbn [g_scan g_objs g_lists u_stage u_objs u_min]. split; [apply HS'|]. split; [intros _; discriminate|].
    apply (objs_step fuel q _ _ (g_lists p) i _ (Some o) None ls' HF Eo Hnd Hin); [intros id Hid _; apply X3; exact Hid|lia|exact I|intros id []].
Qed.

(** ** C72.  Every program that the rules above admit: it does not crash, and the labels of
    each object are known. *)
Theorem C72_python_programs : forall fuel qsort cs w, sorts qsort -> Forall (fair fuel) cs -> pworld_calls cs pworld0 = Some w ->
  exists p, py_calls fuel qsort cs py_start = Ok p /\
    forall i e, nth_error (u_objs w) i = Some (Some e) ->
      match e_from e with
      | None => py_labels i p = Ok None
      | Some (m, a, k) =>
          if e_refs e =? 0 then py_labels i p = UB
          else exists l, clustering fuel qsort m a l /\ py_labels i p = Ok (Some (firstn k l))
      end.
Proof.
  intros fuel q cs w Hq Hfair Hw.
  assert (G : forall cs w0 p0, Forall (fair fuel) cs -> pworld_calls cs w0 = Some w -> py_ok fuel q w0 p0 -> exists p, py_calls fuel q cs p0 = Ok p /\ py_ok fuel q w p).
  { clear cs Hfair Hw. induction cs as [|c cs IH]; intros w0 p0 Hfair Hw HP; cbn [pworld_calls py_calls] in *; [injection Hw as <-; eauto|].
    destruct (pworld_call c w0) as [w1|] eqn:E; [|discriminate]. inversion_clear Hfair as [|? ? Hc Hcs].
    destruct (pworld_step fuel q c w0 w1 p0 Hq Hc E HP) as (p1 & -> & HP1). cbn [bind]. apply (IH w1); assumption. }
  destruct (G cs pworld0 py_start Hfair Hw) as (p & E & (_ & _ & HF & _)).
  { split; [exact I|]. split; [intros H; contradiction|]. split; [constructor|]. split; [constructor|intros id []]. }
  exists p. split; [exact E|]. intros i e Hi. destruct (Forall2_nth _ _ _ _ _ HF Hi) as (o & Eo & HO). destruct o as [o|]; [|contradiction]. destruct HO as [_ HO].
  unfold py_labels, self_of. rewrite Eo. cbn [bind]. destruct (e_from e) as [[[m a] k]|], (y_labels o) as [id|]; try contradiction; [|reflexivity].
  destruct HO as (l & C & N). rewrite N. destruct (e_refs e); cbn [Nat.eqb]; [reflexivity|]. exists l. auto.
Qed.
Print Assumptions C72_python_programs.

(** One object: a constructor, then a run, then runs and reruns in any order.  The labels are
    those of a run of the library on the last array with the last minPoints, and the object
    can be deleted. *)
Fixpoint solo (m : Z) (cur : option narray) (cs : list pcall) : option (Z * narray) :=
  match cs with
  | [] => match cur with Some a => Some (m, a) | None => None end
  | PRun 0 a _ :: cs' => solo m (Some a) cs'
  | PRerun 0 m' _ :: cs' => match cur with Some a => if (2 <=? m')%Z && (m' <? 2147483648)%Z then solo m' (Some a) cs' else None | None => None end
  | _ => None
  end.
Theorem C72_one_object : forall fuel qsort m0 cs m a, sorts qsort -> (2 <= m0 < M32)%Z -> Forall (fair fuel) cs -> solo m0 None cs = Some (m, a) ->
  exists p l p', py_calls fuel qsort (PNew m0 :: cs) py_start = Ok p /\ py_labels 0 p = Ok (Some l) /\ clustering fuel qsort m a l /\ py_del 0 p = Ok p'.
Proof.
  intros fuel q m0 cs m a Hq Hm Hfair Hsolo.
  assert (G : forall cs m1 cur e, solo m1 cur cs = Some (m, a) ->
    (match cur with None => True | Some b => e = mk_expect (rows_of b) (Some (m1, b, rows_of b)) 2 end) ->
    pworld_calls cs (mk_pworld m1 (match cur with None => Created | Some b => Data b end) [Some e]) = Some (mk_pworld m (Data a) [Some (mk_expect (rows_of a) (Some (m, a, rows_of a)) 2)])).
  { clear. induction cs as [|c cs IH]; intros m1 cur e Hs He; cbn [solo pworld_calls] in *.
    - destruct cur as [b|]; [|discriminate]. injection Hs as -> ->. rewrite He. reflexivity.
    - destruct c as [?|[|] b s|[|] m' s|?]; try discriminate; cbn [pworld_call u_objs nth_error u_min u_stage upd].
      + apply (IH m1 (Some b)); [exact Hs|reflexivity].
      + destruct cur as [b|]; [|discriminate]. destruct ((2 <=? m')%Z && (m' <? 2147483648)%Z) eqn:E; [|discriminate]. subst e. apply andb_true_iff in E. destruct E as [E1 E2]. apply Z.leb_le in E1. apply Z.ltb_lt in E2.
        cbn [release_ok e_from e_refs Nat.leb e_rows]. replace ((0 <=? m')%Z && (m' <? 2)%Z) with false by lia. replace (in_i32 m') with true by (unfold in_i32; lia). cbn [orb negb].
        rewrite Nat.leb_refl. replace (2 <=? m')%Z with true by lia. cbn [andb]. apply (IH m' (Some b)); [exact Hs|reflexivity]. }
  assert (Hw : pworld_calls (PNew m0 :: cs) pworld0 = Some (mk_pworld m (Data a) [Some (mk_expect (rows_of a) (Some (m, a, rows_of a)) 2)])).
  { cbn [pworld_calls pworld_call]. replace ((2 <=? m0)%Z && (m0 <? M32)%Z) with true by lia. apply (G cs m0 None); [exact Hsolo|exact I]. }
  assert (Hf : Forall (fair fuel) (PNew m0 :: cs)) by (constructor; [exact I|exact Hfair]).
  destruct (C72_python_programs fuel q _ _ Hq Hf Hw) as (p & E & HL). specialize (HL 0 _ eq_refl). cbn [e_from e_refs Nat.eqb] in HL. destruct HL as (l & C & L).
  assert (Hd : Forall (fair fuel) ((PNew m0 :: cs) ++ [PDel 0])) by (apply Forall_app; split; [exact Hf|repeat constructor]).
  assert (Happ : forall cs1 cs2 w, pworld_calls (cs1 ++ cs2) w = match pworld_calls cs1 w with Some w => pworld_calls cs2 w | None => None end).
  { clear. induction cs1 as [|c cs1 IH]; intros cs2 w; cbn [app pworld_calls]; [reflexivity|]. destruct (pworld_call c w); [apply IH|reflexivity]. }
  destruct (C72_python_programs fuel q ((PNew m0 :: cs) ++ [PDel 0]) (mk_pworld m Emptied [None]) Hq Hd) as (p' & E' & _).
  { rewrite Happ, Hw. reflexivity. }
  assert (Hrun : forall cs1 cs2 p, py_calls fuel q (cs1 ++ cs2) p = let! p := py_calls fuel q cs1 p in py_calls fuel q cs2 p).
  { clear. induction cs1 as [|c cs1 IH]; intros cs2 p; cbn [app py_calls]; [reflexivity|]. destruct (py_call fuel q c p); cbn [bind]; [apply IH|reflexivity..]. }
  rewrite Hrun, E in E'. cbn [bind py_calls py_call] in E'. destruct (py_del 0 p) as [p2| | |] eqn:Ed; cbn [bind] in E'; try discriminate E'.
  exists p, (firstn (rows_of a) l), p2. split; [exact E|]. split; [exact L|]. split; [|exact Ed].
  rewrite firstn_all2; [exact C|]. destruct C as (ds & rows & cols & s & o & r & HT & Hs & Eo & Er & _ & HLl). unfold rows_of. rewrite HT, HLl. apply Nat.le_refl.
Qed.
Print Assumptions C72_one_object.

(** ** What fails *)
Lemma self_of_cases i p : self_of i p = UB \/ exists s, self_of i p = Ok s.
Proof. unfold self_of. destruct (nth_error (g_objs p) i) as [[s|]|]; eauto. Qed.
Lemma xdecref_cases x ls : xdecref x ls = UB \/ exists ls', xdecref x ls = Ok ls'.
Proof. unfold xdecref. destruct x as [id|]; [|eauto]. destruct (nth_error ls id) as [[[[|[|c]] l]|]|]; eauto. Qed.
Lemma scan_clean_cases g : scan_clean g = UB \/ exists g', scan_clean g = Ok g'.
Proof. destruct g; cbn; eauto. Qed.

Definition six_array : narray := mk_narray (NDouble (map f_of_Z [0; 1; 3; 10; 12; 15]%Z)) [6].
Definition five_ints : narray := mk_narray (NInt [0; 1; 3; 10; 12]%Z) [5; 1].
Definition py_labels_of (i : nat) (cs : list pcall) : res (option (list Z)) := let! p := py_calls 11 insertion_sort cs py_start in py_labels i p.

(** Deleting an object (the garbage collector does it) cleans the state of all: no object can
    rerun after that, not even one that has just been run. *)
Theorem C72_delete_breaks_rerun_refuted : forall fuel qsort i j m s p p', py_del i p = Ok p' -> (2 <= m < 2147483648)%Z -> py_rerun fuel s qsort j m p' = UB.
Proof.
  intros fuel q i j m s p p' H Hm. unfold py_del in H. destruct (self_of i p) as [self| | |]; try discriminate H. cbn [bind] in H. unfold py_dealloc in H.
  destruct (g_scan p) as [|o|o]; try discriminate H. cbn [scan_clean bind] in H. destruct (xdecref (y_labels self) (g_lists p)) as [ls| | |]; try discriminate H. cbn [bind g_scan g_objs g_lists] in H. injection H as <-.
  unfold py_rerun. destruct (self_of_cases j (mk_py (Used (mk_hdb (o_min o) (o_n o) (o_self o) None None None)) (upd (g_objs p) i None) ls)) as [-> |(sj & ->)]; [reflexivity|]. cbn [bind g_scan g_objs g_lists].
  destruct (xdecref_cases (y_labels sj) ls) as [-> |(ls' & ->)]; [reflexivity|]. cbn [bind]. replace (negb (in_i32 m)) with false by (unfold in_i32; lia). unfold u32. rewrite Z.mod_small by (unfold M32; lia). replace (m <? 2)%Z with false by lia.
  reflexivity.
Qed.

(** Between a constructor and the next run, deleting any object follows a bad pointer. *)
Theorem C72_delete_after_constructor_refuted : forall i m p p', (2 <= m < M32)%Z -> py_new m p = Ok p' -> py_del i p' = UB.
Proof.
  intros i m p p' Hm H. unfold py_new, u32, hdbscan_init in H. rewrite Z.mod_small in H by (unfold M32 in *; lia). replace (m <? 2)%Z with false in H by lia. replace (1 <? m)%Z with true in H by lia. cbn [bind] in H. injection H as <-.
  unfold py_del. destruct (self_of_cases i (mk_py (Raw (mk_hdb m 0 true None None None)) (g_objs p ++ [Some (mk_pyobj m 0 0 None)]) (g_lists p))) as [-> |(s & ->)]; reflexivity.
Qed.

(** So does asking for an object with a minPoints below 2 when nothing was run. *)
Theorem C72_rejected_constructor_refuted : forall m m' p, (0 <= m < 2)%Z -> (2 <= m' < M32)%Z ->
  py_new m py_start = UB /\ (py_new m' py_start = Ok p -> py_new m p = UB).
Proof.
  intros m m' p Hm Hm'. unfold py_new at 1 3, u32. rewrite !Z.mod_small by (unfold M32 in *; lia). replace (m <? 2)%Z with true by lia. split; [reflexivity|].
  intros H. unfold py_new, u32, hdbscan_init in H. rewrite Z.mod_small in H by (unfold M32 in *; lia). replace (m' <? 2)%Z with false in H by lia. replace (1 <? m')%Z with true in H by lia. cbn [bind] in H. injection H as <-. reflexivity.
Qed.

(** The objects share minPoints and data: the first was made with 2, but its run uses the 5 of
    the second. *)
Theorem C72_objects_share_state_refuted : exists l, py_labels_of 0 [PNew 2; PRun 0 six_array in_turn] = Ok (Some l) /\
  py_labels_of 0 [PNew 2; PNew 5; PRun 0 six_array in_turn] <> Ok (Some l).
Proof.
  exists [2; 2; 2; 3; 3; 3]%Z. split; [vm_compute; reflexivity|].
  assert (E : py_labels_of 0 [PNew 2; PNew 5; PRun 0 six_array in_turn] = Ok (Some (repeat 0%Z 6))) by (vm_compute; reflexivity). rewrite E. discriminate.
Qed.

(** A rerun that is refused gives away a reference to the labels each time: after two, reading
    the labels, a third, or deleting the object touches freed memory. *)
Theorem C72_rejected_reruns_refuted : forall fuel qsort i e p l m, (0 <= m < 2)%Z -> self_of i p = Ok e -> y_labels e = Some l -> (exists z, nth_error (g_lists p) l = Some (Some (2, z))) ->
  exists p1 p2, forall s, py_rerun fuel s qsort i m p = Ok p1 /\ py_rerun fuel s qsort i m p1 = Ok p2 /\
    py_labels i p2 = UB /\ py_rerun fuel s qsort i m p2 = UB /\ py_del i p2 = UB.
Proof.
  intros fuel q i e p id m Hm He Hl (z & Hz).
  assert (Hu : u32 m = m) by (unfold u32; apply Z.mod_small; unfold M32; lia). assert (Hi : in_i32 m = true) by (unfold in_i32; lia). assert (H2 : (m <? 2)%Z = true) by lia.
  assert (Hlt : id < length (g_lists p)) by (apply nth_error_Some; congruence).
  assert (Hi2 : i < length (g_objs p)) by (unfold self_of in He; apply nth_error_Some; destruct (nth_error (g_objs p) i); [discriminate|discriminate He]).
  assert (Hself : forall g os ls x, length os = length (g_objs p) -> self_of i (mk_py g (upd os i (Some x)) ls) = Ok x).
  { intros g os ls x HL. unfold self_of. cbn [g_objs]. rewrite nth_upd_same by lia. reflexivity. }
  set (e1 := mk_pyobj m (y_cols e) (y_rows e) (Some id)).
  set (p1 := mk_py (g_scan p) (upd (g_objs p) i (Some e1)) (upd (g_lists p) id (Some (1, z)))).
  set (p2 := mk_py (g_scan p) (upd (upd (g_objs p) i (Some e1)) i (Some e1)) (upd (upd (g_lists p) id (Some (1, z))) id None)).
  exists p1, p2. intros s.
  assert (L1 : nth_error (upd (g_lists p) id (Some (1, z))) id = Some (Some (1, z))) by (apply nth_upd_same; exact Hlt).
  assert (L2 : nth_error (upd (upd (g_lists p) id (Some (1, z))) id None) id = Some None) by (apply nth_upd_same; rewrite len_upd; exact Hlt).
  split; [|split; [|split; [|split]]].
  - unfold py_rerun. rewrite He. cbn [bind]. unfold xdecref. rewrite Hl, Hz. cbn [bind]. rewrite Hi, Hu, H2. reflexivity.
  - unfold py_rerun, p1. rewrite Hself by reflexivity. cbn [bind e1 y_labels g_lists]. unfold xdecref. rewrite L1. cbn [bind]. rewrite Hi, Hu, H2. reflexivity.
  - unfold py_labels, p2. rewrite Hself by apply len_upd. cbn [bind e1 y_labels g_lists]. rewrite L2. reflexivity.
  - unfold py_rerun, p2. rewrite Hself by apply len_upd. cbn [bind e1 y_labels g_lists]. unfold xdecref. rewrite L2. reflexivity.
  - unfold py_del, p2. rewrite Hself by apply len_upd. cbn [bind e1 y_labels]. unfold py_dealloc. cbn [g_scan g_lists]. destruct (scan_clean_cases (g_scan p)) as [-> |(g & ->)]; [reflexivity|]. cbn [bind]. unfold xdecref. rewrite L2. reflexivity.
Qed.

(** A rerun of an object whose data had more rows than the data run last reads beyond the labels. *)
Theorem C72_rerun_other_data_refuted : py_labels_of 0 [PNew 2; PRun 0 six_array in_turn; PNew 2; PRun 1 five_ints in_turn; PRerun 0 2 in_turn] = UB /\
  py_labels_of 1 [PNew 2; PRun 0 five_ints in_turn; PNew 2; PRun 1 six_array in_turn; PRerun 0 2 in_turn] = Ok (Some [2; 2; 2; 3; 3; 3]%Z).
Proof. split; vm_compute; reflexivity. Qed.
Print Assumptions C72_delete_breaks_rerun_refuted.
Print Assumptions C72_delete_after_constructor_refuted.
Print Assumptions C72_rejected_constructor_refuted.
Print Assumptions C72_objects_share_state_refuted.
Print Assumptions C72_rejected_reruns_refuted.
Print Assumptions C72_rerun_other_data_refuted.

Definition one_program : list pcall := [PRun 0 six_array backwards; PRerun 0 5 in_turn; PRun 0 five_ints in_turn; PRerun 0 2 in_turn].
Lemma six_usable : usable six_array.
Proof. exists (DDouble (map f_of_Z [0; 1; 3; 10; 12; 15]%Z)), 6, 1. split; [reflexivity|]. split; [lia|]. split; [lia|]. apply holds_double. reflexivity. Qed.
Lemma five_usable : usable five_ints.
Proof. exists (DInt [0; 1; 3; 10; 12]%Z), 5, 1. split; [reflexivity|]. split; [lia|]. split; [lia|]. split; [reflexivity|]. intros l E. injection E as <-. intros i j c Hij Hc. cbn [diff_fits].
  assert (c = 0) as -> by lia. do 5 (destruct i as [|i]; [do 5 (destruct j as [|j]; [cbn; reflexivity || lia|]); lia|]). lia.
Qed.
Example C72_example : Forall (fair 11) one_program /\ solo 3 None one_program = Some (2%Z, five_ints) /\
  py_labels_of 0 (PNew 3 :: one_program) = Ok (Some [2; 2; 2; 3; 3]%Z).
Proof.
  split; [|split; [reflexivity|vm_compute; reflexivity]].
  repeat (apply Forall_cons || apply Forall_nil); cbn [fair].
  - split; [exact six_usable|]. split; [apply schedules_valid|cbn; lia].
  - apply schedules_valid.
  - split; [exact five_usable|]. split; [apply schedules_valid|cbn; lia].
  - apply schedules_valid.
Qed.
(** Several objects: the second is refused, the third takes over, the first is deleted. *)
Definition three_objects : list pcall := [PNew 2; PRun 0 six_array in_turn; PRerun 0 1 in_turn; PNew 0; PNew 3; PRun 2 five_ints in_turn; PDel 0].
Example C72_example_shared : Forall (fair 11) three_objects /\
  pworld_calls three_objects pworld0 = Some (mk_pworld 3 Emptied [None; None; Some (mk_expect 5 (Some (3%Z, five_ints, 5)) 2)]).
Proof.
  split; [|reflexivity]. repeat (apply Forall_cons || apply Forall_nil); cbn [fair]; try exact I.
  - split; [exact six_usable|]. split; [apply schedules_valid|cbn; lia].
  - apply schedules_valid.
  - split; [exact five_usable|]. split; [apply schedules_valid|cbn; lia].
Qed.
