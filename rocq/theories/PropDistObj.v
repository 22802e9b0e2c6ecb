(** C84: a distance object over its life. *)
From Verif Require Import Base ListFacts F64 ModelDistance ModelDistObj ProofDistance ProofCore PropDistance.
From Coq Require Import ZifyBool ZifyNat.
Local Open Scope nat_scope.

(** ** Specification *)

(** What a history leaves in the object: the data of the last computation with the number of
    neighbours set last, unless the object was cleaned since. *)
Fixpoint current (acc : option (dataset * nat * nat * Z)) (ops : list oop) : option (dataset * nat * nat * Z) :=
  match ops with
  | [] => acc
  | OCompute ds r c k :: rest => current (Some (ds, r, c, k)) rest
  | OCore k :: rest => current (match acc with Some (ds, r, c, _) => Some (ds, r, c, k) | None => None end) rest
  | OClean :: rest => current None rest
  | _ :: rest => current acc rest
  end.

(** Number of computations that follow another one without a cleaning in between. *)
Fixpoint recomputations (full : bool) (ops : list oop) : nat :=
  match ops with
  | [] => 0
  | OCompute _ _ _ _ :: rest => (if full then 1 else 0) + recomputations true rest
  | OClean :: rest => recomputations false rest
  | _ :: rest => recomputations full rest
  end.

(** A use of the object that respects its state: data of the announced shape, core distances and
    look-ups only while a computation is in place, indices within the rows. *)
Definition proper (acc : option (dataset * nat * nat * Z)) (op : oop) : Prop :=
  match op, acc with
  | OCompute ds r c k, _ => 1 <= r /\ (Z.of_nat r <= 65536)%Z /\ holds ds r c /\ (0 <= k < M32 - 1)%Z
  | OCore k, Some _ => (0 <= k < M32 - 1)%Z
  | OGet i j, Some (_, r, _, _) => (0 <= i < Z.of_nat r)%Z /\ (0 <= j < Z.of_nat r)%Z
  | OReadCore i, Some (_, r, _, _) => (0 <= i < Z.of_nat r)%Z
  | OClean, _ => True
  | _, None => False
  end.
Definition proper_use (ops : list oop) : Prop :=
  forall before op after, ops = before ++ op :: after -> proper (current None before) op.

(** ** Proofs *)
Lemma refill {A} (g : nat -> res A) n : forall k (a b : list (option A)), length a = length b -> k + n = length a ->
  (forall i, i < k -> nth_error a i = nth_error b i) ->
  for_up k n (fun i x => let! c := g i in zset x (Z.of_nat i) c) a = for_up k n (fun i x => let! c := g i in zset x (Z.of_nat i) c) b.
Proof.
  induction n as [|n IH]; intros k a b Hl Hk Hi; cbn [for_up].
  - f_equal. apply nth_error_ext. intros i. destruct (Nat.lt_ge_cases i k); [auto|]. rewrite !(proj2 (nth_error_None _ _)) by lia. reflexivity.
  - destruct (g k) as [c| | |]; cbn [bind]; try reflexivity. unfold zset. rewrite <- Hl.
    replace ((0 <=? Z.of_nat k) && (Z.of_nat k <? Z.of_nat (length a)))%Z with true by lia. cbn [bind]. rewrite Nat2Z.id.
    apply IH; rewrite ?upd_length; [exact Hl|lia|]. intros i Hik.
    destruct (Nat.eq_dec i k) as [->|Hne]; [rewrite !nth_error_upd_eq by lia; reflexivity|rewrite !nth_error_upd_neq by lia; apply Hi; lia].
Qed.

Lemma core_length n : forall k (g : nat -> res f64) (a b : list (option f64)),
  for_up k n (fun i x => let! c := g i in zset x (Z.of_nat i) c) a = Ok b -> length b = length a.
Proof.
  induction n as [|n IH]; intros k g a b; cbn [for_up]; [now intros [= ->]|].
  destruct (g k) as [c| | |]; cbn [bind]; try discriminate.
  destruct (zset a (Z.of_nat k) c) as [x| | |] eqn:E; cbn [bind]; try discriminate.
  intros H. rewrite (IH _ _ _ _ H). apply zset_length in E. exact E.
Qed.

Lemma core_of_ignores rows cols cols' k m c c' i : core_of (mk_distance rows cols k m c) i = core_of (mk_distance rows cols' k m c') i.
Proof. reflexivity. Qed.

(** Recomputing the core distances over old ones is computing them anew. *)
Lemma core_again ds r c k k' d : distance_compute ds r c k = Ok d ->
  distance_get_core_distances (mk_distance (d_rows d) (d_cols d) k' (d_dist d) (d_core d)) = distance_compute ds r c k'.
Proof.
  unfold distance_compute. destruct (fill_matrix _ _ _ _) as [m| | |]; cbn [bind]; try discriminate.
  unfold distance_get_core_distances at 1. cbn [d_rows d_cols d_k d_dist d_core].
  destruct (for_up _ _ _ _) as [co| | |] eqn:E; cbn [bind]; try discriminate. intros [= <-]. cbn [d_rows d_cols d_dist d_core].
  unfold distance_get_core_distances. cbn [d_rows d_cols d_k d_dist d_core]. rewrite Nat2Z.id in *.
  pose proof (core_length _ _ _ _ _ E) as HL. rewrite repeat_length in HL.
  change (core_of (mk_distance (Z.of_nat r) (Z.of_nat c) k' m co)) with (core_of (mk_distance (Z.of_nat r) (Z.of_nat c) k' m (repeat None r))).
  rewrite (refill (core_of (mk_distance (Z.of_nat r) (Z.of_nat c) k' m (repeat None r))) r 0 co (repeat None r)); rewrite ?repeat_length; auto. lia.
Qed.

Lemma computed_k ds r c k d : distance_compute ds r c k = Ok d -> d_k d = k /\ d_rows d = Z.of_nat r.
Proof.
  unfold distance_compute. destruct (fill_matrix _ _ _ _) as [m| | |]; cbn [bind]; try discriminate.
  unfold distance_get_core_distances. destruct (for_up _ _ _ _) as [co| | |]; cbn [bind]; try discriminate. now intros [= <-].
Qed.

Definition full (o : dobj) : bool := match ob_dist o with Some _ => true | None => false end.
Definition shows (o : dobj) (acc : option (dataset * nat * nat * Z)) : Prop :=
  match acc with
  | Some (ds, r, c, k) => exists d, distance_compute ds r c k = Ok d /\ ob_rows o = Some (d_rows d) /\ ob_cols o = d_cols d /\
                          ob_k o = k /\ ob_dist o = Some (d_dist d) /\ ob_core o = Some (d_core d)
  | None => ob_dist o = None /\ ob_core o = None
  end.

Lemma step_shows o acc op o' a : shows o acc -> ostep o op = Ok (o', a) -> shows o' (current acc [op]).
Proof.
  intros HS. destruct op as [ds r c k|k|i j|i|]; cbn [ostep current].
  - unfold object_compute. destruct (distance_compute ds r c k) as [d| | |] eqn:E; cbn [bind]; try discriminate. intros [= <- <-].
    destruct (computed_k _ _ _ _ _ E) as [Hk _]. exists d. cbn. auto 10.
  - unfold object_core. destruct (ob_rows o) as [rows|] eqn:ER; cbn [bind]; try discriminate.
    destruct (distance_get_core_distances _) as [d'| | |] eqn:E; cbn [bind]; try discriminate. intros [= <- <-].
    destruct acc as [[[[ds r] c] k0]|]; cbn [shows] in *.
    + destruct HS as (d & Ed & H1 & H2 & H3 & H4 & H5). rewrite ER in H1. injection H1 as ->. rewrite H2, H4, H5 in E. cbn [block] in E.
      rewrite (core_again _ _ _ _ k _ Ed) in E. exists d'. destruct (computed_k _ _ _ _ _ E) as [_ Hr], (computed_k _ _ _ _ _ Ed) as [_ Hr'].
      cbn. rewrite H2, H4, H5. rewrite <- (core_again _ _ _ _ k _ Ed) in E |- *.
      split; [exact E|]. unfold distance_get_core_distances in E. cbn [d_rows d_cols d_k d_dist d_core] in E.
      destruct (for_up _ _ _ _) as [co| | |]; cbn [bind] in E; try discriminate. injection E as <-. cbn. auto.
    + destruct HS as [H1 H2]. cbn. now rewrite H1, H2.
  - destruct (object_get o i j); cbn [bind]; try discriminate. now intros [= <- <-].
  - destruct (zget _ i); cbn [bind]; try discriminate. now intros [= <- <-].
  - intros [= <- <-]. now cbn.
Qed.

Lemma current_app a b : forall acc, current acc (a ++ b) = current (current acc a) b.
Proof. induction a as [|[] a IH]; intros acc; cbn [app current]; auto. Qed.
Lemma current_step acc op rest : current acc (op :: rest) = current (current acc [op]) rest.
Proof. exact (current_app [op] rest acc). Qed.

Lemma run_shows ops : forall o acc o' l, shows o acc -> orun o ops = Ok (o', l) -> shows o' (current acc ops).
Proof.
  induction ops as [|op ops IH]; intros o acc o' l HS; [cbn; now intros [= <- <-]|]. cbn [orun].
  destruct (ostep o op) as [[o1 a]| | |] eqn:E; cbn [bind fst snd]; try discriminate.
  destruct (orun o1 ops) as [[o2 l2]| | |] eqn:E2; cbn [bind fst snd]; try discriminate. intros [= <- <-].
  rewrite current_step. eapply IH; [|exact E2]. eapply step_shows; eauto.
Qed.

(** What is read from the object after any history is what a new computation of the current data gives. *)
Theorem C84_latest_computation :
  forall ops o answers, orun distance_init ops = Ok (o, answers) ->
    match current None ops with
    | Some (ds, r, c, k) =>
        exists d, distance_compute ds r c k = Ok d /\ ob_k o = k /\
          (forall i j, object_get o i j = distance_get d i j) /\
          (forall i, zget (block (ob_core o)) i = zget (d_core d) i)
    | None => (forall i j, i <> j -> object_get o i j = UB) /\ (forall i, zget (block (ob_core o)) i = UB)
    end.
Proof.
  intros ops o l H. pose proof (run_shows ops distance_init None o l (conj eq_refl eq_refl) H) as HS.
  destruct (current None ops) as [[[[ds r] c] k]|]; cbn [shows] in HS.
  - destruct HS as (d & Ed & H1 & H2 & H3 & H4 & H5). exists d. split; [exact Ed|]. split; [exact H3|]. rewrite H5. split; [|reflexivity].
    intros i j. unfold object_get, distance_get, as_distance. rewrite H1, H4. cbn [block d_dist d_rows].
    destruct (Z.eqb_spec i j) as [->|Hne]; [now rewrite Z.ltb_irrefl|]. reflexivity.
  - destruct HS as [H1 H2]. rewrite H2. assert (HN : forall i, zget (@nil (option f64)) i = UB).
    { intros i. unfold zget. destruct (i <? 0)%Z; [reflexivity|]. now destruct (Z.to_nat i). }
    split; [|intros i; apply HN]. intros i j Hne. unfold object_get. apply Z.eqb_neq in Hne. rewrite Hne.
    destruct (ob_rows o); [|reflexivity]. unfold distance_get, as_distance. rewrite H1. cbn [block d_dist d_rows]. rewrite Hne, !HN. now destruct (i <? j)%Z.
Qed.
Print Assumptions C84_latest_computation.

Lemma step_live o op o' a (Hfc : full o = match ob_core o with Some _ => true | None => false end) :
  (full o = true -> 2 <= ob_live o) -> ostep o op = Ok (o', a) ->
  full o' = match ob_core o' with Some _ => true | None => false end /\ (full o' = true -> 2 <= ob_live o') /\
  forall rest n, ob_live o = n + (if full o then 2 else 0) ->
    exists n', ob_live o' = n' + (if full o' then 2 else 0) /\ n + 2 * recomputations (full o) (op :: rest) = n' + 2 * recomputations (full o') rest.
Proof.
  unfold full in *. intros HL. destruct op as [ds r c k|k|i j|i|]; cbn [ostep recomputations].
  - unfold object_compute. destruct (distance_compute ds r c k) as [d| | |] eqn:E; cbn [bind]; try discriminate. intros [= <- <-]. cbn.
    split; [reflexivity|]. split; [lia|]. intros rest n Hn. exists (ob_live o). split; [lia|]. rewrite Hn. destruct (ob_dist o); lia.
  - unfold object_core. destruct (ob_rows o) as [rows|] eqn:ER; cbn [bind]; try discriminate.
    destruct (distance_get_core_distances _) as [d'| | |] eqn:E; cbn [bind]; try discriminate. intros [= <- <-]. cbn.
    split; [rewrite Hfc; now destruct (ob_core o)|]. split; [exact HL|]. intros rest n Hn. exists n. auto.
  - destruct (object_get o i j); cbn [bind]; try discriminate. intros [= <- <-]. split; [exact Hfc|]. split; [exact HL|]. eauto.
  - destruct (zget _ i); cbn [bind]; try discriminate. intros [= <- <-]. split; [exact Hfc|]. split; [exact HL|]. eauto.
  - intros [= <- <-]. cbn. split; [reflexivity|]. split; [discriminate|]. intros rest n Hn. exists n. split; [|reflexivity].
    destruct (ob_dist o), (ob_core o); cbn [freed]; try discriminate; lia.
Qed.

Lemma run_live ops : forall o o' l n, full o = match ob_core o with Some _ => true | None => false end ->
  (full o = true -> 2 <= ob_live o) -> ob_live o = n + (if full o then 2 else 0) -> orun o ops = Ok (o', l) ->
  ob_live (object_clean o') = n + 2 * recomputations (full o) ops.
Proof.
  induction ops as [|op ops IH]; intros o o' l n H1 H2 H3.
  - cbn [orun recomputations]. intros [= <- <-]. cbn. unfold full in *. destruct (ob_dist o), (ob_core o); cbn [freed]; try discriminate; lia.
  - cbn [orun]. destruct (ostep o op) as [[o1 a]| | |] eqn:E; cbn [bind fst snd]; try discriminate.
    destruct (orun o1 ops) as [[o2 l2]| | |] eqn:E2; cbn [bind fst snd]; try discriminate. intros [= <- <-].
    destruct (step_live _ _ _ _ H1 H2 E) as (G1 & G2 & G3). destruct (G3 ops n H3) as (n' & Hn' & Heq).
    rewrite Heq. eapply IH; eauto.
Qed.

(** Destroying the object frees everything except the two blocks of each computation that another
    computation replaced. *)
Theorem C84_blocks_left :
  forall ops o answers, orun distance_init ops = Ok (o, answers) ->
    ob_live (object_clean o) = 2 * recomputations false ops.
Proof. intros ops o l H. exact (run_live ops distance_init o l 0 eq_refl ltac:(discriminate) eq_refl H). Qed.
Print Assumptions C84_blocks_left.

(** Used properly, the object never does anything undefined. *)
Definition good (acc : option (dataset * nat * nat * Z)) : Prop :=
  match acc with Some (ds, r, c, k) => 1 <= r /\ (Z.of_nat r <= 65536)%Z /\ holds ds r c /\ (0 <= k < M32 - 1)%Z | None => True end.

Lemma computed_core ds r c k d : good (Some (ds, r, c, k)) -> distance_compute ds r c k = Ok d ->
  complete d /\ forall i, (0 <= i < Z.of_nat r)%Z -> exists x, zget (d_core d) i = Ok x.
Proof.
  intros (H1 & H2 & H3 & H4) E. destruct (C15_distance_get_euclidean ds r c k H1 H2 H3 H4) as (d' & E' & HC & Hr & Hk & _).
  rewrite E in E'. injection E' as <-. split; [exact HC|]. intros i Hi.
  pose proof (core_again _ _ _ _ k _ E) as HA. rewrite E in HA.
  destruct (core_total (mk_distance (d_rows d) (d_cols d) k (d_dist d) (d_core d)) HC H4) as (f & Ef & _).
  rewrite Ef in HA. injection HA as HA. rewrite <- HA. cbn [d_core d_rows]. exists (f (Z.to_nat i)). unfold zget.
  replace (i <? 0)%Z with false by lia. assert (Hn : nth_error (seq 0 (Z.to_nat (d_rows d))) (Z.to_nat i) = Some (Z.to_nat i)).
  { rewrite (nth_error_nth' _ 0) by (rewrite seq_length; lia). now rewrite seq_nth by lia. }
  now rewrite (map_nth_error _ _ _ Hn).
Qed.

Lemma step_defined o acc op : shows o acc -> good acc -> proper acc op -> exists o' a, ostep o op = Ok (o', a) /\ good (current acc [op]).
Proof.
  intros HS HG HP. destruct op as [ds r c k|k|i j|i|]; cbn [ostep current proper] in *.
  - destruct HP as (H1 & H2 & H3 & H4). destruct (C15_distance_get_euclidean ds r c k H1 H2 H3 H4) as (d & E & _).
    unfold object_compute. rewrite E. cbn [bind]. eexists _, _. split; [reflexivity|]. cbn. auto.
  - destruct acc as [[[[ds r] c] k0]|]; [|contradiction]. destruct HS as (d & Ed & H1 & H2 & H3 & H4 & H5). cbn [good] in *.
    unfold object_core. rewrite H1, H2, H4, H5. cbn [block]. rewrite (core_again _ _ _ _ k _ Ed).
    destruct HG as (G1 & G2 & G3 & G4). destruct (C15_distance_get_euclidean ds r c k G1 G2 G3 HP) as (d' & E & _).
    rewrite E. cbn [bind]. eexists _, _. split; [reflexivity|]. auto.
  - destruct acc as [[[[ds r] c] k]|]; [|contradiction]. destruct HS as (d & Ed & H1 & H2 & H3 & H4 & H5).
    destruct (computed_core _ _ _ _ _ HG Ed) as [HC _]. destruct (computed_k _ _ _ _ _ Ed) as [_ Hr].
    unfold object_get. destruct (i =? j)%Z; cbn [bind]; [eauto|]. rewrite H1.
    destruct (proj2 HC i j) as (v & Hv); [lia|lia|]. unfold as_distance. rewrite H4. unfold distance_get in *. cbn [block d_dist d_rows] in *.
    rewrite Hv. cbn [bind]. eauto.
  - destruct acc as [[[[ds r] c] k]|]; [|contradiction]. destruct HS as (d & Ed & H1 & H2 & H3 & H4 & H5).
    destruct (computed_core _ _ _ _ _ HG Ed) as [_ HC]. destruct (HC i HP) as (x & Hx). rewrite H5. cbn [block]. rewrite Hx. cbn [bind]. eauto.
  - eexists _, _. split; [reflexivity|exact I].
Qed.

Theorem C84_proper_use_defined :
  forall ops, proper_use ops -> exists o answers, orun distance_init ops = Ok (o, answers).
Proof.
  intros ops HP. assert (G : forall ops o before, shows o (current None before) -> good (current None before) ->
    proper_use (before ++ ops) -> exists o' l, orun o ops = Ok (o', l)).
  { clear. intros ops. induction ops as [|op ops IH]; intros o before HS HG HP; [cbn; eauto|].
    destruct (step_defined _ _ op HS HG (HP before op ops eq_refl)) as (o1 & a & E & HG1).
    pose proof (step_shows _ _ _ _ _ HS E) as HS1. rewrite <- current_app in HS1, HG1.
    destruct (IH o1 (before ++ [op]) HS1 HG1) as (o2 & l & E2); [now rewrite <- app_assoc|].
    cbn [orun]. rewrite E. cbn [bind fst]. rewrite E2. cbn [bind fst snd]. eauto. }
  exact (G ops distance_init [] (conj eq_refl eq_refl) I HP).
Qed.
Print Assumptions C84_proper_use_defined.

Lemma zget_nil {A} i : zget (@nil (option A)) i = UB.
Proof. unfold zget. destruct (i <? 0)%Z; [reflexivity|]. now destruct (Z.to_nat i). Qed.

Lemma buf_start s : buf_ok s [] (repeat D_MAX s).
Proof. split; [apply repeat_length|]. apply Forall_forall. intros x Hx. left. now apply repeat_spec in Hx. Qed.

Lemma core_empty rows cols k : (1 <= rows)%Z -> distance_get_core_distances (mk_distance rows cols k [] []) = UB.
Proof.
  intros Hr. unfold distance_get_core_distances. cbn [d_rows d_core]. destruct (Z.to_nat rows) as [|n] eqn:En; [lia|].
  cbn [for_up]. match goal with |- context [core_of ?d 0] => assert (HU : core_of d 0 = UB \/ exists c, core_of d 0 = Ok c) end.
  - unfold core_of. cbn [d_k d_rows]. destruct (Nat.eqb_spec (buf_size k) 0) as [E|E]; [now left|]. rewrite En. cbn [for_up].
    replace (distance_get _ (Z.of_nat 0) (Z.of_nat 0)) with (Ok fzero) by reflexivity. cbn [bind].
    destruct (buf_step_safe (buf_size k) [] _ fzero ltac:(lia) (buf_start _)) as (buf & Eb & [HL _] & _). rewrite Eb. cbn [bind].
    destruct n as [|n]; cbn [for_up].
    + right. cbn [bind]. unfold aget. destruct (nth_error buf (buf_size k - 1)) eqn:Ex; [eauto|]. apply nth_error_None in Ex. lia.
    + left. unfold distance_get. cbn [d_dist d_rows]. replace (Z.of_nat 0 <? Z.of_nat 1)%Z with true by reflexivity.
      now rewrite zget_nil.
  - destruct HU as [->|(c & ->)]; reflexivity.
Qed.

(** All that the public part of the C++ class offers on a new object is undefined; so are core
    distances and look-ups on an object that was cleaned. *)
Theorem C84_before_compute_refuted :
  (forall k, orun distance_init [OCore k] = UB) /\
  (forall i j, i <> j -> orun distance_init [OGet i j] = UB) /\
  (forall ds r c k d k', 1 <= r -> distance_compute ds r c k = Ok d ->
     orun distance_init [OCompute ds r c k; OClean; OCore k'] = UB).
Proof.
  split; [reflexivity|]. split.
  - intros i j Hne. cbn. unfold object_get. apply Z.eqb_neq in Hne. now rewrite Hne.
  - intros ds r c k d k' Hr E. cbn [orun ostep]. unfold object_compute. rewrite E. cbn [bind fst snd].
    unfold object_core. cbn [object_clean ob_rows ob_dist ob_core ob_cols block]. rewrite core_empty; [reflexivity|].
    destruct (computed_k _ _ _ _ _ E) as [_ ->]. lia.
Qed.
Print Assumptions C84_before_compute_refuted.

(** A second computation leaves the two blocks of the first behind. *)
Theorem C84_recompute_leaks_refuted :
  forall ds r c k ds' r' c' k', proper None (OCompute ds r c k) -> proper None (OCompute ds' r' c' k') ->
    exists o answers, orun distance_init [OCompute ds r c k; OCompute ds' r' c' k'] = Ok (o, answers) /\ ob_live (object_clean o) = 2.
Proof.
  intros ds r c k ds' r' c' k' H H'. destruct (C84_proper_use_defined [OCompute ds r c k; OCompute ds' r' c' k']) as (o & l & E).
  { intros b op a Hb. destruct b as [|? [|? [|? b]]]; injection Hb; intros; subst; try discriminate; auto. }
  exists o, l. split; [exact E|]. now rewrite (C84_blocks_left _ _ _ E).
Qed.
Print Assumptions C84_recompute_leaks_refuted.

(** Three points 0, 3 and 7 on a line, then other data, then core distances for one more neighbour. *)
Example C84_example :
  let a := DInt [0; 3; 7]%Z in let b := DInt [1; 1; 4; 5]%Z in
  let ops := [OCompute a 3 1 1; OGet 0 2; OReadCore 1; OCompute b 2 2 1; OGet 1 0; OClean; OCompute a 3 1 1; OCore 2; OReadCore 1; OClean]%Z in
  proper_use ops /\
  current None (firstn 9 ops) = Some (a, 3, 1, 2%Z) /\
  match orun distance_init ops with
  | Ok (o, l) => ob_live (object_clean o) = 2 /\
    map (option_map (fun x => feq x (f_of_Z 7))) l = [None; Some true; Some false; None; Some false; None; None; None; Some false; None] /\
    map (option_map (fun x => feq x (f_of_Z 4))) l = [None; Some false; Some false; None; Some false; None; None; None; Some true; None] /\
    map (option_map (fun x => feq x (f_of_Z 5))) l = [None; Some false; Some false; None; Some true; None; None; None; Some false; None]
  | _ => False
  end.
Proof.
  cbv zeta. split; [|split; [reflexivity|]].
  - intros bf op af Hb. assert (HA : holds (DInt [0; 3; 7]%Z) 3 1).
    { split; [reflexivity|]. intros l [= <-] i j c Hij Hc. assert (c = 0) by lia. subst. cbn.
      destruct i as [|[|[|i]]]; destruct j as [|[|[|j]]]; cbn; lia. }
    assert (HB : holds (DInt [1; 1; 4; 5]%Z) 2 2).
    { split; [reflexivity|]. intros l [= <-] i j c Hij Hc. assert (i = 0 /\ j = 1) as [-> ->] by lia.
      destruct c as [|[|c]]; cbn; lia. }
    unfold M32 in *.
    do 10 (destruct bf as [|? bf]; [injection Hb; intros; subst; cbn -[holds]; unfold M32; repeat (split; [lia || assumption|]); try lia; auto|
      injection Hb as <- Hb]). destruct bf; discriminate Hb.
  - vm_compute. auto.
Qed.
