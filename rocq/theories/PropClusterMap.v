(** C42: hdbscan_create_cluster_map. *)
From Coq Require Import Sorted Permutation.
From Verif Require Import Base ListFacts F64 ModelArrayList SpecSeq ProofArrayList ModelCells ModelHash
  ModelPrimes PropPrimes ModelUtils PropCollections ModelMap ProofMap.
From Coq Require Import ZifyBool ZifyNat.
Local Open Scope nat_scope.

(** The positions in [first, first+n) at which the label is [c], in increasing order. *)
Definition indices (labels : list Z) (first n : nat) (c : Z) : list nat :=
  filter (fun i => match nth_error labels i with Some x => (x =? c)%Z | None => false end) (seq first n).

(** What a caller finds under [c]: nothing, or a list with exactly these elements. *)
Definition maps_to (t : ptable (alist Z)) (c : Z) (l : list Z) : Prop :=
  exists a al, pt_find t c = Ok (Some a) /\ nth_error (pt_mem t) a = Some al /\ stores al l.
(** The keys a caller can enumerate, without repetition. *)
Definition has_keys {V} (t : ptable V) (P : Z -> Prop) : Prop :=
  exists ls, NoDup ls /\ pt_size t = length ls /\ (forall i l, nth_error ls i = Some l -> pt_key t i = Ok l) /\ (forall l, In l ls <-> P l).

Lemma indices_S labels first n c : indices labels first (S n) c =
  indices labels first n c ++ match nth_error labels (first + n) with Some x => if (x =? c)%Z then [first + n] else [] | None => [] end.
Proof.
  unfold indices. rewrite seq_S, filter_app. f_equal. cbn [filter]. destruct (nth_error labels (first + n)) as [x|]; [|reflexivity].
  destruct (x =? c)%Z; reflexivity.
Qed.
Lemma indices_in labels first n c i : In i (indices labels first n c) <-> first <= i < first + n /\ nth_error labels i = Some c.
Proof.
  unfold indices. rewrite filter_In, in_seq. destruct (nth_error labels i) as [x|]; [|split; intros [_ H]; discriminate].
  split; intros [H1 H2]; (split; [exact H1|]); [f_equal; lia|injection H2 as ->; apply Z.eqb_refl].
Qed.

(** Loop invariant: [m] maps every label seen so far to the list of its positions. *)
Definition lists_ok (labels : list Z) (first n : nat) (t : ptable (alist Z)) (m : list (Z * nat)) : Prop :=
  pgood t m /\
  (forall c a, In (c, a) m -> exists al, nth_error (pt_mem t) a = Some al /\ rep al (map Z.of_nat (indices labels first n c))) /\
  (forall c, In c (map fst m) <-> indices labels first n c <> []).

Lemma map_step_ok labels size first n t m : Forall label_ok labels -> (3 <= size)%Z -> first + n < length labels -> lists_ok labels first n t m ->
  exists t' m', map_step labels size (first + n) t = Ok t' /\ lists_ok labels first (S n) t' m'.
Proof.
  intros HL Hs Hlt (HG & Hm & Hk). unfold map_step.
  destruct (aget_ok labels (first + n) Hlt) as (lb & E & Hlb). rewrite E. cbn [bind].
  assert (Hok : label_ok lb) by (rewrite Forall_forall in HL; apply HL; apply (nth_error_In _ _ Hlb)).
  rewrite (pt_find_ok t m lb HG Hok). cbn [bind].
  assert (Hother : forall c, c <> lb -> indices labels first (S n) c = indices labels first n c).
  { intros c Hc. rewrite indices_S, Hlb. destruct (Z.eqb_spec lb c); [congruence|apply app_nil_r]. }
  assert (Hsame : indices labels first (S n) lb = indices labels first n lb ++ [first + n]) by (rewrite indices_S, Hlb, Z.eqb_refl; reflexivity).
  assert (Hfin : forall t1 m1 a al, pgood t1 m1 -> In (lb, a) m1 -> nth_error (pt_mem t1) a = Some al -> rep al (map Z.of_nat (indices labels first n lb)) ->
    (forall c b, In (c, b) m1 -> c <> lb -> exists al, nth_error (pt_mem t1) b = Some al /\ rep al (map Z.of_nat (indices labels first n c))) ->
    (forall c, In c (map fst m1) <-> c = lb \/ In c (map fst m)) ->
    exists t' m', (let! l := pt_load t1 a in let! r := array_list_append l (Z.of_nat (first + n)) in pt_store t1 a (fst r)) = Ok t' /\ lists_ok labels first (S n) t' m').
  { intros t1 m1 a al G1 Hin Hal Hrep Hoth Hkeys. unfold pt_load. rewrite (aget_nth _ _ _ Hal). cbn [bind].
    destruct (append_ok al _ (Z.of_nat (first + n)) Hrep) as (al' & Ea & Ra). rewrite Ea. cbn [bind fst].
    assert (Halt : a < length (pt_mem t1)) by (apply nth_error_Some; congruence).
    destruct (pt_store_ok t1 m1 a al' G1 Halt) as (t2 & E2 & G2 & M2). exists t2, m1. split; [exact E2|]. split; [exact G2|]. split.
    - intros c b Hb. rewrite M2. destruct (Z.eq_dec c lb) as [->|Hc].
      + assert (b = a). { apply (pfind_in m1 lb b (pg_nd _ _ G1)) in Hb. apply (pfind_in m1 lb a (pg_nd _ _ G1)) in Hin. congruence. } subst b.
        exists al'. split; [apply nth_error_upd_eq; exact Halt|]. rewrite Hsame, map_app. exact Ra.
      + rewrite (Hother c Hc). rewrite nth_error_upd_neq; [apply (Hoth c b Hb Hc)|]. intros ->. apply Hc. apply (addr_inj t1 m1 c lb b G1 Hb Hin).
    - intros c. rewrite Hkeys. destruct (Z.eq_dec c lb) as [->|Hc]; [|rewrite (Hother c Hc); rewrite <- Hk; tauto].
      rewrite Hsame. split; [intros _ H; apply app_eq_nil in H; destruct H; discriminate|auto]. }
  destruct (pfind m lb) as [a|] eqn:Ef.
  - cbn [bind]. pose proof (proj1 (pfind_in m lb a (pg_nd _ _ HG)) Ef) as Hin. destruct (Hm lb a Hin) as (al & Hal & Hrep).
    apply (Hfin t m a al HG Hin Hal Hrep).
    + intros c b Hb _. apply (Hm c b Hb).
    + intros c. split; [auto|]. intros [->|H]; [apply (in_map fst) in Hin; exact Hin|exact H].
  - assert (Ei : exists al : alist Z, array_list_init (Z.to_nat (size / 3)) = Ok al).
    { unfold array_list_init. assert (1 <= size / 3)%Z by (apply Z.div_le_lower_bound; lia). destruct (Nat.ltb_spec 0 (Z.to_nat (size / 3))); [eauto|lia]. }
    destruct Ei as (al & Ei). rewrite Ei. cbn [bind]. destruct (rep_init _ _ Ei) as (Ri & _ & _).
    destruct (pt_insert_ok t m lb al HG Hok Ef) as (t1 & E1 & G1 & M1). destruct (pt_new t al) as [t0 a0] eqn:En.
    assert (Ha0 : a0 = length (pt_mem t)) by (unfold pt_new in En; injection En as _ <-; reflexivity). cbn [fst snd] in E1. rewrite E1. cbn [bind]. rewrite Ha0.
    assert (Hnone : indices labels first n lb = []).
    { destruct (indices labels first n lb) eqn:Ex; [reflexivity|]. exfalso. apply (proj1 (pfind_none m lb) Ef). apply Hk. rewrite Ex. discriminate. }
    apply (Hfin t1 _ (length (pt_mem t)) al G1 (or_introl eq_refl)).
    + rewrite M1, nth_error_app2, Nat.sub_diag by lia. reflexivity.
    + rewrite Hnone. exact Ri.
    + intros c b [Hb|Hb] Hc; [congruence|]. rewrite M1, nth_error_app1 by (apply (addr_lt t m c b HG Hb)). apply (Hm c b Hb).
    + intros c. cbn [map fst In]. split; intros [H|H]; auto.
Qed.

Lemma create_upto labels first last : Forall label_ok labels -> (Z.of_nat last < M32)%Z -> first <= last <= length labels -> last - first = 0 \/ 3 <= last - first ->
  exists t m, create_cluster_map labels (Z.of_nat first) (Z.of_nat last) = Ok t /\ lists_ok labels first (last - first) t m.
Proof.
  intros HL HM Hr Hn. unfold create_cluster_map. assert (HMv : (M32 = 4294967296)%Z) by reflexivity.
  assert (Hs : u32 (Z.of_nat last - Z.of_nat first) = Z.of_nat (last - first)) by (unfold u32; rewrite Z.mod_small by lia; lia). rewrite Hs.
  destruct (C11_at_least_one_bucket (Z.of_nat (last - first) / 4)) as (b & -> & _). cbn [bind].
  destruct (pt_init_ok (V := alist Z) (Z.to_nat b)) as (tab & -> & G0). cbn [bind]. rewrite Nat2Z.id.
  replace (Z.to_nat (Z.of_nat last - Z.of_nat first)) with (last - first) by lia.
  destruct (for_up_inv (fun i t => exists m, lists_ok labels first (i - first) t m) (map_step labels (Z.of_nat (last - first))) first (last - first) (mk_ptable tab [])) as (t & E & m & H).
  - exists []. rewrite Nat.sub_diag. split; [exact G0|]. split; [intros c a []|]. intros c. cbn. split; [tauto|]. intros H. apply H. reflexivity.
  - intros i t Hi (m & HI).
    destruct (map_step_ok labels (Z.of_nat (last - first)) first (i - first) t m HL ltac:(lia) ltac:(lia) HI) as (t' & m' & E & H).
    replace (first + (i - first)) with i in E by lia. exists t'. split; [exact E|]. exists m'. replace (S i - first) with (S (i - first)) by lia. exact H.
  - exists t, m. split; [exact E|]. replace (first + (last - first) - first) with (last - first) in H by lia. exact H.
Qed.

Lemma create_ok labels first last : Forall label_ok labels -> (Z.of_nat (length labels) < M32)%Z -> first <= last <= length labels -> last - first = 0 \/ 3 <= last - first ->
  exists t m, create_cluster_map labels (Z.of_nat first) (Z.of_nat last) = Ok t /\ lists_ok labels first (last - first) t m.
Proof. intros HL HM Hr. apply create_upto; [exact HL|lia|exact Hr]. Qed.

(** C42.  Every label of the range is mapped to the increasing list of its positions, and
    there is no other key. *)
Theorem C42_cluster_map_is_the_partition : forall labels first last,
  Forall label_ok labels -> (Z.of_nat (length labels) < M32)%Z -> first <= last <= length labels -> last - first = 0 \/ 3 <= last - first ->
  exists t, create_cluster_map labels (Z.of_nat first) (Z.of_nat last) = Ok t /\
    (forall c, label_ok c -> (exists i, first <= i < last /\ nth_error labels i = Some c) ->
       exists l, maps_to t c (map Z.of_nat l) /\ StronglySorted lt l /\ forall i, In i l <-> first <= i < last /\ nth_error labels i = Some c) /\
    (forall c, label_ok c -> ~ (exists i, first <= i < last /\ nth_error labels i = Some c) -> pt_find t c = Ok None) /\
    has_keys t (fun c => exists i, first <= i < last /\ nth_error labels i = Some c) /\
    (* destroying the map frees every list it holds exactly once *)
    exists log, destroy_map t = Ok log /\ Permutation log (map Some (seq 0 (length (pt_mem t)))).
Proof.
  intros labels first last HL HM Hr Hn. destruct (create_ok labels first last HL HM Hr Hn) as (t & m & E & HG & Hm & Hk).
  assert (Hex : forall c, (exists i, first <= i < last /\ nth_error labels i = Some c) <-> In c (map fst m)).
  { intros c. rewrite Hk. split.
    - intros (i & Hi) H. assert (Hx : In i (indices labels first (last - first) c)) by (apply indices_in; split; [lia|apply Hi]). rewrite H in Hx. destruct Hx.
    - intros H. destruct (indices labels first (last - first) c) as [|i l] eqn:Ei; [contradiction|]. exists i.
      assert (Hx : In i (indices labels first (last - first) c)) by (rewrite Ei; left; reflexivity). apply indices_in in Hx. split; [lia|apply Hx]. }
  exists t. split; [exact E|]. split; [|split; [|split]].
  - intros c Hc Hi. apply Hex in Hi. apply in_map_iff in Hi. destruct Hi as ([c' a] & Ec & Hin). cbn [fst] in Ec. subst c'.
    destruct (Hm c a Hin) as (al & Hal & Hrep). exists (indices labels first (last - first) c). split; [|split].
    + exists a, al. split; [|split; [exact Hal|]].
      * rewrite (pt_find_ok t m c HG Hc). f_equal. apply (pfind_in m c a (pg_nd _ _ HG)). exact Hin.
      * apply rep_elements in Hrep. split; tauto.
    + unfold indices. generalize (last - first). clear. intros n. revert first. induction n as [|n IH]; intros first; cbn [seq filter]; [constructor|].
      destruct (match nth_error labels first with Some x => (x =? c)%Z | None => false end); [|apply IH]. constructor; [apply IH|].
      apply Forall_forall. intros x Hx. apply filter_In in Hx. destruct Hx as [Hx _]. apply in_seq in Hx. lia.
    + intros i. rewrite indices_in. split; intros [H1 H2]; (split; [lia|exact H2]).
  - intros c Hc Hi. rewrite Hex in Hi. rewrite (pt_find_ok t m c HG Hc). f_equal. apply pfind_none. exact Hi.
  - destruct (pt_keys t m HG) as (ls & H1 & H2 & H3 & H4). exists ls.
    split; [eapply Permutation_NoDup; [apply Permutation_sym; exact H2|apply HG]|]. split; [exact H1|]. split; [exact H4|].
    intros c. rewrite Hex. split; apply Permutation_in; [|apply Permutation_sym]; exact H2.
  - apply (destroy_ok t m HG).
Qed.
Print Assumptions C42_cluster_map_is_the_partition.

(** The list of the first label is created with capacity (last - first)/3 = 0. *)
Theorem C42_short_ranges_abort : forall labels first last,
  Forall label_ok labels -> (Z.of_nat (length labels) < M32)%Z -> first <= last <= length labels -> last - first = 1 \/ last - first = 2 ->
  create_cluster_map labels (Z.of_nat first) (Z.of_nat last) = Abort.
Proof.
  intros labels first last HL HM Hr Hn. unfold create_cluster_map. assert (HMv : (M32 = 4294967296)%Z) by reflexivity.
  assert (Hs : u32 (Z.of_nat last - Z.of_nat first) = Z.of_nat (last - first)) by (unfold u32; rewrite Z.mod_small by lia; lia). rewrite Hs.
  destruct (C11_at_least_one_bucket (Z.of_nat (last - first) / 4)) as (b & -> & _). cbn [bind].
  destruct (pt_init_ok (V := alist Z) (Z.to_nat b)) as (tab & -> & G0). cbn [bind]. rewrite Nat2Z.id.
  replace (Z.to_nat (Z.of_nat last - Z.of_nat first)) with (S (last - first - 1)) by lia. cbn [for_up].
  unfold map_step at 1. destruct (aget_ok labels first ltac:(lia)) as (lb & -> & Hlb). cbn [bind].
  assert (Hok : label_ok lb) by (rewrite Forall_forall in HL; apply HL; apply (nth_error_In _ _ Hlb)).
  rewrite (pt_find_ok _ [] lb G0 Hok). cbn [pfind find option_map bind].
  unfold array_list_init. replace (Z.to_nat (Z.of_nat (last - first) / 3)) with 0; [reflexivity|].
  rewrite Z.div_small by lia. reflexivity.
Qed.
Print Assumptions C42_short_ranges_abort.

Example C42_example :
  (let! t := create_cluster_map [7; 3; 7; 0; 3; 7; 9]%Z 1 6 in
   let! k0 := pt_key t 0 in let! k1 := pt_key t 1 in let! k2 := pt_key t 2 in
   let! l := pt_deref t 7 in let! z := pt_find t 9 in let! log := destroy_map t in
   Ok (pt_size t, [k0; k1; k2], firstn (al_size l) (al_data l), z, log)) =
  Ok (3, [0; 3; 7]%Z, [Some 2; Some 5]%Z, None, [Some 2; Some 0; Some 1]).
Proof. vm_compute. reflexivity. Qed.
