(** The invariant of the cluster tree kept by hdbscan_create_new_cluster. *)
From Verif Require Import Base F64 ListFacts ModelCluster ModelHier ProofSets.
From Coq Require Import ZifyBool ZifyNat Sorted.
Local Open Scope nat_scope.

Notation cnt k l := (count_occ Nat.eq_dec l k).

Lemma cnt_upd l i x k : i < length l ->
  cnt k (upd l i x) + (if nth i l 0 =? k then 1 else 0) = cnt k l + (if x =? k then 1 else 0).
Proof.
  revert i; induction l as [|a l IH]; intros [|i] H; cbn [length] in H; try lia; cbn [upd nth count_occ].
  - destruct (Nat.eq_dec a k), (Nat.eq_dec x k), (Nat.eqb_spec a k), (Nat.eqb_spec x k); lia.
  - specialize (IH i ltac:(lia)). destruct (Nat.eq_dec a k); lia.
Qed.

Lemma nth_upd_nat (l : list nat) i j x : i < length l -> nth j (upd l i x) 0 = if j =? i then x else nth j l 0.
Proof.
  revert i j; induction l as [|a l IH]; intros [|i] [|j] H; cbn [length] in H; try lia; cbn [upd nth Nat.eqb]; auto.
  apply IH. lia.
Qed.

Lemma write_labels_ok points : forall cur x, NoDup points -> (forall v, In v points -> v < length cur) ->
  exists cur', write_labels cur points x = Ok cur' /\ length cur' = length cur
  /\ (forall v, nth v cur' 0 = if in_dec Nat.eq_dec v points then x else nth v cur 0).
Proof.
  induction points as [|p points IH]; intros cur x Hd Hl; cbn [write_labels].
  - exists cur. split; [reflexivity|]. split; [reflexivity|]. intros v. destruct (in_dec Nat.eq_dec v []); [contradiction|reflexivity].
  - inversion Hd as [|? ? Hp Hd']; subst. rewrite aset_ok by (apply Hl; left; reflexivity). cbn [bind].
    destruct (IH (upd cur p x) x Hd') as (cur' & H1 & H2 & H3).
    { intros v Hv. rewrite upd_length. apply Hl. right. exact Hv. }
    exists cur'. split; [exact H1|]. split; [rewrite H2; apply upd_length|].
    intros v. rewrite H3, nth_upd_nat by (apply Hl; left; reflexivity).
    destruct (Nat.eqb_spec v p) as [E|E].
    + subst v. destruct (in_dec Nat.eq_dec p points) as [i|i], (in_dec Nat.eq_dec p (p :: points)) as [j|j]; try reflexivity; exfalso; apply j; left; reflexivity.
    + destruct (in_dec Nat.eq_dec v points) as [i|i], (in_dec Nat.eq_dec v (p :: points)) as [j|j]; try reflexivity.
      * exfalso. apply j. right. exact i.
      * exfalso. destruct j as [j|j]; [congruence|contradiction].
Qed.

Lemma write_labels_cnt points : forall cur cur' x y, NoDup points -> x <> y ->
  (forall v, In v points -> v < length cur /\ nth v cur 0 = y) ->
  write_labels cur points x = Ok cur' ->
  forall k, cnt k cur' + (if y =? k then length points else 0) = cnt k cur + (if x =? k then length points else 0).
Proof.
  induction points as [|p points IH]; intros cur cur' x y Hd Hxy Hl H k; cbn [write_labels] in H.
  - inversion H; subst. cbn [length]. destruct (y =? k), (x =? k); lia.
  - inversion Hd as [|? ? Hp Hd']; subst. destruct (Hl p (or_introl eq_refl)) as [Hlp Hnp].
    rewrite aset_ok in H by exact Hlp. cbn [bind] in H.
    assert (Hl' : forall v, In v points -> v < length (upd cur p x) /\ nth v (upd cur p x) 0 = y).
    { intros v Hv. destruct (Hl v (or_intror Hv)). rewrite upd_length, nth_upd_nat by exact Hlp. split; [assumption|].
      destruct (Nat.eqb_spec v p) as [E|E]; [subst; contradiction|assumption]. }
    specialize (IH _ _ _ _ Hd' Hxy Hl' H k). pose proof (cnt_upd cur p x k Hlp) as Hc. rewrite Hnp in Hc.
    cbn [length]. destruct (Nat.eqb_spec y k), (Nat.eqb_spec x k); lia.
Qed.

Lemma nth_error_upd' {A} (l : list A) i j x : i < length l -> nth_error (upd l i x) j = if j =? i then Some x else nth_error l j.
Proof.
  intros H. destruct (Nat.eqb_spec j i) as [E|E].
  - subst j. apply nth_error_upd_eq. exact H.
  - apply nth_error_upd_neq. lia.
Qed.

Lemma write_noise_ok points : forall noise last w x, NoDup points ->
  (forall v, In v points -> v < length noise /\ v < length last) ->
  exists noise' last', write_noise noise last points w x = Ok (noise', last')
  /\ length noise' = length noise /\ length last' = length last
  /\ (forall v, nth_error noise' v = if in_dec Nat.eq_dec v points then Some (Some w) else nth_error noise v)
  /\ (forall v, nth_error last' v = if in_dec Nat.eq_dec v points then Some (Some x) else nth_error last v).
Proof.
  induction points as [|p points IH]; intros noise last w x Hd Hl; cbn [write_noise].
  - exists noise, last. split; [reflexivity|]. split; [reflexivity|]. split; [reflexivity|].
    split; intros v; destruct (in_dec Nat.eq_dec v []); try contradiction; reflexivity.
  - inversion Hd as [|? ? Hp Hd']; subst. destruct (Hl p (or_introl eq_refl)) as [Hl1 Hl2].
    rewrite aset_ok by exact Hl1. cbn [bind]. rewrite aset_ok by exact Hl2. cbn [bind].
    destruct (IH (upd noise p (Some w)) (upd last p (Some x)) w x Hd') as (noise' & last' & H1 & H2 & H3 & H4 & H5).
    { intros v Hv. rewrite !upd_length. apply Hl. right. exact Hv. }
    exists noise', last'. split; [exact H1|]. split; [rewrite H2; apply upd_length|]. split; [rewrite H3; apply upd_length|].
    split; intros v; [rewrite H4, nth_error_upd' by exact Hl1|rewrite H5, nth_error_upd' by exact Hl2];
    (destruct (Nat.eqb_spec v p) as [E|E];
     [subst v; destruct (in_dec Nat.eq_dec p points) as [i|i], (in_dec Nat.eq_dec p (p :: points)) as [j|j]; try reflexivity; exfalso; apply j; left; reflexivity|];
     destruct (in_dec Nat.eq_dec v points) as [i|i], (in_dec Nat.eq_dec v (p :: points)) as [j|j]; try reflexivity;
     exfalso; [apply j; right; exact i|destruct j as [j|j]; [congruence|contradiction]]).
Qed.

Lemma NoDup_app' {T} (a b : list T) : NoDup a -> NoDup b -> (forall x, In x a -> In x b -> False) -> NoDup (a ++ b).
Proof.
  induction a as [|x a IH]; intros Ha Hb H; [exact Hb|]. inversion Ha; subst. cbn [app]. constructor.
  - rewrite in_app_iff. intros [i|i]; [contradiction|]. apply (H x); [left; reflexivity|exact i].
  - apply IH; auto. intros y Hy. apply H. right. exact Hy.
Qed.
Lemma StronglySorted_snoc {T} (R : T -> T -> Prop) l x : StronglySorted R l -> Forall (fun y => R y x) l -> StronglySorted R (l ++ [x]).
Proof.
  induction l as [|y l IH]; intros H1 H2; [constructor; constructor|]. inversion H1; inversion H2; subst. cbn [app].
  constructor; [apply IH; assumption|]. apply Forall_app. split; [assumption|]. constructor; [assumption|constructor].
Qed.

Section Tree.
Variable n : nat.
Variable minPts : nat.
(** the weights that may occur *)
Variable ws : list f64.
(** [D a b]: level [b] is processed after level [a] *)
Variable D : f64 -> f64 -> Prop.
Hypothesis Hn : (Z.of_nat n < M32)%Z.

Definition lab (s : lstate) (v : nat) : nat := nth v (l_cur s) 0.
Definition clus (s : lstate) (k : nat) (c : cluster) : Prop := nth_error (l_cs s) k = Some (Some c).
Definition parentof (s : lstate) (j p : nat) : Prop := exists c, clus s j c /\ c_parent c = Some p.
Definition bk (B : list (list nat)) (k : nat) : list nat := nth k B [].
(** Cluster [k] has a child born at [b]. *)
Definition kidof (s : lstate) (k : nat) (b : f64) : Prop := exists j c, clus s j c /\ c_parent c = Some k /\ c_birth c = b.

(** The departures from cluster [k], oldest first: each is a group of points with the level at
    which it left, either into noise or as the points of a new child.  The stability is the sum
    of the contributions of these groups. *)
Definition group := (list nat * f64)%type.
Definition gained (birth : f64) (a : f64) (g : group) : f64 := fadd a (stability_gain (length (fst g)) (snd g) birth).
Record ledger (w : f64) (B : list (list nat)) (s : lstate) (k : nat) (c : cluster) (evs : list group) : Prop := {
  ld_sum : c_stab c = fold_left (gained (c_birth c)) evs fzero;
  ld_ne : forall g, In g evs -> fst g <> [];
  ld_nodup : NoDup (concat (map fst evs));
  ld_pts : forall v, In v (concat (map fst evs)) <-> In v (bk B k) /\ lab s v <> k;
  ld_ord : StronglySorted (fun a b => snd a = snd b \/ D (snd a) (snd b)) evs;
  ld_lev : forall g, In g evs -> In (snd g) ws /\ (snd g = w \/ D (snd g) w) /\ (2 <= k -> D (c_birth c) (snd g));
  ld_kind : forall g, In g evs ->
     (forall v, In v (fst g) -> nth_error (l_last s) v = Some (Some k) /\ nth_error (l_noise s) v = Some (Some (snd g)))
     \/ (exists j cj, clus s j cj /\ c_parent cj = Some k /\ c_birth cj = snd g /\ bk B j = fst g) }.

(** What must survive from [s] to [s'] for the departures recorded so far to stay right. *)
Definition kept (B B' : list (list nat)) (s s' : lstate) (k : nat) : Prop :=
  (forall v, nth_error (l_last s) v = Some (Some k) -> nth_error (l_last s') v = Some (Some k) /\ nth_error (l_noise s') v = nth_error (l_noise s) v)
  /\ (forall j cj, clus s j cj -> c_parent cj = Some k ->
        exists cj', clus s' j cj' /\ c_parent cj' = Some k /\ c_birth cj' = c_birth cj /\ bk B' j = bk B j).

Lemma ledger_kind_kept B B' s s' k g : kept B B' s s' k ->
  (forall v, In v (fst g) -> nth_error (l_last s) v = Some (Some k) /\ nth_error (l_noise s) v = Some (Some (snd g)))
     \/ (exists j cj, clus s j cj /\ c_parent cj = Some k /\ c_birth cj = snd g /\ bk B j = fst g) ->
  (forall v, In v (fst g) -> nth_error (l_last s') v = Some (Some k) /\ nth_error (l_noise s') v = Some (Some (snd g)))
     \/ (exists j cj, clus s' j cj /\ c_parent cj = Some k /\ c_birth cj = snd g /\ bk B' j = fst g).
Proof.
  intros [K1 K2] [H|(j & cj & H1 & H2 & H3 & H4)].
  - left. intros v Hv. destruct (H v Hv) as [A1 A2]. destruct (K1 v A1) as [A3 A4]. split; [exact A3|]. rewrite A4. exact A2.
  - right. destruct (K2 j cj H1 H2) as (cj' & C1 & C2 & C3 & C4). exists j, cj'. split; [exact C1|]. split; [exact C2|].
    split; congruence.
Qed.

Lemma ledger_keep w B B' s s' k c c' evs : ledger w B s k c evs -> c_stab c' = c_stab c -> c_birth c' = c_birth c ->
  bk B' k = bk B k -> (forall v, In v (bk B k) -> lab s' v = k <-> lab s v = k) -> kept B B' s s' k -> ledger w B' s' k c' evs.
Proof.
  intros HL Hs Hb HB Hlab HK. destruct HL. constructor; auto.
  - rewrite Hs, Hb. exact ld_sum0.
  - intros v. rewrite ld_pts0, HB. split; intros [H1 H2]; split; auto; rewrite Hlab in *; auto.
  - rewrite Hb. exact ld_lev0.
  - intros g Hg. apply (ledger_kind_kept B B' s s' k g HK). auto.
Qed.

Lemma ledger_snoc w B B' s s' k c c' evs P : ledger w B s k c evs ->
  c_stab c' = gained (c_birth c) (c_stab c) (P, w) -> c_birth c' = c_birth c ->
  bk B' k = bk B k -> P <> [] -> NoDup P -> (forall v, In v P -> In v (bk B k) /\ lab s v = k) ->
  (forall v, lab s' v = k <-> lab s v = k /\ ~ In v P) -> kept B B' s s' k ->
  In w ws -> (2 <= k -> D (c_birth c) w) ->
  ((forall v, In v P -> nth_error (l_last s') v = Some (Some k) /\ nth_error (l_noise s') v = Some (Some w))
     \/ (exists j cj, clus s' j cj /\ c_parent cj = Some k /\ c_birth cj = w /\ bk B' j = P)) ->
  ledger w B' s' k c' (evs ++ [(P, w)]).
Proof.
  intros HL Hs Hb HB HP0 HPd HP Hlab HK Hw Hkb Hkind. destruct HL. constructor.
  - rewrite Hs, Hb, fold_left_app. cbn [fold_left]. rewrite <- ld_sum0. reflexivity.
  - intros g Hg. apply in_app_iff in Hg. destruct Hg as [Hg|[<-|[]]]; auto.
  - rewrite map_app, concat_app. cbn [map concat fst]. rewrite app_nil_r. apply NoDup_app'; auto.
    intros v Hv Hv'. apply ld_pts0 in Hv. destruct (HP v Hv'). tauto.
  - intros v. rewrite map_app, concat_app, in_app_iff. cbn [map concat fst]. rewrite app_nil_r, ld_pts0, HB, Hlab. split.
    + intros [[H1 H2]|H]; [tauto|]. destruct (HP v H) as [H1 H2]. tauto.
    + intros [H1 H2]. destruct (in_dec Nat.eq_dec v P) as [i|i]; [right; exact i|]. left. split; [exact H1|]. tauto.
  - apply StronglySorted_snoc; [exact ld_ord0|]. apply Forall_forall. intros g Hg. apply ld_lev0. exact Hg.
  - rewrite Hb. intros g Hg. apply in_app_iff in Hg. destruct Hg as [Hg|[<-|[]]]; [auto|]. cbn [snd]. auto.
  - intros g Hg. apply in_app_iff in Hg. destruct Hg as [Hg|[<-|[]]]; [|exact Hkind].
    apply (ledger_kind_kept B B' s s' k g HK). auto.
Qed.

(** What is known of cluster [k]; [B] lists the points of each cluster at its birth. *)
Record cgood (w : f64) (B : list (list nat)) (s : lstate) (k : nat) (c : cluster) : Prop := {
  cg_label : c_label c = k;
  cg_num : c_num c = Z.of_nat (cnt k (l_cur s));
  cg_fresh : c_pstab c = fzero /\ c_plow c = D_MAX /\ c_nc c = 0%Z /\ c_pnc c = 0%Z /\ c_desc c = [];
  cg_root : k = 1 -> c_parent c = None /\ c_birth c = fnan;
  cg_nonroot : 2 <= k -> (exists p, c_parent c = Some p /\ 1 <= p < k /\ incl (bk B k) (bk B p)) /\ minPts <= length (bk B k)
     /\ In (c_birth c) ws /\ (c_birth c = w \/ D (c_birth c) w);
  cg_virtual_s : ssorted (c_virtual c);
  cg_virtual : forall v, In v (c_virtual c) <-> nth_error (l_last s) v = Some (Some k);
  cg_kids : c_kids c = true <-> exists j, parentof s j k;
  cg_dead : c_num c = 0%Z -> In (c_death c) ws /\ (2 <= k -> D (c_birth c) (c_death c))
     /\ (forall v w', nth_error (l_last s) v = Some (Some k) -> nth_error (l_noise s) v = Some (Some w') -> w' = c_death c \/ D w' (c_death c));
  cg_alive : c_num c <> 0%Z -> c_death c = fzero;
  cg_event : c_num c = 0%Z ->
     ((exists v, nth_error (l_last s) v = Some (Some k) /\ nth_error (l_noise s) v = Some (Some (c_death c))) \/ kidof s k (c_death c))
     /\ (forall b, kidof s k b -> b = c_death c \/ D b (c_death c));
  cg_ledger : exists evs, ledger w B s k c evs }.

Record CInv (w : f64) (B : list (list nat)) (s : lstate) : Prop := {
  ci_cur : length (l_cur s) = n;
  ci_noise : length (l_noise s) = n;
  ci_last : length (l_last s) = n;
  ci_B : length B = l_next s;
  ci_cs : length (l_cs s) = l_next s;
  ci_next : 2 <= l_next s;
  ci_null : nth_error (l_cs s) 0 = Some None;
  ci_c : forall k, 1 <= k < l_next s -> exists c, clus s k c /\ cgood w B s k c;
  ci_born : forall k, NoDup (bk B k) /\ (forall v, In v (bk B k) -> v < n);
  ci_root : bk B 1 = seq 0 n;
  ci_lab : forall v, v < n -> lab s v < l_next s
     /\ (lab s v <> 0 -> In v (bk B (lab s v)) /\ nth_error (l_noise s) v = Some None /\ nth_error (l_last s) v = Some None)
     /\ (lab s v = 0 -> exists w' l, nth_error (l_noise s) v = Some (Some w') /\ nth_error (l_last s) v = Some (Some l)
           /\ In w' ws /\ 1 <= l < l_next s /\ In v (bk B l) /\ (w' = w \/ D w' w));
  ci_left : forall j p v, parentof s j p -> In v (bk B j) -> lab s v <> p;
  ci_sib : forall j k p v, j <> k -> parentof s j p -> parentof s k p -> In v (bk B j) -> In v (bk B k) -> False }.

(** What operations of level [w] leave unchanged in an existing cluster. *)
Definition same_id (w : f64) (c c' : cluster) : Prop :=
  (c_label c' = c_label c /\ c_birth c' = c_birth c /\ c_parent c' = c_parent c /\ c_offset c' = c_offset c)
  /\ (c' = c \/ (c_num c <> 0%Z /\ (c_num c' = 0%Z -> c_death c' = w))).
Lemma same_id_refl w c : same_id w c c.
Proof. split; [repeat split|left; reflexivity]. Qed.
Lemma same_id_trans w c1 c2 c3 : same_id w c1 c2 -> same_id w c2 c3 -> same_id w c1 c3.
Proof.
  intros ((A1 & A2 & A3 & A4) & A5) ((B1 & B2 & B3 & B4) & B5). split; [repeat split; congruence|].
  destruct A5 as [->|[A5 A6]], B5 as [->|[B5 B6]]; auto.
Qed.

Lemma clus_fun s k c c' : clus s k c -> clus s k c' -> c = c'.
Proof. unfold clus. congruence. Qed.

Lemma cget_clus s k c : clus s k c -> cget (l_cs s) k = Ok c.
Proof. unfold clus, cget. intros H. rewrite (aget_nth _ _ _ H). reflexivity. Qed.

Lemma clus_lt s k c : clus s k c -> k < length (l_cs s).
Proof. unfold clus. intros H. apply nth_error_Some. congruence. Qed.

(** Preconditions shared by the two operations. *)
Definition movable (w : f64) (s : lstate) (l : nat) (P : list nat) : Prop :=
  1 <= l < l_next s /\ P <> [] /\ ssorted P /\ (forall v, In v P -> v < n /\ lab s v = l)
  /\ (forall c, clus s l c -> 2 <= l -> D (c_birth c) w) /\ In w ws.

Lemma detach_num w B s l P c x cur' : CInv w B s -> movable w s l P -> clus s l c -> cgood w B s l c -> x <> l ->
  write_labels (l_cur s) P x = Ok cur' ->
  c_num (cluster_detach_points c (length P) w) = Z.of_nat (cnt l cur').
Proof.
  intros HC (M1 & M2 & M3 & M4 & M5) Hc Hg Hx Hw.
  pose proof (write_labels_cnt P (l_cur s) cur' x l (ssorted_nodup _ M3) Hx) as H.
  specialize (H ltac:(intros v Hv; destruct (M4 v Hv); rewrite (ci_cur _ _ _ HC); auto) Hw l).
  rewrite Nat.eqb_refl in H. destruct (Nat.eqb_spec x l); [congruence|].
  unfold cluster_detach_points. cbn [c_num]. rewrite (cg_num _ _ _ _ _ Hg).
  assert (cnt l (l_cur s) <= n).
  { rewrite <- (ci_cur _ _ _ HC). apply count_occ_bound. }
  unfold u32. rewrite Z.mod_small; lia.
Qed.

Lemma kid_birth w B s l b : CInv w B s -> kidof s l b -> b = w \/ D b w.
Proof.
  intros HC (j & c & H1 & H2 & H3). pose proof (clus_lt _ _ _ H1) as Hj. rewrite (ci_cs _ _ _ HC) in Hj.
  destruct (Nat.eq_dec j 0) as [->|Hj0].
  { unfold clus in H1. rewrite (ci_null _ _ _ HC) in H1. discriminate. }
  destruct (ci_c _ _ _ HC j ltac:(lia)) as (c' & Hc' & Hg). rewrite (clus_fun _ _ _ _ Hc' H1) in Hg.
  destruct (Nat.eq_dec j 1) as [->|Hj1].
  { destruct (cg_root _ _ _ _ _ Hg eq_refl) as [H _]. congruence. }
  subst b. apply (cg_nonroot _ _ _ _ _ Hg). lia.
Qed.

Lemma make_noise_ok w B s l P : CInv w B s -> movable w s l P ->
  exists s', make_noise s P l w = Ok s' /\ CInv w B s' /\ l_next s' = l_next s /\ l_new s' = l_new s
  /\ (forall v, lab s' v = if in_dec Nat.eq_dec v P then 0 else lab s v)
  /\ (forall v, nth_error (l_noise s') v = if in_dec Nat.eq_dec v P then Some (Some w) else nth_error (l_noise s) v)
  /\ (forall v, nth_error (l_last s') v = if in_dec Nat.eq_dec v P then Some (Some l) else nth_error (l_last s) v)
  /\ (forall k c, clus s k c -> exists c', clus s' k c' /\ same_id w c c' /\ (k <> l -> c' = c))
  /\ (forall k c', clus s' k c' -> exists c, clus s k c).
Proof.
  intros HC HM. pose proof HM as (M1 & M2 & M3 & M4 & M5 & M6).
  pose proof (ssorted_nodup _ M3) as Hd.
  destruct (write_labels_ok P (l_cur s) 0 Hd) as (cur' & W1 & W2 & W3).
  { intros v Hv. rewrite (ci_cur _ _ _ HC). apply M4. exact Hv. }
  destruct (ci_c _ _ _ HC l M1) as (c & Hc & Hg).
  pose proof (detach_num w B s l P c 0 cur' HC HM Hc Hg ltac:(lia) W1) as Hnum.
  destruct (write_noise_ok P (l_noise s) (l_last s) w l Hd) as (noise' & last' & N1 & N2 & N3 & N4 & N5).
  { intros v Hv. rewrite (ci_noise _ _ _ HC), (ci_last _ _ _ HC). split; apply M4; exact Hv. }
  pose proof (clus_lt _ _ _ Hc) as Hlt.
  set (c1 := cluster_detach_points c (length P) w) in *.
  set (c2 := cluster_add_virtual c1 P).
  assert (Hnz : c_num c <> 0%Z).
  { rewrite (cg_num _ _ _ _ _ Hg).
    destruct P as [|p P']; [congruence|]. destruct (M4 p (or_introl eq_refl)) as [Hp1 Hp2].
    enough (cnt l (l_cur s) > 0) by lia. apply count_occ_In.
    rewrite <- Hp2. apply nth_In. rewrite (ci_cur _ _ _ HC). exact Hp1. }
  assert (Hdth : c_num c2 = 0%Z -> c_death c2 = w).
  { intros Hz. change (c_num c2) with (c_num c1) in Hz. change (c_death c2) with (c_death c1).
    unfold c1, cluster_detach_points in Hz |- *. cbn [c_num c_death] in *. rewrite Hz. reflexivity. }
  exists (mk_l cur' (upd (upd (l_cs s) l (Some c1)) l (Some c2)) (l_next s) noise' last' (l_new s)).
  assert (Hlt' : l < length (upd (l_cs s) l (Some c1))) by (rewrite upd_length; exact Hlt).
  split.
  { unfold make_noise, create_new_cluster. rewrite W1. cbn [bind]. rewrite (cget_clus _ _ _ Hc). cbn [bind].
    unfold cset at 1. rewrite aset_ok by exact Hlt. fold c1. cbn [bind Nat.eqb].
    unfold cget. rewrite (aget_nth _ _ (Some c1)) by (rewrite nth_error_upd' by exact Hlt; rewrite Nat.eqb_refl; reflexivity).
    cbn [bind]. unfold cset. rewrite aset_ok by exact Hlt'. cbn [bind]. rewrite N1. reflexivity. }
  set (s' := mk_l _ _ _ _ _ _).
  assert (Hcs : forall k, nth_error (l_cs s') k = if k =? l then Some (Some c2) else nth_error (l_cs s) k).
  { intros k. cbn [l_cs s']. rewrite nth_error_upd' by exact Hlt'. destruct (k =? l) eqn:E; [reflexivity|].
    rewrite nth_error_upd' by exact Hlt. rewrite E. reflexivity. }
  assert (Hlab : forall v, lab s' v = if in_dec Nat.eq_dec v P then 0 else lab s v) by (intros v; apply W3).
  assert (Hpar : forall j p, parentof s' j p <-> parentof s j p).
  { intros j p. unfold parentof, clus. rewrite Hcs. destruct (Nat.eqb_spec j l) as [E|E]; [|tauto].
    subst j. split; intros (c' & H1 & H2).
    - exists c. split; [exact Hc|]. inversion H1; subst c'. exact H2.
    - exists c2. split; [reflexivity|]. unfold clus in Hc. rewrite Hc in H1. inversion H1; subst c'. exact H2. }
  assert (Hkid : forall j b, kidof s' j b <-> kidof s j b).
  { intros j b. split; intros (i & c' & H1 & H2 & H3); unfold clus in H1.
    - rewrite Hcs in H1. destruct (Nat.eqb_spec i l) as [E|E]; [|exists i, c'; auto].
      subst i. exists l, c. injection H1 as <-. auto.
    - destruct (Nat.eq_dec i l) as [E|E].
      + subst i. unfold clus in Hc. rewrite Hc in H1. injection H1 as <-. exists l, c2. unfold clus. rewrite Hcs, Nat.eqb_refl. auto.
      + exists i, c'. unfold clus. rewrite Hcs. destruct (Nat.eqb_spec i l); [contradiction|auto]. }
  assert (Hkw : forall b, kidof s l b -> b = w \/ D b w) by (intros b; apply (kid_birth w B s l b HC)).
  assert (Hkept : forall k, kept B B s s' k).
  { intros k. split.
    - intros v Hv. cbn [l_last l_noise s']. rewrite N4, N5. destruct (in_dec Nat.eq_dec v P) as [i|i]; [|auto].
      exfalso. destruct (M4 v i) as [V1 V2]. destruct (ci_lab _ _ _ HC v V1) as (_ & L2 & _).
      destruct L2 as (_ & _ & L2); [lia|]. congruence.
    - intros j cj J1 J2. unfold clus. rewrite Hcs. destruct (Nat.eqb_spec j l) as [E|E]; [|exists cj; auto].
      subst j. unfold clus in Hc, J1. rewrite Hc in J1. injection J1 as <-. exists c2. auto. }
  assert (Hcnt : forall k, k <> l -> k <> 0 -> cnt k cur' = cnt k (l_cur s)).
  { intros k Hk Hk0.
    pose proof (write_labels_cnt P (l_cur s) cur' 0 l Hd ltac:(lia)) as H.
    specialize (H ltac:(intros v Hv; destruct (M4 v Hv); rewrite (ci_cur _ _ _ HC); auto) W1 k).
    destruct (Nat.eqb_spec l k), (Nat.eqb_spec 0 k); lia. }
  split; [constructor|].
  - cbn [l_cur s']. rewrite W2. apply HC.
  - cbn [l_noise s']. rewrite N2. apply HC.
  - cbn [l_last s']. rewrite N3. apply HC.
  - apply HC.
  - cbn [l_cs s' l_next]. rewrite !upd_length. apply HC.
  - apply HC.
  - rewrite Hcs. destruct (Nat.eqb_spec 0 l); [lia|]. apply HC.
  - intros k Hk. cbn [l_next s'] in Hk.
    destruct (Nat.eq_dec k l) as [->|Hkl].
    + exists c2. split; [unfold clus; rewrite Hcs, Nat.eqb_refl; reflexivity|].
      destruct Hg. constructor.
      * exact cg_label0.
      * exact Hnum.
      * exact cg_fresh0.
      * exact cg_root0.
      * exact cg_nonroot0.
      * apply set_insert_all_spec. exact cg_virtual_s0.
      * intros v. cbn [c2 cluster_add_virtual c_virtual c1 cluster_detach_points l_last s'].
        rewrite N5. destruct (set_insert_all_spec P (c_virtual c)) as [_ HS].
        { exact cg_virtual_s0. }
        rewrite HS, cg_virtual0. destruct (in_dec Nat.eq_dec v P) as [i|i]; [split; auto|tauto].
      * cbn [c2 cluster_add_virtual c_kids c1 cluster_detach_points]. rewrite cg_kids0.
        split; intros [j Hj]; exists j; apply Hpar; exact Hj.
      * intros Hz. change (c_num c2) with (c_num c1) in Hz.
        assert (Hdeath : c_death c2 = w).
        { change (c_death c2) with (c_death c1). unfold c1, cluster_detach_points in Hz |- *. cbn [c_num c_death] in *.
          rewrite Hz. reflexivity. }
        rewrite Hdeath. split; [exact M6|]. split; [intros H2; apply (M5 c Hc H2)|].
        intros v w' Hv Hw. cbn [l_last l_noise s'] in Hv, Hw. rewrite N4 in Hw. rewrite N5 in Hv.
        destruct (in_dec Nat.eq_dec v P) as [i|i]; [left; congruence|].
        assert (Hvn : v < n) by (rewrite <- (ci_last _ _ _ HC); apply nth_error_Some; congruence).
        destruct (ci_lab _ _ _ HC v Hvn) as (_ & L2 & L3).
        destruct (Nat.eq_dec (lab s v) 0) as [E|E].
        -- destruct (L3 E) as (w'' & l'' & A1 & A2 & A3 & A4 & A5 & A6). rewrite A1 in Hw. injection Hw as <-. exact A6.
        -- destruct (L2 E) as (_ & A1 & _). congruence.
      * intros Hz. change (c_num c2) with (c_num c1) in Hz.
        change (c_death c2) with (c_death c1). unfold c1, cluster_detach_points in Hz |- *. cbn [c_num c_death] in *.
        destruct (Z.eqb_spec (u32 (c_num c - Z.of_nat (length P))) 0) as [E|E]; [contradiction|].
        apply cg_alive0. rewrite cg_num0.
        destruct P as [|p P']; [congruence|]. destruct (M4 p (or_introl eq_refl)) as [Hp1 Hp2].
        enough (cnt l (l_cur s) > 0) by lia. apply count_occ_In.
        rewrite <- Hp2. apply nth_In. rewrite (ci_cur _ _ _ HC). exact Hp1.
      * intros Hz. rewrite (Hdth Hz). split; [left|intros b Hb; apply Hkid in Hb; apply Hkw; exact Hb].
        destruct P as [|p P']; [congruence|]. exists p. cbn [l_last l_noise s']. rewrite N4, N5.
        destruct (in_dec Nat.eq_dec p (p :: P')) as [i|i]; [auto|]. exfalso. apply i. left. reflexivity.
      * destruct cg_ledger0 as [evs HLg]. exists (evs ++ [(P, w)]).
        apply (ledger_snoc w B B s s' l c c2 evs P HLg); try reflexivity; auto.
        -- intros v Hv. destruct (M4 v Hv) as [V1 V2]. split; [|exact V2]. destruct (ci_lab _ _ _ HC v V1) as (_ & L2 & _).
           rewrite V2 in L2. apply L2. lia.
        -- intros v. rewrite Hlab. destruct (in_dec Nat.eq_dec v P) as [i|i]; [|tauto]. split; [lia|tauto].
        -- left. intros v Hv. cbn [l_last l_noise s']. rewrite N4, N5. destruct (in_dec Nat.eq_dec v P); [auto|contradiction].
    + destruct (ci_c _ _ _ HC k Hk) as (ck & Hck & Hgk).
      exists ck. split; [unfold clus; rewrite Hcs; destruct (Nat.eqb_spec k l); [contradiction|exact Hck]|].
      assert (HL : forall v, nth_error last' v = Some (Some k) <-> nth_error (l_last s) v = Some (Some k)).
      { intros v. rewrite N5. destruct (in_dec Nat.eq_dec v P) as [i|i]; [|tauto].
        destruct (M4 v i) as [Hv1 Hv2]. destruct (ci_lab _ _ _ HC v Hv1) as (_ & L2 & _).
        destruct L2 as (_ & _ & L2); [lia|]. rewrite L2. split; intros H; [congruence|discriminate]. }
      destruct Hgk. constructor.
      * exact cg_label0.
      * cbn [l_cur s']. rewrite Hcnt by lia. exact cg_num0.
      * exact cg_fresh0.
      * exact cg_root0.
      * exact cg_nonroot0.
      * exact cg_virtual_s0.
      * intros v. cbn [l_last s']. rewrite HL. apply cg_virtual0.
      * rewrite cg_kids0. split; intros [j Hj]; exists j; apply Hpar; exact Hj.
      * intros Hz. destruct (cg_dead0 Hz) as (D1 & D2 & D3). split; [exact D1|]. split; [exact D2|].
        intros v w' Hv Hw. cbn [l_last l_noise s'] in Hv, Hw. pose proof Hv as Hv'. apply HL in Hv.
        rewrite N4 in Hw. rewrite N5 in Hv'. destruct (in_dec Nat.eq_dec v P) as [i|i]; [congruence|].
        apply (D3 v w' Hv Hw).
      * exact cg_alive0.
      * intros Hz. destruct (cg_event0 Hz) as [F1 F2]. split; [|intros b Hb; apply F2, Hkid, Hb].
        destruct F1 as [(v & F3 & F4)|F1]; [|right; apply Hkid; exact F1]. left. exists v. split; [apply HL; exact F3|].
        cbn [l_noise s']. rewrite N4. destruct (in_dec Nat.eq_dec v P) as [i|i]; [|exact F4]. exfalso.
        destruct (M4 v i) as [Hv1 Hv2]. destruct (ci_lab _ _ _ HC v Hv1) as (_ & L2 & _).
        destruct L2 as (_ & _ & L2); [lia|]. congruence.
      * destruct cg_ledger0 as [evs HLg]. exists evs.
        apply (ledger_keep w B B s s' k ck ck evs HLg); try reflexivity; auto.
        intros v Hv. rewrite Hlab. destruct (in_dec Nat.eq_dec v P) as [i|i]; [|tauto]. destruct (M4 v i). split; lia.
  - apply HC.
  - apply HC.
  - intros v Hv. destruct (ci_lab _ _ _ HC v Hv) as (L1 & L2 & L3). rewrite Hlab.
    cbn [l_next l_noise l_last s']. rewrite N4, N5.
    destruct (in_dec Nat.eq_dec v P) as [i|i]; [|split; [exact L1|split; [exact L2|exact L3]]].
    split; [lia|]. split; [congruence|]. intros _. exists w, l. destruct (M4 v i) as [_ Hvl].
    destruct L2 as (Hb & _); [lia|]. rewrite Hvl in Hb.
    split; [reflexivity|]. split; [reflexivity|]. split; [exact M6|]. split; [exact M1|]. split; [exact Hb|]. left; reflexivity.
  - intros j p v Hj Hv. rewrite Hlab. apply Hpar in Hj. pose proof (ci_left _ _ _ HC j p v Hj Hv) as H.
    destruct (in_dec Nat.eq_dec v P) as [i|i]; [|exact H].
    intros <-. (* p = 0 is never a parent *)
    destruct Hj as (cj & Hcj & Hp). pose proof (clus_lt _ _ _ Hcj) as Hjl. rewrite (ci_cs _ _ _ HC) in Hjl.
    destruct (Nat.eq_dec j 0) as [->|Hj0].
    { unfold clus in Hcj. rewrite (ci_null _ _ _ HC) in Hcj. discriminate. }
    destruct (ci_c _ _ _ HC j ltac:(lia)) as (cj' & Hcj' & Hgj). rewrite (clus_fun _ _ _ _ Hcj' Hcj) in Hgj.
    destruct (Nat.eq_dec j 1) as [->|Hj1].
    { destruct (cg_root _ _ _ _ _ Hgj eq_refl) as [H1 _]. congruence. }
    destruct (cg_nonroot _ _ _ _ _ Hgj ltac:(lia)) as ((p' & P1 & P2 & _) & _). rewrite Hp in P1. inversion P1. lia.
  - intros j k p v Hjk Hj Hk. apply (ci_sib _ _ _ HC j k p v Hjk); apply Hpar; assumption.
  - split; [reflexivity|]. split; [reflexivity|]. split; [exact Hlab|]. split; [exact N4|]. split; [exact N5|].
    split.
    + intros k ck Hck. unfold clus. rewrite Hcs. destruct (Nat.eqb_spec k l) as [E|E].
      * subst k. exists c2. split; [reflexivity|]. rewrite (clus_fun _ _ _ _ Hck Hc). split; [|congruence].
        split; [repeat split|]. right. split; [exact Hnz|]. exact Hdth.
      * exists ck. split; [exact Hck|]. split; [apply same_id_refl|reflexivity].
    + intros k ck. unfold clus. rewrite Hcs. destruct (Nat.eqb_spec k l) as [E|E]; [subst k; eauto|eauto].
Qed.

Lemma bk_app B S k : k < length B -> bk (B ++ [S]) k = bk B k.
Proof. intros H. unfold bk. apply app_nth1. exact H. Qed.
Lemma bk_new B S : bk (B ++ [S]) (length B) = S.
Proof. unfold bk. rewrite app_nth2, Nat.sub_diag by lia. reflexivity. Qed.
Lemma bk_over B k : length B <= k -> bk B k = [].
Proof. intros H. unfold bk. apply nth_overflow. exact H. Qed.

Lemma add_cluster_ok w B s l P : CInv w B s -> movable w s l P -> minPts <= length P ->
  exists s', add_cluster s P l w = Ok s' /\ CInv w (B ++ [P]) s' /\ l_next s' = S (l_next s) /\ l_new s' = l_new s ++ [l_next s]
  /\ (forall v, lab s' v = if in_dec Nat.eq_dec v P then l_next s else lab s v)
  /\ l_noise s' = l_noise s /\ l_last s' = l_last s
  /\ (forall k c, clus s k c -> exists c', clus s' k c' /\ same_id w c c' /\ (k <> l -> c' = c))
  /\ (forall k c', clus s' k c' -> k < l_next s -> exists c, clus s k c)
  /\ (exists c, clus s' (l_next s) c /\ c_parent c = Some l /\ c_birth c = w /\ c_offset c = 0).
Proof.
  intros HC HM Hmin. pose proof HM as (M1 & M2 & M3 & M4 & M5 & M6).
  pose proof (ssorted_nodup _ M3) as Hd.
  pose proof (ci_next _ _ _ HC) as Hnx.
  destruct (write_labels_ok P (l_cur s) (l_next s) Hd) as (cur' & W1 & W2 & W3).
  { intros v Hv. rewrite (ci_cur _ _ _ HC). apply M4. exact Hv. }
  destruct (ci_c _ _ _ HC l M1) as (c & Hc & Hg).
  pose proof (detach_num w B s l P c (l_next s) cur' HC HM Hc Hg ltac:(lia) W1) as Hnum.
  pose proof (clus_lt _ _ _ Hc) as Hlt.
  set (c1 := cluster_detach_points c (length P) w) in *.
  set (c2 := set_kids c1).
  assert (Hnz : c_num c <> 0%Z).
  { rewrite (cg_num _ _ _ _ _ Hg).
    destruct P as [|p P']; [congruence|]. destruct (M4 p (or_introl eq_refl)) as [Hp1 Hp2].
    enough (cnt l (l_cur s) > 0) by lia. apply count_occ_In.
    rewrite <- Hp2. apply nth_In. rewrite (ci_cur _ _ _ HC). exact Hp1. }
  assert (Hdth : c_num c2 = 0%Z -> c_death c2 = w).
  { intros Hz. change (c_num c2) with (c_num c1) in Hz. change (c_death c2) with (c_death c1).
    unfold c1, cluster_detach_points in Hz |- *. cbn [c_num c_death] in *. rewrite Hz. reflexivity. }
  set (c3 := cluster_new (l_next s) (Some l) w (length P)).
  assert (Hlt' : l < length (upd (l_cs s) l (Some c1))) by (rewrite upd_length; exact Hlt).
  set (s' := mk_l cur' (upd (upd (l_cs s) l (Some c1)) l (Some c2) ++ [Some c3]) (S (l_next s)) (l_noise s) (l_last s) (l_new s ++ [l_next s])).
  exists s'.
  split.
  { unfold add_cluster, create_new_cluster. rewrite W1. cbn [bind]. rewrite (cget_clus _ _ _ Hc). cbn [bind].
    unfold cset at 1. rewrite aset_ok by exact Hlt. fold c1. cbn [bind].
    destruct (Nat.eqb_spec (l_next s) 0) as [E|_]; [lia|].
    unfold cluster_init, cget. rewrite (aget_nth _ _ (Some c1)) by (rewrite nth_error_upd' by exact Hlt; rewrite Nat.eqb_refl; reflexivity).
    cbn [bind]. unfold cset. rewrite aset_ok by exact Hlt'. cbn [bind].
    rewrite !upd_length, (ci_cs _ _ _ HC). reflexivity. }
  assert (Hcs : forall k, nth_error (l_cs s') k = if k =? l then Some (Some c2) else if k =? l_next s then Some (Some c3) else nth_error (l_cs s) k).
  { intros k. cbn [l_cs s'].
    assert (Hul : length (upd (upd (l_cs s) l (Some c1)) l (Some c2)) = l_next s) by (rewrite !upd_length; apply HC).
    destruct (lt_eq_lt_dec k (l_next s)) as [[H|H]|H].
    - rewrite nth_error_app1 by lia. rewrite nth_error_upd' by exact Hlt'. destruct (k =? l) eqn:E; [reflexivity|].
      rewrite nth_error_upd' by exact Hlt. rewrite E. destruct (Nat.eqb_spec k (l_next s)); [lia|reflexivity].
    - rewrite nth_error_app2 by lia. rewrite Hul, H, Nat.sub_diag. destruct (Nat.eqb_spec (l_next s) l); [lia|]. rewrite Nat.eqb_refl. reflexivity.
    - destruct (Nat.eqb_spec k l); [lia|]. destruct (Nat.eqb_spec k (l_next s)); [lia|].
      transitivity (@None (option cluster)); [|symmetry]; apply nth_error_None; [rewrite app_length; cbn; lia|rewrite (ci_cs _ _ _ HC); lia]. }
  assert (Hlab : forall v, lab s' v = if in_dec Nat.eq_dec v P then l_next s else lab s v) by (intros v; apply W3).
  assert (Hpar : forall j p, parentof s' j p <-> parentof s j p \/ (j = l_next s /\ p = l)).
  { intros j p. unfold parentof, clus. rewrite Hcs. destruct (Nat.eqb_spec j l) as [E|E].
    - subst j. split.
      + intros (c' & H1 & H2). left. exists c. split; [exact Hc|]. inversion H1; subst c'. exact H2.
      + intros [(c' & H1 & H2)|[H1 _]]; [|lia]. exists c2. split; [reflexivity|]. unfold clus in Hc. rewrite Hc in H1. inversion H1; subst c'. exact H2.
    - destruct (Nat.eqb_spec j (l_next s)) as [F|F].
      + split.
        * intros (c' & H1 & H2). right. split; [exact F|]. inversion H1; subst c'. inversion H2. reflexivity.
        * intros [(c' & H1 & H2)|[_ H1]].
          -- exfalso. pose proof (clus_lt s j c' H1) as H. rewrite (ci_cs _ _ _ HC) in H. lia.
          -- subst p. exists c3. split; reflexivity.
      + split; [auto|]. intros [H|[H _]]; [exact H|contradiction]. }
  assert (Hkid : forall j b, kidof s' j b <-> kidof s j b \/ (j = l /\ b = w)).
  { intros j b. split.
    - intros (i & c' & H1 & H2 & H3). unfold clus in H1.
      rewrite Hcs in H1. destruct (Nat.eqb_spec i l) as [E|E].
      + subst i. left. exists l, c. injection H1 as <-. auto.
      + destruct (Nat.eqb_spec i (l_next s)) as [F|F]; [|left; exists i, c'; auto].
        right. injection H1 as <-. cbn in H2, H3. split; congruence.
    - intros [(i & c' & H1 & H2 & H3)|[-> ->]].
      + pose proof (clus_lt _ _ _ H1) as Hi. rewrite (ci_cs _ _ _ HC) in Hi. unfold clus in H1.
        destruct (Nat.eq_dec i l) as [E|E].
        * subst i. unfold clus in Hc. rewrite Hc in H1. injection H1 as <-. exists l, c2. unfold clus. rewrite Hcs, Nat.eqb_refl. auto.
        * exists i, c'. unfold clus. rewrite Hcs. destruct (Nat.eqb_spec i l); [contradiction|].
          destruct (Nat.eqb_spec i (l_next s)); [lia|auto].
      + exists (l_next s), c3. unfold clus. rewrite Hcs. destruct (Nat.eqb_spec (l_next s) l); [lia|]. rewrite Nat.eqb_refl. auto. }
  assert (Hkw : forall b, kidof s l b -> b = w \/ D b w) by (intros b; apply (kid_birth w B s l b HC)).
  assert (Hc0 : cnt (l_next s) (l_cur s) = 0).
  { apply count_occ_not_In. intros Hi. apply (In_nth _ _ 0) in Hi. destruct Hi as (v & Hv & E).
    rewrite (ci_cur _ _ _ HC) in Hv. destruct (ci_lab _ _ _ HC v Hv) as [H _]. unfold lab in H. lia. }
  assert (Hcnt : forall k, k <> l -> cnt k cur' = cnt k (l_cur s) + (if l_next s =? k then length P else 0)).
  { intros k Hk.
    pose proof (write_labels_cnt P (l_cur s) cur' (l_next s) l Hd ltac:(lia)) as H.
    specialize (H ltac:(intros v Hv; destruct (M4 v Hv); rewrite (ci_cur _ _ _ HC); auto) W1 k).
    destruct (Nat.eqb_spec l k); lia. }
  assert (Hbk : forall k, k < l_next s -> bk (B ++ [P]) k = bk B k).
  { intros k Hk. apply bk_app. rewrite (ci_B _ _ _ HC). exact Hk. }
  assert (Hbn : bk (B ++ [P]) (l_next s) = P).
  { rewrite <- (ci_B _ _ _ HC). apply bk_new. }
  assert (HPb : incl P (bk B l)).
  { intros v Hv. destruct (M4 v Hv) as [H1 H2]. destruct (ci_lab _ _ _ HC v H1) as (_ & L2 & _).
    rewrite H2 in L2. apply L2. lia. }
  assert (Hparlt : forall j p, parentof s j p -> j < l_next s /\ 1 <= p < j).
  { intros j p (cj & Hcj & Hp). pose proof (clus_lt _ _ _ Hcj) as Hjl. rewrite (ci_cs _ _ _ HC) in Hjl.
    split; [exact Hjl|].
    destruct (Nat.eq_dec j 0) as [->|Hj0].
    { unfold clus in Hcj. rewrite (ci_null _ _ _ HC) in Hcj. discriminate. }
    destruct (ci_c _ _ _ HC j ltac:(lia)) as (cj' & Hcj' & Hgj). rewrite (clus_fun _ _ _ _ Hcj' Hcj) in Hgj.
    destruct (Nat.eq_dec j 1) as [->|Hj1].
    { destruct (cg_root _ _ _ _ _ Hgj eq_refl) as [H1 _]. congruence. }
    destruct (cg_nonroot _ _ _ _ _ Hgj ltac:(lia)) as ((p' & P1 & P2 & _) & _). rewrite Hp in P1. inversion P1. lia. }
  assert (HP0 : 1 <= length P) by (destruct P; [congruence|cbn; lia]).
  assert (Hkept : forall k, kept B (B ++ [P]) s s' k).
  { intros k. split.
    - intros v Hv. auto.
    - intros j cj J1 J2. assert (Hj : j < l_next s) by (apply (Hparlt j k); exists cj; auto).
      unfold clus. rewrite Hcs, (Hbk j Hj). destruct (Nat.eqb_spec j l) as [E|E].
      + subst j. unfold clus in Hc, J1. rewrite Hc in J1. injection J1 as <-. exists c2. auto.
      + destruct (Nat.eqb_spec j (l_next s)); [lia|]. exists cj. auto. }
  split; [constructor|].
  - cbn [l_cur s']. rewrite W2. apply HC.
  - apply HC.
  - apply HC.
  - rewrite app_length, (ci_B _ _ _ HC). cbn. lia.
  - cbn [l_cs s' l_next]. rewrite app_length, !upd_length, (ci_cs _ _ _ HC). cbn. lia.
  - cbn [l_next s']. lia.
  - rewrite Hcs. destruct (Nat.eqb_spec 0 l); [lia|]. destruct (Nat.eqb_spec 0 (l_next s)); [lia|]. apply HC.
  - intros k Hk. cbn [l_next s'] in Hk.
    destruct (Nat.eq_dec k l) as [->|Hkl].
    + exists c2. split; [unfold clus; rewrite Hcs, Nat.eqb_refl; reflexivity|].
      destruct Hg. constructor.
      * exact cg_label0.
      * exact Hnum.
      * exact cg_fresh0.
      * exact cg_root0.
      * intros H2. destruct (cg_nonroot0 H2) as ((p & A1 & A2 & A3) & A4 & A5). rewrite Hbk by lia.
        split; [exists p; split; [exact A1|]; split; [exact A2|]; rewrite Hbk by lia; exact A3|]. split; [exact A4|exact A5].
      * exact cg_virtual_s0.
      * exact cg_virtual0.
      * split; [intros _|reflexivity]. exists (l_next s). apply Hpar. right. auto.
      * intros Hz. change (c_num c2) with (c_num c1) in Hz.
        assert (Hdeath : c_death c2 = w).
        { change (c_death c2) with (c_death c1). unfold c1, cluster_detach_points in Hz |- *. cbn [c_num c_death] in *.
          rewrite Hz. reflexivity. }
        rewrite Hdeath. split; [exact M6|]. split; [intros H2; apply (M5 c Hc H2)|].
        intros v w' Hv Hw. cbn [l_last l_noise s'] in Hv, Hw.
        assert (Hvn : v < n) by (rewrite <- (ci_last _ _ _ HC); apply nth_error_Some; congruence).
        destruct (ci_lab _ _ _ HC v Hvn) as (_ & L2 & L3).
        destruct (Nat.eq_dec (lab s v) 0) as [E|E].
        -- destruct (L3 E) as (w'' & l'' & A1 & A2 & A3 & A4 & A5 & A6). rewrite A1 in Hw. injection Hw as <-. exact A6.
        -- destruct (L2 E) as (_ & A1 & _). congruence.
      * intros Hz. change (c_num c2) with (c_num c1) in Hz.
        change (c_death c2) with (c_death c1). unfold c1, cluster_detach_points in Hz |- *. cbn [c_num c_death] in *.
        destruct (Z.eqb_spec (u32 (c_num c - Z.of_nat (length P))) 0) as [E|E]; [contradiction|].
        apply cg_alive0. rewrite cg_num0.
        destruct P as [|p P']; [congruence|]. destruct (M4 p (or_introl eq_refl)) as [Hp1 Hp2].
        enough (cnt l (l_cur s) > 0) by lia. apply count_occ_In.
        rewrite <- Hp2. apply nth_In. rewrite (ci_cur _ _ _ HC). exact Hp1.
      * intros Hz. rewrite (Hdth Hz). split; [right; apply Hkid; auto|].
        intros b Hb. apply Hkid in Hb. destruct Hb as [Hb|[_ ->]]; [apply Hkw; exact Hb|auto].
      * destruct cg_ledger0 as [evs HLg]. exists (evs ++ [(P, w)]).
        apply (ledger_snoc w B (B ++ [P]) s s' l c c2 evs P HLg); try reflexivity; auto.
        -- apply Hbk. lia.
        -- intros v Hv. split; [apply HPb; exact Hv|]. apply M4. exact Hv.
        -- intros v. rewrite Hlab. destruct (in_dec Nat.eq_dec v P) as [i|i]; [|tauto]. split; [lia|tauto].
        -- right. exists (l_next s), c3. unfold clus. rewrite Hcs. destruct (Nat.eqb_spec (l_next s) l); [lia|].
           rewrite Nat.eqb_refl. auto.
    + destruct (Nat.eq_dec k (l_next s)) as [->|Hkn].
      * exists c3. split; [unfold clus; rewrite Hcs; destruct (Nat.eqb_spec (l_next s) l); [lia|rewrite Nat.eqb_refl; reflexivity]|].
        assert (Hn3 : c_num c3 = Z.of_nat (length P)) by reflexivity.
        constructor.
        -- reflexivity.
        -- cbn [l_cur s']. rewrite Hn3, Hcnt by lia. rewrite Nat.eqb_refl. lia.
        -- repeat split.
        -- lia.
        -- intros _. rewrite Hbn. split; [exists l; split; [reflexivity|]; split; [lia|]; rewrite Hbk by lia; exact HPb|].
           split; [exact Hmin|]. split; [exact M6|]. left; reflexivity.
        -- constructor.
        -- intros v. cbn [c3 cluster_new c_virtual l_last s']. split; [intros []|]. intros Hv.
           assert (Hvn : v < n) by (rewrite <- (ci_last _ _ _ HC); apply nth_error_Some; congruence).
           destruct (ci_lab _ _ _ HC v Hvn) as (_ & L2 & L3).
           destruct (Nat.eq_dec (lab s v) 0) as [E|E].
           ++ destruct (L3 E) as (w'' & l'' & A1 & A2 & A3 & A4 & A5 & A6). rewrite A2 in Hv. injection Hv as ->. lia.
           ++ destruct (L2 E) as (_ & _ & A1). congruence.
        -- cbn [c3 cluster_new c_kids]. split; [discriminate|]. intros [j Hj]. apply Hpar in Hj.
           destruct Hj as [Hj|[_ Hj]]; [apply Hparlt in Hj; lia|lia].
        -- intros Hz. lia.
        -- intros _. reflexivity.
        -- intros Hz. lia.
        -- exists []. constructor.
           ++ reflexivity.
           ++ intros g [].
           ++ constructor.
           ++ intros v. rewrite Hbn, Hlab. split; [intros []|]. intros [V1 V2].
              destruct (in_dec Nat.eq_dec v P); [lia|contradiction].
           ++ constructor.
           ++ intros g [].
           ++ intros g [].
      * destruct (ci_c _ _ _ HC k ltac:(lia)) as (ck & Hck & Hgk).
        exists ck. split; [unfold clus; rewrite Hcs; destruct (Nat.eqb_spec k l); [contradiction|]; destruct (Nat.eqb_spec k (l_next s)); [contradiction|exact Hck]|].
        destruct Hgk. constructor.
        -- exact cg_label0.
        -- cbn [l_cur s']. rewrite Hcnt by lia. destruct (Nat.eqb_spec (l_next s) k); [lia|]. rewrite Nat.add_0_r. exact cg_num0.
        -- exact cg_fresh0.
        -- exact cg_root0.
        -- intros H2. destruct (cg_nonroot0 H2) as ((p & A1 & A2 & A3) & A4 & A5). rewrite Hbk by lia.
           split; [exists p; split; [exact A1|]; split; [exact A2|]; rewrite Hbk by lia; exact A3|]. split; [exact A4|exact A5].
        -- exact cg_virtual_s0.
        -- exact cg_virtual0.
        -- rewrite cg_kids0. split; intros [j Hj]; exists j.
           ++ apply Hpar. auto.
           ++ apply Hpar in Hj. destruct Hj as [Hj|[_ Hj]]; [exact Hj|contradiction].
        -- exact cg_dead0.
        -- exact cg_alive0.
        -- intros Hz. destruct (cg_event0 Hz) as [F1 F2]. split.
           ++ destruct F1 as [F1|F1]; [left; exact F1|right; apply Hkid; auto].
           ++ intros b Hb. apply Hkid in Hb. destruct Hb as [Hb|[Hb _]]; [apply F2; exact Hb|contradiction].
        -- destruct cg_ledger0 as [evs HLg]. exists evs.
           apply (ledger_keep w B (B ++ [P]) s s' k ck ck evs HLg); try reflexivity; auto.
           ++ apply Hbk. lia.
           ++ intros v Hv. rewrite Hlab. destruct (in_dec Nat.eq_dec v P) as [i|i]; [|tauto]. destruct (M4 v i). split; lia.
  - intros k. destruct (lt_eq_lt_dec k (l_next s)) as [[H|H]|H].
    + rewrite Hbk by exact H. apply HC.
    + subst k. rewrite Hbn. split; [exact Hd|]. intros v Hv. apply M4. exact Hv.
    + rewrite bk_over by (rewrite app_length, (ci_B _ _ _ HC); cbn; lia). split; [constructor|intros v []].
  - rewrite Hbk by lia. apply HC.
  - intros v Hv. destruct (ci_lab _ _ _ HC v Hv) as (L1 & L2 & L3). rewrite Hlab.
    cbn [l_next l_noise l_last s'].
    destruct (in_dec Nat.eq_dec v P) as [i|i].
    + split; [lia|]. split; [|lia]. intros _. rewrite Hbn. split; [exact i|]. destruct (M4 v i) as [_ Hvl].
      destruct L2 as (_ & L2); [lia|]. exact L2.
    + split; [lia|]. split.
      * intros H. rewrite Hbk by exact L1. apply L2. exact H.
      * intros H. destruct (L3 H) as (w' & l' & A1 & A2 & A3 & A4 & A5 & A6). exists w', l'.
        split; [exact A1|]. split; [exact A2|]. split; [exact A3|]. split; [lia|]. rewrite Hbk by lia. auto.
  - intros j p v Hj Hv. rewrite Hlab. apply Hpar in Hj. destruct Hj as [Hj|[-> ->]].
    + destruct (Hparlt _ _ Hj) as [Hj1 Hj2]. rewrite Hbk in Hv by exact Hj1.
      pose proof (ci_left _ _ _ HC j p v Hj Hv) as H.
      destruct (in_dec Nat.eq_dec v P) as [i|i]; [lia|exact H].
    + rewrite Hbn in Hv. destruct (in_dec Nat.eq_dec v P) as [i|i]; [lia|contradiction].
  - assert (Hx : forall j v, parentof s j l -> In v (bk B j) -> In v P -> False).
    { intros j v Hj Hv Hp. apply (ci_left _ _ _ HC j l v Hj Hv). apply M4. exact Hp. }
    intros j k p v Hjk Hj Hk Hv Hv'. apply Hpar in Hj. apply Hpar in Hk.
    destruct Hj as [Hj|[Ej Ep]], Hk as [Hk|[Ek Ep']].
    + rewrite Hbk in Hv by apply (Hparlt _ _ Hj). rewrite Hbk in Hv' by apply (Hparlt _ _ Hk). apply (ci_sib _ _ _ HC j k p v Hjk); assumption.
    + subst k p. rewrite Hbn in Hv'. rewrite Hbk in Hv by apply (Hparlt _ _ Hj). apply (Hx j v); assumption.
    + subst j p. rewrite Hbn in Hv. rewrite Hbk in Hv' by apply (Hparlt _ _ Hk). apply (Hx k v); assumption.
    + lia.
  - split; [reflexivity|]. split; [reflexivity|]. split; [exact Hlab|]. split; [reflexivity|]. split; [reflexivity|].
    split; [|split].
    + intros k ck Hck. pose proof (clus_lt _ _ _ Hck) as Hk. rewrite (ci_cs _ _ _ HC) in Hk.
      unfold clus. rewrite Hcs. destruct (Nat.eqb_spec k l) as [E|E].
      * subst k. exists c2. split; [reflexivity|]. rewrite (clus_fun _ _ _ _ Hck Hc). split; [|congruence].
        split; [repeat split|]. right. split; [exact Hnz|]. exact Hdth.
      * destruct (Nat.eqb_spec k (l_next s)); [lia|]. exists ck. split; [exact Hck|]. split; [apply same_id_refl|reflexivity].
    + intros k ck. unfold clus. rewrite Hcs. destruct (Nat.eqb_spec k l) as [E|E]; [subst k; eauto|].
      destruct (Nat.eqb_spec k (l_next s)); [lia|]. eauto.
    + exists c3. split; [|repeat split]. unfold clus. rewrite Hcs. destruct (Nat.eqb_spec (l_next s) l); [lia|]. rewrite Nat.eqb_refl. reflexivity.
Qed.

(** Moving to the next level. *)
Lemma CInv_level w w' B s : (forall a b c, D a b -> D b c -> D a c) -> D w w' -> CInv w B s -> CInv w' B s.
Proof.
  intros Ht Hw HC. destruct HC. constructor; try assumption.
  - intros k Hk. destruct (ci_c0 k Hk) as (c & H1 & H2). exists c. split; [exact H1|]. destruct H2. constructor; try assumption.
    { intros H. destruct (cg_nonroot0 H) as (A1 & A2 & A3 & A4). split; [exact A1|]. split; [exact A2|]. split; [exact A3|].
    right. destruct A4 as [->|A4]; [exact Hw|]. apply Ht with w; assumption. }
    destruct cg_ledger0 as [evs HLg]. exists evs. destruct HLg. constructor; try assumption.
    intros g Hg. destruct (ld_lev0 g Hg) as (A1 & A2 & A3). split; [exact A1|]. split; [|exact A3].
    right. destruct A2 as [->|A2]; [exact Hw|]. apply Ht with w; assumption.
  - intros v Hv. destruct (ci_lab0 v Hv) as (L1 & L2 & L3). split; [exact L1|]. split; [exact L2|].
    intros H. destruct (L3 H) as (w0 & l & A1 & A2 & A3 & A4 & A5 & A6). exists w0, l.
    split; [exact A1|]. split; [exact A2|]. split; [exact A3|]. split; [exact A4|]. split; [exact A5|].
    right. destruct A6 as [->|A6]; [exact Hw|]. apply Ht with w; assumption.
Qed.
End Tree.
