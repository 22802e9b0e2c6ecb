(** Theorems C23 and C24: edge sorting and adjacency lists. *)
From Coq Require Import Permutation Sorted.
From Verif Require Import Base ListFacts F64 F64Facts ModelMst ModelGraph ProofMst ProofSort ProofGraph PropMst.
From Coq Require Import Lia.
Local Open Scope nat_scope.

(** A graph's edge arrays have the same length. *)
Definition aligned (e : edges) : Prop := length (e_a e) = length (e_b e) /\ length (e_a e) = length (e_w e).

Definition weights_sorted (e : edges) : Prop := StronglySorted (fun x y => fle x y = true) (e_w e).

Lemma triples_map e m : wf m e -> triples e = map (edge_at e) (seq 0 m).
Proof.
  intros (Ha & Hb & Hw). apply nth_error_ext. intros i.
  destruct (Nat.lt_ge_cases i m) as [Hi|Hi].
  - rewrite (map_nth_error _ i (seq 0 m) (d := i)).
    + destruct (edge_at e i) as ((u & v) & w) eqn:E. now apply (triples_nth e i u v w m).
    + rewrite (nth_error_nth' _ 0) by (rewrite seq_length; lia). now rewrite seq_nth.
  - rewrite !(proj2 (nth_error_None _ _)); auto.
    + rewrite map_length, seq_length. lia.
    + rewrite (triples_length e m); auto.
Qed.

Lemma sorted_of_leq (l : list f64) :
  (forall i j, i < j -> j < length l -> fle (nth i l D_MAX) (nth j l D_MAX) = true) ->
  StronglySorted (fun x y => fle x y = true) l.
Proof.
  induction l as [|x l IH]; intros H; constructor.
  - apply IH. intros i j Hij Hj. apply (H (S i) (S j)); cbn [length]; lia.
  - apply Forall_forall. intros y Hy. apply (In_nth _ _ D_MAX) in Hy. destruct Hy as (j & Hj & <-).
    apply (H 0 (S j)); cbn [length]; lia.
Qed.

Lemma nonan_of e m : wf m e -> Forall (fun w => fisnan w = false) (e_w e) -> nonan m e.
Proof.
  intros (_ & _ & Hw) HF k Hk. rewrite Forall_forall in HF. apply HF. apply nth_In. lia.
Qed.

(** C23.  [Ok] excludes running out of fuel and any access outside the arrays and the two
    stacks of (number of edges)/2 slots.  The first conclusions hold for all weights. *)
Theorem C23_quicksort_by_edge_weight :
  forall e, aligned e ->
  exists e', graph_quicksort_by_edge_weight e = Ok e' /\ aligned e' /\
    Permutation (triples e) (triples e') /\
    (Forall (fun w => fisnan w = false) (e_w e) -> weights_sorted e').
Proof.
  intros e [H1 H2]. set (m := length (e_w e)). assert (Hwf : wf m e) by (unfold wf, m; lia).
  destruct (quicksort_stack_ok m e Hwf) as (e' & E & Hwf' & Hre & Hord).
  exists e'. split; [exact E|]. destruct Hwf' as (Ha & Hb & Hw) eqn:Hx. clear Hx.
  split; [unfold aligned; lia|]. split.
  - rewrite (triples_map e m), (triples_map e' m) by (auto; split; auto).
    destruct (Nat.eq_dec m 0) as [->|]; [reflexivity|]. apply (rearr_perm _ _ _ _ _ Hre). lia.
  - intros HF. apply sorted_of_leq. intros i j Hij Hj. apply (Hord (nonan_of e m Hwf HF)); auto; lia.
Qed.
Print Assumptions C23_quicksort_by_edge_weight.

(** graph_quicksort on the whole range, with at least as much recursion depth as there are
    edges allowed. *)
Theorem C23_graph_quicksort :
  forall e fuel, aligned e -> length (e_w e) <= fuel ->
  exists e', graph_quicksort fuel e 0 (Z.of_nat (length (e_w e)) - 1) = Ok e' /\ aligned e' /\
    Permutation (triples e) (triples e') /\
    (Forall (fun w => fisnan w = false) (e_w e) -> weights_sorted e').
Proof.
  intros e fuel [H1 H2] Hf. set (m := length (e_w e)) in *. assert (Hwf : wf m e) by (unfold wf, m; lia).
  destruct (quicksort_rec_ok m fuel e 0 (Z.of_nat m - 1) Hwf) as (e' & E & Hwf' & Hre & Hsame & Hord); try lia.
  exists e'. split; [exact E|]. destruct Hwf' as (Ha & Hb & Hw) eqn:Hx. clear Hx.
  split; [unfold aligned; lia|]. split.
  - rewrite (triples_map e m), (triples_map e' m) by (auto; split; auto).
    destruct (Nat.eq_dec m 0) as [->|]; [reflexivity|]. apply (rearr_perm _ _ _ _ _ (Hre ltac:(lia))). lia.
  - intros HF. apply sorted_of_leq. intros i j Hij Hj. apply (Hord (nonan_of e m Hwf HF)); auto; lia.
Qed.
Print Assumptions C23_graph_quicksort.

Example C23_example :
  let e := mk_edges [1; 2; 3; 4; 5] [0; 1; 2; 3; 4] (map f_of_Z [5; 1; 4; 1; 3]%Z) in
  aligned e /\ Forall (fun w => fisnan w = false) (e_w e) /\
  (let! r := graph_quicksort_by_edge_weight e in Ok (e_a r, e_b r)) = Ok ([4; 2; 5; 3; 1], [3; 1; 4; 2; 0]) /\
  (let! r := graph_quicksort 5 e 0 4 in Ok (e_a r, e_b r)) = Ok ([4; 2; 5; 3; 1], [3; 1; 4; 2; 0]).
Proof.
  cbv zeta. split; [split; reflexivity|]. split; [|split; vm_compute; reflexivity].
  cbn [e_w map]. repeat constructor; vm_compute; reflexivity.
Qed.

(** ** C24 *)

(** Number of times [u] must be listed for [v] according to the edges: a self loop counts
    once. *)
Definition multiplicity (es : list (nat * nat)) (v u : nat) : nat :=
  length (filter (fun x => ((fst x =? v) && (snd x =? u)) || ((fst x =? u) && (snd x =? v))) es).

(** The edges as pairs. *)
Definition ends (e : edges) : list (nat * nat) := combine (e_a e) (e_b e).
Definition vertices_below (n : nat) (e : edges) : Prop :=
  Forall (fun x => x < n) (e_a e) /\ Forall (fun x => x < n) (e_b e).

Lemma count_nbrs es v u : count_occ Nat.eq_dec (nbrs es v) u = multiplicity es v u.
Proof.
  unfold nbrs, multiplicity. induction es as [|(a & b) es IH]; [reflexivity|].
  cbn [flat_map filter fst snd]. rewrite count_occ_app, IH. unfold nbrs_of. rewrite count_occ_app.
  destruct (Nat.eqb_spec a v), (Nat.eqb_spec a b), (Nat.eqb_spec b v), (Nat.eqb_spec b u), (Nat.eqb_spec a u);
    subst; cbn [negb andb orb count_occ length]; repeat destruct (Nat.eq_dec _ _); try congruence; reflexivity.
Qed.

Theorem C24_adjacency_matches_edges :
  forall n e, aligned e -> vertices_below n e ->
  exists adj, graph_init n e = Ok adj /\ length adj = n /\
    forall v u, v < n -> count_occ Nat.eq_dec (nth v adj []) u = multiplicity (ends e) v u.
Proof.
  intros n e [H1 H2] [Ha Hb]. set (m := length (e_a e)). assert (Hwf : wf m e) by (unfold wf, m; lia).
  destruct (graph_init_ok n e m Hwf) as (adj & E & HL & H).
  { intros i Hi. rewrite Forall_forall in Ha, Hb. split; [apply Ha|apply Hb]; apply nth_In; unfold m in *; lia. }
  exists adj. split; [exact E|]. split; [auto|]. intros v u Hv. rewrite H. apply count_nbrs.
Qed.
Print Assumptions C24_adjacency_matches_edges.

(** Removing the edge a-b from lists that match the edges, one of which joins a and b,
    leaves lists that match the remaining edges.  When a = b the code removes the entry
    twice; a vertex with a single self loop has only one. *)
Theorem C24_remove_edge :
  forall n adj es1 es2 a b, length adj = n -> a < n -> b < n ->
  (a = b -> multiplicity (es1 ++ (a, b) :: es2) a a = 1) ->
  (forall v u, v < n -> count_occ Nat.eq_dec (nth v adj []) u = multiplicity (es1 ++ (a, b) :: es2) v u) ->
  exists adj', graph_remove_edge adj a b = Ok adj' /\ length adj' = n /\
    forall v u, v < n -> count_occ Nat.eq_dec (nth v adj' []) u = multiplicity (es1 ++ es2) v u.
Proof.
  intros n adj es1 es2 a b HL Ha Hb Hself H.
  destruct (remove_edge_ok adj a b n HL Ha Hb) as (adj' & E & HL' & Hne & Heq).
  exists adj'. split; [exact E|]. split; [auto|].
  assert (Hm : forall v u, multiplicity (es1 ++ (a, b) :: es2) v u =
     multiplicity (es1 ++ es2) v u + (if ((a =? v) && (b =? u)) || ((a =? u) && (b =? v)) then 1 else 0)).
  { intros v u. unfold multiplicity. rewrite !filter_app, !app_length. cbn [filter fst snd].
    destruct (((a =? v) && (b =? u)) || ((a =? u) && (b =? v))); cbn [length]; lia. }
  intros v u Hv. specialize (H v u Hv). rewrite Hm in H.
  destruct (Nat.eq_dec a b) as [Eab|Hab].
  - rewrite (Heq Eab). subst b. rewrite Hm in Hself. rewrite Nat.eqb_refl in Hself. cbn [andb orb] in Hself.
    specialize (Hself eq_refl).
    destruct (Nat.eqb_spec a v) as [<-|Hav].
    + rewrite !remove_first_count. destruct (Nat.eqb_spec a u) as [Eu|Hau]; [subst u|]; cbn [andb orb] in H; lia.
    + rewrite Bool.andb_false_r in H. cbn [andb orb] in H. lia.
  - rewrite (Hne Hab). destruct (Nat.eqb_spec a v) as [<-|Hav].
    + rewrite remove_first_count. cbn [andb] in H.
      replace (b =? a) with false in H by (symmetry; apply Nat.eqb_neq; auto). rewrite Bool.andb_false_r, Bool.orb_false_r in H.
      destruct (b =? u); lia.
    + cbn [andb orb] in H. destruct (Nat.eqb_spec b v) as [<-|Hbv].
      * rewrite remove_first_count. rewrite Bool.andb_true_r in H. destruct (a =? u); lia.
      * rewrite Bool.andb_false_r in H. lia.
Qed.
Print Assumptions C24_remove_edge.

(** With two self loops on a vertex one call removes both. *)
Theorem C24_double_self_loop_refuted :
  forall n adj es a, length adj = n -> a < n ->
  (forall v u, v < n -> count_occ Nat.eq_dec (nth v adj []) u = multiplicity ((a, a) :: (a, a) :: es) v u) ->
  exists adj', graph_remove_edge adj a a = Ok adj' /\
    count_occ Nat.eq_dec (nth a adj' []) a = multiplicity es a a.
Proof.
  intros n adj es a HL Ha H.
  destruct (remove_edge_ok adj a a n HL Ha Ha) as (adj' & E & HL' & _ & Heq).
  exists adj'. split; [exact E|]. rewrite (Heq eq_refl), Nat.eqb_refl, !remove_first_count, Nat.eqb_refl.
  rewrite (H a a Ha). unfold multiplicity. cbn [filter fst snd]. rewrite Nat.eqb_refl. cbn [andb orb length]. lia.
Qed.
Print Assumptions C24_double_self_loop_refuted.

Example C24_example :
  let e := mk_edges [1; 2; 0; 1; 1] [0; 1; 0; 1; 0] (map f_of_Z [5; 1; 4; 1; 3]%Z) in
  aligned e /\ vertices_below 3 e /\
  graph_init 3 e = Ok [[1; 0; 1]; [0; 2; 1; 0]; [1]] /\
  graph_remove_edge [[1; 0; 1]; [0; 2; 1; 0]; [1]] 0 1 = Ok [[0; 1]; [2; 1; 0]; [1]] /\
  graph_remove_edge [[1; 0; 1]; [0; 2; 1; 0]; [1]] 0 0 = Ok [[1; 1]; [0; 2; 1; 0]; [1]] /\
  graph_remove_edge [[0; 0; 1]; [0]] 0 0 = Ok [[1]; [0]].
Proof.
  cbv zeta. split; [split; reflexivity|]. split; [split; cbn [e_a e_b]; repeat constructor|].
  repeat split; vm_compute; reflexivity.
Qed.
