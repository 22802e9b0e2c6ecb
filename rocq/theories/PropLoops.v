(** C101: the parallel loops that fill arrays. *)
From Verif Require Import Base ListFacts F64 ModelLoops SpecLoops.
From Coq Require Import ZifyBool ZifyNat.
Local Open Scope nat_scope.

Fixpoint solo (p : iteration) (m : memory) (r : list value) : memory * list value :=
  match p with [] => (m, r) | s :: p => solo p (fst (do_step s m r)) (snd (do_step s m r)) end.
Lemma leaves_solo p : forall m r, leaves p m r = fst (solo p m r).
Proof. induction p as [|[f|t w] p IH]; intros m r; cbn [leaves solo do_step fst snd]; [reflexivity|apply IH|apply IH]. Qed.
Lemma solo_app p q : forall m r, solo (p ++ q) m r = solo q (fst (solo p m r)) (snd (solo p m r)).
Proof. induction p as [|s p IH]; intros m r; cbn [app solo]; [reflexivity|apply IH]. Qed.
Lemma accesses_app p q : forall m r, accesses (p ++ q) m r = accesses p m r ++ accesses q (fst (solo p m r)) (snd (solo p m r)).
Proof. induction p as [|[f|t w] p IH]; intros m r; cbn [app accesses solo do_step fst snd]; [reflexivity|rewrite IH; reflexivity|rewrite IH; reflexivity]. Qed.
Lemma untouched p c : forall m r, ~ In (true, c) (accesses p m r) -> fst (solo p m r) c = m c.
Proof.
  induction p as [|[f|t w] p IH]; intros m r H; cbn [accesses solo do_step fst snd] in *; [reflexivity|apply IH; intros K; apply H; right; exact K|].
  rewrite IH by (intros K; apply H; right; exact K). unfold poke. destruct (cell_eq_dec c (t r)) as [->|N]; [elim H; left; reflexivity|reflexivity].
Qed.

Section Race.
Variable its : list iteration.
Variable m : memory.
Hypothesis NR : ~ race its m.
Notation p i := (nth i its []).
Notation pre i k := (firstn k (p i)).

Lemma no_conflict i j c wi wj : i <> j -> In (wi, c) (accesses (p i) m []) -> In (wj, c) (accesses (p j) m []) -> wi || wj = false.
Proof.
  intros N Hi Hj. destruct (wi || wj) eqn:E; [|reflexivity]. elim NR. exists i, j, c, wi, wj.
  assert (L : forall k w, In (w, c) (accesses (p k) m []) -> k < length its).
  { intros k w H. destruct (Nat.lt_ge_cases k (length its)); [assumption|]. rewrite nth_overflow in H by assumption. destruct H. }
  split; [eapply L, Hi|]. split; [eapply L, Hj|]. auto.
Qed.
Lemma pre_in i k x : In x (accesses (pre i k) m []) -> In x (accesses (p i) m []).
Proof. intros H. rewrite <- (firstn_skipn k (p i)), accesses_app. apply in_or_app. left. exact H. Qed.

Definition inv (st : state) : Prop := forall i,
  loaded st i = snd (solo (pre i (made st i)) m []) /\
  (forall c, In (true, c) (accesses (pre i (made st i)) m []) -> mem st c = fst (solo (pre i (made st i)) m []) c).
Definition inv2 (st : state) : Prop := forall c, (forall i, ~ In (true, c) (accesses (pre i (made st i)) m [])) -> mem st c = m c.

Lemma firstn_S {A} (l : list A) k x : nth_error l k = Some x -> firstn (S k) l = firstn k l ++ [x].
Proof. revert l. induction k as [|k IH]; intros [|y l] H; cbn in *; try discriminate; [congruence|]. f_equal. apply IH, H. Qed.

Lemma advance_inv i st : inv st /\ inv2 st -> inv (advance its i st) /\ inv2 (advance its i st).
Proof.
  intros [I1 I2]. unfold advance. destruct (nth_error (p i) (made st i)) as [s|] eqn:E; [|split; assumption].
  set (k := made st i) in *. destruct (I1 i) as [L W]. fold k in L, W. set (q := solo (pre i k) m []) in *.
  assert (HF : pre i (S k) = pre i k ++ [s]) by (apply firstn_S, E).
  assert (HA : accesses (pre i (S k)) m [] = accesses (pre i k) m [] ++ accesses [s] (fst q) (snd q)) by (rewrite HF, accesses_app; reflexivity).
  assert (HS : solo (pre i (S k)) m [] = solo [s] (fst q) (snd q)) by (rewrite HF, solo_app; reflexivity).
  (* iteration i sees in memory what it would see alone *)
  assert (HV : forall c w, In (w, c) (accesses [s] (fst q) (snd q)) -> w = false -> mem st c = fst q c).
  { intros c w Hc ->. assert (Hp : In (false, c) (accesses (p i) m [])) by (apply (pre_in i (S k)); rewrite HA; apply in_or_app; right; exact Hc).
    destruct (in_dec (fun a b : bool * cell => ltac:(repeat decide equality)) (true, c) (accesses (pre i k) m [])) as [Hin|Hn]; [apply W, Hin|].
    unfold q. rewrite untouched by exact Hn. apply I2. intros j Hj. destruct (Nat.eq_dec j i) as [->|Nj]; [fold k in Hj; contradiction|].
    pose proof (no_conflict j i c true false Nj (pre_in _ _ _ Hj) Hp). discriminate. }
  (* what the others have stored is not where iteration i stores *)
  assert (HO : forall c j, j <> i -> In (true, c) (accesses [s] (fst q) (snd q)) -> ~ In (true, c) (accesses (pre j (made st j)) m [])).
  { intros c j Nj Hc Hj. assert (Hp : In (true, c) (accesses (p i) m [])) by (apply (pre_in i (S k)); rewrite HA; apply in_or_app; right; exact Hc).
    pose proof (no_conflict j i c true true Nj (pre_in _ _ _ Hj) Hp). discriminate. }
  assert (HM : forall j, at_i (made st) i (S k) j = if j =? i then S k else made st j) by reflexivity.
  destruct s as [from|to what]; cbn [do_step accesses solo fst snd] in *.
  - rewrite L in *. pose proof (HV (from (snd q)) false (or_introl eq_refl) eq_refl) as EV. split.
    + intros j. cbn [loaded made mem]. unfold at_i. destruct (Nat.eqb_spec j i) as [->|Nj]; [|apply I1].
      rewrite HS. cbn [fst snd]. rewrite EV. split; [reflexivity|]. intros c Hc. rewrite HA in Hc. apply in_app_or in Hc. destruct Hc as [Hc|[Hc|[]]]; [apply W, Hc|discriminate Hc].
    + intros c Hc. cbn [mem made] in *. apply I2. intros j Hj. apply (Hc j). unfold at_i. destruct (Nat.eqb_spec j i) as [->|Nj]; [|exact Hj]. rewrite HA. apply in_or_app. left. exact Hj.
  - rewrite L in *. split.
    + intros j. cbn [loaded made mem]. unfold at_i. destruct (Nat.eqb_spec j i) as [->|Nj].
      * rewrite HS. cbn [fst snd]. split; [reflexivity|]. intros c Hc. unfold poke. destruct (cell_eq_dec c (to (snd q))) as [->|Nc]; [reflexivity|].
        apply W. rewrite HA in Hc. apply in_app_or in Hc. destruct Hc as [Hc|[Hc|[]]]; [exact Hc|]. injection Hc as Hc. congruence.
      * destruct (I1 j) as [Lj Wj]. split; [exact Lj|]. intros c Hc. unfold poke. destruct (cell_eq_dec c (to (snd q))) as [->|Nc]; [|apply Wj, Hc].
        elim (HO _ j Nj (or_introl eq_refl) Hc).
    + intros c Hc. cbn [mem made] in *. unfold poke. destruct (cell_eq_dec c (to (snd q))) as [->|Nc].
      * elim (Hc i). unfold at_i. rewrite Nat.eqb_refl, HA. apply in_or_app. right. left. reflexivity.
      * apply I2. intros j Hj. apply (Hc j). unfold at_i. destruct (Nat.eqb_spec j i) as [->|Nj]; [|exact Hj]. rewrite HA. apply in_or_app. left. exact Hj.
Qed.

Lemma made_advance i st j : made (advance its i st) j = if j =? i then Nat.max (made st i) (Nat.min (S (made st i)) (length (p i))) else made st j.
Proof.
  unfold advance. destruct (nth_error (p i) (made st i)) as [s|] eqn:E.
  - assert (made st i < length (p i)) by (apply nth_error_Some; congruence). destruct (do_step s (mem st) (loaded st i)). cbn [made]. unfold at_i. destruct (Nat.eqb_spec j i) as [->|]; [lia|reflexivity].
  - apply nth_error_None in E. destruct (Nat.eqb_spec j i) as [->|]; [lia|reflexivity].
Qed.
Lemma run_inv order : forall st, inv st /\ inv2 st -> (forall i, made st i <= length (p i)) ->
  let st' := fold_left (fun st i => advance its i st) order st in (inv st' /\ inv2 st') /\ forall i, made st' i = Nat.min (made st i + count_occ Nat.eq_dec order i) (length (p i)).
Proof.
  induction order as [|i order IH]; intros st HI HL; cbn [fold_left count_occ].
  - split; [exact HI|]. intros i. specialize (HL i). lia.
  - destruct (IH (advance its i st) (advance_inv i st HI)) as [A B].
    + intros j. rewrite made_advance. pose proof (HL j). pose proof (HL i). destruct (Nat.eqb_spec j i) as [->|]; lia.
    + split; [exact A|]. intros j. rewrite B, made_advance. pose proof (HL i). pose proof (HL j). destruct (Nat.eqb_spec j i) as [->|N].
      * destruct (Nat.eq_dec i i); [lia|congruence].
      * destruct (Nat.eq_dec i j); [congruence|lia].
Qed.

(** What a loop without races leaves in memory. *)
Lemma result order : complete its order ->
  (forall i c, In (true, c) (accesses (p i) m []) -> mem (run its order m) c = leaves (p i) m [] c) /\
  (forall c, (forall i, ~ In (true, c) (accesses (p i) m [])) -> mem (run its order m) c = m c).
Proof.
  intros HC. destruct (run_inv order (mk_state m (fun _ => []) (fun _ => 0))) as [[A B] D].
  { split; [intros i; cbn; split; [reflexivity|intros c []]|intros c _; reflexivity]. }
  { intros i. cbn. lia. }
  fold (run its order m) in A, B, D.
  assert (EM : forall i, firstn (made (run its order m) i) (p i) = p i). { intros i. rewrite D, HC. cbn [made]. apply firstn_all2. lia. }
  split.
  - intros i c Hc. destruct (A i) as [_ W]. rewrite EM in W. rewrite leaves_solo. apply W, Hc.
  - intros c Hc. apply B. intros i. rewrite EM. apply Hc.
Qed.
End Race.

Lemma writer its m c : {i | In (true, c) (accesses (nth i its []) m [])} + {forall i, ~ In (true, c) (accesses (nth i its []) m [])}.
Proof.
  assert (D : forall l, {i | In (true, c) (accesses (nth i l []) m [])} + {forall i, ~ In (true, c) (accesses (nth i l []) m [])}).
  { induction l as [|q l IH]; [right; intros i; destruct i; intros []|].
    destruct (in_dec (fun a b : bool * cell => ltac:(repeat decide equality)) (true, c) (accesses q m [])) as [H|H]; [left; exists 0; exact H|].
    destruct IH as [[i Hi]|IH]; [left; exists (S i); exact Hi|right]. intros [|i]; [exact H|apply IH]. }
  apply D.
Qed.

Lemma count_repeat i j n : count_occ Nat.eq_dec (repeat i n) j = if j =? i then n else 0.
Proof. induction n as [|n IH]; cbn [repeat count_occ]; [destruct (j =? i); reflexivity|]. rewrite IH. destruct (Nat.eq_dec i j), (Nat.eqb_spec j i); congruence. Qed.
Lemma in_order_complete its : complete its (in_order its).
Proof.
  intros j. unfold in_order.
  assert (H : forall n a, count_occ Nat.eq_dec (flat_map (fun i => repeat i (length (nth i its []))) (seq a n)) j = if (a <=? j) && (j <? a + n) then length (nth j its []) else 0).
  { induction n as [|n IH]; intros a; cbn [seq flat_map]; [cbn [count_occ]; destruct (Nat.leb_spec a j), (Nat.ltb_spec j (a + 0)); cbn [andb]; lia|].
    rewrite count_occ_app, count_repeat, IH. destruct (Nat.eqb_spec j a) as [->|N].
    - destruct (Nat.leb_spec (S a) a), (Nat.leb_spec a a), (Nat.ltb_spec a (a + S n)); cbn [andb]; lia.
    - destruct (Nat.leb_spec (S a) j), (Nat.leb_spec a j), (Nat.ltb_spec j (S a + n)), (Nat.ltb_spec j (a + S n)); cbn [andb]; lia. }
  rewrite H. cbn [Nat.leb andb Nat.add]. destruct (Nat.ltb_spec j (length its)); [reflexivity|]. rewrite nth_overflow by assumption. reflexivity.
Qed.

(** C101: a loop whose iterations have no data race leaves the same memory whatever the order of
    their steps: the memory the program leaves without OpenMP. *)
Theorem C101_without_races_the_schedule_does_not_matter : forall its m order, ~ race its m -> complete its order ->
  complete its (in_order its) /\ forall c, mem (run its order m) c = mem (run its (in_order its) m) c.
Proof.
  intros its m order NR HC. split; [apply in_order_complete|]. intros c.
  destruct (result its m NR order HC) as [A B]. destruct (result its m NR _ (in_order_complete its)) as [A' B'].
  destruct (writer its m c) as [[i Hi]|Hn]; [rewrite (A i c Hi), (A' i c Hi)|rewrite (B c Hn), (B' c Hn)]; reflexivity.
Qed.
Print Assumptions C101_without_races_the_schedule_does_not_matter.

(** ** The loops *)
Lemma nth_loop n body i : nth i (loop n body) [] = if i <? n then body i else [].
Proof.
  unfold loop. destruct (Nat.ltb_spec i n) as [L|L].
  - rewrite (nth_indep _ [] (body 0)) by (rewrite map_length, seq_length; exact L). rewrite map_nth, seq_nth by exact L. reflexivity.
  - apply nth_overflow. rewrite map_length, seq_length. exact L.
Qed.
(** [leads n body m expected]: the loop has no race, and leaves [expected] under every order. *)
Definition leads (n : nat) (body : nat -> iteration) (m expected : memory) : Prop :=
  ~ race (loop n body) m /\ forall order, complete (loop n body) order -> forall c, mem (run (loop n body) order m) c = expected c.
Lemma leads_intro n body m expected :
  (forall i j c wi wj, i < n -> j < n -> i <> j -> In (wi, c) (accesses (body i) m []) -> In (wj, c) (accesses (body j) m []) -> wi || wj = true -> False) ->
  (forall i c, i < n -> In (true, c) (accesses (body i) m []) -> leaves (body i) m [] c = expected c) ->
  (forall c, (forall i, i < n -> ~ In (true, c) (accesses (body i) m [])) -> m c = expected c) ->
  leads n body m expected.
Proof.
  intros H1 H2 H3. assert (NR : ~ race (loop n body) m).
  { intros (i & j & c & wi & wj & Li & Lj & N & Ai & Aj & W). unfold loop in Li, Lj. rewrite map_length, seq_length in Li, Lj. rewrite nth_loop in Ai, Aj.
    destruct (Nat.ltb_spec i n), (Nat.ltb_spec j n); try lia. exact (H1 i j c wi wj Li Lj N Ai Aj W). }
  split; [exact NR|]. intros order HC c. destruct (result _ m NR order HC) as [A B]. destruct (writer (loop n body) m c) as [[i Hi]|Hn].
  - rewrite (A i c Hi). rewrite nth_loop in *. destruct (Nat.ltb_spec i n); [|destruct Hi]. apply H2; assumption.
  - rewrite (B c Hn). apply H3. intros i Hi. specialize (Hn i). rewrite nth_loop in Hn. destruct (Nat.ltb_spec i n); [exact Hn|lia].
Qed.

(** Memory with the elements [from], [from + 1], ... of an array, [n] of them, replaced. *)
Definition array_eq_dec (a b : array) : {a = b} + {a <> b}. Proof. decide equality. Defined.
Definition with_array (a : array) (from n : nat) (v : nat -> value) (m : memory) : memory :=
  fun c => if array_eq_dec (fst c) a then if (from <=? snd c) && (snd c <? from + n) then v (snd c - from) else m c else m c.
(** Memory with the elements of an array at the first [n] points replaced. *)
Definition with_points (a : array) (n : nat) (v : value) (points m : memory) : memory :=
  fun c => if array_eq_dec (fst c) a then if existsb (fun i => nat_of (points (Points, i)) =? snd c) (seq 0 n) then v else m c else m c.

Ltac cells := repeat match goal with
  | H : In _ _ |- _ => cbn in H
  | H : _ \/ _ |- _ => destruct H as [H|H]
  | H : False |- _ => destruct H
  | H : (_, _) = (_, _) |- _ => injection H; clear H; intros; subst
  end.
Ltac inside := repeat match goal with
  | |- context [cell_eq_dec ?x ?y] => destruct (cell_eq_dec x y); try congruence
  | |- context [array_eq_dec ?x ?y] => destruct (array_eq_dec x y); try congruence
  | |- context [(?x <=? ?y)] => destruct (Nat.leb_spec x y); try lia
  | |- context [(?x <? ?y)] => destruct (Nat.ltb_spec x y); try lia
  end.
Ltac loop_tac :=
  apply leads_intro;
  [ intros i j c wi wj Li Lj N Ai Aj W; cells; try discriminate; try congruence; try lia
  | intros i c Li Ai; unfold with_array; cells; try discriminate; cbn [leaves fetch copied put fst snd hd nth]; inside; cbn [andb]; inside; rewrite ?Nat.sub_0_r; try reflexivity; try congruence
  | intros [b k] H; unfold with_array; cbn [fst snd]; inside; cbn [andb]; inside; subst; try reflexivity; exfalso ].
Ltac missed := match goal with H : forall i, i < _ -> ~ In (true, (_, ?k)) _ |- False => apply (H k); [lia|cbn; rewrite ?Nat.add_0_r; auto 10] end.
Ltac missed_from f := match goal with H : forall i, i < _ -> ~ In (true, (_, ?k)) _ |- False => apply (H (k - f)); [lia|cbn [accesses put fetch copied In]; replace (f + (k - f)) with k by lia; auto 10] end.

(** [tells l m expected]: [l] has no data race, and whatever the order of its steps it leaves
    [expected]. *)
Definition tells (its : list iteration) (m expected : memory) : Prop :=
  ~ race its m /\ forall order, complete its order -> forall c, mem (run its order m) c = expected c.

Lemma leads_tells n body m e : leads n body m e -> tells (loop n body) m e. Proof. exact (fun H => H). Qed.

(** C101: the loops that fill arrays, for every number of iterations and every contents of
    memory. *)
Theorem C101_array_loops : forall n m,
  (* the labels before the first edge is removed *)
  tells (start_loop n) m (with_array Previous 0 n (fun _ => VI 1) (with_array Current 0 n (fun _ => VI 1) m)) /\
  (* a level of the hierarchy, the labels of the next one, the last level *)
  tells (entry_loop n) m (with_array EntryLabels 0 n (fun i => m (Previous, i)) m) /\
  tells (previous_loop n) m (with_array Previous 0 n (fun i => m (Current, i)) m) /\
  tells (last_loop n) m (with_array EntryLabels 0 n (fun _ => VI 0) m) /\
  (* the spanning tree: nothing attached, no edges, the self edges *)
  tells (attached_loop n) m (with_array Attached 0 (n - 1) (fun _ => VI 0) m) /\
  tells (mst_loop n) m (with_array Distances 0 n (fun _ => VF D_MAX) (with_array Neighbours 0 n (fun _ => VI 0) (with_array Others 0 n (fun _ => VI 0) m))) /\
  tells (self_loop n) m (with_array Neighbours (n - 1) n (fun v => VI (Z.of_nat v)) (with_array Others (n - 1) n (fun v => VI (Z.of_nat v)) (with_array Distances (n - 1) n (fun v => m (Core, v)) m))) /\
  (* the selection, the scores, the ratios, the lists of a graph, the labels for Java *)
  tells (added_loop n) m (with_array Added 0 n (fun _ => VI 0) m) /\
  tells (score_loop n) m (with_array ScoreId 0 n (fun i => VI (Z.of_nat i)) (with_array ScoreCore 0 n (fun i => m (Core, i)) (with_array Scores 0 n (fun i =>
    let death := real_of (m (DeathLevels, nat_of (m (LastClusters, i)))) in let eps := real_of (m (NoiseLevels, i)) in
    VF (if feq eps fzero then fzero else fsub fone (fdiv death eps))) m))) /\
  tells (ratio_loop n) m (with_array Cr 0 n (fun i => VF (fdiv (real_of (m (MaxCr, i))) (real_of (m (MinCr, i))))) (with_array Dr 0 n (fun i => VF (fdiv (real_of (m (MaxDr, i))) (real_of (m (MinDr, i))))) m)) /\
  (forall address, tells (edges_loop n address) m (with_array Edges 0 n (fun i => VI (address i)) m)) /\
  tells (java_loop n) m (with_array JavaLabels 0 n (fun i => m (ClusterLabels, i)) m).
Proof.
  intros n m.
  split. { apply leads_tells. loop_tac; missed. }
  split. { apply leads_tells. loop_tac; missed. }
  split. { apply leads_tells. loop_tac; missed. }
  split. { apply leads_tells. loop_tac; missed. }
  split. { apply leads_tells. loop_tac; missed. }
  split. { apply leads_tells. loop_tac; missed. }
  split. { apply leads_tells. loop_tac; try missed_from (n - 1). all: f_equal; f_equal; lia. }
  split. { apply leads_tells. loop_tac; missed. }
  split. { apply leads_tells. loop_tac; missed. }
  split. { apply leads_tells. loop_tac; missed. }
  split. { intros address. apply leads_tells. loop_tac; missed. }
  apply leads_tells. loop_tac; missed.
Qed.
Print Assumptions C101_array_loops.

(** The loops over the points of a new cluster or of noise: the points are those of a set, so no
    point comes twice. *)
Definition distinct_points (n : nat) (m : memory) : Prop := forall i j, i < n -> j < n -> i <> j -> nat_of (m (Points, i)) <> nat_of (m (Points, j)).
Theorem C101_point_loops : forall n m label level, distinct_points n m ->
  tells (label_loop n label) m (with_points ClusterLabels n (VI label) m m) /\
  tells (noise_loop n level label) m (with_points NoiseLevels n (VF level) m (with_points LastClusters n (VI label) m m)).
Proof.
  intros n m label level HD.
  assert (HIN : forall i, i < n -> existsb (fun k => nat_of (m (Points, k)) =? nat_of (m (Points, i))) (seq 0 n) = true).
  { intros i Hi. apply existsb_exists. exists i. split; [apply in_seq; lia|apply Nat.eqb_refl]. }
  split; apply leads_tells; apply leads_intro.
  - intros i j c wi wj Li Lj N Ai Aj W. specialize (HD i j Li Lj N). cells; try discriminate; try congruence.
  - intros i c Li Ai. unfold with_points. cells; try discriminate. cbn [leaves fetch fst snd hd]. inside. rewrite HIN by exact Li. reflexivity.
  - intros [b k] H. unfold with_points. cbn [fst snd]. inside. destruct (existsb _ (seq 0 n)) eqn:E; [|reflexivity]. exfalso. subst b.
    apply existsb_exists in E. destruct E as (i & Hi & Ei). apply in_seq in Hi. apply Nat.eqb_eq in Ei. apply (H i); [lia|]. cbn. rewrite Ei. auto.
  - intros i j c wi wj Li Lj N Ai Aj W. specialize (HD i j Li Lj N). cells; try discriminate; try congruence.
  - intros i c Li Ai. unfold with_points. cells; try discriminate; cbn [leaves fetch fst snd hd]; inside; rewrite HIN by exact Li; reflexivity.
  - intros [b k] H. unfold with_points. cbn [fst snd]. inside; (destruct (existsb _ (seq 0 n)) eqn:E; [|reflexivity]); exfalso; subst b;
    apply existsb_exists in E; destruct E as (i & Hi & Ei); apply in_seq in Hi; apply Nat.eqb_eq in Ei; (apply (H i); [lia|]); cbn; rewrite Ei; auto.
Qed.
Print Assumptions C101_point_loops.

(** Refuted: "no parallel loop has a data race".  The loop that stores the offsets of new clusters
    has one as soon as there are two of them, and the region that stores skewness and kurtosis
    as soon as there are two threads, whatever memory holds. *)
Theorem C101_races_refuted : forall n m line v, 2 <= n -> race (offset_loop n line) m /\ race (region_loop n v) m.
Proof.
  intros n m line v Hn. split.
  - exists 0, 1, (NewCluster, 0), true, true. unfold offset_loop. rewrite !nth_loop. unfold loop. rewrite map_length, seq_length.
    destruct (Nat.ltb_spec 0 n), (Nat.ltb_spec 1 n); try lia. repeat (split; [lia|]). cbn. auto.
  - exists 0, 1, (Scores, 0), true, true. unfold region_loop. rewrite !nth_loop. unfold loop. rewrite map_length, seq_length.
    destruct (Nat.ltb_spec 0 n), (Nat.ltb_spec 1 n); try lia. repeat (split; [lia|]). cbn. auto.
Qed.
Print Assumptions C101_races_refuted.

Ltac settle := repeat match goal with
  | |- context [cell_eq_dec ?x ?y] => first
      [ destruct (cell_eq_dec x y) as [Q|Q]; [exfalso; congruence|]; clear Q
      | destruct (cell_eq_dec x y) as [Q|Q]; [|elim Q; reflexivity]; clear Q ]
  end.
(** What the first race can do: in the order of the program two new clusters both get the offset,
    but there is an order in which the first of them keeps the offset it had. *)
Theorem C101_lost_offset_refuted : forall m line a b, a <> b ->
  m (NewClusters, 0) = VI (Z.of_nat a) -> m (NewClusters, 1) = VI (Z.of_nat b) ->
  (let m' := mem (run (offset_loop 2 line) (in_order (offset_loop 2 line)) m) in m' (Offsets, a) = VI line /\ m' (Offsets, b) = VI line) /\
  exists order, complete (offset_loop 2 line) order /\
    mem (run (offset_loop 2 line) order m) (Offsets, a) = m (Offsets, a) /\ mem (run (offset_loop 2 line) order m) (Offsets, b) = VI line.
Proof.
  intros m line a b N Ha Hb. split.
  - cbv [run in_order offset_loop loop map seq length nth flat_map repeat app fold_left advance nth_error made loaded mem do_step at_i Nat.eqb fetch copied hd poke fst snd].
    unfold nat_of. settle. rewrite Ha, Hb. cbn [int_of]. rewrite !Nat2Z.id. settle. auto.
  - exists [0; 0; 1; 1; 0; 0; 1; 1]. split; [intros [|[|[|i]]]; reflexivity|].
    cbv [run offset_loop loop map seq nth fold_left advance nth_error made loaded mem do_step at_i Nat.eqb fetch copied hd poke fst snd].
    unfold nat_of. settle. rewrite ?Hb. cbn [int_of]. rewrite ?Nat2Z.id. settle. auto.
Qed.
Print Assumptions C101_lost_offset_refuted.

(** What the second race leaves: if the machine orders the stores in any way at all, the four
    members are stored as by one thread. *)
Theorem C101_region_stores : forall n v m order k, 1 <= n -> complete (region_loop n v) order -> k < 4 ->
  mem (run (region_loop n v) order m) (Scores, k) = VF (v k).
Proof.
  intros n v m order k Hn Hc Hk.
  assert (G : forall order st, (forall i, made st i <= 4) -> (forall i k, k < made st i -> i < n -> mem st (Scores, k) = VF (v k)) ->
    let st' := fold_left (fun st i => advance (region_loop n v) i st) order st in
    (forall i, i < n -> made st i + count_occ Nat.eq_dec order i <= 4 -> made st' i = made st i + count_occ Nat.eq_dec order i) /\
    (forall i k, k < made st' i -> i < n -> mem st' (Scores, k) = VF (v k))).
  { clear order Hc. induction order as [|i order IH]; intros st H4 HV; cbn [fold_left count_occ]; cbn zeta; [split; [lia|exact HV]|].
    assert (A : (forall j, made (advance (region_loop n v) i st) j <= 4) /\ (forall j k, k < made (advance (region_loop n v) i st) j -> j < n -> mem (advance (region_loop n v) i st) (Scores, k) = VF (v k)) /\
                (forall j, j < n -> made st j <= 4 -> made (advance (region_loop n v) i st) j = if j =? i then Nat.min 4 (S (made st i)) else made st j)).
    { unfold advance, region_loop. rewrite nth_loop. specialize (H4 i) as Hi. destruct (Nat.ltb_spec i n) as [L|L].
      2:{ destruct (made st i); cbn [nth_error]; (split; [exact H4|]; split; [exact HV|]; intros j Lj _; destruct (Nat.eqb_spec j i); lia). }
      destruct (Nat.eq_dec (made st i) 4) as [E4|N4].
      { rewrite E4. cbn [nth_error]. split; [exact H4|]. split; [exact HV|]. intros j Lj _. destruct (Nat.eqb_spec j i); subst; lia. }
      assert (E : nth_error [put Scores 0 (VF (v 0)); put Scores 1 (VF (v 1)); put Scores 2 (VF (v 2)); put Scores 3 (VF (v 3))] (made st i) = Some (put Scores (made st i) (VF (v (made st i))))).
      { destruct (made st i) as [|[|[|[|z]]]]; try reflexivity. lia. }
      rewrite E. cbn [do_step put fst snd mem made]. unfold at_i, poke. split; [|split].
      - intros j. destruct (Nat.eqb_spec j i); [lia|apply H4].
      - intros j k' Hj Lj. destruct (cell_eq_dec (Scores, k') (Scores, made st i)) as [Q|Q]; [congruence|].
        assert (k' <> made st i) by congruence. destruct (Nat.eqb_spec j i); [subst j; apply (HV i); lia|apply (HV j); lia].
      - intros j Lj _. destruct (Nat.eqb_spec j i); lia. }
    destruct A as (A1 & A2 & A3). specialize (IH _ A1 A2). cbn zeta in IH. destruct IH as [I1 I2]. split; [|exact I2].
    intros j Lj Hj. pose proof (A3 j Lj (H4 j)) as Ej. destruct (Nat.eq_dec i j) as [->|Nij].
    - rewrite Nat.eqb_refl in Ej. rewrite I1 by lia. lia.
    - destruct (Nat.eqb_spec j i); [congruence|]. rewrite I1 by lia. lia. }
  destruct (G order (mk_state m (fun _ => []) (fun _ => 0))) as [G1 G2]; [cbn; lia|cbn; lia|].
  apply (G2 0); [|lia]. cbn [made] in G1. assert (C0 : count_occ Nat.eq_dec order 0 = 4).
  { rewrite (Hc 0). unfold region_loop. rewrite nth_loop. destruct (Nat.ltb_spec 0 n); [reflexivity|lia]. }
  rewrite (G1 0) by lia. lia.
Qed.
Print Assumptions C101_region_stores.

(** One order of two iterations that is not the order of the program, on memory whose points are
    distinct. *)
Example C101_example :
  let m := fun c : cell => VI (Z.of_nat (7 - snd c)) in
  distinct_points 2 m /\ complete (noise_loop 2 fone 5) [1; 0; 1; 0; 0; 1] /\
  mem (run (noise_loop 2 fone 5) [1; 0; 1; 0; 0; 1] m) (LastClusters, 6) = VI 5 /\ mem (run (noise_loop 2 fone 5) [1; 0; 1; 0; 0; 1] m) (LastClusters, 5) = VI 2.
Proof.
  cbn zeta. split.
  { intros i j Hi Hj N. unfold nat_of. cbn [int_of snd]. lia. }
  split. { intros [|[|[|i]]]; reflexivity. }
  split; vm_compute; reflexivity.
Qed.
(** Two new clusters at different places. *)
Example C101_lost_example : let m := fun c : cell => VI (Z.of_nat (7 - snd c)) in
  m (NewClusters, 0) = VI (Z.of_nat 7) /\ m (NewClusters, 1) = VI (Z.of_nat 6) /\ complete (region_loop 2 (fun _ => fone)) [1; 0; 1; 0; 0; 1; 1; 0].
Proof. cbn zeta. split; [reflexivity|]. split; [reflexivity|]. intros [|[|[|i]]]; reflexivity. Qed.
