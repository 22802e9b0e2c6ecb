(** C100: skewness and kurtosis computed by a team of threads. *)
From Flocq Require Import IEEE754.BinarySingleNaN.
From Verif Require Import Base ListFacts F64 F64Facts ModelArrayList ModelHash ModelMap ModelParStats SpecStats ProofStats PropStats.
From Coq Require Import ZifyBool ZifyNat.
Local Open Scope nat_scope.

(** Two structs that differ at most in the skewnesses and kurtoses. *)
Record same_but_shape (a b : cstats) : Prop := mk_same_shape {
  sb_count : st_count a = st_count b;
  sb_core : sv_mean (st_core a) = sv_mean (st_core b) /\ sv_sd (st_core a) = sv_sd (st_core b) /\ sv_var (st_core a) = sv_var (st_core b) /\ sv_max (st_core a) = sv_max (st_core b);
  sb_intra : sv_mean (st_intra a) = sv_mean (st_intra b) /\ sv_sd (st_intra a) = sv_sd (st_intra b) /\ sv_var (st_intra a) = sv_var (st_intra b) /\ sv_max (st_intra a) = sv_max (st_intra b) }.

Definition field_eqb (f g : field) : bool := match f, g with CoreSkew, CoreSkew | IntraSkew, IntraSkew | CoreKurt, CoreKurt | IntraKurt, IntraKurt => true | _, _ => false end.
Lemma field_eqb_spec f g : Bool.reflect (f = g) (field_eqb f g).
Proof. destruct f, g; constructor; congruence. Qed.
Lemma same_refl a : same_but_shape a a. Proof. repeat split. Qed.
Lemma same_set a b f x : same_but_shape a b -> same_but_shape a (set b f x).
Proof. intros [H1 H2 H3]. destruct f; constructor; cbn; auto. Qed.
Lemma same_step a s r st : same_but_shape a s -> same_but_shape a (fst (do_step s r st)).
Proof. intros H. destruct st; cbn [do_step fst]; auto using same_set. Qed.
Lemma get_set s f g x : get (set s f x) g = if field_eqb f g then x else get s g.
Proof. destruct f, g; reflexivity. Qed.
Lemma same_eq a b : same_but_shape a b -> (forall f, get a f = get b f) -> a = b.
Proof.
  intros [H1 H2 H3] H. destruct a as [ca [] []], b as [cb [] []]. pose proof (H CoreSkew) as A. pose proof (H IntraSkew) as B. pose proof (H CoreKurt) as C. pose proof (H IntraKurt) as D.
  cbn in *. destruct H2 as (? & ? & ? & ?), H3 as (? & ? & ? & ?). congruence.
Qed.

(** An invariant of all the steps holds at the end of every execution. *)
Lemma executes_inv (P : cstats -> list thread -> Prop) :
  (forall s a r st p b, P s (a ++ (r, st :: p) :: b) -> P (fst (do_step s r st)) (a ++ (snd (do_step s r st), p) :: b)) ->
  forall s ts s', executes s ts s' -> P s ts -> exists ts', length ts' = length ts /\ Forall (fun t => snd t = []) ts' /\ P s' ts'.
Proof.
  intros HP s ts s' H. induction H as [s ts Hf|s a r st p b s' H IH]; intros Hs; [exists ts; auto|].
  destruct (IH (HP _ _ _ _ _ _ Hs)) as (ts' & L & F & Q). exists ts'. split; [|auto]. rewrite L, !app_length. reflexivity.
Qed.

(** A member that is only ever given one value. *)
Definition writes (f : field) (st : step) : bool := match st with Compute g _ | Less g _ => field_eqb g f | Read _ => false end.
Definition gives (s0 : cstats) (f : field) (v : f64) (st : step) : Prop :=
  writes f st = true -> exists e, st = Compute f e /\ forall s, same_but_shape s0 s -> e s = v.
Lemma one_value n body s0 s' f v : n <> 0 -> Forall (gives s0 f v) body -> existsb (writes f) body = true -> parallel n body s0 s' -> get s' f = v /\ same_but_shape s0 s'.
Proof.
  intros Hn Hb Hw (r0 & Hl & H).
  set (P := fun s (ts : list thread) => same_but_shape s0 s /\ Forall (fun t => Forall (gives s0 f v) (snd t)) ts /\ (get s f = v \/ Forall (fun t => existsb (writes f) (snd t) = true) ts)).
  assert (HP : forall s a r st p b, P s (a ++ (r, st :: p) :: b) -> P (fst (do_step s r st)) (a ++ (snd (do_step s r st), p) :: b)).
  { intros s a r st p b (HS & HG & HV). split; [apply same_step, HS|]. apply Forall_app in HG. destruct HG as [Ga Gb]. inversion Gb as [|? ? Gt Gb' E1]; subst. cbn [snd] in Gt. inversion Gt as [|? ? G1 Gp E2]; subst.
    split; [apply Forall_app; split; [exact Ga|constructor; [exact Gp|exact Gb']]|].
    destruct (writes f st) eqn:W.
    + left. destruct (G1 W) as (e & -> & He). cbn [do_step fst]. rewrite get_set. destruct (field_eqb_spec f f); [|congruence]. apply He, HS.
    + destruct HV as [E|K].
      * left. rewrite <- E. destruct st as [g e|g|g e]; cbn [do_step fst writes] in *; rewrite ?get_set; [rewrite W|reflexivity|rewrite W]; reflexivity.
      * right. apply Forall_app in K. destruct K as [Ka Kb]. inversion Kb as [|? ? K1 Kb' E3]; subst. cbn [snd existsb] in K1. rewrite W in K1. apply Forall_app. split; [exact Ka|]. constructor; [exact K1|exact Kb']. }
  destruct (executes_inv P HP _ _ _ H) as (ts' & L & F & S' & _ & [E|K]).
  - split; [apply same_refl|]. split; [|right]; apply Forall_forall; intros t Ht; apply in_map_iff in Ht; destruct Ht as (r & <- & _); assumption.
  - auto.
  - exfalso. rewrite map_length in L. destruct ts' as [|t ts']; [cbn in L; lia|]. inversion F as [|? ? F1]; subst. inversion K as [|? ? K1]; subst. rewrite F1 in K1. discriminate K1.
Qed.

Section One.
Variable pow : f64 -> f64 -> f64.
Variables a b c d : f64.
Lemma body_1_values s0 f : exists v, Forall (gives s0 f v) (body_1 pow a b c d) /\ existsb (writes f) (body_1 pow a b c d) = true /\
  v = match f with
      | CoreSkew => fdiv a (fmul (f_of_Z (st_count s0)) (pow (sv_sd (st_core s0)) (f_of_Z 3)))
      | IntraSkew => fdiv b (fmul (f_of_Z (st_count s0)) (pow (sv_sd (st_intra s0)) (f_of_Z 3)))
      | CoreKurt => fsub (fdiv c (fmul (f_of_Z (st_count s0)) (pow (sv_sd (st_core s0)) (f_of_Z 4)))) (f_of_Z 3)
      | IntraKurt => fsub (fdiv d (fmul (f_of_Z (st_count s0)) (pow (sv_sd (st_intra s0)) (f_of_Z 4)))) (f_of_Z 3)
      end.
Proof.
  eexists. split; [|split; [|reflexivity]]; [|destruct f; reflexivity].
  unfold body_1. repeat (apply Forall_cons; [intros W; destruct f; try discriminate W; (eexists; split; [reflexivity|]); intros s [H1 (_ & H2 & _) (_ & H3 & _)]; unfold core_sd, intra_sd; rewrite <- ?H1, <- ?H2, <- ?H3; reflexivity|]). apply Forall_nil.
Qed.
End One.

(** C100: whatever the number of threads and however their steps interleave, the parallel region
    at the end of hdbscan_calculate_stats gives the struct the statistics of C44. *)
Theorem C100_statistics_do_not_depend_on_threads : forall pow t kv s t' s' threads before after,
  table t kv -> kv <> [] -> (Z.of_nat (length kv) < M32)%Z -> calculate_stats pow t s = Ok (t', s') ->
  threads <> 0 -> same_but_shape s' before ->
  skew_kurt_1 pow (moment pow 3 (map (fun x => core_ratio (snd x)) kv)) (moment pow 3 (map (fun x => intra_ratio (snd x)) kv))
              (moment pow 4 (map (fun x => core_ratio (snd x)) kv)) (moment pow 4 (map (fun x => intra_ratio (snd x)) kv)) threads before after ->
  after = s'.
Proof.
  intros pow t kv s t' s' n b0 s1 HT Hne HM E Hn HB HE.
  destruct (C44_statistics pow t kv s HT Hne HM) as (t1 & r & E1 & Hc & [_ _ _ Dc Sc Kc] & [_ _ _ Di Si Ki]).
  rewrite E in E1. injection E1 as <- <-. symmetry. unfold skew_kurt_1 in HE.
  set (ma := moment pow 3 (map (fun x => core_ratio (snd x)) kv)) in *. set (mb := moment pow 3 (map (fun x => intra_ratio (snd x)) kv)) in *.
  set (mc := moment pow 4 (map (fun x => core_ratio (snd x)) kv)) in *. set (md := moment pow 4 (map (fun x => intra_ratio (snd x)) kv)) in *. apply same_eq.
  - destruct (body_1_values pow ma mb mc md b0 CoreSkew) as (v & Hb & Hw & _). destruct (one_value n _ b0 s1 CoreSkew v Hn Hb Hw HE) as [_ [A B C]].
    destruct HB as [A' (B1 & B2 & B3 & B4) (C1 & C2 & C3 & C4)], B as (?&?&?&?), C as (?&?&?&?). repeat split; congruence.
  - intros f. destruct (body_1_values pow ma mb mc md b0 f) as (v & Hb & Hw & Ev). destruct (one_value n _ b0 s1 f v Hn Hb Hw HE) as [-> _]. rewrite Ev.
    destruct HB as [A' (B1 & B2 & B3 & B4) (C1 & C2 & C3 & C4)].
    destruct f; cbn [get]; rewrite ?Sc, ?Kc, ?Si, ?Ki; unfold skewness_of, kurtosis_of, count_of; rewrite map_length, <- A', <- ?B2, <- ?C2, Hc, ?Dc, ?Di; reflexivity.
Qed.
Print Assumptions C100_statistics_do_not_depend_on_threads.

(** The specification of what the second function can give: the quotient of the kurtosis less
    the correction, taken away [j] times. *)
Fixpoint less_times (a t : f64) (j : nat) : f64 := match j with O => a | S j => fsub (less_times a t j) t end.

Section Two.
Variable pow : f64 -> f64 -> f64.
Variables a b c d : f64.
Variable s0 : cstats.
Hypothesis H3 : (3 <= st_count s0)%Z.
Notation body := (body_2 pow a b c d (st_count s0)).
Notation N := (st_count s0).
Definition first (f : field) : f64 :=
  match f with
  | CoreSkew => fmul (tmp1 N) (fdiv a (pow (sv_sd (st_core s0)) (f_of_Z 3)))
  | IntraSkew => fmul (tmp1 N) (fdiv b (pow (sv_sd (st_intra s0)) (f_of_Z 3)))
  | CoreKurt => fmul (tmp2 N) (fdiv c (pow (sv_sd (st_core s0)) (f_of_Z 4)))
  | IntraKurt => fmul (tmp2 N) (fdiv d (pow (sv_sd (st_intra s0)) (f_of_Z 4)))
  end.
Definition down (f : field) (j : nat) : f64 := less_times (first f) (tmp3 N) j.

Definition e_cs (s : cstats) := fmul (tmp1 (st_count s)) (fdiv a (core_sd pow s 3)).
Definition e_is (s : cstats) := fmul (tmp1 (st_count s)) (fdiv b (intra_sd pow s 3)).
Definition e_ck (s : cstats) := fmul (tmp2 (st_count s)) (fdiv c (core_sd pow s 4)).
Definition e_ik (s : cstats) := fmul (tmp2 (st_count s)) (fdiv d (intra_sd pow s 4)).
Definition e_t (s : cstats) := tmp3 (st_count s).
Lemma body_is : body = [Compute CoreSkew e_cs; Compute IntraSkew e_is; Compute CoreKurt e_ck; Compute IntraKurt e_ik;
  Read CoreKurt; Less CoreKurt e_t; Read IntraKurt; Less IntraKurt e_t].
Proof. unfold body_2. destruct (Z.leb_spec 2 N), (Z.leb_spec 3 N); try lia. reflexivity. Qed.
Lemma e_values s : same_but_shape s0 s -> e_cs s = first CoreSkew /\ e_is s = first IntraSkew /\ e_ck s = first CoreKurt /\ e_ik s = first IntraKurt /\ e_t s = tmp3 N.
Proof.
  intros [A (_ & B & _) (_ & C & _)]. unfold e_cs, e_is, e_ck, e_ik, e_t, core_sd, intra_sd. rewrite <- A, <- B, <- C. repeat split.
Qed.

(** The stages of a thread that has made [k] steps, for one of the kurtoses. *)
Inductive stage := Pending | Begun | Loaded | Done.
Definition stage_of (f : field) (k : nat) : stage :=
  match f with
  | CoreKurt => if k <=? 2 then Pending else if k <=? 4 then Begun else if k =? 5 then Loaded else Done
  | _ => if k <=? 3 then Pending else if k <=? 6 then Begun else if k =? 7 then Loaded else Done
  end.
Definition is_done (f : field) (t : f64 * nat) : bool := match stage_of f (snd t) with Done => true | _ => false end.
Definition ndone f ts := length (filter (is_done f) ts).
Definition at_k (t : f64 * nat) : thread := (fst t, skipn (snd t) body).
Definition inv (f : field) (s : cstats) (ks : list (f64 * nat)) : Prop :=
  Forall (fun t => stage_of f (snd t) = Pending) ks \/
  exists j, get s f = down f j /\ j <= ndone f ks /\ (1 <= j \/ Exists (fun t => stage_of f (snd t) <> Done) ks) /\
    Forall (fun t => stage_of f (snd t) = Loaded -> exists i, fst t = down f i /\ i <= ndone f ks) ks.

Lemma ndone_mid f x y t t' : ndone f (x ++ t' :: y) + (if is_done f t then 1 else 0) = ndone f (x ++ t :: y) + (if is_done f t' then 1 else 0).
Proof. unfold ndone. rewrite !filter_app, !app_length. cbn [filter]. destruct (is_done f t), (is_done f t'); cbn [length]; lia. Qed.

Definition kurt (f : field) : Prop := f = CoreKurt \/ f = IntraKurt.

(** What the step number [k] does to the kurtosis [f]. *)
Lemma step_cases f k r s st p : kurt f -> same_but_shape s0 s -> skipn k body = st :: p ->
  skipn (S k) body = p /\
  ((stage_of f (S k) = stage_of f k /\ stage_of f k <> Loaded /\ get (fst (do_step s r st)) f = get s f) \/
   (stage_of f k = Pending /\ stage_of f (S k) = Begun /\ get (fst (do_step s r st)) f = down f 0) \/
   (stage_of f k = Begun /\ stage_of f (S k) = Loaded /\ get (fst (do_step s r st)) f = get s f /\ snd (do_step s r st) = get s f) \/
   (stage_of f k = Loaded /\ stage_of f (S k) = Done /\ get (fst (do_step s r st)) f = fsub r (tmp3 N))).
Proof.
  intros Hf HS. rewrite body_is. destruct (e_values s HS) as (_ & _ & E3 & E4 & E5).
  do 8 (destruct k as [|k]; [cbn [skipn]; intros Hk; injection Hk as <- <-; (split; [reflexivity|]); destruct Hf as [-> | ->]; cbn [stage_of Nat.leb Nat.eqb do_step fst snd]; rewrite ?get_set; cbn [field_eqb]; rewrite ?E3, ?E4, ?E5; unfold down; cbn [less_times];
    first [left; split; [reflexivity|split; [discriminate|reflexivity]]|right; left; auto; fail|right; right; left; auto; fail|right; right; right; auto; fail]|]).
  cbn [skipn]. rewrite skipn_nil. discriminate.
Qed.

Lemma inv_step f s x r k y st p : kurt f -> same_but_shape s0 s -> skipn k body = st :: p -> inv f s (x ++ (r, k) :: y) -> inv f (fst (do_step s r st)) (x ++ (snd (do_step s r st), S k) :: y).
Proof.
  intros Hf HS Hk HI. destruct (step_cases f k r s st p Hf HS Hk) as [_ HC]. set (r' := snd (do_step s r st)). pose proof (ndone_mid f x y (r, k) (r', S k)) as HN.
  destruct HC as [(A & B & C)|[(A & B & C)|[(A & B & C & D)|(A & B & C)]]].
  - (* the stage does not change *)
    assert (E : is_done f (r, k) = is_done f (r', S k)) by (unfold is_done; cbn [snd]; rewrite A; reflexivity). rewrite E in HN.
    assert (HN' : ndone f (x ++ (r', S k) :: y) = ndone f (x ++ (r, k) :: y)) by lia. clear HN.
    destruct HI as [HI|(j & G & J1 & J2 & J3)].
    + left. apply Forall_app in HI. destruct HI as [Ix Iy]. inversion Iy; subst. cbn [snd] in *. apply Forall_app. split; [assumption|]. constructor; [cbn [snd]; congruence|assumption].
    + right. exists j. rewrite C. split; [exact G|]. rewrite HN'. split; [exact J1|]. split.
      * destruct J2 as [J2|J2]; [left; exact J2|right]. apply Exists_app in J2. apply Exists_app. destruct J2 as [J2|J2]; [left; exact J2|right].
        inversion J2; subst; [left; cbn [snd] in *; congruence|right; assumption].
      * apply Forall_app in J3. destruct J3 as [Ix Iy]. inversion Iy; subst. apply Forall_app. split; [assumption|]. constructor; [cbn [snd fst] in *; intros L; congruence|assumption].
  - (* the first store *)
    right. exists 0. split; [exact C|]. split; [lia|]. split; [right; apply Exists_app; right; left; cbn [snd]; congruence|].
    assert (E : is_done f (r, k) = false) by (unfold is_done; cbn [snd]; rewrite A; reflexivity). assert (E' : is_done f (r', S k) = false) by (unfold is_done; cbn [snd]; rewrite B; reflexivity). rewrite E, E' in HN.
    assert (HN' : ndone f (x ++ (r', S k) :: y) = ndone f (x ++ (r, k) :: y)) by lia. rewrite HN'.
    destruct HI as [HI|(j & G & J1 & J2 & J3)].
    + apply Forall_app in HI. destruct HI as [Ix Iy]. inversion Iy; subst. apply Forall_app. split; [|constructor].
      * eapply Forall_impl; [|exact Ix]. intros t Ht L. congruence.
      * cbn [snd]. intros L. congruence.
      * eapply Forall_impl; [|eassumption]. intros t Ht L. cbv beta in *. congruence.
    + apply Forall_app in J3. destruct J3 as [Ix Iy]. inversion Iy; subst. apply Forall_app. split; [assumption|]. constructor; [cbn [snd fst] in *; intros L; congruence|assumption].
  - (* the load *)
    assert (E : is_done f (r, k) = false) by (unfold is_done; cbn [snd]; rewrite A; reflexivity). assert (E' : is_done f (r', S k) = false) by (unfold is_done; cbn [snd]; rewrite B; reflexivity). rewrite E, E' in HN.
    assert (HN' : ndone f (x ++ (r', S k) :: y) = ndone f (x ++ (r, k) :: y)) by lia.
    destruct HI as [HI|(j & G & J1 & J2 & J3)].
    + apply Forall_app in HI. destruct HI as [Ix Iy]. inversion Iy; subst. cbn [snd] in *. congruence.
    + right. exists j. rewrite C, HN'. split; [exact G|]. split; [exact J1|]. split; [right; apply Exists_app; right; left; cbn [snd]; congruence|].
      apply Forall_app in J3. destruct J3 as [Ix Iy]. inversion Iy; subst. apply Forall_app. split; [assumption|]. constructor; [|assumption].
      intros _. exists j. cbn [fst]. unfold r'. rewrite D. auto.
  - (* the last store *)
    assert (E : is_done f (r, k) = false) by (unfold is_done; cbn [snd]; rewrite A; reflexivity). assert (E' : is_done f (r', S k) = true) by (unfold is_done; cbn [snd]; rewrite B; reflexivity). rewrite E, E' in HN.
    assert (HN' : ndone f (x ++ (r', S k) :: y) = S (ndone f (x ++ (r, k) :: y))) by lia.
    destruct HI as [HI|(j & G & J1 & J2 & J3)].
    + apply Forall_app in HI. destruct HI as [Ix Iy]. inversion Iy; subst. cbn [snd] in *. congruence.
    + right. apply Forall_app in J3. destruct J3 as [Ix Iy]. inversion Iy as [|? ? I1 Iy' Et]; subst. destruct (I1 A) as (i & Hi & Li). cbn [fst] in Hi.
      exists (S i). rewrite C, HN'. split; [rewrite Hi; reflexivity|]. split; [lia|]. split; [left; lia|].
      apply Forall_app. split; [|constructor].
      * eapply Forall_impl; [|exact Ix]. intros t Ht L. destruct (Ht L) as (q & ? & ?). exists q. split; [assumption|lia].
      * cbn [snd]. intros L. congruence.
      * eapply Forall_impl; [|exact Iy']. intros t Ht L. destruct (Ht L) as (q & ? & ?). exists q. split; [assumption|lia].
Qed.

Lemma filter_le {A} (g : A -> bool) l : length (filter g l) <= length l.
Proof. induction l as [|x l IH]; cbn; [lia|]. destruct (g x); cbn; lia. Qed.
Lemma map_split {A B} (g : A -> B) l x z y : map g l = x ++ z :: y -> exists lx t ly, l = lx ++ t :: ly /\ map g lx = x /\ g t = z /\ map g ly = y.
Proof.
  revert x. induction l as [|h l IH]; intros [|q x] E; cbn in E; try discriminate; injection E as E1 E2.
  - exists [], h, l. auto.
  - destruct (IH x E2) as (lx & t & ly & -> & <- & <- & <-). exists (h :: lx), t, ly. cbn. rewrite E1. auto.
Qed.

Lemma two_runs n s' f : n <> 0 -> kurt f -> skew_kurt_2 pow a b c d n s0 s' -> exists j, 1 <= j <= n /\ get s' f = down f j.
Proof.
  intros Hn Hf (r0 & Hl & H).
  set (P := fun s (ts : list thread) => same_but_shape s0 s /\ exists ks, ts = map at_k ks /\ inv f s ks).
  assert (HP : forall s x r st p y, P s (x ++ (r, st :: p) :: y) -> P (fst (do_step s r st)) (x ++ (snd (do_step s r st), p) :: y)).
  { intros s x r st p y (HS & ks & E & HI). split; [apply same_step, HS|]. symmetry in E. apply map_split in E. destruct E as (lx & [r1 k] & ly & -> & <- & Et & <-).
    unfold at_k in Et. cbn [fst snd] in Et. injection Et as -> Ek. exists (lx ++ (snd (do_step s r st), S k) :: ly). split; [|eapply inv_step; eassumption].
    rewrite map_app. cbn [map]. unfold at_k at 4. cbn [fst snd]. rewrite (proj1 (step_cases f k r s st p Hf HS Ek)). reflexivity. }
  destruct (executes_inv P HP _ _ _ H) as (ts' & L & F & _ & ks & E & HI).
  { split; [apply same_refl|]. exists (map (fun r => (r, 0)) r0). rewrite map_map. split; [reflexivity|]. left. rewrite Forall_map. apply Forall_forall. intros r _. cbn [snd]. destruct Hf as [-> | ->]; reflexivity. }
  rewrite map_length, Hl in L. subst ts'. rewrite map_length in L. rewrite Forall_map in F.
  assert (HD : Forall (fun t => stage_of f (snd t) = Done) ks).
  { eapply Forall_impl; [|exact F]. intros [r k]. unfold at_k. cbn [fst snd]. rewrite body_is. do 8 (destruct k as [|k]; [discriminate|]). intros _. destruct Hf as [-> | ->]; reflexivity. }
  destruct HI as [HI|(j & G & J1 & J2 & _)].
  - destruct ks as [|t ks]; [cbn in L; lia|]. inversion HD; inversion HI; congruence.
  - exists j. split; [|exact G]. split.
    + destruct J2 as [J2|J2]; [exact J2|]. apply Exists_exists in J2. destruct J2 as (t & Ht & Hd). rewrite Forall_forall in HD. elim Hd. apply HD, Ht.
    + rewrite <- L. unfold ndone in J1. pose proof (filter_le (is_done f) ks). lia.
Qed.

(** Executions: a thread that makes several steps in a row. *)
Fixpoint alone (s : cstats) (r : f64) (p : list step) : cstats * f64 := match p with [] => (s, r) | st :: p => alone (fst (do_step s r st)) (snd (do_step s r st)) p end.
Lemma run_alone p : forall s r x q y s', executes (fst (alone s r p)) (x ++ (snd (alone s r p), q) :: y) s' -> executes s (x ++ (r, p ++ q) :: y) s'.
Proof. induction p as [|st p IH]; intros s r x q y s' H; cbn [app alone] in *; [exact H|]. apply turn. apply IH, H. Qed.
Lemma same_alone s : forall p s1 r, same_but_shape s s1 -> same_but_shape s (fst (alone s1 r p)).
Proof. intros p. induction p as [|st p IH]; intros s1 r H; cbn [alone]; [exact H|]. apply IH, same_step, H. Qed.
Definition part1 := [Compute CoreSkew e_cs; Compute IntraSkew e_is; Compute CoreKurt e_ck; Compute IntraKurt e_ik].
Definition part2 := [Read CoreKurt; Less CoreKurt e_t; Read IntraKurt; Less IntraKurt e_t].
Definition both (s : cstats) (j : nat) := get s CoreKurt = down CoreKurt j /\ get s IntraKurt = down IntraKurt j.
Lemma part1_both s r : same_but_shape s0 s -> both (fst (alone s r part1)) 0.
Proof.
  intros H. unfold part1. cbn [alone do_step fst snd]. set (s1 := set s CoreSkew (e_cs s)). set (s2 := set s1 IntraSkew (e_is s1)). set (s3 := set s2 CoreKurt (e_ck s2)).
  assert (A1 : same_but_shape s0 s1) by (apply same_set, H). assert (A2 : same_but_shape s0 s2) by (apply same_set, A1). assert (A3 : same_but_shape s0 s3) by (apply same_set, A2).
  split; rewrite !get_set; cbn [field_eqb].
  - unfold s3. rewrite get_set. cbn [field_eqb]. apply e_values, A2.
  - apply e_values, A3.
Qed.
Lemma part2_both s r j : same_but_shape s0 s -> both s j -> both (fst (alone s r part2)) (S j).
Proof.
  intros H [B1 B2]. unfold part2. cbn [alone do_step fst snd]. set (s1 := set s CoreKurt _). assert (A1 : same_but_shape s0 s1) by (apply same_set, H).
  destruct (e_values s H) as (_ & _ & _ & _ & E). destruct (e_values s1 A1) as (_ & _ & _ & _ & E1). rewrite E1. split; rewrite get_set; cbn [field_eqb].
  - unfold s1. rewrite get_set. cbn [field_eqb]. rewrite E, B1. reflexivity.
  - unfold s1. rewrite get_set. cbn [field_eqb]. rewrite B2. reflexivity.
Qed.
(** Threads that run to their end, threads that make their first four steps and threads that
    make their last four, one after the other. *)
Lemma body_parts : body = part1 ++ part2. Proof. exact body_is. Qed.
Lemma run_whole rs : forall s x y, same_but_shape s0 s -> exists s1 xs, same_but_shape s0 s1 /\ Forall (fun t : thread => snd t = []) xs /\
  forall s', executes s1 (x ++ xs ++ y) s' -> executes s (x ++ map (fun r => (r, body)) rs ++ y) s'.
Proof.
  induction rs as [|r rs IH]; intros s x y H; [exists s, []; auto|]. set (q := alone s r body).
  destruct (IH (fst q) (x ++ [(snd q, [])]) y) as (s1 & xs & A & B & C); [apply same_alone, H|].
  exists s1, ((snd q, []) :: xs). split; [exact A|]. split; [constructor; [reflexivity|exact B]|]. intros s' E. cbn [map app] in *.
  rewrite <- (app_nil_r body) at 1. apply run_alone. fold q. specialize (C s'). rewrite <- !app_assoc in C. apply C. exact E.
Qed.
Lemma run_start rs : forall s x, same_but_shape s0 s -> exists s1 rs1, same_but_shape s0 s1 /\ length rs1 = length rs /\ (rs <> [] -> both s1 0) /\
  forall s', executes s1 (x ++ map (fun r => (r, part2)) rs1) s' -> executes s (x ++ map (fun r => (r, body)) rs) s'.
Proof.
  induction rs as [|r rs IH]; intros s x H; [exists s, []; split; [exact H|]; split; [reflexivity|]; split; [intros E; elim E; reflexivity|auto]|]. set (q := alone s r part1).
  assert (Hq : same_but_shape s0 (fst q)) by (apply same_alone, H).
  destruct (IH (fst q) (x ++ [(snd q, part2)]) Hq) as (s1 & rs1 & A & B & C & D).
  destruct rs as [|r' rs].
  - exists (fst q), [snd q]. split; [exact Hq|]. split; [reflexivity|]. split; [intros _; apply part1_both, H|]. intros s' E. cbn [map] in *. rewrite body_parts. apply run_alone. exact E.
  - exists s1, (snd q :: rs1). split; [exact A|]. split; [cbn [length] in *; congruence|]. split; [intros _; apply C; discriminate|].
    intros s' E. cbn [map] in *. rewrite body_parts at 1. apply run_alone. fold q. specialize (D s'). rewrite <- !app_assoc in D. apply D. exact E.
Qed.
Lemma run_end rs : forall s x j, same_but_shape s0 s -> both s j -> Forall (fun t : thread => snd t = []) x ->
  exists s', both s' (length rs + j) /\ executes s (x ++ map (fun r => (r, part2)) rs) s'.
Proof.
  induction rs as [|r rs IH]; intros s x j H HB Hx.
  - exists s. split; [exact HB|]. cbn [map]. rewrite app_nil_r. apply finished, Hx.
  - set (q := alone s r part2). destruct (IH (fst q) (x ++ [(snd q, [])]) (S j)) as (s' & B & E); [apply same_alone, H|apply part2_both; assumption|apply Forall_app; split; [exact Hx|repeat constructor]|].
    exists s'. split; [cbn [length]; replace (S (length rs) + j) with (length rs + S j) by lia; exact B|]. cbn [map]. rewrite <- (app_nil_r part2) at 1. apply run_alone. fold q.
    rewrite <- app_assoc in E. exact E.
Qed.
Lemma two_reach n j : 1 <= j <= n -> exists s', skew_kurt_2 pow a b c d n s0 s' /\ both s' j.
Proof.
  intros Hj. destruct (run_whole (repeat fzero (n - j)) s0 [] (map (fun r => (r, body)) (repeat fzero j)) (same_refl _)) as (s1 & xs & A & Hx & C).
  destruct (run_start (repeat fzero j) s1 xs A) as (s2 & rs2 & A2 & L2 & B2 & C2). rewrite repeat_length in L2.
  destruct (run_end rs2 s2 xs 0 A2) as (s' & B & E); [apply B2; destruct j; [lia|discriminate]|exact Hx|].
  exists s'. rewrite L2, Nat.add_0_r in B. split; [|exact B]. exists (repeat fzero (n - j) ++ repeat fzero j). split; [rewrite app_length, !repeat_length; lia|].
  rewrite map_app. apply (C s'). apply C2. exact E.
Qed.
End Two.

(** hdbscan_skew_kurt_2 on three values or more: the skewnesses do not depend on the threads; the
    kurtoses are less the correction once for one thread, and with [n] threads any number of
    times from 1 to [n], each of which does happen. *)
Theorem C100_excel_formulas_and_threads : forall pow a b c d s threads, (3 <= st_count s)%Z -> threads <> 0 ->
  (forall s', skew_kurt_2 pow a b c d threads s s' ->
     same_but_shape s s' /\
     sv_skew (st_core s') = fmul (tmp1 (st_count s)) (fdiv a (pow (sv_sd (st_core s)) (f_of_Z 3))) /\
     sv_skew (st_intra s') = fmul (tmp1 (st_count s)) (fdiv b (pow (sv_sd (st_intra s)) (f_of_Z 3))) /\
     (exists j, 1 <= j <= threads /\ sv_kurt (st_core s') = less_times (fmul (tmp2 (st_count s)) (fdiv c (pow (sv_sd (st_core s)) (f_of_Z 4)))) (tmp3 (st_count s)) j) /\
     (exists j, 1 <= j <= threads /\ sv_kurt (st_intra s') = less_times (fmul (tmp2 (st_count s)) (fdiv d (pow (sv_sd (st_intra s)) (f_of_Z 4)))) (tmp3 (st_count s)) j)) /\
  (forall j, 1 <= j <= threads -> exists s', skew_kurt_2 pow a b c d threads s s' /\
     sv_kurt (st_core s') = less_times (fmul (tmp2 (st_count s)) (fdiv c (pow (sv_sd (st_core s)) (f_of_Z 4)))) (tmp3 (st_count s)) j /\
     sv_kurt (st_intra s') = less_times (fmul (tmp2 (st_count s)) (fdiv d (pow (sv_sd (st_intra s)) (f_of_Z 4)))) (tmp3 (st_count s)) j).
Proof.
  intros pow a b c d s n H3 Hn. split.
  - intros s' H. assert (HG : forall f, f = CoreSkew \/ f = IntraSkew -> get s' f = first pow a b c d s f /\ same_but_shape s s').
    { intros f Hf. apply (one_value n _ s s' f (first pow a b c d s f) Hn) in H; [exact H| |]; rewrite (body_is pow a b c d s H3); [|destruct Hf as [-> | ->]; reflexivity].
      repeat (apply Forall_cons; [intros W; destruct Hf as [-> | ->]; try discriminate W; (eexists; split; [reflexivity|]; intros q Hq; apply e_values, Hq)|]). apply Forall_nil. }
    destruct (HG CoreSkew (or_introl eq_refl)) as [E1 HS]. destruct (HG IntraSkew (or_intror eq_refl)) as [E2 _]. split; [exact HS|]. split; [exact E1|]. split; [exact E2|].
    split; [apply (two_runs pow a b c d s H3 n s' CoreKurt Hn (or_introl eq_refl) H)|apply (two_runs pow a b c d s H3 n s' IntraKurt Hn (or_intror eq_refl) H)].
  - intros j Hj. destruct (two_reach pow a b c d s H3 n j Hj) as (s' & H & B). exists s'. split; [exact H|exact B].
Qed.
Print Assumptions C100_excel_formulas_and_threads.

(** Refuted: "the kurtosis does not depend on the threads".  Two threads, four values: -3.5 or
    -17, whatever the library's pow makes of anything but 1. *)
Theorem C100_kurtosis_depends_on_threads_refuted : forall pow, (forall y, pow fone y = fone) ->
  exists s s1 s2 a, st_count s = 4%Z /\ skew_kurt_2 pow a a a a 2 s s1 /\ skew_kurt_2 pow a a a a 2 s s2 /\
    feq (sv_kurt (st_core s1)) (fdiv (f_of_Z (-7)) (f_of_Z 2)) = true /\ feq (sv_kurt (st_core s2)) (f_of_Z (-17)) = true.
Proof.
  intros pow Hp. set (v := mk_svals fzero fone fone fone fzero fzero). set (s := mk_cstats 4 v v).
  destruct (C100_excel_formulas_and_threads pow (f_of_Z 3) (f_of_Z 3) (f_of_Z 3) (f_of_Z 3) s 2) as [_ H]; [cbn; lia|lia|].
  destruct (H 1) as (s1 & E1 & K1 & _); [lia|]. destruct (H 2) as (s2 & E2 & K2 & _); [lia|].
  exists s, s1, s2, (f_of_Z 3). split; [reflexivity|]. split; [exact E1|]. split; [exact E2|]. rewrite K1, K2. change (sv_sd (st_core s)) with fone. change (st_count s) with 4%Z. rewrite Hp. cbn [less_times].
  split; vm_compute; reflexivity.
Qed.
Print Assumptions C100_kurtosis_depends_on_threads_refuted.

(** Refuted: "two values have a skewness and three a kurtosis" (the tests for the count are off by
    one: the factors divide by zero): the results are infinite or NaN, for all values and
    threads. *)
Lemma inf_times x : is_finite (fmul finf x) = false. Proof. destruct x; reflexivity. Qed.
Lemma less_inf x : is_finite (fsub x finf) = false. Proof. destruct x as [[]|[]| |]; reflexivity. Qed.
Theorem C100_few_values_refuted : forall pow a b c d s threads s', threads <> 0 -> skew_kurt_2 pow a b c d threads s s' ->
  (st_count s = 2%Z -> is_finite (sv_skew (st_core s')) = false /\ is_finite (sv_skew (st_intra s')) = false) /\
  (st_count s = 3%Z -> is_finite (sv_kurt (st_core s')) = false /\ is_finite (sv_kurt (st_intra s')) = false).
Proof.
  intros pow a b c d s n s' Hn H. split; intros Hc.
  - assert (E : tmp1 2 = finf) by (vm_compute; reflexivity). unfold skew_kurt_2 in H. rewrite Hc in H.
    assert (HG : forall f, f = CoreSkew \/ f = IntraSkew -> exists x, get s' f = fmul (tmp1 2) x).
    { intros f Hf. exists (match f with CoreSkew => fdiv a (core_sd pow s 3) | _ => fdiv b (intra_sd pow s 3) end).
      refine (proj1 (one_value n _ s s' f _ Hn _ _ H)); [|destruct Hf as [-> | ->]; reflexivity].
      change (body_2 pow a b c d 2) with [Compute CoreSkew (fun s => fmul (tmp1 (st_count s)) (fdiv a (core_sd pow s 3))); Compute IntraSkew (fun s => fmul (tmp1 (st_count s)) (fdiv b (intra_sd pow s 3)));
        Compute CoreKurt (fun _ => fdiv fzero fzero); Compute IntraKurt (fun _ => fdiv fzero fzero)].
      repeat (apply Forall_cons; [intros W; destruct Hf as [-> | ->]; try discriminate W; (eexists; split; [reflexivity|]); intros q [A (_ & B & _) (_ & C & _)]; unfold core_sd, intra_sd; rewrite <- A, <- ?B, <- ?C, Hc; reflexivity|]). apply Forall_nil. }
    destruct (HG CoreSkew (or_introl eq_refl)) as (x & Ex). destruct (HG IntraSkew (or_intror eq_refl)) as (y & Ey). cbn [get] in Ex, Ey. rewrite Ex, Ey, E. split; apply inf_times.
  - assert (E : tmp3 3 = finf) by (vm_compute; reflexivity). destruct (C100_excel_formulas_and_threads pow a b c d s n) as [HA _]; [lia|exact Hn|].
    destruct (HA s' H) as (_ & _ & _ & (j & Hj & ->) & (i & Hi & ->)). rewrite Hc, E. destruct j as [|j]; [lia|]. destruct i as [|i]; [lia|]. cbn [less_times]. split; apply less_inf.
Qed.
Print Assumptions C100_few_values_refuted.

(** Refuted: "the factor of the kurtosis is n(n+1)/((n-1)(n-2)(n-3))": its denominator is computed
    with 32 bits and is right up to 1627 values and for no greater number; with 1628 values the
    factor is more than 0.5 instead of less than 0.001. *)
Theorem C100_many_values_refuted :
  (forall n, (4 <= n < M32)%Z -> (exists m, tmp2 n = fdiv (fmul (f_of_Z n) (f_of_Z (u32 (n + 1)))) (f_of_Z m) /\ (0 <= m < M32)%Z /\ (m = (n - 1) * (n - 2) * (n - 3) <-> n <= 1627))%Z) /\
  fgt (tmp2 1628) (fdiv fone (f_of_Z 2)) = true /\
  flt (fdiv (f_of_Z (1628 * 1629)) (f_of_Z (1627 * 1626 * 1625))) (fdiv fone (f_of_Z 1000)) = true.
Proof.
  split; [|split; vm_compute; reflexivity]. intros n Hn. exists (u32 (u32 (u32 (n - 1) * u32 (n - 2)) * u32 (n - 3))). split; [reflexivity|].
  unfold u32. split; [apply Z.mod_pos_bound; reflexivity|].
  rewrite Z.mul_mod_idemp_l, Z.mul_mod_idemp_r by discriminate.
  rewrite (Z.mod_small (n - 1)), (Z.mod_small (n - 2)) by lia. split.
  - intros E. pose proof (Z.mod_pos_bound ((n - 1) * (n - 2) * (n - 3)) M32 eq_refl) as HB. rewrite E in HB. destruct (Z.le_gt_cases n 1627) as [L|L]; [exact L|exfalso].
    assert (1627 * 1626 * 1625 <= (n - 1) * (n - 2) * (n - 3))%Z. { apply Z.mul_le_mono_nonneg; [lia|apply Z.mul_le_mono_nonneg; lia|lia|lia]. }
    unfold M32 in HB. lia.
  - intros L. apply Z.mod_small. split; [apply Z.mul_nonneg_nonneg; [apply Z.mul_nonneg_nonneg|]; lia|].
    assert ((n - 1) * (n - 2) * (n - 3) <= 1626 * 1625 * 1624)%Z. { apply Z.mul_le_mono_nonneg; [apply Z.mul_nonneg_nonneg; lia|apply Z.mul_le_mono_nonneg; lia|lia|lia]. }
    unfold M32. lia.
Qed.
Print Assumptions C100_many_values_refuted.

(** The hypotheses of the first theorem are met by every statistics call of C44 (its example,
    PropStats.C44_C45_C49_example), and there is always an execution. *)
Example C100_example : forall pow a b c d s threads, exists s', skew_kurt_1 pow a b c d threads s s'.
Proof.
  intros pow a b c d s n. assert (H : forall rs x s, Forall (fun t : thread => snd t = []) x -> exists s', executes s (x ++ map (fun r => (r, body_1 pow a b c d)) rs) s').
  { induction rs as [|r rs IH]; intros x s1 Hx; [exists s1; cbn [map]; rewrite app_nil_r; apply finished, Hx|]. set (q := alone s1 r (body_1 pow a b c d)).
    destruct (IH (x ++ [(snd q, [])]) (fst q)) as (s' & E); [apply Forall_app; split; [exact Hx|repeat constructor]|]. exists s'. cbn [map]. rewrite <- (app_nil_r (body_1 pow a b c d)) at 1. apply run_alone. fold q.
    rewrite <- app_assoc in E. exact E. }
  destruct (H (repeat fzero n) [] s (Forall_nil _)) as (s' & E). exists s', (repeat fzero n). split; [apply repeat_length|exact E].
Qed.
