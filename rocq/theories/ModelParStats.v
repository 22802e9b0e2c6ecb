(** Model of hdbscan_skew_kurt_1 and hdbscan_skew_kurt_2 (src/hdbscan.c:1340-1406) with the
    threads of their parallel regions.  The regions share no work: every thread of the team runs
    the whole body on the same struct.  Simplification: loads and stores of a double are atomic
    steps that interleave; in C the unsynchronised accesses are a data race and already
    undefined. *)
From Verif Require Import Base F64 ModelMap.
Local Open Scope Z_scope.

(** hdbscan.h:93-111: the members the two functions write. *)
Inductive field := CoreSkew | IntraSkew | CoreKurt | IntraKurt.
Definition get (s : cstats) (f : field) : f64 :=
  match f with CoreSkew => sv_skew (st_core s) | IntraSkew => sv_skew (st_intra s) | CoreKurt => sv_kurt (st_core s) | IntraKurt => sv_kurt (st_intra s) end.
Definition with_skew (v : svals) (x : f64) : svals := mk_svals (sv_mean v) (sv_sd v) (sv_var v) (sv_max v) (sv_kurt v) x.
Definition with_kurt (v : svals) (x : f64) : svals := mk_svals (sv_mean v) (sv_sd v) (sv_var v) (sv_max v) x (sv_skew v).
Definition set (s : cstats) (f : field) (x : f64) : cstats :=
  match f with
  | CoreSkew => mk_cstats (st_count s) (with_skew (st_core s) x) (st_intra s)
  | IntraSkew => mk_cstats (st_count s) (st_core s) (with_skew (st_intra s) x)
  | CoreKurt => mk_cstats (st_count s) (with_kurt (st_core s) x) (st_intra s)
  | IntraKurt => mk_cstats (st_count s) (st_core s) (with_kurt (st_intra s) x)
  end.

(** A step of a thread: [Compute f e] stores the value of [e], an expression over members that
    no thread writes (the count and the deviations); [Read f] loads a member into the thread's
    own temporary; [Less f e] stores the temporary minus the value of [e]. *)
Inductive step := Compute (f : field) (e : cstats -> f64) | Read (f : field) | Less (f : field) (e : cstats -> f64).
Definition thread : Type := f64 * list step.
Definition do_step (s : cstats) (r : f64) (st : step) : cstats * f64 :=
  match st with
  | Compute f e => (set s f (e s), r)
  | Read f => (s, get s f)
  | Less f e => (set s f (fsub r (e s)), r)
  end.
(** One step of one thread, and all executions that run every thread to its end. *)
Inductive executes : cstats -> list thread -> cstats -> Prop :=
| finished s ts : Forall (fun t => snd t = []) ts -> executes s ts s
| turn s a r st p b s' : executes (fst (do_step s r st)) (a ++ (snd (do_step s r st), p) :: b) s' -> executes s (a ++ (r, st :: p) :: b) s'.
(** [#pragma omp parallel] with a team of [n] threads. *)
Definition parallel (n : nat) (body : list step) (s s' : cstats) : Prop := exists r0, length r0 = n /\ executes s (map (fun r => (r, body)) r0) s'.

Section Body.
(** The C library's pow. *)
Variable pow : f64 -> f64 -> f64.
Variables sum_sc sum_sd sum_dc sum_dd : f64.
Definition core_sd (s : cstats) (k : Z) : f64 := pow (sv_sd (st_core s)) (f_of_Z k).
Definition intra_sd (s : cstats) (k : Z) : f64 := pow (sv_sd (st_intra s)) (f_of_Z k).

(** hdbscan.c:1347-1351. *)
Definition body_1 : list step :=
  [Compute CoreSkew (fun s => fdiv sum_sc (fmul (f_of_Z (st_count s)) (core_sd s 3)));
   Compute IntraSkew (fun s => fdiv sum_sd (fmul (f_of_Z (st_count s)) (intra_sd s 3)));
   Compute CoreKurt (fun s => fsub (fdiv sum_dc (fmul (f_of_Z (st_count s)) (core_sd s 4))) (f_of_Z 3));
   Compute IntraKurt (fun s => fsub (fdiv sum_dd (fmul (f_of_Z (st_count s)) (intra_sd s 4))) (f_of_Z 3))].
(** hdbscan.c:1340-1355 hdbscan_skew_kurt_1. *)
Definition skew_kurt_1 (threads : nat) := parallel threads body_1.

(** hdbscan.c:1379, 1389, 1395: tmp1, tmp2, tmp3.  index_t is a 32 bit unsigned integer, so the
    products in the denominators are taken modulo 2^32. *)
Definition tmp1 (n : Z) : f64 := fdiv (f_of_Z n) (f_of_Z (u32 (u32 (n - 1) * u32 (n - 2)))).
Definition tmp2 (n : Z) : f64 := fdiv (fmul (f_of_Z n) (f_of_Z (u32 (n + 1)))) (f_of_Z (u32 (u32 (u32 (n - 1) * u32 (n - 2)) * u32 (n - 3)))).
Definition tmp3 (n : Z) : f64 := fdiv (fmul (fmul (f_of_Z 3) (fsub (f_of_Z n) fone)) (f_of_Z (u32 (n - 1)))) (f_of_Z (u32 (u32 (n - 2) * u32 (n - 3)))).
(** hdbscan.c:1375-1402; [0.0/0.0] is a NaN.  The count is not written, so the branches are
    taken on its initial value. *)
Definition body_2 (count : Z) : list step :=
  (if 2 <=? count then
     [Compute CoreSkew (fun s => fmul (tmp1 (st_count s)) (fdiv sum_sc (core_sd s 3)));
      Compute IntraSkew (fun s => fmul (tmp1 (st_count s)) (fdiv sum_sd (intra_sd s 3)))]
   else [Compute CoreSkew (fun _ => fdiv fzero fzero); Compute IntraSkew (fun _ => fdiv fzero fzero)]) ++
  (if 3 <=? count then
     [Compute CoreKurt (fun s => fmul (tmp2 (st_count s)) (fdiv sum_dc (core_sd s 4)));
      Compute IntraKurt (fun s => fmul (tmp2 (st_count s)) (fdiv sum_dd (intra_sd s 4)))]
   else []) ++
  (if 3 <=? count then
     [Read CoreKurt; Less CoreKurt (fun s => tmp3 (st_count s)); Read IntraKurt; Less IntraKurt (fun s => tmp3 (st_count s))]
   else [Compute CoreKurt (fun _ => fdiv fzero fzero); Compute IntraKurt (fun _ => fdiv fzero fzero)]).
(** hdbscan.c:1368-1406 hdbscan_skew_kurt_2. *)
Definition skew_kurt_2 (threads : nat) (s s' : cstats) : Prop := parallel threads (body_2 (st_count s)) s s'.
End Body.
