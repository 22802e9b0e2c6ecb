(** Specification of the distance extremes of a cluster. *)
From Verif Require Import Base F64 ModelMap.
Local Open Scope nat_scope.

Definition is_zero (x : f64) : bool := feq x fzero.
Definition before (l : list Z) (i j : Z) : Prop := exists a b, a < b /\ nth_error l a = Some i /\ nth_error l b = Some j.

(** [v] describes the members [l] of a cluster, whose first listed member is [first]. *)
Record extremes (core : Z -> f64) (dist : Z -> Z -> f64) (first : Z) (l : list Z) (v : dvals) : Prop := mk_extremes {
  (* the largest core distance *)
  ex_max_cr_attained : exists i, In i l /\ v_max_cr v = core i;
  ex_max_cr_bound : forall i, In i l -> fle (core i) (v_max_cr v) = true;
  (* the smallest non-zero core distance, unless that of the first member is zero *)
  ex_min_cr_zero : is_zero (core first) = true -> v_min_cr v = core first;
  ex_min_cr_attained : is_zero (core first) = false -> exists i, In i l /\ is_zero (core i) = false /\ v_min_cr v = core i;
  ex_min_cr_bound : is_zero (core first) = false -> forall i, In i l -> is_zero (core i) = false -> fle (v_min_cr v) (core i) = true;
  (* the largest distance of two members, at least D_MIN *)
  ex_max_dr_attained : v_max_dr v = D_MIN \/ exists i j, before l i j /\ v_max_dr v = dist i j;
  ex_max_dr_low : fle D_MIN (v_max_dr v) = true;
  ex_max_dr_bound : forall i j, before l i j -> fle (dist i j) (v_max_dr v) = true;
  (* the smallest non-zero distance of two members, at most D_MAX *)
  ex_min_dr_attained : v_min_dr v = D_MAX \/ exists i j, before l i j /\ is_zero (dist i j) = false /\ v_min_dr v = dist i j;
  ex_min_dr_high : fle (v_min_dr v) D_MAX = true;
  ex_min_dr_bound : forall i j, before l i j -> is_zero (dist i j) = false -> fle (v_min_dr v) (dist i j) = true;
  (* the confidences are not known yet *)
  ex_cr_conf : v_cr_conf v = fzero;
  ex_dr_conf : v_dr_conf v = fzero }.

(** A table read through its own operations: it lists the keys in this order and finds these
    values under them. *)
Definition reads {V} (t : ptable V) (kv : list (Z * V)) : Prop :=
  pt_size t = length kv /\ NoDup (map fst kv) /\
  forall i k v, nth_error kv i = Some (k, v) -> pt_key t i = Ok k /\ pt_deref t k = Ok v.

(** The two ratios of a cluster. *)
Definition core_ratio (v : dvals) : f64 := fdiv (v_max_cr v) (v_min_cr v).
Definition intra_ratio (v : dvals) : f64 := fdiv (v_max_dr v) (v_min_dr v).

(** Sums, in double arithmetic from left to right. *)
Definition sum_from (z : f64) (xs : list f64) : f64 := fold_left fadd xs z.
Definition total (xs : list f64) : f64 := match xs with [] => fzero | x :: r => sum_from x r end.
Definition count_of (xs : list f64) : f64 := f_of_Z (Z.of_nat (length xs)).
Definition mean_of (xs : list f64) : f64 := fdiv (total xs) (count_of xs).
Definition variance_from (z : f64) (xs : list f64) : f64 :=
  fdiv (sum_from z (map (fun x => fmul (fsub x (mean_of xs)) (fsub x (mean_of xs))) xs)) (f_of_Z (Z.of_nat (length xs) - 1)).
Definition moment (pow : f64 -> f64 -> f64) (p : Z) (xs : list f64) : f64 := sum_from fzero (map (fun x => pow (fsub x (mean_of xs)) (f_of_Z p)) xs).
Definition skewness_of pow sd xs := fdiv (moment pow 3 xs) (fmul (count_of xs) (pow sd (f_of_Z 3))).
Definition kurtosis_of pow sd xs := fsub (fdiv (moment pow 4 xs) (fmul (count_of xs) (pow sd (f_of_Z 4)))) (f_of_Z 3).
(** No element is greater. *)
Definition largest (xs : list f64) (mx : f64) : Prop := In mx xs /\ forall x, In x xs -> fgt x mx = false.

(** The statistics of a series when the variance field held [z] before. *)
Record statistics (pow : f64 -> f64 -> f64) (z : f64) (xs : list f64) (s : svals) : Prop := mk_statistics {
  ss_mean : sv_mean s = mean_of xs;
  ss_max : (forall x, In x xs -> fisnan x = false) -> largest xs (sv_max s);
  ss_var : sv_var s = variance_from z xs;
  ss_sd : sv_sd s = fsqrt (variance_from z xs);
  ss_skew : sv_skew s = skewness_of pow (fsqrt (variance_from z xs)) xs;
  ss_kurt : sv_kurt s = kurtosis_of pow (fsqrt (variance_from z xs)) xs }.
