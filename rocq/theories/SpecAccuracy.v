(** Specification of numerical accuracy: distances, core distances and density in exact
    arithmetic, on the real values of the data. *)
From Coq Require Import Reals.
From Flocq Require Import IEEE754.BinarySingleNaN.
From Verif Require Import Base F64 ModelDistance.
From Verif Require Import SpecGraph.
Local Open Scope R_scope.

(** The real number an element of the dataset stands for. *)
Definition coordinate (ds : dataset) (a : nat) : R :=
  match ds with
  | DDouble l => B2R (nth a l fzero)
  | DFloat l => B2R (nth a l (B754_zero false))
  | DInt l | DLong l | DShort l | DChar l => IZR (nth a l 0%Z)
  end.

(** The Euclidean distance of two rows. *)
Definition true_distance (ds : dataset) (cols i j : nat) : R :=
  sqrt (fold_right Rplus 0 (map (fun k => Rsqr (coordinate ds (i * cols + k) - coordinate ds (j * cols + k))) (seq 0 cols))).

(** Relative rounding error of one operation in double, 2^-53, and of a difference in the
    type of the data (2^-24 for float). *)
Definition u53 : R := / IZR (2 ^ 53).
Definition grain (ds : dataset) : R := match ds with DFloat _ => / IZR (2 ^ 24) | _ => u53 end.

(** The factors between which computed and true values lie. *)
Definition low (ds : dataset) (cols : nat) : R := (1 - grain ds) * (1 - u53) ^ (cols + 2).
Definition high (ds : dataset) (cols : nat) : R := (1 + grain ds) * (1 + u53) ^ (cols + 2).

(** No two different coordinates of two rows are closer than 2^-510 (about 3e-154), so
    that their square is a normal double. *)
Definition distinguishable (ds : dataset) (cols i j : nat) : Prop :=
  forall k, (k < cols)%nat ->
    let x := coordinate ds (i * cols + k) in let y := coordinate ds (j * cols + k) in
    x = y \/ / IZR (2 ^ 510) <= Rabs (x - y).

(** Data of ordinary size: finite, at most 2^400 in absolute value (float: 2^126). *)
Definition moderate (ds : dataset) : Prop :=
  match ds with
  | DDouble l => forall x, In x l -> is_finite x = true /\ Rabs (B2R x) <= IZR (2 ^ 400)
  | DFloat l => forall x, In x l -> is_finite x = true /\ Rabs (B2R x) <= IZR (2 ^ 126)
  | DInt _ | DLong _ | DShort _ | DChar _ => True
  end.

(** [c] is the k-th smallest of the true distances of row [i]. *)
Definition true_core (ds : dataset) (rows cols k i : nat) (c : R) : Prop :=
  exists l l', NoDup l /\ NoDup l' /\ length l = k /\ (length l' < k)%nat /\
    (forall j, In j l -> (j < rows)%nat /\ true_distance ds cols i j <= c) /\
    (forall j, (j < rows)%nat -> true_distance ds cols i j < c -> In j l').

(** Two rows are within true mutual reachability [r]. *)
Definition truly_close (ds : dataset) (rows cols k : nat) (r : R) (u v : nat) : Prop :=
  (u < rows)%nat /\ (v < rows)%nat /\ u <> v /\ true_distance ds cols u v <= r /\
  exists cu cv, true_core ds rows cols k u cu /\ true_core ds rows cols k v cv /\ cu <= r /\ cv <= r.
