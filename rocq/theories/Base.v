(** Outcomes of running C code, and array access with an explicit
    undefined-behaviour outcome.  Used by every model file. *)
From Coq Require Export List Arith ZArith Bool Lia.
Export ListNotations.

(** [Ok a]  : the code returns normally with [a];
    [UB]    : undefined behaviour (out-of-range access, NULL or uninitialised
              pointer dereference, signed overflow, ...);
    [Abort] : an [assert] fails (assertions are enabled: CMakeLists.txt sets no
              NDEBUG);
    [Fuel]  : the bound given to a loop of the model is exhausted. *)
Inductive res (A : Type) : Type :=
| Ok (a : A)
| UB
| Abort
| Fuel.
Arguments Ok {A} a.
Arguments UB {A}.
Arguments Abort {A}.
Arguments Fuel {A}.

Definition bind {A B} (m : res A) (f : A -> res B) : res B :=
  match m with
  | Ok a => f a
  | UB => UB
  | Abort => Abort
  | Fuel => Fuel
  end.

Notation "'let!' x ':=' m 'in' f" := (bind m (fun x => f))
  (at level 200, x pattern, m at level 100, f at level 200, right associativity).

(** C array read [a[i]]. *)
Definition aget {A} (l : list A) (i : nat) : res A :=
  match nth_error l i with Some x => Ok x | None => UB end.

Fixpoint upd {A} (l : list A) (i : nat) (x : A) : list A :=
  match l, i with
  | [], _ => []
  | _ :: t, O => x :: t
  | h :: t, S j => h :: upd t j x
  end.

(** C array write [a[i] = x]. *)
Definition aset {A} (l : list A) (i : nat) (x : A) : res (list A) :=
  if i <? length l then Ok (upd l i x) else UB.

(** [for (k = 0; k < n; k++) s = body(k, s)]. *)
Fixpoint for_up {S} (k n : nat) (body : nat -> S -> res S) (s : S) : res S :=
  match n with
  | O => Ok s
  | Datatypes.S n' => let! s' := body k s in for_up (Datatypes.S k) n' body s'
  end.

(** Machine integers. *)
Definition M32 : Z := 4294967296.
Definition M64 : Z := 18446744073709551616.
Definition u32 (z : Z) : Z := Z.modulo z M32.
Definition u64 (z : Z) : Z := Z.modulo z M64.
Definition in_i32 (z : Z) : bool := ((-2147483648 <=? z) && (z <=? 2147483647))%Z.
Definition in_i64 (z : Z) : bool :=
  ((-9223372036854775808 <=? z) && (z <=? 9223372036854775807))%Z.
(** Conversion of an unsigned 32-bit value to [int32_t] (two's complement). *)
Definition i32_of_u32 (z : Z) : Z := if (z <? 2147483648)%Z then z else (z - M32)%Z.
