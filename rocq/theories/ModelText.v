(** The text printf and sprintf produce for the conversions the code uses, the buffers sprintf
    writes to, and the log (modules/utils/src/logger.c). *)
From Flocq Require Import IEEE754.BinarySingleNaN.
From Coq Require Export String Ascii.
From Verif Require Import Base F64.
Local Open Scope string_scope.

(** ** C library: numbers as text (C11 7.21.6.1, as glibc implements it) *)
Definition newline : string := String (ascii_of_nat 10) "".
Definition tab : string := String (ascii_of_nat 9) "".
Definition digit (z : Z) : ascii := ascii_of_nat (48 + Z.to_nat z).
(** The [k] low decimal digits of [n]. *)
Fixpoint fixed (k : nat) (n : Z) : string :=
  match k with O => "" | S k' => fixed k' (n / 10) ++ String (digit (n mod 10)) "" end.
(** The number of decimal digits of [n]. *)
Fixpoint width_go (fuel : nat) (n : Z) : nat :=
  match fuel with O => 1 | S f => if (n <? 10)%Z then 1 else S (width_go f (n / 10)) end.
Definition width (n : Z) : nat := width_go (Z.to_nat (Z.log2 n)) n.
Definition dec_nat (n : Z) : string := fixed (width n) n.
(** %d, %ld. *)
Definition dec (z : Z) : string := if (z <? 0)%Z then "-" ++ dec_nat (- z) else dec_nat z.
(** a / b rounded to the nearest integer, ties to even. *)
Definition div_even (a b : Z) : Z :=
  let q := (a / b)%Z in let r := (2 * (a mod b))%Z in
  if (r <? b)%Z then q else if (b <? r)%Z then (q + 1)%Z else if Z.even q then q else (q + 1)%Z.
(** m * 2^e in units of 10^-p. *)
Definition scaled (p : nat) (m e : Z) : Z :=
  if (0 <=? e)%Z then (m * 2 ^ e * 10 ^ Z.of_nat p)%Z else div_even (m * 10 ^ Z.of_nat p) (2 ^ (- e)).
Definition minus (s : bool) : string := if s then "-" else "".
Definition point (p : nat) (n : Z) : string :=
  dec_nat (n / 10 ^ Z.of_nat p) ++ "." ++ fixed p (n mod 10 ^ Z.of_nat p).
(** %.pf; %f is %.6f.  [nan] is what is printed for a NaN, "nan" or "-nan": the sign of a NaN
    is not modelled. *)
Definition fmt (nan : string) (p : nat) (x : f64) : string :=
  match x with
  | B754_zero s => minus s ++ point p 0
  | B754_infinity s => minus s ++ "inf"
  | B754_nan => nan
  | B754_finite s m e _ => minus s ++ point p (scaled p (Zpos m) e)
  end.
(** The width in %6f. *)
Fixpoint spaces (k : nat) : string := match k with O => "" | S k => " " ++ spaces k end.
Definition pad (k : nat) (t : string) : string := spaces (k - String.length t) ++ t.

(** ** Buffers *)
(** sprintf(s + strlen(s), ...) with [old] in the buffer of [size] chars: the text and its
    terminating zero must fit.  sprintf(s, ...) is the case [old = ""]. *)
Definition sprintf (size : nat) (old text : string) : res string :=
  if (String.length old + String.length text <? size)%nat then Ok (old ++ text) else UB.
(** strlen and strcat on an array of chars that may not have been written yet. *)
Fixpoint c_strlen (m : list (option ascii)) : res nat :=
  match m with
  | Some c :: r => if (nat_of_ascii c =? 0)%nat then Ok O else let! k := c_strlen r in Ok (S k)
  | _ => UB
  end.
Definition strcat (m : list (option ascii)) (t : string) : res (list (option ascii)) :=
  let! k := c_strlen m in
  if (k + String.length t <? List.length m)%nat
  then Ok (firstn k m ++ map Some (list_ascii_of_string t ++ [ascii_of_nat 0]) ++ skipn (k + String.length t + 1) m)%list
  else UB.
(** A loop that prints. *)
Fixpoint print_all {T} (f : T -> res string) (l : list T) : res string :=
  match l with
  | [] => Ok ""
  | x :: l => let! a := f x in let! b := print_all f l in Ok (a ++ b)
  end.

(** ** The log *)
Inductive logtype := FATAL | ERROR | INFO | WARN | NONE.
(** logger.c:91-101. *)
Definition type_text (t : logtype) : string :=
  match t with FATAL => "FATAL" | ERROR => "ERROR" | INFO => "INFO" | WARN => "WARN" | NONE => "" end.
(** logger.c:81-121 logger_write without DEBUG: the text goes to the standard output, for all
    types but NONE through a buffer of [sz] chars.  [date] is the text of getDateString. *)
Definition logger_write (date : string) (t : logtype) (str : string) : res string :=
  match t with
  | NONE => Ok str
  | _ => let tp := type_text t in
         sprintf (String.length date + String.length tp + String.length str + 10) "" (date ++ " " ++ tp ++ ": " ++ str)
  end.
