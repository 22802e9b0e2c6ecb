(** Files of numbers as the sample program expects them (C105). *)
From Verif Require Import Base.
Local Open Scope nat_scope.

(** Between two words of a line: space, comma, tab, carriage return, vertical tab. *)
Definition separator (c : Z) : Prop := In c [32; 44; 9; 13; 11]%Z.
(** A word: not empty, without separators, newlines and NUL, and not a single form feed or a
    single byte outside ASCII. *)
Definition word (w : list Z) : Prop :=
  w <> [] /\ (forall c, In c w -> ~ separator c /\ c <> 10%Z /\ c <> 0%Z) /\ (forall c, w = [c] -> c <> 12%Z /\ (c < 128)%Z).
(** The bytes of a line (without its newline) that holds these words. *)
Inductive line_of : list (list Z) -> list Z -> Prop :=
| line_blank s : Forall separator s -> line_of [] s
| line_word s w ws l : Forall separator s -> word w -> line_of ws l -> (l = [] \/ exists c l', l = c :: l' /\ separator c) -> line_of (w :: ws) (s ++ w ++ l).
(** A file of lines, none longer than 2047 bytes with its newline, which the last may lack. *)
Inductive file_of : list (list (list Z)) -> list Z -> Prop :=
| file_end : file_of [] []
| file_last ws t : t <> [] -> length t <= 2047 -> line_of ws t -> file_of [ws] t
| file_line ws t tbl f : length t <= 2046 -> line_of ws t -> file_of tbl f -> file_of (ws :: tbl) (t ++ 10%Z :: f).
