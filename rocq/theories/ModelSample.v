(** Model of the reader of data files in the sample program (sample/tester.c:42-77).
    A file is the list of its bytes, 0..255; [atof] (the C function, from the bytes of a word to
    a double) is a parameter. *)
From Verif Require Import Base F64 ModelArrayList.
Local Open Scope nat_scope.

Section Reader.
Variable atof : list Z -> f64.

(** The C function fgets with room for [room] bytes before the NUL: up to and with the newline. *)
Fixpoint fgets (room : nat) (f : list Z) : list Z * list Z :=
  match room, f with
  | 0, _ => ([], f)
  | _, [] => ([], [])
  | S room, c :: f => if (c =? 10)%Z then ([c], f) else let (line, rest) := fgets room f in (c :: line, rest)
  end.
(** What the C functions for strings see of the buffer: the bytes before the first NUL. *)
Fixpoint c_string (l : list Z) : list Z :=
  match l with [] => [] | c :: l => if (c =? 0)%Z then [] else c :: c_string l end.

(** tester.c:54: space, comma, newline, tab, carriage return, vertical tab. *)
Definition delim (c : Z) : bool := existsb (Z.eqb c) [32; 44; 10; 9; 13; 11]%Z.
(** The answers of strtok(buff, delim), strtok(NULL, delim), ... until NULL; [cur] holds the
    bytes of the word that is being read, the last first. *)
Fixpoint strtoks (l cur : list Z) : list (list Z) :=
  match l with
  | [] => match cur with [] => [] | _ => [rev cur] end
  | c :: l => if delim c then match cur with [] => strtoks l [] | _ => rev cur :: strtoks l [] end else strtoks l (c :: cur)
  end.

(** isspace in the C locale. *)
Definition isspace (c : Z) : bool := existsb (Z.eqb c) [32; 9; 10; 11; 12; 13]%Z.
(** tester.c:57: strlen(toks) == 1 && isspace(toks[0]).  char is signed; a negative argument other
    than EOF (-1, the byte 255) is undefined (C11 7.4). *)
Definition lone_space (t : list Z) : res bool :=
  match t with [c] => if ((128 <=? c) && negb (c =? 255))%Z then UB else Ok (isspace c) | _ => Ok false end.
(** tester.c:57-64: the words of a line are appended; strtok gives no empty word, so the test in
    line 59 is left out. *)
Fixpoint read_tokens (nums : alist f64) (toks : list (list Z)) : res (alist f64) :=
  match toks with
  | [] => Ok nums
  | t :: toks =>
      let! b := lone_space t in
      if b then Ok nums else let! r := array_list_append nums (atof t) in read_tokens (fst r) toks
  end.
(** tester.c:55-67. *)
Fixpoint read_lines (fuel : nat) (f : list Z) (nums : alist f64) (rs : Z) : res (alist f64 * Z) :=
  match fuel with
  | 0 => Fuel
  | S fuel =>
      match f with
      | [] => Ok (nums, rs)
      | _ =>
          let (line, rest) := fgets 2047 f in
          let! nums := read_tokens nums (strtoks (c_string line) []) in
          read_lines fuel rest nums (u32 (rs + 1))
      end
  end.
(** tester.c:71-73: the first [n] elements, copied one by one. *)
Fixpoint copy_out (d : list (option f64)) (n i : nat) : res (list f64) :=
  match n with
  | 0 => Ok []
  | S n => let! x := slot d i in let! l := copy_out d n (S i) in Ok (x :: l)
  end.
(** tester.c:42-77 getDset with *rs = 0: the numbers, the rows and the columns; [None] when the
    file cannot be opened and the program ends with exit(0) (tester.c:47-51), where the message
    has 19 bytes before and 2 after the name.  [fuel] bounds the calls of fgets. *)
Definition getDset (name_length : nat) (file : option (list Z)) : res (option (list f64 * Z * Z)) :=
  let! nums := array_list_init 10 in
  match file with
  | None => if 2048 <? 19 + name_length + 2 then UB else Ok None
  | Some f =>
      let! r := read_lines (S (length f)) f nums 0 in
      let '(nums, rs) := r in
      if (rs =? 0)%Z then UB
      else
        let cs := (u32 (Z.of_nat (al_size nums)) / rs)%Z in
        let! data := copy_out (al_data nums) (al_size nums) 0 in
        Ok (Some (data, rs, cs))
  end.
End Reader.
