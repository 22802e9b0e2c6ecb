(** Data races, and what a parallel loop should do to memory. *)
From Verif Require Import Base F64 ModelLoops.
Local Open Scope nat_scope.

(** What an iteration accesses when it runs alone, and what it leaves in memory: true for a
    store. *)
Fixpoint accesses (p : iteration) (m : memory) (r : list value) : list (bool * cell) :=
  match p with
  | [] => []
  | Load from :: p => (false, from r) :: accesses p m (m (from r) :: r)
  | Store to what :: p => (true, to r) :: accesses p (fun d => if cell_eq_dec d (to r) then what r else m d) r
  end.
Fixpoint leaves (p : iteration) (m : memory) (r : list value) : memory :=
  match p with
  | [] => m
  | Load from :: p => leaves p m (m (from r) :: r)
  | Store to what :: p => leaves p (fun d => if cell_eq_dec d (to r) then what r else m d) r
  end.
(** C11 5.1.2.4: two accesses of different iterations to one place, one of them a store. *)
Definition race (its : list iteration) (m : memory) : Prop :=
  exists i j c wi wj, i < length its /\ j < length its /\ i <> j /\ In (wi, c) (accesses (nth i its []) m []) /\ In (wj, c) (accesses (nth j its []) m []) /\ wi || wj = true.
