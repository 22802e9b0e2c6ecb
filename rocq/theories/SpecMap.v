(** Specification of the hashtable as a finite map: an association list without
    duplicate keys.  The order of the list carries no meaning. *)
From Verif Require Import Base ModelHash.

Section Spec.
Context {K : Type}.
Variable eqk : K -> K -> bool.

Definition assoc (m : list (K * bytes)) (k : K) : option bytes :=
  option_map snd (find (fun kv => eqk (fst kv) k) m).
Definition without (m : list (K * bytes)) (k : K) : list (K * bytes) :=
  filter (fun kv => negb (eqk (fst kv) k)) m.

(** One operation: new map, return code, contents of the caller's buffer. *)
Definition hspec_step (m : list (K * bytes)) (o : hop K) : list (K * bytes) * (Z * bytes) :=
  match o with
  | HInsert k v =>
      match assoc m k with
      | None => ((k, v) :: m, (1%Z, v))
      | Some old => ((k, v) :: without m k, ((-1)%Z, old))
      end
  | HLookup k buf =>
      (m, match assoc m k with Some v => (1%Z, v) | None => (0%Z, buf) end)
  | HRemove k buf =>
      match assoc m k with
      | Some v => (without m k, (1%Z, v))
      | None => (m, (0%Z, buf))
      end
  | HSize => (m, (Z.of_nat (length m), []))
  end.

Fixpoint hspec_run (m : list (K * bytes)) (ops : list (hop K)) :=
  match ops with
  | [] => (m, [])
  | o :: ops' =>
      let r := hspec_step m o in
      let r' := hspec_run (fst r) ops' in
      (fst r', snd r :: snd r')
  end.

(** Buffers have the size of the value type. *)
Definition sized (dsize : nat) (o : hop K) : Prop :=
  match o with
  | HInsert _ b | HLookup _ b | HRemove _ b => length b = dsize
  | HSize => True
  end.

(** A removal is harmless when at most two stored keys share its bucket [bk k]. *)
Definition few_collisions (bk : K -> nat) (m : list (K * bytes)) (o : hop K) : Prop :=
  match o with
  | HRemove k _ => length (filter (fun kv => bk (fst kv) =? bk k) m) <= 2
  | _ => True
  end.

Fixpoint hhist_ok (dsize : nat) (bk : K -> nat) (m : list (K * bytes)) (ops : list (hop K)) : Prop :=
  match ops with
  | [] => True
  | o :: ops' => sized dsize o /\ few_collisions bk m o /\
                 hhist_ok dsize bk (fst (hspec_step m o)) ops'
  end.

Definition no_removal (o : hop K) : Prop := match o with HRemove _ _ => False | _ => True end.
End Spec.
