(** Specification of a hash table under every history, removals included.

    A bucket is a list of runs of entries, newest first.  Inserting adds to the first run.
    Removing an entry from inside a run ends the run before it and starts a new one behind it.
    Removing the first entry of a run takes every run in front of it along. *)
From Verif Require Import Base ModelHash.
Local Open Scope nat_scope.

Section Runs.
Context {K : Type}.
Variable eqk : K -> K -> bool.
Variable home : K -> nat.

Definition run := list (K * bytes).

Record shelf := Shelf { runs : nat -> list run; names : list K }.
Definition empty_shelf : shelf := Shelf (fun _ => []) [].

Definition put (s : shelf) (k : K) (rs : list run) (ks : list K) : shelf :=
  Shelf (fun i => if Nat.eqb i (home k) then rs else runs s i) ks.

(** The value stored under a key. *)
Definition stored (s : shelf) (k : K) : option bytes :=
  option_map snd (find (fun e => eqk (fst e) k) (concat (runs s (home k)))).

Definition add_front (e : K * bytes) (rs : list run) : list run :=
  match rs with [] => [[e]] | r :: rest => (e :: r) :: rest end.

Definition overwrite (k : K) (v : bytes) (rs : list run) : list run :=
  map (map (fun e => if eqk (fst e) k then (fst e, v) else e)) rs.

(** The entries of a run in front of a key and behind it. *)
Fixpoint cut (k : K) (r : run) : option (run * run) :=
  match r with
  | [] => None
  | e :: r' => if eqk (fst e) k then Some ([], r')
               else option_map (fun p => (e :: fst p, snd p)) (cut k r')
  end.

Definition as_run (r : run) : list run := match r with [] => [] | _ => [r] end.

Fixpoint take_out (k : K) (front rest : list run) : list run :=
  match rest with
  | [] => front
  | r :: rest' =>
      match cut k r with
      | None => take_out k (front ++ [r]) rest'
      | Some ([], behind) => as_run behind ++ rest'
      | Some (ahead, behind) => front ++ ahead :: as_run behind ++ rest'
      end
  end.

Definition drop_name (k : K) (ks : list K) : list K := filter (fun x => negb (eqk x k)) ks.
Definition add_name (k : K) (ks : list K) : list K := if existsb (fun x => eqk x k) ks then ks else k :: ks.

(** One operation: the new state, the return code and the caller's buffer.  A removal hands
    back the first [w] bytes of the value. *)
Definition shelf_step (w : nat) (s : shelf) (o : hop K) : shelf * (Z * bytes) :=
  match o with
  | HInsert k v =>
      match stored s k with
      | None => (put s k (add_front (k, v) (runs s (home k))) (add_name k (names s)), (1%Z, v))
      | Some old => (put s k (overwrite k v (runs s (home k))) (names s), ((-1)%Z, old))
      end
  | HLookup k buf => (s, match stored s k with Some v => (1%Z, v) | None => (0%Z, buf) end)
  | HRemove k buf =>
      match stored s k with
      | None => (s, (0%Z, buf))
      | Some v => (put s k (take_out k [] (runs s (home k))) (drop_name k (names s)),
                   (1%Z, firstn w v ++ skipn w buf))
      end
  | HSize => (s, (Z.of_nat (length (names s)), []))
  end.

Fixpoint shelf_run (w : nat) (s : shelf) (ops : list (hop K)) : shelf * list (Z * bytes) :=
  match ops with
  | [] => (s, [])
  | o :: ops' =>
      let r := shelf_step w s o in
      let r' := shelf_run w (fst r) ops' in
      (fst r', snd r :: snd r')
  end.
End Runs.
Arguments shelf : clear implicits.

(** Against the finite map a user expects ([expected], the answers of SpecMap.v): a stored
    value is never wrong, a key is never found that should be absent; but a key that should be
    there can be missing, and the size is never too small. *)
Definition no_worse_than {K} (o : hop K) (got expected : Z * bytes) : Prop :=
  match o with
  | HInsert _ v => got = expected \/ got = (1%Z, v)
  | HLookup _ buf | HRemove _ buf => got = expected \/ got = (0%Z, buf)
  | HSize => (fst expected <= fst got)%Z /\ snd got = snd expected
  end.
Fixpoint all_no_worse {K} (ops : list (hop K)) (got expected : list (Z * bytes)) : Prop :=
  match ops, got, expected with
  | [], [], [] => True
  | o :: ops', g :: got', e :: expected' => no_worse_than o g e /\ all_no_worse ops' got' expected'
  | _, _, _ => False
  end.

(** Everything stored in [n] buckets. *)
Definition all_stored {K} (s : shelf K) (n : nat) : list (K * bytes) :=
  flat_map (fun i => concat (runs s i)) (seq 0 n).

(** Insertions that added a key minus removals that removed one, by their answers. *)
Fixpoint balance {K} (ops : list (hop K)) (outs : list (Z * bytes)) : Z :=
  match ops, outs with
  | HInsert _ _ :: ops', (c, _) :: outs' => (if c =? 1 then 1 else 0) + balance ops' outs'
  | HRemove _ _ :: ops', (c, _) :: outs' => (if c =? 1 then -1 else 0) + balance ops' outs'
  | _ :: ops', _ :: outs' => balance ops' outs'
  | _, _ => 0
  end%Z.
