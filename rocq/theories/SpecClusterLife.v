(** Specification of cluster objects by what a program may do with them. *)
From Verif Require Import Base ModelLife ModelClusterLife.
Local Open Scope nat_scope.

(** What a program knows about a cluster: the parent it named, whether it has been destroyed,
    the points it added. *)
Record known := mk_known { k_parent : option nat; k_there : bool; k_points : list nat }.
Definition there (s : list known) (c : nat) : bool := match nth_error s c with Some k => k_there k | None => false end.
Definition known_parent (s : list known) (c : nat) : option nat := match nth_error s c with Some k => k_parent k | None => None end.
Definition change (s : list known) (c : nat) (f : known -> known) : list known :=
  map (fun x => if fst x =? c then f (snd x) else snd x) (combine (seq 0 (length s)) s).
Definition gone (k : known) : known := mk_known (k_parent k) false (k_points k).

(** One call: [None] when the program must not make it.  Releasing the virtual child of a
    cluster destroys the parent of the cluster. *)
Definition allowed (s : list known) (k : kcall) : option (list known * option bool) :=
  match k with
  | KNew None => Some (s ++ [mk_known None true []], None)
  | KNew (Some p) => if there s p then Some (s ++ [mk_known (Some p) true []], None) else None
  | KAdd c l => if there s c then Some (change s c (fun x => mk_known (k_parent x) true (l ++ k_points x)), None) else None
  | KHas c x => if there s c then Some (s, Some (match nth_error s c with Some o => existsb (Nat.eqb x) (k_points o) | None => false end)) else None
  | KDestroy c => if there s c then Some (change s c gone, None) else None
  | KRelease c =>
      if there s c then
        match known_parent s c with
        | None => Some (s, None)
        | Some p => if there s p then Some (change s p gone, None) else None
        end
      else None
  end.
Fixpoint all_allowed (s : list known) (ks : list kcall) : option (list known * list (option bool)) :=
  match ks with
  | [] => Some (s, [])
  | k :: ks' =>
      match allowed s k with
      | None => None
      | Some (s, a) => match all_allowed s ks' with None => None | Some (s, l) => Some (s, a :: l) end
      end
  end.
(** The clusters that have not been destroyed. *)
Definition left_over (s : list known) : nat := length (filter k_there s).
