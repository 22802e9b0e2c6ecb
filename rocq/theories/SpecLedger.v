(** Specification of the memory of an hdbscan object: the blocks reachable from it, the
    histories of calls considered and the number of blocks a run leaves. *)
From Verif Require Import Base ModelLife ModelLedger.
Local Open Scope nat_scope.

(** A block by itself. *)
Definition one (b : nat) : list nat := [b].
(** The blocks of a list, of a table with what its values point to, of a cluster, a graph. *)
Definition lb (l : alst) : list nat := one (a_hdr l) ++ one (a_blk l).
Definition eb (e : tent) : list nat := one (n_entry e) ++ one (n_data e) ++ one (n_key e) ++ lb (n_val e).
Definition tb (t : table) : list nat := one (t_blk t) ++ one (t_arr t) ++ lb (t_keys t) ++ concat (map eb (t_ents t)).
Definition kb (c : clu) : list nat := one (k_blk c) ++ lb (k_set c) ++ lb (k_desc c).
Definition gb (g : gra) : list nat := one (g_blk g) ++ one (g_arr g) ++ lb (g_a g) ++ lb (g_b g) ++ lb (g_w g) ++ concat (map lb (g_adj g)).
Definition opt {A} (f : A -> list nat) (p : option A) : list nat := match p with Some x => f x | None => [] end.
Definition object_blocks (o : dobj) : list nat :=
  opt one (u_labels o) ++ opt one (u_scores o) ++ opt gb (u_mst o) ++ opt tb (u_hier o) ++
  opt (fun c => lb (fst c) ++ concat (map kb (snd c))) (u_clusters o) ++ opt tb (u_stab o) ++ opt one (u_dist o) ++ opt one (u_core o).

(** Initialised (the tree pointer is not set yet: nothing but a run is defined); cleaned; with
    results; emptied by hdbscan_minimal_clean. *)
Inductive stage := Fresh | Blank | Full | Empty.
Definition allowed (p : stage) (c : lcall) : option stage :=
  match p, c with
  | Fresh, LRun _ => Some Full
  | Blank, LRun _ => Some Full
  | Blank, LMinimalClean => Some Blank
  | Blank, LClean => Some Blank
  | Full, LRerun _ => Some Full
  | Empty, LRerun _ => Some Full
  | Full, LMinimalClean => Some Empty
  | Empty, LMinimalClean => Some Empty
  | Full, LClean => Some Blank
  | Empty, LClean => Some Blank
  | _, _ => None
  end.
Fixpoint allowed_all (p : stage) (cs : list lcall) : option stage :=
  match cs with [] => Some p | c :: cs' => match allowed p c with Some q => allowed_all q cs' | None => None end end.

(** Clusters made by a run, and levels stored in the hierarchy. *)
Definition split_of (k : kind) : nat := match k with KSplit _ _ _ => 1 | _ => 0 end.
Definition label_splits (w : labelw) : nat :=
  list_sum (map (fun c => split_of (p_kind c)) (b_comps w)) + match b_split w with Some _ => 1 | None => 0 end.
Definition level_splits (v : level) : nat := match v_work v with Some (ws, _) => list_sum (map label_splits ws) | None => 0 end.
Definition level_stored (v : level) : nat := match v_work v with Some (_, Some _) => 1 | _ => 0 end.
Definition clusters_made (z : decisions) : nat := 1 + list_sum (map level_splits (z_levels z)).
Definition levels_stored (z : decisions) : nat := list_sum (map level_stored (z_levels z)) + 1.
