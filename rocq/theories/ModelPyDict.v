(** Model of the two methods of the Python binding that hand out dictionaries:
    modules/python/src/PyHdbscan.c:275-336, getClusterMap and getHierarchies, on one object of
    the program of ModelPython.v.

    Simplifications: the arrays in a dictionary are given by their elements at the time of the
    call (they use the memory of the table or of the hierarchy: C56); the references to keys
    and arrays, which are never released (PyDict_SetItem takes its own), are left out; so is
    the table of getClusterMap, which is never destroyed. *)
From Verif Require Import Base F64 ModelArrayList ModelHash ModelPrimes ModelUtils ModelDistance ModelMst ModelGraph ModelCluster ModelHier ModelSelect ModelRun ModelMap ModelPython.
From Verif Require ModelPrint.
Local Open Scope nat_scope.

(** A Python dictionary from ints to arrays of ints. *)
Definition dict := list (Z * list Z).
Definition dict_set (d : dict) (k : Z) (v : list Z) : dict := (k, v) :: filter (fun p => negb (fst p =? k)%Z) d.
Fixpoint dict_get (d : dict) (k : Z) : option (list Z) :=
  match d with [] => None | (j, v) :: r => if (k =? j)%Z then Some v else dict_get r k end.

(** The members clusterMap and hierarchy of an object (PyHdbscan.c:63-69), and the
    dictionaries with their reference counts. *)
Definition dicts := list (option (nat * dict)).
Record dmembers := mk_dm { m_map : option nat; m_hier : option nat; m_dicts : dicts }.

(** Py_XDECREF on a dictionary. *)
Definition dict_xdecref (p : option nat) (ds : dicts) : res dicts :=
  match p with
  | None => Ok ds
  | Some id => match nth_error ds id with
      | Some (Some (S O, _)) => Ok (upd ds id None)
      | Some (Some (S c, d)) => Ok (upd ds id (Some (c, d)))
      | _ => UB
      end
  end.

(** PyArray_SimpleNewFromData(1, dims, NPY_INT, lst->data), PyHdbscan.c:299-301: the elements
    of the list read as int. *)
Definition array_of (l : alist Z) : res (list Z) :=
  for_up 0 (al_size l) (fun j xs => let! x := slot (al_data l) j in Ok (xs ++ [i32_of_u32 x])) [].

(** PyHdbscan.c:294-303: the loop over the keys of the table.  lst is not set before the
    lookup (298); every key is found. *)
Definition fill_map (t : ptable (alist Z)) : res dict :=
  for_up 0 (Z.to_nat (ht_size (pt_tab t)))
    (fun i d => let! label := pt_key t i in
                let! l := pt_deref t label in
                let! v := array_of l in
                Ok (dict_set d (i32_of_u32 label) v)) [].

(** scan->clusterLabels: with no results the pointer is NULL, and reading any element is
    undefined. *)
Definition scan_labels (g : scan_state) : res (list Z) :=
  match g with
  | NoScan => UB
  | Raw o | Used o => Ok match o_res o with Some r => map (fun l => u32 (Z.of_nat l)) (r_labels r) | None => [] end
  end.

(** PyHdbscan.c:275-307 PyHdbscan_getClusterMap.  The arguments are [None] when they are not
    two values of int: then NULL is returned after the member has been released.  Otherwise
    the answer is the dictionary returned. *)
Definition py_get_cluster_map (p : py) (args : option (Z * Z)) (m : dmembers) : res (dmembers * option nat) :=
  let! ds := dict_xdecref (m_map m) (m_dicts m) in
  match args with
  | None => Ok (mk_dm (m_map m) (m_hier m) ds, None)
  | Some (b, e) =>
      let! labels := scan_labels (g_scan p) in
      let! t := create_cluster_map labels (u32 b) (u32 e) in
      let! d := fill_map t in
      Ok (mk_dm (Some (length ds)) (m_hier m) (ds ++ [Some (2, d)]), Some (length ds))
  end.

(** PyHdbscan.c:324-332: the loop over the levels, in the order of the set of keys. *)
Fixpoint fill_levels (n : nat) (es : entries) (levels : list nat) (d : dict) : res dict :=
  match levels with
  | [] => Ok d
  | level :: r =>
      match hget es level with
      | None => UB
      | Some (_, labels) =>
          if n <=? length labels
          then fill_levels n es r (dict_set d (Z.of_nat level) (map (fun c => i32_of_u32 (u32 (Z.of_nat c))) (firstn n labels)))
          else UB
      end
  end.

(** PyHdbscan.c:309-336 PyHdbscan_getHierarchies.  hashtable_size asserts that the table is
    not NULL (hashtable.c:457-462).  The answer is the int 1: the dictionary is in the member. *)
Definition py_get_hierarchies (p : py) (m : dmembers) : res (dmembers * Z) :=
  let! ds := dict_xdecref (m_hier m) (m_dicts m) in
  match g_scan p with
  | NoScan => UB
  | Raw o | Used o =>
      match o_res o with
      | None => Abort
      | Some r =>
          let! d := fill_levels (o_n o) (r_hier r) (ModelPrint.key_order (r_hier r)) [] in
          Ok (mk_dm (m_map m) (Some (length ds)) (ds ++ [Some (2, d)]), 1%Z)
      end
  end.

(** Reading a member from Python: None when it is NULL; the object itself when it is alive. *)
Definition read_dict (p : option nat) (m : dmembers) : res (option dict) :=
  match p with
  | None => Ok None
  | Some id => match nth_error (m_dicts m) id with Some (Some (_, d)) => Ok (Some d) | _ => UB end
  end.
(** The program drops the reference it got from a call. *)
Definition drop (p : option nat) (m : dmembers) : res dmembers :=
  let! ds := dict_xdecref p (m_dicts m) in Ok (mk_dm (m_map m) (m_hier m) ds).
