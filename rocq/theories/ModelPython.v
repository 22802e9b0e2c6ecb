(** Model of the Python binding: modules/python/src/PyHdbscan.c, the functions dealloc, new,
    init, get_labels, run and rerun.

    A reference count is kept for the lists of labels only, the one kind of Python object
    that these functions release.  getClusterMap and getHierarchies are in ModelPyDict.v, the
    life of their arrays in PropPointers.v.  Not modelled: the references that are never released (the
    contiguous copy of the data, PyHdbscan.c:214, and the numbers in a list, 163), arguments
    of the wrong kind, setting the members from Python, the setting of exceptions, and the
    memory left behind by a second run (C54) or by overwriting [scan] (139). *)
From Verif Require Import Base F64 ModelUtils ModelDistance ModelMst ModelGraph ModelCluster ModelHier ModelSelect ModelRun.
Local Open Scope nat_scope.

(** The variable [scan] (PyHdbscan.c:57): NULL; an object from hdbscan_init whose distances
    and tree were never set; an object that has been run, perhaps cleaned since (then it has
    no distances and no clusters). *)
Inductive scan_state := NoScan | Raw (o : hdb) | Used (o : hdb).

(** PyHdbscan.c:63-69 PyHdbscan; labels is NULL or a Python list.  Objects that are gone are
    [None]. *)
Record pyobj := mk_pyobj { y_min : Z; y_cols : nat; y_rows : nat; y_labels : option nat }.
(** Python lists with their reference counts; [None] when freed. *)
Record py := mk_py { g_scan : scan_state; g_objs : list (option pyobj); g_lists : list (option (nat * list Z)) }.
Definition py_start : py := mk_py NoScan [] [].

(** Py_XDECREF on a list: the last reference frees it; releasing a freed one is undefined. *)
Definition xdecref (p : option nat) (ls : list (option (nat * list Z))) : res (list (option (nat * list Z))) :=
  match p with
  | None => Ok ls
  | Some id => match nth_error ls id with
      | Some (Some (S O, _)) => Ok (upd ls id None)
      | Some (Some (S c, l)) => Ok (upd ls id (Some (c, l)))
      | _ => UB
      end
  end.

(** hdbscan.c:198-214 hdbscan_clean: frees the distances, the clusters and the results; with
    NULL or an object that was never run it follows a bad pointer (C54). *)
Definition scan_clean (g : scan_state) : res scan_state :=
  match g with
  | Used o => Ok (Used (mk_hdb (o_min o) (o_n o) (o_self o) None None None))
  | _ => UB
  end.

(** PyHdbscan.c:76-82 PyHdbscan_dealloc (the references to clusterMap and hierarchy are
    NULL here). *)
Definition py_dealloc (labels : option nat) (p : py) : res py :=
  let! g := scan_clean (g_scan p) in
  let! ls := xdecref labels (g_lists p) in
  Ok (mk_py g (g_objs p) ls).

(** PyHdbscan.c:92-142 PyHdbscan_new and PyHdbscan_init.  The format "I" reduces the argument
    modulo 2^32.  When minPoints is too small the new object is given up, which calls
    dealloc. *)
Definition py_new (minPoints : Z) (p : py) : res py :=
  let m := u32 minPoints in
  if (m <? 2)%Z then let! p := py_dealloc None p in Ok (mk_py (g_scan p) (g_objs p ++ [None]) (g_lists p))
  else let! o := hdbscan_init m in Ok (mk_py (Raw o) (g_objs p ++ [Some (mk_pyobj m 0 0 None)]) (g_lists p)).

(** PyHdbscan.c:150-165 get_labels followed by Py_INCREF (235, 270): a new list with the
    first [rows] labels; two references. *)
Definition get_labels (self : pyobj) (o : hdb) (ls : list (option (nat * list Z))) : res (pyobj * list (option (nat * list Z))) :=
  match o_res o with
  | None => UB
  | Some r =>
      if y_rows self <=? length (r_labels r)
      then Ok (mk_pyobj (y_min self) (y_cols self) (y_rows self) (Some (length ls)),
               ls ++ [Some (2, map (fun l => u32 (Z.of_nat l)) (firstn (y_rows self) (r_labels r)))])
      else UB
  end.

(** A numpy array: its type and elements, and its dimensions. *)
Inductive elements := NDouble (l : list f64) | NFloat (l : list f32) | NInt (l : list Z) | NLong (l : list Z) | NShort (l : list Z) | NOther.
Record narray := mk_narray { n_elements : elements; n_dims : list nat }.

(** PyHdbscan.c:182-209: the datatype. *)
Definition datatype_of (e : elements) : option dataset :=
  match e with
  | NDouble l => Some (DDouble l) | NFloat l => Some (DFloat l) | NInt l => Some (DInt l) | NLong l => Some (DLong l) | NShort l => Some (DShort l)
  | NOther => None
  end.
(** PyHdbscan.c:216-227: rows and columns; reading a dimension that does not exist is
    undefined. *)
Definition shape_of (dims : list nat) : res (nat * nat) :=
  match dims with
  | [r] => Ok (r, 1)
  | r :: c :: _ => Ok (r, c)
  | [] => UB
  end.

(** An object of the program.  Calling a method of one that is gone is impossible in Python. *)
Definition self_of (i : nat) (p : py) : res pyobj := match nth_error (g_objs p) i with Some (Some s) => Ok s | _ => UB end.

(** PyHdbscan.c:174-239 PyHdbscan_run on object [i]; the list of an earlier run keeps its
    references. *)
Definition py_run (fuel : nat) (s : schedule) (qsort : list outlier -> list outlier) (i : nat) (a : narray) (p : py) : res py :=
  let! self := self_of i p in
  match datatype_of (n_elements a) with
  | None => Ok p
  | Some ds =>
      let! rc := shape_of (n_dims a) in
      let self := mk_pyobj (y_min self) (snd rc) (fst rc) (y_labels self) in
      match g_scan p with
      | NoScan => UB
      | Raw o | Used o =>
          let! o := hdbscan_run fuel s qsort ds (fst rc) (snd rc) true o in
          let! sl := get_labels self o (g_lists p) in
          Ok (mk_py (Used o) (upd (g_objs p) i (Some (fst sl))) (snd sl))
      end
  end.

(** PyHdbscan.c:248-273 PyHdbscan_rerun on object [i].  The reference to the labels is
    released before the argument is looked at; the format "i" accepts the values of int. *)
Definition py_rerun (fuel : nat) (s : schedule) (qsort : list outlier -> list outlier) (i : nat) (minPts : Z) (p : py) : res py :=
  let! self := self_of i p in
  let! ls := xdecref (y_labels self) (g_lists p) in
  if negb (in_i32 minPts) then Ok (mk_py (g_scan p) (g_objs p) ls)
  else
    let m := u32 minPts in
    let self := mk_pyobj m (y_cols self) (y_rows self) (y_labels self) in
    if (m <? 2)%Z then Ok (mk_py (g_scan p) (upd (g_objs p) i (Some self)) ls)
    else
      match g_scan p with
      | Used o =>
          let! o := hdbscan_rerun fuel s qsort m o in
          let! sl := get_labels self o ls in
          Ok (mk_py (Used o) (upd (g_objs p) i (Some (fst sl))) (snd sl))
      | _ => UB
      end.

(** The last reference to object [i] goes away. *)
Definition py_del (i : nat) (p : py) : res py :=
  let! self := self_of i p in
  let! p := py_dealloc (y_labels self) p in
  Ok (mk_py (g_scan p) (upd (g_objs p) i None) (g_lists p)).

(** Reading the member labels (PyHdbscan.c:355): None when there is no list yet. *)
Definition py_labels (i : nat) (p : py) : res (option (list Z)) :=
  let! self := self_of i p in
  match y_labels self with
  | None => Ok None
  | Some id => match nth_error (g_lists p) id with Some (Some (_, l)) => Ok (Some l) | _ => UB end
  end.

(** A program: objects are numbered in the order of their creation, rejected ones included. *)
Inductive pcall := PNew (minPoints : Z) | PRun (i : nat) (a : narray) (s : schedule) | PRerun (i : nat) (minPts : Z) (s : schedule) | PDel (i : nat).
Definition py_call (fuel : nat) (qsort : list outlier -> list outlier) (c : pcall) (p : py) : res py :=
  match c with
  | PNew m => py_new m p
  | PRun i a s => py_run fuel s qsort i a p
  | PRerun i m s => py_rerun fuel s qsort i m p
  | PDel i => py_del i p
  end.
Fixpoint py_calls (fuel : nat) (qsort : list outlier -> list outlier) (cs : list pcall) (p : py) : res py :=
  match cs with [] => Ok p | c :: cs' => let! p := py_call fuel qsort c p in py_calls fuel qsort cs' p end.
