(** Model of the Java binding: modules/java/src/Hdbscan.cpp and
    modules/java/src/bw/co/roguesystems/Hdbscan.java.

    Not modelled: null references, exhaustion of the stack by the array [tmp]
    (Hdbscan.cpp:53), the memory that a second run leaves behind (C54), and
    [delete dset] (Hdbscan.cpp:85) for memory obtained with [new double[]], which the C++
    standard leaves undefined and the usual allocators accept.  cleanHdbscan does nothing
    (Hdbscan.cpp:96-98, and its name does not match the Java class). *)
From Verif Require Import Base F64 ModelUtils ModelDistance ModelMst ModelGraph ModelCluster ModelHier ModelSelect ModelRun.
Local Open Scope nat_scope.

(** The object [hdbscan scan] of the library (Hdbscan.cpp:45), one per process, and the field
    [labels] of each Java object created so far (Hdbscan.java:37); [None] is null. *)
Record jvm := mk_jvm { j_scan : hdb; j_labels : list (option (list Z)) }.

(** Hdbscan.cpp:45 with the default constructor hdbscan.cpp:47-49. *)
Definition jvm_start : res jvm := let! o := hdbscan_init 3 in Ok (mk_jvm o []).

(** hdbscan.c:109-133 hdbscan_init on an object that may have been used: numPoints and
    distanceFunction keep their values, clusters, labels and scores are forgotten. *)
Definition hdbscan_init_again (minPoints : Z) (o : hdb) : res hdb :=
  if (1 <? minPoints)%Z then Ok (mk_hdb minPoints (o_n o) true (o_dist o) None None) else Abort.

(** Hdbscan.java:70-72 constructor, Hdbscan.cpp:47-49 initHdbscan (jint to index_t). *)
Definition java_new (minPoints : Z) (v : jvm) : res jvm :=
  let! o := hdbscan_init_again (u32 minPoints) (j_scan v) in Ok (mk_jvm o (j_labels v ++ [None])).

(** Hdbscan.cpp:78-81: the first [cols] numbers of a row; a shorter row is read past its
    end. *)
Fixpoint copy_row (cols : nat) (row : list f64) : res (list f64) :=
  match cols, row with
  | O, _ => Ok []
  | S c, x :: row' => let! l := copy_row c row' in Ok (x :: l)
  | S _, [] => UB
  end.
(** Hdbscan.cpp:74-82. *)
Fixpoint copy_rows (cols : nat) (rows : list (list f64)) : res (list f64) :=
  match rows with
  | [] => Ok []
  | r :: rows' => let! a := copy_row cols r in let! b := copy_rows cols rows' in Ok (a ++ b)
  end.
(** Hdbscan.cpp:68-82: element 0 of an empty array is not an array; the product is computed
    in int.  Returns the number of columns and the copy. *)
Definition flatten (rows : list (list f64)) : res (nat * list f64) :=
  match rows with
  | [] => UB
  | r :: _ =>
      if in_i32 (Z.of_nat (length rows) * Z.of_nat (length r))
      then let! l := copy_rows (length r) rows in Ok (length r, l) else UB
  end.

(** Hdbscan.cpp:51-64 getLabelsArray: the first [rows] labels as int32_t.  The iterations of
    the loop (OpenMP) are independent. *)
Definition get_labels_array (o : hdb) (rows : nat) : res (list Z) :=
  match o_res o with
  | None => UB
  | Some r => if rows <=? length (r_labels r) then Ok (map (fun l => i32_of_u32 (u32 (Z.of_nat l))) (firstn rows (r_labels r))) else UB
  end.

(** Hdbscan.java:78-80 run, Hdbscan.cpp:66-88 runImpl, called on object [i]. *)
Definition java_run (fuel : nat) (s : schedule) (qsort : list outlier -> list outlier) (i : nat) (rows : list (list f64)) (v : jvm) : res jvm :=
  let! cd := flatten rows in
  let (cols, l) := cd in
  let! o := hdbscan_run fuel s qsort (DDouble l) (length rows) cols true (j_scan v) in
  let! lab := get_labels_array o (length rows) in
  Ok (mk_jvm o (upd (j_labels v) i (Some lab))).

(** Hdbscan.java:86-88 reRun, Hdbscan.cpp:91-94 reRunImpl. *)
Definition java_rerun (fuel : nat) (s : schedule) (qsort : list outlier -> list outlier) (i : nat) (minPts : Z) (v : jvm) : res jvm :=
  let! o := hdbscan_rerun fuel s qsort (u32 minPts) (j_scan v) in
  let! lab := get_labels_array o (o_n o) in
  Ok (mk_jvm o (upd (j_labels v) i (Some lab))).

(** A program: objects are numbered in the order of their creation. *)
Inductive jcall := JNew (minPoints : Z) | JRun (i : nat) (rows : list (list f64)) (s : schedule) | JRerun (i : nat) (minPts : Z) (s : schedule).
Definition java_call (fuel : nat) (qsort : list outlier -> list outlier) (c : jcall) (v : jvm) : res jvm :=
  match c with
  | JNew m => java_new m v
  | JRun i rows s => java_run fuel s qsort i rows v
  | JRerun i m s => java_rerun fuel s qsort i m v
  end.
Fixpoint java_calls (fuel : nat) (qsort : list outlier -> list outlier) (cs : list jcall) (v : jvm) : res jvm :=
  match cs with [] => Ok v | c :: cs' => let! v := java_call fuel qsort c v in java_calls fuel qsort cs' v end.

(** Hdbscan.java:102-124 getClusterMap.  java.util.HashMap and ArrayList are taken as a finite
    map and a sequence: [jput] replaces the value stored for the key. *)
Definition jtable := list (Z * list nat).
Fixpoint jget (t : jtable) (k : Z) : option (list nat) :=
  match t with [] => None | (k', l) :: t' => if (k' =? k)%Z then Some l else jget t' k end.
Fixpoint jput (t : jtable) (k : Z) (l : list nat) : jtable :=
  match t with [] => [(k, l)] | (k', l') :: t' => if (k' =? k)%Z then (k, l) :: t' else (k', l') :: jput t' k l end.
Definition cluster_step (labels : list Z) (t : jtable) (i : nat) : jtable :=
  let key := nth i labels 0%Z in
  match jget t key with None => jput t key [i] | Some l => jput t key (l ++ [i]) end.
Definition java_cluster_map (labels : option (list Z)) : option jtable :=
  match labels with
  | None => None
  | Some labels => if length labels =? 0 then None else Some (fold_left (cluster_step labels) (seq 0 (length labels)) [])
  end.
