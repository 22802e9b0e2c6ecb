(** The functions that print results, without DEBUG.  Each answers the text it writes. *)
From Verif Require Import Base F64 ModelText ModelUtils ModelArrayList ModelDistance ModelGraph ModelCluster ModelHier ModelMap.
Local Open Scope string_scope.

Section Print.
(** The text of a NaN and the date of the log. *)
Variables nan date : string.
Notation "a +++ b" := (let! x := a in let! y := b in Ok (x ++ y)) (at level 60, right associativity).
Definition log := logger_write date NONE.

(** distance.c:277-290 distances_print: char s[20]. *)
Definition distances_print (d : distance) : res string :=
  print_all (fun i =>
    log "[" +++
    print_all (fun j =>
      let! v := distance_get d (Z.of_nat i) (Z.of_nat j) in
      let! s := sprintf 20 "" (fmt nan 6 v ++ " ") in log s) (seq (S i) (Z.to_nat (d_rows d) - S i)) +++
    log ("]" ++ newline)) (seq 0 (Z.to_nat (d_rows d))).

(** A list of numbers, each followed by [sep]: loops in undirected_graph.c:279-307, 318-321. *)
Definition numbers {T} (size : nat) (sep : string) (f : T -> string) (l : list T) : res string :=
  print_all (fun x => let! s := sprintf size "" (f x ++ sep) in log s) l.
(** undirected_graph.c:266-326 graph_print: char s[300].  The vertices are printed with %d. *)
Definition graph_print (n : nat) (va vb : list Z) (w : list f64) (adj : list (list Z)) : res string :=
  let int v := dec (i32_of_u32 v) in
  let len {T} (l : list T) := dec (Z.of_nat (List.length l)) in
  let! s := sprintf 300 "" ("numVertices: " ++ dec (Z.of_nat n) ++ ", verticesA.length: " ++ len va ++ ",  verticesB.length: " ++ len vb
              ++ ", edgeWeights.length: " ++ len w ++ ", edges.length: " ++ dec (Z.of_nat n) ++ newline) in
  let! s := sprintf 300 s (newline ++ "Vertices A" ++ newline) in
  log s +++
  print_all (fun v => Ok (int v ++ ", ")) va +++
  log (newline ++ newline ++ "Vertices B" ++ newline) +++
  numbers 300 ", " int vb +++
  log (newline ++ newline ++ "nedgeWeights" ++ newline) +++
  numbers 300 ", " (fmt nan 6) w +++
  log (newline ++ newline ++ "Edges" ++ newline) +++
  print_all (fun l => log "[" +++ numbers 300 ", " int l +++ log ("]" ++ newline)) adj.

(** hdbscan.c:1795-1820 hdbscan_print_cluster_map: char s[50]. *)
Definition print_cluster_map (t : ptable (alist Z)) : res string :=
  print_all (fun i =>
    let! key := pt_key t i in
    let! l := pt_deref t key in
    let! s := sprintf 50 "" (dec (i32_of_u32 key) ++ " -> [") in
    log s +++
    print_all (fun j =>
      let! v := slot (al_data l) j in
      let! s := sprintf 50 "" (dec (i32_of_u32 v) ++ " ") in log s) (seq 0 (al_size l)) +++
    log ("]" ++ newline)) (seq 0 (pt_size t)).

(** hdbscan.c:1827-1841 hdbscan_print_cluster_sizes: char s[50]. *)
Definition print_cluster_sizes (t : ptable (alist Z)) : res string :=
  print_all (fun i =>
    let! key := pt_key t i in
    let! l := pt_deref t key in
    let! s := sprintf 50 "" (dec (i32_of_u32 key) ++ " : " ++ dec (Z.of_nat (al_size l)) ++ newline) in log s) (seq 0 (pt_size t)).

Definition slashes (k : nat) : string := string_of_list_ascii (repeat "/"%char k).

(** hdbscan.c:1850-1910 hdbscan_print_hierarchies.  With a file name, the names of two files
    are put together in arrays of the stack (1858-1868); what is written to the files is not
    modelled.  hierarchy->keys is a sorted set. *)
Fixpoint key_insert (k : nat) (l : list nat) : list nat :=
  match l with [] => [k] | x :: r => if (k <=? x)%nat then k :: l else x :: key_insert k r end.
Definition key_order (es : entries) : list nat := fold_right key_insert [] (map fst es).
(** 1859-1860 and 1867-1868: [m] is what the array contains before. *)
Definition file_name (m : list (option ascii)) (name suffix : string) : res (list (option ascii)) :=
  let! m := strcat m name in strcat m suffix.
Definition file_names (filename : option string) : res unit :=
  match filename with
  | None => Ok tt
  | Some name =>
      let! v := file_name (repeat None 300) name "_visualization.vis" in
      let! h := file_name (repeat None 100) name "_hierarchy.csv" in
      Ok tt
  end.
Definition print_hierarchies (es : entries) (n : nat) (filename : option string) : res string :=
  let! _ := file_names filename in
  logger_write date INFO (newline ++ slashes 54 ++ " Printing Hierarchies " ++ slashes 54 ++ newline) +++
  (let! s := sprintf 100 "" ("hierarchy size = " ++ dec (Z.of_nat (List.length es)) ++ newline) in logger_write date INFO s) +++
  print_all (fun level =>
    match hget es level with
    | None => UB
    | Some (w, labels) =>
        Ok (dec (Z.of_nat level) ++ " : " ++ fmt nan 15 w ++ " -> [") +++
        print_all (fun j => let! c := aget labels j in Ok (dec (i32_of_u32 (Z.of_nat c)) ++ " ")) (seq 0 n) +++
        Ok ("]" ++ newline)
    end) (key_order es) +++
  logger_write date INFO (slashes 134 ++ newline ++ newline).

(** hdbscan.c:1912-1925 hdbscan_print_outlier_scores: char s[100]. *)
Definition print_outlier_scores (l : list outlier) : res string :=
  log (newline ++ slashes 54 ++ " Printing outlier Scores " ++ slashes 54 ++ newline) +++
  print_all (fun o =>
    let! s := sprintf 100 "" (dec (os_id o) ++ " : (" ++ pad 6 (fmt nan 6 (os_core o)) ++ ", " ++ pad 6 (fmt nan 6 (os_score o)) ++ ")" ++ newline) in
    log s) l +++
  log (slashes 134 ++ newline ++ newline).

(** hdbscan.c:1932-1952 hdbscan_print_distance_map: char s[512]. *)
Definition print_distance_map (t : ptable dvals) : res string :=
  log (newline ++ slashes 55 ++ " Printing Distances " ++ slashes 55 ++ newline) +++
  print_all (fun i =>
    let! key := pt_key t i in
    let! v := pt_deref t key in
    let! s := sprintf 512 "" (dec (i32_of_u32 key) ++ " -> {" ++ newline) in
    let! s := sprintf 512 s (tab ++ "min_cr : " ++ fmt nan 6 (v_min_cr v) ++ ", max_cr : " ++ fmt nan 6 (v_max_cr v) ++ ", cr_confidence : " ++ fmt nan 6 (v_cr_conf v) ++ newline) in
    let! s := sprintf 512 s (tab ++ "min_dr : " ++ fmt nan 6 (v_min_dr v) ++ ", max_dr : " ++ fmt nan 6 (v_max_dr v) ++ ", dr_confidence : " ++ fmt nan 6 (v_dr_conf v) ++ newline) in
    let! s := sprintf 512 s ("}" ++ newline ++ newline) in
    log s) (seq 0 (pt_size t)) +++
  log (slashes 135 ++ newline ++ newline).

(** hdbscan.c:1963-1968, 1970-1975: the six lines of a series. *)
Definition stat_line (name value : string) : string := name ++ value ++ newline.
Definition series_lines (who : string) (s : svals) : list string :=
  [ stat_line (who ++ " - Max 			: ") (fmt nan 5 (sv_max s));
    stat_line (who ++ " - Mean 			: ") (fmt nan 5 (sv_mean s));
    stat_line (who ++ " - Skewness 		: ") (fmt nan 5 (sv_skew s));
    stat_line (who ++ " - Kurtosis 		: ") (fmt nan 5 (sv_kurt s));
    stat_line (who ++ " - Variance 		: ") (fmt nan 5 (sv_var s));
    stat_line (who ++ " - Standard Dev 	: ") (fmt nan 5 (sv_sd s)) ].
Fixpoint sprintf_all (size : nat) (s : string) (l : list string) : res string :=
  match l with [] => Ok s | t :: l => let! s := sprintf size s t in sprintf_all size s l end.
(** hdbscan.c:1959-1980 hdbscan_print_stats: char s[1200].  The empty line after the first
    series (1968) is written by its own call here: the text and the buffer are the same. *)
Definition stats_lines (s : cstats) : list string :=
  [slashes 54 ++ " Statistical Values " ++ slashes 56 ++ newline; "Cluster Count 					: " ++ dec (i32_of_u32 (st_count s)) ++ newline]
  ++ series_lines "Core Distances" (st_core s) ++ [newline] ++ series_lines "Intra Distances" (st_intra s) ++ [slashes 134 ++ newline ++ newline].
Definition print_stats (s : cstats) : res string :=
  let! t := sprintf_all 1200 "" (stats_lines s) in log t.
End Print.
