(** The functions that print results in C++ (src/hdbscan.cpp:191-234) and the two printing
    functions of src/hdbscan.c:738-802 that use no buffer, all without DEBUG.  Each answers the
    text it writes. *)
From Verif Require Import Base F64 ModelText ModelUtils ModelArrayList ModelDistance ModelMap ModelCpp ModelPrint.
Local Open Scope string_scope.

Section Print.
(** The text of a NaN. *)
Variable nan : string.
Notation "a +++ b" := (let! x := a in let! y := b in Ok (x ++ y)) (at level 60, right associativity).
(** printf to the standard output. *)
Definition printf (t : string) : res string := Ok t.

(** hdbscan.cpp:191-204 printClusterMap.  The index of the loop has 32 bits: vectors have fewer
    than 2^32 elements. *)
Definition cpp_print_cluster_map (m : smap (list Z)) : res string :=
  print_all (fun e =>
    printf (dec (i32_of_u32 (fst e)) ++ " -> [") +++
    print_all (fun j => let! v := aget (snd e) j in printf (dec (i32_of_u32 v) ++ " ")) (seq 0 (List.length (snd e))) +++
    printf ("]" ++ newline)) m.

(** hdbscan.cpp:206-213 printClusterSizes. *)
Definition cpp_print_cluster_sizes (m : smap (list Z)) : res string :=
  print_all (fun e => printf (dec (i32_of_u32 (fst e)) ++ " : " ++ dec (Z.of_nat (List.length (snd e))) ++ newline)) m.

(** hdbscan.cpp:215-230 printDistanceMap. *)
Definition cpp_print_distance_map (m : smap dvals) : res string :=
  printf (newline ++ slashes 40 ++ " Distances " ++ slashes 47 ++ newline) +++
  print_all (fun e =>
    printf (dec (i32_of_u32 (fst e)) ++ " -> {" ++ newline) +++
    printf ("min_cr : " ++ fmt nan 6 (v_min_cr (snd e)) ++ ", max_cr : " ++ fmt nan 6 (v_max_cr (snd e)) ++ ", cr_confidence : " ++ fmt nan 6 (v_cr_conf (snd e)) ++ newline) +++
    printf ("min_dr : " ++ fmt nan 6 (v_min_dr (snd e)) ++ ", max_dr : " ++ fmt nan 6 (v_max_dr (snd e)) ++ ", dr_confidence : " ++ fmt nan 6 (v_dr_conf (snd e)) ++ newline) +++
    printf ("}" ++ newline ++ newline)) m +++
  printf (slashes 87 ++ newline ++ newline).

(** hdbscan.cpp:232-234 printStats. *)
Definition cpp_print_stats (date : string) (s : cstats) : res string := print_stats nan date s.

(** hdbscan.c:738-766 print_distances; [n] is sc->numPoints. *)
Definition print_distances (d : distance) (n : nat) : res string :=
  print_all (fun i =>
    printf "[" +++
    print_all (fun j => let! v := distance_get d (Z.of_nat i) (Z.of_nat j) in printf (fmt nan 6 v ++ " ")) (seq 0 n) +++
    printf ("]" ++ newline)) (seq 0 n) +++
  printf newline.

(** hdbscan.c:775-802 print_graph_components. *)
Definition print_graph_components (near others : alist Z) (ds : alist f64) : res string :=
  printf (string_of_list_ascii (repeat ">"%char 48) ++ "nearestMRDNeighbors" ++ string_of_list_ascii (repeat ">"%char 55) ++ newline) +++
  print_all (fun i =>
    let! a := slot (al_data near) i in
    let! b := slot (al_data others) i in
    let! d := slot (al_data ds) i in
    printf (dec (Z.of_nat i) ++ " --- (" ++ dec (i32_of_u32 a) ++ ", " ++ dec (i32_of_u32 b) ++ ") : " ++ fmt nan 6 d ++ newline)) (seq 0 (al_size near)) +++
  printf (newline ++ string_of_list_ascii (repeat ">"%char 103) ++ newline ++ newline ++ newline ++ newline).
End Print.
