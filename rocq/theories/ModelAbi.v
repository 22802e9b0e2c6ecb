(** Model of the layout of the library's records, which one header declares for C and for
    C++ (include/hdbscan/*.h).  The four records with a virtual destructor have, in C++, a
    pointer to the table of virtual functions in front of their members (x86-64, System V
    and Itanium C++ ABI); the C code that fills them does not know of it.
    Simplification: a member that is a record itself is given by its members (distance in
    hdbscan, stats_values in clustering_stats; each is followed by a member aligned to 8 or
    by nothing). *)
From Verif Require Import Base.
Local Open Scope nat_scope.

(** A record: the size of each member in bytes (4: label_t, index_t, int32_t, boolean, enum;
    8: double, pointer, size_t, int64_t) and whether C++ gives it virtual functions. *)
Record decl := mk_decl { d_sizes : list nat; d_virtual : bool }.

(** include/hdbscan/outlier_score.h:54-57, 79: score, coreDistance, id. *)
Definition d_outlier := mk_decl [8; 8; 4] true.
(** include/hdbscan/cluster.h:54-69, 90: label, birthLevel, deathLevel, numPoints, offset,
    stability, propagatedStability, propagatedLowestChildDeathLevel,
    numConstraintsSatisfied, propagatedNumConstraintsSatisfied, virtualChildCluster, parent,
    propagatedDescendants, hasChildren. *)
Definition d_cluster := mk_decl [4; 8; 8; 4; 8; 8; 8; 8; 4; 4; 8; 8; 8; 4] true.
(** include/hdbscan/undirected_graph.h:49-55, 59: numVertices, verticesA, verticesB,
    edgeWeights, edges. *)
Definition d_graph := mk_decl [4; 8; 8; 8; 8] true.
(** include/hdbscan/constraint.h:68-71, 83: type, pointA, pointB. *)
Definition d_constraint := mk_decl [4; 4; 4] true.
(** include/hdbscan/hdbscan.h:128-139 with include/hdbscan/distance.h:67-74: distances,
    coreDistances, rows, cols, internalRows, internalCols, numNeighbors, cal, datatype; mst,
    constraints, coreDistances, clusters, outlierScores, clusterLabels, hierarchy,
    clusterStabilities, selfEdges, minPoints, minClusterSize, numPoints. *)
Definition d_hdbscan := mk_decl ([8; 8; 4; 4; 4; 4; 4; 4; 4] ++ [8; 8; 8; 8; 8; 8; 8; 8; 4; 4; 4; 4]) false.
(** include/hdbscan/hdbscan.h:79-87 distance_values. *)
Definition d_distance_values := mk_decl [8; 8; 8; 8; 8; 8] false.
(** include/hdbscan/hdbscan.h:93-100, 107-111 clustering_stats. *)
Definition d_stats := mk_decl [4; 8; 8; 8; 8; 8; 8; 8; 8; 8; 8; 8; 8] false.
(** include/hdbscan/hdbscan.h:118-121 hierarchy_entry. *)
Definition d_hierarchy_entry := mk_decl [8; 8] false.
(** modules/collections/include/collections/list.h:71-77 ArrayList. *)
Definition d_list := mk_decl [8; 8; 8; 8; 8] false.

(** Every member starts at the first multiple of its size; the record is padded to a
    multiple of its largest member. *)
Definition align_up (o a : nat) : nat := (o + (a - 1)) / a * a.
Fixpoint member_end (o : nat) (sizes : list nat) : nat :=
  match sizes with [] => o | s :: l => member_end (align_up o s + s) l end.
Fixpoint member_at (o : nat) (sizes : list nat) (f : nat) : nat :=
  match sizes with
  | [] => o
  | s :: l => match f with O => align_up o s | S f' => member_at (align_up o s + s) l f' end
  end.
Definition record_size (o : nat) (sizes : list nat) : nat := align_up (member_end o sizes) (fold_right Nat.max (Nat.max 1 o) sizes).

(** As the C compiler and as the C++ compiler lay it out. *)
Definition c_start : nat := 0.
Definition cpp_start (d : decl) : nat := if d_virtual d then 8 else 0.
Definition c_size (d : decl) : nat := record_size c_start (d_sizes d).
Definition cpp_size (d : decl) : nat := record_size (cpp_start d) (d_sizes d).

(** Memory of one block by bytes; [None]: never written.  Access outside is UB. *)
Definition block := list (option Z).
Definition store (m : block) (at_ : nat) (v : list Z) : res block :=
  if at_ + length v <=? length m then Ok (firstn at_ m ++ map Some v ++ skipn (at_ + length v) m) else UB.
Definition load (m : block) (at_ len : nat) : res (list (option Z)) :=
  if at_ + len <=? length m then Ok (firstn len (skipn at_ m)) else UB.

(** The C code fills the members of a record at [base] (outlier_score.c:54-56,
    hdbscan.c:1186-1188, cluster.c:63-86, undirected_graph.c:59-63; the order of the stores
    has no effect). *)
Fixpoint c_fill (m : block) (base o : nat) (sizes : list nat) (vs : list (list Z)) : res block :=
  match sizes, vs with
  | s :: sizes', v :: vs' => let o := align_up o s in let! m := store m (base + o) v in c_fill m base (o + s) sizes' vs'
  | _, _ => Ok m
  end.
Fixpoint c_fill_all (d : decl) (m : block) (base : nat) (rows : list (list (list Z))) : res block :=
  match rows with
  | [] => Ok m
  | vs :: rows' => let! m := c_fill m base c_start (d_sizes d) vs in c_fill_all d m (base + c_size d) rows'
  end.
(** A block for [n] records, filled by C (one record: n = 1). *)
Definition c_array (d : decl) (rows : list (list (list Z))) : res block :=
  c_fill_all d (repeat None (length rows * c_size d)) 0 rows.

(** p[i].member as C and as C++ compile it. *)
Definition c_read (d : decl) (m : block) (i f : nat) : res (list (option Z)) :=
  load m (i * c_size d + member_at c_start (d_sizes d) f) (nth f (d_sizes d) 0).
Definition cpp_read (d : decl) (m : block) (i f : nat) : res (list (option Z)) :=
  load m (i * cpp_size d + member_at (cpp_start d) (d_sizes d) f) (nth f (d_sizes d) 0).
