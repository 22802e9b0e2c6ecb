# Formal model of ojmakhura/hdbscan in Rocq (Coq 8.16.1)

The model covers the default build configuration: `index_t = label_t = unsigned int`
(32 bit), `distance_t = double`, `D_MAX = DBL_MAX`, `D_MIN = DBL_MIN`, OpenMP on,
assertions on (CMakeLists.txt:23-38 sets no NDEBUG), 64 bit `size_t`.

## 1. Conventions

* **Outcome type** (`Base.v`): `Ok a`, `UB` (undefined behaviour: out-of-range access,
  NULL or uninitialised dereference, signed overflow, unterminated copy), `Abort`
  (failed `assert`), `Fuel` (a loop bound of the model ran out; theorems exclude it, or
  show it for genuinely non-terminating inputs).
* **Doubles** (`F64.v`): Flocq's executable IEEE-754 binary64 `binary_float 53 1024`
  (single NaN), comparisons have C semantics (false on NaN). Round to nearest even.
* **Integers**: `nat`/`Z` where no wrap is possible; explicit `mod 2^32`/`mod 2^64` where
  the code's arithmetic is the subject.
* **Containers in two layers**: concrete models (slots, capacity, chains with
  prev/next links) proved to refine sequences, sorted sets and maps (C01-C10). The
  algorithm models use those abstract values directly; C86 and C87 connect the two for the
  hierarchy and for whole runs.
* **OpenMP**: loops with independent iterations are modelled sequentially; where the
  property is about the schedule an explicit interleaving model is used.
* **malloc** never fails in the model, except in ModelOom.v (C103), where an arbitrary
  function says which requests are granted, and in ModelRefused.v (C104), where flags do. `qsort` is any function returning a sorted
  permutation when the comparison is a total preorder.

## 2. Plan per property

| id | modelled | proof |
|----|----------|-------|
| C01, C02, C05 | ArrayList as slots + size + max_size | refinement by induction over op lists; refutations by vm_compute |
| C03, C04 | set_t on top of the ArrayList model, binary search with signed indices | refinement to sorted duplicate-free lists |
| C06-C09 | hashtable with bucket array and doubly linked entries in a heap; byte-level value copy | refinement to a finite map; refutations |
| C10 | linked list nodes in a heap | refinement; refutations |
| C11, C12 | primes table (200 slots, 198 initialised), recursive search | finite sweep over the table lifted to all integers |
| C13 | comparison and hash functions | case analysis, lia |
| C14-C16, C55 | 32-bit index arithmetic, distance loop, interleavings of writes | arithmetic, commutation of disjoint writes |
| C17, C18 | the insertion buffer with its binary search | loop invariant |
| C19-C22 | Prim loop with all arrays | loop invariant, cut argument |
| C23, C24 | explicit-stack quicksort; adjacency lists | invariant: stack = disjoint unsorted segments |
| C25-C32 | hierarchy construction | invariant relating labels, remaining edges, cluster records |
| C33-C37 | propagation work list | invariant; exchange argument for optimality |
| C38, C39 | label extraction; interleaving model of the racy loop | lookup reasoning; witness schedule |
| C40, C41 | outlier scores | Flocq rounding lemmas for the range |
| C42-C49 | cluster map, min/max, statistics, sorting | folds, loop invariants |
| C50-C54 | run/rerun composition; field ownership state machine | composition; induction over histories |
| C56 | `hdbscan_run` with the orders of all its parallel loops as a parameter | the results of C33, C36, C38, C40 determine every observable value |
| C57 | `hdbscan_run` from the data to the labels | composition of C15, C20, C21, C23, C28, C38 |
| C61 | stability of the cluster records of the hierarchy | a ledger of departures in the hierarchy invariant; sign of the sum through Flocq |
| C62 | `hdbscan_run` from the data to the selected clusters | composition of C61, C35 and the parts of C51; a Euclidean distance is 0, NaN or at least DBL_MIN |
| C63 | the cluster records and noise levels of the hierarchy of a connected graph | the level-by-level invariant gives each cluster's birth component; conversely a component that splits is relabelled at the level its weight is removed |
| C64 | `hdbscan_run` against SpecMain.v, a specification in terms of distances and core distances | composition of C21, C30, C31, C61, C62, C63; edges below a weight have the components of the complete mutual-reachability graph |
| C65 | the outlier scores against SpecMain.v | composition of C26, C31, C36, C40, C63; clusters sharing a point are nested, the last cluster of a point is the smallest |
| C66 | `hdbscan_run` on a dataset with two equal rows | from C64 and C65: two points at distance 0 with equal core distances are joined at the same levels; symmetry of the distance in the model (ProofSym.v) |
| C67 | two runs over reordered data | from C64 and C65: the permutation carries the threshold graphs of one dataset onto those of the other, clusters and scores are functions of these graphs; core distances by C17; two computed counterexamples for the parts that fail |
| C68 | `hashtable_init`, `get_htype_size`, the choice of the hash function (ModelTable.v) | C06, C08, C11 and C13 instantiated with the integer hash and comparison and the sizes of the types |
| C69 | `hdbscan_run` | from C30 and C38: a label is given out for a cluster with minPoints points; selected clusters are disjoint; an inner cluster has two children, leaves are disjoint |
| C70 | Hdbscan.cpp and Hdbscan.java (ModelJava.v): one shared `hdbscan`, the labels field of each object | refinement: an abstract world with one minPoints and one dataset predicts the labels of each object, by induction on the calls; for programs that use the latest object it agrees with per-object expectations |
| C71 | `getClusterMap` | induction on the array; the table as an association list with its get and put laws |
| C72 | PyHdbscan.c new, init, dealloc, run, rerun, get_labels (ModelPython.v) with reference counts of the lists of labels | refinement as in C70, with an invariant linking the expected references to the counts; the refutations quantify over the states |
| C73 | the object of ModelLife.v | invariant of the allocated blocks, blocks are never reused |
| C74 | two runs side by side, from the distances to the hierarchy | a relational simulation of every function up to the hierarchy (ProofSim.v): related inputs compare the same way, so both runs take the same branches; ProofPair.v joins it to the results of `hdbscan_run` |
| C75 | two runs side by side, on data and on the data times 2^q | F64Scale.v: each operation of the code commutes with a scaling by a power of two while results stay clear of underflow and overflow (bounds on the grid and the size of every intermediate value); the simulation of C74 with the relation `x' = x * 2^q`, continued through stabilities, selection and outlier scores (ProofScale.v) |
| C76 | `distance_compute` on the four integer types; whole runs | sums of squares up to 2^53 are computed without rounding (Flocq), so the only rounding is that of the square root; a run reads the data only through the distances of pairs (`run_same`); a witness for the translation of doubles |
| C77 | printf's `%d` and `%.pf` (ModelText.v), `distances_print` | reading the digits back gives the number, or the scaled value rounded half to even; the length of the text of a double follows from its magnitude, so a buffer is large enough exactly when the values are small enough |
| C78 | `hdbscan_print_outlier_scores` after a run | core distances are distances (C29), scores are at most 1 when the root has split and about -DBL_MAX otherwise; lengths as in C77 |
| C79 | `hdbscan_print_hierarchies` | the sorted keys are 0..k-1; strcat on an array of uninitialised characters for the file names |
| C80 | the remaining print functions of hdbscan.c, `graph_print` | C44/C45 give the contents of the maps; lengths as in C77 |
| C81 | the kernel of cuda_distance.cu with binary32 operations (Flocq) | 8p+1 is converted to single precision with an error of at most 1; the rounded root lies in (2r-1, 2r+1] for r up to 4096, the remaining operations are exact; relative errors of Flocq; launches as lists of threads |
| C82 | `hashtable_init` for H_DOUBLE and H_FLOAT, its operations with the hash and comparison it installs | the tables are natural in the key type (ProofKeys.v), so a history over hashable doubles is one over integers with an ordinary order and hash; keys outside (-1, 2^64) stop in the hash |
| C83 | the same for H_STRING: the eight bytes of a pointer are hashed, compared with strcmp and stored | as C82, over the text of a pointer up to its first zero byte; witnesses for aliases and for equal texts |
| C84 | a distance object as its fields and the number of its blocks, over histories of operations | invariant: the fields are those of a new computation; filling the core distances does not depend on what was there; counting of blocks |
| C85 | `getClusterMap`, `getHierarchies` of the Python binding (ModelPyDict.v): dictionaries with reference counts, on top of the programs of C72 and the cluster map of C42 | the walk over the keys of the table by a loop invariant; the labels of an object are those of the shared state after every answering call (from C72); levels from C29 |
| C86 | hdbscan_compute_hierarchy_and_cluster_tree again, on the models of `ArrayList`, `set_t` and `hashtable` (ModelConcrete.v): blocks with capacity and unset slots, bisection, pointers to clusters | a simulation relation between the two models, function by function (ProofConcrete.v, ProofConcreteTable.v, ProofConcreteHier.v); totality from C25; labels stay below 2^31 by the number of clusters (C69) |
| C87 | hdbscan_run, hdbscan_rerun and what they call again, on the concrete containers (ModelConcreteRun.v): the list of clusters with its capacity, the hash tables of levels and of selected clusters, the list kept and cleared between runs | simulation (ProofConcreteRun.v); the table lists its keys sorted, the other model in order of insertion: the run is one with the steps permuted, and C38 fixes the labels for every order of the steps |
| C88 | graph_init, graph_clean, graph_destroy, graph_remove_edge and the sort with every block they allocate and free (ModelGraphLife.v, on the heap of C54), the C++ constructor and destructor | an invariant that counts the blocks of the graph and the rest of the heap; array_list_value_at beyond the end leaves the variable alone, so the two vertices are variables that start unset |
| C89 | cluster_add_constraints_satisfied and cluster_add_virtual_child_constraints_satisfied (ModelConstraint.v) before cluster_propagate and hdbscan_propagate_tree (ModelSelect.v, where the counts have been all along) | induction over the tree with the order constraints first, stability second; no counter exceeds the total reported, so none wraps below 2^32 |
| C90 | the layout of the records that headers declare for C and C++ (ModelAbi.v): offsets of members, padding, the table pointer in C++, blocks of bytes | members are stored at increasing, disjoint offsets; a read at an offset gives the bytes stored there; in C++ every offset of a record with a virtual destructor is moved |
| C91 | cluster_init, cluster_destroy, cluster_add_points_to_virtual_child_cluster, cluster_virtual_child_contains_point, cluster_release_virtual_child with their blocks (ModelClusterLife.v, on the heap of C54), the code of cluster_detach_points | an invariant between the objects and what the program knows of them; blocks once freed do not come back, so a call on a destroyed cluster is undefined; programs that are not allowed are shown undefined too |
| C92 | the hash table of C06-C09 (ModelHash.v) under histories with removals | a simulation between the heap of entries with its `next` and `prev` pointers and buckets as lists of runs (ProofRuns.v); a run's first entry has no `prev`, so its removal redirects the bucket; the runs are then compared with the map of SpecMap.v |
| C93 | the model of distances (ModelDistance.v) against real arithmetic (SpecAccuracy.v) | Flocq's error bounds for each operation, an invariant of the sum of squares with factors growing by 1 ± 2^-53 a step, Minkowski's inequality; overflow and underflow of the squares as refuted parts |
| C94 | core distances and whole runs against real arithmetic | the k-th smallest of values within factors is within the factors (counting); C57 gives the level of a cluster, and closeness at that level is enclosed between true closeness at two levels |
| C95 | two computations of core distances, and a run, on the same data | counting below and up to the two core distances (C17); the inclusion of the threshold graphs carries over to chains, C57 gives the level of a cluster |
| C96 | linkedlist.c, every operation, linkedlist_delete | simulation: the forward chain and the previous pointers that are still right (SpecChain.v); the size counts the dropped nodes too |
| C97 | every malloc, realloc and free of a run, of rerun, minimal_clean and clean, with the temporaries (ModelLedger.v, on the heap of C54); what the code decides in between (which list grows, which rounds are skipped, how many clusters appear) is an arbitrary record of decisions, so every run of the code is among them | each operation exchanges blocks of the heap: counting lemmas composed through the loops |
| C98 | array_list_sort, set_sort, array_list_find with sorted = 1 (ModelSortList.v); qsort is any sorting function | induction over histories; the search invariant for a weak order |
| C99 | C82 and C83 with removals | the renaming of keys to integers and to texts, applied to the runs of C92 |
| C100 | hdbscan_skew_kurt_1 and hdbscan_skew_kurt_2 as programs of a team of threads (ModelParStats.v) | an invariant over the steps of all interleavings (a member that is only given one value; the stages of the threads for the read-modify-write), constructed executions for the converse |
| C101 | the loads and stores of the iterations of the parallel loops (ModelLoops.v) | a loop without races leaves what each iteration leaves alone (invariant over all interleavings); the accesses of each loop computed and compared |
| C102 | the printing functions of C++, print_distances, print_graph_components (ModelCppPrint.v) | a number ends at the first character that no number contains; texts of numbers are injective (C77); induction over the lines |
| C103 | array_list_*, set_*, linkedlist_*_add, hashtable_init_size / insert / size / lookup, cluster_init / destroy, graph_init, create_outlier_score, constraint_create with a memory that can refuse any request (ModelOom.v) | simulation: until a refusal the step agrees with the step of ModelArrayList.v / ModelHash.v / ModelLinked.v and owns its blocks; case analysis of each refused request |
| C104 | hdbscan_init, hdbscan_run, hdbscan_do_run, distance_compute, the labels and the scores, with seven flags for the refused requests (ModelRefused.v) | the run without refusals (C51) is taken apart and the refused request put in its place; NULL is an array without elements, so that each access is undefined |
| C105 | getDset of the sample program: fgets, strtok, isspace, array_list_append (ModelSample.v) | induction over the words of a line and the lines of a file; the list by C01's representation; the run by C51 |
| C106 | main of the sample after a run: create_cluster_map, get_min_max_distances, calculate_stats, both sorts, the two destroy calls (ModelSession.v) | the result of a run (C51, C69) meets the hypotheses of C42-C49; coinciding points make every ratio DBL_MIN / DBL_MAX = 0, so every confidence is 0/0 |
| C107 | dummy_tester of the C++ sample after a run: createClusterMap, getMinMaxDistances, calculateStats, both sorts (ModelCppSession.v) | the result of a run meets the hypotheses of C59 and C60, which give the same maps as in C106; coinciding points as in C106 |
| C58-C60 | the C++ functions on `std::map` and `std::vector` | loop invariants; agreement with the C functions through a common fold over the members |

## 3. Trusted base

* Coq 8.16.1's kernel (including its virtual machine, used by `vm_compute`).
* The axioms listed per theorem in `ASSUMPTIONS.md` (generated from `Print Assumptions`).
  They are axioms of the standard library only: theorems that use double arithmetic go
  through Flocq and the standard library's real numbers and rest on
  `ClassicalDedekindReals.sig_not_dec`, `ClassicalDedekindReals.sig_forall_dec`,
  `FunctionalExtensionality.functional_extensionality_dep` and `Classical_Prop.classic`.
  All others are closed under the global context.  The development declares no axiom.
* The reading of the C sources: every definition of a `Model*.v` file cites the lines it
  models and says where it simplifies.  The code was not compiled or run.
* The meaning of C that the models fix: IEEE-754 binary64 with round to nearest even and
  no excess precision, 32 bit `int`/`unsigned`, 64 bit `long`/`size_t`, two's complement
  conversions, assertions enabled.

Assumptions about external code appear as hypotheses of the theorems, never as axioms:
`qsort` is any function that returns a sorted permutation for the comparisons of the
program (`sorts`), `pow` is any function (C44), printf writes infinity as `inf` and NaN as `nan` or `-nan` (C77-C80), memory allocation always succeeds, an OpenMP
loop may run its iterations in any order and, where the property is about it, interleaved
step by step.

## 4. What is modelled

| file of /repo | model | not modelled |
|---|---|---|
| modules/collections/src/list.c | ModelArrayList.v, ModelSortList.v, ModelGraphLife.v (array_list_delete), ModelOom.v | nothing |
| modules/collections/src/set.c | ModelArrayList.v, ModelSortList.v | nothing |
| modules/collections/src/linkedlist.c | ModelCells.v, ModelLinked.v | node_set_data and node_destroy are folded into their callers |
| modules/collections/src/hashtable.c | ModelCells.v, ModelHash.v, ModelTable.v, ModelKeys.v | hashtable_entry_compare; hashtable_destroy only where ModelMap.v and ModelLedger.v use it |
| modules/collections/src/primes.c | ModelPrimes.v | |
| modules/utils/src/utils.c | ModelUtils.v, ModelArrayList.v (highestPowerof2) | |
| modules/utils/src/logger.c | ModelText.v (logger_write) | the text of the date (a parameter), the stream that is written to |
| src/distance.c | ModelDistance.v, ModelDistObj.v; ownership in ModelLife.v; distances_print in ModelPrint.v | |
| src/undirected_graph.c | ModelGraph.v, ModelGraphLife.v, ModelOom.v | nothing; graph_print is in ModelPrint.v |
| src/cluster.c | ModelCluster.v, ModelSelect.v, ModelConstraint.v, ModelClusterLife.v, ModelUtils.v (cluster_compare) | nothing |
| src/outlier_score.c | ModelUtils.v (outlier_score_compare); create_outlier_score, destroy_outlier_score in ModelOom.v | nothing (no header declares the last two) |
| src/constraint.c | ModelOom.v | nothing (constraint_create is in no header, constraint_init of the header is defined nowhere) |
| src/hdbscan.c 60-330 | ModelRun.v, ModelConcreteRun.v, ModelLife.v | |
| src/hdbscan.c 356-719 | ModelHier.v, ModelConcrete.v, ModelRace.v, ModelLoops.v | hdbscan_calculate_num_constraints_satisfied |
| src/hdbscan.c 720-980 | ModelMst.v, ModelLedger.v, ModelLoops.v, ModelCppPrint.v | nothing |
| src/hdbscan.c 988-1195 | ModelSelect.v, ModelConcreteRun.v, ModelLoops.v | |
| src/hdbscan.c 1205-1788 | ModelMap.v, ModelParStats.v | nothing |
| src/hdbscan.c 1790-1993 | ModelPrint.v, ModelText.v, ModelLedger.v | the file of hdbscan_print_hierarchies (not reached) |
| src/hdbscan.cpp | life cycle in ModelLife.v; 91-188 and 236-358 in ModelCpp.v; 191-234 in ModelCppPrint.v | calculateOutlierScores (empty) |
| src/distance.cpp | ModelDistObj.v | |
| src/undirected_graph.cpp | ModelGraphLife.v | nothing (the other members of the class are declared in the header and defined nowhere) |
| include/hdbscan/*.h (layout of the records) | ModelAbi.v | the methods declared and not defined |
| modules/java | ModelJava.v, ModelLoops.v | the exceptions of the Java side, null arguments, DistanceValues, StatsValues, ClusteringStats (classes that only hold data) |
| modules/python | ModelPython.v, ModelPyDict.v | references other than those to the lists of labels and to the two dictionaries, arguments of a wrong kind (other than two ints) |
| modules/cuda | ModelCuda.v | the launch (no code does it) and the transfer of memory |
| modules/collections/tests | RepoTests.v runs the integer tests on the model | the tests with string keys |
| test_datasets | tools/check_datasets.py runs the model on moons.csv and iris.csv | multishapes.csv, mydata.csv |
| sample | ModelSample.v (getDset), ModelSession.v (main from the run to the end, without printing), ModelCppSession.v (the same in the C++ sample) | argv and logging in main |
| tests | | all of it (a CMakeLists.txt) |

RepoTests.v is a check of the model, not a proof about it: every assertion on integers in the
repository's unit tests of the collections is evaluated on the model, and all but one hold.
tools/check_datasets.py is another, outside the build: with minPts = 5 the model gives moons.csv
(100 rows) and iris.csv (150 rows) exactly the labels recorded in
test_datasets/clusters/java_5_*.csv, the output of the Java program this library is a
translation of.  The extracted model also gave the 500 labels of example_data_set.csv.

The two layers of containers are connected by C01, C03 and C06: the algorithm models use
sequences, increasing lists and finite maps where the code uses `ArrayList`, `set_t` and
`hashtable`.  The cluster and distance maps (ModelMap.v) use the concrete models directly, and
C86 and C87 prove that the hierarchy, the selection, the labels and the scores on the
concrete models (ModelConcrete.v, ModelConcreteRun.v) are the ones of the algorithm models,
for a first run and for every history of reruns.

## 5. Findings

Properties a user would expect that are false of the code.  Each has a theorem whose name
ends in `_refuted` (or is named below); the positive part is proved under the exact
precondition.

* **C02** `array_list_insert_at` past the end moves memory out of the block;
  `array_list_clear(l, TRUE)` shrinks the block but keeps `max_size`, so the next appends
  write outside it.
* **C05** as a consequence the second distinct insert into a cleared `set_t` (or cleared
  `hashtable`) writes out of bounds, always.
* **C07** one removal is exact after any history without long chains; but whenever a bucket
  holds three keys there are two of them whose removal makes the third disappear.
* **C08** `hashtable_remove` copies as many bytes of the value as a *key* has: wider values come
  back truncated.
* **C09** `hashtable_clear` calls the key destructor more than once with the same key when two
  keys share a bucket.
* **C10** removing the last node of a longer linked list leaves no tail, and the next append at
  the tail is undefined; removing a middle node and then its successor makes all earlier
  elements unreachable although the size still counts them.
* **C11** `find_prime_less_than` answers 0 instead of a prime for 75 arguments up to 1217 and
  for every argument above 1217; **C12** `get_prime` returns max(0, min+1), which is not prime
  for any odd min above 1.
* **C13** comparing with NaN gives -1 both ways; outlier scores are misordered for ids more than
  2^31 apart and cyclic with a NaN score; hashing a double whose integer part is outside
  `size_t` (NaN, infinity, -1 and below) is undefined.
* **C14** from 65537 rows on the 32 bit size computation wraps, the matrix is too small and
  some write is out of bounds, for every such row count.
* **C17** with ties a core distance can be too small: a family of rows is given where it is 0
  instead of x.  It can also be too large: for distances c, b, c, 0, a in this order with
  0 < a < b < c and minPoints = 3 it is c instead of b (five different points on a line:
  4, 3, -4, 0, 2).
* **C19** `selfEdges = FALSE` is undefined from two points on; `hdbscan_rerun(0)` after any run
  is undefined.
* **C22** minPoints larger than the number of points: all core distances stay DBL_MAX and the
  "spanning tree" is defined but leaves the last point isolated.
* **C24** removing a self loop from a vertex with two of them removes both.
* **C25** a NaN edge weight makes the hierarchy loop run forever (not reachable from
  `hdbscan_run`, C51).
* **C37** the result of propagation says whether some stability equals DBL_MAX; an infinite
  stability is not reported.
* **C39** the loop storing the offsets of new clusters shares its cluster pointer between
  threads.  As soon as two threads have work there is a schedule in which a new cluster keeps
  offset 0, and no point is labelled with such a cluster.
* **C41** when the hierarchy has a single cluster, its death level stays DBL_MAX and every point
  whose noise level is positive and at most 2^1000 has a score of at most -1.
* **C42** `hdbscan_create_cluster_map` aborts for every range of one or two points.
* **C43** when some core distance is zero the minimum depends on the order of the points: zero if
  the first point has it, the smallest non-zero one otherwise.
* **C44** the variance is accumulated onto the previous contents of the field; an empty map
  is undefined.
* **C45** one infinite ratio, or only zero ratios, makes every confidence NaN.  **C47, C49**
  sorting three or more keys that start with NaN never terminates.  A supplied list of labels
  is sorted by the confidences of other clusters; an empty map aborts.
* **C50** fewer than five points: the process aborts.
* **C52** column-wise data with two or more columns is undefined (at least five values).
* **C54** any call but a run on an object set up by `hdbscan_init` reads uninitialised pointers
  when its memory was not zeroed; a second run without cleaning leaks; rerun after clean is
  undefined; the C++ `clean()` frees the object itself, undefined for an object in the
  caller's memory.
* **C58** for labels of 2^31 and more the C table is ordered by the signed comparison and lists
  the keys in another order than the C++ map.  **C59** an empty map is undefined.  **C60** a label
  without an entry is undefined; an empty map with an empty vector aborts; three or more NaN
  confidences never terminate; C and C++ sort the same supplied list differently.
* **C67** the labels depend on the order of the rows, even with minPts 2: eleven integers are given
  that form four clusters and two noise points in one order and two clusters in another, because
  a stability and the sum of its descendants' stabilities tie and are summed in row order.  With
  repeated distances and minPts 3, seven distinct integers form no cluster in one order and two
  in another, because the core distances differ (C17).
* **C68** a table with pointer keys has a NULL hash function; with `int` keys and pointer values
  (as in the cluster map) a removal returns half a pointer.
* **C70** all Java objects share one native `hdbscan`: a constructor changes minPoints for all
  objects, a run the data.  A row shorter than the first row is read out of bounds; a reRun
  after a constructor, before a run, is undefined.
* **C72** the Python objects share one `hdbscan` as well.  Deleting any object cleans it, so that a
  rerun of any other is undefined; deleting an object (or failing in the constructor) while the
  latest `hdbscan` has not been run is undefined; a refused rerun drops a reference to the
  labels, and after two of them the object holds a freed list; a rerun of an object with more
  rows than the shared data reads out of bounds.  Negative arguments of rerun are taken modulo
  2^32.
* **C73** the arrays handed out by the Python `getHierarchies` use the memory of the hierarchy and
  dangle after the next rerun, cleaning or deletion of any object; those of `getClusterMap` stay valid
  but are never freed.

* **C77** `distances_print` overflows `s[20]` when two rows are 10^11 or more apart.
* **C78** `hdbscan_print_outlier_scores` overflows `s[100]` after a run with a single cluster (for
  example six evenly spaced points): the scores are then about -DBL_MAX and have 309 digits.
* **C79** `hdbscan_print_hierarchies` with a file name is always undefined: it calls `strcat` on
  uninitialised arrays.
* **C80** `graph_print` overflows `s[300]` for an edge of weight DBL_MAX (a point that could not be
  reached); `hdbscan_print_distance_map` overflows `s[512]` for a cluster of one point with a core
  distance of 10^100 or more; `hdbscan_print_stats` overflows `s[1200]` for two values of 10^263.
* **C81** the GPU kernel computes a wrong row from 4098 rows on (single precision square root), stores
  a table the CPU code does not read correctly, and makes distances from 2^64 on infinite.
* **C82** a double or float key that is NaN, infinite, at most -1 or at least 2^64 is undefined in the hash.
* **C83** a table for string keys compares and stores the bytes of the pointer it is given, not the
  string: equal strings at different addresses are different keys, and different strings at addresses
  ending in a zero byte are the same key.
* **C84** a second `distance_compute` on the same object leaks the two blocks of the first.  Everything
  the public part of the C++ class `Distance` offers is undefined: its `computeDistance` is private and
  unused, so `getCoreDistances` reads `rows` uninitialised (`getDistance` is declared but not defined).
* **C85** `getClusterMap` ends the interpreter for ranges of one or two points, reads past the labels
  when `end` is too large, and releases the member before it looks at the arguments: after a call with
  wrong arguments `clusterMap` dangles.  `getHierarchies` returns 1 instead of the dictionary, leaks every
  dictionary it makes, and ends the interpreter before the first run.

* **C88** `graph_init` takes over the three lists: giving the same list twice makes `graph_clean` free it
  twice.  A `verticesB` shorter than `verticesA` is not noticed (its last vertex is used again; empty, an
  uninitialised variable is used as an index).  The default constructor of the C++ class calls
  `graph_init(this, 0, NULL, NULL, NULL)`, which reads `NULL->size` wherever malloc(0) gives a block.
  The header says that the sort is descending; it is ascending (C23).

* **C89** the counts of satisfied constraints are 32 bit: with 2^31 reported for each of two sibling clusters the
  sum handed to their parent is 0, and a parent with one constraint is preferred.

* **C90** `OutlierScore`, `Cluster`, `UndirectedGraph` and `Constraint` have a virtual destructor under
  `#ifdef __cplusplus`.  Objects made by the C code have no table pointer, so C++ code that reads
  `scan.outlierScores[i].score` reads the core distance (i = 0), other points' values, or beyond the end; the
  same for the members of clusters and of the spanning tree, and `delete` on any of them jumps through a
  table pointer that is not there.  (C88 models the C++ constructor and destructor of the graph by the C
  calls they make; in a C++ object these calls also overwrite the table pointer.)

* **C91** `cluster_release_virtual_child` destroys the parent of its argument instead of the virtual child.
  `cluster_detach_points` tests `numPoints < 0` on an unsigned value: CLUSTER_ERROR is never returned, and
  taking too many points leaves a cluster of nearly 2^32 points.

* **C92** `hashtable_remove` sets `entry->prev` to NULL before it writes `entry->next->prev = entry->prev`, so the
  entry behind a removed one claims to be the first of its bucket; when it is removed in turn, the bucket is
  redirected behind it and all entries in front are lost, still counted and never freed.

* **C93** distances are square roots of sums of plain squares: points 2^512 (about 1e154) or more apart come out
  at infinite distance and points closer than about 1e-162 at distance 0. `hypot`-style scaling would avoid both.

* **C95** with ties raising minPoints can lower a core distance: points 2, 3, -3, -2, 0 on a line give the last
  point core distance 3 for minPoints 3 and 2 for minPoints 4.

* **C96** removing an element does not restore the previous pointer of its successor (linkedlist.c:246-283), so a later
  removal of that successor drops everything before it; removing the last element leaves no tail, so the next
  tail add dereferences NULL; linkedlist_clear leaves the size and with it a list on which every add is undefined;
  linkedlist_delete leaks the dropped nodes and those taken out by linkedlist_lookup.

* **C97** a second hdbscan_run on an object that was not cleaned overwrites every pointer of the first: all its blocks are
  leaked (22, two per point, five per stored level, five per cluster). No other leak was found on any path of a run.

* **C98** array_list_find with sorted = 1 in a list that is not sorted misses elements the plain search finds (a precondition
  nothing checks).

* **C99** three different numbers with the same integer part share a bucket in every table with floating point keys, so
  removing the second and the first loses the third, whatever the number of buckets (C92 for such keys).

* **C100** in hdbscan_skew_kurt_2 every thread of the team subtracts the correction from the shared kurtosis, so the
  result depends on the schedule (-3.5 or -17 for the same four values); the tests `count >= 2` and `count >= 3` let
  the factors divide by zero; `(N - 1) * (N - 2) * (N - 3)` wraps from 1628 values on. The function is not called.

* **C101** the loop at hdbscan.c:673-679 (shared newCluster, see C39) and the region at hdbscan.c:1343-1354 (every thread
  stores the same members) have data races, which C leaves undefined even where, as in C100, all stored values agree.

* **C103** (refused memory) `array_list_grow` and `array_list_clear` store the answer of `realloc` before
  testing it, so a refusal loses the elements and their block; `array_list_append` then answers 0, and a
  second `array_list_append` whose request is granted answers 1 on a list whose old elements are unset.
  `array_list_insert_at` (and so `set_insert`) does not look at the answer of `array_list_grow`;
  `node_set_data`, `hashtable_set_entry`, the replacement in `hashtable_insert`, `cluster_init` and
  `graph_init` write through the answer of `malloc` or `array_list_init` without a test;
  `hashtable_init_size` hands out a table whose set of keys is NULL; `graph_init` does not free its struct
  when the array of lists is refused and does not look at the answers of `array_list_append`.

* **C104** (refused memory in a run) `distance_compute`, `hdbscan_run`, `hdbscan_do_run`,
  `hdbscan_compute_hierarchy_and_cluster_tree` and `hdbscan_find_prominent_clusters` do not test the answers
  of `malloc`, `calloc`, `ptr_array_list_init` and `hashtable_init`; `hdbscan_do_run` ignores the code of
  `hdbscsan_calculate_outlier_scores` (hdbscan.c:265) and answers HDBSCAN_SUCCESS with `outlierScores` NULL;
  that function answers 1, which is HDBSCAN_ERROR, when all went well (hdbscan.c:1194).

* **C105** (the sample's reader, sample/tester.c:42-77) blank lines are counted as rows and the columns are the mean
  number of words; lines of more than 2047 bytes are read as several; an empty file divides by zero (line 68); the
  message for a file that cannot be opened is written into 2048 bytes whatever the length of the name (line 48);
  `isspace` gets a negative char for bytes outside ASCII (line 57).

* **C106** (the sample's main, sample/tester.c:138-203) if each label's points coincide (three places visited several times
  each), all ratios are zero, all confidences NaN, and hdbscan_sort_by_similarity never returns (see C45, C47, C49).

* **C107** (sample/tester.cpp:66, src/hdbscan.cpp sortBySimilarity) the C and the C++ sample print different second lists for
  the same data: the C function pairs the supplied labels with the confidences of other labels (C49), the C++ one does not.
  If each label's points coincide, the C++ program never ends either.

Not modelled, but seen while reading: the headers declare `constraint_init`, `outlier_score_init` and
`outlier_score_destroy`, which no file defines (the files define `constraint_create`, `create_outlier_score` and
`destroy_outlier_score`); `graph_select_pivot_index` returns the start in every call the code
makes (its first test is always true); `hdbscan_destroy(NULL)` dereferences NULL; `hdbscan.cpp`'s
`calculateOutlierScores` is empty; the repository's own test of `find_prime_less_than` (primetests.c:59)
expects 87 for 93, which is not a prime, where the code answers 89 (RepoTests.v, `PrimeTest`).
