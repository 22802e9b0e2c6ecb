#!/usr/bin/env python3
"""Writes /verif/properties.jsonl.  Edit the table below, then run this script."""
import json, os
P = []
def p(id, title, statement, quantifier, why, anchors):
    P.append(dict(id=id, title=title, statement=statement, quantifier=quantifier,
                  why_tests_cant=why, anchors=anchors))

L='modules/collections/src/list.c'; S='modules/collections/src/set.c'; H='modules/collections/src/hashtable.c'
K='modules/collections/src/linkedlist.c'; PR='modules/collections/src/primes.c'; U='modules/utils/src/utils.c'
D='src/distance.c'; G='src/undirected_graph.c'; C='src/cluster.c'; B='src/hdbscan.c'; O='src/outlier_score.c'

p('C01','ArrayList behaves as a sequence',
  'Starting from array_list_init(k>0) any history of array_list_append, insert_at (position <= size), replace_at, remove_at, remove, pop, value_at, find (unsorted), size, empty and clear(list,0) returns exactly the codes and values that the same operations on a mathematical finite sequence return, and the list holds exactly that sequence afterwards.',
  'every initial capacity, every element type/values, every finite operation history',
  'Histories and growth points are unbounded; a test samples a few lengths and never the interaction of growth with shifting at every position.',
  [L+':array_list_init',L+':array_list_append',L+':array_list_insert_at',L+':array_list_remove_at',L+':array_list_remove',L+':array_list_pop',L+':array_list_find',L+':array_list_value_at',L+':array_list_replace_at'])
p('C02','ArrayList never touches memory outside its allocation',
  'In every history of C01 no operation reads or writes an element slot outside the block currently allocated for the list, whatever the sequence of growths. (The claim is false once array_list_clear(list, resize=1) or an insert_at past the end is allowed: the exact failing histories are given.)',
  'every operation history, every capacity',
  'Out-of-bounds writes by one slot normally go unnoticed in a test run, and only some histories reach them.',
  [L+':array_list_grow',L+':array_list_insert_at',L+':array_list_clear',U+':highestPowerof2'])
p('C03','set_t is a finite set kept in increasing order',
  'After any history of set_insert, set_remove, set_remove_at the stored elements are strictly increasing for the comparison function and are exactly the mathematical set; set_insert returns 1 iff the element was absent, set_remove returns 1 iff it was present (else -1), set_find returns the rank of the element or -1.',
  'every comparison function that is a strict total order on the elements used, every operation history',
  'Binary search faults appear only for particular size/position combinations.',
  [S+':set_insert',S+':set_remove',S+':set_find',S+':set_remove_at',L+':binary_search'])
p('C04','A set built by parallel inserts does not depend on the schedule',
  'Inserting the same elements in any order (critical-section order chosen by the OpenMP schedule) gives the identical stored array.',
  'every permutation of the inserted elements',
  'A test sees only the schedules its machine happens to produce.',
  [B+':hdbscan_propagate_tree',S+':set_insert'])
p('C05','A cleared set or hashtable can be used again safely',
  'After set_clear (also reached through hashtable_clear) the container is empty and later inserts stay inside its allocation. The code violates this: set_clear shrinks the block to one element but keeps the recorded capacity, so a later insert writes past the end of the heap block; the exact failing histories are characterised.',
  'every set reached by any history, every later insert history',
  'The overflow is silent in most test runs and depends on the capacity reached before the clear.',
  [S+':set_clear',L+':array_list_clear',H+':hashtable_clear'])
p('C06','hashtable insert/lookup behave as a finite map',
  'For any bucket count and any history of hashtable_insert and hashtable_lookup: lookup returns 1 and the most recently inserted value for the key, or 0 if the key was never inserted; insert returns 1 for a new key and -1 for an existing one, in which case the previous value is handed back to the caller; hashtable_size is the number of distinct keys and the key set enumerates exactly these keys in increasing order.',
  'every bucket count >= 1, every hash function into the buckets, every key set, every insert/lookup history',
  'Behaviour depends on collision patterns, which a test samples sparsely.',
  [H+':hashtable_insert',H+':hashtable_lookup',H+':hashtable_lookup_entry',H+':hashtable_size'])
p('C07','Removing a key leaves the other keys alone',
  'hashtable_remove of a present key returns 1, afterwards the key is absent and every other key still maps to its value. Violated: after removing an entry from the middle of a collision chain, removing its successor silently drops every entry in front of it. The claim is proved for the first removal after any insert history and refuted for two removals.',
  'every history of inserts and removals, every bucket count',
  'Needs three keys in one bucket and a particular order of two removals; ordinary tests do not build it (the repository has the removal test commented out).',
  [H+':hashtable_remove',H+':hashtable_insert'])
p('C08','hashtable_remove hands back the removed value',
  'The bytes hashtable_remove copies to the caller are the value stored under the key. Violated unless the key type and the value type have the same size: it copies sizeof(key) bytes, so values wider than the key are truncated and values narrower are over-read.',
  'every pair of key/value types, every stored value',
  'Depends on the type pair; same-size pairs, the usual test case, hide it.',
  [H+':hashtable_remove',H+':hashtable_entry_destroy',U+':get_htype_size'])
p('C09','hashtable_clear/destroy frees every value exactly once',
  'After any insert history hashtable_clear calls the value destructor exactly once for every stored value and leaves every bucket empty.',
  'every insert history, bucket count and collision pattern',
  'Double frees and leaks depend on collision patterns.',
  [H+':hashtable_clear',H+':hashtable_destroy'])
p('C10','linked list adds and reads behave as a sequence; removals do not',
  'Any history of linkedlist front/tail adds yields the expected sequence for head, tail, value_at and lookup. Violated with removals: removing the last element of a list with at least two elements loses the tail pointer so the next tail add dereferences NULL, and removing a middle element and then its successor drops all elements before it.',
  'every history of adds and reads; for removals every list',
  'The corruption shows only two operations later.',
  [K+':linkedlist_front_add',K+':linkedlist_tail_add',K+':linkedlist_node_unhook',K+':linkedlist_lookup',K+':linkedlist_value_at'])
p('C11','Bucket count selection',
  'find_prime_less_than(x) never reads outside the primes table, terminates, and returns 3 for x<=3, otherwise 0 or the greatest prime strictly below x. It must return the greatest prime below x for every 3 < x <= 1217; violated for an explicit set of x. Whatever it returns, hashtable_init ends with at least one bucket.',
  'every int32 argument',
  'The recursion has 200 table positions and 2^32 inputs; the failing inputs are isolated.',
  [PR+':find_prime_less_than',PR+':binary_search_primes','modules/collections/include/collections/primes.h:primes',H+':hashtable_init_size'])
p('C12','get_prime returns a prime',
  'get_prime(min) returns a prime above min. Violated: it returns min+1 for every min >= 3.',
  'every argument','A property of all inputs.',[PR+':get_prime'])
p('C13','Comparison callbacks are total orders and hashes stay in range',
  'int/long/short compare and outlier/cluster compare are antisymmetric, transitive and total on the values the library stores; double_compare is so on non-NaN values only; every hash function returns a bucket index below the bucket count and equal keys hash equally.',
  'all keys of each type, all bucket counts >= 1',
  'qsort and binary search have undefined behaviour for an inconsistent comparison; consistency ranges over all triples.',
  [U+':int_compare',U+':long_compare',U+':short_compare',U+':double_compare',U+':int_hash',U+':long_hash',O+':outlier_score_compare',C+':cluster_compare'])
p('C14','The condensed distance matrix layout is exact in 32-bit arithmetic',
  'For 1..65536 rows the slot distance_compute writes for (i,j), i<j, equals the slot distance_get reads for (i,j) and (j,i), lies inside the allocation, different pairs use different slots and every slot is used. From 65537 rows on the allocation size wraps and writes go out of bounds.',
  'every row count, every pair of rows',
  'Overflow appears only at sizes (8 GiB matrices) no test runs.',
  [D+':distance_compute',D+':distance_get','modules/utils/include/hdbscan/utils.h:TRIANGULAR_H'])
p('C15','distance_get returns the Euclidean distance of the two rows',
  'After distance_compute on n<=65536 rows, distance_get(i,j) is bit for bit the sqrt of the left-to-right sum of squared differences of rows min(i,j) and max(i,j) for i<>j and 0 for i=j; hence it is symmetric.',
  'every dataset of every type (all floating point values including NaN and infinities; integers whose differences fit), every pair',
  'All pairs and all floating point values.',
  [D+':distance_compute',D+':distance_get'])
p('C16','Distance and core distance results do not depend on the OpenMP schedule',
  'Executing the parallel row iterations of distance_compute in any order, interleaved in any way at the granularity of single array writes, produces the same matrix.',
  'every interleaving of the row iterations',
  'Tests observe a handful of schedules.',
  [D+':distance_compute',D+':distance_get_core_distances'])
p('C17','Core distance is the k-th smallest distance',
  'With k = minPoints, the core distance of point i is the k-th smallest of the distances from i to all points (itself included), D_MAX if there are fewer than k points. Proved when the distances in the row are pairwise different; violated with ties (the insertion position after an equal element is wrong, so the buffer loses its order), in both directions: the core distance can come out too small and too large.',
  'every row of distances, every k',
  'The failing tie patterns are rare and the result looks plausible.',
  [D+':distance_get_core_distances'])
p('C18','Core distances are never NaN or infinite',
  'For every distance matrix, NaN and infinities included and ties included, every core distance is either D_MAX or one of the finite distances of its row, hence never NaN and never above D_MAX.',
  'every matrix of doubles, every k',
  'All floating point inputs.',
  [D+':distance_get_core_distances'])
p('C19','Invalid minPoints and selfEdges settings',
  'hdbscan_init aborts for minPoints<=1; hdbscan_rerun with minPts=0 reads outside its scratch buffer; hdbscan_construct_mst with selfEdges=FALSE writes outside its arrays; with selfEdges=TRUE it never does.',
  'all parameter values','Memory errors are silent in tests.',
  [B+':hdbscan_init',B+':hdbscan_rerun',B+':hdbscan_construct_mst'])
p('C20','Spanning tree construction never indexes with -1 and always attaches every point',
  'For every distance function (NaN, infinite, arbitrary) and every core distance array without NaN, each round of hdbscan_construct_mst selects an unattached point, so after n-1 rounds all points are attached, all accesses are in range and exactly n-1 tree edges plus n self edges come out, each point i<n-1 owning the edge in slot i.',
  'every n>=1, every distance matrix of doubles',
  'Special values are rarely tested, and a -1 index is silent.',
  [B+':hdbscan_construct_mst'])
p('C21','The tree preserves density connectivity at every scale (minimum spanning tree)',
  'If all mutual reachability distances are below D_MAX then for every threshold eps two points are joined by a chain of points with consecutive mutual reachability distances <= eps iff they are joined by tree edges of weight <= eps; the n-1 tree edges therefore form a spanning tree.',
  'every point count, every distance matrix, every threshold',
  'Optimality over all spanning trees/paths is not testable exhaustively.',
  [B+':hdbscan_construct_mst'])
p('C22','Without finite mutual reachability the tree does not span',
  'When minPoints exceeds the number of points (or distances overflow) the produced edges are not a spanning tree: the last point is isolated.',
  'every n>=2 with all core distances equal to D_MAX','Degenerate input class.',
  [B+':hdbscan_construct_mst',D+':distance_get_core_distances'])
p('C23','Edge sorting',
  'graph_quicksort_by_edge_weight terminates, permutes the (vertexA,vertexB,weight) triples as units, leaves the weights in non-decreasing order when none is NaN, and its explicit stacks of size edges/2 never overflow. graph_quicksort gives the same guarantee.',
  'every edge list','Stack overflow and mis-permutation depend on the pivot history over all permutations.',
  [G+':graph_quicksort_by_edge_weight',G+':graph_partition',G+':graph_swap_edges',G+':graph_select_pivot_index',G+':graph_quicksort'])
p('C24','Adjacency lists match the edge list',
  'graph_init produces for each vertex exactly its neighbours with multiplicity (a self loop once), and graph_remove_edge(a,b) removes exactly one a-b edge from both lists.',
  'every multigraph','All graphs.',[G+':graph_init',G+':graph_remove_edge'])
p('C25','Hierarchy construction terminates safely on every input',
  'For every graph whose weights are not NaN, with one self edge per vertex, hdbscan_compute_hierarchy_and_cluster_tree terminates, makes no out-of-range access, never dereferences the noise (NULL) cluster and never makes a cluster point count negative. With a NaN weight it does not terminate.',
  'every edge list with vertices below n, every minPoints>=2',
  'Termination and memory safety over all inputs.',
  [B+':hdbscan_compute_hierarchy_and_cluster_tree',C+':cluster_detach_points'])
p('C26','Every point receives a noise level and a last cluster',
  'When the hierarchy is finished every entry of pointNoiseLevels and pointLastClusters has been written exactly once (they are uninitialised before), the level is one of the edge weights and the last cluster is an existing cluster.',
  'every graph with a self edge per vertex, every minPoints>=2',
  'An unwritten stack slot often holds a plausible value in tests.',
  [B+':hdbscan_compute_hierarchy_and_cluster_tree'])
p('C27','Each hierarchy level is exactly the density clustering at that level',
  'For a graph connecting all n>=minPoints points: in the hierarchy entry recorded with weight w two points carry the same non-zero label iff they are connected by edges of weight <= w inside a component of at least minPoints points, and a point carries label 0 iff its component has fewer than minPoints points.',
  'every connected weighted graph, every level, every pair of points',
  'A global semantic equivalence over all inputs.',
  [B+':hdbscan_compute_hierarchy_and_cluster_tree'])
p('C28','End to end: levels of hdbscan_run are mutual reachability components',
  'For hdbscan_run on any dataset whose mutual reachability distances are finite, each hierarchy entry with weight w equals the partition into components of the relation mrd<=w with at least minPoints members, all others noise.',
  'every dataset, minPoints between 2 and n',
  'Composition of all stages over all inputs.',
  [B+':hdbscan_run',B+':hdbscan_do_run'])
p('C29','Hierarchy entries are numbered 1..m with decreasing weights',
  'Keys of the hierarchy are exactly 0..m; weights strictly decrease with the key from 1 to m; entry 0 is all noise with weight 0; entry 1 has all points in cluster 1; once a point is noise it stays noise.',
  'every graph','All inputs.',[B+':hdbscan_compute_hierarchy_and_cluster_tree'])
p('C30','Cluster tree is well formed',
  'sc->clusters[k] has label k for k>=1 and clusters[0] is NULL; every cluster but the root has a parent with a smaller label, is born with at least minPoints points which form a subset of its parent\'s points, siblings are disjoint, and a cluster has children iff it was split (and then it has at least two).',
  'every graph, every minPoints>=2','All inputs.',
  [B+':hdbscan_compute_hierarchy_and_cluster_tree',B+':hdbscan_create_new_cluster',C+':cluster_init'])
p('C31','Point accounting and death levels',
  'At every moment a cluster\'s numPoints equals the number of points currently labelled with it (no unsigned wrap-around); for a connected graph each cluster dies, at the weight at which its last points leave, and that weight does not exceed its birth weight.',
  'every graph','An unsigned wrap would be silent.',
  [C+':cluster_detach_points',B+':hdbscan_create_new_cluster'])
p('C32','Every selected cluster has a label table to read',
  'For every non-root cluster the hierarchy contains the entry (offset+1) that hdbscan_find_prominent_clusters dereferences, and in that entry the points labelled with the cluster are exactly its points at birth.',
  'every graph','A missing entry is an uninitialised pointer dereference.',
  [B+':hdbscan_find_prominent_clusters',B+':hdbscan_compute_hierarchy_and_cluster_tree'])
p('C33','Bottom-up propagation processes each cluster once, children first',
  'hdbscan_propagate_tree terminates, propagates every cluster exactly once and every cluster only after all of its children, for every order in which the leaves were inserted.',
  'every cluster tree in which parents have smaller labels','All trees and schedules.',
  [B+':hdbscan_propagate_tree',C+':cluster_propagate'])
p('C34','The selected clusters form a complete antichain',
  'The clusters selected at the root are pairwise non-nested, none is the root, and every leaf of the tree (other than a childless root) lies below exactly one of them.',
  'every cluster tree','All trees.',[C+':cluster_propagate',B+':hdbscan_propagate_tree'])
p('C35','The selection maximises total stability',
  'In exact arithmetic the selected clusters have maximum total stability among all sets of pairwise non-nested non-root clusters; in floating point each local decision compares the cluster with the sum handed up by its children and prefers the cluster on ties.',
  'every cluster tree, every stability assignment','Optimality over exponentially many selections.',
  [C+':cluster_propagate',B+':hdbscan_propagate_tree'])
p('C36','Lowest descendant death level',
  'After propagation each non-root cluster\'s propagatedLowestChildDeathLevel is the minimum death level over the leaves below it (itself if it is a leaf); a root without children keeps D_MAX.',
  'every cluster tree','All trees.',[C+':cluster_propagate'])
p('C37','Infinite stability is reported',
  'hdbscan_propagate_tree returns TRUE when a cluster has infinite stability. Violated: it compares with DBL_MAX, so +infinity (produced for duplicated points) is never reported.',
  'every cluster tree','The warning is just missing.',[B+':hdbscan_propagate_tree',C+':cluster_detach_points'])
p('C38','Final labels',
  'clusterLabels[j] is c<>0 iff c is a selected cluster and j belonged to c at its birth; every other point has label 0; no point belongs to two selected clusters, so the result is the same for every schedule of the parallel loops.',
  'every cluster tree/hierarchy, every OpenMP schedule','All inputs and schedules.',
  [B+':hdbscan_find_prominent_clusters'])
p('C39','Offset assignment race',
  'The parallel loop storing the offset of new clusters gives every new cluster its offset under every schedule. Violated: the loop variable holding the cluster pointer is shared, and an interleaving leaves a cluster with offset 0, which turns all of its points into noise.',
  'every interleaving of the loop iterations','Races are schedule dependent.',
  [B+':hdbscan_compute_hierarchy_and_cluster_tree'])
p('C40','Outlier scores: one per point, ordered',
  'outlierScores holds each point exactly once with its core distance, sorted by score, then core distance, then id.',
  'every input, every correct qsort','All inputs.',
  [B+':hdbscsan_calculate_outlier_scores',O+':outlier_score_compare'])
p('C41','Outlier scores lie in [0,1]',
  'Every outlier score of a point whose last cluster is not a childless root lies between 0 and 1. Violated when the whole data set is one cluster: the root keeps D_MAX as lowest death level and the scores become huge negative numbers.',
  'every dataset','Floating point range over all inputs.',
  [B+':hdbscsan_calculate_outlier_scores',C+':cluster_propagate'])
p('C42','Cluster map is the exact partition of the index range',
  'hdbscan_create_cluster_map(labels,b,e) maps each label occurring in [b,e) to the increasing list of its indices and has no other key; it aborts when e-b is 1 or 2.',
  'every label array and range','All arrays; lengths 1 and 2 abort.',
  [B+':hdbscan_create_cluster_map'])
p('C43','Minimum and maximum distances per cluster',
  'For each cluster hdbscan_get_min_max_distances stores the largest core distance, the smallest non-zero core distance (0 when the first listed member has core distance 0), the largest pairwise distance (at least DBL_MIN) and the smallest non-zero pairwise distance (D_MAX if there is none). Consequently the minimum core distance depends on the order of the members.',
  'every cluster map and distance matrix','All inputs.',
  [B+':hdbscan_get_min_max_distances'])
p('C44','Statistics do not depend on the previous contents of the caller\'s struct',
  'hdbscan_calculate_stats overwrites every field independently of what the clustering_stats contained. Violated for the variance (and so deviation, skewness, kurtosis): it accumulates onto the uninitialised field; all other fields are independent.',
  'every previous content','Uninitialised memory is often zero in tests.',
  [B+':hdbscan_calculate_stats',B+':hdbscan_calculate_stats_helper'])
p('C45','Confidence values lie in [0,100]',
  'When all distance ratios are positive and finite every confidence computed by hdbscan_calculate_stats lies in [0,100], is 0 for a cluster with the largest ratio, and decreases (weakly) with the ratio.',
  'every list of positive finite doubles','Rounding over all doubles.',
  [B+':hdbscan_calculate_stats'])
p('C46','Validity score',
  'hdbscan_analyse_stats returns a value in -2..4 that is the sum of two independent scores, each -1,0,1 or 2, decided by the signs of skewness and kurtosis; NaN counts as -1.',
  'every statistics struct','All floating point values including NaN.',
  [B+':hdbscan_analyse_stats'])
p('C47','Tandem quicksort',
  'hdbscan_quicksort sorts the keys ascending, moves each label with its key, touches nothing outside [left,right], terminates and stays in bounds, for keys without NaN.',
  'every pair of arrays, every range','All permutations and duplicates.',
  [B+':partition',B+':hdbscan_quicksort'])
p('C48','Sorting clusters by length',
  'hdbscan_sort_by_length returns the given labels ordered by increasing cluster size; it aborts for an empty list and dereferences NULL for an unknown label.',
  'every cluster table and label list','All inputs.',
  [B+':hdbscan_sort_by_length'])
p('C49','Sorting clusters by similarity',
  'hdbscan_sort_by_similarity returns the labels ordered by their confidence. Proved when called with NULL; violated when a label list is supplied: label i is given the confidence of the i-th key of the table.',
  'every distance map and label list','Coincides on sorted full lists.',
  [B+':hdbscan_sort_by_similarity'])
p('C50','Small datasets abort',
  'hdbscan_run aborts (assertion) for every dataset with fewer than 5 points and does not abort for 5 or more with minPoints>=2.',
  'every dataset','All sizes.',[B+':hdbscan_run',L+':array_list_init'])
p('C51','hdbscan_run is total',
  'For rowwise data with 5..65536 rows, minPoints in 2..2^32-1 (any relation to the number of rows) and arbitrary data of any of the supported types (doubles and floats with NaN and infinities, integers whose differences fit the C type), hdbscan_run terminates without undefined behaviour and produces n labels and n outlier scores.',
  'every dataset','Absence of undefined behaviour over all inputs.',
  [B+':hdbscan_run',B+':hdbscan_do_run'])
p('C52','Column-wise data is handled',
  'hdbscan_run with rowwise=FALSE works on rows*cols points. Violated: the distance matrix is built for `rows` points only and is read out of bounds whenever cols>1.',
  'every rows, cols>1','Out-of-bounds reads are silent.',
  [B+':hdbscan_get_dataset_size',B+':hdbscan_run'])
p('C53','rerun equals a fresh run',
  'hdbscan_rerun(m) after hdbscan_run with any minPoints gives the labels, hierarchy and outlier scores that a fresh hdbscan_init(m); hdbscan_run on the same data gives, for any history of reruns in between.',
  'every dataset, every history of minPoints values','Histories are unbounded.',
  [B+':hdbscan_rerun',B+':hdbscan_minimal_clean'])
p('C54','Object life cycle',
  'Any history init, run, rerun*, clean/destroy frees every block exactly once and never uses a freed or uninitialised field. Violated for init followed by clean or destroy without run (mst and the distance fields are uninitialised); running twice leaks; destroying from the C++ clean() frees the object twice.',
  'every call history','Call histories are unbounded, leaks and double frees silent.',
  [B+':hdbscan_init',B+':hdbscan_clean',B+':hdbscan_minimal_clean',B+':hdbscan_destroy','src/hdbscan.cpp:clean'])
p('C55','Integer datasets',
  'With H_INT or H_LONG data distance_compute computes the exact difference unless it leaves the C type, in which case behaviour is undefined; H_SHORT and H_CHAR never overflow.',
  'every pair of values','Signed overflow is silent.',[D+':distance_compute'])
p('C56','Results do not depend on the parallel schedule',
  'For rowwise data with 5..65536 rows and minPoints in 2..2^32-1, hdbscan_run gives the same labels, hierarchy, clusters and outlier scores for every order in which the parallel loops over leaves, selected clusters and points are executed and for every correct qsort.',
  'every dataset, every schedule of those loops, every qsort','Schedules cannot be enumerated.',
  [B+':hdbscan_do_run',B+':hdbscan_propagate_tree',B+':hdbscan_find_prominent_clusters',B+':hdbscsan_calculate_outlier_scores'])
p('C57','Labels are dense components of the data',
  'For rowwise data with finite pairwise distances and 2<=minPoints<=rows, the points that hdbscan_run gives one nonzero label are exactly a connected component, with at least minPoints points, of the graph that joins points whose mutual reachability distance is at most w, for some level w.',
  'every dataset','Needs a whole-program argument from distances to labels.',
  [B+':hdbscan_run',B+':hdbscan_find_prominent_clusters'])
p('C58','The C++ cluster map is the partition of the labels',
  'createClusterMap(labels,first,last) maps every label that occurs in the range to the increasing list of its positions, has no other key and iterates over the keys in increasing order, for ranges of every length (the C function aborts for one or two points); otherwise it is the map of the C function, with the same order of keys for labels below 2^31.',
  'every label array and range','Every length and multiset of labels.',
  ['src/hdbscan.cpp:createClusterMap',B+':hdbscan_create_cluster_map'])
p('C59','The C++ distance map and statistics are those of C',
  'getMinMaxDistances records for every cluster the extremes of its core distances and pairwise distances, and calculateStats gives bit for bit the statistics and confidences of the C functions on the same labels (below 2^31), with an empty map excluded (undefined behaviour).',
  'every label array, range and distance matrix','Bitwise agreement of two implementations on all inputs.',
  ['src/hdbscan.cpp:getMinMaxDistances','src/hdbscan.cpp:calculateStats',B+':hdbscan_get_min_max_distances',B+':hdbscan_calculate_stats'])
p('C60','C++ sorting of clusters',
  'sortByLength and sortBySimilarity return the supplied labels (all keys of the map when none are supplied) ordered by the size or confidence of the clusters they name, unlike the C function for supplied lists (C49). A label without an entry is undefined behaviour, an empty map with an empty vector ends the process, and three or more NaN confidences never terminate.',
  'every map and list of labels','All lists, missing labels and NaN.',
  ['src/hdbscan.cpp:sortByLength','src/hdbscan.cpp:sortBySimilarity','src/hdbscan.cpp:quickSort'])
p('C61','Stability is the sum over the points that leave',
  'The stability of a cluster is, bit for bit in double arithmetic, the sum over the groups of points that leave it of |group| * (1/level - 1/birth), in the order of falling levels: every point of the cluster leaves in exactly one group, at a level below the birth level, either as noise or as the points of a child cluster. It is never negative and never NaN for clusters other than the root when the weights are 0 or at least DBL_MIN, and always NaN for the root.',
  'every graph, every cluster','Every hierarchy and all floating point weights.',
  [C+':cluster_detach_points',C+':cluster_init',B+':hdbscan_compute_hierarchy_and_cluster_tree',B+':hdbscan_create_new_cluster'])
p('C62','hdbscan_run selects the most stable clusters',
  'For rowwise data with 5..65536 rows, minPoints in 2..2^32-1 and arbitrary data, the labels hdbscan_run gives out are exactly a set of clusters of which none contains another, without the root, and no set of clusters without the root has a larger total stability (computed in double arithmetic as the program does); every stability but the root\'s is >= 0.',
  'every dataset, schedule and qsort','Optimality over all sets of clusters and all data.',
  [B+':hdbscan_run',B+':hdbscan_propagate_tree',B+':hdbscan_find_prominent_clusters',C+':cluster_propagate'])
p('C63','The clusters are exactly the dense components that split off',
  'In the hierarchy of a connected graph, the clusters other than the root are exactly the components of the edges below some weight w that have minPoints points and are, at w, still connected to another such component; w is recorded as the birth level. No two clusters have the same points. Every point becomes noise at the level w at which its component has minPoints points counting the edges up to w, but no longer below w.',
  'every connected graph with sorted weights, every level, every component, every point','All graphs, all tie patterns among the weights; the claim is an equivalence over all components.',
  [B+':hdbscan_compute_hierarchy_and_cluster_tree',B+':hdbscan_create_new_cluster',C+':cluster_init'])
p('C64','hdbscan_run computes the HDBSCAN clustering',
  'For rowwise data with 5..65536 rows, 2 <= minPoints <= rows and finite pairwise distances: the clusters found are the root with all points and exactly the mutual-reachability components that split off a dense component; children lie inside their parents; each stability is the sum of |group| * (1/level - 1/birth) over the groups of points leaving the cluster; and a point carries label k exactly when it belongs to the cluster k of a set of pairwise disjoint clusters, without the root, whose total stability is the largest.',
  'every dataset, schedule and qsort','Relates the outputs to the distances for every dataset and all tie patterns.',
  [B+':hdbscan_run',B+':hdbscan_do_run',B+':hdbscan_compute_hierarchy_and_cluster_tree',B+':hdbscan_propagate_tree',B+':hdbscan_find_prominent_clusters'])
p('C65','The outlier scores are the GLOSH scores of the data',
  'Under the same conditions hdbscan_run gives each point the score 1 - low/w (0 when w is 0), where w is the level at which the point becomes noise and low the lowest such level among the points of the smallest cluster that contains the point; the scores are listed for every point once, ordered by score, core distance and id. Exception: if the root is the only cluster, low is the largest double.',
  'every dataset, schedule and qsort','Holds for every dataset and all tie patterns.',
  [B+':hdbscan_calculate_outlier_scores',B+':hdbscan_run',C+':cluster_propagate'])
p('C66','Identical rows get identical results',
  'hdbscan_run gives two identical rows of the dataset the same label, the same outlier score and the same core distance (at least five points, 2 <= minPts <= number of points, finite distances).',
  'every dataset (all element types), any two equal rows, every schedule and qsort','The two rows are visited at different places of every loop, and their zero distance creates ties at every level; no finite set of datasets covers the tie patterns.',
  [B+':hdbscan_run',B+':hdbscan_compute_hierarchy_and_cluster_tree',D+':distance_get_core_distances'])
p('C67','The order of the rows does not change clusters and scores',
  'Two runs over the same rows in different orders (also with different schedules and sorts) build the same clusters with the same birth levels and give each row the same outlier score and core distance, if minPts is 2 or no distance occurs twice in a row of the distance matrix. The chosen flat clustering may still differ: where the stability of a cluster ties with that of its descendants, the rounding of sums taken in row order decides. With repeated distances and minPts above 2 everything may differ.',
  'every dataset, every permutation of its rows, every pair of schedules and sorts','There are n! orders of each dataset; the spanning tree, the labels and all traversal orders change with the order.',
  [B+':hdbscan_run',B+':hdbscan_construct_mst',B+':hdbscan_compute_hierarchy_and_cluster_tree',D+':distance_get_core_distances'])
p('C68','Tables behave as maps for every integer key type',
  'A table from hashtable_init with integer keys (char, short, int, long) and any value type behaves as a finite map for any requested bucket count and any history of inserts, updates, lookups and size queries. A removal returns the stored value if key and value type have the same size, only its first bytes if the key type is smaller, and is undefined otherwise. Pointer keys have no hash function: the first insert or lookup is undefined.',
  'every requested bucket count, key type, value type, history and key','Bucket counts, histories and keys are unbounded; the sizes interact with the key type only in removals.',
  [H+':hashtable_init',H+':hashtable_init_size',H+':hashtable_remove',U+':get_htype_size',U+':int_hash'])
p('C69','Clusters have at least minPoints points',
  'After a run every label other than 0 (noise) occurs at least minPoints times in the labels, so at most rows/minPoints different clusters are given out; every label is below the number of clusters in the table; and the whole hierarchy has at most 2*rows/minPoints - 1 clusters, unless it is only the root.',
  'every dataset with 5..65536 rows, every minPoints from 2, every schedule and qsort','Holds for all data and all tie patterns.',
  [B+':hdbscan_run',B+':hdbscan_compute_hierarchy_and_cluster_tree',B+':hdbscan_find_prominent_clusters'])
p('C70','The Java class clusters what it is given',
  'For a program that uses only the object created last, after each run or reRun the labels of an object are those the library computes for its last rows (cut to the width of the first row) with its last minPoints, whatever calls came before. In general all Java objects share one minPoints and one dataset: the labels are those of the shared state. A row shorter than the first, or an empty array, is undefined behaviour, and so is a reRun between a constructor and the next run.',
  'every sequence of constructor, run and reRun calls on any number of objects, all data, schedules and qsort','Histories of calls over several objects are unbounded.',
  ['modules/java/src/Hdbscan.cpp:runImpl','modules/java/src/Hdbscan.cpp:reRunImpl','modules/java/src/Hdbscan.cpp:initHdbscan','modules/java/src/bw/co/roguesystems/Hdbscan.java:Hdbscan'])
p('C71','getClusterMap of the Java class groups the points',
  'getClusterMap returns exactly one entry for each label that occurs, holding the positions with that label in increasing order; null when there are no labels yet.',
  'every array of labels','All arrays of labels.',
  ['modules/java/src/bw/co/roguesystems/Hdbscan.java:getClusterMap'])
p('C72','The Python class clusters what it is given',
  'With one object, after the constructor and a first run any sequence of runs and reruns works, labels is the list the library computes for the last array with the last minPoints, and the object can be deleted. With several objects: all share one minPoints and one dataset; which programs are safe and what labels they see is stated exactly. Deleting any object makes every later rerun undefined until the next run; deleting an object, or refusing a constructor argument, before the first run after a constructor is undefined; refused reruns give away references, after two of them the labels are freed; a rerun of an object with more rows than the data run last reads out of bounds.',
  'every sequence of constructor, run, rerun and deletion on any number of objects, all arrays, schedules and qsort','Histories of calls over several objects are unbounded, and deletions come from the garbage collector.',
  ['modules/python/src/PyHdbscan.c:PyHdbscan_init','modules/python/src/PyHdbscan.c:PyHdbscan_run','modules/python/src/PyHdbscan.c:PyHdbscan_rerun','modules/python/src/PyHdbscan.c:PyHdbscan_dealloc'])
p('C73','How long the memory of the results stays valid',
  'The memory behind labels, scores, hierarchy and clusters stays allocated exactly until the next rerun or cleaning call; that of the distances, core distances and tables exactly until the next hdbscan_clean. A second run without cleaning keeps both allocated for ever. So arrays handed out by the Python getHierarchies dangle after a rerun or a deletion.',
  'every sequence of run, rerun, minimal clean and clean calls before and after taking the pointers','Histories of calls are unbounded.',
  ['src/hdbscan.c:hdbscan_minimal_clean','src/hdbscan.c:hdbscan_clean','src/hdbscan.c:hdbscan_rerun','modules/python/src/PyHdbscan.c'])
p('C74','The hierarchy depends only on the order of the distances',
  'When the pairwise distances of two datasets with the same number of rows (of any element types and widths) are ordered in the same way, both runs build the same hierarchy: the same clusters with the same labels, parents and points and the same tables of labels; each birth and death level, table level and core distance of one run is the distance between the same two rows as in the other.',
  'every pair of datasets whose distances compare in the same way, every minPoints, schedule and qsort','All datasets and all monotone changes of the distances.',
  ['src/hdbscan.c:hdbscan_run','src/hdbscan.c:hdbscan_compute_hierarchy_and_cluster_tree','src/hdbscan.c:hdbscan_construct_mst'])
p('C75','The unit of the data does not matter, up to powers of two',
 "If all data are multiplied by 2^q, a run returns the same labels, the same clusters with the same points, the same hierarchy tables and, when the root has split into clusters, the same outlier scores in the same order; every distance level, birth and death is exactly 2^q times as large and every stability exactly 2^-q times.",
 "Every dataset of 5 to 65536 rows of doubles that are 0 or between 2^-200 and 2^200 in magnitude and every q in [-100,100]; every integer dataset (of any of the four types, also a change of type) whose scaled differences do not overflow; every minPts from 2 to the number of rows, thread schedule and valid sort.",
 "Rounding could break the relation for some data; the claim is about all data and all scales, through subtraction, square, sum, root, reciprocal, the stabilities and all comparisons between them.",
 ['src/distance.c:distance_compute','src/hdbscan.c:hdbscan_run','src/cluster.c:cluster_detach_points','src/cluster.c:cluster_propagate'])

p('C76','Integer data: exact distances, and results that depend on the distances only',
 "For integer data the distance reported for two rows is the double nearest to their true Euclidean distance when its square is at most 2^53; two integer datasets (of any integer element types and any widths) with the same exact distances between their rows give the same results in every field, so moving, mirroring, turning the data, exchanging columns or adding constant columns changes nothing; moving and mirroring columns changes nothing even without that bound. For doubles moving the data can change the labels.",
 "Every integer dataset whose differences do not overflow, every pair of rows, every pair of datasets with equal exact distances, every minPts, schedule and sort.",
 "The claim is about all data and every rounding step, and relates the results of two runs.",
 ['src/distance.c:distance_compute','src/distance.c:distance_get','src/hdbscan.c:hdbscan_run'])

p('C77','Printing numbers and distances',
 "A number printed with %d is the shortest decimal text of the number, and a double printed with %.pf is within half a unit of the last of its p digits, with an even last digit when it lies half way. distances_print writes one bracketed line per row with the distances to the later rows in order, as long as every distance is below 10^11; for any pair of rows with a finite distance of 10^11 or more it writes past the end of a 20-byte buffer.",
 "Every integer and double, every precision; every dataset of any element type, every number of rows and columns, every minPts.",
 "The buffer sizes are right for small numbers only: a test would have to hit the magnitude at which each one overflows.",
 ['src/distance.c:distances_print'])

p('C78','Printing outlier scores',
 "After a run that returns outlier scores the print function writes one line per point (in the order of the scores) with its index, core distance and score, for distances up to 10^68, if the root has split into clusters; after a run with a single cluster a score that is not zero has hundreds of digits and overflows a 100-byte buffer.",
 "Every dataset with finite distances (within the magnitudes named), every minPts, schedule and valid sort.",
 "The scores come out of the whole run; the claim is about all datasets, and the length of a text depends on the magnitudes of all values in it.",
 ['src/hdbscan.c:hdbscan_print_outlier_scores','src/hdbscan.c:hdbscan_calculate_outlier_scores'])

p('C79','Printing hierarchies',
 "hdbscan_print_hierarchies without a file name writes the levels in increasing order of their number, each with its distance and the labels of all points; with any file name it is undefined.",
 "Every hierarchy with levels 0..k-1 in any bucket order, every number of points and all labels and distances; every file name.",
 "The order and completeness concern hash tables of any size; whether an uninitialised buffer works by luck depends on the stack.",
 ['src/hdbscan.c:hdbscan_print_hierarchies'])

p('C80','Printing maps, statistics and graphs',
 "Printing a cluster map writes each cluster in the order of first appearance with exactly its points in order, and printing sizes writes the number of points of each; printing the distance map, the statistics and a graph writes every value under its own name, in order, as long as the values stay below the magnitude at which the fixed buffers (512, 1200 and 300 bytes) overflow; beyond it, and for graphs with an edge of weight DBL_MAX (a point that could not be reached), the behaviour is undefined.",
 "All label arrays, all distance maps and statistics, all graphs (any number of vertices and edges).",
 "A test can only try some magnitudes; the bounds are about all values, and DBL_MAX edges come only from data with infinite or undefined distances.",
 ['src/hdbscan.c:hdbscan_print_cluster_map','src/hdbscan.c:hdbscan_print_cluster_sizes','src/hdbscan.c:hdbscan_print_distance_map','src/hdbscan.c:hdbscan_print_stats','src/undirected_graph.c:graph_print'])

p('C81','The GPU kernel fills a triangular table of distances',
 "Launched over any grid that covers the table, in any order of the threads, the kernel stores the distance of rows r > c in cell r(r-1)/2 + c for up to 4097 rows, leaves other cells alone, and each value is within 2^-23 (relative) of the exact root of the sum of squares when that sum lies in [2^-126, 2^127]. From 4098 rows on the cell of rows 4097 and 0 receives 0; distances of 2^64 and more come out infinite; and the order of the cells is not the one the CPU code reads (asked for rows 0 and 3 of four or more rows it answers with rows 1 and 2).",
 "Every table of doubles, every number of rows and columns (within the bounds named), every grid and thread order, with and without fused multiply-add.",
 "The index computation uses a single precision square root; whether it is exact for all indices below a bound is a statement about millions of roundings, and the thread order is not under the control of a test.",
 ['modules/cuda/src/cuda_distance.cu:distance_compute_kernel','modules/cuda/src/cuda_distance.cu:deviceFistTriangleNum','modules/cuda/src/cuda_distance.cu:TRIANGULAR_D'])

p('C82','Hash tables with floating point keys',
 "A hash table with double or float keys behaves as a map in which two keys are the same when they are numerically equal (so 0 and -0 are one key), for keys greater than -1 and less than 2^64; inserting or looking up any other key (a NaN, an infinity, -1 and below, 2^64 and above) is undefined behaviour.",
 "Every history of insertions, lookups and size queries, every number of buckets asked for, every value type, all keys.",
 "The hash converts the key to an unsigned integer, which works on some machines by luck; that different keys in one bucket stay apart concerns all histories.",
 ['modules/collections/src/hashtable.c:hashtable_init','modules/collections/src/hashtable.c:hashtable_insert','modules/collections/src/hashtable.c:hashtable_lookup','modules/utils/src/utils.c:double_hash','modules/utils/src/utils.c:double_compare'])

p('C83','Hash tables with string keys',
 "A table created for string keys and used as the repository's tests use it (the key argument points to a char pointer) is a map from addresses to values, where an address counts up to its first zero byte from the low end: with addresses whose six low bytes are not zero the keys are the addresses; two strings at addresses ending in a zero byte are the same key whatever they contain, and an equal string at another address is not found.",
 "Every history of insertions, lookups and size queries, every number of buckets asked for, every value type, all addresses below 2^56.",
 "The repository's tests look a key up through the very same pointer, which cannot tell a map of strings from a map of addresses; which strings collide depends on where the loader or allocator puts them.",
 ['modules/collections/src/hashtable.c:hashtable_init','modules/collections/src/hashtable.c:hashtable_insert','modules/collections/src/hashtable.c:hashtable_lookup','modules/utils/src/utils.c:str_hash','modules/utils/src/utils.c:get_htype_size','modules/collections/tests/hashtabletests.c'])

p('C84','A distance object over its life',
 "After any sequence of computations, core distance requests, look-ups and cleanings, a distance object answers what a new computation of its current data with the number of neighbours asked for last would answer, and used in order (look-ups while a computation is in place) nothing is undefined. Destroying it frees everything except two blocks for each computation that replaced another without a cleaning in between. Before the first computation and after a cleaning every look-up of two different rows and every request for core distances is undefined; the public part of the C++ class offers nothing else.",
 "Every history of operations on an object, any datasets, shapes and numbers of neighbours.",
 "That old core distances never show through, and how much is leaked, are statements about all histories.",
 ['src/distance.c:distance_init','src/distance.c:distance_compute','src/distance.c:distance_get_core_distances','src/distance.c:distance_clean','src/distance.cpp:Distance::getCoreDistances','src/distance.cpp:Distance::computeDistance'])

p('C85','The dictionaries of the Python binding',
 "After a run or an accepted rerun in any program, getClusterMap(begin, end) with begin <= end at most the number of labels returns a dictionary whose keys are the labels of the points begin, ..., end-1 and whose arrays are the increasing points with each label, provided the range is empty or has at least three points; the same object becomes the member clusterMap. getHierarchies stores in the member hierarchy the labels of every level of the hierarchy of the current data under the number of the level, and returns 1. A range of one or two points, and getHierarchies before the first run, end the interpreter; a range past the last point reads outside the labels; a call with wrong arguments leaves clusterMap dangling; every dictionary made by getHierarchies is leaked.",
 "Every program of constructors, runs, reruns and deletions over any number of objects and arrays, every range, every state of the members.",
 "A test sees a few programs and ranges; the statement is about every label of every clustering and about references over a whole history.",
 ['modules/python/src/PyHdbscan.c:PyHdbscan_getClusterMap','modules/python/src/PyHdbscan.c:PyHdbscan_getHierarchies','src/hdbscan.c:hdbscan_create_cluster_map'])

p('C86','The hierarchy on the growing arrays of the library',
 "While the hierarchy is built, the neighbours of a vertex, the working sets of a level, the new clusters of a level, the points left as noise in a cluster and the list of all clusters are growing arrays with a capacity, searched by bisection or one by one and used again at the next level; the levels are kept in a hash table. For every graph of at most 2^31 points and fewer than 2^31 edges, whatever the sizes reached, no access leaves a block or reads an element that was never written, and the labels, noise levels, last clusters, hierarchy and clusters (with their points left as noise) are exactly those obtained with sets and sequences in the mathematical sense.",
 "Every graph in which every vertex has an edge, with no NaN weight, at most 2^31 vertices and fewer than 2^31 edges, every minPoints from 2, with and without the compact hierarchy, every initial capacity of the list of clusters, every number of buckets asked for.",
 "Growth happens at sizes that depend on the data, at each container separately, and elements of earlier levels stay in the blocks; tests on a few data sets pass through few of the combinations.",
 ['src/hdbscan.c:hdbscan_compute_hierarchy_and_cluster_tree','src/hdbscan.c:hdbscan_create_new_cluster','src/cluster.c:cluster_init','src/cluster.c:cluster_add_points_to_virtual_child_cluster','src/undirected_graph.c:graph_init','src/undirected_graph.c:graph_remove_edge','modules/collections/src/list.c:array_list_append','modules/collections/src/set.c:set_insert'])

p('C87','A whole run on the containers of the library',
 "hdbscan_run followed by any sequence of hdbscan_rerun, carried out on the library's own growing arrays, ordered sets and hash tables with pointers to clusters, returns, and leaves labels, outlier scores, hierarchy and clusters (members left as noise and selected descendants included) equal to those obtained with sets, sequences and maps in the mathematical sense. No access leaves a block, reads an element never written or follows a NULL pointer; the order in which a hash table lists its keys has no effect.",
 "Every data set of 5 to 65536 rows (any doubles, floats, and integers whose differences do not overflow), every minPoints from 2, every correct qsort, every order of the steps of the parallel loops, every finite history of reruns.",
 "Which blocks grow and which keys collide depends on the data and on what earlier runs left in the blocks that are used again; tests see few of these combinations.",
 ['src/hdbscan.c:hdbscan_run','src/hdbscan.c:hdbscan_rerun','src/hdbscan.c:hdbscan_do_run','src/hdbscan.c:hdbscan_minimal_clean','src/hdbscan.c:hdbscan_propagate_tree','src/hdbscan.c:hdbscan_find_prominent_clusters','src/hdbscan.c:hdbscsan_calculate_outlier_scores','src/cluster.c:cluster_propagate','modules/collections/src/hashtable.c:hashtable_insert','modules/collections/src/hashtable.c:hashtable_lookup'])

p('C88','A graph over its life',
 "A graph made from three separate lists of equal length (in memory of the library or of the caller) has, for every vertex, the adjacency list the edges describe. Any removals and sorts after that return, with the described effect: the edges are permuted, and an entry is listed as often as the edges say less the removals. Cleaning the graph frees the three lists it was given and everything it allocated, each block once, and nothing else; destroying it frees the graph as well; cleaning twice is harmless. The same list given for both ends is freed twice; a second list that is too short is not noticed and its last vertex is used again, and when it is empty an uninitialised vertex is used; after cleaning, removing and sorting dereference NULL; the default constructor of the C++ class dereferences NULL wherever malloc(0) gives a block; where it gives NULL, a graph without vertices is lost.",
 "Every number of vertices, every edge list, every state of the heap, every sequence of removals and sorts.",
 "Adjacency lists grow at sizes that depend on the data, and leaks and double frees are statements about every block at the end of every history.",
 ['src/undirected_graph.c:graph_init','src/undirected_graph.c:graph_clean','src/undirected_graph.c:graph_destroy','src/undirected_graph.c:graph_remove_edge','src/undirected_graph.cpp:UndirectedGraph::UndirectedGraph','src/undirected_graph.cpp:UndirectedGraph::~UndirectedGraph'])

p('C89','Satisfied constraints outrank stability',
 "After a hierarchy has been built, a program reports with cluster_add_constraints_satisfied and cluster_add_virtual_child_constraints_satisfied how many constraints clusters and their virtual children satisfy, in any order and any number of calls, and then propagates. The clusters handed to the root form an antichain without the root that satisfies at least as many constraints as any other choice of clusters below the root, and among those with as many it has the largest stability; both totals are what the root carries. A choice counts, for every chosen cluster, the constraints of the cluster, and for every cluster with children that is not chosen itself and lies above the choice those of its virtual child. When more than 2^32 constraints are reported in total the counters wrap and the claim fails.",
 "Every cluster tree of any size with stabilities that are not negative below the root, every sequence of reports with a total below 2^32, every order in which the parallel loop finds the leaves.",
 "The comparison is between the result and every other choice, which are exponentially many, under every distribution of constraints over the tree.",
 ['src/cluster.c:cluster_add_constraints_satisfied','src/cluster.c:cluster_add_virtual_child_constraints_satisfied','src/cluster.c:cluster_propagate','src/hdbscan.c:hdbscan_propagate_tree'])

p('C90','Results read from C++',
 "The records of results are declared once, in headers for C and C++, and filled by C code. A C++ program that reads a member of the hdbscan object, of a distance_values, clustering_stats or hierarchy_entry record or of an ArrayList gets the value C stored, for every member and every index of an array of them. For the outlier scores, the clusters, the spanning tree and constraints this fails, because C++ puts the pointer for the virtual destructor in front of the members: the outlier score of the first point reads as its core distance and the id of the last point is read beyond the end of the array (from three points on also the score); a cluster's birth level reads as its death level, its stability as the propagated stability, its parent as its list of descendants; reading whether it has children leaves the block.",
 "Every array of records with any contents and any length; every record type made of members of 4 and 8 bytes (x86-64, System V and Itanium C++ ABI).",
 "The library's tests are compiled as C or do not touch these members; a wrong value at one index can coincide with the right one for the data of a test.",
 ['include/hdbscan/outlier_score.h:OutlierScore','include/hdbscan/cluster.h:Cluster','include/hdbscan/undirected_graph.h:UndirectedGraph','include/hdbscan/constraint.h:Constraint','include/hdbscan/hdbscan.h:hdbscan','include/hdbscan/distance.h:Distance','src/hdbscan.c:hdbscsan_calculate_outlier_scores','src/cluster.c:cluster_init'])

p('C91','Cluster objects over their life',
 "A program makes clusters with cluster_init (with or without a parent), adds points to their virtual children, asks whether a point is in one, and destroys them, in any order. As long as it uses no cluster after destroying it, every call returns, cluster_virtual_child_contains_point answers yes exactly for the points added to that cluster, and the memory held is five blocks for every cluster not yet destroyed, so none when all are; using a destroyed cluster is undefined. cluster_release_virtual_child does not release the virtual child, whose points remain: it destroys the parent of the cluster, so that using the parent, or releasing once more from the cluster or from a sibling, is undefined. cluster_detach_points takes the points off when the cluster has them; when it has not, success is returned all the same and the cluster has nearly 2^32 points.",
 "Every sequence of calls on any number of clusters, with any points, starting from any heap; every cluster and every number of points.",
 "Use after free and leaks are statements about every history of calls.",
 ['src/cluster.c:cluster_init','src/cluster.c:cluster_destroy','src/cluster.c:cluster_add_points_to_virtual_child_cluster','src/cluster.c:cluster_virtual_child_contains_point','src/cluster.c:cluster_release_virtual_child','src/cluster.c:cluster_detach_points'])

p('C92','Hash tables under every history with removals',
 "Whatever sequence of insertions, lookups, removals and size queries a program performs, no operation is undefined, a value handed out is the last one inserted for its key, an absent key is never found, and the reported size is never too small; the exact answers are those of buckets that are lists of runs, where removing from inside a run splits it and removing the first entry of a later run loses every run in front. The number of entries counts those inserted and not handed back by a removal. Clearing the table calls the value destructor once for every value still stored and frees those entries. What a user also expects fails: with any three keys in one bucket, removing the second and the first loses the third, which can neither be found nor removed, still counts, and is not freed by clearing the table.",
 "Every key type with a total order and a hash in range, every number of buckets, every sequence of operations with any values of the table's size (keys not wider than values; for the comparison with a map, as wide).",
 "Which entries are lost depends on the order of insertions and removals within a bucket; a test with few keys or few collisions sees nothing.",
 ['modules/collections/src/hashtable.c:hashtable_insert','modules/collections/src/hashtable.c:hashtable_lookup_entry','modules/collections/src/hashtable.c:hashtable_remove','modules/collections/src/hashtable.c:hashtable_clear'])

p('C93','Accuracy of distances',
 "The distance of two rows read with distance_get, when it is finite, is the Euclidean distance of their real coordinates up to the factors low and high, which are within (cols + 2) 2^-53 of 1, plus 2^-53 for the difference of coordinates (2^-24 for float data); so two pairs whose true distances differ by more than high/low are in the right order, and the triangle inequality holds up to that factor. Needed for it: no two different coordinates of the rows are closer than 2^-510, which always holds for integer data. Distances are finite on integer data and on finite data up to 2^400 (float: 2^126) in absolute value. Outside it fails: two points that are 2^512 or more apart come out infinitely far apart, although a double could hold the distance, and two different points at most 2^-538 apart come out at distance 0.",
 "Every dataset of any of the six element types with up to 65536 rows and any number of columns, every pair of rows.",
 "The error of a sum of rounded squares depends on every coordinate; a test compares a few distances, mostly of small integers, where nothing is rounded.",
 ['src/distance.c:distance_compute','src/distance.c:distance_get'])

p('C94','Accuracy of core distances and clusters',
 "On data whose distances are accurate (C93) and where core distances are the k-th smallest (no distance twice in a row of the matrix, or minPoints 2; C17), every core distance is the true k-th smallest distance of its point up to the factors low and high of C93, and the clusters of a run lie between two density levels of exact arithmetic: for every cluster there is a level r such that any two of its points are joined by steps of true mutual reachability distance at most r/low, and every point joined to one of them by steps of at most r/high belongs to the cluster.",
 "Every dataset of any element type with 5 to 65536 rows that meets the conditions, every minPoints from 2 to the number of rows, every schedule of the parallel loops and every sorting function of the C library.",
 "Rounding can change which of two nearly equal distances is smaller, and one wrong comparison can move a whole subtree; the claim bounds the effect for every input at once.",
 ['src/distance.c:distance_get_core_distances','src/hdbscan.c:hdbscan_run','src/hdbscan.c:hdbscan_do_run','src/hdbscan.c:hdbscan_construct_mst'])

p('C95','Raising minPoints coarsens density',
 "On the same data, a larger minPoints never gives a point a smaller core distance, two points within mutual reachability distance w for the larger minPoints are within w for the smaller one, and so at every level w the dense groups of the larger minPoints lie inside those of the smaller; in particular every cluster found with the larger minPoints lies inside one dense group of the smaller minPoints at the level of that cluster. Needed for it: no finite distance occurs twice in a row of the matrix (or minPoints is 2). With ties it fails: for distances a, b, b, a, 0 with 0 < a < b the core distance is b for minPoints 3 and a for minPoints 4.",
 "Every dataset of any element type with up to 65536 rows, every pair of values of minPoints, every level, every schedule and every sorting function of the C library.",
 "It compares two runs at all levels; a test compares a few numbers of two runs.",
 ['src/distance.c:distance_get_core_distances','src/distance.c:distance_compute','src/hdbscan.c:hdbscan_run','src/hdbscan.c:hdbscan_rerun'])

p('C96','The linked list under every history of calls',
 "For every history of front and tail adds, lookups, removals, takes, reads and clears on a linked list, the answers, the reported size and the histories with undefined behaviour are those of one small machine: a removal whose element lost its link to its predecessor also drops every element before it, a removal at the end forgets the end, and clear forgets the elements it can reach only. Up to the first dropped element the list holds exactly the expected sequence; afterwards what it can reach is a part of that sequence in its order, so nothing is found that should be absent, and the size is never too small. Deleting the list frees every node but the dropped and the taken ones. It does not survive removals: after three tail adds and the removal of the second and the third element the list reports one element that no read reaches, every later add is undefined, even after a clear, and deleting the list leaks the element.",
 "Every element type and comparison function, every sequence of calls of any length.",
 "The failures need particular orders of removals; a test covers a few orders.",
 ['modules/collections/src/linkedlist.c:linkedlist_remove','modules/collections/src/linkedlist.c:linkedlist_lookup','modules/collections/src/linkedlist.c:linkedlist_clear','modules/collections/src/linkedlist.c:linkedlist_delete','modules/collections/src/linkedlist.c:linkedlist_tail_add','modules/collections/src/linkedlist.c:linkedlist_front_add'])

p('C97','A run gives back all its working memory',
 "For every history of runs, reruns, emptyings and cleanings of one object, and whatever the data makes each run do, no call frees a block twice or touches a freed block, and after each call the allocated blocks are exactly those there before the first call and those the object refers to: the temporary lists and tables of the run are all given back, also when rounds are skipped, lists grow or clusters turn into noise. After a run or a rerun the object holds 22 blocks, two per point, five per stored level and five per cluster, however many runs came before; after hdbscan_clean none. It does not hold without the cleaning: a second run on an object that was not cleaned leaks every block of the first.",
 "Every initial heap, every allowed history of calls of any length, every number of points, levels, clusters and list growths.",
 "A leak on one path through the hierarchy loop shows in a test only if its data takes that path under a leak checker.",
 ['src/hdbscan.c:hdbscan_run','src/hdbscan.c:hdbscan_rerun','src/hdbscan.c:hdbscan_do_run','src/hdbscan.c:hdbscan_minimal_clean','src/hdbscan.c:hdbscan_clean','src/hdbscan.c:hdbscan_compute_hierarchy_and_cluster_tree','src/hdbscan.c:hdbscan_find_prominent_clusters','src/hdbscan.c:hdbscan_propagate_tree','modules/collections/src/hashtable.c:hashtable_destroy'])

p('C98','Lists that are sorted and searched',
 "For every history of list operations, sorts and searches that take the list to be sorted, nothing is undefined; a sort rearranges the elements in the order of the comparison and every other operation sees the list so arranged; a sorted search answers the place of an element equal to the one looked for whenever the list is sorted and holds one, and never finds what is not there, sorted or not. Sorting a set changes nothing, after every history of set operations. A sorted search in a list that is not sorted is not reliable: of two elements appended out of order it misses the second, which the plain search finds.",
 "Every element type, every comparison that orders the elements (elements may tie), every qsort that sorts, every initial size and every sequence of operations (insertions inside the list, clears that keep the block).",
 "The answer of the search depends on the order of the whole list; a test fixes one list and one qsort.",
 ['modules/collections/src/list.c:array_list_sort','modules/collections/src/list.c:array_list_find','modules/collections/src/list.c:binary_search','modules/collections/src/set.c:set_sort'])

p('C99','Removals from tables with floating point and string keys',
 "For every history of insertions, lookups, removals and sizes on a table with floating point keys (greater than -1 and less than 2^64) or with string keys, when the values are at least as wide as the keys, nothing is undefined and the answers are exactly those of the runs of entries its buckets hold; equal numbers are one key, and so are addresses that agree up to their first zero byte. When values and keys have the same width every answer is the one of the finite map or reports a key missing. Removals do lose keys: whatever the number of buckets, of three different numbers with the same integer part, removing the second and the first loses the third.",
 "Every number of buckets, every key and value type of the given widths, every sequence of operations, every floating point key in range and every address below 2^56.",
 "Which keys survive depends on which keys share a bucket and on the whole order of insertions and removals.",
 ['modules/collections/src/hashtable.c:hashtable_remove','modules/collections/src/hashtable.c:hashtable_insert','modules/utils/src/utils.c:double_hash','modules/utils/src/utils.c:str_hash'])

p('C100','Skewness and kurtosis by a team of threads',
 "The statistics hdbscan_calculate_stats leaves in the struct are the same for every number of threads and every interleaving of their steps: every thread of the parallel region computes and stores the same four values. The second version of the formulas, hdbscan_skew_kurt_2, does not have this property: on three values or more its skewnesses do not depend on the threads, but the correction of a kurtosis is taken away once for one thread and, for n threads, any number of times from 1 to n, each of which happens in some execution. It gives no finite skewness for two values and no finite kurtosis for three, and the denominator of its factor is right for at most 1627 values.",
 "Every number of threads, every interleaving of loads and stores, every struct, every pow of the library.",
 "A test sees one number of threads and one schedule, and the lost or repeated subtractions need a particular one.",
 ['src/hdbscan.c:hdbscan_skew_kurt_1','src/hdbscan.c:hdbscan_skew_kurt_2','src/hdbscan.c:hdbscan_calculate_stats'])

p('C101','Data races in the parallel loops',
 "The parallel loops that fill arrays (labels, levels of the hierarchy, the arrays of the spanning tree and its self edges, the noise levels, the scores, the ratios of the statistics, the lists of a graph, the labels for Java) have no data race, for every number of iterations and every contents of memory; and however the loads and stores of their iterations interleave, they leave exactly the memory the program leaves without OpenMP. Two parallel constructs do have a data race: the loop that stores the offsets of new clusters as soon as there are two of them, and the region that stores skewness and kurtosis as soon as there are two threads. The first can lose the offset of a new cluster that the sequential program stores; the second stores the same four values in every order.",
 "Every number of iterations, every contents of memory, every order in which the steps of the iterations interleave (so every number of threads and every distribution of the iterations).",
 "A race shows in some schedules only, and a test cannot enumerate them.",
 ['src/hdbscan.c:hdbscan_create_new_cluster','src/hdbscan.c:hdbscan_compute_hierarchy_and_cluster_tree','src/hdbscan.c:hdbscan_construct_mst','src/hdbscan.c:hdbscsan_calculate_outlier_scores','src/hdbscan.c:hdbscan_calculate_stats','src/undirected_graph.c:graph_init','modules/java/src/Hdbscan.cpp:getLabelsArray'])

p('C102','Reading printed results back',
 "What the printing functions write determines what they were given. Two lists of labels whose cluster maps print the same text (in C or in C++) are equal; two lists whose cluster sizes print the same text have the same number of points for every label, and conversely; distance maps that C++ prints alike have the same labels and values that agree to six digits; data sets whose tables of distances print alike have the same number of rows and distances that agree to six digits; two runs whose hierarchies print alike have the same number of points, the same labels at every level and distances of the levels that agree to 15 digits, and two whose outlier scores print alike have the same points in the same order, with values that agree to six digits. C and C++ print the same text for the cluster map and the sizes of the same labels. The C++ functions and print_distances have no buffer and print every value, also those that overflow the buffers of the C functions.",
 "Every list of 32 bit labels of fewer than 2^32 points, every distance map, every data set of up to 65536 rows, every pair of runs.",
 "That no two different results share a text is a statement about all pairs of results.",
 ['src/hdbscan.cpp:printClusterMap','src/hdbscan.cpp:printClusterSizes','src/hdbscan.cpp:printDistanceMap','src/hdbscan.c:hdbscan_print_cluster_map','src/hdbscan.c:print_distances','src/hdbscan.c:print_graph_components'])

p('C103','Running out of memory',
 "What the collections and objects do when malloc, calloc or realloc answer NULL. Creating a list, a table, a score, a constraint or a cluster answers NULL when the object itself is refused, and keeps no memory then. As long as no request is refused, every history of calls on lists, sets, tables and graphs behaves as with unlimited memory. A refused addition to a linked list whose node is refused answers 0 and changes nothing. False of the code: a refused array_list_append answers 0 but loses all the elements and their memory, and the next append may succeed on a list of unset elements; a refused growth of a set or array_list_insert_at, a refused value of a linked list, a refused insertion into a table, a refused set of a cluster or list of a graph write through NULL; a table whose set of keys is refused is handed out and cannot be used; graph_init loses its struct when the array of lists is refused, and hands out a graph without the neighbours of a vertex when one of its lists cannot grow.",
 "Every pattern of refusals (every function from the number of the request to granted or refused), every history of calls, every element type and order.",
 "A test harness would have to make every single request of every history fail in turn.",
 ['modules/collections/src/list.c:array_list_init','modules/collections/src/list.c:array_list_grow','modules/collections/src/list.c:array_list_append','modules/collections/src/list.c:array_list_insert_at','modules/collections/src/set.c:set_insert','modules/collections/src/set.c:set_clear','modules/collections/src/linkedlist.c:node_creator','modules/collections/src/hashtable.c:hashtable_init_size','modules/collections/src/hashtable.c:hashtable_insert','src/cluster.c:cluster_init','src/undirected_graph.c:graph_init','src/outlier_score.c:create_outlier_score','src/constraint.c:constraint_create'])

p('C104','What a run reports when memory is refused',
 "hdbscan_init(NULL, minPoints) followed by hdbscan_run: when nothing is refused the code is HDBSCAN_SUCCESS and there are labels and scores; when the object is refused the code is HDBSCAN_ERROR for all other arguments. False of the code: a refused matrix of distances, array of core distances, list of clusters, hierarchy or hierarchy entry is written through (undefined); when only the scores are refused the code is HDBSCAN_SUCCESS with the ordinary labels and outlierScores NULL; when only the labels are refused the run is undefined if some point belongs to a cluster, and otherwise answers HDBSCAN_SUCCESS with clusterLabels NULL; hdbscsan_calculate_outlier_scores answers HDBSCAN_ERROR in all cases, so its code says nothing.",
 "Every dataset with 5..65536 rows, every minPoints in 2..2^32-1, every schedule and correct qsort, every refused request of the list.",
 "A test harness would have to refuse each request of each run in turn.",
 ['src/hdbscan.c:hdbscan_init','src/hdbscan.c:hdbscan_run','src/hdbscan.c:hdbscan_do_run','src/hdbscan.c:hdbscan_find_prominent_clusters','src/hdbscan.c:hdbscsan_calculate_outlier_scores','src/distance.c:distance_compute'])

p('C105','Reading a data file with the sample program',
 "The reader of the sample program (getDset): a file of lines of words separated by spaces, commas, tabs, carriage returns or vertical tabs, no line longer than 2047 bytes, gives the numbers of all words in order, the number of lines and the mean number of words in a line; a table gives its entries row by row with its rows and columns, and a table of 5 to 65536 rows is then clustered with one label for each row. Every file of ASCII bytes that is not empty and shorter than 4 GB is read without undefined behaviour and the answered rows times columns never exceed the numbers there are. False of the code: a blank line counts as a row and makes the columns too few; a longer line counts as several rows and cuts a number in two; a lone form feed hides the rest of its line; an empty file divides by zero; a missing file with a name of more than 2027 bytes overruns the buffer of the message.",
 "Every file content (every table and every way to write it), every conversion of words to doubles.",
 "Files, separators and lengths of lines are unbounded; a test reads a few files.",
 ['sample/tester.c:getDset','sample/tester.c:main'])

p('C106','A session of the sample program',
 "What the sample program does with a finished run: for 5 to 65536 rows whose distances are numbers it builds the table of clusters, the distances and the statistics without undefined behaviour, lists every label that occurs exactly once with smaller clusters first, and, if the confidences are numbers, prints the same labels in a second order and a score from -2 to 4 and releases every block of both tables exactly once. The confidences are numbers, from 0 to 100, if no label has an infinite ratio of its largest to its smallest distance and one has a positive ratio. False of the code: if the points of each label coincide and there are three labels, the second sort never ends.",
 "Every data set, minPoints, schedule and qsort, every power function, every content of the uninitialised statistics.",
 "The calls depend on each other's results for every data set; that a program never ends cannot be tested.",
 ['sample/tester.c:main','src/hdbscan.c:hdbscan_sort_by_similarity','src/hdbscan.c:hdbscan_sort_by_length','src/hdbscan.c:hdbscan_calculate_stats'])

p('C107','A session of the C++ sample program',
 "What the C++ sample program does with a finished run: for 5 to 65536 rows whose distances are numbers it has the distances, confidences and statistics of the C program, and lists every label that occurs exactly once with smaller clusters first. If the confidences are numbers, the second list has the same labels, ordered by the confidence of each label itself. False of the code: the two programs do not print the same second list, and if the points of each label coincide and there are three labels, the C++ program never ends either.",
 "Every data set, minPoints, schedule and qsort, every power function, every content of the uninitialised statistics.",
 "The calls depend on each other's results for every data set; that a program never ends cannot be tested.",
 ['sample/tester.cpp:dummy_tester','src/hdbscan.cpp:sortBySimilarity','src/hdbscan.cpp:sortByLength','src/hdbscan.cpp:calculateStats'])

with open(os.path.join(os.path.dirname(__file__),'..','properties.jsonl'),'w') as f:
    for x in P: f.write(json.dumps(x)+'\n')
print(len(P))
