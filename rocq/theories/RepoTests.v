(** The repository's own unit tests (modules/collections/tests), run on the model.

    These are tests, not proofs: they check that the model gives the answers the authors
    expect of the code.  The answers are the literals of the CU_ASSERTs.  [PrimeTest] shows
    the one assertion that does not hold. *)
From Verif Require Import Base ModelUtils ModelPrimes ModelCells ModelArrayList ModelLinked ModelHash ModelTable.
Local Open Scope Z_scope.

(** An int32_t in memory, least significant byte first. *)
Definition int_bytes (x : Z) : list Z := [x mod 256; (x / 256) mod 256; (x / 65536) mod 256; (x / 16777216) mod 256].

Definition table_after (ops : list (hop Z)) : res (Z * Z * Z) :=
  let! r := typed_history 45 H_INT H_INT ops in
  Ok (ht_size (fst r), Z.of_nat (hashtable_size (fst r)), ht_collisions (fst r)).

Definition answers_of (ops : list (hop Z)) : res (list (Z * list Z)) :=
  let! r := typed_history 45 H_INT H_INT ops in Ok (snd r).

(** hashtabletests.c:78-201 hash_table_int_test: the calls in order with what x holds. *)
Definition table_calls : list (hop Z) :=
  [HInsert 55 (int_bytes 23); HLookup 55 (int_bytes 0);
   HInsert 55 (int_bytes 88); HLookup 55 (int_bytes 23);
   HInsert 55 (int_bytes 9); HLookup 55 (int_bytes 0);
   HLookup 34 (int_bytes 9);
   HInsert 12 (int_bytes 1); HInsert 12 (int_bytes 33); HLookup 55 (int_bytes 0);
   HInsert 2 (int_bytes 100); HLookup 55 (int_bytes 0);
   HInsert 5 (int_bytes 8); HLookup 55 (int_bytes 0);
   HInsert 5 (int_bytes 43); HLookup 55 (int_bytes 0); HLookup 2 (int_bytes 9);
   HInsert 48 (int_bytes (-2))].

Example HashTableTest_answers :
  answers_of table_calls =
  Ok [(1, int_bytes 23); (1, int_bytes 23);
      (-1, int_bytes 23); (1, int_bytes 88);
      (-1, int_bytes 88); (1, int_bytes 9);
      (0, int_bytes 9);
      (1, int_bytes 1); (-1, int_bytes 1); (1, int_bytes 9);
      (1, int_bytes 100); (1, int_bytes 9);
      (1, int_bytes 8); (1, int_bytes 9);
      (-1, int_bytes 8); (1, int_bytes 9); (1, int_bytes 100);
      (1, int_bytes (-2))].
Proof. vm_compute. reflexivity. Qed.

(** The number of buckets and, after each of the calls at which the test looks, the size, the
    number of keys and the collisions. *)
Example HashTableTest_buckets : hashtable_init_buckets 45 = Ok 43.
Proof. vm_compute. reflexivity. Qed.

Example HashTableTest_sizes :
  map (fun n => table_after (firstn n table_calls)) [0; 1; 3; 5; 8; 9; 11; 13; 15; 18]%nat =
  [Ok (0, 0, 0); Ok (1, 1, 0); Ok (1, 1, 0); Ok (1, 1, 0); Ok (2, 2, 1); Ok (2, 2, 1); Ok (3, 3, 1);
   Ok (4, 4, 1); Ok (4, 4, 1); Ok (5, 5, 2)].
Proof. vm_compute. reflexivity. Qed.

(** listtests.c:77-157 int_ptr_array_list_test, up to the sort.  The elements are the integers
    pointed to, which int_ptr_compare compares. *)
Definition list_calls : list (@lop Z) :=
  [LAppend 12; LValueAt 0; LAppend 1; LValueAt 1; LAppend 120; LValueAt 2; LAppend 55; LValueAt 3;
   LFind 1; LFind 120; LFind 999; LAppend (-5); LValueAt 4; LSize; LValueAt 2;
   LAppend 87; LSize; LAppend 333; LAppend (-98); LAppend 23; LSize; LPop; LSize; LValueAt 7].

Definition list_run (ops : list (@lop Z)) : res (Z * list (Z * option Z)) :=
  let! l := array_list_init 5 in
  let! r := lrun int_compare l ops in
  Ok (Z.of_nat (al_max (fst r)), snd r).

Example ListTest :
  (let! r := list_run list_calls in Ok (map (fun k => snd (nth k (snd r) (0, None))) [1; 3; 5; 7; 12; 14; 21; 23]%nat)) =
  Ok (map Some [12; 1; 120; 55; -5; 120; 23; -98]) /\
  (let! r := list_run list_calls in Ok (map (fun k => fst (nth k (snd r) (0, None))) [8; 9; 10; 13; 16; 20; 22]%nat)) =
  Ok [1; 2; -1; 5; 6; 9; 8] /\
  map (fun k => let! r := list_run (firstn k list_calls) in Ok (fst r)) [0; 14; 21]%nat = [Ok 5; Ok 5; Ok 16].
Proof. vm_compute. split; [reflexivity|split; reflexivity]. Qed.

(** linkedlisttests.c:59-127 int_linked_list_test. *)
Definition linked_calls : list (@dop Z) :=
  [DFront 23; DTail (-25); DFront 23; DTail (-123); DFront 0; DFront 100; DValueAt 1; DValueAt 0;
   DLookup (-25); DHead; DLast; DRemove 23; DClear].

Definition linked_size (n : nat) : res Z :=
  let! r := drun int_compare linkedlist_init (firstn n linked_calls) in Ok (ll_size (fst r)).

Example LinkedListTest :
  (let! r := drun int_compare linkedlist_init linked_calls in
   Ok (map (fun k => nth k (snd r) (0, None)) [6; 7; 8; 9; 10]%nat,
       map (fun k => fst (nth k (snd r) (0, None))) [0; 1; 2; 3; 4; 5; 11]%nat)) =
  Ok ([(1, Some 0); (0, Some 100); (1, Some (-25)); (1, Some 100); (1, Some (-123))], [1; 1; 1; 1; 1; 1; 1]) /\
  map linked_size [0; 1; 2; 3; 4; 5; 6; 12; 13]%nat = [Ok 0; Ok 1; Ok 2; Ok 3; Ok 4; Ok 5; Ok 6; Ok 5; Ok 0].
Proof. vm_compute. split; reflexivity. Qed.

(** settests.c:75-126 set_int_test. *)
Definition set_calls : list (@sop Z) :=
  [SInsert 2; SValueAt 0; SInsert 34; SInsert 2; SInsert 5; SInsert (-45); SFind 2; SFind (-7); SRemove 5;
   SRemoveAt 2].

Definition set_run (n : nat) : res (Z * list (Z * option Z)) :=
  let! s := set_init in
  let! r := srun int_compare s (firstn n set_calls) in
  Ok (Z.of_nat (set_size (fst r)), snd r).

Example SetTest :
  (let! r := set_run 10 in Ok (map fst (firstn 9 (snd r)), nth 1 (snd r) (0, None))) =
  Ok ([1; 1; 1; 0; 1; 1; 1; -1; 1], (1, Some 2)) /\
  map (fun n => let! r := set_run n in Ok (fst r)) [0; 1; 3; 4; 5; 6]%nat = [Ok 0; Ok 1; Ok 2; Ok 2; Ok 3; Ok 4].
Proof. vm_compute. split; reflexivity. Qed.

(** primetests.c:57-59.  The last assertion expects 87 = 3 * 29; the table holds 83 and 89, and
    the code answers 89. *)
Example PrimeTest :
  map find_prime_less_than [10; 29; 93] = [Ok 7; Ok 23; Ok 89].
Proof. vm_compute. reflexivity. Qed.
