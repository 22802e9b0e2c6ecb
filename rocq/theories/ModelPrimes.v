(** Model of modules/collections/src/primes.c and the table of primes.h, and of
    hashtable.c:102-105 hashtable_init, which uses it to choose the bucket count. *)
From Verif Require Import Base ModelHash.
Local Open Scope Z_scope.

(** primes.h:76-92: 200 slots of static storage, of which 198 have an initialiser; the
    last two are therefore 0. *)
Definition primes_init : list Z := [
    3; 5; 7; 11; 13; 17; 19; 23; 29; 31; 37; 41; 43; 47; 53; 59; 61; 67; 71; 73; 79; 83;
    89; 97; 101; 103; 107; 109; 113; 127; 131; 137; 139; 149; 151; 157; 163; 167; 173; 179;
    181; 191; 193; 197; 199; 211; 223; 227; 229; 233; 239; 241; 251; 257; 263; 269; 271;
    277; 281; 283; 293; 307; 311; 313; 317; 331; 337; 347; 349; 353; 359; 367; 373; 379;
    383; 389; 397; 401; 409; 419; 421; 431; 433; 439; 443; 449; 457; 461; 463; 467; 479;
    487; 491; 499; 503; 509; 521; 523; 541; 547; 557; 563; 569; 571; 577; 587; 593; 599;
    601; 607; 613; 617; 619; 631; 641; 643; 647; 653; 659; 661; 673; 677; 683; 691; 701;
    709; 719; 727; 733; 739; 743; 751; 757; 761; 769; 773; 787; 797; 809; 811; 821; 823;
    827; 829; 839; 853; 857; 859; 863; 877; 881; 883; 887; 907; 911; 919; 929; 937; 941;
    947; 953; 967; 971; 977; 983; 991; 997; 1009; 1013; 1019; 1021; 1031; 1033; 1039; 1049;
    1051; 1061; 1063; 1069; 1087; 1091; 1093; 1097; 1103; 1109; 1117; 1123; 1129; 1151;
    1153; 1163; 1171; 1181; 1187; 1193; 1201; 1213; 1217].
Definition primes : list Z := primes_init ++ repeat 0 2.
Definition p_sz : Z := 200.

(** [primes[i]] for an [int32_t] index. *)
Definition prime_at (i : Z) : res Z :=
  if i <? 0 then UB else aget primes (Z.to_nat i).

(** primes.c:65-98 binary_search_primes; && and || evaluate lazily.  The fuel bounds
    the recursion depth. *)
Fixpoint binary_search_primes (fuel : nat) (l r x : Z) : res Z :=
  match fuel with
  | O => Fuel
  | S f =>
      let! p0 := prime_at 0 in
      if (l =? 0) && (x <=? p0) then Ok p0
      else if r >=? l then
        let mid := l + Z.quot (r - l) 2 in
        let! pm := prime_at mid in
        let! hit := (if pm =? x then Ok true
                     else if pm >=? x then let! q := prime_at (mid - 1) in Ok (q <? x)
                     else Ok false) in
        if hit then prime_at (mid - 1)
        else
          let! go_left := (if pm >? x then let! q := prime_at (mid - 1) in Ok (q >? x) else Ok false) in
          if go_left then binary_search_primes f l (mid - 1) x
          else binary_search_primes f (mid + 1) r x
      else Ok 0
  end.

(** primes.c:103-111 find_prime_less_than. *)
Definition find_prime_less_than (num : Z) : res Z := binary_search_primes 201 0 (p_sz - 1) num.

(** primes.c:41-63 get_prime.  [n_primes] stays 0; the inner loop tests and increments
    the OUTER variable [i], so it only runs while [i] is negative; its [goto] continues
    with the next outer iteration. *)
Inductive inner_exit := Goto (i : Z) | Done (i : Z).
Fixpoint get_prime_inner (fuel : nat) (i : Z) : res inner_exit :=
  match fuel with
  | O => Fuel
  | S f => if i <? 0 then
             let! p := prime_at 0 in
             if Z.rem i p =? 0 then Ok (Goto i) else get_prime_inner f (i + 1)
           else Ok (Done i)
  end.
Fixpoint get_prime_outer (fuel : nat) (i : Z) : res Z :=
  match fuel with
  | O => Fuel
  | S f =>
      let! e := get_prime_inner (S f) i in
      match e with
      | Done i => Ok i
      | Goto i => if in_i32 (i + 1) then get_prime_outer f (i + 1) else UB
      end
  end.
(** [min + 1] overflows for INT_MAX. *)
Definition get_prime (fuel : nat) (min : Z) : res Z :=
  if in_i32 (min + 1) then get_prime_outer fuel (min + 1) else UB.

(** (int32_t)buckets of a size_t. *)
Definition i32_of_size (n : Z) : Z := i32_of_u32 (u32 n).

(** hashtable.c:102-105 hashtable_init: the table gets the bucket count found, converted
    to size_t (0 becomes 37 in hashtable_init_size). *)
Definition hashtable_init_buckets (buckets : Z) : res Z :=
  let! p := find_prime_less_than (i32_of_size buckets) in
  Ok (if u64 p =? 0 then 37 else u64 p).
