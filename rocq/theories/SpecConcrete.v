(** What a caller reads from the containers of the library. *)
From Verif Require ModelMap ModelHash.
From Verif Require Import Base F64 ModelArrayList ModelCluster ModelConcrete ModelHier ModelSelect ModelRun ModelConcreteRun.
Local Open Scope nat_scope.

(** The list holds exactly the elements [l], in this order, within its block. *)
Definition reads {A} (v : alist A) (l : list A) : Prop :=
  al_size v = length l /\ al_size v <= length (al_data v) /\
  forall i a, nth_error l i = Some a -> nth_error (al_data v) i = Some (Some a).

(** A list fit for use, without elements. *)
Definition empty_list {A} (v : alist A) : Prop := al_size v = 0 /\ al_max v = length (al_data v) /\ 0 < al_max v.

(** A cluster in memory has the fields of [c]; its set virtualChildCluster and its list
    propagatedDescendants hold the elements of the two sequences of [c]. *)
Definition same_cluster (o : object) (c : cluster) : Prop :=
  c_label (o_cl o) = c_label c /\ c_birth (o_cl o) = c_birth c /\ c_death (o_cl o) = c_death c /\ c_num (o_cl o) = c_num c /\
  c_offset (o_cl o) = c_offset c /\ c_stab (o_cl o) = c_stab c /\ c_pstab (o_cl o) = c_pstab c /\ c_plow (o_cl o) = c_plow c /\
  c_nc (o_cl o) = c_nc c /\ c_pnc (o_cl o) = c_pnc c /\ c_parent (o_cl o) = c_parent c /\ c_kids (o_cl o) = c_kids c /\
  reads (o_virt o) (c_virtual c) /\ reads (o_desc o) (c_desc c).

(** The pointers in [v] lead to NULL and to the clusters 1, 2, ... of [cs], one each. *)
Definition same_clusters (v : alist (option nat)) (blocks : objects) (cs : clusters) : Prop :=
  (exists k, length cs = S k /\ reads v (None :: map Some (seq 1 k))) /\ nth_error cs 0 = Some None /\
  forall i c, nth_error cs i = Some (Some c) -> exists o, nth_error blocks i = Some (Some o) /\ same_cluster o c.

(** The lookup of [k] leads to the value [v]; the table has for every level of [h] an entry
    with its value, no entry for any other key a signed 32-bit [int] can hold, and its list
    of keys names every level once. *)
Definition finds {V} (t : ltable V) (k : nat) (v : V) : Prop := exists a, lt_find t k = Ok (Some a) /\ nth_error (ModelMap.pt_mem t) a = Some v.
Definition same_table (t : ltable (f64 * list nat)) (h : entries) : Prop :=
  (forall k v, hget h k = Some v -> finds t k v) /\
  (forall k, (Z.of_nat k < 2147483648)%Z -> hget h k = None -> lt_find t k = Ok None) /\
  exists ks, al_size (ModelHash.ht_keys (ModelMap.pt_tab t)) = length ks /\ NoDup ks /\
    (forall i k, nth_error ks i = Some k -> lt_key t i = Ok k) /\ forall k, In k ks <-> hget h k <> None.

(** What the caller of the C functions reads from the object. *)
Definition same_object (z : chdb) (o : hdb) : Prop :=
  z_min z = o_min o /\ z_n z = o_n o /\ z_self z = o_self o /\ z_dist z = o_dist o /\
  exists r r' v, z_res z = Some r /\ o_res o = Some r' /\ z_list z = Some v /\
    z_labels r = r_labels r' /\ z_outliers r = r_outliers r' /\ same_table (z_hier r) (r_hier r') /\ same_clusters v (z_blocks r) (r_clusters r').
