(** When two statistics, or two column indexes, say the same. *)
From Verif Require Import Base.Prelude Model.Types Model.Native Model.Statistics Model.Indexes Spec.NumbersSpec Spec.StatsSpec.
Open Scope N_scope.

(** Two native values are the same number; a NaN is none, and the two zeros are the same. *)
Definition same_number (t : native) : carrier t -> carrier t -> Prop :=
  match t with
  | NI32 | NI64 => eq
  | NF32 => fun a b => real_compare (f32_value a) (f32_value b) = Some Eq
  | NF64 => fun a b => real_compare (f64_value a) (f64_value b) = Some Eq
  | NI96 => eq
  end.
(** Both unknown, or both known and related. *)
Definition same_option {A} (R : A -> A -> Prop) (a b : option A) : Prop :=
  match a, b with Some a, Some b => R a b | None, None => True | _, _ => False end.
Definition same_counts_and_bounds {A} (R : A -> A -> Prop) (a b : stats_of A) : Prop :=
  st_null_count a = st_null_count b /\ st_distinct_count a = st_distinct_count b /\
  same_option R (st_min a) (st_min b) /\ same_option R (st_max a) (st_max b).
(** The same kind, the same column type, the same counts and the same bounds. *)
Inductive same_statistics : statistics -> statistics -> Prop :=
| same_bool : forall a b, same_counts_and_bounds eq a b -> same_statistics (SBool a) (SBool b)
| same_native : forall t p a b, same_counts_and_bounds (same_number t) a b -> same_statistics (SNative t p a) (SNative t p b)
| same_binary : forall p a b, same_counts_and_bounds eq a b -> same_statistics (SBinary p a) (SBinary p b)
| same_fixed : forall p a b, same_counts_and_bounds eq a b -> same_statistics (SFixed p a) (SFixed p b).

Definition same_page {A} (R : A -> A -> Prop) (a b : page_index A) : Prop :=
  same_option R (pi_min a) (pi_min b) /\ same_option R (pi_max a) (pi_max b) /\ pi_null_count a = pi_null_count b.
(** The same kind, the same column type, the same order and page by page the same. *)
Inductive same_index : index -> index -> Prop :=
| same_bool_index : forall o a b, Forall2 (same_page eq) a b -> same_index (IBool a o) (IBool b o)
| same_native_index : forall t p o a b, Forall2 (same_page (same_number t)) a b -> same_index (INative t p a o) (INative t p b o)
| same_bytes_index : forall p o a b, Forall2 (same_page eq) a b -> same_index (IBytes p a o) (IBytes p b o)
| same_fixed_index : forall p o a b, Forall2 (same_page eq) a b -> same_index (IFixed p a o) (IFixed p b o).

(** The native values in statistics and in an index are values of their types. *)
Definition stats_values_ok (s : statistics) : Prop :=
  match s with
  | SNative t _ s => all_opt (native_ok t) (st_min s) /\ all_opt (native_ok t) (st_max s)
  | _ => True
  end.
Definition index_values_ok (i : index) : Prop :=
  match i with
  | INative t _ l _ => Forall (fun x => all_opt (native_ok t) (pi_min x) /\ all_opt (native_ok t) (pi_max x)) l
  | _ => True
  end.
(** Statistics and indexes for fixed-length values, of a column of another type. *)
Definition fixed_length (p : primitive_type) : Prop := exists n, pt_physical p = FixedLenByteArray n.
Definition mislabelled_statistics (s : statistics) : Prop :=
  match s with SFixed p _ => ~ fixed_length p | _ => False end.
Definition mislabelled_index (i : index) : Prop :=
  match i with IFixed p _ _ => ~ fixed_length p | _ => False end.
(** The physical type of the values they are about. *)
Definition statistics_about (s : statistics) : physical_type :=
  match s with SBool _ => Boolean | SNative t _ _ => native_physical t | SBinary _ _ => ByteArray | SFixed p _ => pt_physical p end.
Definition index_about (i : index) : physical_type :=
  match i with IBool _ _ => Boolean | INative t _ _ _ => native_physical t | IBytes _ _ _ => ByteArray | IFixed p _ _ => pt_physical p end.

(** A NaN among the bounds. *)
Definition is_nan (t : native) : carrier t -> Prop :=
  match t with
  | NF32 => fun a => f32_value a = NaN
  | NF64 => fun a => f64_value a = NaN
  | _ => fun _ => False
  end.
Definition some_is {A} (P : A -> Prop) (o : option A) : Prop := match o with Some a => P a | None => False end.
Definition nan_statistics (s : statistics) : Prop :=
  match s with SNative t _ s => some_is (is_nan t) (st_min s) \/ some_is (is_nan t) (st_max s) | _ => False end.
Definition nan_index (i : index) : Prop :=
  match i with
  | INative t _ l _ => Exists (fun x => some_is (is_nan t) (pi_min x) \/ some_is (is_nan t) (pi_max x)) l
  | _ => False
  end.

(** ** Merging the statistics of pages. *)
Open Scope Z_scope.
(** Adding up the known counts, one page after the other, leaves the range of [i64] at some page. *)
Definition count_overflows (counts : list (option Z)) : Prop :=
  exists k, in_s 64 (sum_Z (known (firstn k counts))) = false.
(** The null count statistics tell. *)
Definition nulls_told (s : statistics) : option Z :=
  match s with SBool s => st_null_count s | SNative _ _ s => st_null_count s | SBinary _ s => st_null_count s | SFixed _ s => st_null_count s end.
