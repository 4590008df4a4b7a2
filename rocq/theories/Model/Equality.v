(** Model of the comparisons [==] of statistics (/repo/src/statistics/mod.rs:28-92) and of column indexes
    (/repo/src/indexes/index.rs:18-68), with the derived comparisons of their structs. *)
From Verif Require Import Base.Prelude Model.Types Model.Native Model.Thrift Model.Statistics Model.Indexes.
Open Scope N_scope.

(** schema/types/parquet_type.rs:14: the derived [PartialEq] of [PrimitiveType], and with it those of schema/types/basic_type.rs:7
    [FieldInfo], parquet_bridge.rs:16, 439, 468 and 481, schema/types/converted_type.rs:6 and schema/types/physical_type.rs:8. All
    compare field by field, so that the comparison is Leibniz equality. *)
Definition primitive_eq_dec (a b : primitive_type) : {a = b} + {a <> b}.
Proof. repeat decide equality. Defined.
(** schema/types/parquet_type.rs:14. *)
Definition primitive_eqb (a b : primitive_type) : bool := if primitive_eq_dec a b then true else false.

(** types.rs:42-47: [==] of the types implementing [NativeType]: numbers for [i32] and [i64], IEEE 754 equality for [f32] and [f64], word by word
    for [[u32; 3]]. *)
Definition native_eqb (t : native) : carrier t -> carrier t -> bool :=
  match t with
  | NI32 | NI64 => Z.eqb
  | NF32 => fun a b => match float_partial_cmp 32 inf32 a b with Some Eq => true | _ => false end
  | NF64 => fun a b => match float_partial_cmp 64 inf64 a b with Some Eq => true | _ => false end
  | NI96 => fun a b => let '(a0, a1, a2) := a in let '(b0, b1, b2) := b in (a0 =? b0) && (a1 =? b1) && (a2 =? b2)
  end.

(** The standard library's [PartialEq] of [Option<T>], used at statistics/primitive.rs:11. *)
Definition option_eqb {A} (eqb : A -> A -> bool) (a b : option A) : bool :=
  match a, b with Some a, Some b => eqb a b | None, None => true | _, _ => false end.
(** The standard library's [PartialEq] of [Vec<T>], used at statistics/binary.rs:11 and indexes/index.rs:71. *)
Fixpoint vec_eqb {A} (eqb : A -> A -> bool) (a b : list A) : bool :=
  match a, b with
  | x :: a, y :: b => eqb x y && vec_eqb eqb a b
  | [], [] => true
  | _, _ => false
  end.

(** statistics/primitive.rs:10, statistics/binary.rs:11, statistics/boolean.rs:11 and statistics/fixed_len_binary.rs:11: the derived
    [PartialEq], on the fields common to the four structs. *)
Definition stats_of_eqb {A} (eqb : A -> A -> bool) (a b : stats_of A) : bool :=
  option_eqb Z.eqb (st_null_count a) (st_null_count b) && option_eqb Z.eqb (st_distinct_count a) (st_distinct_count b) &&
  option_eqb eqb (st_max a) (st_max b) && option_eqb eqb (st_min a) (st_min b).
(** statistics/primitive.rs:10, statistics/binary.rs:11 and statistics/fixed_len_binary.rs:11: the same with the primitive type. *)
Definition typed_stats_eqb {A} (eqb : A -> A -> bool) (a b : primitive_type * stats_of A) : bool :=
  primitive_eqb (fst a) (fst b) && stats_of_eqb eqb (snd a) (snd b).

(** statistics/mod.rs:33-90: [downcast_ref().unwrap()] of both, then [==]. *)
Definition downcast_eq {S A} (f : S -> option A) (eqb : A -> A -> bool) (a b : S) : res bool :=
  match f a, f b with Some a, Some b => Ok (eqb a b) | _, _ => Panic end.
(** statistics/mod.rs:28-92 [eq]. *)
Definition statistics_eq (a b : statistics) : res bool :=
  if physical_eqb (stats_physical a) (stats_physical b) then
    match stats_physical a with
    | Boolean => downcast_eq as_bool (stats_of_eqb Bool.eqb) a b
    | Int32 => downcast_eq (as_native NI32) (typed_stats_eqb (native_eqb NI32)) a b
    | Int64 => downcast_eq (as_native NI64) (typed_stats_eqb (native_eqb NI64)) a b
    | Int96 => downcast_eq (as_native NI96) (typed_stats_eqb (native_eqb NI96)) a b
    | Float => downcast_eq (as_native NF32) (typed_stats_eqb (native_eqb NF32)) a b
    | Double => downcast_eq (as_native NF64) (typed_stats_eqb (native_eqb NF64)) a b
    | ByteArray => downcast_eq as_binary (typed_stats_eqb (vec_eqb N.eqb)) a b
    | FixedLenByteArray _ => downcast_eq as_fixed (typed_stats_eqb (vec_eqb N.eqb)) a b
    end
  else Ok false.

(** indexes/index.rs:142-144, 202-204, 262-264 and 318-320: the [physical_type] methods. *)
Definition index_physical (i : index) : physical_type :=
  match i with
  | IBool _ _ => Boolean
  | INative t _ _ _ => native_physical t
  | IBytes _ _ _ => ByteArray
  | IFixed p _ _ => pt_physical p
  end.
(** parquet_bridge.rs:369: derived [PartialEq] of [BoundaryOrder]. *)
Definition boundary_order_eqb (a b : boundary_order) : bool :=
  match a, b with
  | Unordered, Unordered | Ascending, Ascending | Descending, Descending => true
  | _, _ => false
  end.
(** indexes/index.rs:127: derived [PartialEq] of [PageIndex]. *)
Definition page_index_eqb {A} (eqb : A -> A -> bool) (a b : page_index A) : bool :=
  option_eqb eqb (pi_min a) (pi_min b) && option_eqb eqb (pi_max a) (pi_max b) &&
  option_eqb Z.eqb (pi_null_count a) (pi_null_count b).
(** indexes/index.rs:71, 148, 208 and 268: derived [PartialEq] of the four structs; [BooleanIndex] has no primitive type. *)
Definition untyped_index_eqb {A} (eqb : A -> A -> bool) (a b : list (page_index A) * boundary_order) : bool :=
  vec_eqb (page_index_eqb eqb) (fst a) (fst b) && boundary_order_eqb (snd a) (snd b).
(** indexes/index.rs:71, 148 and 208. *)
Definition typed_index_eqb {A} (eqb : A -> A -> bool) (a b : primitive_type * (list (page_index A) * boundary_order)) : bool :=
  primitive_eqb (fst a) (fst b) && untyped_index_eqb eqb (snd a) (snd b).
(** indexes/index.rs:33-34: [downcast_ref::<BooleanIndex>()]. *)
Definition as_bool_index (i : index) : option (list (page_index bool) * boundary_order) :=
  match i with IBool l o => Some (l, o) | _ => None end.
(** indexes/index.rs:37-57: [downcast_ref::<NativeIndex<T>>()]. *)
Definition as_native_index (t : native) (i : index) : option (primitive_type * (list (page_index (carrier t)) * boundary_order)) :=
  match i with
  | INative t' p l o =>
      match t, t' return list (page_index (carrier t')) -> option (primitive_type * (list (page_index (carrier t)) * boundary_order)) with
      | NI32, NI32 | NI64, NI64 | NF32, NF32 | NF64, NF64 | NI96, NI96 => fun l => Some (p, (l, o))
      | _, _ => fun _ => None
      end l
  | _ => None
  end.
(** indexes/index.rs:60-61: [downcast_ref::<ByteIndex>()]. *)
Definition as_byte_index (i : index) : option (primitive_type * (list (page_index (list N)) * boundary_order)) :=
  match i with IBytes p l o => Some (p, (l, o)) | _ => None end.
(** indexes/index.rs:64-65: [downcast_ref::<FixedLenByteIndex>()]. *)
Definition as_fixed_index (i : index) : option (primitive_type * (list (page_index (list N)) * boundary_order)) :=
  match i with IFixed p l o => Some (p, (l, o)) | _ => None end.
(** indexes/index.rs:26-68 [equal], which is [==] by 18-22. *)
Definition index_eq (a b : index) : res bool :=
  if physical_eqb (index_physical a) (index_physical b) then
    match index_physical a with
    | Boolean => downcast_eq as_bool_index (untyped_index_eqb Bool.eqb) a b
    | Int32 => downcast_eq (as_native_index NI32) (typed_index_eqb (native_eqb NI32)) a b
    | Int64 => downcast_eq (as_native_index NI64) (typed_index_eqb (native_eqb NI64)) a b
    | Int96 => downcast_eq (as_native_index NI96) (typed_index_eqb (native_eqb NI96)) a b
    | Float => downcast_eq (as_native_index NF32) (typed_index_eqb (native_eqb NF32)) a b
    | Double => downcast_eq (as_native_index NF64) (typed_index_eqb (native_eqb NF64)) a b
    | ByteArray => downcast_eq as_byte_index (typed_index_eqb (vec_eqb N.eqb)) a b
    | FixedLenByteArray _ => downcast_eq as_fixed_index (typed_index_eqb (vec_eqb N.eqb)) a b
    end
  else Ok false.
