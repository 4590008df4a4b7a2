(** What the properties of schemas mean, apart from how the crate does it. *)
From Verif Require Import Base.Prelude Model.Types Model.Schema.
Open Scope N_scope.

(** Annotations with numbers: sizes, precisions and scales must fit the thrift field (below 2^31). *)
Definition i32_size (n : N) : Prop := n < 2147483648.
Definition physical_sized (p : physical_type) : Prop :=
  match p with FixedLenByteArray n => i32_size n | _ => True end.
Definition converted_sized (c : primitive_converted) : Prop :=
  match c with CDecimal p s => i32_size p /\ i32_size s | _ => True end.
Definition logical_sized (l : primitive_logical) : Prop :=
  match l with LDecimal p s => i32_size p /\ i32_size s | _ => True end.
Definition on_some {A} (P : A -> Prop) (x : option A) : Prop := match x with None => True | Some a => P a end.
Definition sized (p : primitive_type) : Prop :=
  physical_sized (pt_physical p) /\ on_some converted_sized (pt_converted p) /\ on_some logical_sized (pt_logical p).

(** ** Valid annotations (LogicalTypes.md of the format) *)

(** A number of [precision] decimal digits always fits a two's complement integer of the type's width. *)
Definition decimal_fits (t : physical_type) (precision : N) : Prop :=
  match t with
  | Int32 => 10 ^ precision <= 2 ^ 31
  | Int64 => 10 ^ precision <= 2 ^ 63
  | FixedLenByteArray n => 1 <= n /\ 10 ^ precision <= 2 ^ (8 * n - 1)
  | ByteArray => True
  | _ => False
  end.
Definition decimal_on (precision scale : N) (t : physical_type) : Prop :=
  1 <= precision /\ scale <= precision /\ decimal_fits t precision.
Definition converted_on (c : primitive_converted) (t : physical_type) : Prop :=
  match c with
  | CUtf8 | CEnum | CJson | CBson => t = ByteArray
  | CDecimal precision scale => decimal_on precision scale t
  | CDate | CTimeMillis | CUint8 | CUint16 | CUint32 | CInt8 | CInt16 | CInt32 => t = Int32
  | CTimeMicros | CTimestampMillis | CTimestampMicros | CUint64 | CInt64 => t = Int64
  | CInterval => t = FixedLenByteArray 12
  end.
Definition logical_on (l : primitive_logical) (t : physical_type) : Prop :=
  match l with
  | LString | LEnum | LJson | LBson => t = ByteArray
  | LDecimal precision scale => decimal_on precision scale t
  | LDate | LUnknown => t = Int32
  | LTime Milliseconds _ => t = Int32
  | LTime _ _ | LTimestamp _ _ => t = Int64
  | LInteger IInt64 | LInteger IUInt64 => t = Int64
  | LInteger _ => t = Int32
  | LUuid => t = FixedLenByteArray 16
  end.
(** The annotations are allowed for the physical type. *)
Definition annotated (t : physical_type) (c : option primitive_converted) (l : option primitive_logical) : Prop :=
  on_some (fun c => converted_on c t) c /\ on_some (fun l => logical_on l t) l.
(** The lengths for which the crate's floating point arithmetic is not saturated. *)
Definition moderate (t : physical_type) : Prop := match t with FixedLenByteArray n => n <= 128 | _ => True end.

(** ** Nodes of a schema *)

(** [u] is [t] or a field anywhere below it. *)
Inductive within : parquet_type -> parquet_type -> Prop :=
| within_self t : within t t
| within_field i l c fields f u : In f fields -> within f u -> within (Group i l c fields) u.

(** ** Leaves *)

(** The primitive fields below (or at) [t] from left to right, each with the nodes from [t] down to it. *)
Fixpoint leaves_of (t : parquet_type) : list (list field_info * primitive_type) :=
  match t with
  | Primitive p => [([pt_info p], p)]
  | Group i _ _ fields => map (fun x => (i :: fst x, snd x)) (flat_map leaves_of fields)
  end.
Definition optional_or_repeated (i : field_info) : bool := match fi_repetition i with Required => false | _ => true end.
Definition repeated (i : field_info) : bool := match fi_repetition i with Repeated => true | _ => false end.
Definition column_of (base : parquet_type) (leaf : list field_info * primitive_type) : column_descriptor :=
  let (path, p) := leaf in
  mk_cdescr (mk_descr p (Z.of_nat (length (filter optional_or_repeated path))) (Z.of_nat (length (filter repeated path))))
    (map fi_name path) base.
Definition columns_of (fields : list parquet_type) : list column_descriptor :=
  flat_map (fun f => map (column_of f) (leaves_of f)) fields.

(** The largest number of optional or repeated nodes on a path down from [t]. *)
Fixpoint nesting (t : parquet_type) : nat :=
  (if optional_or_repeated (get_field_info t) then 1 else 0) +
  match t with
  | Primitive _ => 0
  | Group _ _ _ fields => list_max (map nesting fields)
  end.
(** Levels are 16-bit integers: no path has more optional or repeated nodes than the largest of them. *)
Definition shallow (t : parquet_type) : Prop := (Z.of_nat (nesting t) < 2 ^ 15)%Z.

(** ** Schemas that can be stored *)

(** A primitive field the crate accepts: it can be built by the checked constructor. *)
Definition accepted (p : primitive_type) : Prop :=
  try_from_primitive (fi_name (pt_info p)) (pt_physical p) (fi_repetition (pt_info p)) (pt_converted p) (pt_logical p)
    (fi_id (pt_info p)) = Ok (Primitive p).
(** The numbers of a node fit their thrift fields, and primitive fields are accepted ones. *)
Definition storable (u : parquet_type) : Prop :=
  match u with
  | Primitive p => accepted p /\ sized p
  | Group _ _ _ fields => i32_size (nlen fields)
  end.
(** [usize] precisions. *)
Definition precise_converted (c : primitive_converted) : Prop := match c with CDecimal p _ => p <= u64max | _ => True end.
Definition precise_logical (l : primitive_logical) : Prop := match l with LDecimal p _ => p <= u64max | _ => True end.

(** ** Containment *)

(** The schema [sub] selects from [self]: same primitive field (name, repetition, id and physical type), or a group each
    of whose fields selects from a field of the same name. *)
Inductive contained : parquet_type -> parquet_type -> Prop :=
| contained_primitive p q : pt_info p = pt_info q -> pt_physical p = pt_physical q -> contained (Primitive q) (Primitive p)
| contained_group i l c fields i' l' c' others :
    (forall f, In f others -> exists g, In g fields /\ type_name g = type_name f /\ contained f g) ->
    contained (Group i' l' c' others) (Group i l c fields).
