(** Model of /repo/src/schema/types/spec.rs, schema/types/parquet_type.rs, /repo/src/schema/io_thrift and
    /repo/src/metadata/schema_descriptor.rs. *)
From Verif Require Import Base.Prelude Model.Types Model.Thrift.
Open Scope N_scope.

(** schema/types/spec.rs:51-52. The largest [p] with [10^p <= n], for [n > 0]. *)
Fixpoint ilog10_fuel (fuel : nat) (n : N) : N :=
  match fuel with
  | O => 0
  | S f => if n <? 10 then 0 else 1 + ilog10_fuel f (n / 10)
  end.
(** schema/types/spec.rs:51-52: [log10().floor()]. *)
Definition ilog10 (n : N) : N := ilog10_fuel (N.size_nat n) n.

(** schema/types/spec.rs:42-50: the largest decimal precision of a fixed-length array. [2f64.powi(k) - 1f64] is infinite from [k = 1024] on
    and negative for negative [k] (its logarithm is NaN, as an integer 0). In between the model takes the exact [floor(log10(2^k - 1))]:
    [2^k] is a double exactly, and for [k < 1024] no [log10(2^k - 1)] that is not below 1 is within 1e-4 of an integer, far
    more than the rounding of the subtraction and of [log10]. *)
Definition max_precision (length : N) : res N :=
  let l := as_i32 length in
  if negb (in_s 32 (l * 8)) then Err OutOfSpec
  else if negb (in_s 32 (l * 8 - 1)) then Err OutOfSpec
  else
    let k := (l * 8 - 1)%Z in
    if (k <? 0)%Z then Ok 0
    else if (1024 <=? k)%Z then Ok u64max
    else Ok (ilog10 (2 ^ Z.to_N k - 1)).

(** schema/types/spec.rs:6-71 [check_decimal_invariants]. *)
Definition check_decimal (t : physical_type) (precision scale : N) : res unit :=
  if precision <? 1 then Err OutOfSpec
  else if precision <? scale then Err OutOfSpec
  else
    match t with
    | Int32 => if (1 <=? precision) && (precision <=? 9) then Ok tt else Err OutOfSpec
    | Int64 => if (1 <=? precision) && (precision <=? 18) then Ok tt else Err OutOfSpec
    | FixedLenByteArray length =>
        let* max := max_precision length in
        if max <? precision then Err OutOfSpec else Ok tt
    | ByteArray => Ok tt
    | _ => Err OutOfSpec
    end.

(** schema/types/spec.rs:85-90 and its siblings: an error unless the condition holds. *)
Definition require (b : bool) : res unit := if b then Ok tt else Err OutOfSpec.

(** schema/types/spec.rs:73-127 [check_converted_invariants]. *)
Definition check_converted (t : physical_type) (c : option primitive_converted) : res unit :=
  match c with
  | None => Ok tt
  | Some c =>
      match c with
      | CUtf8 | CBson | CJson => require (physical_eqb t ByteArray)
      | CDecimal precision scale => check_decimal t precision scale
      | CDate | CTimeMillis | CUint8 | CUint16 | CUint32 | CInt8 | CInt16 | CInt32 => require (physical_eqb t Int32)
      | CTimeMicros | CTimestampMillis | CTimestampMicros | CUint64 | CInt64 => require (physical_eqb t Int64)
      | CInterval => require (physical_eqb t (FixedLenByteArray 12))
      | CEnum => require (physical_eqb t ByteArray)
      end
  end.

(** schema/types/spec.rs:129-182 [check_logical_invariants]. *)
Definition check_logical (t : physical_type) (l : option primitive_logical) : res unit :=
  match l with
  | None => Ok tt
  | Some l =>
      match l, t with
      | LEnum, ByteArray => Ok tt
      | LDecimal precision scale, _ => check_decimal t precision scale
      | LDate, Int32 => Ok tt
      | LTime Milliseconds _, Int32 => Ok tt
      | LTime unit _, Int64 => match unit with Milliseconds => Err OutOfSpec | _ => Ok tt end
      | LTimestamp _ _, Int64 => Ok tt
      | LInteger IInt8, Int32 | LInteger IInt16, Int32 | LInteger IInt32, Int32
      | LInteger IUInt8, Int32 | LInteger IUInt16, Int32 | LInteger IUInt32, Int32 => Ok tt
      | LInteger IUInt64, Int64 | LInteger IInt64, Int64 => Ok tt
      | LUnknown, Int32 => Ok tt
      | LString, ByteArray | LJson, ByteArray | LBson, ByteArray => Ok tt
      | LUuid, FixedLenByteArray n => if n =? 16 then Ok tt else Err OutOfSpec
      | _, _ => Err OutOfSpec
      end
  end.

(** schema/types/parquet_type.rs:154-177 [try_from_primitive]. *)
Definition try_from_primitive (name : list N) (t : physical_type) (r : repetition) (c : option primitive_converted)
  (l : option primitive_logical) (id : option Z) : res parquet_type :=
  let* _ := check_converted t c in
  let* _ := check_logical t l in
  Ok (Primitive (mk_prim (mk_fi name r id) l c t)).

(** schema/types/parquet_type.rs:117-129 [new_root]. *)
Definition new_root (name : list N) (fields : list parquet_type) : parquet_type :=
  Group (mk_fi name Optional None) None None fields.

(** schema/types/parquet_type.rs:76: equality of [Option<i32>]. *)
Definition option_z_eqb (a b : option Z) : bool :=
  match a, b with None, None => true | Some x, Some y => (x =? y)%Z | _, _ => false end.
(** schema/types/parquet_type.rs:76: equality of names. *)
Fixpoint bytes_eqb (a b : list N) : bool :=
  match a, b with
  | [], [] => true
  | x :: a, y :: b => (x =? y) && bytes_eqb a b
  | _, _ => false
  end.
(** schema/types/parquet_type.rs:76: equality of repetitions. *)
Definition repetition_eqb (a b : repetition) : bool := (repetition_to_thrift a =? repetition_to_thrift b)%Z.
(** schema/types/parquet_type.rs:76 with schema/types/basic_type.rs:7-16: derived equality. *)
Definition field_info_eqb (a b : field_info) : bool :=
  bytes_eqb (fi_name a) (fi_name b) && repetition_eqb (fi_repetition a) (fi_repetition b) && option_z_eqb (fi_id a) (fi_id b).
(** schema/types/parquet_type.rs:94-102: the hash map from names to fields, the last field of a name. *)
Definition last_named (name : list N) (fields : list parquet_type) : option parquet_type :=
  find (fun f => bytes_eqb (type_name f) name) (rev fields).
(** schema/types/parquet_type.rs:75-112 [check_contains]. *)
Fixpoint check_contains (sub self : parquet_type) : bool :=
  match self, sub with
  | Primitive p, Primitive q => field_info_eqb (pt_info p) (pt_info q) && physical_eqb (pt_physical p) (pt_physical q)
  | Group _ _ _ fields, Group _ _ _ others =>
      forallb (fun f => match last_named (type_name f) fields with Some t => check_contains f t | None => false end) others
  | _, _ => false
  end.

(** schema/io_thrift/to_thrift.rs:18-83 [to_thrift_helper]; [fields.len() as i32]. *)
Fixpoint to_thrift_helper (t : parquet_type) (is_root : bool) : list t_schema_element :=
  match t with
  | Primitive p =>
      let (type_, type_length) := physical_to_thrift (pt_physical p) in
      let (converted, decimal) :=
        match pt_converted p with Some c => let (a, b) := converted_to_thrift c in (Some a, b) | None => (None, None) end in
      [mk_tse (Some type_) type_length (Some (repetition_to_thrift (fi_repetition (pt_info p)))) (fi_name (pt_info p)) None converted
         (option_map snd decimal) (option_map fst decimal) (fi_id (pt_info p)) (option_map logical_to_thrift (pt_logical p))]
  | Group info logical converted fields =>
      mk_tse None None (if is_root then None else Some (repetition_to_thrift (fi_repetition info))) (fi_name info)
        (Some (as_i32 (nlen fields))) (option_map group_converted_to_thrift converted) None None (fi_id info)
        (option_map group_logical_to_thrift logical)
      :: flat_map (fun f => to_thrift_helper f false) fields
  end.
(** schema/io_thrift/to_thrift.rs:9-13 [to_thrift]. *)
Definition to_thrift (t : parquet_type) : list t_schema_element := to_thrift_helper t true.

(** schema/io_thrift/from_thrift.rs:76 and 115: [Option::transpose]. *)
Definition transpose {A} (x : option (res A)) : res (option A) :=
  match x with None => Ok None | Some r => let* a := r in Ok (Some a) end.

(** schema/io_thrift/from_thrift.rs:53-94, the primitive branch. *)
Definition primitive_from_thrift (e : t_schema_element) : res parquet_type :=
  match se_repetition e with
  | None => Err OutOfSpec
  | Some r =>
      let* repetition := repetition_of_thrift r in
      match se_type e with
      | None => Err OutOfSpec
      | Some type_ =>
          let* converted :=
            match se_converted e with
            | None => Ok None
            | Some c =>
                let* decimal :=
                  match se_precision e, se_scale e with
                  | Some p, Some s => Ok (Some (p, s))
                  | None, None => Ok None
                  | _, _ => Err OutOfSpec
                  end in
                let* c := converted_of_thrift c decimal in Ok (Some c)
            end in
          let* logical := transpose (option_map logical_of_thrift (se_logical e)) in
          let* physical := physical_of_thrift type_ (se_type_length e) in
          try_from_primitive (se_name e) physical repetition converted logical (se_field_id e)
      end
  end.
(** schema/io_thrift/from_thrift.rs:104-133, the group branch once its fields are read. *)
Definition group_from_thrift (e : t_schema_element) (is_root : bool) (fields : list parquet_type) : res parquet_type :=
  if is_root then Ok (new_root (se_name e) fields)
  else
    match se_repetition e with
    | None => Err OutOfSpec
    | Some r =>
        let* repetition := repetition_of_thrift r in
        let* converted := transpose (option_map group_converted_of_thrift (se_converted e)) in
        let* logical := transpose (option_map group_logical_of_thrift (se_logical e)) in
        Ok (Group (mk_fi (se_name e) repetition (se_field_id e)) logical converted fields)
    end.

(** schema/io_thrift/from_thrift.rs:96-102. The loop [for _ in 0..n] over the children. *)
Fixpoint read_children (step : nat -> res (nat * parquet_type)) (n : nat) (index : nat) : res (nat * list parquet_type) :=
  match n with
  | O => Ok (index, [])
  | S k =>
      let* (index, t) := step index in
      let* (index, r) := read_children step k index in
      Ok (index, t :: r)
  end.

(** schema/io_thrift/from_thrift.rs:35-137 [from_thrift_helper]. The recursion takes [fuel]; every level of it moves the index
    forward, so running out of fuel (a panic here) does not happen with more fuel than elements. *)
Fixpoint from_thrift_helper (fuel : nat) (elements : list t_schema_element) (index : nat) : res (nat * parquet_type) :=
  match fuel with
  | O => Panic
  | S f =>
      match nth_error elements index with
      | None => Err OutOfSpec
      | Some e =>
          let group n :=
            let* (next, fields) := read_children (from_thrift_helper f elements) n (S index) in
            let* t := group_from_thrift e (index =? 0)%nat fields in
            Ok (next, t) in
          match se_num_children e with
          | None => let* t := primitive_from_thrift e in Ok (S index, t)
          | Some n => if (n =? 0)%Z then let* t := primitive_from_thrift e in Ok (S index, t) else group (Z.to_nat n)
          end
      end
  end.

(** schema/io_thrift/from_thrift.rs:13-19. *)
Fixpoint read_roots (fuel : nat) (elements : list t_schema_element) (index : nat) : res (list parquet_type) :=
  match fuel with
  | O => Panic
  | S f =>
      if (index <? length elements)%nat then
        let* (index, t) := from_thrift_helper (S (length elements)) elements index in
        let* r := read_roots f elements index in
        Ok (t :: r)
      else Ok []
  end.
(** schema/io_thrift/from_thrift.rs:12-28 [try_from_thrift]. *)
Definition type_from_thrift (elements : list t_schema_element) : res parquet_type :=
  let* nodes := read_roots (S (length elements)) elements 0 in
  match nodes with
  | [t] => Ok t
  | _ => Err OutOfSpec
  end.

(** metadata/schema_descriptor.rs:97-144 [build_tree]: the leaves so far and the path so far are changed in place. [i16] levels. *)
Fixpoint build_tree (m : mode) (tp base : parquet_type) (max_rep max_def : Z) (leaves : list column_descriptor) (path : list (list N))
  : res (list column_descriptor * list (list N)) :=
  let path := path ++ [type_name tp] in
  let* max_def := match fi_repetition (get_field_info tp) with Required => Ok max_def | _ => sadd m 16 max_def 1 end in
  let* max_rep := match fi_repetition (get_field_info tp) with Repeated => sadd m 16 max_rep 1 | _ => Ok max_rep end in
  match tp with
  | Primitive p => Ok (leaves ++ [mk_cdescr (mk_descr p max_def max_rep) path base], path)
  | Group _ _ _ fields =>
      (fix go (fields : list parquet_type) (leaves : list column_descriptor) (path : list (list N)) :=
         match fields with
         | [] => Ok (leaves, path)
         | f :: r =>
             let* (leaves, path) := build_tree m f base max_rep max_def leaves path in
             go r leaves (removelast path)
         end) fields leaves path
  end.

(** metadata/schema_descriptor.rs:18-26 [SchemaDescriptor]. *)
Record schema_descriptor := mk_sd { sd_name : list N; sd_fields : list parquet_type; sd_leaves : list column_descriptor }.
(** metadata/schema_descriptor.rs:31-35. *)
Fixpoint build_all (m : mode) (fields : list parquet_type) (leaves : list column_descriptor) : res (list column_descriptor) :=
  match fields with
  | [] => Ok leaves
  | f :: r =>
      let* (leaves, _) := build_tree m f f 0 0 leaves [] in
      build_all m r leaves
  end.
(** metadata/schema_descriptor.rs:30-42 [new]. *)
Definition sd_new (m : mode) (name : list N) (fields : list parquet_type) : res schema_descriptor :=
  let* leaves := build_all m fields [] in
  Ok (mk_sd name fields leaves).

(** metadata/schema_descriptor.rs:62-74 [into_thrift]. *)
Definition sd_into_thrift (s : schema_descriptor) : list t_schema_element := to_thrift (new_root (sd_name s) (sd_fields s)).
(** metadata/schema_descriptor.rs:76-83 [try_from_type]. *)
Definition sd_try_from_type (m : mode) (t : parquet_type) : res schema_descriptor :=
  match t with
  | Group info _ _ fields => sd_new m (fi_name info) fields
  | Primitive _ => Err OutOfSpec
  end.
(** metadata/schema_descriptor.rs:85-88 [try_from_thrift]. *)
Definition sd_try_from_thrift (m : mode) (elements : list t_schema_element) : res schema_descriptor :=
  let* t := type_from_thrift elements in
  sd_try_from_type m t.
