(** The list of schema elements of a file, as in parquet.thrift: the types in depth-first order, each group with the number of its children,
    and the root without a repetition. *)
From Verif Require Import Base.Prelude Model.Types Model.Thrift Model.Schema.
Open Scope Z_scope.

Definition rep_code (r : repetition) : Z := match r with Required => 0 | Optional => 1 | Repeated => 2 end.
Definition type_code (p : physical_type) : Z :=
  match p with
  | Boolean => 0 | Int32 => 1 | Int64 => 2 | Int96 => 3 | Float => 4 | Double => 5 | ByteArray => 6 | FixedLenByteArray _ => 7
  end.
Definition type_width (p : physical_type) : option N := match p with FixedLenByteArray n => Some n | _ => None end.

(** The elements of a type within a schema. *)
Inductive stored : parquet_type -> list t_schema_element -> Prop :=
  | stored_leaf p e :
      se_type e = Some (type_code (pt_physical p)) ->
      (forall n, type_width (pt_physical p) = Some n -> (n < 2 ^ 31)%N -> se_type_length e = Some (Z.of_N n)) ->
      (type_width (pt_physical p) = None -> se_type_length e = None) ->
      se_repetition e = Some (rep_code (fi_repetition (pt_info p))) -> se_name e = fi_name (pt_info p) -> se_num_children e = None ->
      se_field_id e = fi_id (pt_info p) -> (se_converted e = None <-> pt_converted p = None) -> (se_logical e = None <-> pt_logical p = None) ->
      stored (Primitive p) [e]
  | stored_group info logical converted fields e children :
      se_repetition e = Some (rep_code (fi_repetition info)) -> group_element info logical converted fields e ->
      Forall2 stored fields children -> stored (Group info logical converted fields) (e :: concat children)
(** What a group says of itself, apart from its repetition. *)
with group_element : field_info -> option group_logical -> option group_converted -> list parquet_type -> t_schema_element -> Prop :=
  | group_element_of info logical converted fields e :
      se_type e = None -> se_type_length e = None -> se_name e = fi_name info -> se_field_id e = fi_id info ->
      ((nlen fields < 2 ^ 31)%N -> se_num_children e = Some (Z.of_N (nlen fields))) ->
      (se_converted e = None <-> converted = None) -> (se_logical e = None <-> logical = None) ->
      group_element info logical converted fields e.

(** The elements of a whole schema. *)
Inductive stored_schema (name : list N) (fields : list parquet_type) : list t_schema_element -> Prop :=
  | stored_root e children :
      se_repetition e = None -> se_name e = name -> se_type e = None -> se_type_length e = None -> se_field_id e = None -> se_converted e = None ->
      se_logical e = None -> ((nlen fields < 2 ^ 31)%N -> se_num_children e = Some (Z.of_N (nlen fields))) ->
      Forall2 stored fields children -> stored_schema name fields (e :: concat children).
