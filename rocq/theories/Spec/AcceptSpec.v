(** Which file metadata is accepted, where the bytes of a column are, the order of the values of a type, and metadata sidecars. *)
From Verif Require Import Base.Prelude Model.Types Model.Thrift Model.Page Model.Schema Model.Metadata Spec.SchemaSpec Spec.MetadataSpec.
Open Scope N_scope.

(** ** Accepted metadata *)
(** A chunk with metadata: sizes and offsets that are not negative and one of the eight codecs. *)
Definition chunk_acceptable (c : t_column_chunk) : Prop :=
  match cc_meta c with
  | Some meta => (0 <= cm_compressed_size meta /\ 0 <= cm_data_page_offset meta /\ 0 <= cm_codec meta <= 7)%Z /\
                 forall o, cm_dictionary_page_offset meta = Some o -> (0 <= o)%Z
  | None => False
  end.
(** A row group with a chunk per column. *)
Definition group_acceptable (s : schema_descriptor) (g : t_row_group) : Prop :=
  length (rg_columns g) = length (sd_leaves s) /\ (0 <= rg_total_byte_size g)%Z /\ (0 <= rg_num_rows g)%Z /\
  Forall chunk_acceptable (rg_columns g).
Definition file_acceptable (s : schema_descriptor) (t : t_file_meta) : Prop :=
  Forall (group_acceptable s) (fm_row_groups t) /\ (0 <= fm_num_rows t)%Z.

(** What is made of it: each chunk goes with the column at its position. *)
Definition group_of (s : schema_descriptor) (g : t_row_group) : row_group_md :=
  mk_rgm (map (fun x => mk_cmd (fst x) (snd x)) (combine (rg_columns g) (sd_leaves s))) (Z.to_N (rg_num_rows g)) (Z.to_N (rg_total_byte_size g)).
Definition orders_of (s : schema_descriptor) (declared : option (list t_column_order)) : option (list column_order) :=
  option_map (fun l => map (fun d => let p := d_primitive (cd_descriptor d) in
                                     TypeDefined (get_sort_order (pt_logical p) (pt_converted p) (pt_physical p)))
                         (firstn (length l) (sd_leaves s))) declared.
Definition metadata_of (s : schema_descriptor) (t : t_file_meta) : file_md :=
  mk_fmd (fm_version t) (Z.to_N (fm_num_rows t)) (fm_created_by t) (map (group_of s) (fm_row_groups t)) (fm_key_value t) s
    (orders_of s (fm_column_orders t)).

(** ** The bytes of a column *)
Definition chunk_at (file : list N) (c : column_md) (bytes : list N) : Prop :=
  exists meta before after, cc_meta (cmd_chunk c) = Some meta /\ file = before ++ bytes ++ after /\
    nlen before = chunk_start meta /\ nlen bytes = chunk_length meta.

(** ** The order of the values of a type, as in parquet.thrift (ColumnOrder) *)
Definition unordered (l : option primitive_logical) (c : option primitive_converted) (p : physical_type) : Prop :=
  l = Some LUnknown \/ (l = None /\ (c = Some CInterval \/ (c = None /\ p = Int96))).
Definition unsigned_order (l : option primitive_logical) (c : option primitive_converted) (p : physical_type) : Prop :=
  match l with
  | Some l => In l [LString; LEnum; LJson; LBson; LUuid; LInteger IUInt8; LInteger IUInt16; LInteger IUInt32; LInteger IUInt64]
  | None =>
      match c with
      | Some c => In c [CUtf8; CEnum; CJson; CBson; CUint8; CUint16; CUint32; CUint64]
      | None => p = Boolean \/ p = ByteArray \/ exists n, p = FixedLenByteArray n
      end
  end.
