(** What a column chunk answers about itself. *)
From Verif Require Import Base.Prelude Model.Types Model.Thrift Model.Page Model.Schema Model.Statistics Model.Metadata Model.ColumnMeta Spec.MetadataSpec.
Open Scope N_scope.

(** Each question gives what the file says. *)
Definition answers (c : column_md) (meta : t_column_meta) : Prop :=
  cmd_num_values c = Ok (cm_num_values meta) /\ cmd_compressed_size c = Ok (cm_compressed_size meta) /\
  cmd_uncompressed_size c = Ok (cm_uncompressed_size meta) /\ cmd_data_page_offset c = Ok (cm_data_page_offset meta) /\
  cmd_index_page_offset c = Ok (cm_index_page_offset meta) /\ cmd_dictionary_page_offset c = Ok (cm_dictionary_page_offset meta) /\
  (exists b, cmd_has_index_page c = Ok b /\ (b = true <-> exists o, cm_index_page_offset meta = Some o)) /\
  cmd_column_encoding c = Ok (cm_encodings meta) /\
  (cm_statistics meta = None -> cmd_statistics c = Ok None) /\
  (forall s, cm_statistics meta = Some s ->
     exists r, cmd_statistics c = Ok (Some r) /\ r <> Panic /\ r = deserialize_statistics s (d_primitive (cd_descriptor (cmd_descr c)))).
(** None of these questions can be asked. *)
Definition all_panic (c : column_md) : Prop :=
  cmd_num_values c = Panic /\ cmd_compressed_size c = Panic /\ cmd_uncompressed_size c = Panic /\ cmd_data_page_offset c = Panic /\
  cmd_index_page_offset c = Panic /\ cmd_dictionary_page_offset c = Panic /\ cmd_has_index_page c = Panic /\ cmd_column_encoding c = Panic /\
  cmd_statistics c = Panic /\ cmd_compression c = Panic /\ byte_range c = Panic.

(** The bytes of the chunks of a row group. *)
Fixpoint sum_sizes (l : list t_column_meta) : N := match l with [] => 0 | meta :: r => chunk_length meta + sum_sizes r end.
(** The field at the top of the schema that a column belongs to. *)
Definition top_field (c : column_md) : parquet_type := cd_base (cmd_descr c).
