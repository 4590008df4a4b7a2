(** Model of the questions a user asks about a column chunk (metadata/column_chunk_metadata.rs) and of how its metadata is stored
    with serde. *)
From Verif Require Import Base.Prelude Model.Types Model.Thrift Model.Io Model.Schema Model.Statistics Model.Metadata.
Open Scope N_scope.

(** metadata/column_chunk_metadata.rs:73-78 [new]. *)
Definition cmd_new (chunk : t_column_chunk) (d : column_descriptor) : column_md := mk_cmd chunk d.
(** metadata/column_chunk_metadata.rs:84-86 [file_path]. *)
Definition cmd_file_path (c : column_md) : option (list N) := cc_file_path (cmd_chunk c).
(** metadata/column_chunk_metadata.rs:89-91 [file_offset]. *)
Definition cmd_file_offset (c : column_md) : Z := cc_file_offset (cmd_chunk c).
(** metadata/column_chunk_metadata.rs:110-112 [physical_type]. *)
Definition cmd_physical_type (c : column_md) : physical_type := pt_physical (d_primitive (cd_descriptor (cmd_descr c))).
(** metadata/column_chunk_metadata.rs:115-120 [statistics]: nothing, or the result of decoding the statistics (the result is kept
    apart from a panic of the call). *)
Definition cmd_statistics (c : column_md) : res (option (res statistics)) :=
  let* meta := cmd_meta c in
  match cm_statistics meta with
  | None => Ok None
  | Some s =>
      match deserialize_statistics s (d_primitive (cd_descriptor (cmd_descr c))) with
      | Ok x => Ok (Some (Ok x))
      | Err e => Ok (Some (Err e))
      | Panic => Panic
      end
  end.
(** metadata/column_chunk_metadata.rs:124-126 [num_values]. *)
Definition cmd_num_values (c : column_md) : res Z := let* meta := cmd_meta c in Ok (cm_num_values meta).
(** metadata/column_chunk_metadata.rs:134-136 [compressed_size]. *)
Definition cmd_compressed_size (c : column_md) : res Z := let* meta := cmd_meta c in Ok (cm_compressed_size meta).
(** metadata/column_chunk_metadata.rs:139-141 [uncompressed_size]. *)
Definition cmd_uncompressed_size (c : column_md) : res Z := let* meta := cmd_meta c in Ok (cm_uncompressed_size meta).
(** metadata/column_chunk_metadata.rs:144-146 [data_page_offset]. *)
Definition cmd_data_page_offset (c : column_md) : res Z := let* meta := cmd_meta c in Ok (cm_data_page_offset meta).
(** metadata/column_chunk_metadata.rs:149-151 [has_index_page]. *)
Definition cmd_has_index_page (c : column_md) : res bool :=
  let* meta := cmd_meta c in Ok (match cm_index_page_offset meta with Some _ => true | None => false end).
(** metadata/column_chunk_metadata.rs:154-156 [index_page_offset]. *)
Definition cmd_index_page_offset (c : column_md) : res (option Z) := let* meta := cmd_meta c in Ok (cm_index_page_offset meta).
(** metadata/column_chunk_metadata.rs:159-161 [dictionary_page_offset]. *)
Definition cmd_dictionary_page_offset (c : column_md) : res (option Z) := let* meta := cmd_meta c in Ok (cm_dictionary_page_offset meta).
(** metadata/column_chunk_metadata.rs:164-166 [column_encoding]. *)
Definition cmd_column_encoding (c : column_md) : res (list Z) := let* meta := cmd_meta c in Ok (cm_encodings meta).
(** metadata/column_chunk_metadata.rs:206-208 [into_thrift]. *)
Definition cmd_into_thrift (c : column_md) : t_column_chunk := cmd_chunk c.

(** metadata/column_chunk_metadata.rs:42-57 [serialize_column_chunk]: the struct is written through a cursor over a slice of an empty
    vector, which takes no bytes; then the bytes of the vector are handed to the serializer (here they are the result). *)
Definition serialize_column_chunk (T : thrift t_column_chunk) (c : t_column_chunk) : res (list N) :=
  match write_struct T c (mk_sink [] (Some 0)) with
  | (s, Ok _) => Ok (sk_data s)
  | (_, Err e) => Err e
  | (_, Panic) => Panic
  end.
(** metadata/column_chunk_metadata.rs:59-68 [deserialize_column_chunk], given the bytes that the deserializer returns. *)
Definition deserialize_column_chunk (T : thrift t_column_chunk) (bytes : list N) : res t_column_chunk :=
  let* (x, _) := t_dec T (2 ^ 64 - 1) bytes in Ok x.
