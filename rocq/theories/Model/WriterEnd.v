(** Model of what a file writer gives back: /repo/src/write/file.rs:78-97 and 234-245, write/stream.rs:60-72 and 190-193, write/mod.rs:26-60. *)
From Verif Require Import Base.Prelude Model.Types Model.Thrift Model.Io Model.Schema Model.FileWrite.
Open Scope N_scope.

(** write/mod.rs:38-43 [Version]. *)
Inductive version := V1 | V2.
(** write/mod.rs:53-60 [From<Version> for i32]. *)
Definition version_number (v : version) : Z := match v with V1 => 1 | V2 => 2 end.
(** write/mod.rs:29-35 [WriteOptions] with write/file.rs:100-117 [new]: the writer model keeps the two options apart. *)
Definition writer_new (s : sink) (schema : schema_descriptor) (statistics : bool) (v : version) (created_by : option (list N)) : file_writer :=
  fw_new s schema statistics (version_number v) created_by.
(** write/file.rs:80-82 [options]; write/stream.rs:63-65. *)
Definition fw_options (w : file_writer) : bool * Z := (fw_statistics w, fw_version w).
(** write/file.rs:235-237 [into_inner]; write/stream.rs:190-192. *)
Definition fw_into_inner (w : file_writer) : sink := fw_sink w.
(** write/file.rs:242-244 [into_inner_and_metadata]: [expect] panics if there is no metadata. *)
Definition fw_into_inner_and_metadata (w : file_writer) : res (sink * t_file_meta) :=
  match fw_metadata w with Some meta => Ok (fw_sink w, meta) | None => Panic end.
