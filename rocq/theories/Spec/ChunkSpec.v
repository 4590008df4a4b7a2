(** What the properties of column chunks mean, apart from how the crate writes them. *)
From Coq Require Import Sorting.Sorted.
From Verif Require Import Base.Prelude Model.Types Model.Thrift Model.Intervals Model.Page Model.Io Spec.PagesSpec.
Open Scope N_scope.

(** The bytes the pages would take with uncompressed bodies: headers as stored, bodies by their declared uncompressed size. *)
Definition uncompressed_bytes (T : thrift t_page_header) (l : list compressed_page) : N :=
  fold_right (fun p n => nlen (t_enc T (header_of p)) + cp_uncompressed_size p + n) 0 l.

(** The encodings a page uses: that of its values, and for data pages also the one of the levels, RLE, which is 3. *)
Definition page_encodings (p : compressed_page) : list Z :=
  match p with
  | CData d => match cdp_header d with HV1 h => [dh_encoding h; 3%Z] | HV2 h => [dh2_encoding h; 3%Z] end
  | CDict _ => [0%Z]
  end.
(** [s] lists the elements of [l], each once, in increasing order. *)
Definition is_sorted_set (l s : list Z) : Prop := StronglySorted Z.lt s /\ forall x, In x s <-> In x l.

(** All pages have the codec [c]. *)
Definition same_codec (c : compression) (l : list compressed_page) : Prop := Forall (fun p => cp_compression p = c) l.

(** [meta] describes the pages [l] of the column [d], written from the offset [off] on. *)
Definition describes (T : thrift t_page_header) (off : N) (d : column_descriptor) (l : list compressed_page) (meta : t_column_meta) : Prop :=
  cm_compressed_size meta = Z.of_N (nlen (chunk_bytes T l)) /\
  cm_uncompressed_size meta = Z.of_N (uncompressed_bytes T l) /\
  cm_num_values meta = values_of l /\
  cm_data_page_offset meta = match l with [] => 0%Z | _ => Z.of_N off end /\
  cm_dictionary_page_offset meta = None /\
  (exists c, same_codec c l /\ cm_codec meta = compression_to_thrift c /\ (l = [] -> c = Uncompressed)) /\
  is_sorted_set (concat (map page_encodings l)) (cm_encodings meta) /\
  cm_path meta = cd_path d /\
  cm_type meta = fst (physical_to_thrift (pt_physical (d_primitive (cd_descriptor d)))).
