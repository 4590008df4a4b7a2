(** Column chunks of any writer, down to the cells they hold. *)
From Verif Require Import Base.Prelude Model.Types Model.Thrift Model.Intervals Model.Page Model.Io Model.Compression Model.Metadata Model.FileWrite
  Spec.PagesSpec Spec.ForeignSpec Spec.CompressionSpec Spec.PlainSpec Spec.PageSpec Spec.RowsSpec Spec.ValuesSpec Spec.RunsSpec Spec.NestedSpec.
Open Scope N_scope.

(** [unpacks C c stored content]: the decoder of the codec [c] decodes [stored] to [content]. LZ4 comes in frames, each with the size of its content. *)
Definition unpacks (C : codecs) (c : compression) (stored content : list N) : Prop :=
  match c with
  | Uncompressed => stored = content
  | Gzip | Brotli | Zstd => stream_dec C c stored = content
  | Snappy => snappy_len C stored = Some (nlen content) /\ forall cap, nlen content <= cap -> snappy_dec C stored cap = (content, true)
  | Lz4Raw => forall cap, nlen content <= cap -> lz4_dec C stored cap = (content, true)
  | Lz4 => exists fs, stored = frames_bytes fs /\ content = frames_content fs /\ Forall (frame_ok C) fs /\ tails_longer fs
  | Lzo => False
  end.
(** [body] is what the stored page is before compression. In a page of version 2 the levels are not compressed, and the header may say
    that the values are not compressed either. *)
Definition packed (C : codecs) (c : compression) (p : compressed_page) (body : list N) : Prop :=
  nlen body = cp_uncompressed_size p /\
  match p with
  | CData x =>
      match cdp_header x with
      | HV1 _ => unpacks C c (cdp_buffer x) body
      | HV2 h =>
          (0 <= dh2_rep_length h)%Z /\ (0 <= dh2_def_length h)%Z /\ (dh2_rep_length h + dh2_def_length h < 2 ^ 31)%Z /\
          exists levels stored content,
            cdp_buffer x = levels ++ stored /\ body = levels ++ content /\ Z.of_N (nlen levels) = (dh2_rep_length h + dh2_def_length h)%Z /\
            (stored = content /\ dh2_is_compressed h = Some false \/ unpacks C c stored content /\ dh2_is_compressed h <> Some false)
      end
  | CDict x => unpacks C c (cdi_buffer x) body
  end.

(** The stored page holds [cells], or it is the dictionary of the column. *)
Definition page_holds (k : kind) (C : codecs) (c : compression) (d : descriptor) (dict : option (list (value k))) (p : compressed_page) (cells : list (option (value k))) : Prop :=
  exists body, packed C c p body /\
  match p with
  | CData x => RunsSpec.holds k d dict (mk_dp (cdp_header x) body d None) cells
  | CDict x => cells = [] /\ exists entries, dict = Some entries /\ plain_bytes k entries body /\ cdi_num_values x = nlen entries
  end.
(** The column's metadata tells where in the file the pages [l] are, how many values they hold and how they are compressed. *)
Definition located (T : thrift t_page_header) (file : list N) (c : column_md) (codec : compression) (l : list (t_page_header * compressed_page)) : Prop :=
  exists meta before after,
    cc_meta (cmd_chunk c) = Some meta /\ file = before ++ stored_chunk T l ++ after /\ nlen before < 2 ^ 63 /\
    match cm_dictionary_page_offset meta with Some o => o | None => cm_data_page_offset meta end = Z.of_N (nlen before) /\
    cm_num_values meta = values_of (map snd l) /\ compression_of_thrift (cm_codec meta) = Ok codec.

(** What somebody gets from a page: the rows they ask for, or the dictionary. *)
Definition page_reads (k : kind) (m : mode) (dict : option (list (value k))) (p : page) (cells : list (option (value k))) : Prop :=
  match p with
  | PData q => forall w, has_rows (length cells) w -> forall got, reads w k m dict q got <-> got = wanted_rows w cells
  | PDict q => cells = [] /\ exists entries, dict = Some entries /\ plain_bytes k entries (di_buffer q) /\ di_num_values q = nlen entries
  end.

(** The same for columns of any nesting: the stored page holds these entries (Spec/NestedSpec.v), or it is the dictionary. *)
Definition page_holds_nested (k : kind) (C : codecs) (c : compression) (d : descriptor) (dict : option (list (value k))) (p : compressed_page) (entries : list (entry (value k))) : Prop :=
  exists body, packed C c p body /\
    stores_nested k d dict (match p with CData x => PData (mk_dp (cdp_header x) body d None) | CDict x => PDict (mk_dict body (cdi_num_values x) (cdi_is_sorted x)) end) entries.

(** A file that ends in the metadata [t], its length and the magic bytes. *)
Definition ends_in (F : formats) (file : list N) (t : t_file_meta) : Prop :=
  exists before, file = before ++ t_enc (f_file F) t ++ to_le 4 (nlen (t_enc (f_file F) t)) ++ [80; 65; 82; 49] /\ 4 <= nlen before /\
    nlen (t_enc (f_file F) t) < 2 ^ 31 /\ reads_back (f_file F) (2 * (nlen (t_enc (f_file F) t) + 8) + 1024) t.
