(** Columns of any writer whose pages are listed in an offset index. *)
From Verif Require Import Base.Prelude Model.Types Model.Native Model.Thrift Model.Intervals Model.Page Model.Io Model.Compression Model.Metadata
  Spec.RowsSpec Spec.PagesSpec Spec.ForeignSpec Spec.CompressionSpec Spec.LevelsSpec Spec.ValuesSpec Spec.RunsSpec Spec.ForeignValuesSpec.
Open Scope N_scope.

(** [listed T file row pages cellss locs]: the first of the pages begins with the row [row], each page has as many rows as it has cells, and the locations
    say of each page where its bytes are in the file, how many they are, and which row it begins with. *)
Inductive listed {A} (T : thrift t_page_header) (file : list N) : N -> list (t_page_header * compressed_page) -> list (list A) -> list t_page_location -> Prop :=
| listed_nil row : listed T file row [] [] []
| listed_cons row x pages cells cellss locs before after :
    file = before ++ stored_bytes T x ++ after -> cells <> [] -> listed T file (row + nlen cells) pages cellss locs ->
    listed T file row (x :: pages) (cells :: cellss) (mk_loc (Z.of_N (nlen before)) (Z.of_N (nlen (stored_bytes T x))) (Z.of_N row) :: locs).
(** The column begins at [start] with its dictionary, or if it has none with its first data page. The dictionary ends where the first data page begins. *)
Definition begins_at (T : thrift t_page_header) (file : list N) (start : N) (dictionary : option (t_page_header * compressed_page)) (locs : list t_page_location) : Prop :=
  match locs with
  | [] => True
  | a :: _ =>
      match dictionary with
      | None => loc_offset a = Z.of_N start
      | Some x => loc_offset a = Z.of_N (start + nlen (stored_bytes T x)) /\ exists before after, file = before ++ stored_bytes T x ++ after /\ nlen before = start
      end
  end.
(** What the metadata of a column says about it: where it begins, how it is compressed, and where the offset index is. *)
Definition indexed_column {A} (T : thrift t_page_header) (O : thrift (list t_page_location)) (file : list N) (c : column_md) (codec : compression)
    (dictionary : option (t_page_header * compressed_page)) (pages : list (t_page_header * compressed_page)) (cellss : list (list A)) (locs : list t_page_location) : Prop :=
  exists meta start before after,
    cc_meta (cmd_chunk c) = Some meta /\ start < 2 ^ 63 /\
    match cm_dictionary_page_offset meta with Some o => o | None => cm_data_page_offset meta end = Z.of_N start /\
    compression_of_thrift (cm_codec meta) = Ok codec /\
    begins_at T file start dictionary locs /\ listed T file 0 pages cellss locs /\
    cc_offset_index_offset (cmd_chunk c) = Some (Z.of_N (nlen before)) /\ cc_offset_index_length (cmd_chunk c) = Some (Z.of_N (nlen (t_enc O locs))) /\
    file = before ++ t_enc O locs ++ after /\ reads_back O (nlen (t_enc O locs) * 2 + 1024) locs.
(** Headers as [readable] in Spec/ForeignSpec.v; the reader that goes by locations reads headers of up to 1 MiB and no limit for bodies. *)
Definition header_readable (T : thrift t_page_header) (x : t_page_header * compressed_page) : Prop := describes (fst x) (snd x) /\ reads_back T 1048576 (fst x).

(** What somebody gets from a page that comes with a selection of its rows, when they read these rows; or the dictionary. *)
Definition selection_reads (k : kind) (m : mode) (dict : option (list (value k))) (p : page) (cells : list (option (value k))) : Prop :=
  match p with
  | PData q => exists rows, dp_selected q = Some rows /\ forall got, reads (Rows rows) k m dict q got <-> got = cells
  | PDict q => cells = [] /\ exists entries, dict = Some entries /\ plain_bytes k entries (di_buffer q) /\ di_num_values q = nlen entries
  end.
