(** What the properties of file metadata and of iterating columns mean, apart from how the crate does it. *)
From Verif Require Import Base.Prelude Model.Types Model.Thrift Model.Page Model.Schema Model.PageRead Model.Metadata Spec.SchemaSpec.
Open Scope N_scope.

(** ** Metadata that can be stored *)

(** The sizes and offsets are non-negative 64-bit integers and the codec is known. *)
Definition i64_size (z : Z) : Prop := (0 <= z < 2 ^ 63)%Z.
Definition located (meta : t_column_meta) : Prop :=
  i64_size (cm_compressed_size meta) /\ i64_size (cm_data_page_offset meta) /\
  on_some i64_size (cm_dictionary_page_offset meta) /\
  exists c, cm_codec meta = compression_to_thrift c.
Definition chunk_located (c : t_column_chunk) : Prop :=
  match cc_meta c with Some meta => located meta | None => False end.
(** Where a chunk begins: at its dictionary page if it says where that is. *)
Definition chunk_start (meta : t_column_meta) : N :=
  match cm_dictionary_page_offset meta with Some o => Z.to_N o | None => Z.to_N (cm_data_page_offset meta) end.
Definition chunk_length (meta : t_column_meta) : N := Z.to_N (cm_compressed_size meta).

(** A schema that is stored without loss: no empty groups, numbers that fit, fields the crate accepts. *)
Definition good_schema (s : schema_descriptor) : Prop :=
  sd_fields s <> [] /\ i32_size (nlen (sd_fields s)) /\ Forall shallow (sd_fields s) /\ sd_leaves s = columns_of (sd_fields s) /\
  (forall f u, In f (sd_fields s) -> within f u -> storable u) /\
  (forall f i l c fs, In f (sd_fields s) -> within f (Group i l c fs) -> fs <> []).

(** The sum of the compressed sizes of the chunks of a row group. *)
Definition group_compressed (l : list column_md) : Z :=
  fold_right (fun c z => (match cc_meta (cmd_chunk c) with Some meta => cm_compressed_size meta | None => 0 end + z)%Z) 0%Z l.
(** One located chunk per column of the schema, with sizes that fit. *)
Definition good_group (s : schema_descriptor) (g : row_group_md) : Prop :=
  map cmd_descr (rgm_columns g) = sd_leaves s /\ Forall (fun c => chunk_located (cmd_chunk c)) (rgm_columns g) /\
  rgm_num_rows g < 2 ^ 63 /\ rgm_total_byte_size g < 2 ^ 63 /\ (group_compressed (rgm_columns g) < 2 ^ 63)%Z.
Definition good_file (f : file_md) : Prop :=
  good_schema (fmd_schema f) /\ Forall (good_group (fmd_schema f)) (fmd_row_groups f) /\ fmd_num_rows f < 2 ^ 63.

(** Where the pages of a chunk begin, as other readers compute it: at its dictionary page if it has one, else at its first data page
    (an offset of 0 or less means that there is none). *)
Definition first_page (meta : t_column_meta) : Z :=
  match cm_dictionary_page_offset meta with
  | Some o => if (o <=? 0)%Z then cm_data_page_offset meta else o
  | None => cm_data_page_offset meta
  end.
(** The summary that a row group carries about its chunks: where the first one begins and how many bytes they take. *)
Definition summarises (rg : t_row_group) : Prop :=
  exists metas, Forall2 (fun c meta => cc_meta c = Some meta) (rg_columns rg) metas /\
    rg_file_offset rg = match metas with [] => None | meta :: _ => Some (first_page meta) end /\
    rg_compressed_size rg = Some (fold_right (fun meta z => (cm_compressed_size meta + z)%Z) 0%Z metas).

(** The metadata without its column orders. *)
Definition without_orders (f : file_md) : file_md :=
  mk_fmd (fmd_version f) (fmd_num_rows f) (fmd_created_by f) (fmd_row_groups f) (fmd_key_value f) (fmd_schema f) None.

(** ** The end of a file *)

(** The length of the metadata that the file declares, and the bytes from there to the end of the file. *)
Definition last_bytes (n : N) (file : list N) : list N := skipn (N.to_nat (nlen file - n)) file.
Definition declared_length (file : list N) : Z := to_signed 32 (le (firstn 4 (last_bytes 8 file))).
Definition framed (file : list N) : Prop :=
  12 <= nlen file /\ last_bytes 4 file = [80; 65; 82; 49] /\ (0 <= declared_length file)%Z /\
  (declared_length file + 8 <= Z.of_N (nlen file))%Z.
Definition footer (file : list N) : list N := last_bytes (Z.to_N (declared_length file) + 8) file.

(** ** Selecting row groups *)

(** The elements at the positions that the predicate accepts. *)
Definition kept {A} (predicate : A -> nat -> bool) (l : list A) : list A :=
  map snd (filter (fun x => predicate (snd x) (fst x)) (combine (seq 0 (length l)) l)).

(** ** Iterating columns *)

(** A run of an iterator that is moved forward with [advance], when its user changes each item they get with the functions
    [uses]: the items they got, and the buffer they have in the end. *)
Inductive visits {S I} (advance : S -> res (S + list N)) (get : S -> option I) (put : S -> I -> S)
  : S -> list (I -> I) -> list I -> list N -> Prop :=
| visits_end s b : advance s = Ok (inr b) -> visits advance get put s [] [] b
| visits_next s s1 i u us l b :
    advance s = Ok (inl s1) -> get s1 = Some i -> visits advance get put (put s1 (u i)) us l b ->
    visits advance get put s (u :: us) (i :: l) b.

(** A reader of the pages of a chunk, from its first byte on, with the given buffer. *)
Definition reader_of (file : list N) (filter : option (descriptor -> page_header -> bool)) (max : N) (scratch : list N) (c : column_md)
  (r : page_reader) : Prop :=
  exists meta codec, cc_meta (cmd_chunk c) = Some meta /\ cm_codec meta = compression_to_thrift codec /\
    r = mk_pr (skipn (N.to_nat (chunk_start meta)) file) codec 0 (cm_num_values meta)
          (match filter with Some f => f | None => fun _ _ => true end) (cd_descriptor (cmd_descr c)) scratch max.
(** The columns in order, each with such a reader; the buffer is passed on from reader to reader. *)
Inductive in_order (file : list N) (filter : option (descriptor -> page_header -> bool)) (max : N)
  : list N -> list column_md -> list (page_reader * column_md -> page_reader * column_md) -> list (page_reader * column_md) -> list N -> Prop :=
| in_order_nil scratch : in_order file filter max scratch [] [] [] scratch
| in_order_cons scratch c cs r u us l b :
    reader_of file filter max scratch c r ->
    in_order file filter max (pr_scratch (fst (u (r, c)))) cs us l b ->
    in_order file filter max scratch (c :: cs) (u :: us) ((r, c) :: l) b.
