(** Files written asynchronously, and what the readers and streams of pages give after decompression. *)
From Verif Require Import Base.Prelude Base.Iter Model.Types Model.Thrift Model.Page Model.Io Model.Compression Model.Schema Model.PageRead Model.Metadata Model.FileWrite
  Spec.MetadataSpec Spec.FileSpec.
Open Scope N_scope.

(** As [written_and_opened] in Spec/FileSpec.v, but the last call is the end of the asynchronous writer, which does not keep the metadata: [meta] is what the
    synchronous writer would have kept. *)
Definition streamed_and_opened (F : formats) (m : mode) (schema : schema_descriptor) (stats : bool) (gs : list row_group_iter) (kv : option (list t_key_value))
  (file : list N) (md : file_md) : Prop :=
  exists s version created_by w w' size meta, sk_data s = [] /\ history F m (fw_new s schema stats version created_by) gs w /\
    fs_end F m w kv = (w', Ok size) /\ file = sk_data (fw_sink w') /\ nlen file < 2 ^ 63 /\ fw_metadata (fst (fw_end F m w kv)) = Some meta /\
    nlen (t_enc (f_file F) meta) < 2 ^ 31 /\ reads_back (f_file F) (2 * (nlen (t_enc (f_file F) meta) + 8) + 1024) meta /\
    read_metadata (f_file F) m file = Ok md.

(** A reader of pages with a decompressor that reuses its buffers, with any buffers, gives [pages] and then ends. *)
Definition reader_gives (T : thrift t_page_header) (C : codecs) (m : mode) (r : page_reader) (pages : list page) : Prop :=
  forall caps buffer, length caps = S (length pages) ->
    dec_run C m (pr_iter T m) caps (dec_new r buffer) = Ok (map (fun p => inl (Some p)) pages ++ [inl None]).
(** A stream of pages gives as many and then ends, and each of them, decompressed into any buffer, gives that of [pages]. *)
Definition stream_gives (T : thrift t_page_header) (C : codecs) (m : mode) (s : option page_reader) (pages : list page) : Prop :=
  exists cps, yields (stream_poll T m) (fun _ _ => True) s (map inl cps) /\
    Forall2 (fun cp p => forall cap buffer, decompress C m cap cp buffer = Ok p) cps pages.

(** What the thrift decoder reads does not depend on what follows it. *)
Definition ignores_rest {X} (T : thrift X) : Prop := forall max s x rest more, t_dec T max s = Ok (x, rest) -> t_dec T max (s ++ more) = Ok (x, rest ++ more).
(** A reader in the state of [r], but over other bytes. *)
Definition over (r : page_reader) (source : list N) : page_reader := pr_at r source (pr_seen r) (pr_scratch r).
