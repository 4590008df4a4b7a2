(** C46: the metadata of a column chunk describes the bytes written for it. *)
From Coq Require Import Sorting.Sorted.
From Verif Require Import Base.Prelude Base.LeFacts Base.Codec Model.Types Model.Thrift Model.Intervals Model.Page Model.Io Model.Statistics
  Model.PageWrite Model.ColumnWrite Spec.PagesSpec Spec.ChunkSpec Proofs.PageIoProofs Proofs.ColumnWriteProofs Proofs.ThriftCodec
  Props.PageIo.
Open Scope N_scope.

(** Whenever a column chunk is written, its pages were all given without error, the bytes written are those of the pages
    followed by the metadata, the size returned is the number of bytes written, and the metadata describes the pages. *)
Theorem chunk_written T TM m off d pages s s' chunk specs size : off < 2 ^ 63 ->
  write_column_chunk T TM m off d pages s = (s', Ok (chunk, specs, size)) ->
  exists l meta, pages = map inl l /\ cc_meta chunk = Some meta /\
    sk_data s' = sk_data s ++ chunk_bytes T l ++ t_enc TM meta /\
    size = nlen (chunk_bytes T l ++ t_enc TM meta) /\
    cc_file_offset chunk = (cm_data_page_offset meta + cm_compressed_size meta)%Z /\
    describes T off d l meta.
Proof.
  intros Hoff H. apply write_column_chunk_ok in H as (l & meta & red & H1 & H2 & H3 & H4 & H5 & H6 & _); [ | exact Hoff ].
  exists l, meta. subst chunk. rewrite nlen_app. auto 10.
Qed.
Print Assumptions chunk_written.

(** Pages with different codecs cannot be written as one chunk. *)
Theorem mixed_codecs_rejected T TM m off d l p q s s' chunk specs size : off < 2 ^ 63 ->
  In p l -> In q l -> cp_compression p <> cp_compression q ->
  write_column_chunk T TM m off d (map inl l) s <> (s', Ok (chunk, specs, size)).
Proof.
  intros Hoff Hp Hq Hne H. apply write_column_chunk_ok in H as (l' & meta & red & H1 & _ & _ & _ & _ & H6 & _); [ | exact Hoff ].
  apply map_inl_inj in H1. subst l'. destruct H6 as (_ & _ & _ & _ & _ & (c & Hc & _) & _). unfold same_codec in Hc. rewrite Forall_forall in Hc.
  apply Hne. rewrite (Hc p Hp), (Hc q Hq). reflexivity.
Qed.
Print Assumptions mixed_codecs_rejected.

(** An error given instead of a page is the error of the whole write: the pages before it are in the sink, no metadata is. *)
Theorem chunk_page_error T TM m off d l e rest s s1 x :
  write_column_chunk T TM m off d (map inl l) s = (s1, Ok x) ->
  exists s', write_column_chunk T TM m off d (map inl l ++ inr e :: rest) s = (s', Err e) /\
    sk_data s' = sk_data s ++ chunk_bytes T l.
Proof.
  unfold write_column_chunk. intros H. apply wbind_ok in H as (s2 & specs & H & _). clear s1 x.
  destruct (write_pages_then_error T e rest _ _ _ _ _ H) as (s' & H' & Hd).
  unfold wbind at 1. rewrite H'. exists s'. split; [ reflexivity | ]. rewrite Hd.
  apply write_pages_ok in H as (l' & El & Hd' & _). apply map_inl_inj in El. subst l'. exact Hd'.
Qed.
Print Assumptions chunk_page_error.

(** Which chunks can be written: every page can, all have one codec, and the statistics of the pages can be merged and
    stored. *)
Theorem chunk_writable T TM m off d l data stats reduced st c :
  Forall within_limits l ->
  Forall2 (fun p x => match p with CData d => cdp_statistics d = Ok x /\ cdp_selected d <> Some [] | CDict _ => x = None end) l stats ->
  same_codec c l ->
  reduce_statistics m stats = Ok reduced ->
  (match reduced with None => Ok None | Some s => let* s := serialize_statistics s in Ok (Some s) end) = Ok st ->
  exists s' x, write_column_chunk T TM m off d (map inl l) (mk_sink data None) = (s', Ok x).
Proof.
  intros Hlim Hst Hc Hred Hser.
  destruct (write_pages_of T l stats Hlim Hst off data) as (specs & Hw & Hs & Hstats).
  unfold write_column_chunk. unfold wbind at 1. rewrite Hw.
  destruct (build_column_chunk_of T m off l specs d c reduced st Hs Hc) as (meta & Hb); [ rewrite Hstats; exact Hred | exact Hser | ].
  unfold wbind, wres. rewrite Hb. cbn [cc_meta]. unfold write_struct, wbind, write_all, wret. cbn [sk_room]. eauto.
Qed.
Print Assumptions chunk_writable.

Example chunk_written_witness :
  exists s' chunk specs size,
    write_column_chunk ex_header ex_column_meta Checked 4 (mk_cdescr io_desc [[97]] (Primitive (d_primitive io_desc))) (map inl io_pages)
      (mk_sink [80; 65; 82; 49] None) = (s', Ok (chunk, specs, size)) /\
    map cm_num_values (match cc_meta chunk with Some x => [x] | None => [] end) = [5%Z] /\
    map cm_encodings (match cc_meta chunk with Some x => [x] | None => [] end) = [[0; 3; 8]%Z].
Proof. do 4 eexists. split; [ vm_compute; reflexivity | ]. split; vm_compute; reflexivity. Qed.
Example mixed_codecs_witness :
  snd (write_column_chunk ex_header ex_column_meta Checked 4 (mk_cdescr io_desc [[97]] (Primitive (d_primitive io_desc)))
    (map inl [io_v1; CDict (mk_cdict [1] Gzip 1 1 false)]) (mk_sink [] None)) = Err OutOfSpec.
Proof. vm_compute. reflexivity. Qed.
