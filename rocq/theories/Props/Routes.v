(** C124: every way to a column's pages gives the same pages, also of a file written asynchronously. *)
From Verif Require Import Base.Prelude Base.Iter Base.Codec Base.LeFacts Model.Types Model.Native Model.Thrift Model.Intervals Model.Page Model.Io Model.Statistics Model.PageWrite
  Model.Compression Model.ColumnWrite Model.Schema Model.PageRead Model.Metadata Model.FileWrite Model.Routes Spec.PagesSpec Spec.ChunkSpec
  Spec.SchemaSpec Spec.CompressionSpec Spec.MetadataSpec Spec.FileSpec Spec.ValuesSpec Spec.NestedSpec Spec.RoutesSpec
  Proofs.CompressionProofs Proofs.SchemaProofs Proofs.FileWriteProofs Proofs.IndexReadProofs Proofs.ThriftCodec Proofs.EndToEndProofs Proofs.NestedProofs Proofs.RoutesProofs
  Props.PageIo Props.FileWrite Props.Compression Props.EndToEnd Props.Nested.
Open Scope N_scope.

(** C124. The pages [ps] are compressed and written as a column of a file by the synchronous or the asynchronous writer; the last has values. The page
    iterator, the page stream, the stream from the bytes of the column and the reader over these bytes all give [ps], with the descriptor of the column in the file. *)
Theorem every_route_gives_pages F C m schema stats gs kv file md i g j leaf ps o b0 cps scratch max :
  written_and_opened F m schema stats gs kv file md \/ streamed_and_opened F m schema stats gs kv file md -> good_schema schema -> complete_groups schema gs -> inverts C ->
  nth_error gs i = Some g -> nth_error (sd_leaves schema) j = Some leaf -> nth_error g j = Some (inl (map inl cps)) ->
  comp_run C m (S (length ps)) (comp_new (map inl ps) o b0) = Ok (map (fun cp => inl (Some cp)) cps ++ [inl None]) ->
  (o <> OUncompressed -> Forall says_compressed ps) -> Forall (takes (f_header F) max) cps -> (values_of cps < 2 ^ 63)%Z ->
  (forall init last, cps = init ++ [last] -> (0 < values last)%Z) ->
  let pages := map (page_as_read (cd_descriptor leaf)) ps in
  exists rg c bytes,
    nth_error (fmd_row_groups md) i = Some rg /\ nth_error (rgm_columns rg) j = Some c /\ cmd_descr c = leaf /\ read_column file c = Ok bytes /\
    (exists r, get_page_iterator c file None scratch max = Ok r /\ reader_gives (f_header F) C m r pages) /\
    (exists s, get_page_stream c file (fun _ _ => true) scratch max = Ok s /\ stream_gives (f_header F) C m s pages) /\
    (exists s, get_page_stream_from_column_start c bytes (fun _ _ => true) scratch max = Ok s /\ stream_gives (f_header F) C m s pages) /\
    (exists r, pr_of_column bytes c (fun _ _ => true) scratch max = Ok r /\ reader_gives (f_header F) C m r pages).
Proof.
  intros H Hg Hc HC Eg Ej Egj Hcomp Hsay Htakes Hv Hlast pages.
  assert (Hw : written_and_opened F m schema stats gs kv file md) by (destruct H as [H|H]; [exact H|apply streamed_written; exact H]). clear H.
  destruct (opened_exists _ _ _ _ _ _ _ _ _ _ _ _ Hw Hg Hc Eg Ej) as (rg & c & Erg & Ec & Ed).
  destruct (opened_column _ _ _ _ _ _ _ _ _ _ _ _ _ _ Hw Hg Hc Eg Erg Egj Ec) as (_ & Hlen & Hch).
  destruct (chunk_found F file c cps Hlen Hch) as (codec & start & Hcodec & Epm & (post & Epost) & Ebytes).
  pose proof (compressor_pages _ _ _ _ _ _ Hcomp) as Hps.
  assert (G : forall rest, let r := pr_new (chunk_bytes (f_header F) cps ++ rest) (values_of cps) codec (cd_descriptor (cmd_descr c)) (fun _ _ => true) scratch max in
    reader_gives (f_header F) C m r pages /\ stream_gives (f_header F) C m (Some r) pages).
  { intros rest. cbv zeta. destruct (chunk_runs (f_header F) m cps rest codec (cd_descriptor (cmd_descr c)) scratch max Htakes Hv Hlast) as (r' & Hr).
    unfold pages. rewrite <- Ed. eapply runs_give; eassumption. }
  destruct (G post) as [G1 G2]. destruct (G []) as [G3 G4]. rewrite app_nil_r in G3, G4.
  exists rg, c, (chunk_bytes (f_header F) cps). split; [exact Erg|]. split; [exact Ec|]. split; [exact Ed|]. split; [exact Ebytes|].
  split; [|split; [|split]].
  - eexists. split; [|exact G1]. pose proof Epm as E. unfold page_meta_of in E. unfold get_page_iterator. destruct (byte_range c) as [[st len]|e|]; cbn [bind] in *; [|discriminate E..].
    destruct (cmd_meta c) as [meta|e|]; cbn [bind] in *; [|discriminate E..]. destruct (cmd_compression c) as [k|e|]; cbn [bind] in *; [|discriminate E..].
    apply Ok_inj in E. injection E as -> E1 ->. rewrite Epost, E1. reflexivity.
  - eexists. split; [|exact G2]. unfold get_page_stream. rewrite Epm. cbn [bind]. unfold get_page_stream_with_page_meta, pr_new_with_page_meta. cbn [pm_start pm_num_values pm_compression pm_descriptor]. rewrite Epost. reflexivity.
  - eexists. split; [|exact G4]. unfold get_page_stream_from_column_start. rewrite Epm. reflexivity.
  - eexists. split; [|exact G3]. unfold pr_of_column. rewrite Epm. reflexivity.
Qed.
Print Assumptions every_route_gives_pages.

(** C124. So a file written asynchronously and read asynchronously gives back the entries of a column of any nesting. *)
Theorem asynchronous_nested_roundtrip k F C m schema stats gs kv file md i g j leaf dict ps entriess o b0 cps scratch max :
  streamed_and_opened F m schema stats gs kv file md -> good_schema schema -> complete_groups schema gs -> inverts C ->
  nth_error gs i = Some g -> nth_error (sd_leaves schema) j = Some leaf -> nth_error g j = Some (inl (map inl cps)) ->
  comp_run C m (S (length ps)) (comp_new (map inl ps) o b0) = Ok (map (fun cp => inl (Some cp)) cps ++ [inl None]) ->
  (o <> OUncompressed -> Forall says_compressed ps) -> Forall (takes (f_header F) max) cps -> (values_of cps < 2 ^ 63)%Z ->
  column_of k (cd_descriptor leaf) -> Forall2 (stores_nested k (cd_descriptor leaf) dict) ps entriess ->
  (forall init last, entriess = init ++ [last] -> last <> []) ->
  exists rg c s pages,
    nth_error (fmd_row_groups md) i = Some rg /\ nth_error (rgm_columns rg) j = Some c /\ cmd_descr c = leaf /\
    get_page_stream c file (fun _ _ => true) scratch max = Ok s /\ stream_gives (f_header F) C m s pages /\ Forall2 (decodes_nested k m dict) pages entriess.
Proof.
  intros H Hg Hc HC Eg Ej Egj Hcomp Hsay Htakes Hv Hk Hst Hlast.
  destruct (every_route_gives_pages F C m schema stats gs kv file md i g j leaf ps o b0 cps scratch max (or_intror H) Hg Hc HC Eg Ej Egj Hcomp Hsay Htakes Hv) as (rg & c & bytes & Erg & Ec & Ed & _ & _ & (s & Es & Hs) & _).
  - intros init last ->. pose proof (compressor_pages _ _ _ _ _ _ Hcomp) as Hps. apply Forall2_app_inv_r in Hps as (pinit & pl & Hi & Hl & ->). inversion Hl as [|plast ? ? ? Hl1 Hl2]; subst. inversion Hl2; subst.
    apply Forall2_app_inv_l in Hst as (sinit & sl & Hsi & Hsl & ->). inversion Hsl as [|? slast ? ? Hsl1 Hsl2]; subst. inversion Hsl2; subst.
    apply Forall_app in Htakes as [_ Ht]. eapply compress_nested_values; [exact Hl1|exact (Forall_inv Ht)|exact Hsl1|]. apply (Hlast sinit slast eq_refl).
  - exists rg, c, s, (map (page_as_read (cd_descriptor leaf)) ps). repeat (split; [assumption|]). clear - Hst Hk. induction Hst; cbn [map]; constructor; [ eapply nested_decodes; eassumption | assumption ].
Qed.
Print Assumptions asynchronous_nested_roundtrip.

(** C124. For any metadata, from any writer, and any bytes: all four ways start alike; they differ only in the bytes that they are over. *)
Theorem every_route_starts_alike c file source f scratch max :
  get_page_stream c file f scratch max = (let* r := get_page_iterator c file (Some f) scratch max in Ok (Some r)) /\
  get_page_stream_from_column_start c source f scratch max = (let* r := get_page_iterator c file (Some f) scratch max in Ok (Some (over r source))) /\
  pr_of_column source c f scratch max = (let* r := get_page_iterator c file (Some f) scratch max in Ok (over r source)).
Proof.
  unfold get_page_stream, get_page_stream_from_column_start, pr_of_column, page_meta_of, get_page_iterator.
  destruct (byte_range c) as [[st len]|e|]; cbn [bind]; [|repeat split; reflexivity..]. destruct (cmd_meta c) as [meta|e|]; cbn [bind]; [|repeat split; reflexivity..].
  destruct (cmd_compression c) as [k|e|]; cbn [bind]; repeat split; reflexivity.
Qed.
Print Assumptions every_route_starts_alike.

(** C124. For any file and metadata: where reading only the bytes that the metadata has for the column meets no error, reading in the file, synchronously or as a
    stream, gives the same pages. *)
Theorem column_bytes_suffice T m c file f scratch max bytes r items r' : ignores_rest T ->
  read_column file c = Ok bytes -> pr_of_column bytes c f scratch max = Ok r -> runs (pr_next T m) r (map inl items) r' ->
  exists q q', get_page_iterator c file (Some f) scratch max = Ok q /\ get_page_stream c file f scratch max = Ok (Some q) /\
    runs (pr_next T m) q (map inl items) q' /\ runs (stream_next T m) q (map inl items) q'.
Proof.
  intros HT Hb Hr Hruns. destruct (every_route_starts_alike c file bytes f scratch max) as (E1 & _ & E3). rewrite Hr in E3. rewrite E1.
  unfold get_page_iterator in *. unfold read_column in Hb. destruct (byte_range c) as [[st len]|e|]; cbn [bind] in *; [|discriminate E3..].
  destruct (cmd_meta c) as [meta|e|]; cbn [bind] in *; [|discriminate E3..]. destruct (cmd_compression c) as [k|e|]; cbn [bind] in *; [|discriminate E3..].
  apply Ok_inj in Hb. apply Ok_inj in E3. subst bytes r. set (q := pr_new (skipn (N.to_nat st) file) (cm_num_values meta) k (cd_descriptor (cmd_descr c)) f scratch max) in *.
  apply (runs_more T m (skipn (N.to_nat len) (skipn (N.to_nat st) file)) HT) in Hruns.
  replace (over (over q (read_at file st len)) _) with q in Hruns
    by (unfold over, q, read_at; cbn [pr_at pr_source pr_seen pr_scratch pr_new pr_compression pr_total pr_filter pr_descriptor pr_max]; rewrite firstn_skipn; reflexivity).
  exists q. eexists. split; [reflexivity|]. split; [reflexivity|]. split; [exact Hruns|]. apply stream_matches_reader_pages. exact Hruns.
Qed.
Print Assumptions column_bytes_suffice.

(** The file of [nx_file] (Props/Nested.v), written asynchronously. *)
Definition ax_ended : file_writer * res N := fs_end wx_formats Checked nx_written None.
Lemma ax_opened : streamed_and_opened wx_formats Checked nx_schema false [nx_group] None nx_file nx_md.
Proof.
  exists (mk_sink [] None), 2%Z, None, nx_written, (fst ax_ended), (nlen nx_file), nx_meta.
  split; [ reflexivity | ]. split.
  { apply history_ok with (w1 := nx_written); [ | apply history_nil ]. vm_compute. reflexivity. }
  split; [ vm_compute; reflexivity | ]. split; [ vm_compute; reflexivity | ]. split; [ vm_compute; reflexivity | ].
  split; [ vm_compute; reflexivity | ]. split; [ vm_compute; reflexivity | ]. split; [ | vm_compute; reflexivity ].
  apply (of_codec_reads_back c_file_meta). refine (of_codec_sound c_file_meta 0 (t_enc ex_file_meta nx_meta) nx_meta [] _). vm_compute. reflexivity.
Qed.
Example every_route_gives_pages_case :
  streamed_and_opened wx_formats Checked nx_schema false [nx_group] None nx_file nx_md /\ good_schema nx_schema /\ complete_groups nx_schema [nx_group] /\
  inverts toy /\ Forall says_compressed nx_pages /\
  comp_run toy Checked 4 (comp_new (map inl nx_pages) OSnappy [3; 3]) = Ok (map (fun cp => inl (Some cp)) nx_compressed ++ [inl None]) /\
  Forall (takes ex_header 100) nx_compressed /\ values_of nx_compressed = 7%Z /\ (forall init last, nx_compressed = init ++ [last] -> (0 < values last)%Z).
Proof.
  destruct file_nested_roundtrip_case as (_ & H2 & H3 & H4 & H5 & H6 & H7 & H8 & _). split; [exact ax_opened|]. do 7 (split; [assumption|]).
  intros init last E. unfold nx_compressed in E. match type of E with [?a; ?b; ?c] = _ => change [a; b; c] with ([a; b] ++ [c]) in E end. apply app_inj_tail in E as [_ <-]. reflexivity.
Qed.
Example asynchronous_nested_roundtrip_case : Forall2 (stores_nested (KNative NI32) nx_desc (Some [1; 7]%Z)) nx_pages nx_entries /\ column_of (KNative NI32) nx_desc.
Proof. split; [exact nx_stores|reflexivity]. Qed.

(** A format of headers in which one byte says how long the page is: a column of two pages with a dictionary offset, after three bytes of something else. *)
Definition one_byte : thrift t_page_header :=
  mk_thrift (fun h => [Z.to_N (ph_compressed_size h)])
    (fun _ s => match s with [] => Err OutOfSpec | b :: r => Ok (mk_tph 0 (Z.of_N b) (Z.of_N b) None (Some (mk_tdh 1 0 3 3 None)) None None None, r) end).
Lemma one_byte_ignores : ignores_rest one_byte.
Proof. intros max [|b s] x rest more H; [discriminate H|]. apply Ok_inj in H. injection H as <- <-. reflexivity. Qed.
Definition rx_file : list N := [7; 7; 7; 2; 5; 6; 1; 4; 9; 9; 9].
Definition rx_column : column_md := mk_cmd (mk_tcc None 0 (Some (mk_tcm 1 [] [[97]] 0 2 5 5 None 4 None (Some 3%Z) None None None)) None None None None None None) (mk_cdescr io_desc [[97]] (Primitive wx_b)).
Example column_bytes_suffice_case :
  read_column rx_file rx_column = Ok [2; 5; 6; 1; 4] /\
  exists r items r', pr_of_column [2; 5; 6; 1; 4] rx_column (fun _ _ => true) [] 10 = Ok r /\ runs (pr_next one_byte Checked) r (map inl items) r' /\ length items = 2%nat.
Proof.
  split; [reflexivity|]. eexists. eexists [_; _]. eexists. split; [reflexivity|]. split; [|reflexivity].
  eapply runs_cons; [vm_compute; reflexivity|]. eapply runs_cons; [vm_compute; reflexivity|]. apply runs_nil. vm_compute. reflexivity.
Qed.
