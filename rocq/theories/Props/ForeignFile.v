(** C133: whole files of any writer with columns of any nesting, from the bytes of the file to the entries. *)
From Verif Require Import Base.Prelude Base.Iter Model.Types Model.Native Model.Thrift Model.Intervals Model.Page Model.Compression Model.Io Model.PageRead Model.Metadata
  Spec.Bits Spec.UlebSpec Spec.RleSpec Spec.PagesSpec Spec.ForeignSpec Spec.CompressionSpec Spec.PlainSpec Spec.PageSpec Spec.RowsSpec Spec.LevelsSpec Spec.ValuesSpec Spec.RunsSpec
  Spec.MetadataSpec Spec.NestedSpec Spec.AcceptSpec Spec.ForeignValuesSpec Model.Schema Model.FileWrite Proofs.NestedProofs Proofs.TypesFacts Proofs.IndexReadProofs Proofs.CancelProofs Proofs.FileWriteProofs Proofs.ThriftCodec Proofs.PageIoProofs Proofs.EndToEndProofs Proofs.ForeignValuesProofs Props.Compression Props.PageIo Props.Runs Props.Foreign Props.Accept Props.FileWrite Props.ForeignValues Props.Nested.
Open Scope N_scope.

(** C133. As C132, for columns of any nesting: the levels and values of the pages make the entries that the pages hold. *)
Theorem foreign_nested_column_read : forall k T C m file c codec l dict entriess scratch max,
  located T file c codec l -> Forall (readable T max) l -> (values_of (map snd l) < 2 ^ 63)%Z ->
  column_of k (cd_descriptor (cmd_descr c)) ->
  Forall2 (page_holds_nested k C codec (cd_descriptor (cmd_descr c)) dict) (map snd l) entriess ->
  exists r pages,
    get_page_iterator c file None scratch max = Ok r /\
    (forall caps buffer, length caps = S (length pages) ->
       dec_run C m (pr_iter T m) caps (dec_new r buffer) = Ok (map (fun p => inl (Some p)) pages ++ [inl None])) /\
    Forall2 (fun p entries => forall got, decodes_nested k m dict p got <-> got = entries) pages (firstn (length pages) entriess) /\
    concat (firstn (length pages) entriess) = concat entriess.
Proof.
  intros k T C m file c codec l dict entriess scratch max Hl Hr Hv Hk Hh.
  eapply (foreign_pages T C m file c codec l _ (fun p entries => forall got, decodes_nested k m dict p got <-> got = entries)); [exact Hl|exact Hr|exact Hv| | |exact Hh].
  - intros cp entries (body & Hp & Hc). exists body. split; [exact Hp|].
    assert (Hd : decodes_nested k m dict (create_page (as_stored codec (cd_descriptor (cmd_descr c)) cp) body) entries).
    { apply (nested_decodes k m _ dict) in Hc; [|exact Hk]. destruct cp as [x|x]; exact Hc. }
    intros got. split; [intros H; eapply decodes_nested_fun; eassumption|intros ->; exact Hd].
  - intros cp entries (body & Hp & Hc) Hv' Hz. destruct cp as [x|x]; [|inversion Hc; reflexivity].
    eapply (no_values_no_cells x body (cd_descriptor (cmd_descr c))); [|exact Hv'|exact Hz].
    inversion Hc as [? ? ? ? ? (_ & _ & _ & _ & Hn & _)|? ? ? ? ? ? ? ? ? ? ? (_ & _ & _ & _ & Hn & _)|]; subst; exact Hn.
Qed.
Print Assumptions foreign_nested_column_read.

(** C133. A file that ends in metadata with chunks that can be accepted is opened, and column [j] of row group [i] is the chunk at that place, with the column of the schema
    at that place. *)
Theorem foreign_file_opened : forall F m file t schema i g j chunk leaf,
  ends_in F file t -> sd_try_from_thrift m (fm_schema t) = Ok schema -> file_acceptable schema t ->
  nth_error (fm_row_groups t) i = Some g -> nth_error (rg_columns g) j = Some chunk -> nth_error (sd_leaves schema) j = Some leaf ->
  exists md rg, read_metadata (f_file F) m file = Ok md /\ fmd_schema md = schema /\ nth_error (fmd_row_groups md) i = Some rg /\ nth_error (rgm_columns rg) j = Some (mk_cmd chunk leaf).
Proof.
  intros F m file t schema i g j chunk leaf (before & Ef & Hb & Hlen & Hback) Hs Ha Eg Ec El.
  exists (metadata_of schema t), (group_of schema g).
  split; [|split; [reflexivity|split]].
  - rewrite <- (proj1 (metadata_accepted_exactly m schema t Hs) Ha). eapply opened_tail; [|exact Hb|exact Hlen|exact Hback]. rewrite Ef. do 3 f_equal.
    rewrite as_i32_small by (change (2 ^ 31) with 2147483648 in Hlen; exact Hlen). unfold of_signed. change (2 ^ Z.of_N 32)%Z with 4294967296%Z.
    change (2 ^ 31) with 2147483648 in Hlen. rewrite Z.mod_small by lia. rewrite N2Z.id. reflexivity.
  - cbn [metadata_of fmd_row_groups]. rewrite nth_error_map, Eg. reflexivity.
  - cbn [group_of rgm_columns]. rewrite nth_error_map. erewrite nth_error_combine; [|exact Ec|exact El]. reflexivity.
Qed.
Print Assumptions foreign_file_opened.

(** C133. Both together: from a file of any writer to the entries of any of its columns. *)
Theorem foreign_file_read : forall k F C m file t schema i g j chunk leaf codec l dict entriess scratch max,
  ends_in F file t -> sd_try_from_thrift m (fm_schema t) = Ok schema -> file_acceptable schema t ->
  nth_error (fm_row_groups t) i = Some g -> nth_error (rg_columns g) j = Some chunk -> nth_error (sd_leaves schema) j = Some leaf ->
  located (f_header F) file (mk_cmd chunk leaf) codec l -> Forall (readable (f_header F) max) l -> (values_of (map snd l) < 2 ^ 63)%Z ->
  column_of k (cd_descriptor leaf) ->
  Forall2 (page_holds_nested k C codec (cd_descriptor leaf) dict) (map snd l) entriess ->
  exists md rg c r pages,
    read_metadata (f_file F) m file = Ok md /\ nth_error (fmd_row_groups md) i = Some rg /\ nth_error (rgm_columns rg) j = Some c /\ cmd_descr c = leaf /\
    get_page_iterator c file None scratch max = Ok r /\
    (forall caps buffer, length caps = S (length pages) ->
       dec_run C m (pr_iter (f_header F) m) caps (dec_new r buffer) = Ok (map (fun p => inl (Some p)) pages ++ [inl None])) /\
    Forall2 (fun p entries => forall got, decodes_nested k m dict p got <-> got = entries) pages (firstn (length pages) entriess) /\
    concat (firstn (length pages) entriess) = concat entriess.
Proof.
  intros k F C m file t schema i g j chunk leaf codec l dict entriess scratch max He Hs Ha Eg Ec El Hl Hr Hv Hk Hh.
  destruct (foreign_file_opened F m file t schema i g j chunk leaf He Hs Ha Eg Ec El) as (md & rg & E1 & _ & E2 & E3).
  destruct (foreign_nested_column_read k (f_header F) C m file (mk_cmd chunk leaf) codec l dict entriess scratch max Hl Hr Hv Hk Hh) as (r & pages & H1 & H2 & H3 & H4).
  exists md, rg, (mk_cmd chunk leaf), r, pages. repeat split; assumption.
Qed.
Print Assumptions foreign_file_read.

(** A column of optional lists of 32-bit integers: a dictionary, a page with [1; 7], null, [], [7] as positions in two RLE runs, and a page of version 2 with [-1; 1]
    whose values are not compressed. There are bytes of something else before and after the chunk. *)
Definition hx_dict := [1; 0; 0; 0; 7; 0; 0; 0].
Definition hx_positions := [2; 0; 0; 0; 3; 2; 3; 0; 0; 0; 3; 74; 2; 1; 2; 0; 4; 1].
Definition hx_plain := [3; 2; 4; 2; 255; 255; 255; 255; 1; 0; 0; 0].
Definition hx_v2 := mk_tdh2 2 0 1 0 2 2 (Some false) None.
Definition hx_pages : list (t_page_header * compressed_page) :=
  [(mk_tph 2 8 9 None None None (Some (mk_tdict 2 0 None)) None, CDict (mk_cdict (hx_dict ++ [0]) Snappy 2 8 false));
   (mk_tph 0 18 19 (Some 7%Z) (Some (mk_tdh 5 8 3 3 None)) None None None, CData (mk_cdp (HV1 (mk_tdh 5 8 3 3 None)) (hx_positions ++ [0]) Snappy 18 nx_desc None));
   (mk_tph 3 12 12 None None None None (Some hx_v2), CData (mk_cdp (HV2 hx_v2) hx_plain Snappy 12 nx_desc None))].
Definition hx_chunk := mk_tcc None 0 (Some (mk_tcm 1 [] [[108]; [101]] 1 7 90 90 None 40 None (Some 6%Z) None None None)) None None None None None None.
Definition hx_group := mk_trg [hx_chunk] 90 5 None None None None.
Definition hx_meta := mk_tfm 2 (sd_into_thrift nx_schema) 5 [hx_group] None None None None None.
Definition hx_file := [80; 65; 82; 49; 0; 0] ++ stored_chunk ex_header hx_pages ++ [9; 9; 9] ++
  t_enc ex_file_meta hx_meta ++ to_le 4 (nlen (t_enc ex_file_meta hx_meta)) ++ [80; 65; 82; 49].
Definition hx_words : list Z := [1; 7]%Z.
Lemma hx_holds : Forall2 (page_holds_nested (KNative NI32) toy Snappy nx_desc (Some hx_words)) (map snd hx_pages) nx_entries.
Proof.
  constructor; [ | constructor; [ | constructor; [ | constructor ] ] ].
  - exists hx_dict. split; [split; [reflexivity|apply toy_snappy]|]. eapply nested_dictionary; [ reflexivity | | reflexivity ]. split; [ repeat (apply Forall_cons; [ vm_compute; split; [ discriminate | reflexivity ] | ]); apply Forall_nil | reflexivity ].
  - exists hx_positions. split; [split; [reflexivity|exact (toy_snappy hx_positions)]|].
    apply nested_positions with (words := hx_words) (positions := [0; 1; 1]) (w := 1%nat) (bytes := [2; 0; 4; 1]); try reflexivity; [ discriminate | right; reflexivity | | ].
    + split; [lia|]. split; [repeat constructor; reflexivity|]. left. split; [reflexivity|]. exists [RleRun 1 0; RleRun 2 1], []. split; [|reflexivity].
      apply (conf_rle 1 1 0 [2] [0] [4; 1]); try reflexivity; try (repeat constructor; reflexivity).
      { repeat split; try reflexivity; [cbn; lia|]. exists [], 2. repeat split; try constructor; reflexivity. }
      apply (conf_rle 1 2 1 [4] [1] []); try reflexivity; try (repeat constructor; reflexivity).
      { repeat split; try reflexivity; [cbn; lia|]. exists [], 4. repeat split; try constructor; reflexivity. }
    + split; [ reflexivity | ]. split; [ cbn; lia | ]. split; [ cbn; lia | ]. split; [ entries_ok | ]. split; [ reflexivity | ]. split; [ reflexivity | ].
      exists [3; 2], [3; 74; 2]. split; [ vm_compute; repeat split | ]. split; left; vm_compute; reflexivity.
  - exists hx_plain. split.
    + split; [reflexivity|]. repeat (split; [cbn; lia|]). exists [3; 2; 4; 2], [255; 255; 255; 255; 1; 0; 0; 0], [255; 255; 255; 255; 1; 0; 0; 0].
      split; [reflexivity|]. split; [reflexivity|]. split; [reflexivity|]. left. split; reflexivity.
    + apply nested_plain with (bytes := [255; 255; 255; 255; 1; 0; 0; 0]); [ reflexivity | | ].
      * split; [ repeat (apply Forall_cons; [ vm_compute; split; [ discriminate | reflexivity ] | ]); apply Forall_nil | reflexivity ].
      * split; [ reflexivity | ]. split; [ cbn; lia | ]. split; [ cbn; lia | ]. split; [ entries_ok | ]. split; [ reflexivity | ]. split; [ reflexivity | ].
        exists [3; 2], [4; 2]. split; [ vm_compute; repeat split | ]. split; [ left; vm_compute; reflexivity | right ].
        exists [RleRun 2 2], []. split; [ | reflexivity ]. change [4; 2] with ([4] ++ [2] ++ []). apply conf_rle; [ | reflexivity | repeat constructor | reflexivity | reflexivity | constructor ].
        split; [ reflexivity | ]. split; [ cbn; lia | ]. split; [ reflexivity | ]. exists [], 4. repeat split. constructor.
Qed.
Example foreign_file_read_case :
  ends_in wx_formats hx_file hx_meta /\ sd_try_from_thrift Checked (fm_schema hx_meta) = Ok nx_schema /\ file_acceptable nx_schema hx_meta /\
  nth_error (fm_row_groups hx_meta) 0 = Some hx_group /\ nth_error (rg_columns hx_group) 0 = Some hx_chunk /\
  (exists leaf, nth_error (sd_leaves nx_schema) 0 = Some leaf /\ cd_descriptor leaf = nx_desc /\ located ex_header hx_file (mk_cmd hx_chunk leaf) Snappy hx_pages) /\
  Forall (readable ex_header 100) hx_pages /\
  Forall2 (page_holds_nested (KNative NI32) toy Snappy nx_desc (Some hx_words)) (map snd hx_pages) nx_entries.
Proof.
  split; [|split; [vm_compute; reflexivity|split; [|split; [reflexivity|split; [reflexivity|split; [|split; [|exact hx_holds]]]]]]].
  - exists ([80; 65; 82; 49; 0; 0] ++ stored_chunk ex_header hx_pages ++ [9; 9; 9]). split; [unfold hx_file; rewrite <- !app_assoc; reflexivity|].
    split; [vm_compute; discriminate|]. split; [vm_compute; reflexivity|].
    apply (of_codec_reads_back c_file_meta). refine (of_codec_sound c_file_meta 0 (t_enc ex_file_meta hx_meta) hx_meta [] _). vm_compute. reflexivity.
  - split; [|cbn; lia]. repeat constructor; cbn; try lia. intros o [= <-]. lia.
  - eexists. split; [reflexivity|]. split; [reflexivity|]. eexists _, [80; 65; 82; 49; 0; 0], _. split; [reflexivity|]. split; [unfold hx_file; reflexivity|]. repeat (split; [reflexivity|]). reflexivity.
  - repeat apply Forall_cons; [| | |apply Forall_nil]; (split; [|split; [|split; [|split]]]); cbn; try (unfold known_encoding; lia); try codec_ok.
    + repeat split. eexists. repeat split; discriminate.
    + repeat split.
    + repeat split.
Qed.
