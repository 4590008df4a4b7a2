(** C132: columns of any writer, from the bytes of the file to the cells. *)
From Verif Require Import Base.Prelude Base.Iter Model.Types Model.Native Model.Thrift Model.Intervals Model.Page Model.Compression Model.Io Model.PageRead Model.Metadata
  Spec.Bits Spec.UlebSpec Spec.RleSpec Spec.PagesSpec Spec.ForeignSpec Spec.CompressionSpec Spec.PlainSpec Spec.PageSpec Spec.RowsSpec Spec.LevelsSpec Spec.ValuesSpec Spec.RunsSpec
  Spec.MetadataSpec Spec.NestedSpec Spec.AcceptSpec Spec.ForeignValuesSpec Model.Schema Model.FileWrite Proofs.NestedProofs Proofs.TypesFacts Proofs.IndexReadProofs Proofs.CancelProofs Proofs.FileWriteProofs Proofs.ThriftCodec Proofs.PageIoProofs Proofs.EndToEndProofs Proofs.ForeignValuesProofs Props.Compression Props.PageIo Props.Runs Props.Foreign Props.Accept.
Open Scope N_scope.

(** C132. The metadata of a column tells where its chunk is; the chunk is made of pages with headers as any writer may store them, compressed with the codec of the
    column; and each page holds its cells in runs of any kind. Then the iterator over the column's pages, decompressed, gives pages that give exactly these cells, or the
    cells of the rows somebody asks for. Pages at the end that hold no cell may be left out. *)
Theorem foreign_column_read : forall k T C m file c codec l dict cellss scratch max,
  located T file c codec l -> Forall (readable T max) l -> (values_of (map snd l) < 2 ^ 63)%Z ->
  column_of k (cd_descriptor (cmd_descr c)) ->
  Forall2 (page_holds k C codec (cd_descriptor (cmd_descr c)) dict) (map snd l) cellss ->
  exists r pages,
    get_page_iterator c file None scratch max = Ok r /\
    (forall caps buffer, length caps = S (length pages) ->
       dec_run C m (pr_iter T m) caps (dec_new r buffer) = Ok (map (fun p => inl (Some p)) pages ++ [inl None])) /\
    Forall2 (page_reads k m dict) pages (firstn (length pages) cellss) /\
    concat (firstn (length pages) cellss) = concat cellss.
Proof.
  intros k T C m file c codec l dict cellss scratch max Hl Hr Hv Hk Hh.
  eapply foreign_pages; [exact Hl|exact Hr|exact Hv| | |exact Hh].
  - intros cp cells (body & Hp & Hc). exists body. split; [exact Hp|].
    destruct cp as [x|x]; cbn [as_stored create_page page_reads cdp_header cdp_descriptor cdp_selected di_buffer di_num_values cdi_num_values]; [|exact Hc].
    intros w Hw got. exact (any_layout_read k m _ dict _ cells w Hk Hc Hw got).
  - intros cp cells (body & Hp & Hc) Hv' Hz. destruct cp as [x|x]; [|exact (proj1 Hc)].
    eapply (no_values_no_cells x body (cd_descriptor (cmd_descr c))); [|exact Hv'|exact Hz]. destruct Hc as [? _ _ (_ & _ & E & _)|? ? ? ? _ _ _ _ _ (_ & _ & E & _)]; exact E.
Qed.
Print Assumptions foreign_column_read.

(** A dictionary page, a page of positions in an RLE run and a bit-packed run, and a page of version 2 whose values are not compressed, with levels in two runs. *)
Definition gx_positions := [4; 0; 0; 0; 6; 1; 4; 0; 1; 4; 1; 3; 254].
Definition gx_entries := concat (map (native_to_le NI32) [5; 7]%Z).
Definition gx_plain := [6; 1; 4; 0] ++ concat (map (native_to_le NI32) [1; 2; 3]%Z).
Definition gx_v2 := mk_tdh2 5 2 5 0 4 0 (Some false) None.
Definition gx_pages : list (t_page_header * compressed_page) :=
  [(mk_tph 2 8 9 None None None (Some (mk_tdict 2 0 None)) None, CDict (mk_cdict (gx_entries ++ [0]) Snappy 2 8 false));
   (mk_tph 0 13 14 (Some 7%Z) (Some (mk_tdh 5 8 3 3 None)) None None None, CData (mk_cdp (HV1 (mk_tdh 5 8 3 3 None)) (gx_positions ++ [0]) Snappy 13 ux_desc None));
   (mk_tph 3 16 16 None None None None (Some gx_v2), CData (mk_cdp (HV2 gx_v2) gx_plain Snappy 16 ux_desc None))].
Definition gx_file := [80; 65; 82; 49] ++ stored_chunk ex_header gx_pages ++ [80; 65; 82; 49].
Definition gx_column := mk_cmd (mk_tcc None 0 (Some (mk_tcm 1 [] [[97]] 1 10 5 5 None 40 None (Some 4%Z) None None None)) None None None None None None) (mk_cdescr ux_desc [[97]] (Primitive (d_primitive ux_desc))).
Definition gx_cells : list (list (option Z)) := [[]; [Some 7; Some 7; Some 5; None; None]; [Some 1; Some 2; Some 3; None; None]]%Z.
Lemma toy_snappy x : unpacks toy Snappy (x ++ [0]) x.
Proof. cbn [unpacks toy snappy_len snappy_dec]. rewrite removelast_last. split; [reflexivity|]. intros cap Hc. replace (nlen x <=? cap) with true by lia. reflexivity. Qed.
Lemma gx_plain_holds : RunsSpec.holds (KNative NI32) ux_desc (Some [5; 7]%Z) (mk_dp (HV2 gx_v2) gx_plain ux_desc None) [Some 1; Some 2; Some 3; None; None]%Z.
Proof.
  eapply holds_plain; [reflexivity|split; [|reflexivity]; repeat constructor; cbn; lia|]. split; [reflexivity|]. split; [reflexivity|]. split; [reflexivity|]. split; [reflexivity|]. split; [reflexivity|].
  exists [6; 1; 4; 0]. split; [|split; [reflexivity|exact ux_levels]]. split; [reflexivity|]. repeat split.
Qed.
Lemma gx_holds : Forall2 (page_holds (KNative NI32) toy Snappy ux_desc (Some [5; 7]%Z)) (map snd gx_pages) gx_cells.
Proof.
  constructor; [|constructor; [|constructor; [|constructor]]].
  - exists gx_entries. split; [split; [reflexivity|apply toy_snappy]|]. split; [reflexivity|]. exists [5; 7]%Z. split; [reflexivity|]. split; [|reflexivity]. split; [repeat constructor; cbn; lia|reflexivity].
  - exists gx_positions. split; [split; [reflexivity|exact (toy_snappy gx_positions)]|].
    eapply (holds_positions (KNative NI32) _ _ _ _ [5; 7]%Z [1; 1; 0] 1 [4; 1; 3; 254]); [discriminate|reflexivity|right; reflexivity|reflexivity| |].
    + split; [lia|]. split; [repeat constructor; reflexivity|]. left. split; [reflexivity|]. exists [RleRun 2 1; PackedRun [0; 1; 1; 1; 1; 1; 1; 1]], [1; 1; 1; 1; 1; 1; 1]. split; [|reflexivity].
      apply (conf_rle 1 2 1 [4] [1] [3; 254]); try reflexivity; try (repeat constructor; reflexivity).
      { repeat split; try reflexivity; [cbn; lia|]. exists [], 4. repeat split; try constructor; reflexivity. }
      apply (conf_packed 1 1 [0; 1; 1; 1; 1; 1; 1; 1] [3] [254] []); try reflexivity; try (repeat constructor; reflexivity).
      { repeat split; try reflexivity; [cbn; lia|]. exists [], 3. repeat split; try constructor; reflexivity. }
    + split; [reflexivity|]. split; [reflexivity|]. split; [reflexivity|]. split; [reflexivity|]. split; [reflexivity|].
      exists [6; 1; 4; 0]. split; [split; [reflexivity|split; [reflexivity|split; reflexivity]]|]. split; [reflexivity|exact ux_levels].
  - exists gx_plain. split.
    + split; [reflexivity|]. repeat (split; [cbn; lia|]). exists [6; 1; 4; 0], (concat (map (native_to_le NI32) [1; 2; 3]%Z)), (concat (map (native_to_le NI32) [1; 2; 3]%Z)).
      split; [reflexivity|]. split; [reflexivity|]. split; [reflexivity|]. left. split; reflexivity.
    + exact gx_plain_holds.
Qed.
Example foreign_column_read_case : located ex_header gx_file gx_column Snappy gx_pages /\ Forall (readable ex_header 100) gx_pages /\
  (exists r, get_page_iterator gx_column gx_file None [] 100 = Ok r /\
     dec_run toy Checked (pr_iter ex_header Checked) [0; 50; 3; 9] (dec_new r [77; 77]) =
       Ok [inl (Some (PDict (mk_dict gx_entries 2 false))); inl (Some (PData (mk_dp (HV1 (mk_tdh 5 8 3 3 None)) gx_positions ux_desc None)));
           inl (Some (PData (mk_dp (HV2 gx_v2) gx_plain ux_desc None))); inl None]) /\
  reads All (KNative NI32) Checked (Some [5; 7]%Z) (mk_dp (HV2 gx_v2) gx_plain ux_desc None) [Some 1; Some 2; Some 3; None; None]%Z.
Proof.
  split; [|split; [|split]].
  - eexists _, [80; 65; 82; 49], [80; 65; 82; 49]. repeat (split; [reflexivity|]). reflexivity.
  - repeat apply Forall_cons; [| | |apply Forall_nil]; (split; [|split; [|split; [|split]]]); cbn; try (unfold known_encoding; lia); try codec_ok.
    + repeat split. eexists. repeat split; discriminate.
    + repeat split.
    + repeat split.
  - exists (pr_new (stored_chunk ex_header gx_pages ++ [80; 65; 82; 49]) 10 Snappy ux_desc (fun _ _ => true) [] 100). split; [reflexivity|vm_compute; reflexivity].
  - eapply (any_layout_read (KNative NI32) Checked ux_desc); [reflexivity|exact gx_plain_holds|exact I|reflexivity].
Qed.
