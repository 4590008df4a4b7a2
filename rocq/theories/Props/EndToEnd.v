(** C68, C85: pages compressed, written to a file, read back and decompressed. *)
From Verif Require Import Base.Prelude Base.Iter Base.Codec Base.LeFacts Model.Types Model.Native Model.Thrift Model.Intervals Model.Page Model.Io Model.Statistics Model.PageWrite
  Model.Compression Model.ColumnWrite Model.Schema Model.PageRead Model.Metadata Model.Indexes Model.FileWrite Spec.RowsSpec Spec.StatsSpec Spec.PagesSpec Spec.ChunkSpec
  Spec.SchemaSpec Spec.CompressionSpec Spec.MetadataSpec Spec.FileSpec Spec.ValuesSpec
  Proofs.TypesFacts Proofs.PageIoProofs Proofs.CompressionProofs Proofs.SchemaProofs Proofs.FileWriteProofs Proofs.IndexProofs Proofs.IndexReadProofs Proofs.ThriftCodec Proofs.EndToEndProofs Proofs.ValuesProofs
  Props.PageIo Props.FileWrite Props.Compression Props.Indexes.
Open Scope N_scope.

(** The pages [ps] go through a compressor (with any buffer) and are written as column [j] of row group [i]. Somebody opens the file, takes that
    column from the metadata, and iterates its pages with a reusing decompressor (with any buffers). They get the pages [ps] in order, each with
    the descriptor of the column in the file, and then the end. Pages without values that come after the last page with values are left out,
    and only those. *)
Theorem file_pages_roundtrip F C m schema stats gs kv file md i g j leaf ps o b0 cps scratch max :
  written_and_opened F m schema stats gs kv file md -> good_schema schema -> complete_groups schema gs -> inverts C ->
  nth_error gs i = Some g -> nth_error (sd_leaves schema) j = Some leaf -> nth_error g j = Some (inl (map inl cps)) ->
  comp_run C m (S (length ps)) (comp_new (map inl ps) o b0) = Ok (map (fun cp => inl (Some cp)) cps ++ [inl None]) ->
  (o <> OUncompressed -> Forall says_compressed ps) -> Forall (takes (f_header F) max) cps -> (values_of cps < 2 ^ 63)%Z ->
  exists rg c r n,
    nth_error (fmd_row_groups md) i = Some rg /\ nth_error (rgm_columns rg) j = Some c /\ cmd_descr c = leaf /\
    get_page_iterator c file None scratch max = Ok r /\
    (forall caps buffer, length caps = S (length (firstn n ps)) ->
       dec_run C m (pr_iter (f_header F) m) caps (dec_new r buffer) =
         Ok (map (fun p => inl (Some (page_as_read (cd_descriptor leaf) p))) (firstn n ps) ++ [inl None])) /\
    values_of (skipn n cps) = 0%Z /\
    (forall init last, cps = init ++ [last] -> (0 < values last)%Z -> firstn n ps = ps).
Proof.
  intros H Hg Hc HC Eg Ej Egj Hcomp Hsay Htakes Hv.
  destruct (opened_exists _ _ _ _ _ _ _ _ _ _ _ _ H Hg Hc Eg Ej) as (rg & c & Erg & Ec & Ed).
  destruct (opened_column _ _ _ _ _ _ _ _ _ _ _ _ _ _ H Hg Hc Eg Erg Egj Ec) as (_ & Hlen & Hch).
  destruct (chunk_read F m file c cps scratch max Hlen Hch Htakes Hv) as (codec & r & r' & Hcodec & Hr & Hruns).
  destruct (needed_split _ _ _ Htakes) as (n & En & Ez). rewrite En in Hruns. rewrite Ed in Hruns.
  pose proof (compressor_pages _ _ _ _ _ _ Hcomp) as Hps. pose proof (Forall2_length _ _ _ Hps) as Hl.
  exists rg, c, r, n. refine (conj Erg (conj Ec (conj Ed (conj Hr (conj _ (conj Ez _)))))).
  - intros caps buffer Hcaps.
    assert (Hn : Forall2 (fun p cp => compress C m p [] o = Ok cp) (firstn n ps) (firstn n cps)).
    { clear - Hps. revert n. induction Hps; intros [|n]; cbn [firstn]; constructor; auto. }
    assert (Hns : o <> OUncompressed -> Forall says_compressed (firstn n ps)) by (intros Ho; apply Forall_firstn; auto).
    assert (Hnc : Forall (fun p => cp_compression p = codec) (firstn n cps)) by (apply Forall_firstn; exact Hcodec).
    set (qs := firstn n ps) in *. set (cqs := firstn n cps) in *. clearbody qs cqs.
    rewrite (decompressor_matches_fresh C m (pr_iter (f_header F) m) _ r _ buffer caps (reader_serves (f_header F) m) (ex_intro _ r' Hruns)).
    + rewrite Hcaps, <- (map_length (page_as_read (cd_descriptor leaf)) qs). rewrite <- map_map with (f := page_as_read (cd_descriptor leaf)) (g := fun p => inl (Some p)).
      assert (Hd : Forall2 (fun cp p => decompress C m 0 cp [] = Ok p) (map (read_page_of codec (cd_descriptor leaf) None false) cqs) (map (page_as_read (cd_descriptor leaf)) qs)).
      { clear - HC Hn Hns Hnc. induction Hn as [|p cp qs cqs Hp Hn IH]; [ constructor | ]. cbn [map]. constructor.
        - destruct (page_compression_roundtrip C m p o cp HC Hp (fun Ho => Forall_inv (Hns Ho))) as (Hd & _). rewrite <- (Forall_inv Hnc). apply decompress_as_read. apply Hd.
        - apply IH; first [ exact (fun Ho => Forall_inv_tail (Hns Ho)) | exact (Forall_inv_tail Hnc) | exact (f_equal pred Hl) | idtac ]. }
      rewrite <- (Forall2_length _ _ _ Hd). apply decompress_each_ok. exact Hd.
    + intros cp Hin. apply in_map_iff in Hin as (x & Ex & Hin). injection Ex as ->. apply in_map_iff in Hin as (y & <- & Hin).
      rewrite Forall_forall in Hnc. rewrite <- (Hnc _ Hin). apply page_fills_as_read.
      clear - Hn Hin HC. induction Hn as [|p cp qs cqs Hp Hn IH]; [ destruct Hin | ]. destruct Hin as [<- |Hin]; [ | apply IH; exact Hin ].
      apply compressed_pages_fill with p o; assumption.
  - intros init last -> Hlast. apply firstn_all2. rewrite Hl, app_length. cbn [length].
    destruct (Nat.le_gt_cases n (length init)) as [Hle|Hgt]; [ exfalso | lia ].
    rewrite skipn_app in Ez. replace (n - length init)%nat with 0%nat in Ez by lia. cbn [skipn] in Ez. rewrite values_of_app in Ez.
    apply Forall_app in Htakes as [Ht _]. assert (Hs : Forall (takes (f_header F) max) (skipn n init)) by (apply Forall_skipn; exact Ht).
    pose proof (values_of_nonneg _ _ _ Hs). rewrite values_of_cons in Ez. cbn [values_of fold_right] in Ez. lia.
Qed.
Print Assumptions file_pages_roundtrip.

(** A file with a dictionary page, a V1 page and a V2 page with levels, compressed with the toy codec. *)
Definition ee_pages : list page :=
  [PDict (mk_dict [1; 0; 0; 0; 7; 0; 0; 0] 2 true);
   PData (mk_dp (HV1 (mk_tdh 3 8 3 3 None)) [2; 0; 0; 0; 3; 5; 1; 3; 2] io_desc (Some [mk_iv 0 3]));
   PData (mk_dp (HV2 (mk_tdh2 2 1 2 0 2 0 (Some true) None)) [4; 1; 9; 9; 9; 9] io_desc (Some [mk_iv 0 2]))].
Definition ee_compressed : list compressed_page :=
  [CDict (mk_cdict [1; 0; 0; 0; 7; 0; 0; 0; 0] Snappy 2 8 true);
   CData (mk_cdp (HV1 (mk_tdh 3 8 3 3 None)) [2; 0; 0; 0; 3; 5; 1; 3; 2; 0] Snappy 9 io_desc (Some [mk_iv 0 3]));
   CData (mk_cdp (HV2 (mk_tdh2 2 1 2 0 2 0 (Some true) None)) [4; 1; 9; 9; 9; 9; 0] Snappy 6 io_desc (Some [mk_iv 0 2]))].
Definition ee_group : row_group_iter := [inl (map inl ee_compressed); inl (map inl [wx_b_page 5])].
Definition ee_new := fw_new (mk_sink [] None) wx_schema false 2 None.
Definition ee_written := fst (fw_write wx_formats Checked ee_new ee_group).
Definition ee_ended : file_writer * res N := fw_end wx_formats Checked ee_written None.
Definition ee_file : list N := sk_data (fw_sink (fst ee_ended)).
Definition ee_meta : t_file_meta := match fw_metadata (fst ee_ended) with Some t => t | None => mk_tfm 0 [] 0 [] None None None None None end.
Definition ee_md : file_md := match read_metadata ex_file_meta Checked ee_file with Ok md => md | _ => mk_fmd 0 0 None [] None wx_schema None end.
Lemma ee_meta_ok : cok c_file_meta ee_meta.
Proof. refine (of_codec_sound c_file_meta 0 (t_enc ex_file_meta ee_meta) ee_meta [] _). vm_compute. reflexivity. Qed.
Lemma ee_opened : written_and_opened wx_formats Checked wx_schema false [ee_group] None ee_file ee_md.
Proof.
  exists (mk_sink [] None), 2%Z, None, ee_written, (fst ee_ended), (nlen ee_file), ee_meta.
  split; [ reflexivity | ]. split.
  { apply history_ok with (w1 := ee_written); [ | apply history_nil ]. vm_compute. reflexivity. }
  split; [ vm_compute; reflexivity | ]. split; [ reflexivity | ]. split; [ vm_compute; reflexivity | ].
  split; [ vm_compute; reflexivity | ]. split; [ vm_compute; reflexivity | ].
  split; [ apply (of_codec_reads_back c_file_meta); exact ee_meta_ok | ]. vm_compute. reflexivity.
Qed.
Example file_pages_roundtrip_case :
  written_and_opened wx_formats Checked wx_schema false [ee_group] None ee_file ee_md /\ good_schema wx_schema /\ complete_groups wx_schema [ee_group] /\
  inverts toy /\ Forall says_compressed ee_pages /\
  comp_run toy Checked 4 (comp_new (map inl ee_pages) OSnappy [3; 3]) = Ok (map (fun cp => inl (Some cp)) ee_compressed ++ [inl None]) /\
  Forall (takes ex_header 100) ee_compressed /\ values_of ee_compressed = 5%Z.
Proof.
  split; [ exact ee_opened | ]. split; [ exact wx_good | ]. split.
  { split; [ repeat constructor | vm_compute; reflexivity ]. }
  split; [ exact toy_inverts | ]. split.
  { unfold ee_pages. repeat (apply Forall_cons; [ cbn; first [ exact I | discriminate ] | ]). apply Forall_nil. }
  split; [ vm_compute; reflexivity | ]. split; [ | reflexivity ].
  unfold ee_compressed. repeat (apply Forall_cons; [ takes_ok | ]). apply Forall_nil.
Qed.

(** * C85 *)

(** The same for values: cells stored in pages as the format says, plain or through a dictionary, come back as these cells. *)
Lemma compress_values C m p o cp k d dict cells T max : compress C m p [] o = Ok cp -> takes T max cp -> stores k d dict p cells -> cells <> [] -> (0 < values cp)%Z.
Proof.
  intros Hc (_ & _ & _ & _ & Hr) Hs Hne. destruct p as [p|p]; [ | inversion Hs; subst; congruence ].
  assert (Hn : dp_num_values p = nlen cells) by (inversion Hs as [? ? ? ? ? (_ & _ & Hn & _)|? ? ? ? ? ? ? ? ? ? ? ? ? (_ & _ & Hn & _)|]; subst; exact Hn).
  unfold compress, compress_data in Hc. set (o' := match o with OUncompressed => _ | _ => _ end) in Hc. destruct o' as [y| |]; cbn [bind rmap] in Hc; try discriminate Hc. apply Ok_inj in Hc. subst cp.
  unfold dp_num_values, header_num_values in Hn. cbn [values cdp_header] in *. assert (0 < nlen cells) by (destruct cells; [ congruence | unfold nlen; cbn [length]; lia ]).
  destruct (dp_header p); rewrite as_usize_nonneg in Hn by lia; lia.
Qed.
Theorem file_values_roundtrip k F C m schema stats gs kv file md i g j leaf dict ps cellss o b0 cps scratch max :
  written_and_opened F m schema stats gs kv file md -> good_schema schema -> complete_groups schema gs -> inverts C ->
  nth_error gs i = Some g -> nth_error (sd_leaves schema) j = Some leaf -> nth_error g j = Some (inl (map inl cps)) ->
  comp_run C m (S (length ps)) (comp_new (map inl ps) o b0) = Ok (map (fun cp => inl (Some cp)) cps ++ [inl None]) ->
  (o <> OUncompressed -> Forall says_compressed ps) -> Forall (takes (f_header F) max) cps -> (values_of cps < 2 ^ 63)%Z ->
  column_of k (cd_descriptor leaf) -> Forall2 (stores k (cd_descriptor leaf) dict) ps cellss ->
  (forall init last, cellss = init ++ [last] -> last <> []) ->
  exists rg c r pages,
    nth_error (fmd_row_groups md) i = Some rg /\ nth_error (rgm_columns rg) j = Some c /\ cmd_descr c = leaf /\
    get_page_iterator c file None scratch max = Ok r /\
    (forall caps buffer, length caps = S (length ps) ->
       dec_run C m (pr_iter (f_header F) m) caps (dec_new r buffer) = Ok (map (fun p => inl (Some p)) pages ++ [inl None])) /\
    Forall2 (decodes k m dict) pages cellss.
Proof.
  intros H Hg Hc HC Eg Ej Egj Hcomp Hsay Htakes Hv Hk Hst Hlast.
  destruct (file_pages_roundtrip F C m schema stats gs kv file md i g j leaf ps o b0 cps scratch max H Hg Hc HC Eg Ej Egj Hcomp Hsay Htakes Hv)
    as (rg & c & r & n & Erg & Ec & Ed & Er & Hrun & _ & Hall).
  exists rg, c, r, (map (page_as_read (cd_descriptor leaf)) ps). refine (conj Erg (conj Ec (conj Ed (conj Er (conj _ _))))).
  - assert (Hn : firstn n ps = ps).
    { destruct ps as [|p0 ps0]; [ destruct n; reflexivity | ]. destruct (exists_last (l := p0 :: ps0) ltac:(discriminate)) as (init & last & E). rewrite E in *. clear E p0 ps0.
      pose proof (compressor_pages _ _ _ _ _ _ Hcomp) as Hps.
      apply Forall2_app_inv_l in Hps as (cinit & cl & Hci & Hcl & ->). inversion Hcl as [|? clast ? ? Hcl1 Hcl2]; subst. inversion Hcl2; subst.
      apply Forall2_app_inv_l in Hst as (sinit & sl & Hsi & Hsl & Esl). inversion Hsl as [|? slast ? ? Hsl1 Hsl2]; subst. inversion Hsl2; subst.
      apply (Hall cinit clast eq_refl). apply Forall_app in Htakes as [_ Ht]. eapply compress_values; [ exact Hcl1 | exact (Forall_inv Ht) | exact Hsl1 | ].
      apply (Hlast sinit slast eq_refl). }
    intros caps buffer Hcaps. rewrite Hn in Hrun. rewrite (Hrun caps buffer Hcaps). rewrite map_map. reflexivity.
  - clear - Hst Hk. induction Hst; cbn [map]; constructor; [ eapply stored_decodes; eassumption | assumption ].
Qed.
Print Assumptions file_values_roundtrip.
(** A column of optional 32-bit integers: the dictionary [1; 7], a V1 page of positions in it and a V2 page of plain values. *)
Definition vx_pages : list page :=
  [PDict (mk_dict [1; 0; 0; 0; 7; 0; 0; 0] 2 true);
   PData (mk_dp (HV1 (mk_tdh 3 8 3 3 None)) [2; 0; 0; 0; 3; 5; 1; 3; 2] io_desc (Some [mk_iv 0 3]));
   PData (mk_dp (HV2 (mk_tdh2 2 1 2 0 2 0 (Some true) None)) [3; 2; 255; 255; 255; 255] io_desc (Some [mk_iv 0 2]))].
Definition vx_cells : list (list (option Z)) := [[]; [Some 1; None; Some 7]; [None; Some (-1)]]%Z.
Definition vx_compressed : list compressed_page :=
  [CDict (mk_cdict [1; 0; 0; 0; 7; 0; 0; 0; 0] Snappy 2 8 true);
   CData (mk_cdp (HV1 (mk_tdh 3 8 3 3 None)) [2; 0; 0; 0; 3; 5; 1; 3; 2; 0] Snappy 9 io_desc (Some [mk_iv 0 3]));
   CData (mk_cdp (HV2 (mk_tdh2 2 1 2 0 2 0 (Some true) None)) [3; 2; 255; 255; 255; 255; 0] Snappy 6 io_desc (Some [mk_iv 0 2]))].
Definition vx_group : row_group_iter := [inl (map inl vx_compressed); inl (map inl [wx_b_page 5])].
Definition vx_written := fst (fw_write wx_formats Checked ee_new vx_group).
Definition vx_ended : file_writer * res N := fw_end wx_formats Checked vx_written None.
Definition vx_file : list N := sk_data (fw_sink (fst vx_ended)).
Definition vx_meta : t_file_meta := match fw_metadata (fst vx_ended) with Some t => t | None => mk_tfm 0 [] 0 [] None None None None None end.
Definition vx_md : file_md := match read_metadata ex_file_meta Checked vx_file with Ok md => md | _ => mk_fmd 0 0 None [] None wx_schema None end.
Lemma vx_opened : written_and_opened wx_formats Checked wx_schema false [vx_group] None vx_file vx_md.
Proof.
  exists (mk_sink [] None), 2%Z, None, vx_written, (fst vx_ended), (nlen vx_file), vx_meta.
  split; [ reflexivity | ]. split.
  { apply history_ok with (w1 := vx_written); [ | apply history_nil ]. vm_compute. reflexivity. }
  split; [ vm_compute; reflexivity | ]. split; [ reflexivity | ]. split; [ vm_compute; reflexivity | ].
  split; [ vm_compute; reflexivity | ]. split; [ vm_compute; reflexivity | ]. split; [ | vm_compute; reflexivity ].
  apply (of_codec_reads_back c_file_meta). refine (of_codec_sound c_file_meta 0 (t_enc ex_file_meta vx_meta) vx_meta [] _). vm_compute. reflexivity.
Qed.
Lemma vx_stores : Forall2 (stores (KNative NI32) io_desc (Some [1; 7]%Z)) vx_pages vx_cells.
Proof.
  unfold vx_pages, vx_cells. constructor; [ | constructor; [ | constructor; [ | constructor ] ] ].
  - eapply stores_dictionary; [ reflexivity | | reflexivity ]. split; [ repeat (apply Forall_cons; [ vm_compute; split; [ discriminate | reflexivity ] | ]); apply Forall_nil | reflexivity ].
  - apply stores_positions with (entries := [1; 7]%Z) (positions := [0; 1]) (w := 1%nat) (bytes := [3; 2]); try reflexivity; [ discriminate | right; reflexivity | lia | repeat constructor | ].
    split; [ reflexivity | ]. split; [ reflexivity | ]. split; [ reflexivity | ]. split; [ reflexivity | ]. exists [3; 5]. vm_compute. repeat split.
  - apply stores_plain with (bytes := [255; 255; 255; 255]); [ reflexivity | | ].
    + split; [ apply Forall_cons; [ vm_compute; split; [ discriminate | reflexivity ] | apply Forall_nil ] | reflexivity ].
    + split; [ reflexivity | ]. split; [ reflexivity | ]. split; [ reflexivity | ]. split; [ reflexivity | ]. exists [3; 2]. vm_compute. repeat split.
Qed.
Example file_values_roundtrip_case :
  written_and_opened wx_formats Checked wx_schema false [vx_group] None vx_file vx_md /\ good_schema wx_schema /\ complete_groups wx_schema [vx_group] /\
  inverts toy /\ Forall says_compressed vx_pages /\
  comp_run toy Checked 4 (comp_new (map inl vx_pages) OSnappy [3; 3]) = Ok (map (fun cp => inl (Some cp)) vx_compressed ++ [inl None]) /\
  Forall (takes ex_header 100) vx_compressed /\ values_of vx_compressed = 5%Z /\
  option_map cd_descriptor (nth_error (sd_leaves wx_schema) 0) = Some io_desc /\ column_of (KNative NI32) io_desc /\
  Forall2 (stores (KNative NI32) io_desc (Some [1; 7]%Z)) vx_pages vx_cells /\ (forall init last, vx_cells = init ++ [last] -> last <> []).
Proof.
  split; [ exact vx_opened | ]. split; [ exact wx_good | ]. split.
  { split; [ repeat constructor | vm_compute; reflexivity ]. }
  split; [ exact toy_inverts | ]. split.
  { unfold vx_pages. repeat (apply Forall_cons; [ cbn; first [ exact I | discriminate ] | ]). apply Forall_nil. }
  split; [ vm_compute; reflexivity | ]. split.
  { unfold vx_compressed. repeat (apply Forall_cons; [ takes_ok | ]). apply Forall_nil. }
  split; [ reflexivity | ]. split; [ reflexivity | ]. split; [ reflexivity | ]. split; [ exact vx_stores | ].
  intros init last E. change vx_cells with ([[]; [Some 1; None; Some 7]%Z] ++ [[None; Some (-1)%Z]]) in E. apply app_inj_tail in E as [_ <-]. discriminate.
Qed.
