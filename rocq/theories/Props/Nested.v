(** C123: columns of any nesting, from the writer to the page iterators. *)
From Verif Require Import Base.Prelude Base.Iter Base.Codec Base.LeFacts Model.Types Model.Native Model.Thrift Model.Intervals Model.HybridRle Model.Plain Model.Page Model.Io Model.Statistics
  Model.PageWrite Model.Compression Model.ColumnWrite Model.Schema Model.PageRead Model.Metadata Model.FileWrite Model.Deserialize Spec.Bits Spec.UlebSpec Spec.RleSpec Spec.PagesSpec Spec.ChunkSpec
  Spec.PageSpec Spec.SchemaSpec Spec.CompressionSpec Spec.MetadataSpec Spec.FileSpec Spec.ValuesSpec Spec.NestedSpec
  Proofs.TypesFacts Proofs.PageIoProofs Proofs.CompressionProofs Proofs.SchemaProofs Proofs.FileWriteProofs Proofs.ThriftCodec Proofs.EndToEndProofs Proofs.NestedProofs
  Props.PageIo Props.FileWrite Props.Compression Props.EndToEnd.
Open Scope N_scope.

Lemma compress_nested_values C m p o cp k d dict entries T max : compress C m p [] o = Ok cp -> takes T max cp -> stores_nested k d dict p entries -> entries <> [] -> (0 < values cp)%Z.
Proof.
  intros Hc (_ & _ & _ & _ & Hr) Hs Hne. destruct p as [p|p]; [ | inversion Hs; subst; congruence ].
  assert (Hn : dp_num_values p = nlen entries) by (inversion Hs as [? ? ? ? ? (_ & _ & _ & _ & Hn & _)|? ? ? ? ? ? ? ? ? ? ? (_ & _ & _ & _ & Hn & _)|]; subst; exact Hn).
  unfold compress, compress_data in Hc. set (o' := match o with OUncompressed => _ | _ => _ end) in Hc. destruct o' as [y| |]; cbn [bind rmap] in Hc; try discriminate Hc. apply Ok_inj in Hc. subst cp.
  unfold dp_num_values, header_num_values in Hn. cbn [values cdp_header] in *. assert (0 < nlen entries) by (destruct entries; [ congruence | unfold nlen; cbn [length]; lia ]).
  destruct (dp_header p); rewrite as_usize_nonneg in Hn by lia; lia.
Qed.

(** C123. The entries of a column of any nesting, stored in pages as the format says, compressed and written, come back from the file: the levels and
    values that the reader hands out for each page make the entries that were stored in it. *)
Theorem file_nested_roundtrip k F C m schema stats gs kv file md i g j leaf dict ps entriess o b0 cps scratch max :
  written_and_opened F m schema stats gs kv file md -> good_schema schema -> complete_groups schema gs -> inverts C ->
  nth_error gs i = Some g -> nth_error (sd_leaves schema) j = Some leaf -> nth_error g j = Some (inl (map inl cps)) ->
  comp_run C m (S (length ps)) (comp_new (map inl ps) o b0) = Ok (map (fun cp => inl (Some cp)) cps ++ [inl None]) ->
  (o <> OUncompressed -> Forall says_compressed ps) -> Forall (takes (f_header F) max) cps -> (values_of cps < 2 ^ 63)%Z ->
  column_of k (cd_descriptor leaf) -> Forall2 (stores_nested k (cd_descriptor leaf) dict) ps entriess ->
  (forall init last, entriess = init ++ [last] -> last <> []) ->
  exists rg c r pages,
    nth_error (fmd_row_groups md) i = Some rg /\ nth_error (rgm_columns rg) j = Some c /\ cmd_descr c = leaf /\
    get_page_iterator c file None scratch max = Ok r /\
    (forall caps buffer, length caps = S (length ps) ->
       dec_run C m (pr_iter (f_header F) m) caps (dec_new r buffer) = Ok (map (fun p => inl (Some p)) pages ++ [inl None])) /\
    Forall2 (decodes_nested k m dict) pages entriess.
Proof.
  intros H Hg Hc HC Eg Ej Egj Hcomp Hsay Htakes Hv Hk Hst Hlast.
  destruct (file_pages_roundtrip F C m schema stats gs kv file md i g j leaf ps o b0 cps scratch max H Hg Hc HC Eg Ej Egj Hcomp Hsay Htakes Hv)
    as (rg & c & r & n & Erg & Ec & Ed & Er & Hrun & _ & Hall).
  exists rg, c, r, (map (page_as_read (cd_descriptor leaf)) ps). refine (conj Erg (conj Ec (conj Ed (conj Er (conj _ _))))).
  - assert (Hn : firstn n ps = ps).
    { destruct ps as [|p0 ps0]; [ destruct n; reflexivity | ]. destruct (exists_last (l := p0 :: ps0) ltac:(discriminate)) as (init & last & E). rewrite E in *. clear E p0 ps0.
      pose proof (compressor_pages _ _ _ _ _ _ Hcomp) as Hps.
      apply Forall2_app_inv_l in Hps as (cinit & cl & Hci & Hcl & ->). inversion Hcl as [|? clast ? ? Hcl1 Hcl2]; subst. inversion Hcl2; subst.
      apply Forall2_app_inv_l in Hst as (sinit & sl & Hsi & Hsl & Esl). inversion Hsl as [|? slast ? ? Hsl1 Hsl2]; subst. inversion Hsl2; subst.
      apply (Hall cinit clast eq_refl). apply Forall_app in Htakes as [_ Ht]. eapply compress_nested_values; [ exact Hcl1 | exact (Forall_inv Ht) | exact Hsl1 | ].
      apply (Hlast sinit slast eq_refl). }
    intros caps buffer Hcaps. rewrite Hn in Hrun. rewrite (Hrun caps buffer Hcaps). rewrite map_map. reflexivity.
  - clear - Hst Hk. induction Hst; cbn [map]; constructor; [ eapply nested_decodes; eassumption | assumption ].
Qed.
Print Assumptions file_nested_roundtrip.

(** C123. A page cannot be read as two different lists of entries. *)
Theorem nested_decoding_unique k m dict p e1 e2 : decodes_nested k m dict p e1 -> decodes_nested k m dict p e2 -> e1 = e2.
Proof. apply decodes_nested_fun. Qed.
Print Assumptions nested_decoding_unique.

(** A column of optional lists of 32-bit integers: a dictionary, then a page of version 1 with [1; 7], null, [], [7] as positions in it, and one of version 2
    with [-1; 1] as plain values, whose definition levels are one run of RLE. *)
Definition nx_desc := mk_descr (mk_prim (mk_fi [101] Repeated None) None None Int32) 2 1.
Definition nx_fields := [Group (mk_fi [108] Optional None) None None [Primitive (d_primitive nx_desc)]].
Definition nx_schema := mk_sd [114] nx_fields (columns_of nx_fields).
Definition nx_pages : list page :=
  [PDict (mk_dict [1; 0; 0; 0; 7; 0; 0; 0] 2 true);
   PData (mk_dp (HV1 (mk_tdh 5 8 3 3 None)) [2; 0; 0; 0; 3; 2; 3; 0; 0; 0; 3; 74; 2; 1; 3; 6] nx_desc (Some [mk_iv 0 4]));
   PData (mk_dp (HV2 (mk_tdh2 2 0 1 0 2 2 (Some true) None)) [3; 2; 4; 2; 255; 255; 255; 255; 1; 0; 0; 0] nx_desc (Some [mk_iv 0 1]))].
Definition nx_entries : list (list (entry Z)) :=
  [[]; [mk_entry 0 2 (Some 1%Z); mk_entry 1 2 (Some 7%Z); mk_entry 0 0 None; mk_entry 0 1 None; mk_entry 0 2 (Some 7%Z)]; [mk_entry 0 2 (Some (-1)%Z); mk_entry 1 2 (Some 1%Z)]].
Definition nx_compressed : list compressed_page :=
  [CDict (mk_cdict [1; 0; 0; 0; 7; 0; 0; 0; 0] Snappy 2 8 true);
   CData (mk_cdp (HV1 (mk_tdh 5 8 3 3 None)) [2; 0; 0; 0; 3; 2; 3; 0; 0; 0; 3; 74; 2; 1; 3; 6; 0] Snappy 16 nx_desc (Some [mk_iv 0 4]));
   CData (mk_cdp (HV2 (mk_tdh2 2 0 1 0 2 2 (Some true) None)) [3; 2; 4; 2; 255; 255; 255; 255; 1; 0; 0; 0; 0] Snappy 12 nx_desc (Some [mk_iv 0 1]))].
Definition nx_group : row_group_iter := [inl (map inl nx_compressed)].
Definition nx_written := fst (fw_write wx_formats Checked (fw_new (mk_sink [] None) nx_schema false 2 None) nx_group).
Definition nx_ended : file_writer * res N := fw_end wx_formats Checked nx_written None.
Definition nx_file : list N := sk_data (fw_sink (fst nx_ended)).
Definition nx_meta : t_file_meta := match fw_metadata (fst nx_ended) with Some t => t | None => mk_tfm 0 [] 0 [] None None None None None end.
Definition nx_md : file_md := match read_metadata ex_file_meta Checked nx_file with Ok md => md | _ => mk_fmd 0 0 None [] None nx_schema None end.
Lemma nx_opened : written_and_opened wx_formats Checked nx_schema false [nx_group] None nx_file nx_md.
Proof.
  exists (mk_sink [] None), 2%Z, None, nx_written, (fst nx_ended), (nlen nx_file), nx_meta.
  split; [ reflexivity | ]. split.
  { apply history_ok with (w1 := nx_written); [ | apply history_nil ]. vm_compute. reflexivity. }
  split; [ vm_compute; reflexivity | ]. split; [ reflexivity | ]. split; [ vm_compute; reflexivity | ].
  split; [ vm_compute; reflexivity | ]. split; [ vm_compute; reflexivity | ]. split; [ | vm_compute; reflexivity ].
  apply (of_codec_reads_back c_file_meta). refine (of_codec_sound c_file_meta 0 (t_enc ex_file_meta nx_meta) nx_meta [] _). vm_compute. reflexivity.
Qed.
Lemma nx_good : good_schema nx_schema.
Proof.
  unfold good_schema, nx_schema, nx_fields. cbn [sd_fields sd_leaves].
  refine (conj _ (conj _ (conj _ (conj _ (conj _ _))))); [ discriminate | reflexivity | | reflexivity | | ].
  - repeat constructor.
  - intros f u Hf Hw. destruct Hf as [<-|[]]. inversion Hw as [|? ? ? ? ? ? Hin Hw']; subst; [ reflexivity | ]. destruct Hin as [<-|[]]. inversion Hw'; subst. split; [ reflexivity | repeat constructor ].
  - intros f i l c fs Hf Hw. destruct Hf as [<-|[]]. inversion Hw as [|? ? ? ? ? ? Hin Hw']; subst; [ discriminate | ]. destruct Hin as [<-|[]]. inversion Hw'.
Qed.
Ltac entries_ok := repeat (apply Forall_cons; [ split; [ cbn; lia | ]; split; [ cbn; lia | ]; cbn; split; intros; first [ discriminate | congruence | lia ] | ]); apply Forall_nil.
Lemma nx_stores : Forall2 (stores_nested (KNative NI32) nx_desc (Some [1; 7]%Z)) nx_pages nx_entries.
Proof.
  unfold nx_pages, nx_entries. constructor; [ | constructor; [ | constructor; [ | constructor ] ] ].
  - eapply nested_dictionary; [ reflexivity | | reflexivity ]. split; [ repeat (apply Forall_cons; [ vm_compute; split; [ discriminate | reflexivity ] | ]); apply Forall_nil | reflexivity ].
  - apply nested_positions with (words := [1; 7]%Z) (positions := [0; 1; 1]) (w := 1%nat) (bytes := [3; 6]); try reflexivity; [ discriminate | right; reflexivity | split; [ lia | split; [ repeat constructor | right; reflexivity ] ] | ].
    split; [ reflexivity | ]. split; [ cbn; lia | ]. split; [ cbn; lia | ]. split; [ entries_ok | ]. split; [ reflexivity | ]. split; [ reflexivity | ].
    exists [3; 2], [3; 74; 2]. split; [ vm_compute; repeat split | ]. split; left; vm_compute; reflexivity.
  - apply nested_plain with (bytes := [255; 255; 255; 255; 1; 0; 0; 0]); [ reflexivity | | ].
    + split; [ repeat (apply Forall_cons; [ vm_compute; split; [ discriminate | reflexivity ] | ]); apply Forall_nil | reflexivity ].
    + split; [ reflexivity | ]. split; [ cbn; lia | ]. split; [ cbn; lia | ]. split; [ entries_ok | ]. split; [ reflexivity | ]. split; [ reflexivity | ].
      exists [3; 2], [4; 2]. split; [ vm_compute; repeat split | ]. split; [ left; vm_compute; reflexivity | right ].
      exists [RleRun 2 2], []. split; [ | reflexivity ]. change [4; 2] with ([4] ++ [2] ++ []). apply conf_rle; [ | reflexivity | repeat constructor | reflexivity | reflexivity | constructor ].
      split; [ reflexivity | ]. split; [ cbn; lia | ]. split; [ reflexivity | ]. exists [], 4. repeat split. constructor.
Qed.
Example file_nested_roundtrip_case :
  written_and_opened wx_formats Checked nx_schema false [nx_group] None nx_file nx_md /\ good_schema nx_schema /\ complete_groups nx_schema [nx_group] /\
  inverts toy /\ Forall says_compressed nx_pages /\
  comp_run toy Checked 4 (comp_new (map inl nx_pages) OSnappy [3; 3]) = Ok (map (fun cp => inl (Some cp)) nx_compressed ++ [inl None]) /\
  Forall (takes ex_header 100) nx_compressed /\ values_of nx_compressed = 7%Z /\
  option_map cd_descriptor (nth_error (sd_leaves nx_schema) 0) = Some nx_desc /\ column_of (KNative NI32) nx_desc /\
  Forall2 (stores_nested (KNative NI32) nx_desc (Some [1; 7]%Z)) nx_pages nx_entries /\ (forall init last, nx_entries = init ++ [last] -> last <> []).
Proof.
  split; [ exact nx_opened | ]. split; [ exact nx_good | ]. split.
  { split; [ repeat constructor | vm_compute; reflexivity ]. }
  split; [ exact toy_inverts | ]. split.
  { unfold nx_pages. repeat (apply Forall_cons; [ cbn; first [ exact I | discriminate ] | ]). apply Forall_nil. }
  split; [ vm_compute; reflexivity | ]. split.
  { unfold nx_compressed. repeat (apply Forall_cons; [ takes_ok | ]). apply Forall_nil. }
  split; [ reflexivity | ]. split; [ reflexivity | ]. split; [ reflexivity | ]. split; [ exact nx_stores | ].
  intros init last E. unfold nx_entries in E. match type of E with [?a; ?b; ?c] = _ => change [a; b; c] with ([a; b] ++ [c]) in E end. apply app_inj_tail in E as [_ <-]. discriminate.
Qed.

Example nested_decoding_unique_case : Forall2 (decodes_nested (KNative NI32) Checked (Some [1; 7]%Z)) (map (page_as_read nx_desc) nx_pages) nx_entries.
Proof. pose proof nx_stores as H. induction H; constructor; [eapply nested_decodes; [reflexivity|eassumption]|assumption]. Qed.
