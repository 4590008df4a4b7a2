(** C136: pages that are copied from one file to another. *)
From Verif Require Import Base.Prelude Base.Iter Model.Types Model.Native Model.Thrift Model.Intervals Model.Page Model.Io Model.PageMeta Model.PageRead Model.Compression Model.Metadata Model.Schema Model.FileWrite
  Spec.PagesSpec Spec.ChunkSpec Spec.MetadataSpec Spec.FileSpec Spec.WritableSpec Spec.PlainSpec Spec.ValuesSpec Spec.NestedSpec Spec.ForeignSpec Spec.ForeignValuesSpec Spec.CopySpec
  Proofs.TypesFacts Proofs.PageIoProofs Proofs.FileWriteProofs Proofs.IndexReadProofs Proofs.EndToEndProofs Proofs.ForeignValuesProofs Proofs.CopyProofs Proofs.ThriftCodec
  Props.PageIo Props.Compression Props.FileWrite Props.Foreign Props.Writable Props.Nested Props.ForeignValues Props.ForeignFile.
Open Scope N_scope.

(** C136. Somebody iterates the pages of a column of any writer, without decompressing them, tells for each data page which rows it has, and writes the pages as a column of
    a new file, whose column has the same type and levels. Then that column of the new file gives the same entries. *)
Theorem copied_column_read : forall k T C m file c codec l dict entriess scratch max,
  located T file c codec l -> Forall (readable T max) l -> (values_of (map snd l) < 2 ^ 63)%Z ->
  column_of k (cd_descriptor (cmd_descr c)) -> Forall2 (page_holds_nested k C codec (cd_descriptor (cmd_descr c)) dict) (map snd l) entriess ->
  exists r r' read, get_page_iterator c file None scratch max = Ok r /\ runs (pr_next T m) r (map inl read) r' /\
  forall copied F schema stats gs kv file' md i g j leaf scratch' max',
    Forall2 rows_set read copied ->
    written_and_opened F m schema stats gs kv file' md -> good_schema schema -> complete_groups schema gs ->
    nth_error gs i = Some g -> nth_error g j = Some (inl (map inl copied)) -> nth_error (sd_leaves schema) j = Some leaf -> cd_descriptor leaf = cd_descriptor (cmd_descr c) ->
    Forall (fun p => nlen (cp_buffer p) <= max' /\ reads_back (f_header F) max' (header_of p)) copied ->
    exists rg c' r2 pages entriess',
      nth_error (fmd_row_groups md) i = Some rg /\ nth_error (rgm_columns rg) j = Some c' /\ get_page_iterator c' file' None scratch' max' = Ok r2 /\
      (forall caps buffer, length caps = S (length pages) ->
         dec_run C m (pr_iter (f_header F) m) caps (dec_new r2 buffer) = Ok (map (fun p => inl (Some p)) pages ++ [inl None])) /\
      Forall2 (fun p entries => forall got, decodes_nested k m dict p got <-> got = entries) pages entriess' /\
      concat entriess' = concat entriess.
Proof.
  intros k T C m file c codec l dict entriess scratch max Hl Hr Hv Hk Hh. set (d := cd_descriptor (cmd_descr c)) in *.
  destruct (chunk_reading T m file c codec l scratch max Hl Hr Hv) as (r & r' & n & Hg & Hn & Hruns & Hz). fold d in Hruns.
  exists r, r', (map (as_stored codec d) (firstn n (map snd l))). split; [exact Hg|]. split; [exact Hruns|].
  intros copied F schema stats gs kv file' md i g j leaf scratch' max' Hc Hw Hgs Hcg Ei Ej El Ed Hback.
  assert (Hps : Forall known_encodings (map snd l) /\ Forall (fun p => (0 <= values p < 2 ^ 31)%Z) (map snd l)).
  { clear - Hr. induction Hr as [|x l (_ & H1 & _ & _ & H2) _ [I1 I2]]; cbn [map]; split; constructor; assumption. }
  destruct Hps as [Henc Hvs]. destruct (Forall2_split _ n _ _ Hh) as [Hfirst Hrest].
  destruct (copies_kept codec d _ copied Hc ltac:(apply Forall_firstn; exact Henc) ltac:(apply Forall_firstn; exact Hvs)) as [Hkept Hvals].
  pose proof (copies_hold k C codec d dict _ _ copied Hfirst Hc) as Hhold.
  destruct (opened_exists _ _ _ _ _ _ _ _ _ _ _ _ Hw Hgs Hcg Ei El) as (rg & c' & Erg & Ec' & Ed').
  destruct (copy_located F m schema stats gs kv file' md i g rg j c' copied Hw Hgs Hcg Ei Erg Ej Ec') as (codec' & Hcodec & Hloc).
  assert (Hhold' : Forall2 (page_holds_nested k C codec' d dict) (map snd (map restored copied)) (firstn n entriess)).
  { destruct copied as [|q copied]; [inversion Hhold; constructor|]. replace codec' with codec; [exact Hhold|].
    rewrite <- (Forall_inv Hcodec). symmetry. apply (Forall_inv Hkept). }
  assert (Hd' : cd_descriptor (cmd_descr c') = d) by (rewrite Ed'; exact Ed).
  assert (Hsum : values_of (map snd l) = (values_of (firstn n (map snd l)) + values_of (skipn n (map snd l)))%Z).
  { rewrite <- (firstn_skipn n (map snd l)) at 1. apply values_of_app. }
  destruct (foreign_nested_column_read k (f_header F) C m file' c' codec' (map restored copied) dict (firstn n entriess) scratch' max' Hloc) as (r2 & pages & P1 & P2 & P3 & P4).
  - clear - Hkept Hback. induction Hkept as [|p copied (H1 & H2 & _) _ IH]; cbn [map]; [constructor|]. inversion Hback as [|? ? [B1 B2] B3]; subst. constructor; [|apply IH; exact B3].
    apply restored_readable; assumption.
  - rewrite restored_values, Hvals. lia.
  - rewrite Hd'. exact Hk.
  - rewrite Hd'. exact Hhold'.
  - exists rg, c', r2, pages, (firstn (length pages) (firstn n entriess)). repeat (split; [assumption|]). rewrite P4.
    rewrite <- (firstn_skipn n entriess) at 2. rewrite concat_app.
    rewrite (rest_empty _ _ _ (nested_no_values k C codec d dict) Hrest ltac:(apply Forall_skipn; exact Hvs) Hz). rewrite app_nil_r. reflexivity.
Qed.
Print Assumptions copied_column_read.

(** C136. If nobody tells the rows, the pages are not taken: the pages that the reader of any chunk returns have none, and a row group whose first column is made of
    them is refused if there is a data page among them. *)
Theorem copied_pages_refused : forall T F m file c codec l scratch max,
  located T file c codec l -> Forall (readable T max) l -> (values_of (map snd l) < 2 ^ 63)%Z ->
  exists r r' read, get_page_iterator c file None scratch max = Ok r /\ runs (pr_next T m) r (map inl read) r' /\
  forall w others, existsb is_data read = true -> sd_leaves (fw_schema w) <> [] -> sk_room (fw_sink w) = None ->
    counts_64 (schema_columns (fw_schema w) (inl (map inl read) :: others)) -> rows_64 (fw_schema w) (inl (map inl read) :: others) ->
    forall w', fw_write F m w (inl (map inl read) :: others) <> (w', Ok tt).
Proof.
  intros T F m file c codec l scratch max Hl Hr Hv.
  destruct (chunk_reading T m file c codec l scratch max Hl Hr Hv) as (r & r' & n & Hg & Hn & Hruns & _).
  set (read := map (as_stored codec (cd_descriptor (cmd_descr c))) (firstn n (map snd l))) in *. exists r, r', read. split; [exact Hg|]. split; [exact Hruns|].
  intros w others Hd Hs Hroom Hc64 Hr64 w' E. destruct (proj1 (write_accepted_exactly F m w _ Hroom Hc64 Hr64) (ex_intro _ w' E)) as [_ Ht].
  unfold schema_columns in Ht. destruct (sd_leaves (fw_schema w)) as [|leaf leaves]; [congruence|]. cbn [length firstn] in Ht. rewrite pages_of_map in Ht.
  apply existsb_exists in Hd as (p & Hin & Hp). unfold rows_told in Ht. rewrite Forall_forall in Ht. specialize (Ht p Hin). unfold read in Hin. apply in_map_iff in Hin as (x & <- & _).
  destruct x as [x|x]; [|discriminate Hp]. cbn [as_stored cdp_selected] in Ht. congruence.
Qed.
Print Assumptions copied_pages_refused.

(** The pages of the example of C133 are read, their rows are told, and they are written to a new file. *)
Definition cq_leaf := nth 0 (sd_leaves nx_schema) (mk_cdescr nx_desc [] (Primitive (d_primitive nx_desc))).
Definition cq_column := mk_cmd hx_chunk cq_leaf.
Definition cq_read : list compressed_page := map (as_stored Snappy nx_desc) (map snd hx_pages).
Definition cq_told (p : compressed_page) (n : N) : compressed_page := match p with CData x => CData (cdp_select_rows x [mk_iv 0 n]) | CDict x => CDict x end.
Definition cq_copied : list compressed_page := map (fun x => cq_told (fst x) (snd x)) (combine cq_read [0; 4; 1]).
Definition cq_group : row_group_iter := [inl (map inl cq_copied)].
Definition cq_new := fw_new (mk_sink [] None) nx_schema false 2 None.
Definition cq_written := fst (fw_write wx_formats Checked cq_new cq_group).
Definition cq_ended : file_writer * res N := fw_end wx_formats Checked cq_written None.
Definition cq_file : list N := sk_data (fw_sink (fst cq_ended)).
Definition cq_meta : t_file_meta := match fw_metadata (fst cq_ended) with Some t => t | None => mk_tfm 0 [] 0 [] None None None None None end.
Definition cq_md : file_md := match read_metadata ex_file_meta Checked cq_file with Ok md => md | _ => mk_fmd 0 0 None [] None nx_schema None end.
Lemma cq_opened : written_and_opened wx_formats Checked nx_schema false [cq_group] None cq_file cq_md.
Proof.
  exists (mk_sink [] None), 2%Z, None, cq_written, (fst cq_ended), (nlen cq_file), cq_meta.
  split; [ reflexivity | ]. split.
  { apply history_ok with (w1 := cq_written); [ | apply history_nil ]. vm_compute. reflexivity. }
  split; [ vm_compute; reflexivity | ]. split; [ reflexivity | ]. split; [ vm_compute; reflexivity | ].
  split; [ vm_compute; reflexivity | ]. split; [ vm_compute; reflexivity | ]. split; [ | vm_compute; reflexivity ].
  apply (of_codec_reads_back c_file_meta). refine (of_codec_sound c_file_meta 0 (t_enc ex_file_meta cq_meta) cq_meta [] _). vm_compute. reflexivity.
Qed.
Example copied_column_read_case :
  located ex_header hx_file cq_column Snappy hx_pages /\ Forall (readable ex_header 100) hx_pages /\
  Forall2 (page_holds_nested (KNative NI32) toy Snappy nx_desc (Some hx_words)) (map snd hx_pages) nx_entries /\
  match get_page_iterator cq_column hx_file None [] 100 with
  | Ok r => exists r', runs (pr_next ex_header Checked) r (map inl cq_read) r'
  | _ => False
  end /\
  (* without the rows *)
  existsb is_data cq_read = true /\ snd (fw_write wx_formats Checked cq_new [inl (map inl cq_read)]) = Err OutOfSpec /\
  (* with the rows *)
  Forall2 rows_set cq_read cq_copied /\ written_and_opened wx_formats Checked nx_schema false [cq_group] None cq_file cq_md /\ good_schema nx_schema /\ complete_groups nx_schema [cq_group] /\
  nth_error (sd_leaves nx_schema) 0 = Some cq_leaf /\ cd_descriptor cq_leaf = nx_desc /\ fmd_num_rows cq_md = 5 /\
  Forall (fun p => nlen (cp_buffer p) <= 100 /\ reads_back ex_header 100 (header_of p)) cq_copied.
Proof.
  destruct foreign_file_read_case as (_ & _ & _ & _ & _ & (leaf & El & _ & Hl) & Hr & Hh).
  assert (leaf = cq_leaf) as -> by (unfold cq_leaf; apply nth_error_nth with (d := mk_cdescr nx_desc [] (Primitive (d_primitive nx_desc))) in El; congruence).
  split; [exact Hl|]. split; [exact Hr|]. split; [exact Hh|]. split.
  { match goal with |- match ?e with _ => _ end => let e' := eval vm_compute in e in change e with e' end. cbv beta iota. eexists. repeat (eapply runs_cons; [vm_compute; reflexivity|]). apply runs_nil. vm_compute. reflexivity. }
  split; [reflexivity|]. split; [vm_compute; reflexivity|]. split.
  { repeat constructor; try (eexists; reflexivity). }
  split; [exact cq_opened|]. split; [exact nx_good|]. split; [split; [repeat constructor|vm_compute; reflexivity]|]. split; [reflexivity|]. split; [reflexivity|]. split; [vm_compute; reflexivity|].
  repeat apply Forall_cons; try apply Forall_nil; (split; [vm_compute; discriminate|codec_ok]).
Qed.
