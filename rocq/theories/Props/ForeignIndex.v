(** C134: rows selected from a column of any writer through its offset index. *)
From Verif Require Import Base.Prelude Base.Iter Model.Types Model.Native Model.Thrift Model.Intervals Model.Page Model.Io Model.Compression Model.BasicDecompress Model.PageRead Model.Metadata
  Model.Indexes Spec.Bits Spec.UlebSpec Spec.RleSpec Spec.FileSpec Spec.RowsSpec Spec.PagesSpec Spec.ForeignSpec Spec.CompressionSpec Spec.PlainSpec Spec.LevelsSpec Spec.ValuesSpec Spec.SelectedSpec Spec.RunsSpec
  Spec.ForeignValuesSpec Spec.ForeignIndexSpec
  Proofs.TypesFacts Proofs.PageIoProofs Proofs.ForeignProofs Proofs.SelectedProofs Proofs.ForeignValuesProofs Proofs.ForeignIndexProofs Proofs.ThriftCodec
  Props.Intervals Props.Compression Props.PageIo Props.Runs Props.ForeignValues.
Open Scope N_scope.

(** C134. A column of any writer has an offset index that lists its data pages, which may lie anywhere in the file, and maybe a dictionary before the first of them.
    Somebody reads the offset index, selects pages for some rows, reads these pages only, decompresses them and follows the filtered runs of each page for the rows that
    were selected in it. They get, over all pages, exactly the cells of the rows that they asked for, in order, and could get nothing else. *)
Theorem foreign_selected_read : forall k T O C m file c codec dictionary pages cellss dict locs intervals,
  indexed_column T O file c codec dictionary pages cellss locs ->
  Forall (header_readable T) pages -> (forall x, dictionary = Some x -> header_readable T x /\ is_data (snd x) = false /\ page_holds k C codec (cd_descriptor (cmd_descr c)) dict (snd x) []) ->
  column_of k (cd_descriptor (cmd_descr c)) -> Forall2 (page_holds k C codec (cd_descriptor (cmd_descr c)) dict) (map snd pages) cellss ->
  nlen (concat cellss) < 2 ^ 63 -> sorted_disjoint intervals -> Forall non_empty intervals -> Forall iv_ok intervals ->
  exists sel r ps selected,
    read_pages_locations O file [c] = Ok [locs] /\ select_pages m intervals locs (nlen (concat cellss)) = Ok sel /\ indexed_reader_new file c sel = Ok r /\
    (forall buffers, length buffers = S (length ps) -> bd_run C m (ir_next T m) buffers r = Ok (map (fun p => inl (Some p)) ps ++ [inl None])) /\
    Forall2 (selection_reads k m dict) ps selected /\ concat selected = pick (concat cellss) (rows_of intervals).
Proof.
  intros k T O C m file c codec dictionary pages cellss dict locs intervals (meta & start & before & after & Em & Hs & Eo & Ec & Hbeg & Hl & Ei & En & Ef & Hback) Hh Hdict Hk Hp Hn Hsd Hne Hiv.
  set (d := cd_descriptor (cmd_descr c)) in *.
  destruct (selection_of_listed T file m pages cellss locs intervals Hl Hn Hsd Hne Hiv) as (sel & Es & S1 & S2 & S3).
  assert (Hd : Forall (fun x => is_data (snd x) = true) pages).
  { destruct (listed_rows _ _ _ _ _ _ Hl) as (_ & _ & _ & _ & _ & _ & Hc). clear - Hp Hc. revert cellss Hp Hc. induction pages as [|x pages IH]; intros cellss Hp Hc; inversion Hp as [|? cells ? cellss' (body & _ & H1) H2]; subst; constructor.
    - destruct (snd x); [reflexivity|]. exfalso. exact (Forall_inv Hc (proj1 H1)).
    - apply (IH cellss' H2 (Forall_inv_tail Hc)). }
  assert (Hdict' : forall x, dictionary = Some x -> header_readable T x /\ is_data (snd x) = false) by (intros x Ex; destruct (Hdict x Ex) as (H1 & H2 & _); split; assumption).
  destruct (indexed_runs T m file start codec d dictionary pages cellss locs sel Hl Hbeg Hh Hd Hdict' S1) as (r' & Hr).
  destruct (chosen_reads k C m codec d dict Hk (fun p cells w Hh Hw got => any_layout_read k m d dict p cells w Hk Hh Hw got) pages cellss Hp Hd sel S2) as (ps & selected & P1 & P2 & P3).
  assert (Hfirst : exists ds, Forall2 (fun cp p => forall cap b, decompress C m cap cp b = Ok p) (match pages, dictionary with _ :: _, Some x => [as_stored codec d (snd x)] | _, _ => [] end) ds /\
            Forall2 (selection_reads k m dict) ds (map (fun _ => []) ds)).
  { destruct pages as [|x0 pages0]; [exists []; split; constructor|]. destruct dictionary as [x|]; [|exists []; split; constructor].
    destruct (Hdict x eq_refl) as (_ & Hx & body & Hb & Hc). exists [create_page (as_stored codec d (snd x)) body]. split.
    - constructor; [|constructor]. intros cap b. apply packed_decompress. exact Hb.
    - constructor; [|constructor]. destruct (snd x) as [q|q]; [discriminate Hx|]. exact Hc. }
  destruct Hfirst as (ds & D1 & D2).
  exists sel, (ir_new file start codec d sel), (ds ++ ps), (map (fun _ => []) ds ++ selected).
  split; [|split; [exact Es|split; [|split; [|split]]]].
  - unfold read_pages_locations, prepare_read. rewrite Ei, try_usize_of. cbn [bind map collect_res]. rewrite En, try_usize_of. cbn [bind total fold_right]. rewrite N.add_0_r, Ef, read_at_app.
    cbn [length decode_locations]. rewrite <- (app_nil_r (t_enc O locs)) at 2. rewrite (proj2 Hback). reflexivity.
  - unfold indexed_reader_new, byte_range, cmd_compression, cmd_meta. rewrite Em. cbn [bind]. rewrite Ec.
    replace (match cm_dictionary_page_offset meta with Some o => as_usize o | None => as_usize (cm_data_page_offset meta) end) with start; [reflexivity|].
    assert (U : as_usize (Z.of_N start) = start). { change (2 ^ 63) with 9223372036854775808 in Hs. unfold as_usize, of_signed. change (2 ^ Z.of_N 64)%Z with 18446744073709551616%Z. rewrite Z.mod_small by lia. apply N2Z.id. }
    rewrite <- U, <- Eo. destruct (cm_dictionary_page_offset meta); reflexivity.
  - intros buffers Hb. eapply (bd_run_runs C m); [|exact Hr|exact Hb]. apply Forall2_app; assumption.
  - apply Forall2_app; assumption.
  - rewrite concat_app. replace (concat (map (fun _ : page => []) ds)) with (@nil (option (value k))) by (clear; induction ds as [|x l IH]; [reflexivity|exact IH]). cbn [app]. rewrite P3.
    rewrite <- (pick_below (concat cellss) (rows_of intervals)), <- S3. symmetry. rewrite <- map_map with (f := fp_selected) (g := rows_of) in *.
    apply (pick_pages cellss []). rewrite map_map. clear - S2. induction S2 as [|cells f cellss sel (H1 & H2 & H3) _ IH]; cbn [map]; constructor; [|exact IH].
    apply Forall_forall. intros r Hr. unfold rows_of in Hr. apply in_concat in Hr as (l & Hl & Hr). apply in_map_iff in Hl as (i & <- & Hi). rewrite Forall_forall in H3. specialize (H3 i Hi). unfold rows in Hr. apply in_seq in Hr. lia.
Qed.
Print Assumptions foreign_selected_read.

(** The pages of the example of C132 with an offset index after them, of which the rows 1 and 3 to 6 are asked for. *)
Definition kx_dict := nth 0 gx_pages (mk_tph 0 0 0 None None None None None, CDict (mk_cdict [] Snappy 0 0 false)).
Definition kx_pages := skipn 1 gx_pages.
Definition kx_start (n : nat) : Z := Z.of_N (nlen ([80; 65; 82; 49] ++ stored_chunk ex_header (firstn n gx_pages))).
Definition kx_size (n : nat) : Z := Z.of_N (nlen (stored_bytes ex_header (nth n gx_pages kx_dict))).
Definition kx_locs := [mk_loc (kx_start 1) (kx_size 1) 0; mk_loc (kx_start 2) (kx_size 2) 5].
Definition kx_before := [80; 65; 82; 49] ++ stored_chunk ex_header gx_pages ++ [7; 7].
Definition kx_file := kx_before ++ t_enc ex_offset_index kx_locs ++ [80; 65; 82; 49].
Definition kx_column := mk_cmd (mk_tcc None 0 (Some (mk_tcm 1 [] [[97]] 1 10 5 5 None 40 None (Some 4%Z) None None None)) (Some (Z.of_N (nlen kx_before))) (Some (Z.of_N (nlen (t_enc ex_offset_index kx_locs)))) None None None None)
  (mk_cdescr ux_desc [[97]] (Primitive (d_primitive ux_desc))).
Example foreign_selected_read_case :
  indexed_column ex_header ex_offset_index kx_file kx_column Snappy (Some kx_dict) kx_pages (skipn 1 gx_cells) kx_locs /\
  Forall (header_readable ex_header) kx_pages /\ header_readable ex_header kx_dict /\ page_holds (KNative NI32) toy Snappy ux_desc (Some [5; 7]%Z) (snd kx_dict) [] /\
  Forall2 (page_holds (KNative NI32) toy Snappy ux_desc (Some [5; 7]%Z)) (map snd kx_pages) (skipn 1 gx_cells) /\
  sorted_disjoint [mk_iv 1 1; mk_iv 3 4] /\ pick (concat (skipn 1 gx_cells)) (rows_of [mk_iv 1 1; mk_iv 3 4]) = [Some 7; None; None; Some 1; Some 2]%Z /\
  read_pages_locations ex_offset_index kx_file [kx_column] = Ok [kx_locs] /\
  match select_pages Checked [mk_iv 1 1; mk_iv 3 4] kx_locs 10 with
  | Ok sel => map fp_selected sel = [[mk_iv 1 1; mk_iv 3 2]; [mk_iv 0 2]] /\
      match indexed_reader_new kx_file kx_column sel with
      | Ok r => bd_run toy Checked (ir_next ex_header Checked) [(0, []); (50, [9]); (3, []); (9, [1; 2])] r =
          Ok [inl (Some (PDict (mk_dict gx_entries 2 false))); inl (Some (PData (mk_dp (HV1 (mk_tdh 5 8 3 3 None)) gx_positions ux_desc (Some [mk_iv 1 1; mk_iv 3 2]))));
              inl (Some (PData (mk_dp (HV2 gx_v2) gx_plain ux_desc (Some [mk_iv 0 2])))); inl None]
      | _ => False
      end
  | _ => False
  end.
Proof.
  split; [|split; [|split; [|split; [|split; [|split; [|split; [reflexivity|split; [vm_compute; reflexivity|vm_compute; split; reflexivity]]]]]]]].
  - eexists _, 4, kx_before, [80; 65; 82; 49]. repeat (split; [reflexivity|]). split; [|split; [|split; [reflexivity|split; [reflexivity|split; [reflexivity|]]]]].
    + split; [reflexivity|]. exists [80; 65; 82; 49]. eexists. split; [unfold kx_file, kx_before; vm_compute; reflexivity|reflexivity].
    + apply (listed_cons ex_header kx_file 0 _ _ _ _ _ ([80; 65; 82; 49] ++ stored_chunk ex_header (firstn 1 gx_pages)) (stored_chunk ex_header (skipn 2 gx_pages) ++ [7; 7] ++ t_enc ex_offset_index kx_locs ++ [80; 65; 82; 49])); [vm_compute; reflexivity|discriminate|].
      apply (listed_cons ex_header kx_file 5 _ _ _ _ _ ([80; 65; 82; 49] ++ stored_chunk ex_header (firstn 2 gx_pages)) ([7; 7] ++ t_enc ex_offset_index kx_locs ++ [80; 65; 82; 49])); [vm_compute; reflexivity|discriminate|]. apply listed_nil.
    + apply (of_codec_reads_back c_offset_index). refine (of_codec_sound c_offset_index 0 (t_enc ex_offset_index kx_locs) kx_locs [] _). vm_compute. reflexivity.
  - repeat apply Forall_cons; [| |apply Forall_nil]; (split; [|codec_ok]); cbn; repeat split.
  - split; [|codec_ok]. cbn. repeat split. eexists. repeat split; discriminate.
  - pose proof gx_holds as H. inversion H; subst. assumption.
  - pose proof gx_holds as H. inversion H; subst. assumption.
  - cbn. lia.
Qed.
