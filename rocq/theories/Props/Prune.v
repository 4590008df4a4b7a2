(** C125: skipping pages by the bounds in the column index. *)
From Verif Require Import Base.Prelude Base.Iter Base.Codec Base.LeFacts Model.Types Model.Native Model.Thrift Model.Intervals Model.Page Model.Io Model.Statistics Model.PageWrite
  Model.Compression Model.BasicDecompress Model.ColumnWrite Model.Schema Model.PageRead Model.Metadata Model.Indexes Model.FileWrite Spec.RowsSpec Spec.StatsSpec Spec.PagesSpec Spec.ChunkSpec
  Spec.LevelsSpec Spec.SelectSpec Spec.SchemaSpec Spec.CompressionSpec Spec.MetadataSpec Spec.FileSpec Spec.ValuesSpec Spec.SelectedSpec Spec.PruneSpec
  Proofs.TypesFacts Proofs.PageIoProofs Proofs.CompressionProofs Proofs.SchemaProofs Proofs.FileWriteProofs Proofs.IndexProofs Proofs.IndexReadProofs Proofs.ThriftCodec Proofs.EndToEndProofs
  Proofs.ValuesProofs Proofs.SelectedProofs Proofs.PruneProofs
  Props.PageIo Props.FileWrite Props.Compression Props.Indexes Props.EndToEnd Props.Intervals Props.Select Props.Selected.
Open Scope N_scope.

Lemma slice_one {A} (l : list A) : forall j a, nth_error l j = Some a -> slice j 1 l = [a].
Proof.
  unfold slice. induction l as [|x l IH]; intros [|j] a E; try discriminate; [injection E as ->; reflexivity|]. cbn [nth_error skipn] in *. apply IH. exact E.
Qed.
Lemma schema_column schema g j (c : pages_iter + error) : nth_error g j = Some c -> (j < length (sd_leaves schema))%nat -> nth_error (schema_columns schema g) j = Some c.
Proof.
  unfold schema_columns. revert j g. induction (sd_leaves schema) as [|x l IH]; intros [|j] [|y g] E Hj; cbn [length firstn nth_error] in *; try discriminate; try lia; [exact E|].
  apply IH; [exact E|lia].
Qed.

(** C125. In a file that was written with indexes and opened, somebody looks for the rows whose cell in a column meets [wanted]. They read the index and the page
    locations of that column, keep the pages whose bounds pass the test [keep] (which passes all bounds within which a wanted value can lie), and ask for the rows
    of these pages. If the statistics of the pages are true, they get exactly the rows of the pages they kept, as intervals with which pages can be selected; and
    each row that they look for is among them. *)
Theorem index_keeps_wanted_rows k F m schema gs kv file md i g rg j c cds cps cellss truth (keep : option (value k) * option (value k) -> bool) (wanted : value k -> Prop) :
  written_and_opened F m schema true gs kv file md -> good_schema schema -> complete_groups schema gs ->
  nth_error gs i = Some g -> nth_error (fmd_row_groups md) i = Some rg ->
  nth_error g j = Some (inl (map inl (cds ++ cps))) -> nth_error (rgm_columns rg) j = Some c ->
  Forall (fun p => is_data p = false) cds -> Forall2 (truly_described k truth) cps cellss -> cellss <> [] -> nlen (concat cellss) < 2 ^ 63 ->
  (forall x, In x (combine (sd_leaves schema) g) -> Forall (page_of_type (d_primitive (cd_descriptor (fst x)))) (data_pages (pages_of_column (snd x))) /\
     forall l, Forall2 (fun d s => cdp_statistics d = Ok (Some s)) (data_pages (pages_of_column (snd x))) l ->
       nlen (t_enc (f_index F) (index_struct l)) < 2 ^ 31 /\ reads_back (f_index F) (2 * nlen (t_enc (f_index F) (index_struct l)) + 1024) (index_struct l)) ->
  let locs := chunk_locations F (inl (map inl (cds ++ cps))) (cmd_chunk c) in
  nlen (t_enc (f_offsets F) locs) < 2 ^ 31 ->
  (forall max, 2 * nlen (t_enc (f_offsets F) locs) + 1024 <= max -> reads_back (f_offsets F) max locs) ->
  (forall b v, truth b v -> wanted v -> keep b = true) ->
  exists ix bounds intervals,
    read_columns_indexes (f_index F) file [c] = Ok [ix] /\ bounds_found k ix bounds /\ length bounds = length cellss /\
    read_pages_locations (f_offsets F) file [c] = Ok [locs] /\
    compute_rows (map keep bounds) locs (nlen (concat cellss)) = Ok intervals /\
    sorted_disjoint intervals /\ Forall non_empty intervals /\ Forall iv_ok intervals /\
    rows_of intervals = rows_kept 0 (map keep bounds) (map (@length _) cellss) /\
    (forall r v, nth_error (concat cellss) r = Some (Some v) -> wanted v -> In r (rows_of intervals)).
Proof.
  intros H Hg Hc E1 E2 E3 E4 Hcds Hdesc Hne Htotal Hix locs Hsz Hlback Hsound.
  destruct (opened_column _ _ _ _ _ _ _ _ _ _ _ _ _ _ H Hg Hc E1 E2 E3 E4) as (Ed & _ & (pages0 & meta & _ & Em & _)).
  assert (Hj : (j < length (sd_leaves schema))%nat) by (apply nth_error_Some; congruence).
  pose proof (schema_column schema g j _ E3 Hj) as Ej.
  assert (Hpo : data_pages (pages_of_column (inl (map inl (cds ++ cps)))) = data_pages cps).
  { rewrite pages_of_map. unfold data_pages. rewrite flat_map_app. replace (flat_map _ cds) with (@nil compressed_data_page); [reflexivity|].
    clear - Hcds. induction Hcds as [|p l Hp _ IH]; [reflexivity|]. destruct p; [discriminate Hp|exact IH]. }
  assert (Hrows : Forall2 (fun cp cells => is_data cp = true /\ page_rows cp = nlen cells /\ cells <> []) cps cellss).
  { clear - Hdesc. induction Hdesc as [|cp cells cps cellss (A1 & A2 & d & s & b & -> & _) _ IH]; constructor; auto. }
  assert (Hdata : Forall (fun p => is_data p = true) cps) by (clear - Hrows; induction Hrows as [|? ? ? ? (A & _) _ IH]; constructor; assumption).
  assert (Hcr : chunk_rows cps = nlen (concat cellss)).
  { clear - Hrows. induction Hrows as [|cp cells cps cellss (_ & E & _) _ IH]; [reflexivity|]. cbn [chunk_rows fold_right concat]. fold (chunk_rows cps). rewrite IH, E. unfold nlen. rewrite app_length. lia. }
  assert (Hpos : Forall (fun p => 0 < page_rows p) cps).
  { clear - Hrows. induction Hrows as [|cp cells cps cellss (_ & E & Hn) _ IH]; constructor; [|exact IH]. rewrite E. destruct cells; [congruence|]. unfold nlen. cbn [length]. lia. }
  assert (Hcounts : map (fun p => N.to_nat (page_rows p)) cps = map (@length _) cellss).
  { clear - Hrows. induction Hrows as [|cp cells cps cellss (_ & E & _) _ IH]; [reflexivity|]. cbn [map]. rewrite IH, E. unfold nlen. rewrite Nat2N.id. reflexivity. }
  destruct (file_column_indexes F m schema gs kv file md i g rg j 1 H Hg Hc E1 E2 Hix) as (ixs & Eix & Hixs).
  rewrite (slice_one _ _ _ E4) in Eix. rewrite (slice_one _ _ _ (nth_error_combine _ _ _ _ _ Ed E3)) in Hixs.
  inversion Hixs as [|? ix ? ? (stats & Hst & Hi) Hnil]; subst. inversion Hnil; subst. cbn [fst snd] in Hst, Hi. rewrite Hpo in Hst.
  assert (Hns : stats <> []).
  { intros ->. inversion Hst as [E|]. destruct Hdesc as [|cp cells cps cellss (_ & _ & d & s & b & -> & _) _]; [congruence|discriminate E]. }
  destruct (described_index k truth _ cps cellss stats ix Hdesc Hst Hi Hns) as (bounds & Hfound & Hbounds).
  assert (Elocs : locs = locations (f_header F) (chunk_start meta + nlen (chunk_bytes (f_header F) cds)) 0 cps).
  { unfold locs, chunk_locations. rewrite Em, pages_of_map. apply locations_data. exact Hcds. }
  set (start := chunk_start meta + nlen (chunk_bytes (f_header F) cds)) in *. clearbody start.
  assert (Eread : read_pages_locations (f_offsets F) file [c] = Ok [locs]).
  { destruct (file_page_locations F m schema true gs kv file md i g rg j 1 H Hg Hc E1 E2) as [R _].
    - rewrite (slice_one _ _ _ Ej). intros x [<-|[]]. rewrite pages_of_map. unfold chunk_rows in *. rewrite fold_right_app.
      assert (Edict : forall n, fold_right (fun p n => page_rows p + n) n cds = n).
      { intros n. clear - Hcds. induction Hcds as [|p l Hp _ IH]; [reflexivity|]. destruct p; [discriminate Hp|]. cbn [fold_right]. rewrite IH. reflexivity. }
      rewrite Edict, Hcr. exact Htotal.
    - rewrite (slice_one _ _ _ (nth_error_combine _ _ _ _ _ Ej E4)). constructor; [exact Hsz|constructor].
    - rewrite (slice_one _ _ _ (nth_error_combine _ _ _ _ _ Ej E4)). constructor; [exact Hlback|constructor].
    - rewrite (slice_one _ _ _ (nth_error_combine _ _ _ _ _ Ej E4)), (slice_one _ _ _ E4) in R. exact R. }
  destruct (locations_rows (f_header F) cps start 0 Hdata) as (R1 & R2 & R3 & R4). rewrite <- Elocs in R1, R2, R3, R4. change (Z.of_N 0) with 0%Z in R1. rewrite N.add_0_l, Hcr in *.
  set (total := nlen (concat cellss)) in *. assert (Hn : total < 9223372036854775808) by exact Htotal.
  assert (Hlocs : locs_ok locs). { unfold locs_ok. eapply Forall_impl; [|exact R2]. intros x Hx. change (2 ^ 63)%Z with 9223372036854775808%Z. cbn beta in Hx. lia. }
  destruct (page_row_intervals_exact locs total Hlocs) as [H1 _]. destruct (H1 R1) as (pages & Ep & Eb). clear H1.
  destruct (compute_rows_exact (map keep bounds) locs total pages Hlocs Ep) as (intervals & Ei & Hsd & _).
  assert (Eiv : intervals = map snd (filter fst (combine (map keep bounds) pages))).
  { unfold compute_rows in Ei. rewrite Ep in Ei. cbn [bind] in Ei. congruence. }
  rewrite Elocs in Eb. destruct (kept_intervals (f_header F) cps start 0 (map keep bounds) pages Hdata Hpos) as (K1 & K2 & K3).
  { rewrite N.add_0_l, Hcr. fold total. change (2 ^ 64) with 18446744073709551616. lia. }
  { rewrite N.add_0_l, Hcr. exact Eb. }
  cbv zeta in K1, K2, K3. rewrite <- Eiv, Hcounts in K1. rewrite <- Eiv in K2, K3. cbn [N.to_nat] in K1.
  exists ix, bounds, intervals. split; [exact Eix|]. split; [exact Hfound|]. split; [eapply Forall2_length; exact Hbounds|]. split; [exact Eread|]. split; [exact Ei|]. split; [exact Hsd|].
  split; [exact K2|]. split; [exact K3|]. split; [exact K1|]. intros r v Hr Hw. rewrite K1.
  refine (rows_kept_in (fun b (cells : list (option (value k))) => forall v, In (Some v) cells -> truth b v) keep (fun x => match x with Some v => wanted v | None => False end) _ bounds cellss 0 Hbounds r (Some v) Hr Hw).
  intros b cells [w|] Hb Hin Hgood; [|destruct Hgood]. exact (Hsound b w (Hb w Hin) Hgood).
Qed.
Print Assumptions index_keeps_wanted_rows.

(** C125. So with these intervals somebody gets, from any column of the row group whose cells were stored in pages, compressed and written, exactly the cells in the
    rows of the pages that were kept; and among them the cell of each row whose cell in the first column is wanted. *)
Theorem pruned_rows_come_back k F C m schema gs kv file md i g rg j c cds cps cellss truth (keep : option (value k) * option (value k) -> bool) (wanted : value k -> Prop)
    k' j' c' ds' ps' entries' cellss' o' b0' cds' cps' :
  written_and_opened F m schema true gs kv file md -> good_schema schema -> complete_groups schema gs -> inverts C ->
  nth_error gs i = Some g -> nth_error (fmd_row_groups md) i = Some rg ->
  (* the column with the index *)
  nth_error g j = Some (inl (map inl (cds ++ cps))) -> nth_error (rgm_columns rg) j = Some c ->
  Forall (fun p => is_data p = false) cds -> Forall2 (truly_described k truth) cps cellss -> cellss <> [] -> nlen (concat cellss) < 2 ^ 63 ->
  (forall x, In x (combine (sd_leaves schema) g) -> Forall (page_of_type (d_primitive (cd_descriptor (fst x)))) (data_pages (pages_of_column (snd x))) /\
     forall l, Forall2 (fun d s => cdp_statistics d = Ok (Some s)) (data_pages (pages_of_column (snd x))) l ->
       nlen (t_enc (f_index F) (index_struct l)) < 2 ^ 31 /\ reads_back (f_index F) (2 * nlen (t_enc (f_index F) (index_struct l)) + 1024) (index_struct l)) ->
  let locs := chunk_locations F (inl (map inl (cds ++ cps))) (cmd_chunk c) in
  nlen (t_enc (f_offsets F) locs) < 2 ^ 31 ->
  (forall max, 2 * nlen (t_enc (f_offsets F) locs) + 1024 <= max -> reads_back (f_offsets F) max locs) ->
  (forall b v, truth b v -> wanted v -> keep b = true) ->
  (* the column whose cells are read *)
  nth_error g j' = Some (inl (map inl (cds' ++ cps'))) -> nth_error (rgm_columns rg) j' = Some c' ->
  length cds' = length ds' -> comp_run C m (S (length (ds' ++ ps'))) (comp_new (map inl (ds' ++ ps')) o' b0') = Ok (map (fun cp => inl (Some cp)) (cds' ++ cps') ++ [inl None]) ->
  (o' <> OUncompressed -> Forall says_compressed (ds' ++ ps')) ->
  Forall (fun p => reads_back (f_header F) 1048576 (header_of p)) (cds' ++ cps') ->
  let locs' := chunk_locations F (inl (map inl (cds' ++ cps'))) (cmd_chunk c') in
  nlen (t_enc (f_offsets F) locs') < 2 ^ 31 ->
  (forall max, 2 * nlen (t_enc (f_offsets F) locs') + 1024 <= max -> reads_back (f_offsets F) max locs') ->
  let d' := cd_descriptor (cmd_descr c') in
  column_of k' d' -> (ds' = [] \/ exists x, ds' = [PDict x]) -> Forall (fun p => stores k' d' entries' p []) ds' -> Forall2 (stores k' d' entries') ps' cellss' ->
  Forall2 counts_rows ps' cellss' -> nlen (concat cellss') = nlen (concat cellss) ->
  exists ix bounds intervals sel r pages selected,
    read_columns_indexes (f_index F) file [c] = Ok [ix] /\ bounds_found k ix bounds /\
    read_pages_locations (f_offsets F) file [c] = Ok [locs] /\ compute_rows (map keep bounds) locs (nlen (concat cellss)) = Ok intervals /\
    read_pages_locations (f_offsets F) file [c'] = Ok [locs'] /\ select_pages m intervals locs' (nlen (concat cellss)) = Ok sel /\
    indexed_reader_new file c' sel = Ok r /\
    (forall buffers, length buffers = S (length pages) ->
       bd_run C m (ir_next (f_header F) m) buffers r = Ok (map (fun p => inl (Some p)) pages ++ [inl None])) /\
    Forall2 (decodes_selected k' m entries') pages selected /\
    concat selected = pick (concat cellss') (rows_kept 0 (map keep bounds) (map (@length _) cellss)) /\
    (forall row v cell, nth_error (concat cellss) row = Some (Some v) -> wanted v -> nth_error (concat cellss') row = Some cell -> In cell (concat selected)).
Proof.
  intros H Hg Hc HC E1 E2 E3 E4 Hcds Hdesc Hne Htotal Hix locs Hsz Hlback Hsound E3' E4' Hlc Hcomp Hsay Hback locs' Hsz' Hlback' d' Hk Hds Hstd Hst Hcount Hsame.
  destruct (index_keeps_wanted_rows k F m schema gs kv file md i g rg j c cds cps cellss truth keep wanted H Hg Hc E1 E2 E3 E4 Hcds Hdesc Hne Htotal Hix Hsz Hlback Hsound)
    as (ix & bounds & intervals & X1 & X2 & _ & X4 & X5 & X6 & X7 & X8 & X9 & X10).
  destruct (file_selected_values k' F C m schema true gs kv file md i g rg j' c' ds' ps' entries' cellss' o' b0' cds' cps' intervals H Hg Hc HC E1 E2 E3' E4' Hlc Hcomp Hsay Hback
              Hsz' Hlback' Hk Hds Hstd Hst Hcount ltac:(rewrite Hsame; exact Htotal) X6 X7 X8) as (sel & r & pages & selected & Y1 & Y2 & Y3 & Y4 & Y5 & Y6).
  rewrite Hsame in Y2. exists ix, bounds, intervals, sel, r, pages, selected. fold locs in X4, X5. fold locs' in Y1, Y2.
  split; [exact X1|]. split; [exact X2|]. split; [exact X4|]. split; [exact X5|]. split; [exact Y1|]. split; [exact Y2|]. split; [exact Y3|]. split; [exact Y4|]. split; [exact Y5|].
  split; [rewrite <- X9; exact Y6|]. intros row v cell Hr Hw Hcell. rewrite Y6. unfold pick. apply in_flat_map. exists row. split; [exact (X10 row v Hr Hw)|]. rewrite Hcell. left. reflexivity.
Qed.
Print Assumptions pruned_rows_come_back.

(** The column of the example of C122, now with statistics: the values lie from 1 to 7 in the first page and are -1 in the second. Somebody looks for values of at least 5. *)
Definition px_pages : list page :=
  [PDict (mk_dict [1; 0; 0; 0; 7; 0; 0; 0] 2 true);
   PData (mk_dp (HV1 (mk_tdh 3 8 3 3 (Some (wx_stats 1 [1; 0; 0; 0] [7; 0; 0; 0])))) [2; 0; 0; 0; 3; 5; 1; 3; 2] io_desc (Some [mk_iv 0 3]));
   PData (mk_dp (HV2 (mk_tdh2 2 1 2 0 2 0 (Some true) (Some (wx_stats 1 [255; 255; 255; 255] [255; 255; 255; 255])))) [3; 2; 255; 255; 255; 255] io_desc (Some [mk_iv 0 2]))].
Definition px_compressed : list compressed_page :=
  [CDict (mk_cdict [1; 0; 0; 0; 7; 0; 0; 0; 0] Snappy 2 8 true);
   CData (mk_cdp (HV1 (mk_tdh 3 8 3 3 (Some (wx_stats 1 [1; 0; 0; 0] [7; 0; 0; 0])))) [2; 0; 0; 0; 3; 5; 1; 3; 2; 0] Snappy 9 io_desc (Some [mk_iv 0 3]));
   CData (mk_cdp (HV2 (mk_tdh2 2 1 2 0 2 0 (Some true) (Some (wx_stats 1 [255; 255; 255; 255] [255; 255; 255; 255])))) [3; 2; 255; 255; 255; 255; 0] Snappy 6 io_desc (Some [mk_iv 0 2]))].
Definition px_group : row_group_iter := [inl (map inl px_compressed); inl (map inl [wx_b_page 5])].
Definition px_written := fst (fw_write wx_formats Checked wx_new px_group).
Definition px_ended : file_writer * res N := fw_end wx_formats Checked px_written None.
Definition px_file : list N := sk_data (fw_sink (fst px_ended)).
Definition px_meta : t_file_meta := match fw_metadata (fst px_ended) with Some t => t | None => mk_tfm 0 [] 0 [] None None None None None end.
Definition px_md : file_md := match read_metadata ex_file_meta Checked px_file with Ok md => md | _ => mk_fmd 0 0 None [] None wx_schema None end.
Definition px_column : column_md := match fmd_row_groups px_md with g :: _ => nth 0 (rgm_columns g) ix_none | [] => ix_none end.
Definition px_locs : list t_page_location := chunk_locations wx_formats (inl (map inl px_compressed)) (cmd_chunk px_column).
(** Bounds are inclusive, and a bound that is not told says nothing. *)
Definition px_within (b : option Z * option Z) (v : Z) : Prop :=
  match fst b with Some lo => (lo <= v)%Z | None => True end /\ match snd b with Some hi => (v <= hi)%Z | None => True end.
Definition px_keep (b : option Z * option Z) : bool := match snd b with Some hi => (5 <=? hi)%Z | None => true end.
Lemma px_opened : written_and_opened wx_formats Checked wx_schema true [px_group] None px_file px_md.
Proof.
  exists (mk_sink [] None), 2%Z, (Some [109]), px_written, (fst px_ended), (nlen px_file), px_meta.
  split; [ reflexivity | ]. split.
  { apply history_ok with (w1 := px_written); [ | apply history_nil ]. vm_compute. reflexivity. }
  split; [ vm_compute; reflexivity | ]. split; [ reflexivity | ]. split; [ vm_compute; reflexivity | ].
  split; [ vm_compute; reflexivity | ]. split; [ vm_compute; reflexivity | ]. split; [ | vm_compute; reflexivity ].
  apply (of_codec_reads_back c_file_meta). refine (of_codec_sound c_file_meta 0 (t_enc ex_file_meta px_meta) px_meta [] _). vm_compute. reflexivity.
Qed.
Lemma px_described : Forall2 (truly_described (KNative NI32) px_within) (skipn 1 px_compressed) (skipn 1 vx_cells).
Proof.
  unfold px_compressed, vx_cells. cbn [skipn]. constructor; [|constructor; [|constructor]]; (split; [discriminate|]; split; [reflexivity|]; eexists _, _, _; split; [reflexivity|]).
  - split; [vm_compute; reflexivity|]. split; [eexists _, _; split; reflexivity|]. intros v [E|[E|[E|[]]]]; try discriminate E; injection E as <-; split; cbn; lia.
  - split; [vm_compute; reflexivity|]. split; [eexists _, _; split; reflexivity|]. intros v [E|[E|[]]]; try discriminate E; injection E as <-; split; cbn; lia.
Qed.
Lemma px_indexable x : In x (combine (sd_leaves wx_schema) px_group) -> Forall (page_of_type (d_primitive (cd_descriptor (fst x)))) (data_pages (pages_of_column (snd x))) /\
  forall l, Forall2 (fun d s => cdp_statistics d = Ok (Some s)) (data_pages (pages_of_column (snd x))) l ->
    nlen (t_enc ex_column_index (index_struct l)) < 2 ^ 31 /\ reads_back ex_column_index (2 * nlen (t_enc ex_column_index (index_struct l)) + 1024) (index_struct l).
Proof.
  assert (E : combine (sd_leaves wx_schema) px_group =
    [(mk_cdescr io_desc [[97]] (Primitive (d_primitive io_desc)), inl (map inl px_compressed)); (mk_cdescr (mk_descr wx_b 0 0) [[98]] (Primitive wx_b), inl (map inl [wx_b_page 5]))])
    by (vm_compute; reflexivity).
  rewrite E. intros [<-|[<-|[]]]; cbn [fst snd]; rewrite pages_of_map; (split;
    [ unfold px_compressed, data_pages; cbn [flat_map app wx_b_page];
      repeat (apply Forall_cons; [ split; [ reflexivity | cbn; first [ exact (conj I I) | split; repeat constructor ] ] | ]); apply Forall_nil
    | intros l Hl; apply stats_in_ok in Hl; subst l; split; [ vm_compute; reflexivity | apply (of_codec_reads_back c_column_index) ] ]).
  - refine (of_codec_sound c_column_index 0 (t_enc ex_column_index (index_struct (stats_in (data_pages px_compressed)))) (index_struct (stats_in (data_pages px_compressed))) [] _).
    vm_compute. reflexivity.
  - refine (of_codec_sound c_column_index 0 (t_enc ex_column_index (index_struct (stats_in (data_pages [wx_b_page 5])))) (index_struct (stats_in (data_pages [wx_b_page 5]))) [] _).
    vm_compute. reflexivity.
Qed.
Lemma px_stores : Forall2 (stores (KNative NI32) io_desc (Some [1; 7]%Z)) px_pages vx_cells.
Proof.
  unfold px_pages, vx_cells. constructor; [ | constructor; [ | constructor; [ | constructor ] ] ].
  - eapply stores_dictionary; [ reflexivity | | reflexivity ]. split; [ repeat (apply Forall_cons; [ vm_compute; split; [ discriminate | reflexivity ] | ]); apply Forall_nil | reflexivity ].
  - apply stores_positions with (entries := [1; 7]%Z) (positions := [0; 1]) (w := 1%nat) (bytes := [3; 2]); try reflexivity; [ discriminate | right; reflexivity | lia | repeat constructor | ].
    split; [ reflexivity | ]. split; [ reflexivity | ]. split; [ reflexivity | ]. split; [ reflexivity | ]. exists [3; 5]. vm_compute. repeat split.
  - apply stores_plain with (bytes := [255; 255; 255; 255]); [ reflexivity | | ].
    + split; [ apply Forall_cons; [ vm_compute; split; [ discriminate | reflexivity ] | apply Forall_nil ] | reflexivity ].
    + split; [ reflexivity | ]. split; [ reflexivity | ]. split; [ reflexivity | ]. split; [ reflexivity | ]. exists [3; 2]. vm_compute. repeat split.
Qed.
(** Only the first page is read, and it holds the 7 that is looked for. *)
Example pruned_rows_come_back_case :
  exists ix bounds intervals sel r pages selected,
    read_columns_indexes ex_column_index px_file [px_column] = Ok [ix] /\ bounds_found (KNative NI32) ix bounds /\
    compute_rows (map px_keep bounds) px_locs 5 = Ok intervals /\ select_pages Checked intervals px_locs 5 = Ok sel /\ indexed_reader_new px_file px_column sel = Ok r /\
    (forall buffers, length buffers = S (length pages) ->
       bd_run toy Checked (ir_next ex_header Checked) buffers r = Ok (map (fun p => inl (Some p)) pages ++ [inl None])) /\
    Forall2 (decodes_selected (KNative NI32) Checked (Some [1; 7]%Z)) pages selected /\ concat selected = [Some 1; None; Some 7]%Z.
Proof.
  assert (Hback : forall max, reads_back ex_offset_index max px_locs).
  { intros max. apply (of_codec_reads_back c_offset_index). refine (of_codec_sound c_offset_index 0 (t_enc ex_offset_index px_locs) px_locs [] _). vm_compute. reflexivity. }
  destruct (pruned_rows_come_back (KNative NI32) wx_formats toy Checked wx_schema [px_group] None px_file px_md 0 px_group (nth 0 (fmd_row_groups px_md) (mk_rgm [] 0 0)) 0 px_column
    (firstn 1 px_compressed) (skipn 1 px_compressed) (skipn 1 vx_cells) px_within px_keep (fun v => 5 <= v)%Z
    (KNative NI32) 0 px_column (firstn 1 px_pages) (skipn 1 px_pages) (Some [1; 7]%Z) (skipn 1 vx_cells) OSnappy [3; 3] (firstn 1 px_compressed) (skipn 1 px_compressed))
    as (ix & bounds & intervals & sel & r & pages & selected & X1 & X2 & X3 & X4 & X5 & X6 & X7 & X8 & X9 & X10 & X11).
  - exact px_opened.
  - exact wx_good.
  - split; [repeat constructor|vm_compute; reflexivity].
  - exact toy_inverts.
  - reflexivity.
  - vm_compute. reflexivity.
  - reflexivity.
  - vm_compute. reflexivity.
  - repeat constructor.
  - exact px_described.
  - discriminate.
  - reflexivity.
  - exact px_indexable.
  - vm_compute. reflexivity.
  - intros max _. apply Hback.
  - intros [lo hi] v [_ Hb] Hv. unfold px_keep. cbn [snd] in *. destruct hi as [hi|]; [|reflexivity]. apply Z.leb_le. lia.
  - reflexivity.
  - vm_compute. reflexivity.
  - reflexivity.
  - vm_compute. reflexivity.
  - intros _. unfold px_pages. cbn [firstn skipn app]. repeat (apply Forall_cons; [cbn; first [exact I | discriminate]|]); apply Forall_nil.
  - unfold px_compressed. cbn [firstn skipn app]. repeat (apply Forall_cons; [codec_ok|]); apply Forall_nil.
  - vm_compute. reflexivity.
  - intros max _. apply Hback.
  - reflexivity.
  - right. eexists. reflexivity.
  - apply Forall_forall. intros p [<-|[]]. pose proof px_stores as H. unfold px_pages, vx_cells in H. inversion H as [|? ? ? ? H1 _]. exact H1.
  - pose proof px_stores as H. unfold px_pages, vx_cells in H. inversion H as [|? ? ? ? _ H1]. exact H1.
  - repeat constructor; discriminate.
  - reflexivity.
  - exists ix, bounds, intervals, sel, r, pages, selected. split; [exact X1|]. split; [exact X2|]. split; [exact X4|]. split; [exact X6|]. split; [exact X7|]. split; [exact X8|]. split; [exact X9|].
    rewrite X10. clear - X1 X2. assert (E : exists x, read_columns_indexes ex_column_index px_file [px_column] = Ok [INative NI32 (d_primitive io_desc) x Unordered] /\ map (fun e => (pi_min e, pi_max e)) x = [(Some 1, Some 7); (Some (-1), Some (-1))]%Z).
    { eexists. split; vm_compute; reflexivity. }
    destruct E as (x & E & Ex). cbn [f_index wx_formats] in X1. rewrite E in X1. injection X1 as <-. destruct X2 as (p & pgs & o & E' & ->).
    injection E' as _ Hx _. apply Eqdep_dec.inj_pair2_eq_dec in Hx; [|intros a b; decide equality]. subst pgs. rewrite Ex. reflexivity.
Qed.

(** * C126 *)

(** C126. The index marks as pages of nulls exactly the pages that have only nulls, if the statistics of each page have a minimum exactly if the page has a value. *)
Theorem null_marks_exact {A} T p l off s s' specs (cellss : list (list (option A))) :
  write_pages T off (map inl l) s = (s', Ok specs) -> Forall (page_of_type p) (data_pages l) ->
  Forall2 (fun d cells => exists x, cdp_statistics d = Ok (Some x) /\ indexable x /\ (fst (stats_bounds x) <> None <-> exists v, In (Some v) cells)) (data_pages l) cellss ->
  exists ix, serialize_column_index specs = Ok ix /\ ci_null_pages ix = map only_nulls cellss.
Proof.
  intros Hw Ht HF. destruct (column_index_written T p l off s s' specs Hw Ht) as [(stats & S1 & _ & S3 & _)|((d & x & Hin & Ex & Hx) & _)].
  - exists (index_struct stats). split; [exact S3|]. unfold index_struct. cbn [ci_null_pages]. clear - S1 HF. revert stats S1.
    induction HF as [|d cells ds cellss (x & E & _ & Hm) HF IH]; intros stats S1; inversion S1 as [|? y ? ys Ey Hys]; subst; [reflexivity|]. cbn [map]. rewrite (IH ys Hys). f_equal.
    assert (y = x) by congruence. subst y. unfold only_nulls. destruct (fst (stats_bounds x)) as [b|] eqn:Eb.
    + destruct Hm as [Hm _]. destruct Hm as (v & Hv); [discriminate|]. symmetry. apply Bool.not_true_is_false. intros Hall. rewrite forallb_forall in Hall. discriminate (Hall _ Hv).
    + symmetry. apply forallb_forall. intros [v|] Hv; [|reflexivity]. destruct Hm as [_ Hm]. destruct Hm; [exists v; exact Hv|reflexivity].
  - exfalso. clear - HF Hin Ex Hx. induction HF as [|d0 cells ds cellss (y & E & Hy & _) HF IH]; [exact Hin|]. destruct Hin as [<-|Hin]; [|exact (IH Hin)].
    rewrite E in Ex. apply Ok_inj in Ex. subst x. exact (Hx Hy).
Qed.
Print Assumptions null_marks_exact.
Example null_marks_exact_case :
  exists s' specs, write_pages ex_header 4 (map inl px_compressed) (mk_sink [80; 65; 82; 49] None) = (s', Ok specs) /\ Forall (page_of_type (d_primitive io_desc)) (data_pages px_compressed) /\
    Forall2 (fun d cells => exists x, cdp_statistics d = Ok (Some x) /\ indexable x /\ (fst (stats_bounds x) <> None <-> exists v, In (Some v) cells)) (data_pages px_compressed) (skipn 1 vx_cells).
Proof.
  eexists _, _. split; [vm_compute; reflexivity|]. split.
  { unfold px_compressed, data_pages. cbn [flat_map app]. repeat (apply Forall_cons; [split; [reflexivity|cbn; split; repeat constructor]|]); apply Forall_nil. }
  unfold px_compressed, data_pages, vx_cells. cbn [flat_map app skipn].
  constructor; [|constructor; [|constructor]]; (eexists; split; [vm_compute; reflexivity|]; split; [split; [discriminate|cbn; intros _; discriminate]|]).
  - split; [intros _; exists 1%Z; left; reflexivity|intros _; discriminate].
  - split; [intros _; exists (-1)%Z; right; left; reflexivity|intros _; discriminate].
Qed.

(** C126, without that condition, is false: a page that stores a value, with true statistics that tell the null count but no bounds, is marked as a page of nulls,
    and whoever skips such pages does not see the value. *)
Definition px_untold : page :=
  PData (mk_dp (HV2 (mk_tdh2 2 1 2 0 2 0 (Some true) (Some (mk_tstats None None (Some 1%Z) None None None)))) [3; 2; 255; 255; 255; 255] io_desc (Some [mk_iv 0 2])).
Theorem null_marks_refuted :
  exists p cells cp s' specs ix, stores (KNative NI32) io_desc None p cells /\ In (Some (-1)%Z) cells /\ compress toy Checked p [] OSnappy = Ok cp /\
    truly_described (KNative NI32) px_within cp cells /\ Forall (page_of_type (d_primitive io_desc)) (data_pages [cp]) /\
    write_pages ex_header 4 [inl cp] (mk_sink [80; 65; 82; 49] None) = (s', Ok specs) /\ serialize_column_index specs = Ok ix /\ ci_null_pages ix = [true].
Proof.
  exists px_untold, [None; Some (-1)]%Z. eexists _, _, _, _. split.
  { unfold px_untold. apply stores_plain with (bytes := [255; 255; 255; 255]); [ reflexivity | | ].
    + split; [ apply Forall_cons; [ vm_compute; split; [ discriminate | reflexivity ] | apply Forall_nil ] | reflexivity ].
    + split; [ reflexivity | ]. split; [ reflexivity | ]. split; [ reflexivity | ]. split; [ reflexivity | ]. exists [3; 2]. vm_compute. repeat split. }
  split; [right; left; reflexivity|]. split; [vm_compute; reflexivity|]. split.
  { split; [discriminate|]. split; [reflexivity|]. eexists _, _, _. split; [reflexivity|]. split; [vm_compute; reflexivity|]. split; [eexists _, _; split; reflexivity|].
    intros v _. split; exact I. }
  split; [constructor; [split; [reflexivity|split; exact I]|constructor]|]. split; [vm_compute; reflexivity|]. split; vm_compute; reflexivity.
Qed.
Print Assumptions null_marks_refuted.
