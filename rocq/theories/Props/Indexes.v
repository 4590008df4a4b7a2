(** C52, C53, C54, C80-C82: page indexes of written files, and reading through them. *)
From Verif Require Import Base.Prelude Base.Iter Base.Codec Model.Types Model.Native Model.Thrift Model.Intervals Model.Page Model.Io Model.Statistics Model.PageWrite
  Model.ColumnWrite Model.Schema Model.PageRead Model.Metadata Model.Indexes Model.FileWrite Spec.RowsSpec Spec.StatsSpec Spec.PagesSpec Spec.ChunkSpec Spec.SchemaSpec
  Spec.MetadataSpec Spec.FileSpec Spec.IndexSpec
  Proofs.IntervalsProofs Proofs.PageIoProofs Proofs.CompressionProofs Proofs.ColumnWriteProofs Proofs.SchemaProofs Proofs.FileWriteProofs Proofs.IndexProofs Proofs.IndexReadProofs Proofs.IndexAnyProofs Proofs.ThriftCodec Props.PageIo Props.FileWrite.
Open Scope N_scope.

(** The file of the examples, opened. *)
Definition wx_md : file_md := match read_metadata ex_file_meta Checked wx_file with Ok md => md | _ => mk_fmd 0 0 None [] None wx_schema None end.
Definition wx_kv := Some [mk_kv [107] None].
Lemma wx_opened : written_and_opened wx_formats Checked wx_schema true [wx_g1; wx_g2] wx_kv wx_file wx_md.
Proof.
  exists (mk_sink [] None), 2%Z, (Some [109]), wx_written, (fst wx_ended), (nlen wx_file), wx_meta.
  split; [ reflexivity | ]. split; [ exact wx_history | ]. split; [ vm_compute; reflexivity | ]. split; [ reflexivity | ]. split; [ vm_compute; reflexivity | ].
  split; [ vm_compute; reflexivity | ]. split; [ vm_compute; reflexivity | ].
  split; [ apply (of_codec_reads_back c_file_meta); exact wx_meta_ok | ]. vm_compute. reflexivity.
Qed.
Lemma wx_complete : complete_groups wx_schema [wx_g1; wx_g2].
Proof.
  split; [ repeat constructor | ]. vm_compute. reflexivity.
Qed.
Definition wx_group (i : nat) : row_group_md := nth i (fmd_row_groups wx_md) (mk_rgm [] 0 0).

(** * C52 *)

(** The offset index of pages that were written: one entry for each data page, in order, with the range of its bytes (header
    included) and the number of rows before it. It exists exactly if every data page has less than 2 GiB and knows its rows. *)
Theorem offset_index_written T m l s s' specs :
  write_pages T (nlen (sk_data s)) (map inl l) s = (s', Ok specs) -> chunk_rows l < 2 ^ 63 -> nlen (sk_data s') < 2 ^ 63 ->
  let locs := locations T (nlen (sk_data s)) 0 l in
  (Forall (locatable T) l -> serialize_offset_index m specs = Ok locs) /\ (~ Forall (locatable T) l -> serialize_offset_index m specs = Err OutOfSpec) /\
  Forall2 (fun p loc => exists o, loc_offset loc = Z.of_N o /\ holds (sk_data s') o (page_bytes T p) /\ loc_size loc = Z.of_N (nlen (page_bytes T p)))
    (filter is_data l) locs.
Proof.
  intros Hw Hrows Hlen locs. apply write_pages_ok in Hw as (l' & El & Hs & Hspecs).
  assert (l' = l) as ->. { apply (f_equal (fun x => pages_of_column (inl x))) in El. rewrite !pages_of_map in El. auto. }
  rewrite Hs, nlen_app in Hlen. destruct (page_locations_exact T m _ _ _ Hspecs 0 Hrows Hlen) as [H1 H2]. unfold serialize_offset_index. split; [ | split ].
  - intros Hl. destruct (H1 Hl) as [x Hx]. change (Z.of_N 0) with 0%Z in Hx. rewrite Hx. f_equal. eapply (page_locations_for _ m _ _ _ Hspecs 0); [ exact Hx | exact Hrows ].
  - exact H2.
  - apply locations_hold. rewrite Hs. apply holds_end.
Qed.
Print Assumptions offset_index_written.
Definition ix_pages := [io_dict; wx_a1; io_v2].
Example offset_index_written_case :
  let s := mk_sink [80; 65; 82; 49] None in
  let p := write_pages ex_header 4 (map inl ix_pages) s in
  Forall (locatable ex_header) ix_pages /\ chunk_rows ix_pages = 5 /\
  match p with
  | (s', Ok specs) => nlen (sk_data s') < 2 ^ 63 /\ serialize_offset_index Checked specs = Ok (locations ex_header 4 0 ix_pages)
  | _ => False
  end /\ map loc_first_row (locations ex_header 4 0 ix_pages) = [0; 3]%Z.
Proof.
  cbv zeta. split.
  - repeat (apply Forall_cons; [ first [ exact I | split; [ vm_compute; reflexivity | discriminate ] ] | ]). constructor.
  - split; [ vm_compute; reflexivity | ]. split; [ vm_compute; split; reflexivity | vm_compute; reflexivity ].
Qed.

(** In a file that was written and opened: the page locations of any adjacent columns [k], ..., [k + n - 1] of any row group. *)
Theorem file_page_locations F m schema stats gs kv file md i g rg k n :
  written_and_opened F m schema stats gs kv file md -> good_schema schema -> complete_groups schema gs ->
  nth_error gs i = Some g -> nth_error (fmd_row_groups md) i = Some rg ->
  (forall c, In c (slice k n (schema_columns schema g)) -> chunk_rows (pages_of_column c) < 2 ^ 63) ->
  let columns := slice k n (combine (schema_columns schema g) (rgm_columns rg)) in
  let locs := map (fun x => chunk_locations F (fst x) (cmd_chunk (snd x))) columns in
  Forall (fun l => nlen (t_enc (f_offsets F) l) < 2 ^ 31) locs ->
  Forall (fun l => forall max, 2 * nlen (t_enc (f_offsets F) l) + 1024 <= max -> reads_back (f_offsets F) max l) locs ->
  read_pages_locations (f_offsets F) file (slice k n (rgm_columns rg)) = Ok locs /\
  Forall2 (fun x l => Forall2 (fun p loc => exists o, loc_offset loc = Z.of_N o /\ holds file o (page_bytes (f_header F) p) /\ loc_size loc = Z.of_N (nlen (page_bytes (f_header F) p)))
                        (filter is_data (pages_of_column (fst x))) l) columns locs.
Proof.
  intros H Hg Hc E1 E2 Hrows columns locs Hsz Hback.
  destruct (opened_group _ _ _ _ _ _ _ _ _ _ _ H Hg Hc E1 E2) as (s & v & cb & meta & rg' & Hended & Hlen & E3 & G1 & G2 & Hch).
  assert (El : locs = slice k n (map (fun x => chunk_locations F (fst x) (snd x)) (combine (schema_columns schema g) (rg_columns rg')))).
  { unfold locs, columns. rewrite slice_map, !slice_combine, <- G1, slice_map. generalize (slice k n (schema_columns schema g)) (slice k n (rgm_columns rg)).
    induction l as [|a l IH]; intros [|b l']; cbn [combine map fst snd]; [ reflexivity | reflexivity | reflexivity | ]. rewrite IH. reflexivity. }
  rewrite El in Hsz, Hback. split.
  - rewrite El. apply (ended_locations F m _ gs kv file meta i g rg' k n _ Hended Hlen E1 E3); [ rewrite <- slice_map, G1; reflexivity | exact Hrows | exact Hsz | exact Hback ].
  - unfold locs, columns, schema_columns. rewrite <- G1 in Hch.
    assert (Hf : Forall (fun x => Forall2 (fun p loc => exists o, loc_offset loc = Z.of_N o /\ holds file o (page_bytes (f_header F) p) /\ loc_size loc = Z.of_N (nlen (page_bytes (f_header F) p)))
                        (filter is_data (pages_of_column (fst x))) (chunk_locations F (fst x) (cmd_chunk (snd x)))) (combine (firstn (length (sd_leaves schema)) g) (rgm_columns rg))).
    { clear - Hch. revert g Hch. generalize (rgm_columns rg). induction (sd_leaves schema) as [|d ds IH]; intros cs [|x g] Hch; cbn [combine length firstn] in *; try constructor.
      inversion Hch as [|? c ? cs' Hx Hxs Hy Hcs]; subst. destruct cs as [|c0 cs]; [ discriminate Hcs | ]. cbn [map combine] in *. injection Hcs as -> Hcs. constructor.
      - cbn [fst snd]. destruct Hx as (pages & meta & Ex & Em & Hh & _). cbn [snd] in Ex. unfold chunk_locations. rewrite Em, Ex, pages_of_map. apply locations_hold. exact Hh.
      - apply IH. subst cs'. exact Hxs. }
    assert (Hs : Forall (fun x => Forall2 (fun p loc => exists o, loc_offset loc = Z.of_N o /\ holds file o (page_bytes (f_header F) p) /\ loc_size loc = Z.of_N (nlen (page_bytes (f_header F) p)))
                        (filter is_data (pages_of_column (fst x))) (chunk_locations F (fst x) (cmd_chunk (snd x)))) (slice k n (combine (firstn (length (sd_leaves schema)) g) (rgm_columns rg)))).
    { rewrite Forall_forall in *. intros x Hx. apply Hf. eapply slice_in. exact Hx. }
    clear - Hs. induction Hs as [|x l Hx Hl IH]; cbn [map]; constructor; assumption.
Qed.
Print Assumptions file_page_locations.

Definition wx_locs : list (list t_page_location) := match read_pages_locations ex_offset_index wx_file (rgm_columns (wx_group 0)) with Ok ls => ls | _ => [] end.
Lemma wx_locs_ok : Forall (fun l => nlen (t_enc ex_offset_index l) < 2 ^ 31 /\ forall max, reads_back ex_offset_index max l) wx_locs.
Proof.
  assert (E : wx_locs = [nth 0 wx_locs []; nth 1 wx_locs []]) by (vm_compute; reflexivity). rewrite E.
  repeat (apply Forall_cons; [ split; [ vm_compute; reflexivity | ] | ]); [ | | constructor ]; intros max; apply (of_codec_reads_back c_offset_index);
    match goal with |- cok _ ?x => refine (of_codec_sound c_offset_index 0 (t_enc ex_offset_index x) x [] _); vm_compute; reflexivity end.
Qed.
Example file_page_locations_witness :
  written_and_opened wx_formats Checked wx_schema true [wx_g1; wx_g2] wx_kv wx_file wx_md /\ good_schema wx_schema /\ complete_groups wx_schema [wx_g1; wx_g2] /\
  nth_error (fmd_row_groups wx_md) 0 = Some (wx_group 0) /\
  read_pages_locations ex_offset_index wx_file (rgm_columns (wx_group 0)) = Ok wx_locs /\ map (map loc_first_row) wx_locs = [[0; 3]; [0]]%Z /\
  Forall (fun l => nlen (t_enc ex_offset_index l) < 2 ^ 31 /\ forall max, reads_back ex_offset_index max l) wx_locs /\
  match read_pages_locations ex_offset_index wx_file (slice 1 1 (rgm_columns (wx_group 1))) with
  | Ok ls => map (map loc_first_row) ls = [[0; 1]]%Z
  | _ => False
  end.
Proof.
  split; [ exact wx_opened | ]. split; [ exact wx_good | ]. split; [ exact wx_complete | ]. split; [ vm_compute; reflexivity | ].
  split; [ vm_compute; reflexivity | ]. split; [ vm_compute; reflexivity | ]. split; [ exact wx_locs_ok | vm_compute; reflexivity ].
Qed.

(** * C54 *)

(** The column index of pages that were written: for each data page, in order, the null count and the bounds of its statistics, and a mark
    on exactly the pages without a minimum. It exists exactly if each data page has statistics with a null count, and with a maximum if
    there is a minimum; otherwise there is an error. And the index that is read from it says the same again. *)
Theorem column_index_written T p l off s s' specs :
  write_pages T off (map inl l) s = (s', Ok specs) -> Forall (page_of_type p) (data_pages l) ->
  (exists stats, Forall2 (fun d x => cdp_statistics d = Ok (Some x)) (data_pages l) stats /\ Forall indexable stats /\
     serialize_column_index specs = Ok (index_struct stats) /\ exists i, index_from_thrift (index_struct stats) p = Ok i /\ index_of p stats i) \/
  ((exists d x, In d (data_pages l) /\ cdp_statistics d = Ok x /\ match x with None => True | Some x => ~ indexable x end) /\
   serialize_column_index specs = Err OutOfSpec).
Proof.
  intros Hw Ht. apply write_pages_ok in Hw as (l' & El & Hs & Hspecs).
  assert (l' = l) as ->. { apply (f_equal (fun x => pages_of_column (inl x))) in El. rewrite !pages_of_map in El. auto. }
  destruct (column_index_total _ _ _ _ _ Hspecs Ht) as [[i E]|H]; [ | right; exact H ].
  left. destruct (column_index_specs _ _ _ _ _ _ Hspecs Ht E) as (stats & S1 & S2 & S3 & _ & ->). exists stats.
  split; [ exact S1 | ]. split; [ exact S3 | ]. split; [ exact E | ]. exact (index_struct_read _ _ S2 S3).
Qed.
Print Assumptions column_index_written.
Definition ix_specs (l : list compressed_page) : list page_spec := match write_pages ex_header 4 (map inl l) (mk_sink [80; 65; 82; 49] None) with (_, Ok x) => x | _ => [] end.
Example column_index_written_case :
  Forall (page_of_type (d_primitive io_desc)) (data_pages ix_pages) /\
  write_pages ex_header 4 (map inl ix_pages) (mk_sink [80; 65; 82; 49] None) =
    (mk_sink ([80; 65; 82; 49] ++ chunk_bytes ex_header ix_pages) None, Ok (ix_specs ix_pages)) /\
  (exists i, serialize_column_index (ix_specs ix_pages) = Ok i /\ ci_null_counts i = Some [1; 1]%Z /\ length (ci_min_values i) = 2%nat /\ ci_null_pages i = [false; true]) /\
  length (ix_specs [io_v1]) = 1%nat /\ serialize_column_index (ix_specs [io_v1]) = Err OutOfSpec.
Proof.
  split.
  { unfold ix_pages, data_pages. cbn [flat_map app io_dict wx_a1 io_v2]. repeat (apply Forall_cons; [ split; [ reflexivity | cbn; first [ exact (conj I I) | split; repeat constructor ] ] | ]). apply Forall_nil. }
  split; [ vm_compute; reflexivity | ]. split; [ | split; vm_compute; reflexivity ].
  set (r := serialize_column_index (ix_specs ix_pages)).
  exists (match r with Ok i => i | _ => mk_tci [] [] [] 0 None end). vm_compute. repeat split.
Qed.

(** In a file that was written (with indexes) and opened: the indexes of any adjacent columns of any row group say what the statistics
    of the data pages say. *)
Theorem file_column_indexes F m schema gs kv file md i g rg k n :
  written_and_opened F m schema true gs kv file md -> good_schema schema -> complete_groups schema gs ->
  nth_error gs i = Some g -> nth_error (fmd_row_groups md) i = Some rg ->
  (forall x, In x (combine (sd_leaves schema) g) -> Forall (page_of_type (d_primitive (cd_descriptor (fst x)))) (data_pages (pages_of_column (snd x))) /\
     forall l, Forall2 (fun d s => cdp_statistics d = Ok (Some s)) (data_pages (pages_of_column (snd x))) l ->
       nlen (t_enc (f_index F) (index_struct l)) < 2 ^ 31 /\ reads_back (f_index F) (2 * nlen (t_enc (f_index F) (index_struct l)) + 1024) (index_struct l)) ->
  exists ix, read_columns_indexes (f_index F) file (slice k n (rgm_columns rg)) = Ok ix /\ Forall2 column_indexed (slice k n (combine (sd_leaves schema) g)) ix.
Proof.
  intros H Hg Hc E1 E2 Hpages.
  destruct (opened_group _ _ _ _ _ _ _ _ _ _ _ H Hg Hc E1 E2) as (s & v & cb & meta & rg' & Hended & Hlen & E3 & G1 & G2 & Hch).
  refine (ended_column_indexes F m _ gs kv file meta i g rg' k n _ Hended Hlen eq_refl E1 E3 _ _ Hpages).
  - rewrite <- slice_map, G1. reflexivity.
  - rewrite <- slice_map, G2. reflexivity.
Qed.
Print Assumptions file_column_indexes.
(** The columns of the example meet the hypotheses. *)
Definition stats_in (ds : list compressed_data_page) : list statistics := flat_map (fun d => match cdp_statistics d with Ok (Some s) => [s] | _ => [] end) ds.
Lemma stats_in_ok ds l : Forall2 (fun d s => cdp_statistics d = Ok (Some s)) ds l -> l = stats_in ds.
Proof. induction 1 as [|d s ds l H _ IH]; [ reflexivity | ]. cbn [stats_in flat_map]. rewrite H. cbn [app]. f_equal. exact IH. Qed.
Lemma wx_indexable x : In x (combine (sd_leaves wx_schema) wx_g1) -> Forall (page_of_type (d_primitive (cd_descriptor (fst x)))) (data_pages (pages_of_column (snd x))) /\
  forall l, Forall2 (fun d s => cdp_statistics d = Ok (Some s)) (data_pages (pages_of_column (snd x))) l ->
    nlen (t_enc ex_column_index (index_struct l)) < 2 ^ 31 /\ reads_back ex_column_index (2 * nlen (t_enc ex_column_index (index_struct l)) + 1024) (index_struct l).
Proof.
  assert (E : combine (sd_leaves wx_schema) wx_g1 =
    [(mk_cdescr io_desc [[97]] (Primitive (d_primitive io_desc)), inl (map inl ix_pages)); (mk_cdescr (mk_descr wx_b 0 0) [[98]] (Primitive wx_b), inl (map inl [wx_b_page 5]))])
    by (vm_compute; reflexivity).
  rewrite E. intros [<-|[<-|[]]]; cbn [fst snd]; rewrite pages_of_map; (split;
    [ unfold ix_pages, data_pages; cbn [flat_map app io_dict wx_a1 io_v2 wx_b_page];
      repeat (apply Forall_cons; [ split; [ reflexivity | cbn; first [ exact (conj I I) | split; repeat constructor ] ] | ]); apply Forall_nil
    | intros l Hl; apply stats_in_ok in Hl; subst l; split; [ vm_compute; reflexivity | apply (of_codec_reads_back c_column_index) ] ]).
  - refine (of_codec_sound c_column_index 0 (t_enc ex_column_index (index_struct (stats_in (data_pages ix_pages)))) (index_struct (stats_in (data_pages ix_pages))) [] _).
    vm_compute. reflexivity.
  - refine (of_codec_sound c_column_index 0 (t_enc ex_column_index (index_struct (stats_in (data_pages [wx_b_page 5])))) (index_struct (stats_in (data_pages [wx_b_page 5]))) [] _).
    vm_compute. reflexivity.
Qed.
Example file_column_indexes_witness :
  written_and_opened wx_formats Checked wx_schema true [wx_g1; wx_g2] wx_kv wx_file wx_md /\
  match read_columns_indexes ex_column_index wx_file (rgm_columns (wx_group 0)) with
  | Ok [INative NI32 _ [a; b] _; INative NI64 _ [c] _] =>
      (pi_null_count a, pi_min a, pi_max a, pi_null_count b, pi_min b) = (Some 1, Some 1, Some 7, Some 1, None)%Z /\ (pi_min c, pi_max c) = (Some 1, Some 2)%Z
  | _ => False
  end.
Proof. split; [ exact wx_opened | ]. vm_compute. split; reflexivity. Qed.

(** * C53 *)

(** Reading a column of a written and opened file through its page locations, for any selection of rows: the dictionary page (if there is
    one, and any data pages), then exactly the data pages with selected rows, each with its rows; over all pages these are the
    rows that were asked for. *)
Theorem file_indexed_read F m schema stats gs kv file md i g rg j c dict data intervals :
  written_and_opened F m schema stats gs kv file md -> good_schema schema -> complete_groups schema gs ->
  nth_error gs i = Some g -> nth_error (fmd_row_groups md) i = Some rg ->
  nth_error g j = Some (inl (map inl (dict ++ data))) -> nth_error (rgm_columns rg) j = Some c ->
  (dict = [] \/ exists x, dict = [CDict x]) -> Forall (fun p => is_data p = true) data -> chunk_rows data < 2 ^ 63 ->
  Forall (fun p => reads_back (f_header F) 1048576 (header_of p)) (dict ++ data) -> Forall iv_ok intervals ->
  let locs := chunk_locations F (inl (map inl (dict ++ data))) (cmd_chunk c) in
  nlen (t_enc (f_offsets F) locs) < 2 ^ 31 ->
  (forall max, 2 * nlen (t_enc (f_offsets F) locs) + 1024 <= max -> reads_back (f_offsets F) max locs) ->
  let d := cd_descriptor (cmd_descr c) in
  exists codec sel r r', read_pages_locations (f_offsets F) file [c] = Ok [locs] /\ select_pages m intervals locs (chunk_rows data) = Ok sel /\
    length sel = length data /\ indexed_reader_new file c sel = Ok r /\ (forall p, In p (dict ++ data) -> cp_compression p = codec) /\
    runs (ir_next (f_header F) m) r
      (map inl (match data with [] => [] | _ => map (read_page_of codec d None false) dict end ++ selected_pages codec d (combine data (map fp_selected sel)))) r' /\
    Forall (fun p => Forall (fun i => iv_start i + iv_length i <= fp_num_rows p) (fp_selected p)) sel /\
    (sorted_disjoint intervals ->
      concat (map (fun x => map (Nat.add (Z.to_nat (loc_first_row (snd x)))) (rows_of (fp_selected (fst x)))) (combine sel locs)) =
      filter (fun r => (r <? N.to_nat (chunk_rows data))%nat) (rows_of intervals)).
Proof.
  intros H Hg Hc E1 E2 E3 E4 Hdict Hdata Hrows Hback Hiv locs Hsz Hlback d.
  destruct (opened_column _ _ _ _ _ _ _ _ _ _ _ _ _ _ H Hg Hc E1 E2 E3 E4) as (Hd & Hlen & Hch).
  destruct (chunk_indexed_read F m file c dict data intervals Hlen Hch Hdict Hdata Hrows Hback Hiv) as (codec & sel & r & r' & X1 & X2 & X3 & X4 & X5 & X6 & X7).
  exists codec, sel, r, r'. split; [ | auto 10 ].
  assert (Ej : nth_error (schema_columns schema g) j = Some (inl (map inl (dict ++ data)))).
  { unfold schema_columns. assert (Hj : (j < length (sd_leaves schema))%nat) by (apply nth_error_Some; congruence). clear - E3 Hj. revert j g E3 Hj.
    induction (sd_leaves schema) as [|x l IH]; intros [|j] [|y g] E Hj; cbn [length firstn nth_error] in *; try discriminate; try lia; [ exact E | apply IH; [ exact E | lia ] ]. }
  destruct (opened_group _ _ _ _ _ _ _ _ _ _ _ H Hg Hc E1 E2) as (s & v & cb & meta & rg' & Hended & _ & E5 & G1 & G2 & _).
  assert (Es : forall A (l : list A) a, nth_error l j = Some a -> slice j 1 l = [a]).
  { clear. unfold slice. induction j as [|j IH]; intros A [|x l] a E; try discriminate; [ injection E as ->; reflexivity | ]. cbn [nth_error skipn] in *. apply IH. exact E. }
  assert (El : slice j 1 (map (fun x => chunk_locations F (fst x) (snd x)) (combine (schema_columns schema g) (rg_columns rg'))) = [locs]).
  { rewrite slice_map, slice_combine, (Es _ _ _ Ej). rewrite <- G1, slice_map, (Es _ _ _ E4). reflexivity. }
  rewrite <- El.
  assert (Hs1 : slice j 1 (schema_columns schema g) = [inl (map inl (dict ++ data))]) by (apply Es; exact Ej).
  apply (ended_locations F m _ gs kv file meta i g rg' j 1 [c] Hended Hlen E1 E5).
  - rewrite <- G1, slice_map, (Es _ _ _ E4). reflexivity.
  - cbn [fw_schema fw_new]. rewrite Hs1. intros x [<-|[]]. rewrite pages_of_map. unfold chunk_rows in *. rewrite fold_right_app.
    assert (Edict : forall n, fold_right (fun p n => page_rows p + n) n dict = n) by (intros n; destruct Hdict as [-> |[x ->]]; reflexivity). rewrite Edict. exact Hrows.
  - cbn [fw_schema fw_new]. rewrite El. constructor; [ exact Hsz | constructor ].
  - cbn [fw_schema fw_new]. rewrite El. constructor; [ exact Hlback | constructor ].
Qed.
Print Assumptions file_indexed_read.
(** The example: rows 1 and 4 of the first column, whose pages have 3 and 2 rows. *)
Definition wx_column (i j : nat) : column_md := nth j (rgm_columns (wx_group i)) (mk_cmd (mk_tcc None 0 None None None None None None None) (mk_cdescr io_desc [] (Primitive wx_b))).
Definition wx_selected : list filtered_page :=
  match select_pages Checked [mk_iv 4 1] (nth 0 wx_locs []) 5 with Ok l => l | _ => [] end.
Example file_indexed_read_witness :
  nth_error wx_g1 0 = Some (inl (map inl ([io_dict] ++ [wx_a1; io_v2]))) /\ nth_error (rgm_columns (wx_group 0)) 0 = Some (wx_column 0 0) /\
  Forall (fun p => reads_back ex_header 1048576 (header_of p)) ([io_dict] ++ [wx_a1; io_v2]) /\ chunk_rows [wx_a1; io_v2] = 5 /\
  chunk_locations wx_formats (inl (map inl ([io_dict] ++ [wx_a1; io_v2]))) (cmd_chunk (wx_column 0 0)) = nth 0 wx_locs [] /\
  map fp_selected wx_selected = [[]; [mk_iv 1 1]] /\
  match indexed_reader_new wx_file (wx_column 0 0) wx_selected with
  | Ok r => drain (ir_next ex_header Checked) 5 r =
      Ok [inl (read_page_of Snappy io_desc None false io_dict); inl (read_page_of Snappy io_desc (Some [mk_iv 1 1]) false io_v2)]
  | _ => False
  end.
Proof.
  split; [ reflexivity | ]. split; [ vm_compute; reflexivity | ]. split; [ repeat (apply Forall_cons; [ codec_ok | ]); apply Forall_nil | ].
  split; [ vm_compute; reflexivity | ]. split; [ vm_compute; reflexivity | ]. split; vm_compute; reflexivity.
Qed.

(** * C80 *)
Definition ix_none : column_md := mk_cmd (mk_tcc None 0 None None None None None None None) (mk_cdescr io_desc [] (Primitive wx_b)).

(** The two theorems on files above are about adjacent columns of one row group. For other lists of columns the readers return, without an
    error, what belongs to other columns: here the locations of the first column of each of the two row groups are asked for. *)
Theorem scattered_columns_refuted : exists ls ls1 ls2,
  read_pages_locations ex_offset_index wx_file [wx_column 0 0] = Ok [ls1] /\ read_pages_locations ex_offset_index wx_file [wx_column 1 0] = Ok [ls2] /\
  read_pages_locations ex_offset_index wx_file [wx_column 0 0; wx_column 1 0] = Ok ls /\ ls <> [ls1; ls2] /\
  ls = [ls1; nth 1 wx_locs []].
Proof.
  set (one := fun c => match read_pages_locations ex_offset_index wx_file [c] with Ok [l] => l | _ => [] end).
  exists [nth 0 wx_locs []; nth 1 wx_locs []], (one (wx_column 0 0)), (one (wx_column 1 0)). vm_compute.
  split; [ reflexivity | ]. split; [ reflexivity | ]. split; [ reflexivity | ]. split; [ discriminate | reflexivity ].
Qed.
Print Assumptions scattered_columns_refuted.
(** Exactly: of all the places named by the metadata only the first column's is used. The indexes are read as if each column had its index
    right behind that of the column before it in the list, one column at a time. *)
Theorem columns_read_as_adjacent T file chunks o sizes :
  first_index_at chunks o -> index_sizes chunks sizes ->
  read_columns_indexes T file chunks =
  let* ls := collect_res (map (fun x => read_columns_indexes T file [moved_to (fst x) (snd x)]) (combine (one_behind_the_other o sizes) chunks)) in Ok (concat ls).
Proof. apply columns_placed. Qed.
Print Assumptions columns_read_as_adjacent.
(** So the result is the one asked for, column by column, for lists of columns of any row groups, if the places named are one behind the other; *)
Theorem columns_adjacent_exact T file chunks o sizes :
  first_index_at chunks o -> index_sizes chunks sizes ->
  Forall2 (fun c place => cc_column_index_offset (cmd_chunk c) = Some (Z.of_N (fst place))) chunks (one_behind_the_other o sizes) ->
  read_columns_indexes T file chunks = let* ls := collect_res (map (fun c => read_columns_indexes T file [c]) chunks) in Ok (concat ls).
Proof.
  intros H1 H2 H3. rewrite (columns_placed T file chunks o sizes H1 H2). do 2 f_equal. clear H1. revert o H3.
  induction H2 as [|c n chunks sizes Hc _ IH]; intros o H3; [ reflexivity | ]. cbn [one_behind_the_other combine map fst snd] in *. inversion H3 as [|? ? ? ? E H4]; subst.
  cbn [fst] in E. rewrite (IH _ H4). f_equal. f_equal. f_equal. unfold moved_to. destruct c as [k d]. cbn [cmd_chunk cmd_descr fst snd] in *. destruct k. cbn in *. rewrite E, Hc. reflexivity.
Qed.
Print Assumptions columns_adjacent_exact.
Example columns_adjacent_exact_case :
  let chunks := rgm_columns (wx_group 0) ++ rgm_columns (wx_group 1) in
  exists o sizes, first_index_at chunks o /\ index_sizes chunks sizes /\ length sizes = 4%nat /\
    Forall2 (fun c place => cc_column_index_offset (cmd_chunk c) = Some (Z.of_N (fst place))) chunks (one_behind_the_other o sizes) /\
    ~ Forall2 (fun c place => cc_column_index_offset (cmd_chunk c) = Some (Z.of_N (fst place))) [wx_column 0 0; wx_column 1 0] (one_behind_the_other o [nth 0 sizes 0; nth 2 sizes 0]).
Proof.
  cbv zeta. set (chunks := rgm_columns (wx_group 0) ++ rgm_columns (wx_group 1)).
  set (f := fun c => match cc_column_index_length (cmd_chunk c) with Some n => Z.to_N n | None => 0 end).
  set (o := match chunks with c :: _ => match cc_column_index_offset (cmd_chunk c) with Some n => Z.to_N n | None => 0 end | [] => 0 end).
  exists o, (map f chunks). split; [ | split; [ | split; [ | split ] ] ].
  - exists (nth 0 chunks ix_none), (skipn 1 chunks). split; vm_compute; reflexivity.
  - unfold index_sizes. vm_compute. repeat constructor.
  - vm_compute. reflexivity.
  - vm_compute. repeat constructor.
  - intros H. vm_compute in H. inversion H as [|? ? ? ? _ H1]. inversion H1 as [|? ? ? ? E _]. discriminate.
Qed.
(** and the page locations depend on nothing but the place of the first column's index, the number of columns and the sum of the sizes. *)
Theorem locations_use_first_place T file a b o sa sb :
  option_map cc_offset_index_offset (option_map cmd_chunk (hd_error a)) = Some (Some o) ->
  option_map cc_offset_index_offset (option_map cmd_chunk (hd_error b)) = Some (Some o) -> length a = length b ->
  Forall2 (fun c n => cc_offset_index_length (cmd_chunk c) = Some (Z.of_N n)) a sa -> Forall2 (fun c n => cc_offset_index_length (cmd_chunk c) = Some (Z.of_N n)) b sb ->
  fold_right N.add 0 sa = fold_right N.add 0 sb ->
  read_pages_locations T file a = read_pages_locations T file b.
Proof.
  intros Ha Hb El Hsa Hsb Es.
  assert (E : forall l n, Forall2 (fun c n => cc_offset_index_length (cmd_chunk c) = Some (Z.of_N n)) l n ->
    collect_res (map (fun c => match cc_offset_index_length (cmd_chunk c) with None => Err OutOfSpec | Some n => try_usize n end) l) = Ok n).
  { clear. induction 1 as [|c n l ns H _ IH]; [ reflexivity | ]. cbn [map collect_res]. rewrite H, try_usize_N. cbn [bind]. rewrite IH. reflexivity. }
  unfold read_pages_locations, prepare_read. destruct a as [|ca a]; [ discriminate | ]. destruct b as [|cb b]; [ discriminate | ]. cbn [hd_error option_map] in Ha, Hb.
  injection Ha as Ha. injection Hb as Hb. rewrite Ha, Hb, (E _ _ Hsa), (E _ _ Hsb). destruct (try_usize o) as [x| |]; cbn [bind]; try reflexivity.
  unfold total. rewrite Es, El. reflexivity.
Qed.
Print Assumptions locations_use_first_place.

(** * C81 *)

(** "Returns an empty vector if indexes are not available". It does for column indexes; *)
Theorem no_column_indexes T file chunks :
  Forall (fun c => cc_column_index_offset (cmd_chunk c) = None) chunks -> read_columns_indexes T file chunks = Ok [].
Proof.
  intros H. unfold read_columns_indexes, prepare_read. destruct H as [|c chunks H _]; [ reflexivity | ]. rewrite H. reflexivity.
Qed.
Print Assumptions no_column_indexes.
(** but for page locations it is an error, when there is any column, with every reader that needs at least a byte for a struct. *)
Theorem no_page_locations T file c chunks e :
  cc_offset_index_offset (cmd_chunk c) = None -> t_dec T 1024 [] = Err e -> read_pages_locations T file (c :: chunks) = Err e.
Proof.
  intros H He. unfold read_pages_locations, prepare_read. rewrite H. cbn [bind total fold_right]. unfold read_at. cbn [N.to_nat skipn firstn length decode_locations].
  change (nlen [] * 2 + 1024) with 1024. rewrite He. reflexivity.
Qed.
Print Assumptions no_page_locations.
Definition ix_bare : column_md := mk_cmd (mk_tcc None 0 None None None None None None None) (mk_cdescr io_desc [] (Primitive wx_b)).
Example missing_indexes_case :
  read_columns_indexes ex_column_index wx_file [ix_bare; ix_bare] = Ok [] /\ t_dec ex_offset_index 1024 [] = Err OutOfSpec /\
  read_pages_locations ex_offset_index wx_file [ix_bare] = Err OutOfSpec.
Proof. vm_compute. repeat split. Qed.
(** Indexes that are missing only for some of the columns: an error. *)
Theorem some_column_indexes T file c chunks :
  cc_column_index_offset (cmd_chunk c) <> None -> Exists (fun c => cc_column_index_length (cmd_chunk c) = None) chunks ->
  exists e, read_columns_indexes T file (c :: chunks) = Err e.
Proof.
  intros Hc Hex. unfold read_columns_indexes, prepare_read. destruct (cc_column_index_offset (cmd_chunk c)) as [o|]; [ | contradiction ].
  unfold try_usize at 1. destruct (o <? 0)%Z; cbn [bind]; [ eexists; reflexivity | ].
  assert (E : forall l : list column_md, Exists (fun c => cc_column_index_length (cmd_chunk c) = None) l ->
    exists e, collect_res (map (fun c => match cc_column_index_length (cmd_chunk c) with None => Err OutOfSpec | Some n => try_usize n end) l) = Err e).
  { clear. induction 1 as [c l H|c l H [e IH]]; cbn [map collect_res]; [ rewrite H; eexists; reflexivity | ].
    destruct (cc_column_index_length (cmd_chunk c)) as [n|]; [ | eexists; reflexivity ]. unfold try_usize at 1. destruct (n <? 0)%Z; cbn [bind]; [ eexists; reflexivity | ].
    rewrite IH. eexists. reflexivity. }
  destruct (E (c :: chunks) (Exists_cons_tl _ Hex)) as [e ->]. exists e. reflexivity.
Qed.
Print Assumptions some_column_indexes.
Example some_column_indexes_case :
  cc_column_index_offset (cmd_chunk (wx_column 0 0)) <> None /\ read_columns_indexes ex_column_index wx_file [wx_column 0 0; ix_bare] = Err OutOfSpec.
Proof. split; [ vm_compute; discriminate | vm_compute; reflexivity ]. Qed.

(** * C82 *)

(** Reading page locations never panics, whatever the file and the metadata; *)
Theorem page_locations_no_panic T file chunks : (forall max s, t_dec T max s <> Panic) -> read_pages_locations T file chunks <> Panic.
Proof.
  intros HT. unfold read_pages_locations. apply bind_no_panic; [ apply prepare_read_total | ]. intros [o l] _. apply decode_locations_total. exact HT.
Qed.
Print Assumptions page_locations_no_panic.
(** and reading column indexes does not if the file holds the ranges that the metadata names, and there is no Boolean column. *)
Theorem column_indexes_no_panic T file chunks : (forall max s, t_dec T max s <> Panic) ->
  (forall offset lengths, prepare_read chunks cc_column_index_offset cc_column_index_length = Ok (offset, lengths) -> offset + total lengths <= nlen file) ->
  Forall (fun c => pt_physical (d_primitive (cd_descriptor (cmd_descr c))) <> Boolean) chunks ->
  read_columns_indexes T file chunks <> Panic.
Proof.
  intros HT Hr Hb. unfold read_columns_indexes. apply bind_no_panic; [ apply prepare_read_total | ]. intros [o l] E. specialize (Hr _ _ E).
  apply deserialize_indexes_total; [ exact HT | exact Hb | ]. rewrite read_at_length by exact Hr. lia.
Qed.
Print Assumptions column_indexes_no_panic.
(** Both conditions are needed: a file that was cut off, and a stored index of a Boolean column with an empty bound. *)
Theorem column_indexes_no_panic_refuted :
  read_columns_indexes ex_column_index (firstn 20 wx_file) [wx_column 0 0] = Panic /\
  index_from_thrift (mk_tci [false] [[]] [[]] 0 None) (mk_prim (mk_fi [97] Required None) None None Boolean) = Panic.
Proof. split; vm_compute; reflexivity. Qed.
Print Assumptions column_indexes_no_panic_refuted.
(** Exactly: reading panics if and only if the metadata has the place of the first index and all sizes, and, reading column by column as above, a column is
    reached whose bytes are not all in the file, or which is Boolean and has a page with an empty bound that is not marked as null. *)
Theorem column_indexes_panics_iff T file chunks : (forall max s, t_dec T max s <> Panic) ->
  read_columns_indexes T file chunks = Panic <->
  exists o sizes before place c after ls, first_index_at chunks o /\ index_sizes chunks sizes /\
    combine (one_behind_the_other o sizes) chunks = before ++ (place, c) :: after /\
    collect_res (map (fun x => read_columns_indexes T file [moved_to (fst x) (snd x)]) before) = Ok ls /\
    (cut_off file place \/
     (pt_physical (d_primitive (cd_descriptor (cmd_descr c))) = Boolean /\
      exists i r, t_dec T (nlen (read_at file (fst place) (snd place)) * 2 + 1024) (read_at file (fst place) (snd place)) = Ok (i, r) /\ empty_bound i /\ ~ cut_off file place)).
Proof.
  intros HT. split.
  - intros H. unfold read_columns_indexes in H. destruct (prepare_read chunks cc_column_index_offset cc_column_index_length) as [[o sizes]|e|] eqn:Ep; cbn [bind] in H;
      [ | discriminate | exfalso; exact (prepare_read_total _ _ _ Ep) ].
    apply prepare_unknown in Ep as [[-> ->]|[H1 H2]]; [ exfalso; destruct chunks; discriminate | ].
    rewrite deserialize_placed in H by (apply sizes_length; exact H2). apply collect_panic in H as (b & a & xs & E & Hb).
    apply map_eq_app in E as (lb & la & E & <- & E2). apply map_eq_cons in E2 as ([place c] & after & -> & E3 & <-). cbn [fst snd] in E3.
    apply one_index_panics in E3; [ | exact HT ]. exists o, sizes, lb, place, c, after, (map (fun x => [x]) xs).
    split; [ exact H1 | ]. split; [ exact H2 | ]. split; [ exact E | ]. split; [ | exact E3 ].
    erewrite map_ext by (intros x; apply read_moved). revert xs Hb. clear. induction lb as [|x l IH]; intros xs Hb; cbn [map collect_res] in *; [ injection Hb as <-; reflexivity | ].
    apply bind_ok in Hb as (y & H1 & Hb). apply bind_ok in Hb as (ys & H2 & Hb). injection Hb as <-. rewrite H1. cbn [bind]. rewrite (IH _ H2). reflexivity.
  - intros (o & sizes & b & place & c & a & ls & H1 & H2 & E & Hb & Hp). rewrite (columns_placed T file chunks o sizes H1 H2), E, map_app. cbn [map fst snd].
    assert (Hx : read_columns_indexes T file [moved_to place c] = Panic).
    { rewrite read_moved. apply (one_index_panics T file place c) in Hp; [ | exact HT ]. rewrite Hp. reflexivity. }
    rewrite Hx. match goal with |- (let* ls := ?l in _) = _ => assert (Hl : l = Panic) end; [ | rewrite Hl; reflexivity ].
    apply collect_panic. eexists _, _, _. split; [ reflexivity | exact Hb ].
Qed.
Print Assumptions column_indexes_panics_iff.
Example column_indexes_panics_iff_case :
  exists o sizes, first_index_at [wx_column 0 0; wx_column 0 1] o /\ index_sizes [wx_column 0 0; wx_column 0 1] sizes /\ length sizes = 2%nat /\
    cut_off (firstn (N.to_nat (o + nth 0 sizes 0)) wx_file) (nth 1 (one_behind_the_other o sizes) (0, 0)) /\
    read_columns_indexes ex_column_index (firstn (N.to_nat (o + nth 0 sizes 0)) wx_file) [wx_column 0 0; wx_column 0 1] = Panic.
Proof.
  set (f := fun c => match cc_column_index_length (cmd_chunk c) with Some n => Z.to_N n | None => 0 end).
  exists (match cc_column_index_offset (cmd_chunk (wx_column 0 0)) with Some n => Z.to_N n | None => 0 end), (map f [wx_column 0 0; wx_column 0 1]).
  split; [ eexists _, _; split; [ reflexivity | vm_compute; reflexivity ] | ]. split; [ unfold index_sizes; vm_compute; repeat constructor | ].
  split; [ reflexivity | ]. split; [ vm_compute; split; reflexivity | vm_compute; reflexivity ].
Qed.
Example column_indexes_no_panic_case : prepare_read (rgm_columns (wx_group 1)) cc_column_index_offset cc_column_index_length <> Ok (0, []) /\
  match prepare_read (rgm_columns (wx_group 1)) cc_column_index_offset cc_column_index_length with
  | Ok (o, l) => o + total l <= nlen wx_file
  | _ => False
  end.
Proof. split; [ vm_compute; discriminate | vm_compute; discriminate ]. Qed.
