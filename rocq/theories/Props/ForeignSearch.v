(** C135: a search with the column index of any writer. *)
From Verif Require Import Base.Prelude Base.Iter Model.Types Model.Native Model.Thrift Model.Intervals Model.Page Model.Io Model.Compression Model.BasicDecompress Model.PageRead Model.Metadata
  Model.Indexes Spec.Bits Spec.UlebSpec Spec.RleSpec Spec.FileSpec Spec.RowsSpec Spec.PagesSpec Spec.ForeignSpec Spec.CompressionSpec Spec.PlainSpec Spec.LevelsSpec Spec.ValuesSpec Spec.SelectedSpec Spec.PruneSpec
  Spec.RunsSpec Spec.ForeignValuesSpec Spec.ForeignIndexSpec Spec.ForeignSearchSpec
  Proofs.TypesFacts Proofs.PlainProofs Proofs.PageIoProofs Proofs.ForeignProofs Proofs.SelectedProofs Proofs.PruneProofs Proofs.ForeignValuesProofs Proofs.ForeignIndexProofs Proofs.ForeignSearchProofs Proofs.ThriftCodec
  Props.Intervals Props.Compression Props.PageIo Props.Runs Props.ForeignValues Props.ForeignIndex.
Open Scope N_scope.

(** C135. A column of any writer has an offset index and a column index, whose bounds are true of the cells of the pages. Somebody looks for wanted values, and keeps the
    pages whose bounds do not exclude them. They compute the intervals of rows, and read these rows of another column of any writer in the same row group, or of the same
    column. They get exactly the cells in the rows of the pages that were kept, and among them the cell of each row whose cell in the first column is wanted. *)
Theorem foreign_search : forall k T O IX C m file c codec dictionary pages cellss locs bounds (truth : option (value k) * option (value k) -> value k -> Prop) (keep : option (value k) * option (value k) -> bool) (good : value k -> Prop)
    k' c' codec' dictionary' pages' cellss' dict' locs',
  (* the column with the column index *)
  indexed_column T O file c codec dictionary pages cellss locs -> column_of k (cd_descriptor (cmd_descr c)) -> column_index_of k IX file c bounds ->
  Forall2 (fun b cells => forall v, In (Some v) cells -> truth b v) bounds cellss -> nlen (concat cellss) < 2 ^ 63 ->
  (forall b v, truth b v -> good v -> keep b = true) ->
  (* the column whose cells are read *)
  indexed_column T O file c' codec' dictionary' pages' cellss' locs' -> Forall (header_readable T) pages' ->
  (forall x, dictionary' = Some x -> header_readable T x /\ is_data (snd x) = false /\ page_holds k' C codec' (cd_descriptor (cmd_descr c')) dict' (snd x) []) ->
  column_of k' (cd_descriptor (cmd_descr c')) -> Forall2 (page_holds k' C codec' (cd_descriptor (cmd_descr c')) dict') (map snd pages') cellss' ->
  nlen (concat cellss') = nlen (concat cellss) ->
  exists ix intervals sel r ps selected,
    read_columns_indexes IX file [c] = Ok [ix] /\ bounds_found k ix bounds /\
    read_pages_locations O file [c] = Ok [locs] /\ compute_rows (map keep bounds) locs (nlen (concat cellss)) = Ok intervals /\
    read_pages_locations O file [c'] = Ok [locs'] /\ select_pages m intervals locs' (nlen (concat cellss)) = Ok sel /\ indexed_reader_new file c' sel = Ok r /\
    (forall buffers, length buffers = S (length ps) -> bd_run C m (ir_next T m) buffers r = Ok (map (fun p => inl (Some p)) ps ++ [inl None])) /\
    Forall2 (selection_reads k' m dict') ps selected /\
    concat selected = pick (concat cellss') (rows_kept 0 (map keep bounds) (map (@length _) cellss)) /\
    (forall row v cell, nth_error (concat cellss) row = Some (Some v) -> good v -> nth_error (concat cellss') row = Some cell -> In cell (concat selected)).
Proof.
  intros k T O IX C m file c codec dictionary pages cellss locs bounds truth keep good k' c' codec' dictionary' pages' cellss' dict' locs' Hc Hk Hix Htrue Htotal Hsound Hc' Hh' Hd' Hk' Hp' Hsame.
  destruct (foreign_index_read k IX file c bounds Hk Hix) as (ix & Eix & Hfound). destruct (indexed_locations _ _ _ _ _ _ _ _ _ Hc) as [Eread Hl].
  destruct (listed_rows _ _ _ _ _ _ Hl) as (R1 & R2 & _). rewrite N.add_0_l in *. change (Z.of_N 0) with 0%Z in *.
  set (n := nlen (concat cellss)) in *. assert (Hn : n < 9223372036854775808) by exact Htotal.
  assert (Hlocs : locs_ok locs). { unfold locs_ok. eapply Forall_impl; [|exact R2]. intros x Hx. change (2 ^ 63)%Z with 9223372036854775808%Z. cbn beta in Hx. lia. }
  destruct (page_row_intervals_exact locs n Hlocs) as [H1 _]. destruct (H1 R1) as (ivs & Ep & Eb). clear H1.
  destruct (compute_rows_exact (map keep bounds) locs n ivs Hlocs Ep) as (intervals & Ei & Hsd & _).
  assert (Eiv : intervals = map snd (filter fst (combine (map keep bounds) ivs))) by (unfold compute_rows in Ei; rewrite Ep in Ei; cbn [bind] in Ei; congruence).
  destruct (kept_listed T file 0 pages cellss locs Hl (map keep bounds) ivs) as (K1 & K2 & K3).
  { rewrite N.add_0_l. fold n. change (2 ^ 64) with 18446744073709551616. lia. }
  { rewrite N.add_0_l. exact Eb. }
  rewrite <- Eiv in K1, K2, K3. cbn [N.to_nat] in K1.
  destruct (foreign_selected_read k' T O C m file c' codec' dictionary' pages' cellss' dict' locs' intervals Hc' Hh' Hd' Hk' Hp' ltac:(rewrite Hsame; exact Htotal) Hsd K2 K3)
    as (sel & r & ps & selected & Y1 & Y2 & Y3 & Y4 & Y5 & Y6).
  rewrite Hsame in Y2. exists ix, intervals, sel, r, ps, selected.
  split; [exact Eix|]. split; [exact Hfound|]. split; [exact Eread|]. split; [exact Ei|]. split; [exact Y1|]. split; [exact Y2|]. split; [exact Y3|]. split; [exact Y4|]. split; [exact Y5|].
  split; [rewrite <- K1; exact Y6|]. intros row v cell Hr Hw Hcell. rewrite Y6. unfold pick. apply in_flat_map. exists row. split; [|rewrite Hcell; left; reflexivity]. rewrite K1.
  refine (rows_kept_in (fun b (cells : list (option (value k))) => forall v, In (Some v) cells -> truth b v) keep (fun x => match x with Some v => good v | None => False end) _ bounds cellss 0 Htrue row (Some v) Hr Hw).
  intros b cells [w|] Hb Hin Hgood; [|destruct Hgood]. exact (Hsound b w (Hb w Hin) Hgood).
Qed.
Print Assumptions foreign_search.

(** The file of the example of C134 with a column index after the offset index, which says that the values of the first page lie from 5 to 7 and those of the second from 1 to 3.
    Somebody looks for values of at most 2, and gets the second page. *)
Definition lq_index := mk_tci [false; false] [[5; 0; 0; 0]; [1; 0; 0; 0]] [[7; 0; 0; 0]; [3; 0; 0; 0]] 2 None.
Definition lq_before := kx_file ++ [0].
Definition lq_file := lq_before ++ t_enc ex_column_index lq_index ++ [80; 65; 82; 49].
Definition lq_column := mk_cmd (mk_tcc None 0 (Some (mk_tcm 1 [] [[97]] 1 10 5 5 None 40 None (Some 4%Z) None None None)) (Some (Z.of_N (nlen kx_before))) (Some (Z.of_N (nlen (t_enc ex_offset_index kx_locs))))
    (Some (Z.of_N (nlen lq_before))) (Some (Z.of_N (nlen (t_enc ex_column_index lq_index)))) None None)
  (mk_cdescr ux_desc [[97]] (Primitive (d_primitive ux_desc))).
Definition lq_bounds : list (option Z * option Z) := [(Some 5, Some 7); (Some 1, Some 3)]%Z.
Definition lq_within (b : option Z * option Z) (v : Z) : Prop :=
  match fst b with Some lo => (lo <= v)%Z | None => True end /\ match snd b with Some hi => (v <= hi)%Z | None => True end.
Definition lq_keep (b : option Z * option Z) : bool := match fst b with Some lo => (lo <=? 2)%Z | None => true end.
Lemma lq_indexed : indexed_column ex_header ex_offset_index lq_file lq_column Snappy (Some kx_dict) kx_pages (skipn 1 gx_cells) kx_locs.
Proof.
  set (rest := [7; 7] ++ t_enc ex_offset_index kx_locs ++ [80; 65; 82; 49] ++ [0] ++ t_enc ex_column_index lq_index ++ [80; 65; 82; 49]).
  eexists _, 4, kx_before, ([80; 65; 82; 49] ++ [0] ++ t_enc ex_column_index lq_index ++ [80; 65; 82; 49]). repeat (split; [reflexivity|]). split; [|split; [|split; [reflexivity|split; [reflexivity|split; [|]]]]].
  - split; [reflexivity|]. exists [80; 65; 82; 49], (stored_chunk ex_header (skipn 1 gx_pages) ++ rest). split; [vm_compute; reflexivity|reflexivity].
  - apply (listed_cons ex_header lq_file 0 _ _ _ _ _ ([80; 65; 82; 49] ++ stored_chunk ex_header (firstn 1 gx_pages)) (stored_chunk ex_header (skipn 2 gx_pages) ++ rest)); [vm_compute; reflexivity|discriminate|].
    apply (listed_cons ex_header lq_file 5 _ _ _ _ _ ([80; 65; 82; 49] ++ stored_chunk ex_header (firstn 2 gx_pages)) rest); [vm_compute; reflexivity|discriminate|]. apply listed_nil.
  - vm_compute. reflexivity.
  - apply (of_codec_reads_back c_offset_index). refine (of_codec_sound c_offset_index 0 (t_enc ex_offset_index kx_locs) kx_locs [] _). vm_compute. reflexivity.
Qed.
Example foreign_search_case :
  column_index_of (KNative NI32) ex_column_index lq_file lq_column lq_bounds /\
  exists ix intervals sel r ps selected,
    read_columns_indexes ex_column_index lq_file [lq_column] = Ok [ix] /\ bounds_found (KNative NI32) ix lq_bounds /\
    compute_rows (map lq_keep lq_bounds) kx_locs 10 = Ok intervals /\ select_pages Checked intervals kx_locs 10 = Ok sel /\ indexed_reader_new lq_file lq_column sel = Ok r /\
    (forall buffers, length buffers = S (length ps) -> bd_run toy Checked (ir_next ex_header Checked) buffers r = Ok (map (fun p => inl (Some p)) ps ++ [inl None])) /\
    Forall2 (selection_reads (KNative NI32) Checked (Some [5; 7]%Z)) ps selected /\ concat selected = [Some 1; Some 2; Some 3; None; None]%Z.
Proof.
  assert (Hix : column_index_of (KNative NI32) ex_column_index lq_file lq_column lq_bounds).
  { exists lq_index, lq_before, [80; 65; 82; 49]. split; [reflexivity|]. split; [reflexivity|]. split; [reflexivity|]. split; [|split; [cbn; lia|split; [discriminate|]]].
    - apply (of_codec_reads_back c_column_index). refine (of_codec_sound c_column_index 0 (t_enc ex_column_index lq_index) lq_index [] _). vm_compute. reflexivity.
    - apply say_bounds; [split; [cbn; lia|reflexivity]|split; [cbn; lia|reflexivity]|]. apply say_bounds; [split; [cbn; lia|reflexivity]|split; [cbn; lia|reflexivity]|]. apply say_nil. }
  split; [exact Hix|].
  destruct (foreign_search (KNative NI32) ex_header ex_offset_index ex_column_index toy Checked lq_file lq_column Snappy (Some kx_dict) kx_pages (skipn 1 gx_cells) kx_locs lq_bounds lq_within lq_keep (fun v => v <= 2)%Z
    (KNative NI32) lq_column Snappy (Some kx_dict) kx_pages (skipn 1 gx_cells) (Some [5; 7]%Z) kx_locs lq_indexed) as (ix & intervals & sel & r & ps & selected & X1 & X2 & X3 & X4 & X5 & X6 & X7 & X8 & X9 & X10 & X11).
  - reflexivity.
  - exact Hix.
  - apply Forall2_cons; [|apply Forall2_cons; [|apply Forall2_nil]]; intros v [E|[E|[E|[E|[E|[]]]]]]; try discriminate E; injection E as <-; split; cbn; lia.
  - reflexivity.
  - intros [lo hi] v [Hb _] Hv. unfold lq_keep. cbn [fst] in *. destruct lo as [lo|]; [|reflexivity]. apply Z.leb_le. lia.
  - exact lq_indexed.
  - repeat apply Forall_cons; [| |apply Forall_nil]; (split; [|codec_ok]); cbn; repeat split.
  - intros x Ex. injection Ex as <-. split; [split; [|codec_ok]; cbn; repeat split; eexists; repeat split; discriminate|]. split; [reflexivity|]. pose proof gx_holds as H. inversion H; subst. assumption.
  - reflexivity.
  - pose proof gx_holds as H. inversion H; subst. assumption.
  - reflexivity.
  - exists ix, intervals, sel, r, ps, selected. repeat (split; [assumption|]). rewrite X10. reflexivity.
Qed.
