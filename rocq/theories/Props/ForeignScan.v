(** C138: a search in a file of any writer that skips row groups and pages finds what reading everything finds. *)
From Verif Require Import Base.Prelude Base.Iter Model.Types Model.Native Model.Thrift Model.Statistics Model.Intervals Model.Page Model.Io Model.Compression Model.BasicDecompress Model.PageRead Model.Metadata Model.ColumnMeta
  Model.Schema Model.Indexes Model.FileWrite
  Spec.Bits Spec.PagesSpec Spec.ForeignSpec Spec.CompressionSpec Spec.PlainSpec Spec.RowsSpec Spec.LevelsSpec Spec.ValuesSpec Spec.RunsSpec Spec.SkipSpec Spec.SearchSpec Spec.SelectedSpec Spec.PruneSpec Spec.SchemaSpec
  Spec.MetadataSpec Spec.AcceptSpec Spec.ForeignValuesSpec Spec.ForeignIndexSpec Spec.ForeignSearchSpec Spec.ForeignSkipSpec Spec.ForeignScanSpec
  Proofs.TypesFacts Proofs.PageIoProofs Proofs.PruneProofs Proofs.ForeignProofs Proofs.ForeignValuesProofs Proofs.ForeignIndexProofs Proofs.ForeignSearchProofs Proofs.ForeignSkipProofs Proofs.IndexReadProofs
  Proofs.FileWriteProofs Proofs.CancelProofs Proofs.EndToEndProofs Proofs.ThriftCodec Proofs.IndexProofs
  Props.PageIo Props.FileWrite Props.Compression Props.Runs Props.Accept Props.ForeignValues Props.ForeignFile Props.ForeignIndex Props.ForeignSearch Props.ForeignSkip Props.Search.
Open Scope N_scope.

(** C138. Somebody opens a file of any writer and looks for wanted values in a column. They leave out row groups with a test on the bounds of the column's statistics, and in the row groups that are
    left read only the pages whose bounds in the column index pass the test. The test lets pass all bounds within which a wanted value can lie. The wanted values among the cells that they get are
    those of all row groups, in order and as often. *)
Theorem foreign_search_equals_scan : forall k F C m file t schema j leaf truth cells (keep : option (value k) * option (value k) -> bool) (wanted : value k -> bool) (passes : row_group_md -> nat -> bool),
  ends_in F file t -> sd_try_from_thrift m (fm_schema t) = Ok schema -> file_acceptable schema t -> nth_error (sd_leaves schema) j = Some leaf -> ValuesSpec.column_of k (cd_descriptor leaf) ->
  Forall2 (group_indexed k F C file j leaf truth) (fm_row_groups t) cells ->
  (forall b v, truth b v -> wanted v = true -> keep b = true) ->
  (forall rg i c, nth_error (rgm_columns rg) j = Some c ->
     cmd_statistics c = Ok None \/ (exists e, cmd_statistics c = Ok (Some (Err e))) \/ (exists s b, cmd_statistics c = Ok (Some (Ok s)) /\ bounds_stated k s b /\ keep b = true) ->
     passes rg i = true) ->
  exists md found,
    read_metadata (f_file F) m file = Ok md /\
    Forall2 (group_searched k F C m keep file j) (fmd_row_groups (filter_row_groups md passes)) found /\
    filter (hit wanted) (concat found) = filter (hit wanted) (concat cells).
Proof.
  intros k F C m file t schema j leaf truth cells keep wanted passes He Hs Ha El Hk Hg Hsound Hpass.
  exists (metadata_of schema t).
  assert (Eopen : read_metadata (f_file F) m file = Ok (metadata_of schema t)) by (apply foreign_opened; assumption).
  assert (H : exists founds, Forall2 (fun rg l => group_searched k F C m keep file j rg l /\ forall i, passes rg i = false -> filter (hit wanted) l = []) (fmd_row_groups (metadata_of schema t)) founds /\
                filter (hit wanted) (concat founds) = filter (hit wanted) (concat cells)).
  { cbn [metadata_of fmd_row_groups]. clear - Hg El Hk Hsound Hpass.
    induction Hg as [|g l groups cells (chunk & meta & codec & dictionary & pages & dict & cellss & locs & bounds & E1 & E2 & Hst & Hi & Hx & Ht & Hh & Hd & Hp & El' & Er & Hn) _ (founds & IH1 & IH2)];
      [exists []; split; [constructor|reflexivity]|].
    assert (E3 : nth_error (rgm_columns (group_of schema g)) j = Some (mk_cmd chunk leaf)).
    { cbn [group_of rgm_columns]. rewrite nth_error_map. erewrite nth_error_combine; [|exact E1|exact El]. reflexivity. }
    assert (E4 : rgm_num_rows (group_of schema g) = nlen (concat cellss)) by (cbn [group_of rgm_num_rows]; rewrite Er, N2Z.id, El'; reflexivity).
    destruct (foreign_search k (f_header F) (f_offsets F) (f_index F) C m file (mk_cmd chunk leaf) codec dictionary pages cellss locs bounds truth keep (fun v => wanted v = true)
      k (mk_cmd chunk leaf) codec dictionary pages cellss dict locs Hi Hk Hx Ht ltac:(rewrite <- El'; exact Hn) Hsound Hi Hh Hd Hk Hp eq_refl)
      as (ix & intervals & sel & r & ps & selected & X1 & X2 & X3 & X4 & _ & X6 & X7 & X8 & X9 & X10 & _).
    assert (Hlen : length bounds = length cellss) by (eapply Forall2_length; exact Ht).
    assert (Hsame : filter (hit wanted) (concat selected) = filter (hit wanted) l).
    { rewrite X10, El'. pose proof (pick_kept cellss (map keep bounds) [] ltac:(rewrite map_length; exact Hlen)) as P. cbn [app length] in P. rewrite P.
      apply kept_hits with (start := 0%nat); [rewrite map_length; exact Hlen|]. intros row x Hr Hhit. destruct x as [v|]; [|discriminate Hhit]. cbn [hit] in Hhit.
      refine (rows_kept_in (fun b (cells : list (option (value k))) => forall v, In (Some v) cells -> truth b v) keep (fun x => match x with Some v => wanted v = true | None => False end) _ bounds cellss 0 Ht row (Some v) Hr Hhit).
      intros b cs [w|] Hb Hin Hgood; [|destruct Hgood]. exact (Hsound b w (Hb w Hin) Hgood). }
    exists (concat selected :: founds). split; [|cbn [concat]; rewrite !filter_app, Hsame, IH2; reflexivity].
    cbn [map]. apply Forall2_cons; [|exact IH1]. split.
    - exists (mk_cmd chunk leaf), ix, bounds, locs, intervals, sel, r, dict, ps, selected. rewrite E4. repeat (split; [assumption|]). reflexivity.
    - intros i Hf. rewrite Hsame. destruct (filter (hit wanted) l) as [|x rest] eqn:Ef; [reflexivity|exfalso].
      assert (Hin : In x (filter (hit wanted) l)) by (rewrite Ef; left; reflexivity). apply filter_In in Hin as [Hin Hhit]. destruct x as [v|]; [|discriminate Hhit]. cbn [hit] in Hhit.
      assert (T : passes (group_of schema g) i = true); [|congruence]. apply (Hpass _ i _ E3).
      destruct (cm_statistics meta) as [s|] eqn:Es.
      + destruct (foreign_statistics k (mk_cmd chunk leaf) meta s Hk E2 Es) as [S1 S2]. destruct (Hst s eq_refl) as [Hb|(b & Hb & Htrue)]; [right; left; exists OutOfSpec; exact (S2 Hb)|].
        destruct (S1 b Hb) as (st & A1 & A2 & _). right. right. exists st, b. split; [exact A1|]. split; [exact A2|]. exact (Hsound b v (Htrue v Hin) Hhit).
      + left. unfold cmd_statistics, cmd_meta. cbn [cmd_chunk]. rewrite E2. cbn [bind]. rewrite Es. reflexivity. }
  destruct H as (founds & H & Hf).
  destruct (filter_from_cells (hit wanted) passes _ _ _ 0 H) as (kept & K1 & K2). exists kept. split; [exact Eopen|]. split; [exact K1|rewrite K2; exact Hf].
Qed.
Print Assumptions foreign_search_equals_scan.

(** Two row groups of one column, with both indexes. The first has the values 1, 2 and 3 in one page, and statistics that say so. The second has 7, 7 and 5 in its first page and 1, 2 and 3 in its second,
    statistics with a bound of two bytes, and begins with a dictionary. Somebody looks for values of at least 4: they leave out the first row group, and of the second they read the first page. *)
Definition oq_locs := [mk_loc (kx_start 2) (kx_size 2) 0].
Definition oq_index := mk_tci [false] [[1; 0; 0; 0]] [[3; 0; 0; 0]] 0 None.
Definition oq_p1 := kx_before ++ t_enc ex_offset_index kx_locs.
Definition oq_p2 := oq_p1 ++ t_enc ex_column_index lq_index.
Definition oq_p3 := oq_p2 ++ t_enc ex_offset_index oq_locs.
Definition oq_body := oq_p3 ++ t_enc ex_column_index oq_index.
Definition oq_chunk1 := mk_tcc None 0 (Some (mk_tcm 1 [] [[97]] 1 5 5 5 None (kx_start 2) None None (Some (bq_stats [1; 0; 0; 0] [3; 0; 0; 0])) None None))
  (Some (Z.of_N (nlen oq_p2))) (Some (Z.of_N (nlen (t_enc ex_offset_index oq_locs)))) (Some (Z.of_N (nlen oq_p3))) (Some (Z.of_N (nlen (t_enc ex_column_index oq_index)))) None None.
Definition oq_chunk2 := mk_tcc None 0 (Some (mk_tcm 1 [] [[97]] 1 10 5 5 None 40 None (Some 4%Z) (Some (bq_stats [1; 0; 0; 0] [7; 0])) None None))
  (Some (Z.of_N (nlen kx_before))) (Some (Z.of_N (nlen (t_enc ex_offset_index kx_locs)))) (Some (Z.of_N (nlen oq_p1))) (Some (Z.of_N (nlen (t_enc ex_column_index lq_index)))) None None.
Definition oq_meta := mk_tfm 2 (sd_into_thrift bq_schema) 15 [mk_trg [oq_chunk1] 5 5 None None None None; mk_trg [oq_chunk2] 5 10 None None None None] None None None None None.
Definition oq_tail := t_enc ex_file_meta oq_meta ++ to_le 4 (nlen (t_enc ex_file_meta oq_meta)) ++ [80; 65; 82; 49].
Definition oq_file := oq_body ++ oq_tail.
Definition oq_cells : list (list (option Z)) := [concat (skipn 2 gx_cells); concat (skipn 1 gx_cells)].
Lemma oq_indexed : Forall2 (group_indexed (KNative NI32) wx_formats toy oq_file 0 bq_leaf bq_truth) (fm_row_groups oq_meta) oq_cells.
Proof.
  assert (Hr : Forall (header_readable ex_header) kx_pages) by (repeat apply Forall_cons; [| |apply Forall_nil]; (split; [|codec_ok]); cbn; repeat split).
  pose proof gx_holds as Hh. inversion Hh as [|? ? ? ? Hh0 Hh1]; subst. inversion Hh1 as [|? ? ? ? _ Hh2]; subst. clear Hh.
  apply Forall2_cons; [|apply Forall2_cons; [|apply Forall2_nil]].
  - eexists oq_chunk1, _, Snappy, None, (skipn 2 gx_pages), (Some [5; 7]%Z), (skipn 2 gx_cells), oq_locs, [(Some 1, Some 3)]%Z.
    split; [reflexivity|]. split; [reflexivity|]. split; [|split; [|split; [|split; [|split; [|split; [discriminate|split; [exact Hh2|split; [reflexivity|split; reflexivity]]]]]]]].
    + intros x [= <-]. right. exists (Some 1, Some 3)%Z. split; [split; cbn; (split; [split; [lia|reflexivity]|exact I])|]. apply bq_in. vm_compute. reflexivity.
    + eexists _, (Z.to_N (kx_start 2)), oq_p2, (t_enc ex_column_index oq_index ++ oq_tail). split; [reflexivity|]. split; [vm_compute; reflexivity|]. split; [vm_compute; reflexivity|]. split; [reflexivity|].
      split; [vm_compute; reflexivity|]. split; [|split; [reflexivity|split; [reflexivity|split; [vm_compute; reflexivity|]]]].
      * apply (listed_cons ex_header oq_file 0 _ _ _ _ _ ([80; 65; 82; 49] ++ stored_chunk ex_header (firstn 2 gx_pages))
          ([7; 7] ++ t_enc ex_offset_index kx_locs ++ t_enc ex_column_index lq_index ++ t_enc ex_offset_index oq_locs ++ t_enc ex_column_index oq_index ++ oq_tail)); [vm_compute; reflexivity|discriminate|apply listed_nil].
      * apply (of_codec_reads_back c_offset_index). refine (of_codec_sound c_offset_index 0 (t_enc ex_offset_index oq_locs) oq_locs [] _). vm_compute. reflexivity.
    + exists oq_index, oq_p3, oq_tail. split; [reflexivity|]. split; [reflexivity|]. split; [vm_compute; reflexivity|]. split; [|split; [cbn; lia|split; [discriminate|]]].
      * apply (of_codec_reads_back c_column_index). refine (of_codec_sound c_column_index 0 (t_enc ex_column_index oq_index) oq_index [] _). vm_compute. reflexivity.
      * apply say_bounds; [split; [cbn; lia|reflexivity]|split; [cbn; lia|reflexivity]|]. apply say_nil.
    + apply Forall2_cons; [|apply Forall2_nil]. apply bq_in. vm_compute. reflexivity.
    + inversion Hr; subst; assumption.
  - eexists oq_chunk2, _, Snappy, (Some kx_dict), kx_pages, (Some [5; 7]%Z), (skipn 1 gx_cells), kx_locs, lq_bounds.
    split; [reflexivity|]. split; [reflexivity|]. split; [|split; [|split; [|split; [|split; [exact Hr|split; [|split; [exact Hh1|split; [reflexivity|split; reflexivity]]]]]]]].
    + intros x [= <-]. left. exists 4, [7; 0]. split; [reflexivity|]. split; [right; reflexivity|discriminate].
    + set (rest := [7; 7] ++ t_enc ex_offset_index kx_locs ++ t_enc ex_column_index lq_index ++ t_enc ex_offset_index oq_locs ++ t_enc ex_column_index oq_index ++ oq_tail).
      eexists _, 4, kx_before, (t_enc ex_column_index lq_index ++ t_enc ex_offset_index oq_locs ++ t_enc ex_column_index oq_index ++ oq_tail). repeat (split; [reflexivity|]).
      split; [|split; [|split; [reflexivity|split; [reflexivity|split; [vm_compute; reflexivity|]]]]].
      * split; [reflexivity|]. exists [80; 65; 82; 49], (stored_chunk ex_header (skipn 1 gx_pages) ++ rest). split; [vm_compute; reflexivity|reflexivity].
      * apply (listed_cons ex_header oq_file 0 _ _ _ _ _ ([80; 65; 82; 49] ++ stored_chunk ex_header (firstn 1 gx_pages)) (stored_chunk ex_header (skipn 2 gx_pages) ++ rest)); [vm_compute; reflexivity|discriminate|].
        apply (listed_cons ex_header oq_file 5 _ _ _ _ _ ([80; 65; 82; 49] ++ stored_chunk ex_header (firstn 2 gx_pages)) rest); [vm_compute; reflexivity|discriminate|]. apply listed_nil.
      * apply (of_codec_reads_back c_offset_index). refine (of_codec_sound c_offset_index 0 (t_enc ex_offset_index kx_locs) kx_locs [] _). vm_compute. reflexivity.
    + exists lq_index, oq_p1, (t_enc ex_offset_index oq_locs ++ t_enc ex_column_index oq_index ++ oq_tail). split; [reflexivity|]. split; [reflexivity|]. split; [vm_compute; reflexivity|]. split; [|split; [cbn; lia|split; [discriminate|]]].
      * apply (of_codec_reads_back c_column_index). refine (of_codec_sound c_column_index 0 (t_enc ex_column_index lq_index) lq_index [] _). vm_compute. reflexivity.
      * apply say_bounds; [split; [cbn; lia|reflexivity]|split; [cbn; lia|reflexivity]|]. apply say_bounds; [split; [cbn; lia|reflexivity]|split; [cbn; lia|reflexivity]|]. apply say_nil.
    + apply Forall2_cons; [|apply Forall2_cons; [|apply Forall2_nil]]; apply bq_in; vm_compute; reflexivity.
    + intros x Ex. injection Ex as <-. split; [split; [|codec_ok]; cbn; repeat split; eexists; repeat split; discriminate|]. split; [reflexivity|exact Hh0].
Qed.
Example foreign_search_equals_scan_case :
  exists md found, read_metadata ex_file_meta Checked oq_file = Ok md /\
    map rgm_num_rows (fmd_row_groups (filter_row_groups md bq_passes)) = [10] /\
    Forall2 (group_searched (KNative NI32) wx_formats toy Checked bq_keep oq_file 0) (fmd_row_groups (filter_row_groups md bq_passes)) found /\
    filter (hit bq_wanted) (concat found) = [Some 7; Some 7; Some 5]%Z.
Proof.
  destruct (foreign_search_equals_scan (KNative NI32) wx_formats toy Checked oq_file oq_meta bq_schema 0 bq_leaf bq_truth oq_cells bq_keep bq_wanted bq_passes) as (md & found & E & Hf & Hsame).
  - exists oq_body. split; [reflexivity|].
    split; [vm_compute; discriminate|]. split; [vm_compute; reflexivity|].
    apply (of_codec_reads_back c_file_meta). refine (of_codec_sound c_file_meta 0 (t_enc ex_file_meta oq_meta) oq_meta [] _). vm_compute. reflexivity.
  - vm_compute. reflexivity.
  - split; [|cbn; lia]. repeat (apply Forall_cons; [split; [reflexivity|split; [cbn; lia|split; [cbn; lia|apply Forall_cons; [|apply Forall_nil]]]]; split; [vm_compute; repeat split; discriminate|first [discriminate|intros o [= <-]; lia]]|]). apply Forall_nil.
  - reflexivity.
  - reflexivity.
  - exact oq_indexed.
  - unfold bq_truth, bq_wanted, bq_keep. intros [lo [hi|]] v; cbn [fst snd]; [lia|reflexivity].
  - intros rg i c E H. unfold bq_passes. destruct (rgm_columns rg) as [|c' r]; [discriminate E|]. injection E as ->.
    destruct H as [-> |[[e ->]|(s & b & -> & (p & x & -> & ->) & H)]]; [reflexivity|reflexivity|exact H].
  - exists md, found. split; [exact E|]. split; [|split; [exact Hf|transitivity (filter (hit bq_wanted) (concat oq_cells)); [exact Hsame|vm_compute; reflexivity]]].
    assert (E' : read_metadata ex_file_meta Checked oq_file = Ok (metadata_of bq_schema oq_meta)) by (vm_compute; reflexivity).
    assert (X : Ok md = Ok (metadata_of bq_schema oq_meta)) by (rewrite <- E', <- E; reflexivity). injection X as ->. vm_compute. reflexivity.
Qed.
