(** C139: a query over two columns of any writer's file. *)
From Verif Require Import Base.Prelude Base.Iter Model.Types Model.Native Model.Thrift Model.Statistics Model.Intervals Model.Page Model.Io Model.Compression Model.BasicDecompress Model.PageRead Model.Metadata Model.ColumnMeta
  Model.Schema Model.Indexes Model.FileWrite
  Spec.Bits Spec.PagesSpec Spec.FileSpec Spec.ForeignSpec Spec.CompressionSpec Spec.PlainSpec Spec.RowsSpec Spec.LevelsSpec Spec.ValuesSpec Spec.RunsSpec Spec.SkipSpec Spec.SearchSpec Spec.SelectedSpec Spec.PruneSpec Spec.SchemaSpec
  Spec.MetadataSpec Spec.AcceptSpec Spec.ForeignValuesSpec Spec.ForeignIndexSpec Spec.ForeignSearchSpec Spec.ForeignSkipSpec Spec.ForeignScanSpec Spec.ForeignQuerySpec
  Proofs.TypesFacts Proofs.PageIoProofs Proofs.PruneProofs Proofs.ForeignProofs Proofs.ForeignValuesProofs Proofs.ForeignIndexProofs Proofs.ForeignSearchProofs Proofs.ForeignSkipProofs Proofs.IndexReadProofs
  Proofs.FileWriteProofs Proofs.CancelProofs Proofs.EndToEndProofs Proofs.ThriftCodec Proofs.IndexProofs
  Props.PageIo Props.FileWrite Props.Compression Props.Runs Props.Accept Props.ForeignValues Props.ForeignFile Props.ForeignIndex Props.ForeignSearch Props.ForeignSkip Props.Search Props.ForeignScan.
Open Scope N_scope.

Lemma nth_error_pair {A B} : forall (a : list A) (b : list B) r, length a = length b ->
  nth_error (combine a b) r = match nth_error a r, nth_error b r with Some x, Some y => Some (x, y) | _, _ => None end.
Proof. induction a as [|x a IH]; intros [|y b] [|r] H; try discriminate H; try reflexivity. cbn [combine nth_error]. apply IH. now injection H. Qed.
Lemma pick_pairs {A B} (a : list A) (b : list B) : length a = length b -> forall rows,
  length (pick a rows) = length (pick b rows) /\ combine (pick a rows) (pick b rows) = pick (combine a b) rows.
Proof.
  intros H. unfold pick. induction rows as [|r rows [IH1 IH2]]; [split; reflexivity|]. cbn [flat_map]. rewrite (nth_error_pair a b r H).
  destruct (nth_error a r) as [x|] eqn:Ea, (nth_error b r) as [y|] eqn:Eb.
  - cbn [app length combine]. rewrite IH1, IH2. split; reflexivity.
  - exfalso. apply nth_error_None in Eb. assert (nth_error a r <> None) by congruence. apply nth_error_Some in H0. lia.
  - exfalso. apply nth_error_None in Ea. assert (nth_error b r <> None) by congruence. apply nth_error_Some in H0. lia.
  - cbn [app]. split; [exact IH1|exact IH2].
Qed.
Lemma regroup {A B} : forall (cellss : list (list A)) (l : list B), length (concat cellss) = length l ->
  exists ll, concat ll = l /\ map (@length _) ll = map (@length _) cellss.
Proof.
  induction cellss as [|c cellss IH]; intros l H.
  - exists []. destruct l; [split; reflexivity|discriminate H].
  - cbn [concat] in H. rewrite app_length in H. destruct (IH (skipn (length c) l)) as (ll & E1 & E2); [rewrite skipn_length; lia|].
    exists (firstn (length c) l :: ll). cbn [concat map]. rewrite E1, E2, firstn_skipn, firstn_length, Nat.min_l by lia. split; reflexivity.
Qed.

(** C139. Somebody opens a file of any writer and asks for the rows whose cell in one column is wanted, with their cells in another column. They leave out row groups with a test on the bounds of the
    statistics of the first column. In the row groups that are left they keep the pages whose bounds in the column index pass the test, compute their intervals of rows, and read these from both columns, whose
    pages may begin at different rows. The wanted rows among those they get are exactly the wanted rows of the file, in order, each with both its cells. *)
Theorem foreign_query : forall k k' F C m file t schema j leaf j' leaf' truth table (keep : option (value k) * option (value k) -> bool) (wanted : value k -> bool) (passes : row_group_md -> nat -> bool),
  ends_in F file t -> sd_try_from_thrift m (fm_schema t) = Ok schema -> file_acceptable schema t ->
  nth_error (sd_leaves schema) j = Some leaf -> ValuesSpec.column_of k (cd_descriptor leaf) ->
  nth_error (sd_leaves schema) j' = Some leaf' -> ValuesSpec.column_of k' (cd_descriptor leaf') ->
  Forall2 (fun g x => group_indexed k F C file j leaf truth g (fst x) /\ group_listed k' F C file j' leaf' g (snd x)) (fm_row_groups t) table ->
  (forall b v, truth b v -> wanted v = true -> keep b = true) ->
  (forall rg i c, nth_error (rgm_columns rg) j = Some c ->
     cmd_statistics c = Ok None \/ (exists e, cmd_statistics c = Ok (Some (Err e))) \/ (exists s b, cmd_statistics c = Ok (Some (Ok s)) /\ bounds_stated k s b /\ keep b = true) ->
     passes rg i = true) ->
  exists md found,
    read_metadata (f_file F) m file = Ok md /\
    Forall2 (group_queried k k' F C m keep file j j') (fmd_row_groups (filter_row_groups md passes)) found /\
    filter (fun row => hit wanted (fst row)) (concat found) = filter (fun row => hit wanted (fst row)) (concat (map (fun x => combine (fst x) (snd x)) table)).
Proof.
  intros k k' F C m file t schema j leaf j' leaf' truth table keep wanted passes He Hs Ha El Hk El' Hk' Hg Hsound Hpass.
  exists (metadata_of schema t). set (h := fun row : option (value k) * option (value k') => hit wanted (fst row)).
  assert (Eopen : read_metadata (f_file F) m file = Ok (metadata_of schema t)) by (apply foreign_opened; assumption).
  assert (H : exists founds, Forall2 (fun rg l => group_queried k k' F C m keep file j j' rg l /\ forall i, passes rg i = false -> filter h l = []) (fmd_row_groups (metadata_of schema t)) founds /\
                filter h (concat founds) = filter h (concat (map (fun x => combine (fst x) (snd x)) table))).
  { cbn [metadata_of fmd_row_groups]. clear - Hg El Hk El' Hk' Hsound Hpass.
    induction Hg as [|g [l l'] groups table [(chunk & meta & codec & dictionary & pages & dict & cellss & locs & bounds & E1 & E2 & Hst & Hi & Hx & Ht & Hh & Hd & Hp & Ec & Er & Hn)
                                      (chunk' & codec' & dictionary' & pages' & dict' & cellss' & locs' & E1' & Hi' & Hh' & Hd' & Hp' & Ec' & Er')] _ (founds & IH1 & IH2)];
      [exists []; split; [constructor|reflexivity]|]. cbn [fst snd] in *.
    assert (E3 : nth_error (rgm_columns (group_of schema g)) j = Some (mk_cmd chunk leaf)).
    { cbn [group_of rgm_columns]. rewrite nth_error_map. erewrite nth_error_combine; [|exact E1|exact El]. reflexivity. }
    assert (E3' : nth_error (rgm_columns (group_of schema g)) j' = Some (mk_cmd chunk' leaf')).
    { cbn [group_of rgm_columns]. rewrite nth_error_map. erewrite nth_error_combine; [|exact E1'|exact El']. reflexivity. }
    assert (E4 : rgm_num_rows (group_of schema g) = nlen (concat cellss)) by (cbn [group_of rgm_num_rows]; rewrite Er, N2Z.id, Ec; reflexivity).
    assert (Esame : nlen (concat cellss') = nlen (concat cellss)) by (rewrite <- Ec, <- Ec'; lia).
    assert (Hn' : nlen (concat cellss) < 2 ^ 63) by (rewrite <- Ec; exact Hn).
    destruct (foreign_search k (f_header F) (f_offsets F) (f_index F) C m file (mk_cmd chunk leaf) codec dictionary pages cellss locs bounds truth keep (fun v => wanted v = true)
      k (mk_cmd chunk leaf) codec dictionary pages cellss dict locs Hi Hk Hx Ht Hn' Hsound Hi Hh Hd Hk Hp eq_refl)
      as (ix & intervals & sel & r & ps & selected & X1 & X2 & X3 & X4 & _ & X6 & X7 & X8 & X9 & X10 & _).
    destruct (foreign_search k (f_header F) (f_offsets F) (f_index F) C m file (mk_cmd chunk leaf) codec dictionary pages cellss locs bounds truth keep (fun v => wanted v = true)
      k' (mk_cmd chunk' leaf') codec' dictionary' pages' cellss' dict' locs' Hi Hk Hx Ht Hn' Hsound Hi' Hh' Hd' Hk' Hp' Esame)
      as (ix' & intervals' & sel' & r' & ps' & selected' & _ & _ & _ & Y4 & Y5 & Y6 & Y7 & Y8 & Y9 & Y10 & _).
    rewrite X4 in Y4. apply Ok_inj in Y4. subst intervals'.
    assert (Hlen : length bounds = length cellss) by (eapply Forall2_length; exact Ht).
    assert (Hll : length l = length l') by (rewrite Ec, Ec'; unfold nlen in Esame; lia).
    set (rows := rows_kept 0 (map keep bounds) (map (@length _) cellss)) in *.
    destruct (pick_pairs (concat cellss) (concat cellss') ltac:(rewrite <- Ec, <- Ec'; exact Hll) rows) as [P1 P2].
    assert (Hsame : filter h (combine (concat selected) (concat selected')) = filter h (combine l l')).
    { rewrite X10, Y10, P2, Ec, Ec'. set (pairs := combine (concat cellss) (concat cellss')).
      destruct (regroup cellss pairs) as (pairss & R1 & R2); [unfold pairs; rewrite combine_length, <- Ec, <- Ec'; lia|]. unfold rows. rewrite <- R1, <- R2.
      assert (Hl2 : length (map keep bounds) = length pairss) by (rewrite map_length, Hlen, <- (map_length (@length _) cellss), <- R2, map_length; reflexivity).
      pose proof (pick_kept pairss (map keep bounds) [] Hl2) as P. cbn [app length] in P. rewrite P.
      apply kept_hits with (start := 0%nat); [exact Hl2|]. intros row [x y] Hr Hhit. unfold h in Hhit. cbn [fst] in Hhit. destruct x as [v|]; [|discriminate Hhit]. cbn [hit] in Hhit.
      rewrite R1 in Hr. unfold pairs in Hr. rewrite nth_error_pair in Hr by (rewrite <- Ec, <- Ec'; exact Hll). rewrite R2.
      destruct (nth_error (concat cellss) row) as [x|] eqn:Ex; [|discriminate Hr]. destruct (nth_error (concat cellss') row); [|discriminate Hr]. injection Hr as -> _.
      refine (rows_kept_in (fun b (cells : list (option (value k))) => forall v, In (Some v) cells -> truth b v) keep (fun x => match x with Some v => wanted v = true | None => False end) _ bounds cellss 0 Ht row (Some v) Ex Hhit).
      intros b cs [w|] Hb Hin Hgood; [|destruct Hgood]. exact (Hsound b w (Hb w Hin) Hgood). }
    exists (combine (concat selected) (concat selected') :: founds). split; [|cbn [concat map fst snd]; rewrite !filter_app, Hsame, IH2; reflexivity].
    cbn [map]. apply Forall2_cons; [|exact IH1]. split.
    - exists (mk_cmd chunk leaf), ix, bounds, locs, intervals, (concat selected), (concat selected'). unfold rows_read. rewrite E4. repeat (split; [assumption|]).
      split; [exists (mk_cmd chunk leaf), locs, sel, r, dict, ps, selected; repeat (split; [assumption|]); reflexivity|].
      split; [exists (mk_cmd chunk' leaf'), locs', sel', r', dict', ps', selected'; repeat (split; [assumption|]); reflexivity|].
      split; [rewrite X10, Y10; exact P1|reflexivity].
    - intros i Hf. rewrite Hsame. destruct (filter h (combine l l')) as [|[x y] rest] eqn:Ef; [reflexivity|exfalso].
      assert (Hin : In (x, y) (filter h (combine l l'))) by (rewrite Ef; left; reflexivity). apply filter_In in Hin as [Hin Hhit]. unfold h in Hhit. cbn [fst] in Hhit.
      destruct x as [v|]; [|discriminate Hhit]. cbn [hit] in Hhit. apply in_combine_l in Hin.
      assert (T : passes (group_of schema g) i = true); [|congruence]. apply (Hpass _ i _ E3).
      destruct (cm_statistics meta) as [s|] eqn:Es.
      + destruct (foreign_statistics k (mk_cmd chunk leaf) meta s Hk E2 Es) as [S1 S2]. destruct (Hst s eq_refl) as [Hb|(b & Hb & Htrue)]; [right; left; exists OutOfSpec; exact (S2 Hb)|].
        destruct (S1 b Hb) as (st & A1 & A2 & _). right. right. exists st, b. split; [exact A1|]. split; [exact A2|]. exact (Hsound b v (Htrue v Hin) Hhit).
      + left. unfold cmd_statistics, cmd_meta. cbn [cmd_chunk]. rewrite E2. cbn [bind]. rewrite Es. reflexivity. }
  destruct H as (founds & H & Hf).
  destruct (filter_from_cells h passes _ _ _ 0 H) as (kept & K1 & K2). exists kept. split; [exact Eopen|]. split; [exact K1|rewrite K2; exact Hf].
Qed.
Print Assumptions foreign_query.

(** The row groups of the example of C138, with a second column of one byte per row, not compressed: 5 rows in one page in the first row group, and pages of 3 and 7 rows in the second, where the first
    column has pages of 5 and 5 rows. Somebody asks for the bytes in the rows whose value is at least 4. *)
Definition qx_desc := mk_descr (mk_prim (mk_fi [98] Required None) None None (FixedLenByteArray 1)) 0 0.
Definition qx_page (bytes : list N) : t_page_header * compressed_page :=
  let n := Z.of_N (nlen bytes) in
  (mk_tph 0 n n None (Some (mk_tdh n 0 3 3 None)) None None None, CData (mk_cdp (HV1 (mk_tdh n 0 3 3 None)) bytes Uncompressed (nlen bytes) qx_desc None)).
Definition qx_pages := [qx_page [100; 101; 102; 103; 104]; qx_page [10; 11; 12]; qx_page [13; 14; 15; 16; 17; 18; 19]].
Definition qx_bytes (l : list N) : list (option (list N)) := map (fun b => Some [b]) l.
Definition qx_start (n : nat) : Z := Z.of_N (nlen kx_before + nlen (stored_chunk ex_header (firstn n qx_pages))).
Definition qx_size (n : nat) : Z := Z.of_N (nlen (stored_bytes ex_header (nth n qx_pages (qx_page [])))).
Definition qx_locs1 := [mk_loc (qx_start 0) (qx_size 0) 0].
Definition qx_locs2 := [mk_loc (qx_start 1) (qx_size 1) 0; mk_loc (qx_start 2) (qx_size 2) 3].
Definition qx_q0 := kx_before ++ stored_chunk ex_header qx_pages.
Definition qx_q1 := qx_q0 ++ t_enc ex_offset_index kx_locs.
Definition qx_q2 := qx_q1 ++ t_enc ex_column_index lq_index.
Definition qx_q3 := qx_q2 ++ t_enc ex_offset_index oq_locs.
Definition qx_q4 := qx_q3 ++ t_enc ex_column_index oq_index.
Definition qx_q5 := qx_q4 ++ t_enc ex_offset_index qx_locs1.
Definition qx_body := qx_q5 ++ t_enc ex_offset_index qx_locs2.
Definition qx_searched (values start : Z) dictionary stats (before : list N) locs (before' : list N) index :=
  mk_tcc None 0 (Some (mk_tcm 1 [] [[97]] 1 values 5 5 None start None dictionary stats None None))
    (Some (Z.of_N (nlen before))) (Some (Z.of_N (nlen (t_enc ex_offset_index locs)))) (Some (Z.of_N (nlen before'))) (Some (Z.of_N (nlen (t_enc ex_column_index index)))) None None.
Definition qx_other (values start : Z) (before : list N) locs :=
  mk_tcc None 0 (Some (mk_tcm 7 [] [[98]] 0 values 5 5 None start None None None None None)) (Some (Z.of_N (nlen before))) (Some (Z.of_N (nlen (t_enc ex_offset_index locs)))) None None None None.
Definition qx_chunk1 := qx_searched 5 (kx_start 2) None (Some (bq_stats [1; 0; 0; 0] [3; 0; 0; 0])) qx_q2 oq_locs qx_q3 oq_index.
Definition qx_chunk2 := qx_searched 10 40 (Some 4%Z) (Some (bq_stats [1; 0; 0; 0] [7; 0])) qx_q0 kx_locs qx_q1 lq_index.
Definition qx_fields := [Primitive (d_primitive ux_desc); Primitive (d_primitive qx_desc)].
Definition qx_schema := mk_sd [114] qx_fields (columns_of qx_fields).
Definition qx_leaf := mk_cdescr qx_desc [[98]] (Primitive (d_primitive qx_desc)).
Definition qx_meta := mk_tfm 2 (sd_into_thrift qx_schema) 15
  [mk_trg [qx_chunk1; qx_other 5 (qx_start 0) qx_q4 qx_locs1] 5 5 None None None None; mk_trg [qx_chunk2; qx_other 10 (qx_start 1) qx_q5 qx_locs2] 5 10 None None None None] None None None None None.
Definition qx_tail := t_enc ex_file_meta qx_meta ++ to_le 4 (nlen (t_enc ex_file_meta qx_meta)) ++ [80; 65; 82; 49].
Definition qx_file := qx_body ++ qx_tail.
Definition qx_after1 := t_enc ex_column_index lq_index ++ t_enc ex_offset_index oq_locs ++ t_enc ex_column_index oq_index ++ t_enc ex_offset_index qx_locs1 ++ t_enc ex_offset_index qx_locs2 ++ qx_tail.
Definition qx_after2 := t_enc ex_offset_index oq_locs ++ t_enc ex_column_index oq_index ++ t_enc ex_offset_index qx_locs1 ++ t_enc ex_offset_index qx_locs2 ++ qx_tail.
Definition qx_after3 := t_enc ex_column_index oq_index ++ t_enc ex_offset_index qx_locs1 ++ t_enc ex_offset_index qx_locs2 ++ qx_tail.
Definition qx_after4 := t_enc ex_offset_index qx_locs1 ++ t_enc ex_offset_index qx_locs2 ++ qx_tail.
Definition qx_rest := [7; 7] ++ stored_chunk ex_header qx_pages ++ t_enc ex_offset_index kx_locs ++ qx_after1.
Definition qx_table : list (list (option Z) * list (option (list N))) :=
  [(concat (skipn 2 gx_cells), qx_bytes [100; 101; 102; 103; 104]); (concat (skipn 1 gx_cells), concat [qx_bytes [10; 11; 12]; qx_bytes [13; 14; 15; 16; 17; 18; 19]])].
Lemma qx_holds bytes : nlen bytes < 1000 -> page_holds (KFixed 1) toy Uncompressed qx_desc None (snd (qx_page bytes)) (qx_bytes bytes).
Proof.
  intros Hn. exists bytes. split; [split; reflexivity|]. cbn [snd qx_page]. eapply holds_plain with (bytes := bytes); [reflexivity| |].
  - assert (Ep : present (qx_bytes bytes) = map (fun b => [b]) bytes) by (unfold qx_bytes; clear Hn; induction bytes as [|b l IH]; [reflexivity|]; cbn [map]; unfold present in *; cbn [flat_map app]; f_equal; exact IH).
    change (plain_bytes (KFixed 1) (present (qx_bytes bytes)) bytes). rewrite Ep. clear. cbn [plain_bytes]. split; [reflexivity|].
    induction bytes as [|b l [IH1 IH2]]; [split; [constructor|reflexivity]|]. cbn [map concat app]. split; [constructor; [reflexivity|exact IH1]|]. f_equal. exact IH2.
  - assert (E : @nlen (option (value (KFixed 1))) (qx_bytes bytes) = nlen bytes) by (unfold nlen, qx_bytes; rewrite map_length; reflexivity).
    split; [reflexivity|]. split; [reflexivity|]. split; [rewrite E; change (as_usize (Z.of_N (nlen bytes)) = nlen bytes); unfold as_usize, of_signed; change (2 ^ Z.of_N 64)%Z with 18446744073709551616%Z; rewrite Z.mod_small by lia; apply N2Z.id|]. rewrite E. change (2 ^ 31) with 2147483648. change (2 ^ 61) with 2305843009213693952. split; [lia|]. split; [lia|].
    exists []. split; [split; [change (nlen bytes < 18446744073709551616); lia|]; repeat split|]. cbn. split; [reflexivity|]. split; [reflexivity|]. unfold qx_bytes. intros Hin. apply in_map_iff in Hin as (x & Hx & _). discriminate Hx.
Qed.
Lemma qx_listed : Forall2 (fun g x => group_indexed (KNative NI32) wx_formats toy qx_file 0 bq_leaf bq_truth g (fst x) /\ group_listed (KFixed 1) wx_formats toy qx_file 1 qx_leaf g (snd x)) (fm_row_groups qx_meta) qx_table.
Proof.
  assert (Hr : Forall (header_readable ex_header) kx_pages) by (repeat apply Forall_cons; [| |apply Forall_nil]; (split; [|codec_ok]); cbn; repeat split).
  assert (Hq : Forall (header_readable ex_header) qx_pages) by (repeat apply Forall_cons; [| | |apply Forall_nil]; (split; [|codec_ok]); cbn; repeat split).
  pose proof gx_holds as Hh. inversion Hh as [|? ? ? ? Hh0 Hh1]; subst. inversion Hh1 as [|? ? ? ? _ Hh2]; subst. clear Hh.
  apply Forall2_cons; [|apply Forall2_cons; [|apply Forall2_nil]]; split.
  - eexists qx_chunk1, _, Snappy, None, (skipn 2 gx_pages), (Some [5; 7]%Z), (skipn 2 gx_cells), oq_locs, [(Some 1, Some 3)]%Z.
    split; [reflexivity|]. split; [reflexivity|]. split; [|split; [|split; [|split; [|split; [|split; [discriminate|split; [exact Hh2|split; [reflexivity|split; reflexivity]]]]]]]].
    + intros x [= <-]. right. exists (Some 1, Some 3)%Z. split; [split; cbn; (split; [split; [lia|reflexivity]|exact I])|]. apply bq_in. vm_compute. reflexivity.
    + eexists _, (Z.to_N (kx_start 2)), qx_q2, qx_after3. split; [reflexivity|]. split; [vm_compute; reflexivity|]. split; [vm_compute; reflexivity|]. split; [reflexivity|].
      split; [vm_compute; reflexivity|]. split; [|split; [reflexivity|split; [reflexivity|split; [vm_compute; reflexivity|]]]].
      * apply (listed_cons ex_header qx_file 0 _ _ _ _ _ ([80; 65; 82; 49] ++ stored_chunk ex_header (firstn 2 gx_pages)) qx_rest); [vm_compute; reflexivity|discriminate|apply listed_nil].
      * apply (of_codec_reads_back c_offset_index). refine (of_codec_sound c_offset_index 0 (t_enc ex_offset_index oq_locs) oq_locs [] _). vm_compute. reflexivity.
    + exists oq_index, qx_q3, qx_after4. split; [reflexivity|]. split; [reflexivity|]. split; [vm_compute; reflexivity|]. split; [|split; [cbn; lia|split; [discriminate|]]].
      * apply (of_codec_reads_back c_column_index). refine (of_codec_sound c_column_index 0 (t_enc ex_column_index oq_index) oq_index [] _). vm_compute. reflexivity.
      * apply say_bounds; [split; [cbn; lia|reflexivity]|split; [cbn; lia|reflexivity]|]. apply say_nil.
    + apply Forall2_cons; [|apply Forall2_nil]. apply bq_in. vm_compute. reflexivity.
    + inversion Hr; subst; assumption.
  - exists (qx_other 5 (qx_start 0) qx_q4 qx_locs1), Uncompressed, None, (firstn 1 qx_pages), None, [qx_bytes [100; 101; 102; 103; 104]], qx_locs1.
    split; [reflexivity|]. split; [|split; [inversion Hq; subst; constructor; [assumption|constructor]|split; [discriminate|split; [|split; reflexivity]]]].
    + eexists _, (Z.to_N (qx_start 0)), qx_q4, (t_enc ex_offset_index qx_locs2 ++ qx_tail). split; [reflexivity|]. split; [vm_compute; reflexivity|]. split; [vm_compute; reflexivity|]. split; [reflexivity|].
      split; [vm_compute; reflexivity|]. split; [|split; [reflexivity|split; [reflexivity|split; [vm_compute; reflexivity|]]]].
      * apply (listed_cons ex_header qx_file 0 _ _ _ _ _ kx_before (stored_chunk ex_header (skipn 1 qx_pages) ++ t_enc ex_offset_index kx_locs ++ qx_after1)); [vm_compute; reflexivity|discriminate|apply listed_nil].
      * apply (of_codec_reads_back c_offset_index). refine (of_codec_sound c_offset_index 0 (t_enc ex_offset_index qx_locs1) qx_locs1 [] _). vm_compute. reflexivity.
    + apply Forall2_cons; [|apply Forall2_nil]. apply qx_holds. reflexivity.
  - eexists qx_chunk2, _, Snappy, (Some kx_dict), kx_pages, (Some [5; 7]%Z), (skipn 1 gx_cells), kx_locs, lq_bounds.
    split; [reflexivity|]. split; [reflexivity|]. split; [|split; [|split; [|split; [|split; [exact Hr|split; [|split; [exact Hh1|split; [reflexivity|split; reflexivity]]]]]]]].
    + intros x [= <-]. left. exists 4, [7; 0]. split; [reflexivity|]. split; [right; reflexivity|discriminate].
    + eexists _, 4, qx_q0, qx_after1. repeat (split; [reflexivity|]).
      split; [|split; [|split; [reflexivity|split; [reflexivity|split; [vm_compute; reflexivity|]]]]].
      * split; [reflexivity|]. exists [80; 65; 82; 49], (stored_chunk ex_header (skipn 1 gx_pages) ++ qx_rest). split; [vm_compute; reflexivity|reflexivity].
      * apply (listed_cons ex_header qx_file 0 _ _ _ _ _ ([80; 65; 82; 49] ++ stored_chunk ex_header (firstn 1 gx_pages)) (stored_chunk ex_header (skipn 2 gx_pages) ++ qx_rest)); [vm_compute; reflexivity|discriminate|].
        apply (listed_cons ex_header qx_file 5 _ _ _ _ _ ([80; 65; 82; 49] ++ stored_chunk ex_header (firstn 2 gx_pages)) qx_rest); [vm_compute; reflexivity|discriminate|]. apply listed_nil.
      * apply (of_codec_reads_back c_offset_index). refine (of_codec_sound c_offset_index 0 (t_enc ex_offset_index kx_locs) kx_locs [] _). vm_compute. reflexivity.
    + exists lq_index, qx_q1, qx_after2. split; [reflexivity|]. split; [reflexivity|]. split; [vm_compute; reflexivity|]. split; [|split; [cbn; lia|split; [discriminate|]]].
      * apply (of_codec_reads_back c_column_index). refine (of_codec_sound c_column_index 0 (t_enc ex_column_index lq_index) lq_index [] _). vm_compute. reflexivity.
      * apply say_bounds; [split; [cbn; lia|reflexivity]|split; [cbn; lia|reflexivity]|]. apply say_bounds; [split; [cbn; lia|reflexivity]|split; [cbn; lia|reflexivity]|]. apply say_nil.
    + apply Forall2_cons; [|apply Forall2_cons; [|apply Forall2_nil]]; apply bq_in; vm_compute; reflexivity.
    + intros x Ex. injection Ex as <-. split; [split; [|codec_ok]; cbn; repeat split; eexists; repeat split; discriminate|]. split; [reflexivity|exact Hh0].
  - exists (qx_other 10 (qx_start 1) qx_q5 qx_locs2), Uncompressed, None, (skipn 1 qx_pages), None, [qx_bytes [10; 11; 12]; qx_bytes [13; 14; 15; 16; 17; 18; 19]], qx_locs2.
    split; [reflexivity|]. split; [|split; [inversion Hq; subst; assumption|split; [discriminate|split; [|split; reflexivity]]]].
    + eexists _, (Z.to_N (qx_start 1)), qx_q5, qx_tail. split; [reflexivity|]. split; [vm_compute; reflexivity|]. split; [vm_compute; reflexivity|]. split; [reflexivity|].
      split; [vm_compute; reflexivity|]. split; [|split; [reflexivity|split; [reflexivity|split; [vm_compute; reflexivity|]]]].
      * apply (listed_cons ex_header qx_file 0 _ _ _ _ _ (kx_before ++ stored_chunk ex_header (firstn 1 qx_pages)) (stored_chunk ex_header (skipn 2 qx_pages) ++ t_enc ex_offset_index kx_locs ++ qx_after1)); [vm_compute; reflexivity|discriminate|].
        apply (listed_cons ex_header qx_file 3 _ _ _ _ _ (kx_before ++ stored_chunk ex_header (firstn 2 qx_pages)) (t_enc ex_offset_index kx_locs ++ qx_after1)); [vm_compute; reflexivity|discriminate|apply listed_nil].
      * apply (of_codec_reads_back c_offset_index). refine (of_codec_sound c_offset_index 0 (t_enc ex_offset_index qx_locs2) qx_locs2 [] _). vm_compute. reflexivity.
    + apply Forall2_cons; [|apply Forall2_cons; [|apply Forall2_nil]]; apply qx_holds; reflexivity.
Qed.
Example foreign_query_case :
  exists md found, read_metadata ex_file_meta Checked qx_file = Ok md /\
    map rgm_num_rows (fmd_row_groups (filter_row_groups md bq_passes)) = [10] /\
    Forall2 (group_queried (KNative NI32) (KFixed 1) wx_formats toy Checked bq_keep qx_file 0 1) (fmd_row_groups (filter_row_groups md bq_passes)) found /\
    filter (fun row => hit bq_wanted (fst row)) (concat found) = [(Some 7%Z, Some [10]); (Some 7%Z, Some [11]); (Some 5%Z, Some [12])].
Proof.
  destruct (foreign_query (KNative NI32) (KFixed 1) wx_formats toy Checked qx_file qx_meta qx_schema 0 bq_leaf 1 qx_leaf bq_truth qx_table bq_keep bq_wanted bq_passes) as (md & found & E & Hf & Hsame).
  - exists qx_body. split; [reflexivity|].
    split; [vm_compute; discriminate|]. split; [vm_compute; reflexivity|].
    apply (of_codec_reads_back c_file_meta). refine (of_codec_sound c_file_meta 0 (t_enc ex_file_meta qx_meta) qx_meta [] _). vm_compute. reflexivity.
  - vm_compute. reflexivity.
  - split; [|cbn; lia]. repeat (apply Forall_cons; [split; [reflexivity|split; [cbn; lia|split; [cbn; lia|repeat (apply Forall_cons; [split; [vm_compute; repeat split; discriminate|first [discriminate|intros o [= <-]; lia]]|]); apply Forall_nil]]]|]). apply Forall_nil.
  - reflexivity.
  - reflexivity.
  - reflexivity.
  - reflexivity.
  - exact qx_listed.
  - unfold bq_truth, bq_wanted, bq_keep. intros [lo [hi|]] v; cbn [fst snd]; [lia|reflexivity].
  - intros rg i c E H. unfold bq_passes. destruct (rgm_columns rg) as [|c' r]; [discriminate E|]. injection E as ->.
    destruct H as [-> |[[e ->]|(s & b & -> & (p & x & -> & ->) & H)]]; [reflexivity|reflexivity|exact H].
  - exists md, found. split; [exact E|].
    assert (E' : read_metadata ex_file_meta Checked qx_file = Ok (metadata_of qx_schema qx_meta)) by (vm_compute; reflexivity).
    assert (X : Ok md = Ok (metadata_of qx_schema qx_meta)) by (rewrite <- E', <- E; reflexivity). injection X as ->. split; [vm_compute; reflexivity|]. split; [exact Hf|].
    transitivity (filter (fun row => hit bq_wanted (fst row)) (concat (map (fun x => combine (fst x) (snd x)) qx_table))); [exact Hsame|vm_compute; reflexivity].
Qed.
