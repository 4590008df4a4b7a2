(** C121, C122: decompressing any iterator of pages, and the selected rows of a column of a file. *)
From Verif Require Import Base.Prelude Base.Iter Base.Codec Base.LeFacts Model.Types Model.Native Model.Thrift Model.Intervals Model.Page Model.Io Model.Statistics Model.PageWrite
  Model.Compression Model.BasicDecompress Model.ColumnWrite Model.Schema Model.PageRead Model.Metadata Model.Indexes Model.FileWrite Spec.RowsSpec Spec.StatsSpec Spec.PagesSpec Spec.ChunkSpec
  Spec.LevelsSpec Spec.SelectSpec Spec.SchemaSpec Spec.CompressionSpec Spec.MetadataSpec Spec.FileSpec Spec.ValuesSpec Spec.SelectedSpec
  Proofs.TypesFacts Proofs.PageIoProofs Proofs.CompressionProofs Proofs.SchemaProofs Proofs.FileWriteProofs Proofs.IndexProofs Proofs.IndexReadProofs Proofs.ThriftCodec Proofs.EndToEndProofs
  Proofs.ValuesProofs Proofs.SelectedProofs
  Props.PageIo Props.FileWrite Props.Compression Props.Indexes Props.EndToEnd Props.Intervals Props.Select.
Open Scope N_scope.

(** C121. The decompressor that takes any iterator of pages gives what decompressing each page alone gives, errors included, for any number of calls and whatever
    is in the buffers that it is given at the calls. *)
Theorem basic_decompressor_matches_fresh {S} C m (next : S -> res (option (compressed_page + error) * S)) R s l buffers :
  hands_out next R -> R s l -> (forall cp, In (inl cp) l -> page_fills C m cp) ->
  bd_run C m next buffers s = decompress_each C m l (length buffers).
Proof.
  intros HP HR Hf. apply bd_run_each with R; [exact HP|exact HR|]. apply Forall_forall. intros [cp|e] Hin; [apply Hf, Hin|exact I].
Qed.
Print Assumptions basic_decompressor_matches_fresh.

(** C121. So it cannot be told apart from the decompressor that exchanges buffers with the page iterator. *)
Theorem decompressors_agree {S} C m (P : page_iter S) R s l buffer caps buffers :
  serves P R -> R s l -> (forall cp, In (inl cp) l -> page_fills C m cp) -> length caps = length buffers ->
  bd_run C m (pi_next P) buffers s = dec_run C m P caps (dec_new s buffer).
Proof.
  intros HP HR Hf Hl. rewrite (decompressor_matches_fresh C m P R s l buffer caps HP HR Hf), Hl.
  apply (basic_decompressor_matches_fresh C m (pi_next P) R s l buffers); [|exact HR|exact Hf]. destruct HP as (_ & H1 & H2). split; assumption.
Qed.
Print Assumptions decompressors_agree.

Lemma firstn_one_more {A} n (a : list A) x : firstn n (a ++ repeat x n) = firstn n (a ++ x :: repeat x n).
Proof.
  rewrite (repeat_cons n x), app_assoc, (firstn_app n (a ++ repeat x n) [x]), app_length, repeat_length.
  replace (n - (length a + n))%nat with 0%nat by lia. cbn [firstn]. rewrite app_nil_r. reflexivity.
Qed.
(** C121. Of pages that are not compressed nothing is asked: they come out as they are, and every error of the iterator is passed on. *)
Theorem basic_decompressor_uncompressed {S} C m (next : S -> res (option (compressed_page + error) * S)) R s l buffers :
  hands_out next R -> R s l -> (forall cp, In (inl cp) l -> cp_compression cp = Uncompressed) ->
  bd_run C m next buffers s = Ok (firstn (length buffers)
    (map (fun x => match x with inl cp => inl (Some (create_page cp (cp_buffer cp))) | inr e => inr e end) l ++ repeat (inl None) (length buffers))).
Proof.
  intros (Hnil & Hcons). revert s l. induction buffers as [|[cap b] buffers IH]; intros s l HR Hf; [reflexivity|]. cbn [bd_run length].
  destruct l as [|[cp|e] l].
  - destruct (Hnil s HR) as (s' & -> & HR'). cbn [bind]. rewrite (IH s' [] HR' Hf). cbn [map app bind repeat firstn]. reflexivity.
  - destruct (Hcons s _ l HR) as (s' & -> & HR'). cbn [bind]. rewrite decompress_uncompressed by (apply Hf; left; reflexivity).
    rewrite (IH s' l HR') by (intros c Hc; apply Hf; right; exact Hc). cbn [map app bind firstn repeat]. do 2 f_equal.
    apply firstn_one_more.
  - destruct (Hcons s _ l HR) as (s' & -> & HR'). cbn [bind].
    rewrite (IH s' l HR') by (intros c Hc; apply Hf; right; exact Hc). cbn [map app bind firstn repeat]. do 2 f_equal.
    apply firstn_one_more.
Qed.
Print Assumptions basic_decompressor_uncompressed.

Definition plain_next (l : list (compressed_page + error)) : res (option (compressed_page + error) * list (compressed_page + error)) :=
  match l with [] => Ok (None, []) | x :: r => Ok (Some x, r) end.
Example plain_next_hands_out : hands_out plain_next eq.
Proof. split; [intros s ->; exists []; split; reflexivity|]. intros s x l ->. exists l. split; reflexivity. Qed.
Example basic_decompressor_matches_fresh_case :
  (forall cp, In (inl cp) toy_items -> page_fills toy Checked cp) /\
  bd_run toy Checked plain_next [(50, [77; 77; 77]); (2, []); (0, [1]); (5, [4; 4; 4; 4; 4]); (0, [])] toy_items =
    Ok [inl (Some (PDict (mk_dict [8; 9] 2 false))); inl (Some (PDict (mk_dict [1; 2] 2 true))); inr OutOfSpec;
        inl (Some (PDict (mk_dict [4] 1 false))); inl None].
Proof. split; [exact (proj1 decompressor_matches_fresh_case)|reflexivity]. Qed.
Example decompressors_agree_case : serves list_iter (fun s l => fst s = l) /\ fst (toy_items, [3; 3]) = toy_items.
Proof. split; [exact list_iter_serves|reflexivity]. Qed.
Example basic_decompressor_uncompressed_case :
  bd_run toy Checked plain_next [(0, [7]); (9, [8; 8]); (0, []); (0, [])] [inl (CDict (mk_cdict [1; 2] Uncompressed 2 9 true)); inr OutOfSpec] =
    Ok [inl (Some (PDict (mk_dict [1; 2] 2 true))); inr OutOfSpec; inl None; inl None].
Proof. reflexivity. Qed.

(** * C122 *)

Lemma forall2_combine {A B C D} (P : A -> B -> Prop) (f : A * B -> C) (g : A * B -> D) (Q : C -> D -> Prop) la lb :
  (forall a b, P a b -> Q (f (a, b)) (g (a, b))) -> Forall2 P la lb -> Forall2 Q (map f (combine la lb)) (map g (combine la lb)).
Proof. intros H. induction 1; cbn [combine map]; constructor; auto. Qed.

Lemma pieces_non_empty page : (0 < iv_length page) -> forall l pieces, Forall non_empty l -> pieces_of page l pieces -> Forall non_empty pieces.
Proof.
  intros Hp l pieces Hl H. induction H as [|i piece l pieces Hm [C1 C2] H IH|i l pieces Hm H IH]; [constructor| |apply IH; exact (Forall_inv_tail Hl)].
  constructor; [|apply IH; exact (Forall_inv_tail Hl)]. pose proof (Forall_inv Hl) as Hi. unfold non_empty, meet in *. lia.
Qed.

(** What selecting rows says about each page of a column whose pages have [counts] rows. *)
Lemma selection_of_locations T m start data intervals sel : Forall (fun p => is_data p = true) data -> chunk_rows data < 2 ^ 63 -> Forall iv_ok intervals ->
  Forall (fun p => 0 < page_rows p) data -> sorted_disjoint intervals -> Forall non_empty intervals ->
  select_pages m intervals (locations T start 0 data) (chunk_rows data) = Ok sel ->
  Forall2 (fun p f => sorted_disjoint (fp_selected f) /\ Forall non_empty (fp_selected f) /\ Forall iv_ok (fp_selected f) /\ nlen (rows_of (fp_selected f)) < 2 ^ 64 /\
                      Forall (fun r => (r < N.to_nat (page_rows p))%nat) (rows_of (fp_selected f))) data sel.
Proof.
  intros Hdata Hrows Hiv Hpos Hsd Hne Es. set (locs := locations T start 0 data) in *.
  destruct (locations_rows T data start 0 Hdata) as (R1 & R2 & R3 & R4). fold locs in R1, R2, R3, R4. change (Z.of_N 0) with 0%Z in R1. rewrite N.add_0_l in *.
  assert (Hlocs : locs_ok locs). { unfold locs_ok. eapply Forall_impl; [ | exact R2 ]. intros x Hx. change (2 ^ 63) with 9223372036854775808 in Hrows. change (2 ^ 63)%Z with 9223372036854775808%Z. cbn beta in Hx. lia. }
  assert (Hr64 : chunk_rows data < 2 ^ 64) by (change (2 ^ 63) with 9223372036854775808 in Hrows; change (2 ^ 64) with 18446744073709551616; lia).
  destruct (select_pages_exact m intervals locs (chunk_rows data) Hlocs Hr64 Hiv R1 R3) as (sel' & Es' & _ & Snum & Sb & S3).
  assert (sel' = sel) by congruence. subst sel'. clear Es'. destruct (S3 Hsd) as [Ssd _]. clear S3.
  pose proof (pages_of_locations T data start 0 Hdata) as Hpo. fold locs in Hpo. rewrite N.add_0_l in Hpo.
  destruct (page_row_intervals_exact locs (chunk_rows data) Hlocs) as [H1 _]. destruct (H1 R1) as (pages & Ep & Em). clear H1.
  pose proof (selection_pieces m intervals locs (chunk_rows data) sel pages Hlocs Hr64 Hiv Ep Es) as Hpieces.
  assert (Hlens : map iv_length pages = map page_rows data).
  { rewrite <- Hpo, <- Em, map_map. apply map_ext. intros i. unfold iv_bounds. cbn [fst snd]. lia. }
  rewrite Hpo in Snum. clear Em Ep Hpo R1 R2 R3 R4 Hlocs Es.
  assert (Hle : Forall (fun p => page_rows p <= chunk_rows data) data).
  { clear. induction data as [|p l IH]; [constructor|]. cbn [chunk_rows fold_right]. fold (chunk_rows l). constructor; [lia|]. eapply Forall_impl; [|exact IH]. intros q Hq. cbn beta in Hq. lia. }
  set (n := chunk_rows data) in *. clearbody n locs. revert sel pages Snum Sb Ssd Hpieces Hlens. clear Hdata.
  induction data as [|p data IH]; intros [|f sel] [|pg pages] Snum Sb Ssd Hpieces Hlens; try discriminate; [constructor|].
  cbn [map] in Snum, Hlens. injection Snum as Sn Snum. injection Hlens as El Hlens. inversion Hpieces as [|? ? ? ? Hp Hps]; subst. constructor.
  - pose proof (Forall_inv Ssd) as H1. pose proof (Forall_inv Sb) as H2. pose proof (Forall_inv Hpos) as H3. pose proof (Forall_inv Hle) as H4. cbn beta in H1, H2, H3, H4. rewrite Sn in H2.
    destruct (rows_bound (page_rows p) (fp_selected f) 0 H1 H2) as [B1 B2].
    split; [exact H1|]. split; [apply (pieces_non_empty pg) with (l := intervals); [lia|exact Hne|exact Hp]|].
    split; [eapply Forall_impl; [|exact H2]; intros i Hi; unfold iv_ok; cbn beta in Hi; lia|]. split; [|exact B1].
    unfold nlen. destruct B2 as [-> |B2]; [reflexivity|lia].
  - apply (IH (Forall_inv_tail Hpos) (Forall_inv_tail Hle) sel pages Snum (Forall_inv_tail Sb) (Forall_inv_tail Ssd) Hps Hlens).
Qed.

(** C122. Cells were stored in pages, through a dictionary or plain, compressed and written as a column of a file. Somebody opens the file, reads where the pages
    of the column lie, selects pages for some rows, reads these pages only, decompresses them and follows the iterators of each page for the rows that were
    selected in it. They get, over all pages, exactly the cells of the rows that they asked for, in order. *)
Theorem file_selected_values k F C m schema stats gs kv file md i g rg j c ds ps entries cellss o b0 cds cps intervals :
  written_and_opened F m schema stats gs kv file md -> good_schema schema -> complete_groups schema gs -> inverts C ->
  nth_error gs i = Some g -> nth_error (fmd_row_groups md) i = Some rg ->
  nth_error g j = Some (inl (map inl (cds ++ cps))) -> nth_error (rgm_columns rg) j = Some c ->
  length cds = length ds -> comp_run C m (S (length (ds ++ ps))) (comp_new (map inl (ds ++ ps)) o b0) = Ok (map (fun cp => inl (Some cp)) (cds ++ cps) ++ [inl None]) ->
  (o <> OUncompressed -> Forall says_compressed (ds ++ ps)) ->
  Forall (fun p => reads_back (f_header F) 1048576 (header_of p)) (cds ++ cps) ->
  let locs := chunk_locations F (inl (map inl (cds ++ cps))) (cmd_chunk c) in
  nlen (t_enc (f_offsets F) locs) < 2 ^ 31 ->
  (forall max, 2 * nlen (t_enc (f_offsets F) locs) + 1024 <= max -> reads_back (f_offsets F) max locs) ->
  let d := cd_descriptor (cmd_descr c) in
  column_of k d -> (ds = [] \/ exists x, ds = [PDict x]) -> Forall (fun p => stores k d entries p []) ds -> Forall2 (stores k d entries) ps cellss ->
  Forall2 counts_rows ps cellss -> nlen (concat cellss) < 2 ^ 63 ->
  sorted_disjoint intervals -> Forall non_empty intervals -> Forall iv_ok intervals ->
  exists sel r pages selected,
    read_pages_locations (f_offsets F) file [c] = Ok [locs] /\ select_pages m intervals locs (nlen (concat cellss)) = Ok sel /\
    indexed_reader_new file c sel = Ok r /\
    (forall buffers, length buffers = S (length pages) ->
       bd_run C m (ir_next (f_header F) m) buffers r = Ok (map (fun p => inl (Some p)) pages ++ [inl None])) /\
    Forall2 (decodes_selected k m entries) pages selected /\ concat selected = pick (concat cellss) (rows_of intervals).
Proof.
  intros H Hg Hc HC E1 E2 E3 E4 Hlc Hcomp Hsay Hback locs Hsz Hlback d Hk Hds Hstd Hst Hcount Htotal Hsd Hne Hiv.
  pose proof (compressor_pages _ _ _ _ _ _ Hcomp) as Hps.
  assert (Hdrun : Forall2 (fun cp p => forall cap b, decompress C m cap cp b = Ok p) (cds ++ cps) (ds ++ ps)).
  { clear - Hps Hsay HC. induction Hps as [|p cp l cl Hp Hps IH]; constructor.
    - intros cap b. apply (page_compression_roundtrip C m p o cp HC Hp). intros Ho. exact (Forall_inv (Hsay Ho)).
    - apply IH. intros Ho. exact (Forall_inv_tail (Hsay Ho)). }
  apply Forall2_app_inv_l in Hps as (cds' & cps' & Hpd & Hpp & Eapp).
  assert (cds = cds' /\ cps = cps') as [<- <-].
  { apply Forall2_length in Hpd. assert (Hl : length cds = length cds') by congruence. clear - Eapp Hl. revert cds' Hl Eapp.
    induction cds as [|x l IH]; intros [|y l'] Hl E; try discriminate; [split; [reflexivity|exact E]|]. injection E as -> E. injection Hl as Hl. destruct (IH l' Hl E) as [-> ->]. auto. }
  clear Eapp. apply Forall2_app_inv_l in Hdrun as (ds' & ps' & Hdd & Hdp & Eapp).
  assert (ds = ds' /\ ps = ps') as [<- <-].
  { apply Forall2_length in Hdd. assert (Hl : length ds = length ds') by congruence. clear - Eapp Hl. revert ds' Hl Eapp.
    induction ds as [|x l IH]; intros [|y l'] Hl E; try discriminate; [split; [reflexivity|exact E]|]. injection E as -> E. injection Hl as Hl. destruct (IH l' Hl E) as [-> ->]. auto. }
  clear Eapp.
  assert (Hdict : cds = [] \/ exists x, cds = [CDict x]).
  { destruct Hds as [-> |[x ->]]; [left; inversion Hpd; reflexivity|]. right. inversion Hpd as [|? ? ? ? Hx Hn]; subst. inversion Hn; subst. destruct (compress_dict_page _ _ _ _ _ Hx) as (cd & ->). eauto. }
  assert (Hrows : Forall2 (fun cp cells => is_data cp = true /\ page_rows cp = nlen cells /\ cells <> []) cps cellss).
  { clear - Hpp Hcount. revert cps Hpp. induction Hcount as [|p cells ps cellss Hp Hcount IH]; intros cps Hpp; inversion Hpp as [|? cp ? cps' Hc Hpp']; subst; constructor; [|apply IH; exact Hpp'].
    destruct (compress_rows _ _ _ _ _ _ Hc Hp) as [A B]. split; [exact A|]. split; [exact B|]. destruct p; [exact (proj2 Hp)|destruct Hp]. }
  assert (Hdata : Forall (fun p => is_data p = true) cps) by (clear - Hrows; induction Hrows as [|? ? ? ? (A & _) _ IH]; constructor; assumption).
  assert (Hcr : chunk_rows cps = nlen (concat cellss)).
  { clear - Hrows. induction Hrows as [|cp cells cps cellss (_ & E & _) _ IH]; [reflexivity|]. cbn [chunk_rows fold_right concat]. fold (chunk_rows cps). rewrite IH, E. unfold nlen. rewrite app_length. lia. }
  assert (Hcr63 : chunk_rows cps < 2 ^ 63) by (rewrite Hcr; exact Htotal).
  assert (Hpos : Forall (fun p => 0 < page_rows p) cps).
  { clear - Hrows. induction Hrows as [|cp cells cps cellss (_ & E & Hn) _ IH]; constructor; [|exact IH]. rewrite E. destruct cells; [congruence|]. unfold nlen. cbn [length]. lia. }
  destruct (file_indexed_read F m schema stats gs kv file md i g rg j c cds cps intervals H Hg Hc E1 E2 E3 E4 Hdict Hdata Hcr63 Hback Hiv Hsz Hlback)
    as (codec & sel & r & r' & X1 & X2 & X3 & X4 & X5 & X6 & _ & X8). fold locs in X1, X2, X8. specialize (X8 Hsd). fold d in X6.
  destruct (opened_column _ _ _ _ _ _ _ _ _ _ _ _ _ _ H Hg Hc E1 E2 E3 E4) as (_ & _ & (pages0 & meta & Ep & Em & _)).
  assert (Elocs : locs = locations (f_header F) (chunk_start meta + nlen (chunk_bytes (f_header F) cds)) 0 cps).
  { unfold locs, chunk_locations. rewrite Em, pages_of_map. apply locations_data. destruct Hdict as [-> |[x ->]]; repeat constructor. }
  set (start := chunk_start meta + nlen (chunk_bytes (f_header F) cds)) in *. clearbody start.
  pose proof X2 as X2'. rewrite Elocs in X2'.
  pose proof (selection_of_locations (f_header F) m start cps intervals sel Hdata Hcr63 Hiv Hpos Hsd Hne X2') as Hsel. clear X2'.
  set (sels := map fp_selected sel) in *.
  exists sel, r,
    ((match cps with [] => [] | _ => map (page_with_rows d None) ds end) ++ map (fun x => page_with_rows d (Some (snd (snd x))) (fst x)) (filter (fun x => has_rows (fst (snd x), snd (snd x))) (combine ps (combine cps sels)))),
    ((match cps with [] => [] | _ => map (fun _ => []) ds end) ++ map (fun x => pick (fst x) (rows_of (snd (snd x)))) (filter (fun x => has_rows (fst (snd x), snd (snd x))) (combine cellss (combine cps sels)))).
  split; [exact X1|]. split; [rewrite <- Hcr; exact X2|]. split; [exact X4|]. split; [|split].
  - intros buffers Hb. apply (bd_run_runs C m _ _ _) with (2 := X6) (3 := Hb). apply Forall2_app.
    + destruct cps as [|cp0 cps0]; [constructor|]. clear - Hdd X5. induction Hdd as [|cp p cds ds Hd Hdd IH]; cbn [map]; constructor.
      * intros cap b. rewrite <- (X5 cp (or_introl eq_refl)). apply decompress_with_rows. apply Hd.
      * apply IH. intros q Hq. apply X5. right. exact Hq.
    + assert (X5' : forall p, In p cps -> cp_compression p = codec) by (intros p Hp; apply X5, in_or_app; right; exact Hp).
      unfold selected_pages. assert (Hls : length sels = length cps) by (unfold sels; rewrite map_length; exact X3). clearbody sels. clear - Hdp X5' Hls. revert sels Hls.
      induction Hdp as [|cp p cps ps Hd Hdp IH]; intros [|s sels] Hls; try discriminate; [constructor|]. cbn [combine filter]. injection Hls as Hls.
      specialize (IH (fun q Hq => X5' q (or_intror Hq)) sels Hls). cbn [fst snd].
      destruct (has_rows (cp, s)); [|exact IH]. cbn [map fst snd]. constructor; [|exact IH].
      intros cap b. rewrite <- (X5' cp (or_introl eq_refl)). apply decompress_with_rows. apply Hd.
  - apply Forall2_app.
    + destruct cps as [|cp0 cps0]; [constructor|]. clear - Hstd Hds. induction Hstd as [|p ds Hp Hstd IH]; cbn [map]; constructor.
      * destruct Hds as [Hds|[x Hds]]; [discriminate Hds|]. injection Hds as -> _. inversion Hp as [| |? es D1 D2 D3]; subst. cbn [page_with_rows decodes_selected di_buffer di_num_values].
        split; [reflexivity|]. exists es. auto.
      * apply IH. destruct Hds as [Hds|[x Hds]]; [discriminate Hds|]. injection Hds as _ ->. left. reflexivity.
    + assert (Hst' : Forall2 (fun p cells => stores k d entries p cells /\ counts_rows p cells) ps cellss).
      { clear - Hst Hcount. induction Hst; inversion Hcount; subst; constructor; auto. }
      assert (Hlp : length cps = length ps) by (symmetry; eapply Forall2_length; exact Hpp).
      assert (Hsel' : Forall2 (fun (_ : compressed_page) s => sorted_disjoint s /\ Forall non_empty s /\ Forall iv_ok s /\ nlen (rows_of s) < 2 ^ 64) cps sels).
      { unfold sels. clear - Hsel. induction Hsel as [|p f l lf (A1 & A2 & A3 & A4 & _) _ IH]; cbn [map]; constructor; auto. }
      clearbody sels. clear - Hst' Hlp Hsel' Hk. revert cps sels Hlp Hsel'.
      induction Hst' as [|p cells ps cellss [Hs Hr] _ IH]; intros [|cp cps] sels Hlp Hsel'; try discriminate; [constructor|]. inversion Hsel' as [|? s ? sels' (A1 & A2 & A3 & A4) Hsel'']; subst.
      injection Hlp as Hlp. specialize (IH cps sels' Hlp Hsel''). cbn [combine filter fst snd]. destruct (has_rows (cp, s)); [|exact IH]. cbn [map fst snd]. constructor; [|exact IH].
      destruct p as [q|q]; [|destruct Hr]. cbn [page_with_rows]. apply decodes_pick; try assumption.
      exact (stored_decodes k m d entries (PData q) cells Hk Hs).
  - rewrite concat_app. replace (concat (match cps with [] => [] | _ :: _ => map (fun _ => []) ds end)) with (@nil (option (value k))).
    2:{ destruct cps; [reflexivity|]. clear. induction ds as [|x l IH]; [reflexivity|exact IH]. }
    cbn [app].
    assert (Hls : length sels = length cps) by (unfold sels; rewrite map_length; exact X3).
    assert (Hlc' : length cellss = length cps) by (symmetry; eapply Forall2_length; exact Hrows).
    transitivity (concat (map (fun x => pick (fst x) (snd x)) (combine cellss (map rows_of sels)))).
    { clearbody sels. clear - Hls Hlc'. revert cps sels Hls Hlc'. induction cellss as [|cells cellss IH]; intros [|cp cps] [|s sels] Hls Hlc'; try discriminate; [reflexivity|].
      injection Hls as Hls. injection Hlc' as Hlc'. specialize (IH cps sels Hls Hlc'). cbn [combine filter map fst snd concat]. destruct s as [|iv s]; cbn [has_rows snd].
      - rewrite IH. reflexivity.
      - cbn [map concat fst snd]. rewrite IH. reflexivity. }
    assert (Hin : Forall2 (fun cells rows => Forall (fun r => (r < length cells)%nat) rows) cellss (map rows_of sels)).
    { unfold sels. rewrite map_map. clear - Hsel Hrows. revert sel Hsel. induction Hrows as [|cp cells cps cellss (_ & E & _) _ IH]; intros sel Hsel; inversion Hsel as [|? f ? sel' (_ & _ & _ & _ & B) Hsel']; subst; cbn [map]; constructor; [|apply IH; exact Hsel'].
      rewrite E in B. unfold nlen in B. rewrite Nat2N.id in B. exact B. }
    rewrite <- (pick_pages cellss [] (map rows_of sels) Hin). cbn [app length Nat.add].
    rewrite Hcr in X8. unfold nlen in X8. rewrite Nat2N.id in X8.
    rewrite <- (pick_below (concat cellss) (rows_of intervals)), <- X8. f_equal. f_equal.
    assert (Hfirst : map (fun x => Z.to_nat (loc_first_row x)) locs = map (fun i => length (concat (firstn i cellss))) (seq 0 (length cellss))).
    { rewrite Elocs, first_rows_of_locations by exact Hdata. rewrite Hlc'. apply map_ext. intros n. cbn [N.to_nat Nat.add].
      clear - Hrows. revert n. induction Hrows as [|cp cells cps cellss (_ & E & _) _ IH]; intros [|n]; try reflexivity. cbn [firstn chunk_rows fold_right concat]. fold (chunk_rows (firstn n cps)).
      rewrite app_length, <- IH, E. unfold nlen. lia. }
    rewrite <- Hfirst. unfold sels. rewrite map_map. clearbody locs. clear. revert locs. induction sel as [|f sel IH]; intros [|l locs]; try reflexivity. cbn [map combine fst snd]. f_equal. apply IH.
Qed.
Print Assumptions file_selected_values.
(** The file with a dictionary page, a page of 3 and a page of 2 cells, of which the rows 1 to 3 are asked for. *)
Definition vx_column : column_md :=
  match fmd_row_groups vx_md with g :: _ => nth 0 (rgm_columns g) ix_none | [] => ix_none end.
Definition vx_locs : list t_page_location := chunk_locations wx_formats (inl (map inl vx_compressed)) (cmd_chunk vx_column).
Example file_selected_values_case :
  nth_error vx_group 0 = Some (inl (map inl (firstn 1 vx_compressed ++ skipn 1 vx_compressed))) /\
  match fmd_row_groups vx_md with g :: _ => nth_error (rgm_columns g) 0 = Some vx_column | [] => False end /\ cd_descriptor (cmd_descr vx_column) = io_desc /\
  Forall (fun p => reads_back ex_header 1048576 (header_of p)) vx_compressed /\
  nlen (t_enc ex_offset_index vx_locs) < 2 ^ 31 /\ (forall max, reads_back ex_offset_index max vx_locs) /\
  Forall2 (stores (KNative NI32) io_desc (Some [1; 7]%Z)) vx_pages vx_cells /\ Forall2 counts_rows (skipn 1 vx_pages) (skipn 1 vx_cells) /\
  sorted_disjoint [mk_iv 1 3] /\ Forall non_empty [mk_iv 1 3] /\ Forall iv_ok [mk_iv 1 3] /\
  pick (concat (skipn 1 vx_cells)) (rows_of [mk_iv 1 3]) = [None; Some 7; None]%Z /\
  match select_pages Checked [mk_iv 1 3] vx_locs 5 with
  | Ok sel =>
      map fp_selected sel = [[mk_iv 1 2]; [mk_iv 0 1]] /\
      match indexed_reader_new vx_file vx_column sel with
      | Ok r => exists pages, bd_run toy Checked (ir_next ex_header Checked) [(0, [1]); (9, []); (0, [7; 7]); (0, [])] r = Ok (map (fun p => inl (Some p)) pages ++ [inl None]) /\ length pages = 3%nat
      | _ => False
      end
  | _ => False
  end.
Proof.
  split; [reflexivity|]. split; [vm_compute; reflexivity|]. split; [vm_compute; reflexivity|].
  split; [unfold vx_compressed; repeat (apply Forall_cons; [codec_ok|]); apply Forall_nil|]. split; [vm_compute; reflexivity|]. split.
  { intros max. apply (of_codec_reads_back c_offset_index). refine (of_codec_sound c_offset_index 0 (t_enc ex_offset_index vx_locs) vx_locs [] _). vm_compute. reflexivity. }
  split; [exact vx_stores|]. split; [repeat constructor; discriminate|]. split; [vm_compute; repeat constructor|]. split; [repeat constructor|]. split; [repeat constructor|].
  split; [reflexivity|]. destruct (select_pages Checked [mk_iv 1 3] vx_locs 5) as [sel| |] eqn:E; [|vm_compute in E; discriminate E..].
  vm_compute in E. apply Ok_inj in E. subst sel. split; [reflexivity|].
  set (r := indexed_reader_new _ _ _). vm_compute in r. subst r. cbv beta iota.
  eexists [_; _; _]. split; [vm_compute; reflexivity | reflexivity].
Qed.
