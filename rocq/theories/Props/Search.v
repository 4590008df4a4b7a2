(** C130: looking for rows with the statistics of row groups and the bounds of pages gives what reading everything gives. *)
From Verif Require Import Base.Prelude Base.Iter Base.Codec Base.LeFacts Model.Types Model.Native Model.Thrift Model.Intervals Model.Page Model.Io Model.Statistics Model.PageWrite
  Model.Compression Model.BasicDecompress Model.ColumnWrite Model.Schema Model.PageRead Model.Metadata Model.ColumnMeta Model.Indexes Model.FileWrite Spec.RowsSpec Spec.PlainSpec Spec.StatsSpec Spec.PagesSpec
  Spec.ChunkSpec Spec.LevelsSpec Spec.SelectSpec Spec.SchemaSpec Spec.CompressionSpec Spec.MetadataSpec Spec.FileSpec Spec.ValuesSpec Spec.SelectedSpec Spec.PruneSpec Spec.SkipSpec Spec.SearchSpec
  Proofs.IndexReadProofs Proofs.FileWriteProofs Proofs.ThriftCodec Props.PageIo Props.FileWrite Props.Compression Props.Indexes Props.EndToEnd Props.Intervals Props.Select Props.Selected Props.Prune Props.Skip.
Open Scope N_scope.

Lemma honest_described k p b cells : honest_page k p (b, cells) -> says_rows p cells -> truly_described k (within k) p cells.
Proof.
  intros (d & s & Ep & Es & Hb & Hv & _) [Hne Hr]. split; [exact Hne|]. split; [exact Hr|]. cbn [fst snd] in *.
  exists d, s. assert (T : exists b', bounds_told k s b' /\ (b' = b \/ fst b = None)).
  { assert (G : forall A (x : stats_of A), told x = (st_min x, st_max x) \/ st_min x = None) by (intros A x; unfold told; destruct (st_min x); auto).
    destruct k as [t| |n|]; cbn [bounds_stated bounds_told] in *; [destruct Hb as (q & x & -> & ->); exists (told x)..|destruct Hb as (x & -> & ->); exists (told x)];
      (split; [eauto|apply G]). }
  destruct T as (b' & Hb' & D). exists b'. split; [exact Ep|]. split; [exact Es|]. split; [exact Hb'|]. intros v Hin. destruct D as [->|D]; [exact (Hv v Hin)|].
  destruct (Hv v Hin) as (lo & hi & -> & _). discriminate D.
Qed.
Lemma pick_seq {A} (pre c rest : list A) : pick (pre ++ c ++ rest) (seq (length pre) (length c)) = c.
Proof.
  revert pre. induction c as [|x c IH]; intros pre; [reflexivity|]. cbn [length seq]. unfold pick in *. cbn [flat_map]. rewrite nth_error_app2 by lia.
  rewrite Nat.sub_diag. cbn [nth_error app]. f_equal. specialize (IH (pre ++ [x])). rewrite app_length in IH. cbn [length] in IH. rewrite Nat.add_1_r, <- app_assoc in IH. exact IH.
Qed.
Lemma pick_app {A} (l : list A) a b : pick l (a ++ b) = pick l a ++ pick l b.
Proof. apply flat_map_app. Qed.
Lemma pick_kept {A} : forall (cellss : list (list A)) flags pre, length flags = length cellss ->
  pick (pre ++ concat cellss) (rows_kept (length pre) flags (map (@length _) cellss)) = concat (map snd (filter fst (combine flags cellss))).
Proof.
  induction cellss as [|c cellss IH]; intros [|f flags] pre H; try discriminate H; [reflexivity|]. cbn [concat map rows_kept combine filter fst]. rewrite pick_app.
  specialize (IH flags (pre ++ c) ltac:(now injection H)). rewrite app_length, <- app_assoc in IH. rewrite IH. destruct f; [|reflexivity]. cbn [map snd concat]. rewrite pick_seq. reflexivity.
Qed.
Lemma rows_kept_ge : forall flags counts start r, In r (rows_kept start flags counts) -> (start <= r)%nat.
Proof.
  induction flags as [|f flags IH]; intros [|n counts] start r H; cbn [rows_kept] in H; try destruct H. apply in_app_or in H as [H|H]; [|specialize (IH _ _ _ H); lia].
  destruct f; [|destruct H]. apply in_seq in H. lia.
Qed.
Lemma kept_hits {A} (h : A -> bool) : forall (cellss : list (list A)) flags start, length flags = length cellss ->
  (forall r x, nth_error (concat cellss) r = Some x -> h x = true -> In (start + r)%nat (rows_kept start flags (map (@length _) cellss))) ->
  filter h (concat (map snd (filter fst (combine flags cellss)))) = filter h (concat cellss).
Proof.
  induction cellss as [|c cellss IH]; intros [|f flags] start Hl H; try discriminate Hl; [reflexivity|]. cbn [concat combine filter fst map]. rewrite filter_app.
  rewrite <- (IH flags (start + length c)%nat); [|now injection Hl|].
  - destruct f; cbn [map snd concat]; [rewrite filter_app; reflexivity|]. replace (filter h c) with (@nil A); [reflexivity|]. symmetry.
    destruct (filter h c) as [|x l] eqn:E; [reflexivity|exfalso].
    assert (Hx : In x (filter h c)) by (rewrite E; left; reflexivity). apply filter_In in Hx as [Hx Hh]. apply In_nth_error in Hx as [r Hr].
    assert (Hr' : (r < length c)%nat) by (apply nth_error_Some; congruence).
    specialize (H r x ltac:(cbn [concat]; rewrite nth_error_app1 by lia; exact Hr) Hh). cbn [map rows_kept app] in H. apply rows_kept_ge in H. lia.
  - intros r x Hr Hh. specialize (H (length c + r)%nat x). cbn [concat map rows_kept] in H. rewrite nth_error_app2 in H by lia. replace (length c + r - length c)%nat with r in H by lia.
    specialize (H Hr Hh). apply in_app_or in H as [H|H]; [|rewrite Nat.add_assoc in H; exact H]. destruct f; [|destruct H]. apply in_seq in H. lia.
Qed.

(** C130. Somebody looks for the values of a column that meet [wanted]. They leave out row groups whose statistics of the column fail the test [keep]; from the
    others they read the index, the page locations and then only the pages whose bounds pass [keep]; and take the values that meet [wanted] from the cells
    they got. In each row group this gives what [wanted] takes from all cells of the row group: nothing if the row group was left out, and otherwise the same values, in
    the same order and as often. *)
Theorem search_equals_scan k F C m schema gs kv file md i g rg j c ds ps entries pages o b0 cds cps (keep : option (value k) * option (value k) -> bool) (wanted : value k -> bool) (passes : row_group_md -> nat -> bool) :
  written_and_opened F m schema true gs kv file md -> good_schema schema -> complete_groups schema gs -> inverts C ->
  nth_error gs i = Some g -> nth_error (fmd_row_groups md) i = Some rg ->
  nth_error g j = Some (inl (map inl (cds ++ cps))) -> nth_error (rgm_columns rg) j = Some c ->
  (* the pages store the cells, are compressed, and their statistics are true *)
  let d := cd_descriptor (cmd_descr c) in let cellss := map snd pages in
  column_of k d -> (ds = [] \/ exists x, ds = [PDict x]) -> Forall (fun p => stores k d entries p []) ds -> Forall2 (stores k d entries) ps cellss -> Forall2 counts_rows ps cellss ->
  length cds = length ds -> comp_run C m (S (length (ds ++ ps))) (comp_new (map inl (ds ++ ps)) o b0) = Ok (map (fun cp => inl (Some cp)) (cds ++ cps) ++ [inl None]) ->
  (o <> OUncompressed -> Forall says_compressed (ds ++ ps)) ->
  Forall (fun p => is_data p = false) cds -> Forall2 (honest_page k) cps pages -> Forall2 says_rows cps cellss -> pages <> [] -> nlen (concat cellss) < 2 ^ 63 ->
  comparable k (known (map (fun x => fst (fst x)) pages)) -> comparable k (known (map (fun x => snd (fst x)) pages)) ->
  (* the index can be written, and what was written can be parsed *)
  (forall x, In x (combine (sd_leaves schema) g) -> Forall (page_of_type (d_primitive (cd_descriptor (fst x)))) (data_pages (pages_of_column (snd x))) /\
     forall l, Forall2 (fun d s => cdp_statistics d = Ok (Some s)) (data_pages (pages_of_column (snd x))) l ->
       nlen (t_enc (f_index F) (index_struct l)) < 2 ^ 31 /\ reads_back (f_index F) (2 * nlen (t_enc (f_index F) (index_struct l)) + 1024) (index_struct l)) ->
  Forall (fun p => reads_back (f_header F) 1048576 (header_of p)) (cds ++ cps) ->
  let locs := chunk_locations F (inl (map inl (cds ++ cps))) (cmd_chunk c) in
  nlen (t_enc (f_offsets F) locs) < 2 ^ 31 -> (forall max, 2 * nlen (t_enc (f_offsets F) locs) + 1024 <= max -> reads_back (f_offsets F) max locs) ->
  (* the tests of bounds and of row groups *)
  (forall b v, within k b v -> wanted v = true -> keep b = true) ->
  (forall rg i c s b, nth_error (rgm_columns rg) j = Some c -> cmd_statistics c = Ok (Some (Ok s)) -> bounds_stated k s b -> keep b = true -> passes rg i = true) ->
  (~ In rg (fmd_row_groups (filter_row_groups md passes)) -> filter (hit wanted) (concat cellss) = []) /\
  exists ix bounds intervals sel r read selected,
    read_columns_indexes (f_index F) file [c] = Ok [ix] /\ bounds_found k ix bounds /\
    read_pages_locations (f_offsets F) file [c] = Ok [locs] /\ compute_rows (map keep bounds) locs (nlen (concat cellss)) = Ok intervals /\
    select_pages m intervals locs (nlen (concat cellss)) = Ok sel /\ indexed_reader_new file c sel = Ok r /\
    (forall buffers, length buffers = S (length read) ->
       bd_run C m (ir_next (f_header F) m) buffers r = Ok (map (fun p => inl (Some p)) read ++ [inl None])) /\
    Forall2 (decodes_selected k m entries) read selected /\
    filter (hit wanted) (concat selected) = filter (hit wanted) (concat cellss).
Proof.
  intros H Hg Hc HC E1 E2 E3 E4 d cellss Hk Hds Hstd Hst Hcount Hlc Hcomp Hsay Hcds Hhon Hsays Hne Htotal C1 C2 Hix Hback locs Hsz Hlback Hkeep Hpass.
  assert (Hdesc : Forall2 (truly_described k (within k)) cps cellss).
  { clear - Hhon Hsays. subst cellss. induction Hhon as [|p [b cells] cps pages Hp Hhon IH]; cbn [map snd] in *; [constructor|].
    inversion Hsays as [|? ? ? ? S1 S2]; subst. constructor; [exact (honest_described k p b cells Hp S1)|exact (IH S2)]. }
  assert (Hne' : cellss <> []) by (subst cellss; destruct pages; [congruence|discriminate]).
  assert (Hj : (j < length (sd_leaves schema))%nat).
  { destruct (IndexReadProofs.opened_column _ _ _ _ _ _ _ _ _ _ _ _ _ _ H Hg Hc E1 E2 E3 E4) as (Ed & _). apply nth_error_Some. congruence. }
  assert (Hpo : data_pages (pages_of_column (inl (map inl (cds ++ cps)))) = data_pages cps).
  { rewrite FileWriteProofs.pages_of_map. unfold data_pages. rewrite flat_map_app. replace (flat_map _ cds) with (@nil compressed_data_page); [reflexivity|].
    clear - Hcds. induction Hcds as [|p l Hp _ IH]; [reflexivity|]. destruct p; [discriminate Hp|exact IH]. }
  split.
  - intros Hnot. destruct (filter (hit wanted) (concat cellss)) as [|x l] eqn:E; [reflexivity|exfalso].
    assert (Hx : In x (filter (hit wanted) (concat cellss))) by (rewrite E; left; reflexivity). apply filter_In in Hx as [Hx Hh]. destruct x as [v|]; [|discriminate Hh]. apply Hnot.
    refine (kept_row_groups_have_all_wanted k F m schema true gs kv file md i g rg j c cds cps pages keep (fun v => wanted v = true) passes H Hg Hc E1 E2 E3 E4 Hcds Hhon _ C1 C2 Htotal Hkeep Hpass v Hx Hh).
    destruct (IndexReadProofs.opened_column _ _ _ _ _ _ _ _ _ _ _ _ _ _ H Hg Hc E1 E2 E3 E4) as (Ed & _).
    destruct (Hix (cmd_descr c, inl (map inl (cds ++ cps)))) as [Ht _].
    { apply (nth_error_In _ j). apply IndexReadProofs.nth_error_combine; assumption. }
    cbn [fst snd] in Ht. rewrite Hpo in Ht. exact Ht.
  - destruct (index_keeps_wanted_rows k F m schema gs kv file md i g rg j c cds cps cellss (within k) keep (fun v => wanted v = true) H Hg Hc E1 E2 E3 E4 Hcds Hdesc Hne' Htotal Hix Hsz Hlback Hkeep)
      as (ix & bounds & intervals & X1 & X2 & X3 & X4 & X5 & X6 & X7 & X8 & X9 & X10).
    destruct (file_selected_values k F C m schema true gs kv file md i g rg j c ds ps entries cellss o b0 cds cps intervals H Hg Hc HC E1 E2 E3 E4 Hlc Hcomp Hsay Hback
                Hsz Hlback Hk Hds Hstd Hst Hcount Htotal X6 X7 X8) as (sel & r & read & selected & Y1 & Y2 & Y3 & Y4 & Y5 & Y6).
    exists ix, bounds, intervals, sel, r, read, selected. repeat (split; [first [exact X1|exact X2|exact X4|exact X5|exact Y2|exact Y3|exact Y4|exact Y5]|]).
    rewrite Y6, X9. pose proof (pick_kept cellss (map keep bounds) [] ltac:(rewrite map_length; exact X3)) as P. cbn [app length] in P. rewrite P.
    apply kept_hits with (start := 0%nat); [rewrite map_length; exact X3|]. intros row x Hr Hh. rewrite <- X9. destruct x as [v|]; [|discriminate Hh]. exact (X10 row v Hr Hh).
Qed.
Print Assumptions search_equals_scan.

(** The file of the examples of C125 and C127: somebody looks for values of at least 5. One of the two pages is read. *)
Example search_equals_scan_case :
  exists ix bounds intervals sel r read selected,
    read_columns_indexes ex_column_index px_file [px_column] = Ok [ix] /\ bounds_found (KNative NI32) ix bounds /\
    compute_rows (map px_keep bounds) px_locs 5 = Ok intervals /\ select_pages Checked intervals px_locs 5 = Ok sel /\ indexed_reader_new px_file px_column sel = Ok r /\
    (forall buffers, length buffers = S (length read) ->
       bd_run toy Checked (ir_next ex_header Checked) buffers r = Ok (map (fun p => inl (Some p)) read ++ [inl None])) /\
    Forall2 (decodes_selected (KNative NI32) Checked (Some [1; 7]%Z)) read selected /\ filter (hit (fun v => 5 <=? v)%Z) (concat selected) = [Some 7%Z].
Proof.
  assert (Hback : forall max, reads_back ex_offset_index max px_locs).
  { intros max. apply (of_codec_reads_back c_offset_index). refine (of_codec_sound c_offset_index 0 (t_enc ex_offset_index px_locs) px_locs [] _). vm_compute. reflexivity. }
  destruct (search_equals_scan (KNative NI32) wx_formats toy Checked wx_schema [px_group] None px_file px_md 0 px_group (nth 0 (fmd_row_groups px_md) (mk_rgm [] 0 0)) 0 px_column
    (firstn 1 px_pages) (skipn 1 px_pages) (Some [1; 7]%Z) sk_pages OSnappy [3; 3] (firstn 1 px_compressed) (skipn 1 px_compressed) px_keep (fun v => 5 <=? v)%Z (sk_test 5))
    as (_ & ix & bounds & intervals & sel & r & read & selected & X1 & X2 & X3 & X4 & X5 & X6 & X7 & X8 & X9).
  - exact px_opened.
  - exact wx_good.
  - split; [repeat constructor|vm_compute; reflexivity].
  - exact toy_inverts.
  - reflexivity.
  - vm_compute. reflexivity.
  - reflexivity.
  - vm_compute. reflexivity.
  - reflexivity.
  - right. eexists. reflexivity.
  - apply Forall_forall. intros p [<-|[]]. pose proof px_stores as H. unfold px_pages, vx_cells in H. inversion H as [|? ? ? ? H1 _]. exact H1.
  - pose proof px_stores as H. unfold px_pages, vx_cells in H. inversion H as [|? ? ? ? _ H1]. exact H1.
  - repeat constructor; discriminate.
  - reflexivity.
  - vm_compute. reflexivity.
  - intros _. unfold px_pages. cbn [firstn skipn app]. repeat (apply Forall_cons; [cbn; first [exact I | discriminate]|]); apply Forall_nil.
  - repeat constructor.
  - exact sk_honest.
  - unfold px_compressed, sk_pages. cbn [skipn map snd]. repeat constructor; discriminate.
  - discriminate.
  - reflexivity.
  - exact I.
  - exact I.
  - exact px_indexable.
  - unfold px_compressed. cbn [firstn skipn app]. repeat (apply Forall_cons; [codec_ok|]); apply Forall_nil.
  - vm_compute. reflexivity.
  - intros max _. apply Hback.
  - intros b v (lo & hi & -> & _ & L) Hv. cbn [value_le value carrier] in L. apply Z.leb_le in Hv. unfold px_keep. cbn [snd]. apply Z.leb_le. lia.
  - intros rg i c s b Ec Es (p & x & -> & ->) Hk. unfold sk_test. destruct (rgm_columns rg) as [|c' l]; [discriminate Ec|]. injection Ec as ->. rewrite Es. exact Hk.
  - exists ix, bounds, intervals, sel, r, read, selected. split; [exact X1|]. split; [exact X2|]. split; [exact X4|]. split; [exact X5|]. split; [exact X6|]. split; [exact X7|]. split; [exact X8|].
    refine (eq_trans X9 _). reflexivity.
Qed.
