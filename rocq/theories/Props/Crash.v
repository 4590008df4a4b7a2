(** C51, C88: what is left when writing stops or fails at any byte. *)
From Verif Require Import Base.Prelude Base.LeFacts Base.Codec Model.Types Model.Thrift Model.Intervals Model.Page Model.Io Model.Statistics
  Model.PageWrite Model.ColumnWrite Model.Schema Model.PageRead Model.Metadata Model.Indexes Model.FileWrite Spec.PagesSpec Spec.ChunkSpec Spec.MetadataSpec Spec.FileSpec
  Proofs.MetadataProofs Proofs.FileWriteProofs Proofs.CrashProofs Proofs.TroubledProofs Proofs.ThriftCodec Props.PageIo Props.FileWrite.
Open Scope N_scope.

(** The same calls on two writers, of which one writes to a destination that takes all bytes and the other to one that fails after [n] of them:
    the second destination holds the first [n] bytes of the first one. If that is all of them then the calls return the same, and otherwise one
    call, before which all returned the same, returns an error. [asynchronous] chooses which of the two file writers is meant. *)
Theorem interrupted_write_prefix F m (asynchronous : bool) schema stats version created_by n l w0 rs0 w1 rs1 :
  let step := if asynchronous then fs_call F m else fw_call F m in
  calls step (fw_new (mk_sink [] None) schema stats version created_by) l = (w0, rs0) ->
  calls step (fw_new (mk_sink [] (Some n)) schema stats version created_by) l = (w1, rs1) ->
  sk_data (fw_sink w1) = firstn (N.to_nat n) (sk_data (fw_sink w0)) /\
  (nlen (sk_data (fw_sink w0)) <= n -> rs1 = rs0) /\
  (n < nlen (sk_data (fw_sink w0)) -> exists k e, (k < length l)%nat /\ firstn k rs1 = firstn k rs0 /\ nth_error rs1 k = Some (Err e)).
Proof.
  intros step H0 H1. set (w := fw_new (mk_sink [] None) schema stats version created_by) in *.
  change w with (set_sink w (mk_sink [] None)) in H0. change (fw_new (mk_sink [] (Some n)) schema stats version created_by) with (set_sink w (mk_sink [] (Some n))) in H1.
  assert (Hs : forall c, steady_fw (fun w => step w c)) by (intro c; unfold step; destruct asynchronous; [ apply steady_async_call | apply steady_call ]).
  pose proof (calls_length _ _ _ _ _ H0) as Hl.
  destruct (limited_calls step Hs _ _ _ _ _ _ _ _ H0 H1) as (out & A & B & C & D). rewrite A, B. cbn [app].
  split; [ reflexivity | ]. split; [ exact C | ]. intro Hn. destruct (D Hn) as (k & rest & Hk & ->). exists k, OutOfSpec. split; [ exact Hk | ].
  assert (length (firstn k rs0) = k) as Hf by (rewrite firstn_length; lia). split.
  - rewrite firstn_app, Hf, Nat.sub_diag. cbn [firstn]. rewrite app_nil_r. apply firstn_all2. lia.
  - rewrite nth_error_app2 by lia. rewrite Hf, Nat.sub_diag. reflexivity.
Qed.
Print Assumptions interrupted_write_prefix.
Definition cx_calls := [CWrite wx_g1; CWrite wx_g2; CEnd None].
Definition cx_run (n : option N) := calls (fw_call wx_formats Checked) (fw_new (mk_sink [] n) wx_schema true 2 (Some [109])) cx_calls.
Example interrupted_write_prefix_witness :
  sk_data (fw_sink (fst (cx_run (Some 500)))) = firstn 500 (sk_data (fw_sink (fst (cx_run None)))) /\
  (500 < length (sk_data (fw_sink (fst (cx_run None)))))%nat /\
  map is_ok (snd (cx_run None)) = [true; true; true] /\
  map is_ok (snd (cx_run (Some 500))) = [true; false; false].
Proof. split; [ vm_compute; reflexivity | ]. split; [ apply Nat.ltb_lt; vm_compute; reflexivity | ]. split; vm_compute; reflexivity. Qed.

(** Full statement of the second half: if [n < nlen (sk_data (fw_sink w0))] then the bytes that were written cannot be opened as a file.
    Missing: this is false where the written pages have the last four bytes of a file in them ([interrupted_write_rejected_refuted]).
    Proved: what was written is rejected unless writing stopped exactly behind such four bytes; hence always if these are only at
    the start and the end of the whole file. *)
Theorem interrupted_write_rejected_partial F m (asynchronous : bool) schema stats version created_by n l w0 rs0 w1 rs1 :
  let step := if asynchronous then fs_call F m else fw_call F m in
  calls step (fw_new (mk_sink [] None) schema stats version created_by) l = (w0, rs0) ->
  calls step (fw_new (mk_sink [] (Some n)) schema stats version created_by) l = (w1, rs1) ->
  n < nlen (sk_data (fw_sink w0)) ->
  magic_only_at_ends (sk_data (fw_sink w0)) \/
  (forall pre post, sk_data (fw_sink w0) = pre ++ [80; 65; 82; 49] ++ post -> nlen pre + 4 <> n) ->
  forall T m', read_metadata T m' (sk_data (fw_sink w1)) = Err OutOfSpec.
Proof.
  intros step H0 H1 Hn Hm T m'. destruct (interrupted_write_prefix _ _ _ _ _ _ _ _ _ _ _ _ _ H0 H1) as (-> & _ & _).
  apply truncated_rejected; assumption.
Qed.
Print Assumptions interrupted_write_rejected_partial.

(** Exactly when what was written can be opened although writing stopped early: when the whole file has, up to the place where writing stopped, bytes that are metadata, their length
    and the last four bytes of a file. Then that metadata is what is opened. The witness of [interrupted_write_rejected_refuted] below is such a case. *)
Theorem interrupted_write_opened_exactly F m (asynchronous : bool) schema stats version created_by n l w0 rs0 w1 rs1 :
  let step := if asynchronous then fs_call F m else fw_call F m in
  calls step (fw_new (mk_sink [] None) schema stats version created_by) l = (w0, rs0) ->
  calls step (fw_new (mk_sink [] (Some n)) schema stats version created_by) l = (w1, rs1) ->
  n < nlen (sk_data (fw_sink w0)) ->
  forall T m' md, read_metadata T m' (sk_data (fw_sink w1)) = Ok md <->
    exists before meta len post t rest,
      sk_data (fw_sink w0) = before ++ (meta ++ len ++ [80; 65; 82; 49]) ++ post /\ n = nlen before + nlen meta + 8 /\ 12 <= n /\
      length len = 4%nat /\ to_signed 32 (le len) = Z.of_N (nlen meta) /\
      t_dec T (2 * (nlen meta + 8) + 1024) (meta ++ len ++ [80; 65; 82; 49]) = Ok (t, rest) /\ file_from_thrift m' t = Ok md.
Proof.
  intros step H0 H1 Hn T m' md. destruct (interrupted_write_prefix _ _ _ _ _ _ _ _ _ _ _ _ _ H0 H1) as (-> & _ & _).
  apply truncated_opened. exact Hn.
Qed.
Print Assumptions interrupted_write_opened_exactly.
Definition cx_find (l : list N) : list nat :=
  filter (fun i => if list_eq_dec N.eq_dec (firstn 4 (skipn i l)) [80; 65; 82; 49] then true else false) (seq 0 (length l)).
Lemma cx_find_spec l pre post : l = pre ++ [80; 65; 82; 49] ++ post -> In (length pre) (cx_find l).
Proof.
  intros ->. unfold cx_find. apply filter_In. split.
  - apply in_seq. rewrite app_length. cbn [app length]. lia.
  - rewrite skipn_app, skipn_all, Nat.sub_diag. cbn [app skipn firstn]. reflexivity.
Qed.
Example interrupted_write_rejected_witness :
  snd (cx_run None) = [Ok 0; Ok 0; Ok (nlen (sk_data (fw_sink (fst (cx_run None)))))] /\
  magic_only_at_ends (sk_data (fw_sink (fst (cx_run None)))) /\
  forall n, n < nlen (sk_data (fw_sink (fst (cx_run None)))) -> is_ok (read_metadata ex_file_meta Checked (sk_data (fw_sink (fst (cx_run (Some n)))))) = false.
Proof.
  assert (M : magic_only_at_ends (sk_data (fw_sink (fst (cx_run None))))).
  { intros pre post E. pose proof (cx_find_spec _ _ _ E) as H. apply (f_equal (@length N)) in E. rewrite !app_length in E. cbn [length] in E.
    set (file := sk_data (fw_sink (fst (cx_run None)))) in *.
    assert (cx_find file = [0%nat; (length file - 4)%nat]) as Ef by (vm_compute; reflexivity). rewrite Ef in H. clearbody file.
    destruct H as [H|[H|[]]]; [ left; destruct pre; [ reflexivity | discriminate H ] | right; destruct post; [ reflexivity | cbn [length] in *; lia ] ]. }
  split; [ vm_compute; reflexivity | ]. split; [ exact M | ]. intros n Hn.
  destruct (cx_run None) as [w0 rs0] eqn:E0. destruct (cx_run (Some n)) as [w1 rs1] eqn:E1.
  cbn [fst] in *. rewrite (interrupted_write_rejected_partial wx_formats Checked false _ _ _ _ _ _ _ _ _ _ E0 E1 Hn (or_introl M)). reflexivity.
Qed.

(** Not all interrupted writes are rejected: a page can hold the bytes of a file, and a write that stops behind them leaves a file that opens
    as the file in the page, although no call ended the file that was being written. *)
Definition cx_inner : list N := sk_data (fw_sink (fst (fw_end wx_formats Checked wx_new None))).
Definition cx_page := CData (mk_cdp (HV1 (mk_tdh 5 8 3 3 (Some (wx_stats 1 [1; 0; 0; 0] [7; 0; 0; 0])))) cx_inner Snappy 12 io_desc (Some [mk_iv 0 5])).
Definition cx_outer : list call := [CWrite [inl (map inl [cx_page; wx_a1]); inl (map inl [wx_b_page 5])]; CEnd None].
Theorem interrupted_write_rejected_refuted : exists l n w0 size w1 rs1,
  calls (fw_call wx_formats Checked) wx_new l = (w0, [Ok 0; Ok size]) /\
  calls (fw_call wx_formats Checked) (fw_new (mk_sink [] (Some n)) wx_schema true 2 (Some [109])) l = (w1, rs1) /\
  n < nlen (sk_data (fw_sink w0)) /\ map is_ok rs1 = [false; false] /\
  match read_metadata ex_file_meta Checked (sk_data (fw_sink w0)) with Ok md => fmd_num_rows md = 8 | _ => False end /\
  match read_metadata ex_file_meta Checked (sk_data (fw_sink w1)) with Ok md => fmd_num_rows md = 0 | _ => False end.
Proof.
  set (n := 4 + nlen (chunk_bytes ex_header [cx_page])).
  set (p0 := calls (fw_call wx_formats Checked) wx_new cx_outer).
  set (p1 := calls (fw_call wx_formats Checked) (fw_new (mk_sink [] (Some n)) wx_schema true 2 (Some [109])) cx_outer).
  exists cx_outer, n, (fst p0), (nlen (sk_data (fw_sink (fst p0)))), (fst p1), (snd p1).
  split; [ vm_compute; reflexivity | ]. split; [ unfold p1; destruct (calls _ _ _); reflexivity | ].
  split; [ apply N.ltb_lt; vm_compute; reflexivity | ]. split; [ vm_compute; reflexivity | ]. split; vm_compute; reflexivity.
Qed.
Print Assumptions interrupted_write_rejected_refuted.

(** * C51 *)

(** What failed writes do, for every sequence of writes of which any may fail after any number of bytes, on a destination that does not fail:
    each row group that was written is behind the place the metadata says for it, by exactly the bytes that failed writes left in front of it; the
    size that [end] returns is too small by all of these bytes; and opening the file does not notice ([meta] is what the writer has written). *)
Theorem failed_writes_exactly F m schema stats version created_by l w k kv w' size :
  troubled F m (fw_new (mk_sink [] None) schema stats version created_by) 0 l w k -> fw_end F m w kv = (w', Ok size) ->
  let file := sk_data (fw_sink w') in
  nlen file < 2 ^ 63 ->
  exists meta, fw_metadata w' = Some meta /\
    Forall2 (fun x rg => Forall2 (chunk_behind F file (snd x)) (combine (sd_leaves schema) (fst x)) (rg_columns rg)) l (fm_row_groups meta) /\
    (nlen (t_enc (f_file F) meta) < 2 ^ 31 -> size + k = nlen file /\
      (reads_back (f_file F) (2 * (nlen (t_enc (f_file F) meta) + 8) + 1024) meta -> read_metadata (f_file F) m file = file_from_thrift m meta)).
Proof.
  intros Ht He file Hlen. pose proof (fw_end_longer _ _ _ _ _ _ He) as L. apply longer_nlen in L.
  pose proof (troubled_trouble F m _ _ _ _ _ _ Ht ltac:(unfold file in Hlen; lia) [] (trouble_new F m schema stats version created_by)) as T. cbn [app] in T.
  assert (Es : fw_schema w = schema) by (destruct T as (data & clean & _ & (E & _) & _); exact E).
  destruct (trouble_end _ _ _ _ _ _ _ _ _ T He Hlen) as (meta & H1 & H2 & H3). rewrite Es in H2. exists meta. auto.
Qed.
Print Assumptions failed_writes_exactly.
(** One row group, a write that fails after its first column, one more row group, a write that fails in its second column, and the end. *)
Definition cx_bad1 : row_group_iter := [inl (map inl [wx_a1]); inr Io].
Definition cx_bad2 : row_group_iter := [inl (map inl [wx_a1; io_v2]); inl [inl (wx_b_page 5); inr Io]].
Definition cx_w1 := wx_step1 wx_g1.
Definition cx_w2 := fst (fw_write wx_formats Checked cx_w1 cx_bad1).
Definition cx_w3 := fst (fw_write wx_formats Checked cx_w2 wx_g2).
Definition cx_w4 := fst (fw_write wx_formats Checked cx_w3 cx_bad2).
Definition cx_ended := fw_end wx_formats Checked cx_w4 None.
Example failed_writes_exactly_witness :
  let k1 := left_behind cx_w1 cx_w2 in let k2 := left_behind cx_w3 cx_w4 in
  troubled wx_formats Checked wx_new 0 [(wx_g1, 0); (wx_g2, k1)] cx_w4 (k1 + k2) /\ 0 < k1 /\ 0 < k2 /\
  snd cx_ended = Ok (nlen (sk_data (fw_sink (fst cx_ended))) - k1 - k2) /\
  is_ok (read_metadata ex_file_meta Checked (sk_data (fw_sink (fst cx_ended)))) = true.
Proof.
  cbv zeta. split.
  - eapply troubled_ok with (w1 := cx_w1); [ vm_compute; reflexivity | ].
    eapply troubled_failed with (g := cx_bad1) (w1 := cx_w2); [ vm_compute; reflexivity | ]. change (0 + left_behind cx_w1 cx_w2) with (left_behind cx_w1 cx_w2).
    eapply troubled_ok with (w1 := cx_w3); [ vm_compute; reflexivity | ].
    eapply troubled_failed with (g := cx_bad2) (w1 := cx_w4); [ vm_compute; reflexivity | ]. apply troubled_nil.
  - split; [ vm_compute; reflexivity | ]. split; [ vm_compute; reflexivity | ]. split; vm_compute; reflexivity.
Qed.
