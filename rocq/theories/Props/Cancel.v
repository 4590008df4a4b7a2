(** C118: what is left by asynchronous calls of which the future is dropped. *)
From Verif Require Import Base.Prelude Base.LeFacts Base.Codec Model.Types Model.Thrift Model.Intervals Model.Page Model.Io Model.Statistics
  Model.PageWrite Model.ColumnWrite Model.Schema Model.PageRead Model.Metadata Model.Indexes Model.FileWrite Model.Cancel Spec.PagesSpec Spec.ChunkSpec Spec.MetadataSpec
  Spec.FileSpec Spec.CancelSpec
  Proofs.TypesFacts Proofs.MetadataProofs Proofs.FileWriteProofs Proofs.CrashProofs Proofs.TroubledProofs Proofs.CancelProofs Proofs.ThriftCodec Props.PageIo Props.FileWrite.
Open Scope N_scope.

(** A call that is dropped when the destination had accepted [n] of the bytes it was going to write: these bytes are in the file, and no row group
    is recorded; the row groups recorded before are there, with the chunks they had. *)
Theorem dropped_call_prefix F m w c n : sk_room (fw_sink w) = None -> n < nlen (adds F m w c) ->
  let w' := fs_dropped F m w c n in
  file_of w' = file_of w ++ firstn (N.to_nat n) (adds F m w c) /\ file_of (fst (fs_call F m w c)) = file_of w ++ adds F m w c /\
  Forall2 (fun rg rg' => map cc_meta (rg_columns rg') = map cc_meta (rg_columns rg)) (fw_groups w) (fw_groups w').
Proof.
  intros Hr Hn w'. destruct (dropped_call F m w c n Hr Hn) as (_ & Hf & (_ & _ & Hg & _)). split; [ exact Hf | ].
  split. { destruct (fs_call F m w c) as [w1 r] eqn:E. exact (proj2 (reliable_call _ _ _ _ _ _ Hr E)). }
  eapply Forall2_impl; [ | exact Hg ]. intros rg rg' (cs & -> & H). cbn [set_columns rg_columns]. clear - H. induction H; cbn [map]; congruence.
Qed.
Print Assumptions dropped_call_prefix.
(** [end] of a file with a row group, dropped in the first index. *)
Definition dx_w1 := fst (fs_call wx_formats Checked wx_new (CWrite wx_g1)).
Example dropped_call_prefix_witness :
  sk_room (fw_sink dx_w1) = None /\ 30 < nlen (adds wx_formats Checked dx_w1 (CEnd None)) /\
  nlen (file_of (fs_dropped wx_formats Checked dx_w1 (CEnd None) 30)) = nlen (file_of dx_w1) + 30.
Proof. split; [ reflexivity | ]. split; vm_compute; reflexivity. Qed.

(** The bytes that a dropped write leaves in the file are not counted by the writer, except for the four that the file starts with. *)
Theorem dropped_write_counts F m w g n : sk_room (fw_sink w) = None -> fw_offset w <= nlen (file_of w) -> n < nlen (adds F m w (CWrite g)) ->
  let w' := fs_dropped F m w (CWrite g) n in
  uncounted w' = uncounted w + (if (fw_offset w =? 0) && (4 <=? n) then n - 4 else n) /\ fw_groups w' = fw_groups w.
Proof. intros Hr Ho Hn. exact (dropped_write_uncounted F m w g n Hr Ho Hn). Qed.
Print Assumptions dropped_write_counts.
Definition dx_w2 := fs_dropped wx_formats Checked wx_new (CWrite wx_g1) 2.
Definition dx_w3 := fs_dropped wx_formats Checked dx_w2 (CWrite wx_g1) 9.
Example dropped_write_counts_witness :
  file_of dx_w2 = [80; 65] /\ uncounted dx_w2 = 2 /\ firstn 6 (file_of dx_w3) = [80; 65; 80; 65; 82; 49] /\ nlen (file_of dx_w3) = 11 /\ uncounted dx_w3 = 7.
Proof. repeat split; vm_compute; reflexivity. Qed.

(** Any history of an asynchronous writer, and an [end] that succeeds: each row group that was written is behind the place that the metadata has for
    it, by the bytes that were not counted when it was written; its offset indexes are behind their places by the bytes not counted at the end;
    the size returned is too small by the latter; and opening the file does not notice. *)
Theorem streamed_exactly F m schema stats version created_by l w kv w' size :
  streamed F m (fw_new (mk_sink [] None) schema stats version created_by) l w -> fs_call F m w (CEnd kv) = (w', Ok size) ->
  let file := file_of w' in
  nlen file < 2 ^ 63 ->
  exists meta,
    Forall2 (fun x rg => Forall2 (chunk_and_index_behind F file (snd x) (uncounted w)) (combine (sd_leaves schema) (fst x)) (rg_columns rg)) l (fm_row_groups meta) /\
    (let enc := t_enc (f_file F) meta in
     nlen enc < 2 ^ 31 ->
     (exists pre, file = pre ++ enc ++ to_le 4 (nlen enc) ++ [80; 65; 82; 49]) /\
     size + uncounted w = nlen file /\ uncounted w' = uncounted w + nlen enc + 8 /\
     (reads_back (f_file F) (2 * (nlen enc + 8) + 1024) meta -> read_metadata (f_file F) m file = file_from_thrift m meta)).
Proof.
  intros H E file Hlen. cbn [fs_call] in E. pose proof (counts_end _ _ _ _ _ _ E) as (_ & _ & _ & _ & _ & x & Hx & _).
  assert (Hw : nlen (file_of w) < 2 ^ 63) by (unfold file in Hlen; rewrite Hx, nlen_app in Hlen; lia).
  pose proof (streamed_streaming F m _ _ _ _ H Hw [] (streaming_new F schema stats version created_by)) as T. cbn [app] in T.
  destruct (streaming_end F m _ _ _ _ _ _ T E Hlen) as (meta & pre & Hf & Hp & Hg & Hs). exists meta. split; [ exact Hg | ].
  intros enc Hm. destruct (Hs Hm) as [Hs1 Hs2]. split.
  { exists pre. unfold file. rewrite Hf. rewrite as_i32_small by (change (2 ^ 31) with 2147483648 in Hm; exact Hm). unfold of_signed. change (2 ^ Z.of_N 32)%Z with 4294967296%Z.
    change (2 ^ 31) with 2147483648 in Hm. unfold enc in *. rewrite Z.mod_small by lia. rewrite N2Z.id. reflexivity. }
  split; [ exact Hs1 | ]. split; [ exact Hs2 | ]. intros Hb. eapply opened_tail; [ exact Hf | exact Hp | exact Hm | exact Hb ].
Qed.
Print Assumptions streamed_exactly.
(** A write dropped inside the first four bytes, one dropped after them, a row group, an end that is dropped in its second index, a row group, an end, a row group and the end. *)
Definition dx_w4 := fst (fs_call wx_formats Checked dx_w3 (CWrite wx_g1)).
Definition dx_w5 := fs_dropped wx_formats Checked dx_w4 (CEnd None) 60.
Definition dx_w6 := fst (fs_call wx_formats Checked dx_w5 (CWrite wx_g2)).
Definition dx_w7 := fst (fs_call wx_formats Checked dx_w6 (CEnd None)).
Definition dx_w8 := fst (fs_call wx_formats Checked dx_w7 (CWrite wx_g2)).
Definition dx_end := fs_call wx_formats Checked dx_w8 (CEnd None).
Example streamed_exactly_witness :
  streamed wx_formats Checked wx_new [(wx_g1, 7); (wx_g2, uncounted dx_w5); (wx_g2, uncounted dx_w7)] dx_w8 /\
  uncounted dx_w5 = 22 /\ uncounted dx_w5 + 100 < uncounted dx_w7 /\
  snd dx_end = Ok (nlen (file_of (fst dx_end)) - uncounted dx_w8) /\
  is_ok (read_metadata ex_file_meta Checked (file_of (fst dx_end))) = true.
Proof.
  split.
  - apply streamed_dropped with (c := CWrite wx_g1) (n := 2); [ vm_compute; reflexivity | ]. apply streamed_dropped with (c := CWrite wx_g1) (n := 9); [ vm_compute; reflexivity | ].
    change 7 with (uncounted dx_w3). apply streamed_written with (w1 := dx_w4) (r := 0); [ vm_compute; reflexivity | ].
    apply streamed_dropped with (c := CEnd None) (n := 60); [ vm_compute; reflexivity | ].
    apply streamed_written with (w1 := dx_w6) (r := 0); [ vm_compute; reflexivity | ].
    apply streamed_ended with (kv := None) (w1 := dx_w7) (r := snd (fs_call wx_formats Checked dx_w6 (CEnd None))); [ vm_compute; reflexivity | vm_compute; discriminate | ].
    apply streamed_written with (w1 := dx_w8) (r := 0); [ vm_compute; reflexivity | ]. apply streamed_nil.
  - split; [ vm_compute; reflexivity | ]. split; [ vm_compute; reflexivity | ]. split; vm_compute; reflexivity.
Qed.

(** A writer cannot be used after a write was dropped, although no call says so: a write is dropped after its first page, the row group is written
    again and the file ended; the file is opened without an error, and a chunk is not where the metadata says. *)
Definition dx_again := fst (fs_call wx_formats Checked (fs_dropped wx_formats Checked wx_new (CWrite wx_g1) 30) (CWrite wx_g1)).
Definition dx_file := file_of (fst (fs_call wx_formats Checked dx_again (CEnd None))).
Theorem dropped_then_written_refuted :
  ~ (forall l w w' size, streamed wx_formats Checked wx_new l w -> fs_call wx_formats Checked w (CEnd None) = (w', Ok size) ->
       forall md, read_metadata ex_file_meta Checked (file_of w') = Ok md ->
       Forall2 (fun x rg => Forall2 (chunk_at wx_formats (file_of w')) (combine (sd_leaves wx_schema) (fst x)) (map cmd_chunk (rgm_columns rg))) l (fmd_row_groups md)).
Proof.
  intros H. destruct (read_metadata ex_file_meta Checked dx_file) as [md|e|] eqn:Em; [ | vm_compute in Em; discriminate Em | vm_compute in Em; discriminate Em ].
  specialize (H [(wx_g1, 26)] dx_again (fst (fs_call wx_formats Checked dx_again (CEnd None))) (wx_size (snd (fs_call wx_formats Checked dx_again (CEnd None))))).
  assert (S : streamed wx_formats Checked wx_new [(wx_g1, 26)] dx_again).
  { apply streamed_dropped with (c := CWrite wx_g1) (n := 30); [ vm_compute; reflexivity | ].
    replace 26 with (uncounted (fs_dropped wx_formats Checked wx_new (CWrite wx_g1) 30)) by (vm_compute; reflexivity).
    apply streamed_written with (w1 := dx_again) (r := 0); [ vm_compute; reflexivity | ]. apply streamed_nil. }
  specialize (H S ltac:(vm_compute; reflexivity) md Em).
  inversion H as [|? rg ? ? Hg _ E1 E2]. clear H S.
  assert (Ec : exists c meta rest, map cmd_chunk (rgm_columns rg) = c :: rest /\ cc_meta c = Some meta /\ chunk_start meta = 4).
  { assert (G : match read_metadata ex_file_meta Checked dx_file with
                | Ok md => match fmd_row_groups md with
                           | rg :: _ => match map cmd_chunk (rgm_columns rg) with
                                        | c :: _ => match cc_meta c with Some meta => chunk_start meta =? 4 | None => false end
                                        | [] => false end
                           | [] => false end
                | _ => false end = true) by (vm_compute; reflexivity).
    rewrite Em, <- E2 in G. destruct (map cmd_chunk (rgm_columns rg)) as [|c rest]; [ discriminate G | ]. destruct (cc_meta c) as [meta|] eqn:E; [ | discriminate G ].
    exists c, meta, rest. apply N.eqb_eq in G. auto. }
  destruct Ec as (c & meta & rest & Er & Eme & Est). rewrite Er in Hg. cbn [fst] in Hg.
  change (combine (sd_leaves wx_schema) wx_g1) with (nth 0 (combine (sd_leaves wx_schema) wx_g1) (hd (mk_cdescr (mk_descr wx_b 0 0) [] (Primitive wx_b)) (sd_leaves wx_schema), inr Io) :: tl (combine (sd_leaves wx_schema) wx_g1)) in Hg.
  inversion Hg as [|? ? ? ? Hc _ E3 E4]. clear Hg. destruct Hc as (pages & meta' & Hp & Hm & Hh & _). rewrite Eme in Hm. injection Hm as <-.
  assert (pages = [io_dict; wx_a1; io_v2]) as ->.
  { apply (f_equal pages_of_column) in Hp. rewrite !pages_of_map in Hp. symmetry. exact Hp. }
  rewrite Est in Hh. apply holds_read in Hh. revert Hh. vm_compute. discriminate.
Qed.
Print Assumptions dropped_then_written_refuted.

(** Writes that are dropped before the destination has accepted a byte do no harm: all is where the metadata says. *)
Theorem dropped_unstarted_harmless F m schema stats version created_by gs w kv w' size :
  undisturbed F m (fw_new (mk_sink [] None) schema stats version created_by) gs w -> fs_call F m w (CEnd kv) = (w', Ok size) ->
  let file := file_of w' in
  nlen file < 2 ^ 63 ->
  exists meta,
    Forall2 (fun g rg => Forall2 (chunk_and_index_behind F file 0 0) (combine (sd_leaves schema) g) (rg_columns rg)) gs (fm_row_groups meta) /\
    (let enc := t_enc (f_file F) meta in
     nlen enc < 2 ^ 31 ->
     (exists pre, file = pre ++ enc ++ to_le 4 (nlen enc) ++ [80; 65; 82; 49]) /\ size = nlen file /\
     (reads_back (f_file F) (2 * (nlen enc + 8) + 1024) meta -> read_metadata (f_file F) m file = file_from_thrift m meta)).
Proof.
  intros H E file Hlen. pose proof E as E'. cbn [fs_call] in E'. pose proof (counts_end _ _ _ _ _ _ E') as (_ & _ & _ & _ & _ & x & Hx & _).
  assert (Hw : nlen (file_of w) < 2 ^ 63) by (unfold file in Hlen; rewrite Hx, nlen_app in Hlen; lia).
  destruct (undisturbed_streamed F m _ _ _ H Hw _ _ (streaming_new F schema stats version created_by) eq_refl) as [S Hu].
  destruct (streamed_exactly F m schema stats version created_by _ w kv w' size S E Hlen) as (meta & Hg & Hs). exists meta. rewrite Hu in *. split.
  - clear - Hg. revert Hg. generalize (fm_row_groups meta) as rgs. induction gs as [|g gs IH]; intros rgs Hg; inversion Hg; subst; constructor; [ assumption | apply IH; assumption ].
  - intros enc Hm. destruct (Hs Hm) as (A & B & _ & D). rewrite N.add_0_r in B. auto.
Qed.
Print Assumptions dropped_unstarted_harmless.
Definition dx_u1 := fs_dropped wx_formats Checked wx_new (CWrite wx_g2) 0.
Definition dx_u2 := fst (fs_call wx_formats Checked dx_u1 (CWrite wx_g1)).
Definition dx_u3 := fs_dropped wx_formats Checked dx_u2 (CWrite wx_g1) 0.
Definition dx_u4 := fst (fs_call wx_formats Checked dx_u3 (CWrite wx_g2)).
Example dropped_unstarted_harmless_witness :
  undisturbed wx_formats Checked wx_new [wx_g1; wx_g2] dx_u4 /\
  let x := fs_call wx_formats Checked dx_u4 (CEnd None) in snd x = Ok (nlen (file_of (fst x))) /\ is_ok (read_metadata ex_file_meta Checked (file_of (fst x))) = true.
Proof.
  split; [ | cbv zeta; split; vm_compute; reflexivity ].
  apply undisturbed_dropped with (g := wx_g2); [ vm_compute; reflexivity | ]. apply undisturbed_written with (w1 := dx_u2) (r := 0); [ vm_compute; reflexivity | ].
  apply undisturbed_dropped with (g := wx_g1); [ vm_compute; reflexivity | ]. apply undisturbed_written with (w1 := dx_u4) (r := 0); [ vm_compute; reflexivity | ]. apply undisturbed_nil.
Qed.
