(** C113: what pages say about themselves. *)
From Verif Require Import Base.Prelude Base.Iter Base.Codec Model.Types Model.Thrift Model.Intervals Model.Page Model.Io Model.Statistics Model.PageRead
  Model.PageMeta Model.Compression Spec.PagesSpec Spec.PageMetaSpec Proofs.PageIoProofs Proofs.ErrorsProofs Proofs.PageMetaProofs Proofs.ThriftCodec Props.PageIo Props.Compression.
Open Scope N_scope.

(** For every page: the encodings are those named in the header, and asking for one without a name panics. Pages of the second version have their
    levels in RLE. The number of values is the announced one, cast from 32 to 64 bits. There are statistics if the header has some, and asking
    for them does not panic. *)
Theorem page_answers p :
  answers (header_encoding (dp_header p)) (dp_encoding p) /\
  match dp_header p with
  | HV1 h => answers (dh_def_encoding h) (dp_definition_level_encoding p) /\ answers (dh_rep_encoding h) (dp_repetition_level_encoding p)
  | HV2 _ => dp_definition_level_encoding p = Ok ERle /\ dp_repetition_level_encoding p = Ok ERle
  end /\
  ((0 <= announced (dp_header p) < 2 ^ 31)%Z -> dp_num_values p = Z.to_N (announced (dp_header p))) /\
  ((- 2 ^ 31 <= announced (dp_header p) < 0)%Z -> dp_num_values p = Z.to_N (2 ^ 64 + announced (dp_header p))) /\
  (dp_statistics p = None <-> stored_statistics (dp_header p) = None) /\ dp_statistics p <> Some Panic.
Proof.
  split; [ apply unwrap_answers | ]. split; [ | split; [ | split; [ | split ]]].
  - unfold dp_definition_level_encoding, dp_repetition_level_encoding. destruct (dp_header p); split; try reflexivity; apply unwrap_answers.
  - unfold dp_num_values, header_num_values, announced. change (2 ^ 31)%Z with 2147483648%Z.
    destruct (dp_header p) as [h|h]; intros H; unfold as_usize, of_signed; f_equal; apply Z.mod_small; change (2 ^ 64)%Z with 18446744073709551616%Z; lia.
  - unfold dp_num_values, header_num_values, announced. change (2 ^ 31)%Z with 2147483648%Z. change (2 ^ 64)%Z with 18446744073709551616%Z.
    assert (M : forall z, (- 2147483648 <= z < 0)%Z -> as_usize z = Z.to_N (18446744073709551616 + z)).
    { intros z H. unfold as_usize, of_signed. f_equal. symmetry. apply Z.mod_unique with (q := (-1)%Z); lia. }
    destruct (dp_header p) as [h|h]; apply M.
  - unfold dp_statistics, stored_statistics. destruct (dp_header p) as [h|h]; [ destruct (dh_statistics h) | destruct (dh2_statistics h) ]; cbn [option_map]; split; congruence.
  - unfold dp_statistics. destruct (dp_header p) as [h|h]; [ destruct (dh_statistics h) | destruct (dh2_statistics h) ]; cbn [option_map]; try discriminate;
      intros E; injection E as E; exact (deserialize_no_panic _ _ E).
Qed.
Print Assumptions page_answers.
Example page_answers_case :
  dp_encoding (mk_dp (HV1 (mk_tdh 3 8 4 3 None)) [] io_desc None) = Ok ERleDictionary /\
  dp_definition_level_encoding (mk_dp (HV1 (mk_tdh 3 8 4 3 None)) [] io_desc None) = Ok EBitPacked /\
  dp_repetition_level_encoding (mk_dp (HV1 (mk_tdh 3 8 4 3 None)) [] io_desc None) = Ok ERle /\
  dp_encoding (mk_dp (HV1 (mk_tdh 3 1 4 3 None)) [] io_desc None) = Panic /\
  dp_num_values (mk_dp (HV1 (mk_tdh (-1) 1 4 3 None)) [] io_desc None) = 18446744073709551615.
Proof. repeat split. Qed.

(** A data page that a reader or a stream returns answers all of it without a panic, before and after decompression, and answers the same:
    its encodings have names, and decompression keeps the header's numbers and statistics and the selected rows. *)
Theorem read_page_answers T m r r' C cap b p q :
  pr_next T m r = Ok (Some (inl (CData p)), r') \/ stream_next T m r = Ok (Some (inl (CData p)), r') ->
  decompress C m cap (CData p) b = Ok q ->
  exists d, q = PData d /\
    (exists e, names (header_encoding (cdp_header p)) e /\ dp_encoding d = Ok e) /\
    match cdp_header p with
    | HV1 h => (exists e, names (dh_def_encoding h) e /\ dp_definition_level_encoding d = Ok e) /\
               (exists e, names (dh_rep_encoding h) e /\ dp_repetition_level_encoding d = Ok e)
    | HV2 _ => dp_definition_level_encoding d = Ok ERle /\ dp_repetition_level_encoding d = Ok ERle
    end /\
    dp_num_values d = cdp_num_values p /\ dp_statistics d = cdp_statistics p /\ dp_selected d = cdp_selected p.
Proof.
  intros H D. assert (K : known_encodings (CData p)) by (destruct H as [H|H]; [ eapply pr_next_known | eapply stream_next_known ]; exact H).
  clear H. apply decompress_data in D as (d & -> & E1 & E2 & E3). exists d. split; [ reflexivity | ].
  destruct (page_answers d) as (A & B & _). rewrite E1 in A, B. cbn [known_encodings] in K.
  assert (Ks : known_encoding (header_encoding (cdp_header p))) by (destruct (cdp_header p); cbn [header_encoding]; apply K).
  split; [ exact (known_answers _ _ Ks A) | ]. split.
  - destruct (cdp_header p) as [h|h]; [ | exact B ]. destruct K as (_ & K1 & K2). destruct B as [B1 B2].
    split; [ exact (known_answers _ _ K1 B1) | exact (known_answers _ _ K2 B2) ].
  - unfold dp_num_values, cdp_num_values, dp_statistics, cdp_statistics. rewrite E1, E2. repeat split. exact E3.
Qed.
Print Assumptions read_page_answers.
(** A page with a dictionary's positions and levels in bit-packing, without compression. *)
Example read_page_answers_case :
  let p := mk_cdp (HV1 (mk_tdh 3 8 4 3 None)) [9; 9; 9] Uncompressed 3 io_desc None in
  exists r', pr_next ex_header Checked (pr_new (chunk_bytes ex_header [CData p]) 3 Uncompressed io_desc (fun _ _ => true) [] 100) = Ok (Some (inl (CData p)), r') /\
    exists q, decompress toy Checked 0 (CData p) [] = Ok (PData q) /\ dp_encoding q = Ok ERleDictionary /\ dp_definition_level_encoding q = Ok EBitPacked.
Proof.
  intros p. exists (mk_pr [] Uncompressed 3 3 (fun _ _ => true) io_desc [] 100).
  split; [ | exists (mk_dp (cdp_header p) [9; 9; 9] io_desc None) ]; vm_compute; repeat split.
Qed.

(** It is false for pages read through the page index: there the encodings are not looked at, and a page is returned that cannot say how it is encoded. *)
Theorem indexed_page_answers_refuted : exists file pages p q,
  drain (ir_next ex_header Checked) 1 (ir_new file 4 Uncompressed io_desc pages) = Ok [inl (CData p)] /\
  decompress toy Checked 0 (CData p) [] = Ok (PData q) /\
  dp_encoding q = Panic /\ dp_definition_level_encoding q = Panic /\ dp_repetition_level_encoding q = Panic /\
  drain (pr_next ex_header Checked) 1 (pr_new (skipn 4 file) 3 Uncompressed io_desc (fun _ _ => true) [] 100) = Ok [inr OutOfSpec].
Proof.
  pose (odd := mk_cdp (HV1 (mk_tdh 3 1 77 (-2) None)) [9; 9] Uncompressed 2 io_desc (Some [mk_iv 0 3])).
  exists ([80; 65; 82; 49] ++ chunk_bytes ex_header [CData odd]), [mk_fp 4 1000 [mk_iv 0 3] 3], odd, (mk_dp (cdp_header odd) [9; 9] io_desc (Some [mk_iv 0 3])).
  vm_compute. repeat split.
Qed.
Print Assumptions indexed_page_answers_refuted.

(** On disk a page is its header, which announces the answered compressed size, and that many bytes. Selecting rows changes nothing on disk; the
    last selection is the one the decompressed page has, and the rest of that page does not depend on it. *)
Theorem selected_page_answers T C m cap b p rows0 rows :
  let s := cdp_select_rows (cdp_select_rows p rows0) rows in
  nlen (page_bytes T (CData p)) = nlen (t_enc T (header_of (CData p))) + cdp_compressed_size p /\
  ph_compressed_size (header_of (CData p)) = Z.of_N (cdp_compressed_size p) /\
  page_bytes T (CData s) = page_bytes T (CData p) /\ cdp_compressed_size s = cdp_compressed_size p /\
  cdp_num_values s = cdp_num_values p /\ cdp_statistics s = cdp_statistics p /\
  decompress C m cap (CData s) b =
    let* q := decompress C m cap (CData p) b in
    match q with PData d => Ok (PData (mk_dp (dp_header d) (dp_buffer d) (dp_descriptor d) (Some rows))) | PDict _ => Panic end.
Proof.
  intros s. split; [ unfold page_bytes; unfold nlen; rewrite app_length, Nat2N.inj_add; reflexivity | ]. split; [ unfold header_of; destruct (cdp_header p); reflexivity | ].
  split; [ reflexivity | ]. split; [ reflexivity | ]. split; [ reflexivity | ]. split; [ reflexivity | ].
  unfold s, decompress, decompress_buffer, cdp_select_rows. cbn [cp_compression cdp_compression cdp_header cdp_buffer cp_uncompressed_size cdp_uncompressed_size].
  destruct (cdp_compression p) eqn:E;
    try (match goal with |- context [let (_, _) := ?X in (CData p, _, _)] => destruct X as [b2 r2] end; destruct r2; reflexivity).
  reflexivity.
Qed.
Print Assumptions selected_page_answers.
Example selected_page_answers_case :
  let p := mk_cdp (HV1 (mk_tdh 3 8 4 3 None)) [9; 9; 9] Uncompressed 7 io_desc (Some [mk_iv 0 1]) in
  cdp_compressed_size p = 3 /\
  decompress toy Checked 0 (CData (cdp_select_rows (cdp_select_rows p [mk_iv 1 1]) [mk_iv 0 2; mk_iv 2 1])) [] =
    Ok (PData (mk_dp (cdp_header p) [9; 9; 9] io_desc (Some [mk_iv 0 2; mk_iv 2 1]))).
Proof. split; vm_compute; reflexivity. Qed.
