(** C99, C100: pages in arbitrary bytes, in sequence or at given places. *)
From Verif Require Import Base.Prelude Base.Iter Base.Codec Model.Types Model.Thrift Model.Intervals Model.Page Model.Io Model.PageRead
  Spec.PagesSpec Spec.ForeignSpec Spec.DeltaAnySpec Spec.AnyPagesSpec Proofs.PageIoProofs Proofs.PageReadProofs Proofs.AnyPagesProofs Proofs.ThriftCodec Props.PageIo.
Open Scope N_scope.

(** * C99 *)

(** For any bytes (fewer than 2^32, so that the counter cannot overflow) a reader returns the pages at the front that pass the filter, one after the
    other, then ends or reports why there is no page. Nothing panics, and the result is unique. *)
Theorem chunk_any_bytes T m bytes total c d f scratch max :
  (forall max s, t_dec T max s <> Panic) -> counts_32 T ->
  (forall max s h rest, t_dec T max s = Ok (h, rest) -> (length rest < length s)%nat) ->
  nlen bytes < 2 ^ 32 - 1 ->
  exists l e, chunk_pages T max c d (f d) total 0 bytes l e /\
    (forall l' e', chunk_pages T max c d (f d) total 0 bytes l' e' -> l' = l /\ e' = e) /\
    outcome (pr_next T m) (pr_new bytes total c d f scratch max) l e.
Proof.
  intros Hnp HT Hc Hl. destruct (reader_any T m Hnp HT Hc (S (length bytes)) (pr_new bytes total c d f scratch max)) as (l & e & Hch & Hout).
  - cbn [pr_new pr_source]. lia.
  - cbn [pr_new pr_seen]. unfold nlen in Hl. change (2 ^ 31)%Z with 2147483648%Z. change (2 ^ 63)%Z with 9223372036854775808%Z.
    change (2 ^ 32 - 1) with 4294967295 in Hl. lia.
  - exists l, e. split; [ exact Hch | ]. split; [ | exact Hout ]. intros l' e' H'. eapply chunk_pages_unique; eassumption.
Qed.
Print Assumptions chunk_any_bytes.

Lemma ex_header_counts : counts_32 ex_header.
Proof.
  intros max bytes h rest Hd. apply of_codec_sound in Hd. destruct Hd as (_ & _ & _ & _ & Hv1 & _ & _ & Hv2). cbn [fst snd] in Hv1, Hv2.
  assert (Hr : forall z, cok i32 z -> (- 2 ^ 31 <= z < 2 ^ 31)%Z).
  { intros z Hz. cbn [cok i32 c_int] in Hz. unfold in_s in Hz. cbn in Hz. change (2 ^ 31)%Z with 2147483648%Z. lia. }
  split; intros x E; rewrite E in *; apply Hr; [ apply Hv1 | apply Hv2 ].
Qed.
(** The protocol of the examples meets the conditions. A dictionary and a page, then garbage; a page that announces a negative number of values, so that
    the reader goes on; a page that is too large. *)
Definition negative_page := CData (mk_cdp (HV1 (mk_tdh (-2) 8 3 3 None)) [9; 9; 9] Snappy 12 io_desc None).
Example chunk_any_bytes_case :
  (forall max s, t_dec ex_header max s <> Panic) /\ counts_32 ex_header /\
  (forall max s h rest, t_dec ex_header max s = Ok (h, rest) -> (length rest < length s)%nat) /\
  drain (pr_next ex_header Checked) 3 (io_reader (chunk_bytes ex_header [io_dict; io_v1] ++ [7; 7; 7]) 4 (fun _ _ => true) 100) =
    Ok [inl (as_stored Snappy io_desc (CDict (mk_cdict [1; 0; 0; 0; 7; 0; 0; 0] Snappy 2 8 false))); inl (as_stored Snappy io_desc io_v1); inr OutOfSpec] /\
  drain (pr_next ex_header Checked) 5 (io_reader (chunk_bytes ex_header [negative_page; io_v1; io_v1; io_v1]) 3 (fun _ _ => true) 100) =
    Ok (map (fun p => inl (as_stored Snappy io_desc p)) [negative_page; io_v1; io_v1]) /\
  drain (pr_next ex_header Checked) 1 (io_reader (chunk_bytes ex_header [io_v1]) 3 (fun _ _ => true) 2) = Ok [inr WouldOverAllocate].
Proof.
  split; [ apply reader_never_panics_witness | ]. split; [ exact ex_header_counts | ]. split; [ apply reader_never_panics_witness | ].
  vm_compute. repeat split.
Qed.

(** * C100 *)

(** It is false that a page read through an index has the size that its header says: one byte missing in the index is one byte missing in the page,
    where reading in sequence reports the error; and a page whose encoding is unknown is returned, too. *)
Theorem indexed_size_refuted : exists file pages p q h rest,
  drain (ir_next ex_header Checked) 2 (ir_new file 4 Snappy io_desc pages) = Ok [inl (CData p); inl (CData q)] /\
  t_dec ex_header 1048576 (skipn 4 file) = Ok (h, rest) /\ nlen (cdp_buffer p) = 2 /\ ph_compressed_size h = 3%Z /\
  encoding_of_thrift (header_encoding (cdp_header q)) = Err OutOfSpec /\
  drain (pr_next ex_header Checked) 1 (io_reader (bytes_at file 4 (nlen (page_bytes ex_header io_v1) - 1)) 3 (fun _ _ => true) 100) = Ok [inr OutOfSpec].
Proof.
  pose (odd := CData (mk_cdp (HV1 (mk_tdh 3 77 3 3 None)) [9] Snappy 12 io_desc None)).
  pose (n := nlen (page_bytes ex_header io_v1)).
  exists ([80; 65; 82; 49] ++ chunk_bytes ex_header [io_v1; odd]), [mk_fp 4 (n - 1) [mk_iv 0 3] 3; mk_fp (4 + n) 1000 [mk_iv 0 3] 3],
    (mk_cdp (HV1 (mk_tdh 3 8 3 3 None)) [9; 9] Snappy 12 io_desc (Some [mk_iv 0 3])),
    (mk_cdp (HV1 (mk_tdh 3 77 3 3 None)) [9] Snappy 12 io_desc (Some [mk_iv 0 3])),
    (header_of io_v1), ([9; 9; 9] ++ page_bytes ex_header odd).
  vm_compute. repeat split.
Qed.
Print Assumptions indexed_size_refuted.

(** Exact, for any file and any places: there is an item for the dictionary if the first place is behind the start of the column, then one for every
    place with selected rows, in order, errors or not. A page is what the header at its place describes, with all the bytes that are left there. *)
Theorem indexed_any_places T m pages file start c d :
  (forall max s, t_dec T max s <> Panic) ->
  match pages with p :: _ => start <= fp_start p | [] => True end ->
  exists dict items r', runs (ir_next T m) (ir_new file start c d pages) (dict ++ items) r' /\
    match pages with
    | p :: _ => if start <? fp_start p then exists i, dict = [i] /\ located_dictionary T c d (bytes_at file start (fp_start p - start)) i else dict = []
    | [] => dict = []
    end /\
    Forall2 (fun p i => located_item T c d (bytes_at file (fp_start p) (fp_length p)) (Some (fp_selected p)) i) (with_rows pages) items.
Proof. intros Hnp H. apply indexed_any; assumption. Qed.
Print Assumptions indexed_any_places.
(** With overflow checks a first place before the start of the column is a panic, whatever the file. *)
Theorem indexed_before_start_panics T file start c d p pages : fp_start p < start ->
  ir_next T Checked (ir_new file start c d (p :: pages)) = Panic.
Proof.
  intros H. unfold ir_next, ir_new, read_dict. cbn [ir_state ir_pages ir_column_start]. unfold usub.
  replace (start <=? fp_start p) with false by lia. reflexivity.
Qed.
Print Assumptions indexed_before_start_panics.

(** A dictionary where the index says, a place in the middle of nowhere, a page, and a place without selected rows. *)
Example indexed_any_places_case :
  let file := [80; 65; 82; 49] ++ chunk_bytes ex_header [io_dict; io_v1] in
  let first := 4 + nlen (chunk_bytes ex_header [io_dict]) in
  let pages := [mk_fp first (nlen (page_bytes ex_header io_v1)) [] 0; mk_fp 1000 20 [mk_iv 0 1] 0;
                mk_fp first (nlen (page_bytes ex_header io_v1)) [mk_iv 1 1] 0] in
  4 <= first /\
  drain (ir_next ex_header Checked) 5 (ir_new file 4 Snappy io_desc pages) =
    Ok [inl (CDict (mk_cdict [1; 0; 0; 0; 7; 0; 0; 0] Snappy 2 8 false)); inr OutOfSpec;
        inl (CData (mk_cdp (HV1 (mk_tdh 3 8 3 3 None)) [9; 9; 9] Snappy 12 io_desc (Some [mk_iv 1 1])))].
Proof. cbv zeta. split; [ lia | vm_compute; reflexivity ]. Qed.
