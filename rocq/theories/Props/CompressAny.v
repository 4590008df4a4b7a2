(** C40: compressing into a buffer that is not empty, and pages that say they are not compressed. *)
From Verif Require Import Base.Prelude Base.LeFacts Model.Types Model.Thrift Model.Page Model.Compression Spec.CompressionSpec Proofs.SchemaProofs Proofs.CompressionProofs
  Props.Compression.
Open Scope N_scope.

(** C40. Compressing into any buffer: with a codec, the page's bytes are those compressed into an empty buffer, with the old content of the
    buffer in front; without one the buffer makes no difference. Errors are the same. *)
Theorem compress_into_any_buffer C m p b o :
  compress C m p b o =
    match o with
    | OUncompressed => compress C m p [] o
    | _ => let* cp := compress C m p [] o in Ok (set_cp_buffer (b ++ cp_buffer cp) cp)
    end.
Proof.
  assert (B : forall x out, o <> OUncompressed -> compress_bytes C o x out = let* y := compress_bytes C o x [] in Ok (out ++ y)).
  { intros x out _. destruct o; cbn [compress_bytes bind]; try reflexivity; destruct (enc C _ x); reflexivity. }
  assert (G : o <> OUncompressed -> compress C m p b o = let* cp := compress C m p [] o in Ok (set_cp_buffer (b ++ cp_buffer cp) cp)).
  { intros Ho. destruct p as [d|d]; cbn [compress].
    - unfold compress_data. destruct (dp_header d) as [h|h] eqn:Eh.
      + destruct o; try congruence; rewrite (B _ b) by discriminate; destruct (compress_bytes C _ (dp_buffer d) []); reflexivity.
      + destruct o; try congruence;
        (destruct (levels_length m h) as [n|e|]; cbn [bind rmap]; [|reflexivity..];
         destruct (slice_range 0 n (dp_buffer d)) as [lv|e|]; cbn [bind rmap]; [|reflexivity..];
         destruct (slice_range n (nlen (dp_buffer d)) (dp_buffer d)) as [vs|e|]; cbn [bind rmap]; [|reflexivity..];
         rewrite (B vs (b ++ lv)), (B vs ([] ++ lv)) by discriminate;
         destruct (compress_bytes C _ vs []); cbn [bind rmap app set_cp_buffer cp_buffer cdp_buffer cdp_header cdp_compression cdp_uncompressed_size cdp_descriptor cdp_selected];
         rewrite <- ?app_assoc; reflexivity).
    - unfold compress_dict. destruct o; try congruence; rewrite (B _ b) by discriminate; destruct (compress_bytes C _ (di_buffer d) []); reflexivity. }
  destruct o; try (apply G; discriminate). destruct p; reflexivity.
Qed.
Print Assumptions compress_into_any_buffer.

Example compress_into_any_buffer_case :
  compress toy Checked (PDict (mk_dict [1; 2] 2 true)) [7] OSnappy = Ok (CDict (mk_cdict ([7] ++ [1; 2; 0]) Snappy 2 2 true)) /\
  compress toy Checked (PDict (mk_dict [1; 2] 2 true)) [7] OUncompressed = Ok (CDict (mk_cdict [1; 2] Uncompressed 2 2 true)).
Proof. split; vm_compute; reflexivity. Qed.

(** C40. A version 2 page that says it is not compressed and is compressed with a codec: it decompresses to a page with the compressed bytes as
    they are if these are as many as the page had before, and to an error otherwise. *)
Theorem flagged_page_exactly C m d h b o cp cap buffer :
  dp_header d = HV2 h -> dh2_is_compressed h = Some false -> o <> OUncompressed ->
  compress C m (PData d) b o = Ok cp ->
  decompress C m cap cp buffer =
    if nlen (cp_buffer cp) =? nlen (dp_buffer d)
    then Ok (PData (mk_dp (HV2 h) (cp_buffer cp) (dp_descriptor d) (dp_selected d)))
    else Err OutOfSpec.
Proof.
  intros Hh Hf Ho H. cbn [compress] in H. unfold compress_data in H. rewrite Hh in H.
  assert (E : exists n bytes, levels_length m h = Ok n /\
    cp = CData (mk_cdp (HV2 h) bytes (options_compression o) (nlen (dp_buffer d)) (dp_descriptor d) (dp_selected d))).
  { destruct o; try congruence; (destruct (levels_length m h) as [n|e|]; cbn [bind rmap] in H; [|discriminate..];
      destruct (slice_range 0 n (dp_buffer d)) as [lv|e|]; cbn [bind rmap] in H; [|discriminate..];
      destruct (slice_range n (nlen (dp_buffer d)) (dp_buffer d)) as [vs|e|]; cbn [bind rmap] in H; [|discriminate..];
      match type of H with context [compress_bytes C ?o vs ?x] => destruct (compress_bytes C o vs x) as [y|e|]; cbn [bind rmap] in H; [|discriminate..] end;
      apply Ok_inj in H as <-; eexists; eexists; split; reflexivity). }
  destruct E as (n & bytes & El & ->). unfold decompress, decompress_buffer. cbn [cp_compression cdp_compression cp_buffer cdp_buffer cp_uncompressed_size cdp_uncompressed_size cdp_header].
  assert (P : forall b, nlen (prepare cap (nlen (dp_buffer d)) b) = nlen (dp_buffer d)) by (intros; apply prepare_length).
  unfold decompress_v2. rewrite El, Hf. rewrite P. rewrite (N.eqb_sym (nlen (dp_buffer d))).
  destruct o; try congruence; cbn [options_compression]; destruct (nlen bytes =? nlen (dp_buffer d)); reflexivity.
Qed.
Print Assumptions flagged_page_exactly.

Example flagged_page_exactly_case :
  match compress toy Checked (toy_page (Some false)) [] OSnappy with Ok cp => decompress toy Checked 0 cp [] | Err e => Err e | Panic => Panic end = Err OutOfSpec.
Proof. vm_compute. reflexivity. Qed.
