(** C42, C43, C44, C45, C53, C55 (reader): writing pages and reading them back, in sequence or through an index. *)
From Verif Require Import Base.Prelude Base.Iter Base.Codec Model.Types Model.Thrift Model.Intervals Model.Page Model.Io
  Model.Statistics Model.PageWrite Model.PageRead Model.Compression Spec.PagesSpec Spec.CompressionSpec Proofs.TypesFacts Proofs.CompressionProofs
  Spec.ErrorsSpec Proofs.PageIoProofs Proofs.PageReadProofs Proofs.ThriftCodec Proofs.ErrorsProofs.
Open Scope N_scope.

(** Pages for the examples: a dictionary page, two data pages (one of each version), and a page without values. *)
Definition io_desc := mk_descr (mk_prim (mk_fi [97] Optional None) None None Int32) 1 0.
Definition io_dict := CDict (mk_cdict [1; 0; 0; 0; 7; 0; 0; 0] Snappy 2 8 true).
Definition io_v1 := CData (mk_cdp (HV1 (mk_tdh 3 8 3 3 None)) [9; 9; 9] Snappy 12 io_desc (Some [mk_iv 0 3])).
Definition io_v2 :=
  CData (mk_cdp (HV2 (mk_tdh2 2 1 2 0 1 0 (Some true) (Some (mk_tstats None None (Some 1%Z) None None None)))) [5; 6] Snappy 2 io_desc (Some [mk_iv 0 2])).
Definition io_empty := CData (mk_cdp (HV1 (mk_tdh 0 0 3 3 None)) [8] Snappy 0 io_desc (Some [mk_iv 0 0])).
Definition io_pages := [io_dict; io_v1; io_v2].
Ltac codec_ok := apply of_codec_reads_back; cbn; repeat split; try reflexivity; repeat constructor.
Ltac takes_ok :=
  refine (conj (conj _ (conj _ _)) (conj _ (conj _ (conj _ _))));
  [ reflexivity | reflexivity | first [ exact I | reflexivity ] | cbn; unfold known_encoding; lia | cbn; lia | codec_ok | cbn; lia ].
Lemma io_takes max : 8 <= max -> Forall (takes ex_header max) io_pages.
Proof.
  intros Hm. repeat (apply Forall_cons; [ takes_ok | ]). apply Forall_nil.
Qed.
Definition io_reader (source : list N) (total : Z) (f : descriptor -> page_header -> bool) (max : N) :=
  pr_new source total Snappy io_desc f [] max.

(** * C42 *)

(** Writing a page appends its header and its bytes, and reports where they are. *)
Theorem page_written T off p s s' spec : write_page T off p s = (s', Ok spec) ->
  within_limits p /\ sk_data s' = sk_data s ++ page_bytes T p /\
  ps_header spec = header_of p /\ ps_header_size spec = nlen (t_enc T (header_of p)) /\ ps_offset spec = off /\
  ps_bytes_written spec = nlen (page_bytes T p) /\ ps_compression spec = cp_compression p /\
  (match p with CDict _ => ps_num_values spec = 0 | CData d => ps_num_values spec = header_num_values (cdp_header d) end).
Proof.
  intros H. pose proof H as H'. apply write_page_ok in H as (H1 & H2 & H3 & H4 & H5 & H6 & H7 & _). do 7 (split; [auto|]).
  unfold write_page in H'. repeat (apply wbind_ok in H' as (? & ? & _ & H')). apply wret_ok in H' as [_ <-]. destruct p; reflexivity.
Qed.
Print Assumptions page_written.

(** Which pages can be written: those within the format's limits whose statistics, if any, are well formed and whose
    selection of rows, if any, is not empty; all others are refused (or panic, for an empty selection). *)
Theorem page_writable T off p data : 
  (exists s' spec, write_page T off p (mk_sink data None) = (s', Ok spec)) <->
  within_limits p /\ match p with CData d => is_ok (cdp_statistics d) = true /\ cdp_selected d <> Some [] | CDict _ => True end.
Proof.
  split.
  - intros (s' & spec & H). apply write_page_ok in H as (H1 & _ & _ & _ & _ & _ & _ & H2 & H3 & _). split; [ exact H1 | ].
    destruct p as [d|d]; [ | exact I ]. split; [ rewrite <- H2; reflexivity | ].
    unfold page_num_rows in H3. cbn [cp_selected] in H3. intros E. rewrite E in H3. discriminate H3.
  - intros [Hlim Hs]. unfold write_page, wbind, wres, wret, write_struct, write_all.
    rewrite (assemble_header_of p Hlim). cbn [sk_room sk_data wbind wret fst snd].
    destruct p as [d|d].
    + destruct Hs as [Hs Hsel]. destruct (cdp_statistics d); [ | discriminate Hs | discriminate Hs ].
      unfold page_num_rows. cbn [cp_selected]. destruct (cdp_selected d) as [ivs|]; [ | unfold wbind, wret; cbn [sk_room]; eauto ].
      destruct (rev ivs) as [|iv r] eqn:Er; [ | unfold wbind, wret; cbn [sk_room]; eauto ].
      exfalso. apply Hsel. f_equal. apply (f_equal (@rev _)) in Er. rewrite rev_involutive in Er. exact Er.
    + unfold page_num_rows. cbn [cp_selected]. unfold wbind, wret. cbn [sk_room]. eauto.
Qed.
Print Assumptions page_writable.

(** What happens to the others: a panic exactly for an empty selection of rows, of a page that is fine otherwise, and else an error that says "out of specification". *)
Theorem page_refused T off p data :
  ((exists s', write_page T off p (mk_sink data None) = (s', Panic)) <->
   within_limits p /\ exists d, p = CData d /\ is_ok (cdp_statistics d) = true /\ cdp_selected d = Some []) /\
  (forall s' e, write_page T off p (mk_sink data None) = (s', Err e) -> e = OutOfSpec).
Proof.
  assert (Ha : malformed (assemble_header p) /\ assemble_header p <> Panic).
  { unfold assemble_header, assemble_data_page_header, assemble_dict_page_header, maybe_bytes, try_i32.
    split; [mal | destruct p; repeat (destruct (_ <? _); cbn [bind]; try discriminate)]. }
  assert (Hst : forall d, malformed (cdp_statistics d) /\ cdp_statistics d <> Panic).
  { intros d. unfold cdp_statistics. destruct (header_statistics _) as [v|]; [|split; [apply fails_ok | discriminate]].
    split; [apply fails_bind; [apply m_deserialize_statistics | intros a; apply fails_ok]|]. intros H.
    destruct (deserialize_statistics v (d_primitive (cdp_descriptor d))) as [x|x|] eqn:E; cbn [bind] in H; try discriminate.
    exact (deserialize_no_panic _ _ E). }
  unfold write_page, wbind, wres, wret, write_struct, write_all.
  destruct (assemble_header p) as [h|e|] eqn:Eh; [| | exfalso; apply Ha; reflexivity].
  2:{ split; [|intros s' e' [= _ <-]; apply Ha; reflexivity]. split; [intros [s' [=]]|]. intros [Hl _]. rewrite (assemble_header_of p Hl) in Eh. discriminate. }
  cbn [sk_room sk_data wbind wret fst snd].
  assert (Hlim : within_limits p) by (exact (proj2 (assemble_header_ok p h Eh))).
  destruct p as [d|d].
  - destruct (Hst d) as [H1 H2]. destruct (cdp_statistics d) as [st|e|] eqn:Es; [| |contradiction].
    + unfold page_num_rows. cbn [cp_selected]. destruct (cdp_selected d) as [ivs|] eqn:Esel.
      * destruct (rev ivs) as [|iv r] eqn:Er; cbn [bind].
        -- assert (ivs = []) as -> by (apply (f_equal (@rev _)) in Er; rewrite rev_involutive in Er; exact Er).
           split; [split; [intros _; split; [exact Hlim|]; exists d; rewrite Es; auto | eauto] | intros s' e [=]].
        -- split; [split; [intros [s' [=]] | intros (_ & d' & [= <-] & _ & H)] | intros s' e [=]].
           assert (ivs = []) as -> by congruence. discriminate Er.
      * split; [split; [intros [s' [=]] | intros (_ & d' & [= <-] & _ & H); congruence] | intros s' e [=]].
    + split; [split; [intros [s' [=]] | intros (_ & d' & [= <-] & H & _); rewrite Es in H; discriminate] | intros s' e' [= _ <-]; apply H1; reflexivity].
  - unfold page_num_rows. cbn [cp_selected].
    split; [split; [intros [s' [=]] | intros (_ & d' & [=] & _)] | intros s' e [=]].
Qed.
Print Assumptions page_refused.

Example page_refused_witness :
  (exists s', write_page ex_header 4 (CData (mk_cdp (HV1 (mk_tdh 3 8 3 3 None)) [9; 9; 9] Snappy 12 io_desc (Some []))) (mk_sink [] None) = (s', Panic)) /\
  (exists s', write_page ex_header 4 (CDict (mk_cdict [1] Snappy 4294967296 8 true)) (mk_sink [] None) = (s', Err OutOfSpec)).
Proof. split; eexists; vm_compute; reflexivity. Qed.

(** A page that was written is read back: same header, bytes, sizes and counts. The reader must have a limit the page
    respects, know the page's encodings, and still expect values. [rest] is whatever follows the page. *)
Theorem page_round_trip T m off p s s' spec r rest :
  write_page T off p s = (s', Ok spec) ->
  sk_data s' ++ rest = sk_data s ++ pr_source r ->
  takes T (pr_max r) p -> (pr_seen r < pr_total r)%Z -> (0 <= pr_seen r)%Z -> (pr_seen r + values p < 2 ^ 63)%Z ->
  (forall d h, pr_filter r d h = true) ->
  exists r', pr_next T m r = Ok (Some (inl (read_page_of (pr_compression r) (pr_descriptor r) None false p)), r') /\
    pr_source r' = rest /\ pr_seen r' = (pr_seen r + values p)%Z.
Proof.
  intros Hw Hsrc Ht Hseen Hlo Hhi Hf. apply write_page_ok in Hw as (_ & Hd & _).
  rewrite Hd, <- app_assoc in Hsrc. apply app_inv_head in Hsrc. symmetry in Hsrc.
  assert (Hin : in_s 64 (pr_seen r + values p) = true).
  { destruct Ht as (_ & _ & _ & _ & Hv). unfold in_s. cbn. lia. }
  unfold pr_next. cbn [pr_next_fuel]. replace (pr_total r <=? pr_seen r)%Z with false by lia.
  rewrite (build_page_of T m r p rest Ht Hsrc Hin).
  destruct p as [d|d]; cbn [read_page_of]; [ rewrite Hf | ]; (eexists; split; [ reflexivity | split; reflexivity ]).
Qed.
Print Assumptions page_round_trip.

Example page_round_trip_witness :
  exists s' spec r',
    write_page ex_header 40 io_v2 (mk_sink [80; 65; 82; 49] None) = (s', Ok spec) /\
    takes ex_header 100 io_v2 /\
    pr_next ex_header Checked (io_reader (skipn 4 (sk_data s') ++ [77; 77]) 2 (fun _ _ => true) 100) =
      Ok (Some (inl (CData (mk_cdp (HV2 (mk_tdh2 2 1 2 0 1 0 (Some true) (Some (mk_tstats None None (Some 1%Z) None None None)))) [5; 6] Snappy 2 io_desc None))), r') /\
    pr_source r' = [77; 77].
Proof.
  do 3 eexists. split; [ vm_compute; reflexivity | ].
  split; [ assert (H : Forall (takes ex_header 100) io_pages) by (apply io_takes; lia); exact (Forall_inv (Forall_inv_tail (Forall_inv_tail H))) | ].
  split; vm_compute; reflexivity.
Qed.

(** * C43 *)

(** The sorted flag of a dictionary page is lost: a page written as sorted is read back as not sorted. *)
Theorem dict_sorted_flag_refuted :
  exists d s' spec r',
    cdi_is_sorted d = true /\ write_page ex_header 0 (CDict d) (mk_sink [] None) = (s', Ok spec) /\
    takes ex_header 100 (CDict d) /\
    pr_next ex_header Checked (io_reader (sk_data s') 2 (fun _ _ => true) 100) =
      Ok (Some (inl (CDict (mk_cdict (cdi_buffer d) (cdi_compression d) (cdi_num_values d) (cdi_uncompressed_size d) false))), r').
Proof.
  exists (mk_cdict [1; 0; 0; 0; 7; 0; 0; 0] Snappy 2 8 true). do 3 eexists. split; [ reflexivity | ].
  split; [ vm_compute; reflexivity | ].
  split; [ assert (H : Forall (takes ex_header 100) io_pages) by (apply io_takes; lia); exact (Forall_inv H) | ].
  vm_compute. reflexivity.
Qed.
Print Assumptions dict_sorted_flag_refuted.

(** Exactly: whatever the flag was, it is read back as false; so it survives iff it was false. *)
Theorem dict_sorted_flag_exact T m off d s s' spec r rest :
  write_page T off (CDict d) s = (s', Ok spec) -> sk_data s' ++ rest = sk_data s ++ pr_source r ->
  takes T (pr_max r) (CDict d) -> (0 <= pr_seen r < pr_total r)%Z -> (pr_seen r < 2 ^ 63)%Z -> pr_compression r = cdi_compression d ->
  exists q r', pr_next T m r = Ok (Some (inl (CDict q)), r') /\ cdi_is_sorted q = false /\ (q = d <-> cdi_is_sorted d = false).
Proof.
  intros Hw Hsrc Ht Hseen Hhi Hc. apply write_page_ok in Hw as (_ & Hd & _).
  rewrite Hd, <- app_assoc in Hsrc. apply app_inv_head in Hsrc. symmetry in Hsrc.
  assert (Hin : in_s 64 (pr_seen r + values (CDict d)) = true) by (cbn [values]; unfold in_s; cbn; lia).
  unfold pr_next. cbn [pr_next_fuel]. replace (pr_total r <=? pr_seen r)%Z with false by lia.
  rewrite (build_page_of T m r (CDict d) rest Ht Hsrc Hin). cbn [read_page_of]. rewrite Hc.
  eexists _, _. split; [ reflexivity | ]. split; [ reflexivity | ]. destruct d; cbn. split; congruence.
Qed.
Print Assumptions dict_sorted_flag_exact.

(** * C44 *)

(** Reading the pages of a chunk, whatever follows it: the reader returns, in order, the pages it needs until it has seen
    [total] values, without the data pages the filter rejects; then it ends. It leaves the source at the first page it
    did not need. *)
Theorem reader_returns_needed_pages T m pages rest total c d f scratch max :
  Forall (takes T max) pages -> (total <= values_of pages)%Z -> (values_of pages < 2 ^ 63)%Z ->
  exists r', runs (pr_next T m) (pr_new (chunk_bytes T pages ++ rest) total c d f scratch max)
      (map inl (map (read_page_of c d None false) (filter (wanted (f d)) (needed total pages)))) r' /\
    exists left, pages = needed total pages ++ left /\ pr_source r' = chunk_bytes T left ++ rest.
Proof.
  intros Hall Htot Hmax. set (r := pr_new (chunk_bytes T pages ++ rest) total c d f scratch max).
  assert (Hok : reader_ok T r pages rest).
  { unfold reader_ok, r, pr_new. cbn [pr_source pr_total pr_seen pr_max].
    split; [ reflexivity | ]. split; [ exact Hall | ]. pose proof (values_of_nonneg _ _ _ Hall). lia. }
  destruct (reader_runs T m _ r pages rest Hok eq_refl) as (left & r' & Hr & Hl & Hs).
  unfold wanted_by, as_read, r, pr_new in Hr, Hl. cbn [pr_total pr_seen pr_filter pr_descriptor pr_compression] in Hr, Hl.
  rewrite Z.sub_0_r in Hr, Hl. exists r'. split; [ exact Hr | ]. exists left. auto.
Qed.
Print Assumptions reader_returns_needed_pages.

(** If the declared total is the number of values in the chunk and the chunk ends with a data page that has values,
    that is all of its pages, and the source is left at the end of the chunk. *)
Theorem reader_returns_all_pages T m pages last rest c d f scratch max :
  Forall (takes T max) (pages ++ [last]) -> (0 < values last)%Z -> (values_of (pages ++ [last]) < 2 ^ 63)%Z ->
  exists r', runs (pr_next T m) (pr_new (chunk_bytes T (pages ++ [last]) ++ rest) (values_of (pages ++ [last])) c d f scratch max)
      (map inl (map (read_page_of c d None false) (filter (wanted (f d)) (pages ++ [last])))) r' /\
    pr_source r' = rest.
Proof.
  intros Hall Hlast Hmax.
  assert (Hn : needed (values_of (pages ++ [last])) (pages ++ [last]) = pages ++ [last]).
  { apply Forall_app in Hall as [Hall _]. clear - Hall Hlast. induction Hall as [|p l Hp Hl IH].
    - cbn [app needed]. rewrite values_of_cons. cbn [values_of fold_right]. replace (values last + 0 <=? 0)%Z with false by lia. reflexivity.
    - cbn [app needed]. rewrite values_of_cons. destruct Hp as (_ & _ & _ & _ & Hp).
      assert (0 < values_of (l ++ [last]))%Z.
      { clear - Hl Hlast. induction Hl as [|q k Hq Hk IHk]; cbn [app]; rewrite values_of_cons; [ cbn [values_of fold_right]; lia | ].
        destruct Hq as (_ & _ & _ & _ & Hq). lia. }
      replace (values p + values_of (l ++ [last]) <=? 0)%Z with false by lia.
      replace (values p + values_of (l ++ [last]) - values p)%Z with (values_of (l ++ [last])) by lia. rewrite IH. reflexivity. }
  destruct (reader_returns_needed_pages T m _ rest _ c d f scratch max Hall (Z.le_refl _) Hmax) as (r' & Hr & left & Hl & Hs).
  rewrite Hn in Hr, Hl. exists r'. split; [ exact Hr | ].
  assert (left = []) as ->.
  { assert (E : (pages ++ [last]) ++ [] = (pages ++ [last]) ++ left) by (rewrite app_nil_r; exact Hl). apply app_inv_head in E. auto. }
  exact Hs.
Qed.
Print Assumptions reader_returns_all_pages.

Example reader_returns_all_pages_witness :
  Forall (takes ex_header 100) ([io_dict; io_v1] ++ [io_v2]) /\
  drain_st (pr_next ex_header Checked) 5 (io_reader (chunk_bytes ex_header io_pages ++ [77]) 5 (fun _ h => match h with HV2 _ => true | HV1 _ => false end) 100) =
    Ok ([inl (read_page_of Snappy io_desc None false io_dict); inl (read_page_of Snappy io_desc None false io_v2)],
        pr_at (io_reader [] 5 (fun _ h => match h with HV2 _ => true | HV1 _ => false end) 100) [77] 5 []).
Proof. split; [ apply io_takes; lia | vm_compute; reflexivity ]. Qed.

(** Not all chunks: pages without values at the end of a chunk are not returned, and the source is left in front of them. *)
Theorem reader_returns_all_pages_refuted :
  exists pages, Forall (takes ex_header 100) pages /\
    exists r', runs (pr_next ex_header Checked) (io_reader (chunk_bytes ex_header pages) (values_of pages) (fun _ _ => true) 100)
      [inl (read_page_of Snappy io_desc None false io_v1)] r' /\
    pages = [io_v1; io_empty] /\ pr_source r' = page_bytes ex_header io_empty.
Proof.
  exists [io_v1; io_empty]. split.
  - repeat (apply Forall_cons; [ takes_ok | ]). apply Forall_nil.
  - eexists. split; [ | split; [ reflexivity | ] ].
    + eapply runs_cons; [ vm_compute; reflexivity | ]. apply runs_nil. vm_compute. reflexivity.
    + vm_compute. reflexivity.
Qed.
Print Assumptions reader_returns_all_pages_refuted.

(** * C45 *)

(** Whatever the source holds, a page that is returned is within the limit. *)
Theorem reader_respects_limit T m r p r' : pr_next T m r = Ok (Some (inl p), r') -> nlen (cp_buffer p) <= pr_max r.
Proof. apply reader_limit. Qed.
Print Assumptions reader_respects_limit.

(** A header that declares a size above the limit, above what the source holds, or negative, is an error. *)
Theorem reader_reports_bad_sizes T m r h rest :
  (pr_seen r < pr_total r)%Z -> t_dec T (pr_max r) (pr_source r) = Ok (h, rest) ->
  (forall dh, get_page_header h = Ok dh -> in_s 64 (pr_seen r + counted dh) = true) ->
  (ph_compressed_size h < 0 \/ Z.of_N (pr_max r) < ph_compressed_size h \/ Z.of_N (nlen rest) < ph_compressed_size h)%Z ->
  exists e r', pr_next T m r = Ok (Some (inr e), r').
Proof. apply reader_too_large. Qed.
Print Assumptions reader_reports_bad_sizes.

Example reader_reports_bad_sizes_witness :
  (exists r', pr_next ex_header Checked (io_reader (chunk_bytes ex_header [io_v1]) 3 (fun _ _ => true) 2) = Ok (Some (inr WouldOverAllocate), r')) /\
  (exists r', pr_next ex_header Checked (io_reader (removelast (chunk_bytes ex_header [io_v1])) 3 (fun _ _ => true) 100) = Ok (Some (inr OutOfSpec), r')).
Proof. split; eexists; vm_compute; reflexivity. Qed.

(** No source makes the reader panic, if the protocol does not, consumes at least a byte per header, and returns
    32-bit counts. [2^31] values per byte of the source must not overflow the 64-bit counter. *)
Theorem reader_never_panics T m r :
  (forall max s, t_dec T max s <> Panic) ->
  (forall max s h rest, t_dec T max s = Ok (h, rest) -> (length rest < length s)%nat) ->
  (forall max s h rest dh, t_dec T max s = Ok (h, rest) -> get_page_header h = Ok dh -> (- 2 ^ 31 <= counted dh < 2 ^ 31)%Z) ->
  (Z.abs (pr_seen r) + 2 ^ 31 * Z.of_nat (length (pr_source r)) < 2 ^ 63)%Z ->
  exists o r', pr_next T m r = Ok (o, r').
Proof. intros H1 H2 H3 H4. apply reader_total; auto. Qed.
Print Assumptions reader_never_panics.

(** The three conditions on the protocol are met by a protocol that reads back every header of 32-bit fields. *)
Example reader_never_panics_witness :
  (forall max s, t_dec ex_header max s <> Panic) /\
  (forall max s h rest, t_dec ex_header max s = Ok (h, rest) -> (length rest < length s)%nat) /\
  (forall max s h rest dh, t_dec ex_header max s = Ok (h, rest) -> get_page_header h = Ok dh -> (- 2 ^ 31 <= counted dh < 2 ^ 31)%Z).
Proof.
  split; [ intros; apply of_codec_total | ]. split; [ intros max s h rest; apply of_codec_shrink | ].
  intros max s h rest dh Hd Hg. apply of_codec_sound in Hd.
  assert (Hr : forall z, cok i32 z -> (- 2 ^ 31 <= to_signed 64 (as_usize z) < 2 ^ 31)%Z).
  { intros z Hz. change (to_signed 64 (as_usize z)) with (wrap_s 64 z). cbn [cok i32 c_int] in Hz. unfold in_s in Hz. cbn in Hz.
    rewrite wrap_s_in; [ change (2 ^ 31)%Z with 2147483648%Z; lia | reflexivity | change (2 ^ (Z.of_N 64 - 1))%Z with 9223372036854775808%Z; lia ]. }
  unfold get_page_header in Hg. destruct (page_type_of_thrift (ph_type h)) as [t| |]; cbn [bind] in Hg; try discriminate Hg.
  destruct Hd as (_ & _ & _ & _ & Hv1 & _ & _ & Hv2). cbn [fst snd] in Hv1, Hv2.
  destruct t.
  - destruct (ph_data h) as [x|]; [ | discriminate Hg ].
    destruct (encoding_of_thrift (dh_encoding x)); cbn [bind] in Hg; try discriminate Hg.
    destruct (encoding_of_thrift (dh_rep_encoding x)); cbn [bind] in Hg; try discriminate Hg.
    destruct (encoding_of_thrift (dh_def_encoding x)); cbn [bind] in Hg; try discriminate Hg.
    apply Ok_inj in Hg. subst dh. apply Hr. apply Hv1.
  - destruct (ph_data_v2 h) as [x|]; [ | discriminate Hg ].
    destruct (encoding_of_thrift (dh2_encoding x)); cbn [bind] in Hg; try discriminate Hg.
    apply Ok_inj in Hg. subst dh. apply Hr. apply Hv2.
  - apply Ok_inj in Hg. subst dh. cbn [counted]. change (2 ^ 31)%Z with 2147483648%Z. lia.
Qed.

(** * C55, reading *)

(** As long as the synchronous reader reports no error, the asynchronous stream returns the same pages, leaves the source at the same
    place and ends at the same point; for every source and every filter. *)
Theorem stream_matches_reader T m r o r' :
  pr_next T m r = Ok (o, r') -> (forall e, o <> Some (inr e)) -> stream_next T m r = Ok (o, r').
Proof. apply stream_matches. Qed.
Print Assumptions stream_matches_reader.

Theorem stream_matches_reader_pages T m r items r' :
  runs (pr_next T m) r (map inl items) r' -> runs (stream_next T m) r (map inl items) r'.
Proof.
  revert r. induction items as [|p items IH]; intros r H; cbn [map] in *; inversion H; subst.
  - apply runs_nil. apply stream_matches_reader; [ assumption | discriminate ].
  - eapply runs_cons; [ apply stream_matches_reader; [ eassumption | discriminate ] | apply IH; assumption ].
Qed.
Print Assumptions stream_matches_reader_pages.

Example stream_matches_reader_witness :
  exists r', runs (stream_next ex_header Checked)
    (io_reader (chunk_bytes ex_header io_pages ++ [77]) 5 (fun _ h => match h with HV2 _ => true | HV1 _ => false end) 100)
    (map inl [read_page_of Snappy io_desc None false io_dict; read_page_of Snappy io_desc None false io_v2]) r'.
Proof.
  eexists. eapply stream_matches_reader_pages. eapply runs_cons; [ vm_compute; reflexivity | ].
  eapply runs_cons; [ vm_compute; reflexivity | ]. apply runs_nil. vm_compute. reflexivity.
Qed.

(** With no filter they agree on errors too. *)
Theorem stream_same_errors T m r : (forall d h, pr_filter r d h = true) ->
  match pr_next T m r with
  | Ok (o, r') => exists r'', stream_next T m r = Ok (o, r'') /\ pr_source r'' = pr_source r' /\ pr_seen r'' = pr_seen r'
  | Err e => stream_next T m r = Err e
  | Panic => stream_next T m r = Panic
  end.
Proof. apply stream_same_unfiltered. Qed.
Print Assumptions stream_same_errors.

(** With a filter they can differ: the stream skips a rejected page above the size limit, the reader fails on it. *)
Theorem stream_matches_reader_refuted :
  exists r, (exists r', pr_next ex_header Checked r = Ok (Some (inr WouldOverAllocate), r')) /\
    (exists p r', stream_next ex_header Checked r = Ok (Some (inl p), r')).
Proof.
  exists (io_reader (chunk_bytes ex_header [io_v1; io_v2]) 5 (fun _ h => match h with HV2 _ => true | HV1 _ => false end) 2).
  split; repeat eexists; vm_compute; reflexivity.
Qed.
Print Assumptions stream_matches_reader_refuted.

(** * C53 *)

(** Reading through an index a column that has an optional dictionary page followed by data pages: given, for every data page in
    order, where it lies and which of its rows are selected, the indexed reader returns the dictionary page and exactly the data pages
    with selected rows, with the content they have on disk. A column without data pages returns nothing. *)
Theorem indexed_reader_returns_selected T m c d dict l pre post pages :
  (dict = [] \/ exists x, dict = [CDict x]) ->
  Forall (fun p => reads_back T 1048576 (header_of p)) (dict ++ map fst l) ->
  Forall2 same_place pages (placed T (nlen pre + nlen (chunk_bytes T dict)) l) ->
  exists r', runs (ir_next T m) (ir_new (pre ++ chunk_bytes T (dict ++ map fst l) ++ post) (nlen pre) c d pages)
    (map inl (match l with [] => [] | _ => map (read_page_of c d None false) dict end ++ selected_pages c d l)) r'.
Proof.
  intros Hd Hall Hpl.
  exact (ir_runs T m (ir_new (pre ++ chunk_bytes T (dict ++ map fst l) ++ post) (nlen pre) c d pages) dict l pre post eq_refl eq_refl eq_refl Hd Hall Hpl).
Qed.
Print Assumptions indexed_reader_returns_selected.

Example indexed_reader_returns_selected_witness :
  let file := [80; 65; 82; 49] ++ chunk_bytes ex_header io_pages ++ [77; 77] in
  let l := [(io_v1, []); (io_v2, [mk_iv 1 1])] in
  Forall (fun p => reads_back ex_header 1048576 (header_of p)) ([io_dict] ++ map fst l) /\
  drain (ir_next ex_header Checked) 5 (ir_new file 4 Snappy io_desc (placed ex_header (4 + nlen (chunk_bytes ex_header [io_dict])) l)) =
    Ok [inl (read_page_of Snappy io_desc None false io_dict); inl (read_page_of Snappy io_desc (Some [mk_iv 1 1]) false io_v2)].
Proof. split; [ repeat (apply Forall_cons; [ codec_ok | ]); apply Forall_nil | vm_compute; reflexivity ]. Qed.

(** The same content as the sequential reader: with every page selected, apart from the selection itself. *)
Theorem indexed_reader_same_content c d l :
  Forall (fun x => has_rows x = true) l ->
  Forall2 (fun p q => match p, q with
                      | CData a, CData b => cdp_header a = cdp_header b /\ cdp_buffer a = cdp_buffer b /\
                          cdp_compression a = cdp_compression b /\ cdp_uncompressed_size a = cdp_uncompressed_size b /\ cdp_descriptor a = cdp_descriptor b
                      | CDict a, CDict b => a = b
                      | _, _ => False
                      end)
    (selected_pages c d l) (map (read_page_of c d None false) (map fst l)).
Proof.
  intros H. unfold selected_pages. induction H as [|[p sel] l Hx Hl IH]; cbn [filter map]; [ constructor | ].
  rewrite Hx. cbn [map fst snd]. constructor; [ | exact IH ]. destruct p; cbn [read_page_of]; [ cbn; auto | reflexivity ].
Qed.
Print Assumptions indexed_reader_same_content.
