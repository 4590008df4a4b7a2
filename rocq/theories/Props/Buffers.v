(** C89, C90: the buffers that reusing iterators hand back, and what they show after an error. *)
From Verif Require Import Base.Prelude Base.Iter Model.Types Model.Thrift Model.Page Model.Compression Model.PageRead Spec.PagesSpec Spec.CompressionSpec
  Proofs.CompressionProofs Proofs.EndToEndProofs Proofs.BuffersProofs Props.Compression.
Open Scope N_scope.

(** * C89 *)

(** After any number of calls, successful or not, the compressor gives back an empty buffer, ready to be used again, and the pages not taken yet. *)
Theorem compressor_hands_back C m o items buffer n trace c :
  comp_trace C m n (comp_new items o buffer) = Ok (trace, c) -> comp_into_inner c = (skipn n items, []).
Proof. apply comp_back. Qed.
Print Assumptions compressor_hands_back.
Definition bf_items : list (page + error) := [inl (PDict (mk_dict [1; 2] 2 true)); inr OutOfSpec; inl (PDict (mk_dict [3] 1 false))].
Example compressor_hands_back_case : exists trace c, comp_trace toy Checked 2 (comp_new bf_items OSnappy [9; 9]) = Ok (trace, c) /\ length trace = 2%nat /\
  comp_into_inner c = ([inl (PDict (mk_dict [3] 1 false))], []).
Proof. eexists _, _. split; [ reflexivity | ]. split; reflexivity. Qed.

(** After all pages were decompressed, with any page iterator that keeps its buffer: the buffer of the page iterator has the stored bytes of the last page,
    the one for decompression its decompressed bytes. But if the last page was stored without compression, the second is a new one. *)
Theorem decompressor_hands_back {S} C m (P : page_iter S) R scratch s stored buffer caps pages k d :
  serves P R -> keeps_scratch P R scratch -> R s (map inl stored) ->
  dec_trace C m P caps (dec_new s buffer) = Ok (map (fun p => (None, Some p)) pages ++ repeat (None, None) (Datatypes.S k), d) ->
  length stored = length pages /\ dec_into_buffers P d = buffers_after (scratch s) buffer stored pages.
Proof.
  intros HP Hk HR H. destruct (trace_buffers C m P scratch R Hk HP pages caps (dec_new s buffer) stored d (scratch s) buffer k HR (conj eq_refl eq_refl) H) as (E1 & E2 & E3).
  split; [ exact E1 | ]. unfold dec_into_buffers. rewrite E2, E3. destruct (buffers_after (scratch s) buffer stored pages). reflexivity.
Qed.
Print Assumptions decompressor_hands_back.
(** In particular for the crate's page reader, when no pages are filtered out. *)
Theorem reader_hands_back C T m r stored r' buffer caps pages k d :
  (forall d h, pr_filter r d h = true) -> runs (pr_next T m) r (map inl stored) r' ->
  dec_trace C m (pr_iter T m) caps (dec_new r buffer) = Ok (map (fun p => (None, Some p)) pages ++ repeat (None, None) (Datatypes.S k), d) ->
  length stored = length pages /\ dec_into_buffers (pr_iter T m) d = buffers_after (pr_scratch r) buffer stored pages.
Proof.
  intros Hf Hr H. refine (decompressor_hands_back C m (pr_iter T m) (reads_all T m) pr_scratch r stored buffer caps pages k d (reads_all_serves T m) (reads_all_keeps T m) _ H).
  split; [ exact Hf | exists r'; exact Hr ].
Qed.
Print Assumptions reader_hands_back.
Definition bf_stored : list compressed_page := [CDict (mk_cdict [1; 2] Uncompressed 2 2 true); CDict (mk_cdict [8; 9; 0] Snappy 2 2 false)].
Definition bf_pages : list page := [PDict (mk_dict [1; 2] 2 true); PDict (mk_dict [8; 9] 2 false)].
Example list_iter_keeps : keeps_scratch list_iter (fun s l => fst s = l) snd.
Proof. split; [ intros s b; split; reflexivity | ]. intros [l b] s' E. cbn [fst] in E. subst l. intros [= <-]. reflexivity. Qed.
Example decompressor_hands_back_case : exists d,
  dec_trace toy Checked list_iter [9; 9; 9; 9] (dec_new (map inl bf_stored, [3; 3; 3]) [7; 7]) = Ok (map (fun p => (None, Some p)) bf_pages ++ repeat (None, None) 2, d) /\
  dec_into_buffers list_iter d = ([8; 9; 0], [8; 9]).
Proof. eexists. split; reflexivity. Qed.
(** So the buffer lent for decompression does not always come back: one page stored without compression, and it is gone. *)
Theorem buffer_lost_refuted : exists C m s l buffer page d,
  buffer <> [] /\ dec_trace C m list_iter [9; 9] (dec_new (map inl l, s) buffer) = Ok ([(None, Some page); (None, None)], d) /\ snd (dec_into_buffers list_iter d) = [].
Proof.
  exists toy, Checked, [3; 3; 3], [CDict (mk_cdict [1; 2] Uncompressed 2 2 true)], [7; 7; 7; 7]. eexists _, _. split; [ discriminate | ]. split; reflexivity.
Qed.
Print Assumptions buffer_lost_refuted.

(** * C90 *)

(** After an error there is still a page to get: the one before, with the wrong bytes. *)
Theorem stale_page_refuted : exists C m items p q d,
  dec_trace C m list_iter [9; 9] (dec_new (items, [3; 3; 3]) []) = Ok ([(None, Some p); (Some OutOfSpec, Some q)], d) /\ p <> q.
Proof.
  exists toy, Checked, [inl (CDict (mk_cdict [1; 2] Uncompressed 2 2 true)); inr OutOfSpec], (PDict (mk_dict [1; 2] 2 true)). eexists _, _. split; [ reflexivity | ]. discriminate.
Qed.
Print Assumptions stale_page_refuted.
(** Exactly: a failed call leaves no page if there was none, and otherwise the page that was there with all but its bytes. These are gone if it
    had been decompressed, and are those of the page iterator's buffer if not. *)
Theorem failed_advance_exactly {S} C m (P : page_iter S) cap d e d' :
  dec_advance C m P cap d = Ok (Some e, d') ->
  match de_current d with
  | None => de_current d' = None
  | Some (PData p) => exists b, de_current d' = Some (PData (mk_dp (dp_header p) b (dp_descriptor p) (dp_selected p))) /\
      b = (if de_was d then [] else snd (pi_swap P (de_iter d) (dp_buffer p)))
  | Some (PDict p) => exists b, de_current d' = Some (PDict (mk_dict b (di_num_values p) (di_is_sorted p))) /\
      b = (if de_was d then [] else snd (pi_swap P (de_iter d) (di_buffer p)))
  end.
Proof.
  intros H. apply dec_advance_failed in H. destruct (de_current d) as [[p|p]|]; [ | | exact H ]; cbn [set_page_buffer page_buffer] in H; eexists; (split; [ exact H | reflexivity ]).
Qed.
Print Assumptions failed_advance_exactly.
(** Likewise the compressor, which shows the page before without any bytes. *)
Theorem failed_compression_exactly C m c e c' :
  comp_advance C m c = Ok (Some e, c') ->
  match co_current c with
  | None => co_current c' = None
  | Some (CData p) => co_current c' = Some (CData (mk_cdp (cdp_header p) [] (cdp_compression p) (cdp_uncompressed_size p) (cdp_descriptor p) (cdp_selected p)))
  | Some (CDict p) => co_current c' = Some (CDict (mk_cdict [] (cdi_compression p) (cdi_num_values p) (cdi_uncompressed_size p) (cdi_is_sorted p)))
  end.
Proof. intros H. rewrite (comp_advance_failed _ _ _ _ _ H). destruct (co_current c) as [[p|p]|]; reflexivity. Qed.
Print Assumptions failed_compression_exactly.
Example failed_compression_case : exists trace c, comp_trace toy Checked 3 (comp_new bf_items OSnappy [9; 9]) = Ok (trace, c) /\
  map snd trace = [Some (CDict (mk_cdict [1; 2; 0] Snappy 2 2 true)); Some (CDict (mk_cdict [] Snappy 2 2 true)); Some (CDict (mk_cdict [3; 0] Snappy 1 1 false))] /\
  map fst trace = [None; Some OutOfSpec; None].
Proof. eexists _, _. split; [ reflexivity | ]. split; reflexivity. Qed.
