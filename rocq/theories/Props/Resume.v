(** C120: a column chunk read in several goes. *)
From Verif Require Import Base.Prelude Base.Iter Base.Codec Model.Types Model.Thrift Model.Intervals Model.Page Model.Io Model.PageRead Model.Resume
  Spec.PagesSpec Spec.EndsSpec Spec.ResumeSpec Proofs.SchemaProofs Proofs.PageIoProofs Proofs.EndsProofs Proofs.ResumeProofs Proofs.ThriftCodec Props.PageIo Props.Ends.
Open Scope N_scope.

Lemma ex_counts_fit : counts_fit ex_header.
Proof.
  intros max s h rest H. apply of_codec_sound in H. destruct h as [ty u c crc dat idx dic dat2]. cbn in H.
  destruct H as (_ & _ & _ & _ & H1 & _ & _ & H2). cbn [ph_data ph_data_v2]. split; intros d ->.
  - destruct d. cbn in H1 |- *. destruct H1 as (H1 & _). unfold in_s in H1. lia.
  - destruct d. cbn in H2 |- *. destruct H2 as (H2 & _). unfold in_s in H2. lia.
Qed.

(** C120. Whatever the bytes: after any calls of [next] that gave pages and no error, where the filter takes every page, the reader can
    be taken apart; a new one over its source, for the values that have not come yet, gives on every later call what the old one would have
    given: the same pages, the same errors, the same end. The buffer handed out is the empty one the last page left behind. The sources are
    below 4 GiB, so that the counts cannot overflow. *)
Theorem reading_resumes : forall T m source total c d f scratch max pages r,
  takes_a_byte T -> counts_fit T -> (Z.of_nat (length source) < 2 ^ 32)%Z -> (forall h, f d h = true) ->
  steps (pr_next T m) (pr_new source total c d f scratch max) (map inl pages) r ->
  let (source', scratch') := pr_into_inner r in
  (scratch' = match pages with [] => scratch | _ => [] end) /\
  forall buffer n,
    let again := pr_new source' (total - values_of pages) c d f buffer max in
    drain (pr_next T m) n again = drain (pr_next T m) n r /\
    drain (pr_next T m) (length pages + n) (pr_new source total c d f scratch max) =
      let* l := drain (pr_next T m) n again in Ok (map inl pages ++ l).
Proof.
  intros T m source total c d f scratch max pages r HT HC Hlen Hf Hs. cbn [pr_into_inner].
  change (2 ^ 32)%Z with 4294967296%Z in Hlen.
  assert (R0 : roomy (pr_new source total c d f scratch max)) by (unfold roomy, pr_new; cbn [pr_seen pr_source]; lia).
  destruct (steps_keep T m HT HC _ _ _ Hs R0) as (R1 & (K1 & K2 & K3 & K4 & K5) & Hl & Hsc & Hseen).
  cbn [pr_new pr_seen pr_source pr_filter pr_descriptor pr_compression pr_max pr_total] in *.
  specialize (Hseen Hf pages eq_refl). unfold pr_into_inner. split.
  - destruct pages as [|p pages]; [inversion Hs; subst; reflexivity | apply Hsc; discriminate].
  - intros buffer n.
    assert (E : drain (pr_next T m) n (pr_new (pr_source r) (total - values_of pages) c d f buffer max) = drain (pr_next T m) n r).
    { apply (drain_alike T m HT HC).
      - unfold alike, pr_new. cbn [pr_seen pr_source pr_filter pr_descriptor pr_compression pr_max pr_total]. rewrite Hseen, <- K5.
        repeat split; try assumption. lia.
      - unfold roomy, pr_new. cbn [pr_seen pr_source]. lia.
      - exact R1. }
    split; [exact E|]. rewrite E. rewrite <- (steps_drain T m n _ _ _ Hs), map_length. reflexivity.
Qed.
Print Assumptions reading_resumes.

(** A chunk with a page that cannot be read at its end; the reading stops after the dictionary page and the first data page. *)
Definition rs_source := chunk_bytes ex_header io_pages ++ [21; 1].
Definition rs_all (_ : descriptor) (_ : page_header) := true.
Example reading_resumes_witness :
  takes_a_byte ex_header /\ counts_fit ex_header /\
  exists r, steps (pr_next ex_header Checked) (pr_new rs_source 9 Snappy io_desc rs_all [7] 100)
      (map inl [read_page_of Snappy io_desc None false io_dict; read_page_of Snappy io_desc None false io_v1]) r /\
    pr_into_inner r = (page_bytes ex_header io_v2 ++ [21; 1], []) /\
    drain (pr_next ex_header Checked) 2 (pr_new (page_bytes ex_header io_v2 ++ [21; 1]) 6 Snappy io_desc rs_all [] 100) =
      Ok [inl (read_page_of Snappy io_desc None false io_v2); inr OutOfSpec].
Proof.
  split; [exact ex_takes_a_byte|]. split; [exact ex_counts_fit|]. eexists. split.
  - eapply steps_cons; [vm_compute; reflexivity|]. eapply steps_cons; [vm_compute; reflexivity|]. apply steps_nil.
  - split; vm_compute; reflexivity.
Qed.

(** C120. The same whatever came before, filtered pages and errors included: there is one number of values with which a new reader goes on like
    the old one. *)
Theorem reading_resumes_somehow : forall T m source total c d f scratch max items r,
  takes_a_byte T -> counts_fit T -> (Z.of_nat (length source) < 2 ^ 32)%Z ->
  steps (pr_next T m) (pr_new source total c d f scratch max) items r ->
  exists remaining, forall buffer n,
    drain (pr_next T m) n (pr_new (fst (pr_into_inner r)) remaining c d f buffer max) = drain (pr_next T m) n r.
Proof.
  intros T m source total c d f scratch max items r HT HC Hlen Hs.
  change (2 ^ 32)%Z with 4294967296%Z in Hlen.
  assert (R0 : roomy (pr_new source total c d f scratch max)) by (unfold roomy, pr_new; cbn [pr_seen pr_source]; lia).
  destruct (steps_keep T m HT HC _ _ _ Hs R0) as (R1 & (K1 & K2 & K3 & K4 & K5) & Hl & _).
  cbn [pr_new pr_seen pr_source pr_filter pr_descriptor pr_compression pr_max pr_total] in *.
  exists (pr_total r - pr_seen r)%Z. intros buffer n. apply (drain_alike T m HT HC).
  - unfold alike, pr_new, pr_into_inner. cbn [fst pr_seen pr_source pr_filter pr_descriptor pr_compression pr_max pr_total].
    repeat split; try assumption. lia.
  - unfold roomy, pr_new, pr_into_inner. cbn [fst pr_seen pr_source]. lia.
  - exact R1.
Qed.
Print Assumptions reading_resumes_somehow.

Definition rs_v2 (_ : descriptor) (h : page_header) := match h with HV2 _ => true | HV1 _ => false end.
Example reading_resumes_somehow_witness :
  exists r, steps (pr_next ex_header Checked) (pr_new rs_source 9 Snappy io_desc rs_v2 [7] 100)
      [inl (read_page_of Snappy io_desc None false io_dict); inl (read_page_of Snappy io_desc None false io_v2); inr OutOfSpec] r /\
    fst (pr_into_inner r) = [21; 1].
Proof.
  eexists. split.
  - do 3 (eapply steps_cons; [vm_compute; reflexivity|]). apply steps_nil.
  - vm_compute. reflexivity.
Qed.

(** C120. Chunks of any size whose pages the reader can take, with any filter: after some of the wanted pages, the source that comes out is
    at a page [post] of the chunk, all wanted pages before it have been given out, and a new reader for the values from there on gives the
    remaining wanted pages, then ends where a single reader ends. *)
Theorem chunk_reading_resumes : forall T m pages rest total c d f scratch max items r,
  Forall (takes T max) pages -> (total <= values_of pages)%Z -> (values_of pages < 2 ^ 63)%Z ->
  steps (pr_next T m) (pr_new (chunk_bytes T pages ++ rest) total c d f scratch max) items r ->
  exists pre post, pages = pre ++ post /\
    items = map inl (map (read_page_of c d None false) (filter (wanted (f d)) pre)) /\
    needed total pages = pre ++ needed (total - values_of pre) post /\
    fst (pr_into_inner r) = chunk_bytes T post ++ rest /\
    forall buffer, exists r',
      runs (pr_next T m) (pr_new (chunk_bytes T post ++ rest) (total - values_of pre) c d f buffer max)
        (map inl (map (read_page_of c d None false) (filter (wanted (f d)) (needed (total - values_of pre) post)))) r' /\
      exists end_, pages = needed total pages ++ end_ /\ pr_source r' = chunk_bytes T end_ ++ rest.
Proof.
  intros T m pages rest total c d f scratch max items r Hall Htot Hmax Hs.
  set (r0 := pr_new (chunk_bytes T pages ++ rest) total c d f scratch max) in Hs.
  assert (Hok : reader_ok T r0 pages rest).
  { unfold reader_ok, r0, pr_new. cbn [pr_source pr_total pr_seen pr_max].
    split; [ reflexivity | ]. split; [ exact Hall | ]. pose proof (values_of_nonneg _ _ _ Hall). lia. }
  destruct (reader_steps T m _ _ _ Hs _ _ Hok) as (pre & post & H1 & H2 & H3 & H4 & H5 & H6).
  unfold wanted_by, as_read, r0, pr_new in H2, H3, H5, H6. cbn [pr_total pr_seen pr_filter pr_descriptor pr_compression] in H2, H3, H5, H6.
  rewrite Z.sub_0_r in H3. rewrite Z.add_0_l in H5. exists pre, post. split; [exact H1|]. split; [exact H2|]. split; [exact H3|].
  destruct H4 as (Hsrc & _ & Ht & Hlo & Hhi). split; [exact Hsrc|]. intros buffer.
  assert (Hpost : Forall (takes T max) post) by (rewrite H1 in Hall; apply Forall_app in Hall as [_ Hall]; exact Hall).
  assert (Hle : (total - values_of pre <= values_of post)%Z) by lia.
  assert (Hpre : (0 <= values_of pre)%Z).
  { rewrite H1 in Hall. apply Forall_app in Hall as [Hall _]. exact (values_of_nonneg _ _ _ Hall). }
  assert (Hlt : (values_of post < 2 ^ 63)%Z) by lia.
  destruct (reader_returns_needed_pages T m post rest (total - values_of pre) c d f buffer max Hpost Hle Hlt) as (r' & Hr & end_ & He & Hend).
  exists r'. split; [exact Hr|]. exists end_. split; [|exact Hend].
  rewrite H3, <- app_assoc, <- He. exact H1.
Qed.
Print Assumptions chunk_reading_resumes.

Example chunk_reading_resumes_witness :
  Forall (takes ex_header 100) io_pages /\
  exists r, steps (pr_next ex_header Checked) (pr_new (chunk_bytes ex_header io_pages ++ [77]) 5 Snappy io_desc rs_v2 [] 100)
      [inl (read_page_of Snappy io_desc None false io_dict)] r /\
    fst (pr_into_inner r) = chunk_bytes ex_header [io_v1; io_v2] ++ [77].
Proof.
  split; [apply io_takes; lia|]. eexists. split; [eapply steps_cons; [vm_compute; reflexivity | apply steps_nil] | vm_compute; reflexivity].
Qed.

(** C120 (full statement, refuted with a filter): the values in the pages that came out are not all the values that have passed. A reader made for
    "the total less what I have" then runs on into whatever follows the chunk: here it returns the first page of the next column. *)
Theorem reading_resumes_refuted :
  exists pages next_column r, Forall (takes ex_header 100) pages /\
    steps (pr_next ex_header Checked) (pr_new (chunk_bytes ex_header pages ++ page_bytes ex_header next_column) (values_of pages) Snappy io_desc rs_v2 [] 100)
      (map inl [read_page_of Snappy io_desc None false io_dict; read_page_of Snappy io_desc None false io_v2]) r /\
    drain (pr_next ex_header Checked) 1 r = Ok [] /\
    drain (pr_next ex_header Checked) 1 (pr_new (fst (pr_into_inner r)) (values_of pages - values_of [io_dict; io_v2]) Snappy io_desc rs_v2 [] 100) =
      Ok [inl (read_page_of Snappy io_desc None false next_column)].
Proof.
  exists io_pages, io_v2. eexists. split; [apply io_takes; lia|]. split.
  - do 2 (eapply steps_cons; [vm_compute; reflexivity|]). apply steps_nil.
  - split; vm_compute; reflexivity.
Qed.
Print Assumptions reading_resumes_refuted.
