(** C128: sources that fail while they are read. *)
From Verif Require Import Base.Prelude Base.Iter Model.Types Model.Thrift Model.Intervals Model.Page Model.Io Model.Schema Model.PageRead Model.Metadata
  Model.Indexes Model.Bloom Model.Faults Spec.PagesSpec Spec.ResumeSpec Spec.FaultsSpec Spec.EndsSpec Proofs.SchemaProofs Proofs.PageIoProofs Proofs.PageReadProofs
  Proofs.FaultsProofs Proofs.MessageProofs Proofs.ThriftCodec Props.PageIo Props.Ends.
Open Scope N_scope.

(** C128. Whatever fails, and when: the metadata read from a source is the metadata of its bytes, or there is an error. The same for a given size of
    the file, for the bytes of a column and of all columns of a field, for the column indexes, the offset indexes, and a Bloom filter. *)
Theorem read_metadata_honest : forall T m, honest (read_metadata T m) (read_metadata_f T m).
Proof.
  intros T m. apply steady_honest; [|apply metadata_result]. unfold read_metadata_f.
  apply steady_bind; [apply steady_stream_len | intros; apply steady_with_size].
Qed.
Print Assumptions read_metadata_honest.

Theorem read_metadata_with_size_honest : forall T m size, honest (fun file => read_metadata_with_size T m file size) (read_metadata_with_size_f T m size).
Proof. intros T m size. apply steady_honest; [apply steady_with_size | intros; apply with_size_result]. Qed.
Print Assumptions read_metadata_with_size_honest.

Theorem read_column_honest : forall c, honest (fun file => read_column file c) (read_column_f c).
Proof. intros c. apply steady_honest; [apply steady_column|]. intros file pos. destruct (column_result c file pos) as [p ->]. reflexivity. Qed.
Print Assumptions read_column_honest.

Theorem read_columns_honest : forall columns name, honest (fun file => read_columns file columns name) (read_columns_f columns name).
Proof.
  intros columns name. apply steady_honest; unfold read_columns_f.
  - apply steady_bind; [apply steady_res | intros l]. apply steady_collect. intros c. apply steady_bind; [apply steady_column | intros; apply steady_res].
  - intros file pos. rewrite bind_res. unfold read_columns. destruct (get_field_columns columns name) as [l|e|]; cbn [bind]; [|reflexivity|reflexivity].
    destruct (collect_result file l pos) as [p ->]. reflexivity.
Qed.
Print Assumptions read_columns_honest.

Theorem read_columns_indexes_honest : forall T chunks, honest (fun file => read_columns_indexes T file chunks) (read_columns_indexes_f T chunks).
Proof.
  intros T chunks. apply steady_honest; unfold read_columns_indexes_f; [steady|]. intros file pos. rewrite bind_res. unfold read_columns_indexes.
  destruct (prepare_read chunks _ _) as [[o l]|e|]; cbn [bind]; reflexivity.
Qed.
Print Assumptions read_columns_indexes_honest.

Theorem read_pages_locations_honest : forall T chunks, honest (fun file => read_pages_locations T file chunks) (read_pages_locations_f T chunks).
Proof.
  intros T chunks. apply steady_honest; unfold read_pages_locations_f; [steady|]. intros file pos. rewrite bind_res. unfold read_pages_locations.
  destruct (prepare_read chunks _ _) as [[o l]|e|]; cbn [bind]; reflexivity.
Qed.
Print Assumptions read_pages_locations_honest.

Theorem bloom_read_honest : forall T offset, reads_in_order T -> honest (bloom_read (t_dec T (2 ^ 64 - 1)) offset) (bloom_read_f T offset).
Proof.
  intros T offset HT. apply steady_honest; unfold bloom_read_f; [steady|]. intros file pos. unfold bloom_read.
  destruct offset as [o|]; [|reflexivity]. rewrite bind_start. unfold rbind at 1, read_struct. cbn [dv_pos dv_file dv_faults].
  set (max := 2 ^ 64 - 1). clearbody max. set (src := skipn (N.to_nat (as_usize o)) file).
  unfold decode_read. cbn [next_fault]. destruct (t_dec T max src) as [[h rest]|e|] eqn:Ed; cbn [bind]; [|reflexivity|reflexivity].
  destruct (negb (bh_block h)); [reflexivity|]. destruct (negb (bh_uncompressed h)); [reflexivity|].
  rewrite bind_res. destruct (try_usize (bh_num_bytes h)) as [n|e|]; cbn [bind]; [|reflexivity|reflexivity].
  unfold read_some, take_read. cbn [next_fault dv_pos dv_file dv_faults snd]. f_equal. f_equal.
  destruct (HT _ _ _ _ Ed) as [used Hu]. unfold nlen. rewrite Hu, app_length.
  replace (N.to_nat (as_usize o + (N.of_nat (length used + length rest) - N.of_nat (length rest)))) with (N.to_nat (as_usize o) + length used)%nat by lia.
  apply MessageProofs.skipn_past. exact Hu.
Qed.
Print Assumptions bloom_read_honest.

(** C128. The page reader of a column is made where the column is, or there is an error. *)
Theorem get_page_iterator_honest : forall c filter scratch max,
  honest (fun file => get_page_iterator c file filter scratch max) (get_page_iterator_f c filter scratch max).
Proof.
  intros c filter scratch max. apply steady_honest; unfold get_page_iterator_f.
  - steady. intros file pos fs. repeat split; auto.
  - intros file pos. rewrite bind_res. unfold get_page_iterator. destruct (byte_range c) as [[start n]|e|]; cbn [bind]; [|reflexivity|reflexivity].
    rewrite bind_start, bind_res. destruct (cmd_meta c) as [meta|e|]; cbn [bind]; [|reflexivity|reflexivity].
    rewrite bind_res. destruct (cmd_compression c) as [codec|e|]; reflexivity.
Qed.
Print Assumptions get_page_iterator_honest.

(** A source with a failure at the sixth byte: the column does not come; with a failure beyond its bytes it does. *)
Definition fx_column : column_md :=
  mk_cmd (mk_tcc None 0 (Some (mk_tcm 1 [] [] 0 3 8 8 None 4 None None None None None)) None None None None None None)
    (mk_cdescr io_desc [[97]] (Primitive (mk_prim (mk_fi [97] Optional None) None None Int32))).
Example reads_honest_witness :
  read_column [80; 65; 82; 49; 1; 2; 3; 4; 5; 6; 7; 8; 9] fx_column = Ok [1; 2; 3; 4; 5; 6; 7; 8] /\
  snd (read_column_f fx_column (mk_drive [80; 65; 82; 49; 1; 2; 3; 4; 5; 6; 7; 8; 9] 3 [None; Some 6])) = Err OutOfSpec /\
  snd (read_column_f fx_column (mk_drive [80; 65; 82; 49; 1; 2; 3; 4; 5; 6; 7; 8; 9] 3 [None; Some 8])) = Ok [1; 2; 3; 4; 5; 6; 7; 8] /\
  snd (read_column_f fx_column (mk_drive [80; 65; 82; 49; 1; 2; 3; 4; 5; 6; 7; 8; 9] 3 [Some 0])) = Err OutOfSpec.
Proof. repeat split; vm_compute; reflexivity. Qed.

(** A Bloom filter behind a header of one byte, its length; the failing source gives three bytes of it. *)
Definition fx_bloom : thrift bloom_header :=
  mk_thrift (fun h => [Z.to_N (bh_num_bytes h)]) (fun _ s => match s with b :: r => Ok (mk_bh (Z.of_N b) true true, r) | [] => Err OutOfSpec end).
Example bloom_read_honest_witness : reads_in_order fx_bloom /\
  snd (bloom_read_f fx_bloom (Some 1%Z) (mk_drive [9; 4; 1; 2; 3; 4; 5] 0 [])) = Ok [1; 2; 3; 4] /\
  snd (bloom_read_f fx_bloom (Some 1%Z) (mk_drive [9; 4; 1; 2; 3; 4; 5] 0 [None; Some 1; Some 3])) = Err OutOfSpec.
Proof.
  split; [|split; vm_compute; reflexivity]. intros max s x rest H. cbn [fx_bloom t_dec] in H. destruct s as [|b r]; [discriminate|].
  apply Ok_inj in H. injection H as _ <-. exists [b]. reflexivity.
Qed.

(** C128. Pages that come out of a failing source are the pages that would come out of one that does not fail, in this order, as long as there has
    been no error. *)
Theorem pages_before_failure : forall T m fs r pages s,
  steps (pr_next_f T m) (fs, r) (map inl pages) s -> steps (pr_next T m) r (map inl pages) (snd s).
Proof. intros T m fs r pages s. apply calls_steps. apply pr_next_f_cases. Qed.
Print Assumptions pages_before_failure.

(** C128. A reading that would give [items] to its end gives them, or an error in place of one of them or of the end; a source that does not fail
    gives them. *)
Theorem page_reader_reports_failure : forall T m fs r items r',
  runs (pr_next T m) r items r' ->
  (exists fs', runs (pr_next_f T m) (fs, r) items (fs', r')) \/
  (~ Forall (fun f => f = None) fs /\ exists k s, (k <= length items)%nat /\ steps (pr_next_f T m) (fs, r) (firstn k items ++ [inr OutOfSpec]) s).
Proof. intros T m fs r items r' H. exact (calls_runs _ _ (pr_next_f_cases T m) _ _ _ H fs). Qed.
Print Assumptions page_reader_reports_failure.

(** C128. The asynchronous stream does the same, and is at its end after the error. *)
Theorem stream_reports_failure : forall T m fs r items s,
  runs (stream_poll T m) (Some r) items s ->
  (exists s', runs (stream_poll_f T m) (Some (fs, r)) items s') \/
  (~ Forall (fun f => f = None) fs /\ exists k s', (k <= length items)%nat /\ runs (stream_poll_f T m) (Some (fs, r)) (firstn k items ++ [inr OutOfSpec]) s').
Proof.
  intros T m fs r items s H. destruct (poll_runs T m _ _ _ H fs) as [(fs' & R) | (W & k & t & Hk & R)].
  - left. eexists. exact R.
  - right. split; [exact W|]. exists k, t. split; [exact Hk | exact R].
Qed.
Print Assumptions stream_reports_failure.

(** The second page's bytes fail after one byte. *)
Definition fx_reader := io_reader (chunk_bytes ex_header io_pages) 5 (fun _ _ => true) 100.
Definition fx_items : list (compressed_page + error) := map inl (map (read_page_of Snappy io_desc None false) io_pages).
Example failure_reported_witness :
  (exists r', runs (pr_next ex_header Checked) fx_reader fx_items r') /\
  (exists s, steps (pr_next_f ex_header Checked) ([None; Some 8; None; Some 1], fx_reader) (firstn 1 fx_items ++ [inr OutOfSpec]) s) /\
  (exists s, runs (stream_poll_f ex_header Checked) (Some ([None; Some 8; None; Some 1], fx_reader)) (firstn 1 fx_items ++ [inr OutOfSpec]) s) /\
  (exists s, runs (pr_next_f ex_header Checked) ([None; Some 8; None; Some 3], fx_reader) fx_items s).
Proof.
  split; [|split; [|split]]; eexists; unfold fx_items; cbn [io_pages map firstn app].
  - do 3 (eapply runs_cons; [vm_compute; reflexivity|]). apply runs_nil. vm_compute. reflexivity.
  - do 2 (eapply steps_cons; [vm_compute; reflexivity|]). apply steps_nil.
  - do 2 (eapply runs_cons; [vm_compute; reflexivity|]). apply runs_nil. reflexivity.
  - do 3 (eapply runs_cons; [vm_compute; reflexivity|]). apply runs_nil. vm_compute. reflexivity.
Qed.

(** C128. The reader with an index gives each page or an error in its place, also after errors: it looks for each page anew. *)
Theorem indexed_reader_reports_failure : forall T m file pos fs r items r',
  (forall max s, t_dec T max s <> Panic) -> ir_file r = file ->
  runs (ir_next T m) r items r' ->
  exists items' d, runs (ir_next_f T m) (mk_drive file pos fs, r) items' (d, r') /\ Forall2 same_or_error items' items /\
    (Forall (fun f => f = None) fs -> items' = items).
Proof. intros T m file pos fs r items r' HT Hf H. exact (indexed_runs T m file HT _ _ _ H Hf pos fs). Qed.
Print Assumptions indexed_reader_reports_failure.

(** Three pages; the bytes of the second fail. *)
Example indexed_failure_witness :
  let file := [80; 65; 82; 49] ++ chunk_bytes ex_header io_pages ++ [77; 77] in
  let r := ir_new file 4 Snappy io_desc (placed ex_header (4 + nlen (chunk_bytes ex_header [io_dict])) [(io_v1, [mk_iv 0 3]); (io_v2, [mk_iv 1 1])]) in
  (forall max s, t_dec ex_header max s <> Panic) /\
  drain (ir_next ex_header Checked) 5 r =
    Ok [inl (read_page_of Snappy io_desc None false io_dict); inl (read_page_of Snappy io_desc (Some [mk_iv 0 3]) false io_v1); inl (read_page_of Snappy io_desc (Some [mk_iv 1 1]) false io_v2)] /\
  drain (ir_next_f ex_header Checked) 5 (mk_drive file 0 [None; None; None; Some 2], r) =
    Ok [inl (read_page_of Snappy io_desc None false io_dict); inr OutOfSpec; inl (read_page_of Snappy io_desc (Some [mk_iv 1 1]) false io_v2)].
Proof. split; [intros; apply of_codec_total | split; vm_compute; reflexivity]. Qed.

(** C128 (full statement, refuted for the page reader): asked on after an error it can return a page that is none of the column's. Here the bytes of the
    first page, which begin like a page, could not be read; the next call takes them for one. *)
Theorem going_on_after_failure_refuted :
  exists T m fs r pages page s,
    (exists r', runs (pr_next T m) r (map inl pages) r') /\
    steps (pr_next_f T m) (fs, r) [inr OutOfSpec; inl page] s /\ ~ In page pages.
Proof.
  pose (inner := CData (mk_cdp (HV1 (mk_tdh 7 0 3 3 None)) [9] Snappy 1 io_desc None)).
  pose (outer := CData (mk_cdp (HV1 (mk_tdh 1 0 3 3 None)) (page_bytes ex_header inner) Snappy 12 io_desc None)).
  exists ex_header, Checked, [None; Some 0], (io_reader (chunk_bytes ex_header [outer; io_v2]) 3 (fun _ _ => true) 1000),
    [read_page_of Snappy io_desc None false outer; read_page_of Snappy io_desc None false io_v2], (read_page_of Snappy io_desc None false inner).
  eexists. split; [|split].
  - eexists. cbn [map]. do 2 (eapply runs_cons; [vm_compute; reflexivity|]). apply runs_nil. vm_compute. reflexivity.
  - do 2 (eapply steps_cons; [vm_compute; reflexivity|]). apply steps_nil.
  - intros [E | [E | []]]; vm_compute in E; discriminate E.
Qed.
Print Assumptions going_on_after_failure_refuted.

(** C128. When it is safe to ask again: the source failed where a page header was to be read, before its first byte. Then the reader goes on as if there had
    been no failure. *)
Theorem header_failure_can_be_retried : forall T m fs r h rest n,
  (pr_seen r < pr_total r)%Z -> t_dec T (pr_max r) (pr_source r) = Ok (h, rest) -> (length rest < length (pr_source r))%nat ->
  exists s, pr_next_f T m (Some 0 :: fs, r) = Ok (Some (inr OutOfSpec), s) /\ drain (pr_next_f T m) n s = drain (pr_next_f T m) n (fs, r).
Proof.
  intros T m fs r h rest n Hs Hd Hl. exists (fs, pr_at r (pr_source r) (pr_seen r) []). split; [|apply drain_scratch].
  unfold pr_next_f. cbn [snd pr_next_fuel_f]. assert (E : (pr_total r <=? pr_seen r)%Z = false) by (apply Z.leb_gt; exact Hs). rewrite E.
  unfold build_page_f, decode_read. cbn [next_fault]. rewrite Hd.
  assert (E2 : 0 <? nlen (pr_source r) - nlen rest = true) by (apply N.ltb_lt; unfold nlen; lia). rewrite E2. reflexivity.
Qed.
Print Assumptions header_failure_can_be_retried.

Example header_failure_witness :
  (pr_seen fx_reader < pr_total fx_reader)%Z /\ drain (pr_next_f ex_header Checked) 5 ([Some 0; None; None; Some 0], fx_reader) =
    Ok (inr OutOfSpec :: firstn 1 fx_items ++ inr OutOfSpec :: skipn 1 fx_items).
Proof. split; vm_compute; reflexivity. Qed.
