(** C110, C111: what column chunks and row groups answer about themselves, and their metadata in serde. *)
From Verif Require Import Base.Prelude Base.Codec Model.Types Model.Thrift Model.Page Model.Io Model.Intervals Model.Schema Model.Statistics Model.Metadata Model.ColumnMeta
  Spec.SchemaSpec Spec.MetadataSpec Spec.AcceptSpec Spec.ColumnMetaSpec Proofs.TypesFacts Proofs.SchemaProofs Proofs.MetadataProofs Proofs.AcceptProofs Proofs.ThriftCodec
  Proofs.ColumnMetaProofs Props.Schema Props.Metadata Props.Accept.
Open Scope N_scope.

(** * C110 *)

(** Every column of a file that was opened answers every question with what the file says; none panics. *)
Theorem opened_columns_answer : forall m t f g c, file_from_thrift m t = Ok f -> In g (fmd_row_groups f) -> In c (rgm_columns g) ->
  exists meta, cc_meta (cmd_chunk c) = Some meta /\ answers c meta /\
    (exists codec, cmd_compression c = Ok codec /\ compression_to_thrift codec = cm_codec meta) /\
    (((cm_compressed_size meta < 2 ^ 63)%Z /\ (cm_data_page_offset meta < 2 ^ 63)%Z /\ (forall o, cm_dictionary_page_offset meta = Some o -> (o < 2 ^ 63)%Z)) ->
       byte_range c = Ok (chunk_start meta, chunk_length meta)).
Proof.
  intros m t f g c H Hg Hc. destruct (opened_column m t f g c H Hg Hc) as [A _]. unfold chunk_acceptable in A.
  destruct (cc_meta (cmd_chunk c)) as [meta|] eqn:E; [|destruct A]. destruct A as [(A1 & A2 & A3) A4]. exists meta. split; [reflexivity|].
  split; [apply some_metadata; exact E|]. split.
  - destruct (codec_known _ A3) as [k Hk]. exists k. unfold cmd_compression, cmd_meta. rewrite E. cbn [bind]. rewrite Hk. split; [reflexivity|].
    symmetry. clear - A3 Hk. assert (H : (cm_codec meta = 0 \/ cm_codec meta = 1 \/ cm_codec meta = 2 \/ cm_codec meta = 3 \/ cm_codec meta = 4 \/ cm_codec meta = 5 \/ cm_codec meta = 6 \/ cm_codec meta = 7)%Z) by lia.
    destruct H as [H|[H|[H|[H|[H|[H|[H|H]]]]]]]; rewrite H in *; apply Ok_inj in Hk; subst k; reflexivity.
  - change (2 ^ 63)%Z with 9223372036854775808%Z. intros (B1 & B2 & B3). unfold byte_range, cmd_meta. rewrite E. cbn [bind]. unfold chunk_start, chunk_length.
    rewrite (as_usize_nonneg (cm_compressed_size meta)) by lia. destruct (cm_dictionary_page_offset meta) as [o|].
    + specialize (A4 o eq_refl). specialize (B3 o eq_refl). rewrite as_usize_nonneg by lia. reflexivity.
    + rewrite as_usize_nonneg by lia. reflexivity.
Qed.
Print Assumptions opened_columns_answer.
Example opened_columns_answer_case : exists f, file_from_thrift Checked (ax_meta (mx_chunk 60 (Some 44%Z))) = Ok f /\
  match fmd_row_groups f with
  | [g] => length (rgm_columns g) = 3%nat /\ map cmd_num_values (rgm_columns g) = [Ok 5%Z; Ok 5%Z; Ok 5%Z] /\
           map byte_range (rgm_columns g) = [Ok (4, 30); Ok (44, 30); Ok (90, 30)]
  | _ => False
  end.
Proof. eexists. split; [vm_compute; reflexivity|]. vm_compute. repeat split. Qed.

(** A column made by the user answers the same way if it has metadata; without, every question about the metadata panics. The codec can also
    be unknown, and asking for it then panics. *)
Theorem built_columns_answer : forall chunk d, let c := cmd_new chunk d in
  (forall meta, cc_meta chunk = Some meta -> answers c meta /\ (cmd_compression c = Panic <-> ~ (0 <= cm_codec meta <= 7)%Z) /\ byte_range c <> Panic) /\
  (cc_meta chunk = None -> all_panic c) /\
  cmd_file_path c = cc_file_path chunk /\ cmd_file_offset c = cc_file_offset chunk /\ cmd_into_thrift c = chunk /\
  cmd_physical_type c = pt_physical (d_primitive (cd_descriptor d)).
Proof.
  intros chunk d c. split; [|split; [exact (no_metadata c)|repeat split]]. intros meta H. split; [exact (some_metadata c meta H)|]. split.
  - unfold cmd_compression, cmd_meta. cbn [c cmd_new cmd_chunk]. rewrite H. cbn [bind].
    assert (D : (0 <= cm_codec meta <= 7 \/ ~ 0 <= cm_codec meta <= 7)%Z) by lia. destruct D as [D|D].
    + destruct (codec_known _ D) as [k ->]. split; [discriminate|contradiction].
    + rewrite (codec_unknown _ D). split; [intros _; exact D|reflexivity].
  - unfold byte_range, cmd_meta. cbn [c cmd_new cmd_chunk]. rewrite H. discriminate.
Qed.
Print Assumptions built_columns_answer.
Example built_columns_answer_case :
  let d := hd (mk_cdescr (mk_descr (mk_prim (mk_fi [] Required None) None None Int32) 0 0) [] sx_int) (columns_of sx_fields) in
  cmd_compression (cmd_new (mx_chunk 4 None) d) = Ok Snappy /\ cmd_num_values (cmd_new (mk_tcc None 7 None None None None None None None) d) = Panic /\
  cmd_file_offset (cmd_new (mk_tcc None 7 None None None None None None None) d) = 7%Z.
Proof. vm_compute. repeat split. Qed.

(** The size of a row group is the sum of the sizes of its chunks. If it is beyond 64 bits the call panics with overflow checks and wraps
    without; it panics if a chunk has no metadata. *)
Theorem row_group_size_exact : forall g,
  (forall m, (exists c, In c (rgm_columns g) /\ cc_meta (cmd_chunk c) = None) -> rgm_compressed_size m g = Panic) /\
  (forall metas, Forall2 (fun c meta => cc_meta (cmd_chunk c) = Some meta) (rgm_columns g) metas ->
     Forall (fun meta => (0 <= cm_compressed_size meta < 2 ^ 63)%Z) metas ->
     (sum_sizes metas < 2 ^ 64 -> rgm_compressed_size Checked g = Ok (sum_sizes metas)) /\
     (2 ^ 64 <= sum_sizes metas -> rgm_compressed_size Checked g = Panic) /\
     rgm_compressed_size Wrapping g = Ok (sum_sizes metas mod 2 ^ 64)).
Proof.
  intros g. split; [intros m H; unfold rgm_compressed_size; rewrite (collect_sizes_none _ H); reflexivity|].
  intros metas H Hb. unfold rgm_compressed_size. rewrite (collect_sizes _ _ H). cbn [bind]. destruct (sum_sizes_fold metas Hb) as [F1 F2].
  destruct (usum_checked _ _ (eq_sym F1) F2) as [U1 U2]. rewrite usum_wrapping, F1. auto.
Qed.
Print Assumptions row_group_size_exact.
Definition cx_big : row_group_md :=
  let meta := mk_tcm 1 [] [] 0 5 100 4611686018427387904 None 4 None None None None None in
  let d := hd (mk_cdescr (mk_descr (mk_prim (mk_fi [] Required None) None None Int32) 0 0) [] sx_int) (columns_of sx_fields) in
  let c := mk_cmd (mk_tcc None 0 (Some meta) None None None None None None) d in
  mk_rgm [c; c; c; c] 5 100.
Example row_group_size_exact_case :
  rgm_compressed_size Checked cx_big = Panic /\ rgm_compressed_size Wrapping cx_big = Ok 0 /\
  rgm_compressed_size Checked (mk_rgm (firstn 3 (rgm_columns cx_big)) 5 100) = Ok 13835058055282163712.
Proof. vm_compute. repeat split. Qed.

(** So the size written to a file need not be the size of the chunks: from 2^63 bytes on it is negative. *)
Theorem row_group_size_refuted : exists g metas t,
  Forall2 (fun c meta => cc_meta (cmd_chunk c) = Some meta) (rgm_columns g) metas /\ row_group_into_thrift Checked g = Ok t /\
  rg_compressed_size t <> Some (Z.of_N (sum_sizes metas)).
Proof.
  exists (mk_rgm (firstn 3 (rgm_columns cx_big)) 5 100).
  exists (repeat (mk_tcm 1 [] [] 0 5 100 4611686018427387904 None 4 None None None None None) 3).
  eexists. split; [repeat constructor|]. split; [vm_compute; reflexivity|]. vm_compute. discriminate.
Qed.
Print Assumptions row_group_size_refuted.

(** In a file that was opened every column belongs to a field of the schema, and its path begins with the name of that field; so asking for
    the columns of a field never panics and gives exactly those of the fields with that name. *)
Theorem opened_field_columns : forall m t f g name, file_from_thrift m t = Ok f -> In g (fmd_row_groups f) ->
  exists r, get_field_columns (rgm_columns g) name = Ok r /\
    r = filter (fun c => bytes_eqb (type_name (top_field c)) name) (rgm_columns g) /\
    (forall c, In c (rgm_columns g) -> In (top_field c) (sd_fields (fmd_schema f))).
Proof.
  intros m t f g name H Hg.
  assert (Hp : forall c, In c (rgm_columns g) -> In (top_field c) (sd_fields (fmd_schema f)) /\ exists rest, cd_path (cmd_descr c) = type_name (top_field c) :: rest).
  { intros c Hc. destruct (opened_column m t f g c H Hg Hc) as [_ L]. destruct (opened_parts m t f H) as (s & Hs & _ & ->). cbn [metadata_of fmd_schema] in *.
    pose proof (schema_leaves _ _ _ Hs) as F. rewrite Forall_forall in F. exact (F _ L). }
  rewrite get_field_columns_ok.
  2: { apply Forall_forall. intros c Hc. destruct (Hp c Hc) as (_ & rest & ->). discriminate. }
  eexists. split; [reflexivity|]. split; [|intros c Hc; apply Hp; exact Hc].
  apply filter_ext_in. intros c Hc. destruct (Hp c Hc) as (_ & rest & ->). reflexivity.
Qed.
Print Assumptions opened_field_columns.
Example opened_field_columns_case : exists f, file_from_thrift Checked (ax_meta (mx_chunk 60 (Some 44%Z))) = Ok f /\
  map type_name (sd_fields (fmd_schema f)) = [[97]; [98]; [100]] /\
  map (fun g => match get_field_columns (rgm_columns g) [98] with Ok r => length r | _ => 0%nat end) (fmd_row_groups f) = [1%nat].
Proof. eexists. split; [vm_compute; reflexivity|]. vm_compute. repeat split. Qed.

(** A column made by the user can have an empty path; asking for the columns of any field then panics. *)
Theorem empty_path_panics : forall l name, (exists c, In c l /\ cd_path (cmd_descr c) = []) -> get_field_columns l name = Panic.
Proof.
  induction l as [|c l IH]; intros name (x & Hx & E); [destruct Hx|]. cbn [get_field_columns]. destruct (cd_path (cmd_descr c)) as [|n path] eqn:Ec; [reflexivity|].
  rewrite IH; [reflexivity|]. destruct Hx as [->|Hx]; [congruence|]. exists x. auto.
Qed.
Print Assumptions empty_path_panics.
Example empty_path_panics_case :
  get_field_columns (mx_columns ++ [mk_cmd (mx_chunk 4 None) (mk_cdescr (mk_descr (mk_prim (mk_fi [] Required None) None None Int32) 0 0) [] sx_int)]) [97] = Panic.
Proof. reflexivity. Qed.

(** * C111 *)

(** The metadata of a chunk can be restored from the bytes that thrift makes of it, but storing it fails for every chunk: the bytes are
    written to a slice without room. *)
Theorem serde_chunk_refuted : forall T c, reads_back T (2 ^ 64 - 1) c ->
  serialize_column_chunk T c = Err OutOfSpec /\ deserialize_column_chunk T (t_enc T c) = Ok c.
Proof.
  intros T c [Hne Hr]. split.
  - unfold serialize_column_chunk, write_struct, wbind, write_all. cbn [sk_room sk_data]. destruct (t_enc T c) as [|b l]; [contradiction|].
    replace (nlen (b :: l) <=? 0) with false; [reflexivity|]. symmetry. unfold nlen. cbn [length]. lia.
  - unfold deserialize_column_chunk. specialize (Hr []). rewrite app_nil_r in Hr. rewrite Hr. reflexivity.
Qed.
Print Assumptions serde_chunk_refuted.
Example serde_chunk_refuted_case :
  reads_back (of_codec c_column_chunk) (2 ^ 64 - 1) (mx_chunk 60 (Some 44%Z)) /\
  serialize_column_chunk (of_codec c_column_chunk) (mx_chunk 60 (Some 44%Z)) = Err OutOfSpec.
Proof.
  split; [|vm_compute; reflexivity]. apply of_codec_reads_back.
  apply (csound c_column_chunk (cenc c_column_chunk (mx_chunk 60 (Some 44%Z))) (mx_chunk 60 (Some 44%Z)) []). vm_compute. reflexivity.
Qed.
