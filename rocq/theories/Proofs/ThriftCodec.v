(** Encodings of all thrift structs that meet the laws asked of the thrift protocol ([reads_back] and so on) for all
    structs whose integers fit their thrift types. *)
From Verif Require Import Base.Prelude Base.Codec Model.Types Model.Thrift Model.Io.
Open Scope N_scope.

Definition of_codec {X} (c : codec X) : thrift X :=
  mk_thrift (fun x => 21 :: cenc c x)
    (fun _ l => match l with
                | 21 :: r => match cdec c r with Some p => Ok p | None => Err OutOfSpec end
                | _ => Err OutOfSpec
                end).
Lemma of_codec_reads_back {X} (c : codec X) max x : cok c x -> reads_back (of_codec c) max x.
Proof.
  intros H. split; [ discriminate | ]. intros rest. cbn [t_enc t_dec of_codec app]. rewrite (claw c _ _ H). reflexivity.
Qed.
Lemma of_codec_total {X} (c : codec X) max s : t_dec (of_codec c) max s <> Panic.
Proof.
  cbn [t_dec of_codec]. destruct s as [|b s]; [ discriminate | ].
  repeat match goal with |- context [match ?x with _ => _ end] => destruct x end; discriminate.
Qed.
Lemma of_codec_inv {X} (c : codec X) max s x rest : t_dec (of_codec c) max s = Ok (x, rest) ->
  exists r, s = 21 :: r /\ cdec c r = Some (x, rest).
Proof.
  cbn [t_dec of_codec]. destruct s as [|b s]; intros H; [ discriminate H | ].
  destruct (N.eq_dec b 21) as [->|Hb].
  - exists s. split; [ reflexivity | ]. destruct (cdec c s); [ f_equal; congruence | discriminate H ].
  - exfalso. destruct b as [|p]; [ discriminate H | ].
    repeat (destruct p as [p|p|]; try discriminate H). congruence.
Qed.
Lemma of_codec_shrink {X} (c : codec X) max s x rest : t_dec (of_codec c) max s = Ok (x, rest) -> (length rest < length s)%nat.
Proof. intros H. apply of_codec_inv in H as (r & -> & H). apply (cshrink c) in H. cbn [length]. lia. Qed.
Lemma of_codec_sound {X} (c : codec X) max s x rest : t_dec (of_codec c) max s = Ok (x, rest) -> cok c x.
Proof. intros H. apply of_codec_inv in H as (r & -> & H). exact (csound c _ _ _ H). Qed.

Definition i32 := c_int 32.
Definition i64 := c_int 64.
Definition bytes := c_list c_byte.

Definition c_statistics : codec t_statistics.
Proof.
  refine (c_map (fun x => (ts_max x, (ts_min x, (ts_null_count x, (ts_distinct_count x, (ts_max_value x, ts_min_value x))))))
    (fun '(a, (b, (c, (d, (e, f))))) => mk_tstats a b c d e f) _ _
    (c_pair (c_option bytes) (c_pair (c_option bytes) (c_pair (c_option i64) (c_pair (c_option i64) (c_pair (c_option bytes) (c_option bytes)))))));
    [ intros []; reflexivity | intros (? & ? & ? & ? & ? & ?); reflexivity ].
Defined.
Definition c_data_header : codec t_data_header.
Proof.
  refine (c_map (fun x => (dh_num_values x, (dh_encoding x, (dh_def_encoding x, (dh_rep_encoding x, dh_statistics x)))))
    (fun '(a, (b, (c, (d, e)))) => mk_tdh a b c d e) _ _
    (c_pair i32 (c_pair i32 (c_pair i32 (c_pair i32 (c_option c_statistics))))));
    [ intros []; reflexivity | intros (? & ? & ? & ? & ?); reflexivity ].
Defined.
Definition c_data_header_v2 : codec t_data_header_v2.
Proof.
  refine (c_map (fun x => (dh2_num_values x, (dh2_num_nulls x, (dh2_num_rows x, (dh2_encoding x, (dh2_def_length x, (dh2_rep_length x,
      (dh2_is_compressed x, dh2_statistics x))))))))
    (fun '(a, (b, (c, (d, (e, (f, (g, h))))))) => mk_tdh2 a b c d e f g h) _ _
    (c_pair i32 (c_pair i32 (c_pair i32 (c_pair i32 (c_pair i32 (c_pair i32 (c_pair (c_option c_bool) (c_option c_statistics)))))))));
    [ intros []; reflexivity | intros (? & ? & ? & ? & ? & ? & ? & ?); reflexivity ].
Defined.
Definition c_dict_header : codec t_dict_header.
Proof.
  refine (c_map (fun x => (dict_num_values x, (dict_encoding x, dict_is_sorted x)))
    (fun '(a, (b, c)) => mk_tdict a b c) _ _ (c_pair i32 (c_pair i32 (c_option c_bool))));
    [ intros []; reflexivity | intros (? & ? & ?); reflexivity ].
Defined.
Definition c_page_header : codec t_page_header.
Proof.
  refine (c_map (fun x => (ph_type x, (ph_uncompressed_size x, (ph_compressed_size x, (ph_crc x, (ph_data x, (ph_index x,
      (ph_dict x, ph_data_v2 x))))))))
    (fun '(a, (b, (c, (d, (e, (f, (g, h))))))) => mk_tph a b c d e f g h) _ _
    (c_pair i32 (c_pair i32 (c_pair i32 (c_pair (c_option i32) (c_pair (c_option c_data_header) (c_pair (c_option c_unit)
      (c_pair (c_option c_dict_header) (c_option c_data_header_v2)))))))));
    [ intros []; reflexivity | intros (? & ? & ? & ? & ? & ? & ? & ?); reflexivity ].
Defined.

Definition c_key_value : codec t_key_value.
Proof.
  refine (c_map (fun x => (kv_key x, kv_value x)) (fun '(a, b) => mk_kv a b) _ _ (c_pair bytes (c_option bytes)));
    [ intros []; reflexivity | intros (? & ?); reflexivity ].
Defined.
Definition c_encoding_stats : codec t_encoding_stats.
Proof.
  refine (c_map (fun x => (es_page_type x, (es_encoding x, es_count x))) (fun '(a, (b, c)) => mk_es a b c) _ _ (c_pair i32 (c_pair i32 i32)));
    [ intros []; reflexivity | intros (? & ? & ?); reflexivity ].
Defined.
Definition c_column_meta : codec t_column_meta.
Proof.
  refine (c_map (fun x => (cm_type x, (cm_encodings x, (cm_path x, (cm_codec x, (cm_num_values x, (cm_uncompressed_size x, (cm_compressed_size x,
      (cm_key_value x, (cm_data_page_offset x, (cm_index_page_offset x, (cm_dictionary_page_offset x, (cm_statistics x, (cm_encoding_stats x,
      cm_bloom_filter_offset x))))))))))))))
    (fun '(a, (b, (c, (d, (e, (f, (g, (h, (i, (j, (k, (l, (m, n))))))))))))) => mk_tcm a b c d e f g h i j k l m n) _ _
    (c_pair i32 (c_pair (c_list i32) (c_pair (c_list bytes) (c_pair i32 (c_pair i64 (c_pair i64 (c_pair i64 (c_pair (c_option (c_list c_key_value))
      (c_pair i64 (c_pair (c_option i64) (c_pair (c_option i64) (c_pair (c_option c_statistics) (c_pair (c_option (c_list c_encoding_stats))
      (c_option i64)))))))))))))));
    [ intros []; reflexivity | intros (? & ? & ? & ? & ? & ? & ? & ? & ? & ? & ? & ? & ? & ?); reflexivity ].
Defined.
Definition c_column_chunk : codec t_column_chunk.
Proof.
  refine (c_map (fun x => (cc_file_path x, (cc_file_offset x, (cc_meta x, (cc_offset_index_offset x, (cc_offset_index_length x,
      (cc_column_index_offset x, (cc_column_index_length x, (cc_crypto x, cc_encrypted x)))))))))
    (fun '(a, (b, (c, (d, (e, (f, (g, (h, i)))))))) => mk_tcc a b c d e f g h i) _ _
    (c_pair (c_option bytes) (c_pair i64 (c_pair (c_option c_column_meta) (c_pair (c_option i64) (c_pair (c_option i32) (c_pair (c_option i64)
      (c_pair (c_option i32) (c_pair (c_option bytes) (c_option bytes))))))))));
    [ intros []; reflexivity | intros (? & ? & ? & ? & ? & ? & ? & ? & ?); reflexivity ].
Defined.
Definition c_sorting_column : codec t_sorting_column.
Proof.
  refine (c_map (fun x => (so_column x, (so_descending x, so_nulls_first x))) (fun '(a, (b, c)) => mk_tsort a b c) _ _
    (c_pair i32 (c_pair c_bool c_bool)));
    [ intros []; reflexivity | intros (? & ? & ?); reflexivity ].
Defined.
Definition c_row_group : codec t_row_group.
Proof.
  refine (c_map (fun x => (rg_columns x, (rg_total_byte_size x, (rg_num_rows x, (rg_sorting x, (rg_file_offset x, (rg_compressed_size x, rg_ordinal x)))))))
    (fun '(a, (b, (c, (d, (e, (f, g)))))) => mk_trg a b c d e f g) _ _
    (c_pair (c_list c_column_chunk) (c_pair i64 (c_pair i64 (c_pair (c_option (c_list c_sorting_column)) (c_pair (c_option i64)
      (c_pair (c_option i64) (c_option (c_int 16)))))))));
    [ intros []; reflexivity | intros (? & ? & ? & ? & ? & ? & ?); reflexivity ].
Defined.

(** The union of logical types: a tag and the fields of all members. *)
Definition c_time_unit : codec time_unit.
Proof.
  refine (mk_codec time_unit (fun u => [match u with Milliseconds => 0 | Microseconds => 1 | Nanoseconds => 2 end])
    (fun l => match l with 0 :: r => Some (Milliseconds, r) | 1 :: r => Some (Microseconds, r) | 2 :: r => Some (Nanoseconds, r) | _ => None end)
    (fun _ => True) _ _ _).
  - intros [] rest _; reflexivity.
  - intros; exact I.
  - intros [|b l] a rest H; [ discriminate H | ]. cbn [length]. destruct b as [|[q|q|]]; try discriminate H; try (destruct q; try discriminate H);
      assert (rest = l) by congruence; subst; lia.
Defined.
Definition logical_tag (t : t_logical) : N :=
  match t with
  | TString => 0 | TMap => 1 | TList => 2 | TEnum => 3 | TDate => 4 | TUnknown => 5 | TJson => 6 | TBson => 7 | TUuid => 8
  | TDecimal _ _ => 9 | TTime _ _ => 10 | TTimestamp _ _ => 11 | TInteger _ _ => 12
  end.
Definition c_decimal := c_pair i32 i32.
Definition c_time := c_pair c_bool c_time_unit.
Definition c_integer := c_pair (c_int 8) c_bool.
Definition logical_enc (t : t_logical) : list N :=
  logical_tag t ::
  match t with
  | TDecimal a b => cenc c_decimal (a, b)
  | TTime a b | TTimestamp a b => cenc c_time (a, b)
  | TInteger a b => cenc c_integer (a, b)
  | _ => []
  end.
Definition logical_dec (l : list N) : option (t_logical * list N) :=
  match l with
  | [] => None
  | b :: r =>
      match b with
      | 0 => Some (TString, r) | 1 => Some (TMap, r) | 2 => Some (TList, r) | 3 => Some (TEnum, r) | 4 => Some (TDate, r)
      | 5 => Some (TUnknown, r) | 6 => Some (TJson, r) | 7 => Some (TBson, r) | 8 => Some (TUuid, r)
      | 9 => match cdec c_decimal r with Some (x, r) => Some (TDecimal (fst x) (snd x), r) | None => None end
      | 10 => match cdec c_time r with Some (x, r) => Some (TTime (fst x) (snd x), r) | None => None end
      | 11 => match cdec c_time r with Some (x, r) => Some (TTimestamp (fst x) (snd x), r) | None => None end
      | 12 => match cdec c_integer r with Some (x, r) => Some (TInteger (fst x) (snd x), r) | None => None end
      | _ => None
      end
  end.
Definition logical_fits (t : t_logical) : Prop :=
  match t with TDecimal a b => cok c_decimal (a, b) | TInteger a b => cok c_integer (a, b) | _ => True end.
Definition c_logical : codec t_logical.
Proof.
  assert (Hs : forall l t rest, logical_dec l = Some (t, rest) -> logical_fits t /\ (length rest <= length l)%nat).
  { intros [|b l] t rest H; [ discriminate H | ]. cbn [logical_dec length] in *.
    assert (Hsame : forall t', Some (t', l) = Some (t, rest) -> logical_fits t' -> logical_fits t /\ (length rest <= S (length l))%nat).
    { intros t' E Hf. assert (t = t') by congruence. assert (rest = l) by congruence. subst. split; [ exact Hf | lia ]. }
    destruct b as [|b]; [ apply (Hsame _ H); exact I | ].
    repeat (destruct b as [b|b|]; try discriminate H; try (apply (Hsame _ H); exact I)).
    - destruct (cdec c_time l) as [[x r]|] eqn:E; [ | discriminate H ]. apply (cshrink c_time) in E.
      assert (t = TTimestamp (fst x) (snd x)) by congruence. assert (rest = r) by congruence. subst. split; [ exact I | lia ].
    - destruct (cdec c_decimal l) as [[x r]|] eqn:E; [ | discriminate H ]. pose proof (csound c_decimal _ _ _ E) as Hk. apply (cshrink c_decimal) in E.
      assert (t = TDecimal (fst x) (snd x)) by congruence. assert (rest = r) by congruence. subst. split; [ destruct x; exact Hk | lia ].
    - destruct (cdec c_time l) as [[x r]|] eqn:E; [ | discriminate H ]. apply (cshrink c_time) in E.
      assert (t = TTime (fst x) (snd x)) by congruence. assert (rest = r) by congruence. subst. split; [ exact I | lia ].
    - destruct (cdec c_integer l) as [[x r]|] eqn:E; [ | discriminate H ]. pose proof (csound c_integer _ _ _ E) as Hk. apply (cshrink c_integer) in E.
      assert (t = TInteger (fst x) (snd x)) by congruence. assert (rest = r) by congruence. subst. split; [ destruct x; exact Hk | lia ]. }
  refine (mk_codec t_logical logical_enc logical_dec logical_fits _ _ _).
  - intros t rest Hf. destruct t; try reflexivity; unfold logical_enc, logical_dec; cbn [logical_tag app].
    + rewrite (claw c_decimal _ _ Hf). reflexivity.
    + rewrite (claw c_time); [ reflexivity | split; exact I ].
    + rewrite (claw c_time); [ reflexivity | split; exact I ].
    + rewrite (claw c_integer _ _ Hf). reflexivity.
  - intros l t rest H. apply (Hs _ _ _ H).
  - intros l t rest H. apply (Hs _ _ _ H).
Defined.
Definition c_schema_element : codec t_schema_element.
Proof.
  refine (c_map (fun x => (se_type x, (se_type_length x, (se_repetition x, (se_name x, (se_num_children x, (se_converted x, (se_scale x,
      (se_precision x, (se_field_id x, se_logical x))))))))))
    (fun '(a, (b, (c, (d, (e, (f, (g, (h, (i, j))))))))) => mk_tse a b c d e f g h i j) _ _
    (c_pair (c_option i32) (c_pair (c_option i32) (c_pair (c_option i32) (c_pair bytes (c_pair (c_option i32) (c_pair (c_option i32)
      (c_pair (c_option i32) (c_pair (c_option i32) (c_pair (c_option i32) (c_option c_logical)))))))))));
    [ intros []; reflexivity | intros (? & ? & ? & ? & ? & ? & ? & ? & ? & ?); reflexivity ].
Defined.
Definition c_column_order : codec t_column_order.
Proof. refine (c_map (fun _ => tt) (fun _ => TTypeOrder) _ _ c_unit); intros []; reflexivity. Defined.
Definition c_file_meta : codec t_file_meta.
Proof.
  refine (c_map (fun x => (fm_version x, (fm_schema x, (fm_num_rows x, (fm_row_groups x, (fm_key_value x, (fm_created_by x, (fm_column_orders x,
      (fm_encryption x, fm_footer_key x)))))))))
    (fun '(a, (b, (c, (d, (e, (f, (g, (h, i)))))))) => mk_tfm a b c d e f g h i) _ _
    (c_pair i32 (c_pair (c_list c_schema_element) (c_pair i64 (c_pair (c_list c_row_group) (c_pair (c_option (c_list c_key_value))
      (c_pair (c_option bytes) (c_pair (c_option (c_list c_column_order)) (c_pair (c_option bytes) (c_option bytes))))))))));
    [ intros []; reflexivity | intros (? & ? & ? & ? & ? & ? & ? & ? & ?); reflexivity ].
Defined.
Definition c_page_location : codec t_page_location.
Proof.
  refine (c_map (fun x => (loc_offset x, (loc_size x, loc_first_row x))) (fun '(a, (b, c)) => mk_loc a b c) _ _ (c_pair i64 (c_pair i32 i64)));
    [ intros []; reflexivity | intros (? & ? & ?); reflexivity ].
Defined.
Definition c_offset_index : codec (list t_page_location) := c_list c_page_location.
Definition c_column_index : codec t_column_index.
Proof.
  refine (c_map (fun x => (ci_null_pages x, (ci_min_values x, (ci_max_values x, (ci_boundary_order x, ci_null_counts x)))))
    (fun '(a, (b, (c, (d, e)))) => mk_tci a b c d e) _ _
    (c_pair (c_list c_bool) (c_pair (c_list bytes) (c_pair (c_list bytes) (c_pair i32 (c_option (c_list i64)))))));
    [ intros []; reflexivity | intros (? & ? & ? & ? & ?); reflexivity ].
Defined.

(** The protocols used in the examples. *)
Definition ex_header := of_codec c_page_header.
Definition ex_column_meta := of_codec c_column_meta.
Definition ex_file_meta := of_codec c_file_meta.
Definition ex_offset_index := of_codec c_offset_index.
Definition ex_column_index := of_codec c_column_index.
