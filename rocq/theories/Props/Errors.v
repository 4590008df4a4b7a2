(** C103: what the kind of an error says. *)
From Verif Require Import Base.Prelude Base.Iter Base.Codec Model.Compression Model.Types Model.Native Model.Thrift Model.Intervals Model.Uleb128 Model.Bitpacked
  Model.HybridRle Model.DeltaBitpacked Model.DeltaByteArray Model.Plain Model.Page Model.Io Model.Schema Model.Message Model.Statistics
  Model.Deserialize Model.PageRead Model.Metadata Model.Indexes
  Spec.ErrorsSpec Proofs.ErrorsProofs Proofs.SchemaProofs Proofs.ThriftCodec.
Open Scope N_scope.

(** C103. Whatever text or list of schema elements is turned into a schema, and whatever type is asked for, an error says "out of specification". *)
Theorem schema_errors : forall m,
  (forall U text, malformed (from_message U text)) /\
  (forall elements, malformed (type_from_thrift elements) /\ malformed (sd_try_from_thrift m elements)) /\
  (forall t, malformed (sd_try_from_type m t)) /\
  (forall name t r c l id, malformed (try_from_primitive name t r c l id)).
Proof.
  intros m. split; [exact m_from_message|]. split; [intros elements; split; [apply m_type_from_thrift | apply m_sd_try_from_thrift]|].
  split; [exact (m_sd_try_from_type m) | exact m_try_from_primitive].
Qed.
Print Assumptions schema_errors.

Example schema_errors_witness :
  try_from_primitive [97] Int32 Required (Some CUtf8) None None = Err OutOfSpec /\
  sd_try_from_thrift Checked [] = Err OutOfSpec.
Proof. split; vm_compute; reflexivity. Qed.

(** C103. So does one from opening a file: its footer, its metadata, its column and offset indexes, given that the thrift decoder's errors are that. *)
Theorem opening_errors : forall m,
  (forall T file, thrift_malformed T -> malformed (read_metadata T m file)) /\
  (forall T bytes max, thrift_malformed T -> malformed (deserialize_metadata T m bytes max)) /\
  (forall t, malformed (file_from_thrift m t)) /\
  (forall T file chunks, thrift_malformed T -> malformed (read_columns_indexes T file chunks)) /\
  (forall T file chunks, thrift_malformed T -> malformed (read_pages_locations T file chunks)) /\
  (forall v p, malformed (deserialize_statistics v p)).
Proof.
  intros m. split; [intros T file HT; exact (m_with_size T m file (nlen file) HT)|].
  split; [intros T bytes max HT; exact (m_deserialize T m bytes max HT)|]. split; [exact (m_file m)|].
  split; [exact m_read_indexes|]. split; [exact m_read_locations | exact m_deserialize_statistics].
Qed.
Print Assumptions opening_errors.

Lemma of_codec_malformed {X} (c : codec X) : thrift_malformed (of_codec c).
Proof.
  intros max s e H. cbn [t_dec of_codec] in H.
  repeat match type of H with (match ?x with _ => _ end) = _ => destruct x; try discriminate end; congruence.
Qed.
Example opening_errors_witness :
  thrift_malformed ex_file_meta /\ read_metadata ex_file_meta Checked ([80; 65; 82; 49] ++ repeat 7 20 ++ [20; 0; 0; 0; 80; 65; 82; 49]) = Err OutOfSpec.
Proof. split; [apply of_codec_malformed | vm_compute; reflexivity]. Qed.

(** C103. And so does one from choosing rows, splitting a page and reading its values. *)
Theorem value_errors : forall m,
  (forall l n, malformed (compute_page_row_intervals l n)) /\
  (forall selected l n, malformed (compute_rows selected l n)) /\
  (forall rows l n, malformed (select_pages m rows l n)) /\
  (forall p, malformed (split_buffer m p)) /\
  (forall B bytes w n, malformed (bp_try_new m B bytes w n)) /\
  (forall bytes w n, malformed (hr_try_new m bytes w n)) /\
  (forall bytes, malformed (delta_try_new m bytes)) /\
  (forall d e d', delta_next m d = Ok (Some (inr e), d') -> e = OutOfSpec) /\
  (forall s e s', bi_next s = Ok (Some (inr e), s') -> e = OutOfSpec) /\
  (forall t bytes, malformed (cast_new t bytes)) /\
  (forall p, malformed (dict_indices_decoder m p)).
Proof.
  intros m. split; [exact m_intervals|]. split; [exact m_compute_rows|]. split; [exact (m_select_pages m)|].
  split; [exact (m_split_buffer m)|]. split; [exact (m_bp_try_new m)|]. split; [exact (m_hr_try_new m)|]. split; [exact (m_delta_try_new m)|].
  split; [exact (delta_next_says m)|]. split; [exact bi_next_says|]. split; [exact m_cast_new | exact (m_dict_indices m)].
Qed.
Print Assumptions value_errors.

Example value_errors_witness :
  compute_page_row_intervals [mk_loc 4 10 8] 7 = Err OutOfSpec /\ bp_try_new Checked 4 [1] 3 9 = Err OutOfSpec /\
  cast_new NI32 [1; 2; 3] = Err OutOfSpec.
Proof. split; [| split]; vm_compute; reflexivity. Qed.

(** C103. A page reader, synchronous or not, says that, or that it would allocate too much; the latter only if a header announces a page longer than the limit.
    The reader that follows an index never says the latter. *)
Theorem page_errors : forall T m, thrift_malformed T ->
  (forall r e r', pr_next T m r = Ok (Some (inr e), r') -> page_complaint T (pr_max r) e) /\
  (forall r e r', stream_next T m r = Ok (Some (inr e), r') -> page_complaint T (pr_max r) e) /\
  (forall r e r', ir_next T m r = Ok (Some (inr e), r') -> e = OutOfSpec).
Proof.
  intros T m HT. split; [intros r; exact (pr_next_says T m HT _ r)|]. split; [intros r; exact (stream_next_says T m HT _ r)|].
  intros r e r'. apply ir_next_says, HT.
Qed.
Print Assumptions page_errors.

(** A page of 300 bytes with a limit of 100: it is too long; without a limit the page is cut off. *)
Definition er_reader (max : N) : page_reader :=
  pr_new (t_enc ex_header (mk_tph 0 300 300 None (Some (mk_tdh 1 0 3 3 None)) None None None) ++ [1; 2; 3]) 1 Snappy
    (mk_descr (mk_prim (mk_fi [97] Required None) None None Int32) 0 0) (fun _ _ => true) [] max.
Example page_errors_witness : thrift_malformed ex_header /\
  rmap fst (pr_next ex_header Checked (er_reader 100)) = Ok (Some (inr WouldOverAllocate)) /\
  rmap fst (pr_next ex_header Checked (er_reader 1000)) = Ok (Some (inr OutOfSpec)).
Proof. split; [apply of_codec_malformed | split; vm_compute; reflexivity]. Qed.

(** C103. Opening a page of numbers, strings or fixed-length strings says "not supported" exactly if its encoding is neither plain nor that of positions in a
    dictionary that is given; opening one of fixed-length strings says "invalid parameter" exactly if the column has another type, and opening one of booleans
    exactly if the encoding is not plain. *)
Theorem page_opening_errors : forall P m p (dict : option P) enc,
  let has_dict := match dict with Some _ => true | None => false end in
  dp_encoding p = Ok enc ->
  (forall t, fails_as (fun e => e = OutOfSpec \/ e = FeatureNotSupported) (native_try_new m t p dict) /\
     (native_try_new m t p dict = Err FeatureNotSupported <-> ~ supported enc has_dict)) /\
  (fails_as (fun e => e = OutOfSpec \/ e = FeatureNotSupported) (binary_try_new m p dict) /\
     (binary_try_new m p dict = Err FeatureNotSupported <-> ~ supported enc has_dict)) /\
  (let fixed := exists n, pt_physical (d_primitive (dp_descriptor p)) = FixedLenByteArray n in
   (fixed -> fails_as (fun e => e = OutOfSpec \/ e = FeatureNotSupported) (fixed_try_new m p dict) /\
       (fixed_try_new m p dict = Err FeatureNotSupported <-> ~ supported enc has_dict)) /\
   (~ fixed -> fixed_try_new m p dict = Err InvalidParameter)) /\
  (fails_as (fun e => e = OutOfSpec \/ e = InvalidParameter) (boolean_try_new m p) /\
     (boolean_try_new m p = Err InvalidParameter <-> enc <> EPlain)).
Proof.
  intros P m p dict enc has_dict He. split; [intros t; exact (native_opens m t p dict enc He)|]. split; [exact (binary_opens m p dict enc He)|].
  split; [split|].
  - intros [n Hn]. exact (fixed_opens m p dict enc n He Hn).
  - intros H. unfold fixed_try_new. destruct (pt_physical _) as [| | | | | | |n] eqn:E; try reflexivity. exfalso. apply H. exists n. reflexivity.
  - unfold boolean_try_new. rewrite He. cbn [bind].
    assert (Hy : forall A (r : res A), malformed r -> fails_as (fun e => e = OutOfSpec \/ e = InvalidParameter) r /\ (r = Err InvalidParameter <-> EPlain <> EPlain)).
    { intros A r H. split; [intros e Hr; left; exact (H _ Hr)|]. split; [intros E; specialize (H _ E); discriminate | intros Hn; contradiction]. }
    destruct enc; try (split; [apply fails_err; right; reflexivity | split; [intros _; discriminate | reflexivity]]).
    destruct (is_optional p); apply Hy; mal.
Qed.
Print Assumptions page_opening_errors.

Definition er_page (enc : Z) (t : physical_type) : data_page :=
  mk_dp (HV1 (mk_tdh 1 enc 3 3 None)) [1; 2; 3; 4] (mk_descr (mk_prim (mk_fi [97] Required None) None None t) 0 0) None.
Example page_opening_errors_witness :
  dp_encoding (er_page 5 Int32) = Ok EDeltaBinaryPacked /\ native_try_new Checked NI32 (er_page 5 Int32) (Some tt) = Err FeatureNotSupported /\
  dp_encoding (er_page 2 ByteArray) = Ok EPlainDictionary /\ binary_try_new Checked (er_page 2 ByteArray) (@None unit) = Err FeatureNotSupported /\
  (exists s, binary_try_new Checked (er_page 0 ByteArray) (@None unit) = Ok s) /\ boolean_try_new Checked (er_page 3 Boolean) = Err InvalidParameter.
Proof. do 4 (split; [vm_compute; reflexivity|]). split; [eexists; vm_compute; reflexivity | vm_compute; reflexivity]. Qed.

(** C103. Decompressing a page says "not supported" only for LZO, and "out of specification" otherwise. It panics exactly if overflow checks are on and the
    lengths of the levels in the header of a version 2 page that is not marked as uncompressed do not add up to a 32-bit number. *)
Theorem decompression_errors : forall C m cap p buffer,
  fails_as (fun e => e = OutOfSpec \/ (e = FeatureNotSupported /\ cp_compression p = Lzo)) (decompress C m cap p buffer) /\
  (decompress C m cap p buffer = Panic <->
   m = Checked /\ cp_compression p <> Uncompressed /\
   exists d h, p = CData d /\ cdp_header d = HV2 h /\ in_s 32 (dh2_rep_length h + dh2_def_length h) = false).
Proof. exact decompress_says. Qed.
Print Assumptions decompression_errors.

(** C103. Compressing a page says "not supported" only for LZO and the old LZ4, whatever else it says comes from the codec. *)
Theorem compression_errors : forall C m p buffer o,
  fails_as (fun e => (e = FeatureNotSupported /\ (o = OLzo \/ o = OLz4)) \/ exists x, enc C o x = Err e) (compress C m p buffer o).
Proof. exact compress_says. Qed.
Print Assumptions compression_errors.

(** C103. A compression level is refused as an invalid parameter exactly if it is out of range. *)
Theorem level_errors : forall z r,
  (brotli_level z = r <-> ((0 <= z <= 11)%Z /\ r = Ok z) \/ (~ (0 <= z <= 11)%Z /\ r = Err InvalidParameter)) /\
  (gzip_level z = r <-> ((0 <= z <= 10)%Z /\ r = Ok z) \/ (~ (0 <= z <= 10)%Z /\ r = Err InvalidParameter)) /\
  (zstd_level z = r <-> ((1 <= z <= 22)%Z /\ r = Ok z) \/ (~ (1 <= z <= 22)%Z /\ r = Err InvalidParameter)).
Proof.
  intros z r. unfold brotli_level, gzip_level, zstd_level.
  assert (H : forall lo hi, valid_level lo hi z = r <-> ((lo <= z <= hi)%Z /\ r = Ok z) \/ (~ (lo <= z <= hi)%Z /\ r = Err InvalidParameter)).
  { intros lo hi. unfold valid_level. destruct (Z.leb_spec lo z), (Z.leb_spec z hi); cbn [andb];
    (split; [intros <-; first [left; split; [lia | reflexivity] | right; split; [lia | reflexivity]] | intros [[? ->]|[? ->]]; first [reflexivity | lia]]). }
  split; [apply H | split; apply H].
Qed.
Print Assumptions level_errors.

Definition er_codecs := mk_codecs (fun _ x => Ok x) (fun _ x => x) (fun x => Some (nlen x)) (fun x _ => (x, true)) (fun x _ => (x, true)).
Definition er_dict (c : compression) := CDict (mk_cdict [1; 2; 3] c 1 4 false).
Definition er_v2 (n : Z) := CData (mk_cdp (HV2 (mk_tdh2 1 0 1 0 n n None None)) [1; 2; 3; 4] Snappy 4 (mk_descr (mk_prim (mk_fi [97] Required None) None None Int32) 0 0) None).
Example compression_errors_witness :
  decompress er_codecs Checked 0 (er_dict Lzo) [] = Err FeatureNotSupported /\
  decompress er_codecs Checked 0 (er_dict Zstd) [] = Err OutOfSpec /\
  decompress er_codecs Checked 0 (er_v2 2147483647) [] = Panic /\ decompress er_codecs Wrapping 0 (er_v2 2147483647) [] = Err OutOfSpec /\
  (exists p, decompress er_codecs Checked 0 (er_v2 1) [] = Ok p) /\
  compress er_codecs Checked (PDict (mk_dict [1] 1 false)) [] OLz4 = Err FeatureNotSupported.
Proof.
  do 4 (split; [vm_compute; reflexivity|]). split; [eexists; vm_compute; reflexivity | vm_compute; reflexivity].
Qed.
