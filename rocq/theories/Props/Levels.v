(** C129: compression levels. *)
From Verif Require Import Base.Prelude Base.Iter Base.Codec Base.LeFacts Model.Types Model.Native Model.Thrift Model.Intervals Model.Page Model.Io Model.Statistics Model.PageWrite
  Model.Compression Model.Levels Model.ColumnWrite Model.Schema Model.PageRead Model.Metadata Model.Indexes Model.FileWrite Spec.RowsSpec Spec.StatsSpec Spec.PagesSpec Spec.ChunkSpec
  Spec.SchemaSpec Spec.CompressionSpec Spec.MetadataSpec Spec.FileSpec Spec.ValuesSpec Spec.CompressionLevelsSpec
  Proofs.TypesFacts Proofs.PageIoProofs Proofs.CompressionProofs Proofs.SchemaProofs Proofs.FileWriteProofs Proofs.IndexProofs Proofs.IndexReadProofs Proofs.ThriftCodec Proofs.EndToEndProofs
  Props.PageIo Props.FileWrite Props.Compression Props.Indexes Props.EndToEnd.
Open Scope N_scope.

(** C129. With options that can be made, the encoder of the codec is given the level that was asked for, or the default if none was, and this level is one that
    the codec may be given. What the encoder returns is appended to the output. *)
Theorem level_reaches_codec L C o input out :
  can_be_made o ->
  match options_compression o with
  | Brotli => exists z, level_fits Brotli z /\ (level_asked o = Some z \/ level_asked o = None /\ z = 1%Z) /\ compress_bytes (at_levels L C) o input out = rmap (app out) (lv_brotli L z input)
  | Gzip => exists z, level_fits Gzip z /\ (level_asked o = Some z \/ level_asked o = None /\ z = 6%Z) /\ compress_bytes (at_levels L C) o input out = rmap (app out) (lv_gzip L z input)
  | Zstd => exists z, level_fits Zstd z /\ (level_asked o = Some z \/ level_asked o = None /\ z = 0%Z) /\ compress_bytes (at_levels L C) o input out = rmap (app out) (lv_zstd L z input)
  | Snappy => compress_bytes (at_levels L C) o input out = rmap (app out) (lv_snappy L input)
  | Lz4Raw => compress_bytes (at_levels L C) o input out = rmap (app out) (lv_lz4 L input)
  | Uncompressed => compress_bytes (at_levels L C) o input out = Err InvalidParameter
  | Lzo | Lz4 => compress_bytes (at_levels L C) o input out = Err FeatureNotSupported
  end.
Proof.
  assert (V : forall lo hi z l, valid_level lo hi z = Ok l -> (lo <= l <= hi)%Z).
  { intros lo hi z l H. unfold valid_level in H. destruct (Z.leb_spec lo z), (Z.leb_spec z hi); cbn [andb] in H; try discriminate H. apply Ok_inj in H. subst l. lia. }
  assert (R : forall r : res (list N), (let* y := r in Ok (out ++ y)) = rmap (app out) r) by (intros [| |]; reflexivity).
  intros Hm. destruct o as [| |[l|]| |[l|]| |[l|]|]; cbn [options_compression can_be_made level_asked] in *; try reflexivity; try (unfold compress_bytes; cbn [enc at_levels enc_at]; apply R).
  - exists l. split; [destruct Hm as [->|[z Hz]]; [cbn; lia|exact (V _ _ _ _ Hz)]|]. split; [left; reflexivity|apply R].
  - exists 6%Z. split; [cbn; lia|]. split; [right; split; reflexivity|apply R].
  - exists l. split; [destruct Hm as [->|[z Hz]]; [cbn; lia|exact (V _ _ _ _ Hz)]|]. split; [left; reflexivity|apply R].
  - exists 1%Z. split; [cbn; lia|]. split; [right; split; reflexivity|apply R].
  - exists l. split; [destruct Hm as [z Hz]; pose proof (V _ _ _ _ Hz); cbn; lia|]. split; [left; reflexivity|apply R].
  - exists 0%Z. split; [cbn; lia|]. split; [right; split; reflexivity|apply R].
Qed.
Print Assumptions level_reaches_codec.

(** The encoders restricted to the levels that may be given, so that the decoders undo them for all options. *)
Definition clipped (L : leveled) : leveled :=
  let clip lo hi (f : Z -> list N -> res (list N)) z x := if ((lo <=? z) && (z <=? hi))%Z then f z x else Err OutOfSpec in
  mk_leveled (clip 0%Z 11%Z (lv_brotli L)) (clip 0%Z 10%Z (lv_gzip L)) (clip 0%Z 22%Z (lv_zstd L)) (lv_snappy L) (lv_lz4 L).
Lemma clipped_inverts L C : inverts_at L C -> inverts (at_levels (clipped L) C).
Proof.
  intros (H1 & H2 & H3 & H4 & H5) o x y E. destruct o as [| |l| |l| |l|]; cbn [enc at_levels enc_at clipped lv_brotli lv_gzip lv_zstd lv_snappy lv_lz4] in E; try exact I;
    try (match type of E with (if ?b then _ else _) = _ => destruct b eqn:B; [apply andb_prop in B as [B1 B2]|discriminate E] end).
  - exact (H4 x y E).
  - cbn [options_compression stream_dec at_levels]. refine (H2 _ x y _ E). cbn. lia.
  - cbn [options_compression stream_dec at_levels]. refine (H1 _ x y _ E). cbn. lia.
  - cbn [options_compression stream_dec at_levels]. refine (H3 _ x y _ E). cbn. lia.
  - exact (H5 x y E).
Qed.
Lemma clipped_enc L o x : can_be_made o -> enc_at (clipped L) o x = enc_at L o x.
Proof.
  assert (V : forall lo hi z l, valid_level lo hi z = Ok l -> (lo <= l <= hi)%Z).
  { intros lo hi z l H. unfold valid_level in H. destruct (Z.leb_spec lo z), (Z.leb_spec z hi); cbn [andb] in H; try discriminate H. apply Ok_inj in H. subst l. lia. }
  intros Hm. destruct o as [| |[l|]| |[l|]| |[l|]|]; cbn [can_be_made] in Hm; try reflexivity; cbn [enc_at clipped lv_brotli lv_gzip lv_zstd gzip_or_default brotli_or_default zstd_or_default].
  - assert (0 <= l <= 10)%Z by (destruct Hm as [->|[z Hz]]; [lia|exact (V _ _ _ _ Hz)]). replace ((0 <=? l)%Z && (l <=? 10)%Z) with true by lia. reflexivity.
  - assert (0 <= l <= 11)%Z by (destruct Hm as [->|[z Hz]]; [lia|exact (V _ _ _ _ Hz)]). replace ((0 <=? l)%Z && (l <=? 11)%Z) with true by lia. reflexivity.
  - assert (0 <= l <= 22)%Z by (destruct Hm as [z Hz]; pose proof (V _ _ _ _ Hz); lia). replace ((0 <=? l)%Z && (l <=? 22)%Z) with true by lia. reflexivity.
Qed.
Lemma clipped_bytes L C o x out : can_be_made o -> compress_bytes (at_levels (clipped L) C) o x out = compress_bytes (at_levels L C) o x out.
Proof. intros Hm. unfold compress_bytes. cbn [enc at_levels]. rewrite (clipped_enc L o x Hm). reflexivity. Qed.
Lemma clipped_compress L C m p o b : can_be_made o -> compress (at_levels (clipped L) C) m p b o = compress (at_levels L C) m p b o.
Proof.
  intros Hm. destruct p as [p|p]; cbn [compress]; f_equal.
  - unfold compress_data. destruct o; try reflexivity; destruct (dp_header p); rewrite ?(clipped_bytes L C _ _ _ Hm); try reflexivity;
      (destruct (levels_length m _); [|reflexivity|reflexivity]); cbn [bind]; (destruct (slice_range 0 _ _); [|reflexivity|reflexivity]); cbn [bind];
      (destruct (slice_range _ _ _); [|reflexivity|reflexivity]); cbn [bind]; rewrite (clipped_bytes L C _ _ _ Hm); reflexivity.
  - unfold compress_dict. destruct o; try reflexivity; rewrite (clipped_bytes L C _ _ _ Hm); reflexivity.
Qed.

(** Decompression does not depend on the encoders. *)
Lemma hadoop_levels L C : forall fuel input n done out, hadoop_loop (at_levels L C) fuel input n done out = hadoop_loop C fuel input n done out.
Proof.
  induction fuel as [|f IH]; intros input n done out; cbn [hadoop_loop]; [reflexivity|]. cbn [lz4_dec at_levels]. destruct (8 <=? n); [|reflexivity].
  destruct (_ <? _); [reflexivity|]. destruct (_ <? _); [reflexivity|]. destruct (block_into _ _) as [o [size|e|]]; try reflexivity.
  destruct (size =? _); [|reflexivity]. destruct (_ <? _); [|reflexivity]. apply IH.
Qed.
Lemma decompress_bytes_levels L C c x out : decompress_bytes (at_levels L C) c x out = decompress_bytes C c x out.
Proof. destruct c; try reflexivity. unfold decompress_bytes, try_decompress_hadoop. rewrite hadoop_levels. reflexivity. Qed.
Lemma decompress_levels L C m cap p b : decompress (at_levels L C) m cap p b = decompress C m cap p b.
Proof.
  assert (H2 : forall x h c b, decompress_v2 (at_levels L C) m x h c b = decompress_v2 C m x h c b) by (intros; unfold decompress_v2; rewrite ?decompress_bytes_levels; destruct (levels_length m h); try reflexivity; rewrite ?decompress_bytes_levels; reflexivity).
  unfold decompress, decompress_buffer. destruct (cp_compression p); try reflexivity; (destruct p as [d|d]; [destruct (cdp_header d)|]; rewrite ?decompress_bytes_levels, ?H2; reflexivity).
Qed.

Lemma page_fills_levels L C m p : page_fills (at_levels L C) m p -> page_fills C m p.
Proof.
  assert (Hf : forall c x n, fills (at_levels L C) c x n -> fills C c x n).
  { intros c x n. destruct c; cbn [fills]; auto. intros (r & H). exists r. intros out Ho. rewrite <- (H out Ho). f_equal. symmetry. apply decompress_bytes_levels. }
  destruct p as [d|d]; cbn [page_fills]; [destruct (cdp_header d)|]; auto.
Qed.

(** C129. A page compressed with options that can be made comes back, and says the codec but not the level. *)
Theorem any_level_roundtrip L C m p o cp :
  inverts_at L C -> can_be_made o -> compress (at_levels L C) m p [] o = Ok cp -> (o <> OUncompressed -> says_compressed p) ->
  (forall cap buffer, decompress C m cap cp buffer = Ok p) /\ cp_compression cp = options_compression o.
Proof.
  intros HC Hm Hc Hs. rewrite <- (clipped_compress L C m p o [] Hm) in Hc.
  destruct (page_compression_roundtrip _ m p o cp (clipped_inverts L C HC) Hc Hs) as (A & B & _). split; [|exact B].
  intros cap buffer. rewrite <- (A cap buffer). symmetry. apply decompress_levels.
Qed.
Print Assumptions any_level_roundtrip.

(** C129. The pages of one column chunk may be compressed with different levels: the file can be written (all pages say the same codec) and all pages
    come back. *)
Theorem mixed_levels_roundtrip F L C m schema stats gs kv file md i g j leaf ps cps scratch max :
  written_and_opened F m schema stats gs kv file md -> good_schema schema -> complete_groups schema gs -> inverts_at L C ->
  nth_error gs i = Some g -> nth_error (sd_leaves schema) j = Some leaf -> nth_error g j = Some (inl (map inl cps)) ->
  Forall2 (compressed_somehow L C m) ps cps -> Forall (takes (f_header F) max) cps -> (values_of cps < 2 ^ 63)%Z ->
  exists rg c r n,
    nth_error (fmd_row_groups md) i = Some rg /\ nth_error (rgm_columns rg) j = Some c /\ cmd_descr c = leaf /\
    get_page_iterator c file None scratch max = Ok r /\
    (forall caps buffer, length caps = S (length (firstn n ps)) ->
       dec_run C m (pr_iter (f_header F) m) caps (dec_new r buffer) =
         Ok (map (fun p => inl (Some (page_as_read (cd_descriptor leaf) p))) (firstn n ps) ++ [inl None])) /\
    values_of (skipn n cps) = 0%Z /\
    (forall init last, cps = init ++ [last] -> (0 < values last)%Z -> firstn n ps = ps).
Proof.
  intros H Hg Hc HC Eg Ej Egj Hps Htakes Hv.
  destruct (opened_exists _ _ _ _ _ _ _ _ _ _ _ _ H Hg Hc Eg Ej) as (rg & c & Erg & Ec & Ed).
  destruct (opened_column _ _ _ _ _ _ _ _ _ _ _ _ _ _ H Hg Hc Eg Erg Egj Ec) as (_ & Hlen & Hch).
  destruct (chunk_read F m file c cps scratch max Hlen Hch Htakes Hv) as (codec & r & r' & Hcodec & Hr & Hruns).
  destruct (needed_split _ _ _ Htakes) as (n & En & Ez). rewrite En in Hruns. rewrite Ed in Hruns.
  pose proof (Forall2_length _ _ _ Hps) as Hl.
  exists rg, c, r, n. refine (conj Erg (conj Ec (conj Ed (conj Hr (conj _ (conj Ez _)))))).
  - intros caps buffer Hcaps.
    assert (Hn : Forall2 (compressed_somehow L C m) (firstn n ps) (firstn n cps)).
    { clear - Hps. revert n. induction Hps; intros [|n]; cbn [firstn]; constructor; auto. }
    assert (Hnc : Forall (fun p => cp_compression p = codec) (firstn n cps)) by (apply Forall_firstn; exact Hcodec).
    set (qs := firstn n ps) in *. set (cqs := firstn n cps) in *. clearbody qs cqs.
    rewrite (decompressor_matches_fresh C m (pr_iter (f_header F) m) _ r _ buffer caps (reader_serves (f_header F) m) (ex_intro _ r' Hruns)).
    + rewrite Hcaps, <- (map_length (page_as_read (cd_descriptor leaf)) qs). rewrite <- map_map with (f := page_as_read (cd_descriptor leaf)) (g := fun p => inl (Some p)).
      assert (Hd : Forall2 (fun cp p => decompress C m 0 cp [] = Ok p) (map (read_page_of codec (cd_descriptor leaf) None false) cqs) (map (page_as_read (cd_descriptor leaf)) qs)).
      { clear - HC Hn Hnc. induction Hn as [|p cp qs cqs (o & Ho & Hp & Hs) Hn IH]; [ constructor | ]. cbn [map]. constructor.
        - destruct (any_level_roundtrip L C m p o cp HC Ho Hp Hs) as (Hd & _). rewrite <- (Forall_inv Hnc). apply decompress_as_read. apply Hd.
        - apply IH. exact (Forall_inv_tail Hnc). }
      rewrite <- (Forall2_length _ _ _ Hd). apply decompress_each_ok. exact Hd.
    + intros cp Hin. apply in_map_iff in Hin as (x & Ex & Hin). injection Ex as ->. apply in_map_iff in Hin as (y & <- & Hin).
      rewrite Forall_forall in Hnc. rewrite <- (Hnc _ Hin). apply page_fills_as_read.
      clear - Hn Hin HC. induction Hn as [|p cp qs cqs (o & Ho & Hp & Hs) Hn IH]; [ destruct Hin | ]. destruct Hin as [<- |Hin]; [ | apply IH; exact Hin ].
      rewrite <- (clipped_compress L C m p o [] Ho) in Hp. exact (page_fills_levels _ C m cp (compressed_pages_fill _ m p o cp (clipped_inverts L C HC) Hp)).
  - intros init last -> Hlast. apply firstn_all2. rewrite Hl, app_length. cbn [length].
    destruct (Nat.le_gt_cases n (length init)) as [Hle|Hgt]; [ exfalso | lia ].
    rewrite skipn_app in Ez. replace (n - length init)%nat with 0%nat in Ez by lia. cbn [skipn] in Ez. rewrite values_of_app in Ez.
    apply Forall_app in Htakes as [Ht _]. assert (Hs : Forall (takes (f_header F) max) (skipn n init)) by (apply Forall_skipn; exact Ht).
    pose proof (values_of_nonneg _ _ _ Hs). rewrite values_of_cons in Ez. cbn [values_of fold_right] in Ez. lia.
Qed.
Print Assumptions mixed_levels_roundtrip.

(** Encoders that append their level, and do something else at levels they may not be given. *)
Definition lx_encode (lo hi z : Z) (x : list N) : res (list N) := Ok (if ((lo <=? z) && (z <=? hi))%Z then x ++ [Z.to_N z] else [77; 77; 77]).
Definition lx_leveled : leveled := mk_leveled (lx_encode 0 11) (lx_encode 0 10) (lx_encode 0 22) (fun x => Ok (x ++ [0])) (fun x => Ok (x ++ [0])).
Lemma lx_inverts : inverts_at lx_leveled toy.
Proof.
  assert (A : forall lo hi z x y, (lo <= z <= hi)%Z -> lx_encode lo hi z x = Ok y -> removelast y = x).
  { intros lo hi z x y Hz E. unfold lx_encode in E. replace ((lo <=? z)%Z && (z <=? hi)%Z) with true in E by lia. apply Ok_inj in E. subst y. apply removelast_last. }
  split; [|split; [|split; [|split]]].
  - intros z x y Hz E. exact (A _ _ z x y Hz E).
  - intros z x y Hz E. exact (A _ _ z x y Hz E).
  - intros z x y Hz E. exact (A _ _ z x y Hz E).
  - intros x y E. apply Ok_inj in E. subst y. cbn [toy snappy_len snappy_dec]. rewrite removelast_last. split; [reflexivity|]. intros cap Hc. replace (nlen x <=? cap) with true by lia. reflexivity.
  - intros x y E cap Hc. apply Ok_inj in E. subst y. cbn [toy lz4_dec]. rewrite removelast_last. replace (nlen x <=? cap) with true by lia. reflexivity.
Qed.
Example level_reaches_codec_case :
  can_be_made (OZstd (Some 22%Z)) /\ compress_bytes (at_levels lx_leveled toy) (OZstd (Some 22%Z)) [1; 2] [9] = Ok [9; 1; 2; 22] /\
  compress_bytes (at_levels lx_leveled toy) (OGzip None) [1; 2] [9] = Ok [9; 1; 2; 6].
Proof. split; [exists 22%Z; reflexivity|]. split; vm_compute; reflexivity. Qed.
Example any_level_roundtrip_case :
  inverts_at lx_leveled toy /\ can_be_made (OZstd (Some 22%Z)) /\ says_compressed (toy_page None) /\
  exists cp, compress (at_levels lx_leveled toy) Checked (toy_page None) [] (OZstd (Some 22%Z)) = Ok cp /\ cp_buffer cp = [11; 12; 13; 14; 1; 2; 3; 22].
Proof. split; [exact lx_inverts|]. split; [exists 22%Z; reflexivity|]. split; [cbn; discriminate|]. eexists. split; vm_compute; reflexivity. Qed.

(** A file with a dictionary page and two data pages, each at another level of zstd. *)
Definition lx_options : list compression_options := [OZstd None; OZstd (Some 1%Z); OZstd (Some 22%Z)].
Definition lx_compressed : list compressed_page :=
  [CDict (mk_cdict [1; 0; 0; 0; 7; 0; 0; 0; 0] Zstd 2 8 true);
   CData (mk_cdp (HV1 (mk_tdh 3 8 3 3 None)) [2; 0; 0; 0; 3; 5; 1; 3; 2; 1] Zstd 9 io_desc (Some [mk_iv 0 3]));
   CData (mk_cdp (HV2 (mk_tdh2 2 1 2 0 2 0 (Some true) None)) [4; 1; 9; 9; 9; 9; 22] Zstd 6 io_desc (Some [mk_iv 0 2]))].
Definition lx_group : row_group_iter := [inl (map inl lx_compressed); inl (map inl [wx_b_page 5])].
Definition lx_written := fst (fw_write wx_formats Checked ee_new lx_group).
Definition lx_ended : file_writer * res N := fw_end wx_formats Checked lx_written None.
Definition lx_file : list N := sk_data (fw_sink (fst lx_ended)).
Definition lx_meta : t_file_meta := match fw_metadata (fst lx_ended) with Some t => t | None => mk_tfm 0 [] 0 [] None None None None None end.
Definition lx_md : file_md := match read_metadata ex_file_meta Checked lx_file with Ok md => md | _ => mk_fmd 0 0 None [] None wx_schema None end.
Example mixed_levels_roundtrip_case :
  written_and_opened wx_formats Checked wx_schema false [lx_group] None lx_file lx_md /\ good_schema wx_schema /\ complete_groups wx_schema [lx_group] /\
  inverts_at lx_leveled toy /\ Forall2 (compressed_somehow lx_leveled toy Checked) ee_pages lx_compressed /\
  Forall (takes ex_header 100) lx_compressed /\ values_of lx_compressed = 5%Z.
Proof.
  split.
  { exists (mk_sink [] None), 2%Z, None, lx_written, (fst lx_ended), (nlen lx_file), lx_meta.
    split; [ reflexivity | ]. split.
    { apply history_ok with (w1 := lx_written); [ | apply history_nil ]. vm_compute. reflexivity. }
    split; [ vm_compute; reflexivity | ]. split; [ reflexivity | ]. split; [ vm_compute; reflexivity | ].
    split; [ vm_compute; reflexivity | ]. split; [ vm_compute; reflexivity | ]. split; [ | vm_compute; reflexivity ].
    apply (of_codec_reads_back c_file_meta). refine (of_codec_sound c_file_meta 0 (t_enc ex_file_meta lx_meta) lx_meta [] _). vm_compute. reflexivity. }
  split; [ exact wx_good | ]. split; [ split; [ repeat constructor | vm_compute; reflexivity ] | ]. split; [ exact lx_inverts | ]. split.
  { unfold ee_pages, lx_compressed. constructor; [ | constructor; [ | constructor; [ | constructor ] ] ].
    - exists (OZstd None). split; [ exact I | ]. split; [ vm_compute; reflexivity | intros _; exact I ].
    - exists (OZstd (Some 1%Z)). split; [ exists 1%Z; reflexivity | ]. split; [ vm_compute; reflexivity | intros _; exact I ].
    - exists (OZstd (Some 22%Z)). split; [ exists 22%Z; reflexivity | ]. split; [ vm_compute; reflexivity | intros _; discriminate ]. }
  split; [ | reflexivity ]. unfold lx_compressed. repeat (apply Forall_cons; [ takes_ok | ]). apply Forall_nil.
Qed.
