(** Lemmas about the ways to the pages of a column. *)
From Verif Require Import Base.Prelude Base.Iter Base.Codec Base.LeFacts Model.Types Model.Native Model.Thrift Model.Intervals Model.Page Model.Io Model.Statistics Model.PageWrite
  Model.Compression Model.ColumnWrite Model.Schema Model.PageRead Model.Metadata Model.Indexes Model.FileWrite Model.Routes Spec.RowsSpec Spec.StatsSpec Spec.PagesSpec Spec.ChunkSpec
  Spec.SchemaSpec Spec.CompressionSpec Spec.MetadataSpec Spec.FileSpec Spec.ValuesSpec Spec.RoutesSpec
  Proofs.TypesFacts Proofs.PageIoProofs Proofs.CompressionProofs Proofs.SchemaProofs Proofs.MetadataProofs Proofs.FileWriteProofs Proofs.IndexProofs Proofs.IndexReadProofs Proofs.EndToEndProofs
  Props.PageIo Props.Compression Props.Indexes.
Open Scope N_scope.

Lemma async_end F m w kv : snd (fs_end F m w kv) = snd (fw_end F m w kv) /\ fw_sink (fst (fs_end F m w kv)) = fw_sink (fst (fw_end F m w kv)).
Proof.
  unfold fs_end, fw_end. destruct (fw_maybe_start w) as [w1 [u|e|]]; try (split; reflexivity).
  destruct (fw_state w1); try (split; reflexivity). destruct (total_rows m 0 (fw_groups w1)); try (split; reflexivity).
  destruct (fw_indexes F m w1) as [w2 [u2|e|]]; try (split; reflexivity). cbv zeta.
  destruct (end_file (f_file F) m (fw_thrift w2 a kv) (fw_sink w2)) as [s [n|e|]]; split; reflexivity.
Qed.
Lemma streamed_written F m schema stats gs kv file md : streamed_and_opened F m schema stats gs kv file md -> written_and_opened F m schema stats gs kv file md.
Proof.
  intros (s & version & created_by & w & w' & size & meta & H1 & H2 & H3 & H4 & H5 & H6 & H7). pose proof (async_end F m w kv) as [E1 E2]. rewrite H3 in E1, E2. cbn [fst snd] in E1, E2.
  exists s, version, created_by, w, (fst (fw_end F m w kv)), size, meta. split; [exact H1|]. split; [exact H2|]. split; [destruct (fw_end F m w kv); cbn [fst snd] in *; subst; reflexivity|].
  split; [rewrite <- E2; exact H4|]. split; [exact H5|]. split; [exact H6|exact H7].
Qed.

(** What the metadata says of a chunk, and its bytes. *)
Lemma chunk_found F file c pages : nlen file < 2 ^ 63 -> chunk_at F file (cmd_descr c, inl (map inl pages)) (cmd_chunk c) ->
  exists codec start, Forall (fun p => cp_compression p = codec) pages /\
    page_meta_of c = Ok (mk_pm start (values_of pages) codec (cd_descriptor (cmd_descr c))) /\
    (exists post, skipn (N.to_nat start) file = chunk_bytes (f_header F) pages ++ post) /\ read_column file c = Ok (chunk_bytes (f_header F) pages).
Proof.
  intros Hlen (pages' & meta & Ep & Em & Hh & Hl & start & Hdesc).
  cbn [snd fst] in Ep, Hdesc. injection Ep as Ep. apply (f_equal (flat_map (fun x => match x with inl p => [p] | inr _ => [] end))) in Ep.
  assert (Epp : forall l : list compressed_page, flat_map (fun x : compressed_page + error => match x with inl p => [p] | inr _ => [] end) (map inl l) = l)
    by (clear; induction l as [|a l IH]; [ reflexivity | cbn [map flat_map app]; rewrite IH; reflexivity ]).
  rewrite !Epp in Ep. clear Epp. subst pages'.
  pose proof Hdesc as (Hcs & _ & Hnv & Hoff & Hdo & (codec & Hcodec & Ecodec & _) & _).
  pose proof (holds_bound _ _ _ Hh) as Hb. change (2 ^ 63) with 9223372036854775808 in Hlen.
  assert (Hsm : (0 <= cm_data_page_offset meta < 9223372036854775808)%Z).
  { unfold chunk_start in Hb. rewrite Hdo, Hoff in Hb. rewrite Hoff. destruct pages; [ lia | ]. rewrite N2Z.id in Hb. lia. }
  assert (Hbr : byte_range c = Ok (chunk_start meta, nlen (chunk_bytes (f_header F) pages))).
  { unfold byte_range, cmd_meta. rewrite Em. cbn [bind]. rewrite Hdo. unfold chunk_start. rewrite Hdo. unfold as_usize, of_signed.
    change (2 ^ Z.of_N 64)%Z with 18446744073709551616%Z. rewrite !Z.mod_small by lia. f_equal. f_equal. rewrite Hcs. lia. }
  destruct (holds_skip _ _ _ Hh) as [post Hpost].
  exists codec, (chunk_start meta). split; [exact Hcodec|]. split.
  - unfold page_meta_of. rewrite Hbr. cbn [bind]. unfold cmd_compression, cmd_meta. rewrite Em. cbn [bind]. rewrite Ecodec, codec_round, Hnv. reflexivity.
  - split; [exists post; exact Hpost|]. unfold read_column. rewrite Hbr. cbn [bind]. f_equal. unfold read_at. rewrite Hpost. unfold nlen. rewrite Nat2N.id, firstn_app, Nat.sub_diag, firstn_all. apply app_nil_r.
Qed.

(** A reader at the start of a chunk, with whatever follows. *)
Lemma chunk_runs T m pages post codec d scratch max : Forall (takes T max) pages -> (values_of pages < 2 ^ 63)%Z -> (forall init last, pages = init ++ [last] -> (0 < values last)%Z) ->
  exists r', runs (pr_next T m) (pr_new (chunk_bytes T pages ++ post) (values_of pages) codec d (fun _ _ => true) scratch max) (map inl (map (read_page_of codec d None false) pages)) r'.
Proof.
  intros Htakes Hv Hlast. destruct (reader_returns_needed_pages T m pages post (values_of pages) codec d (fun _ _ => true) scratch max Htakes (Z.le_refl _) Hv) as (r' & Hr & _).
  assert (Ef : forall l, filter (wanted ((fun _ _ => true) d)) l = l) by (clear; induction l as [|[x|x] l IH]; cbn [filter wanted]; [ reflexivity | | ]; rewrite IH; reflexivity).
  rewrite Ef in Hr. destruct (needed_split _ _ _ Htakes) as (n & En & Ez). rewrite En in Hr. exists r'. replace pages with (firstn n pages) at 3; [exact Hr|].
  clear Hr En Ef. destruct pages as [|p0 ps0]; [destruct n; reflexivity|]. destruct (exists_last (l := p0 :: ps0) ltac:(discriminate)) as (init & last & E). rewrite E in *. clear E p0 ps0.
  specialize (Hlast init last eq_refl). apply firstn_all2. rewrite app_length. cbn [length].
  destruct (Nat.le_gt_cases n (length init)) as [Hle|Hgt]; [ exfalso | lia ].
  rewrite skipn_app in Ez. replace (n - length init)%nat with 0%nat in Ez by lia. cbn [skipn] in Ez. rewrite values_of_app in Ez.
  apply Forall_app in Htakes as [Ht _]. assert (Hs : Forall (takes T max) (skipn n init)) by (apply Forall_skipn; exact Ht).
  pose proof (values_of_nonneg _ _ _ Hs). rewrite values_of_cons in Ez. cbn [values_of fold_right] in Ez. lia.
Qed.
Lemma runs_poll T m : forall cps r r', runs (stream_next T m) r (map inl cps) r' -> yields (stream_poll T m) (fun _ _ => True) (Some r) (map inl cps).
Proof.
  induction cps as [|cp cps IH]; intros r r' H; cbn [map] in *; inversion H as [? ? E|? ? ? ? ? E Hr]; subst.
  - eapply yields_nil; [exact I|]. cbn [stream_poll]. rewrite E. reflexivity.
  - eapply yields_cons; [exact I| |]; [cbn [stream_poll]; rewrite E; reflexivity|]. eapply IH, Hr.
Qed.

(** Both kinds of readers give the pages that were compressed. *)
Lemma runs_give T C m o codec d ps cps r r' : inverts C -> Forall2 (fun p cp => compress C m p [] o = Ok cp) ps cps -> (o <> OUncompressed -> Forall says_compressed ps) ->
  Forall (fun p => cp_compression p = codec) cps -> runs (pr_next T m) r (map inl (map (read_page_of codec d None false) cps)) r' ->
  reader_gives T C m r (map (page_as_read d) ps) /\ stream_gives T C m (Some r) (map (page_as_read d) ps).
Proof.
  intros HC Hps Hs Hc Hr.
  assert (Hd : Forall2 (fun cp p => forall cap buffer, decompress C m cap cp buffer = Ok p) (map (read_page_of codec d None false) cps) (map (page_as_read d) ps)).
  { clear - HC Hps Hs Hc. induction Hps as [|p cp qs cqs Hp Hn IH]; [ constructor | ]. cbn [map]. constructor.
    - destruct (page_compression_roundtrip C m p o cp HC Hp (fun Ho => Forall_inv (Hs Ho))) as (Hd & _). intros cap buffer. rewrite <- (Forall_inv Hc). apply decompress_as_read. apply Hd.
    - apply IH; [exact (fun Ho => Forall_inv_tail (Hs Ho)) | exact (Forall_inv_tail Hc)]. }
  split.
  - intros caps buffer Hcaps.
    rewrite (decompressor_matches_fresh C m (pr_iter T m) _ r _ buffer caps (reader_serves T m) (ex_intro _ r' Hr)).
    + rewrite Hcaps, <- (Forall2_length _ _ _ Hd). apply decompress_each_ok. clear - Hd. induction Hd as [|cp p l1 l2 H _ IH]; constructor; [apply H|exact IH].
    + intros cp Hin. apply in_map_iff in Hin as (x & Ex & Hin). injection Ex as ->. apply in_map_iff in Hin as (y & <- & Hin).
      rewrite Forall_forall in Hc. rewrite <- (Hc _ Hin). apply page_fills_as_read.
      clear - Hps Hin HC. induction Hps as [|p cp qs cqs Hp Hn IH]; [ destruct Hin | ]. destruct Hin as [<- |Hin]; [ | apply IH; exact Hin ].
      apply compressed_pages_fill with p o; assumption.
  - exists (map (read_page_of codec d None false) cps). split; [|exact Hd]. eapply runs_poll. apply stream_matches_reader_pages. exact Hr.
Qed.

(** ** Bytes after what is read *)
Lemma build_page_more T m r more source seen p : ignores_rest T -> build_page T m r = (source, seen, Ok p) ->
  build_page T m (over r (pr_source r ++ more)) = (source ++ more, seen, Ok p).
Proof.
  intros HT. unfold build_page, over. cbn [pr_at pr_source pr_seen pr_max pr_compression pr_descriptor].
  destruct (t_dec T (pr_max r) (pr_source r)) as [[h s]|e|] eqn:E; [|discriminate..]. rewrite (HT _ _ _ _ more E).
  destruct (get_page_header h) as [dh|e|]; [|discriminate..]. destruct (sadd m 64 (pr_seen r) (counted dh)) as [sn|e|]; [|discriminate..].
  destruct (try_usize (ph_compressed_size h)) as [n|e|]; [|discriminate..]. destruct (pr_max r <? n); [discriminate|].
  destruct (N.eqb_spec (nlen (firstn (N.to_nat n) s)) n) as [En|En]; [|discriminate].
  assert (Hn : (N.to_nat n <= length s)%nat) by (unfold nlen in En; rewrite firstn_length in En; lia).
  rewrite firstn_app, skipn_app. replace (N.to_nat n - length s)%nat with 0%nat by lia. cbn [firstn skipn]. rewrite app_nil_r, En, N.eqb_refl. intros H. injection H as <- <- <-. reflexivity.
Qed.
Lemma next_more T m more : ignores_rest T -> forall fuel r x r', pr_next_fuel T m fuel r = Ok (x, r') -> (forall e, x <> Some (inr e)) ->
  forall fuel', (fuel <= fuel')%nat -> pr_next_fuel T m fuel' (over r (pr_source r ++ more)) = Ok (x, over r' (pr_source r' ++ more)).
Proof.
  intros HT. induction fuel as [|f IH]; intros r x r' H Hx fuel' Hf; [discriminate H|]. destruct fuel' as [|f']; [lia|]. cbn [pr_next_fuel] in *.
  change (pr_total (over r (pr_source r ++ more))) with (pr_total r). change (pr_seen (over r (pr_source r ++ more))) with (pr_seen r).
  destruct (pr_total r <=? pr_seen r)%Z.
  - apply Ok_inj in H. injection H as <- <-. reflexivity.
  - destruct (build_page T m r) as [[source seen] [p|e|]] eqn:E; [| |discriminate H].
    2:{ apply Ok_inj in H. injection H as <- <-. exfalso. apply (Hx e). reflexivity. }
    rewrite (build_page_more T m r more _ _ _ HT E).
    change (pr_filter (over r (pr_source r ++ more))) with (pr_filter r). change (pr_descriptor (over r (pr_source r ++ more))) with (pr_descriptor r).
    destruct p as [p|p]; [destruct (pr_filter r (pr_descriptor r) (cdp_header p))|].
    + apply Ok_inj in H. injection H as <- <-. reflexivity.
    + exact (IH _ _ _ H Hx f' ltac:(lia)).
    + apply Ok_inj in H. injection H as <- <-. reflexivity.
Qed.
Lemma runs_more T m more : ignores_rest T -> forall items r r', runs (pr_next T m) r (map inl items) r' -> runs (pr_next T m) (over r (pr_source r ++ more)) (map inl items) (over r' (pr_source r' ++ more)).
Proof.
  intros HT. induction items as [|p items IH]; intros r r' H; cbn [map] in *; inversion H as [? ? E|? ? ? ? ? E Hr]; subst.
  - apply runs_nil. unfold pr_next in *. eapply next_more; [exact HT|exact E|discriminate|]. unfold over. cbn [pr_at pr_source]. rewrite app_length. lia.
  - eapply runs_cons; [|apply IH; exact Hr]. unfold pr_next in *. eapply next_more; [exact HT|exact E|discriminate|]. unfold over. cbn [pr_at pr_source]. rewrite app_length. lia.
Qed.
