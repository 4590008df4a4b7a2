(** Lemmas about writing pages to a file and reading them back. *)
From Verif Require Import Base.Prelude Base.LeFacts Model.Types Model.Native Model.Thrift Model.Intervals Model.Page Model.Io Model.Statistics Model.PageWrite Model.Compression
  Model.ColumnWrite Model.Schema Model.PageRead Model.Metadata Model.Indexes Model.FileWrite Spec.RowsSpec Spec.StatsSpec Spec.PagesSpec Spec.ChunkSpec Spec.SchemaSpec
  Spec.CompressionSpec Spec.MetadataSpec Spec.FileSpec
  Proofs.TypesFacts Proofs.IntervalsProofs Proofs.PageIoProofs Proofs.PageReadProofs Proofs.ColumnWriteProofs Proofs.CompressionProofs Proofs.SchemaProofs Proofs.MetadataProofs
  Proofs.FileWriteProofs Proofs.IndexProofs Proofs.IndexReadProofs Props.PageIo Props.Compression.
Open Scope N_scope.

(** ** The page reader as a page iterator *)

Lemma pr_next_scratch T m : forall f r b,
  (forall x r', pr_next_fuel T m f r = Ok (Some x, r') -> pr_next_fuel T m f (pr_at r (pr_source r) (pr_seen r) b) = Ok (Some x, r')) /\
  (forall r', pr_next_fuel T m f r = Ok (None, r') ->
     (pr_total r' <= pr_seen r')%Z /\ exists r'', pr_next_fuel T m f (pr_at r (pr_source r) (pr_seen r) b) = Ok (None, r'')).
Proof.
  induction f as [|f IH]; intros r b; [ split; discriminate | ]. cbn [pr_next_fuel].
  assert (Eb : build_page T m (pr_at r (pr_source r) (pr_seen r) b) = build_page T m r) by reflexivity. rewrite Eb. clear Eb.
  change (pr_total (pr_at r (pr_source r) (pr_seen r) b)) with (pr_total r). change (pr_seen (pr_at r (pr_source r) (pr_seen r) b)) with (pr_seen r).
  change (pr_filter (pr_at r (pr_source r) (pr_seen r) b)) with (pr_filter r). change (pr_descriptor (pr_at r (pr_source r) (pr_seen r) b)) with (pr_descriptor r).
  destruct (Z.leb_spec (pr_total r) (pr_seen r)) as [Hle|Hlt].
  - split; [ discriminate | ]. intros r' E. apply Ok_inj in E. injection E as <-. split; [ exact Hle | eexists; reflexivity ].
  - destruct (build_page T m r) as [[source seen] x].
    assert (Hs : forall r', pr_next_fuel T m f (pr_at r source seen []) = Ok (None, r') -> (pr_total r' <= pr_seen r')%Z)
      by (intros r' E; apply (proj2 (IH (pr_at r source seen []) []) _ E)).
    split.
    + intros y r' E. exact E.
    + intros r' E. destruct x as [[p|p]|e|]; try discriminate E. destruct (pr_filter r (pr_descriptor r) (cdp_header p)); try discriminate E.
      split; [ apply Hs; exact E | exists r'; exact E ].
Qed.
Lemma reader_serves T m : serves (pr_iter T m) (fun r l => exists r', runs (pr_next T m) r l r').
Proof.
  split; [ | split ].
  - intros r l b [r' H]. cbn [pi_swap pr_iter pr_swap fst]. destruct H as [s s' H|s s1 a l s' H H1].
    + destruct (proj2 (pr_next_scratch T m _ s b) _ H) as [_ [r'' E]]. exists r''. constructor. exact E.
    + apply (proj1 (pr_next_scratch T m _ s b)) in H. exists s'. econstructor; [ exact H | exact H1 ].
  - intros r [r' H]. inversion H as [? ? H1|]; subst. exists r'. split; [ exact H1 | ]. exists r'. constructor.
    destruct (proj2 (pr_next_scratch T m _ r []) _ H1) as [Hle _]. unfold pr_next. cbn [pr_next_fuel]. replace (pr_total r' <=? pr_seen r')%Z with true by lia. reflexivity.
  - intros r x l [r' H]. inversion H as [|? s1 ? ? ? H1 H2]; subst. exists s1. split; [ exact H1 | ]. exists r'. exact H2.
Qed.

(** ** Decompression of pages that were read *)

Lemma decompress_as_read C m cap d cp b p : decompress C m cap cp b = Ok p ->
  decompress C m cap (read_page_of (cp_compression cp) d None false cp) b = Ok (page_as_read d p).
Proof.
  unfold decompress, decompress_buffer. intros H.
  assert (E : cp_compression (read_page_of (cp_compression cp) d None false cp) = cp_compression cp) by (destruct cp; reflexivity).
  rewrite E.
  assert (Eu : cp_uncompressed_size (read_page_of (cp_compression cp) d None false cp) = cp_uncompressed_size cp) by (destruct cp; reflexivity).
  rewrite Eu.
  assert (Hc : forall o, create_page (read_page_of (cp_compression cp) d None false cp) o = page_as_read d (create_page cp o)) by (intros o; destruct cp; reflexivity).
  destruct cp as [x|x]; cbn [read_page_of cp_compression cdp_header cdp_buffer cdi_buffer] in *.
  - set (c := cdp_compression x) in *. destruct c; cbn [fst snd] in *; try (apply Ok_inj in H; subst p; reflexivity);
      (destruct (match cdp_header x with HV1 _ => _ | HV2 _ => _ end) as [o [[]|e|]]; cbn [rmap] in *; try discriminate H; apply Ok_inj in H; subst p; rewrite Hc; reflexivity).
  - set (c := cdi_compression x) in *. destruct c; cbn [fst snd] in *; try (apply Ok_inj in H; subst p; reflexivity);
      (destruct (decompress_bytes _ _ _ _) as [o [[]|e|]]; cbn [rmap] in *; try discriminate H; apply Ok_inj in H; subst p; rewrite Hc; reflexivity).
Qed.
Lemma page_fills_as_read C m d cp : page_fills C m cp -> page_fills C m (read_page_of (cp_compression cp) d None false cp).
Proof. destruct cp as [x|x]; cbn [read_page_of page_fills cp_compression cdp_header cdp_compression cdp_buffer cdp_uncompressed_size cdi_compression cdi_buffer cdi_uncompressed_size]; auto. Qed.
Lemma decompress_each_ok C m : forall cps ps, Forall2 (fun cp p => decompress C m 0 cp [] = Ok p) cps ps ->
  decompress_each C m (map inl cps) (S (length cps)) = Ok (map (fun p => inl (Some p)) ps ++ [inl None]).
Proof.
  induction 1 as [|cp p cps ps H _ IH]; [ reflexivity | ]. cbn [map length]. cbn [decompress_each]. rewrite H.
  change (match map inl cps with [] => _ | _ => _ end) with (decompress_each C m (map inl cps) (S (length cps))). rewrite IH. reflexivity.
Qed.

(** ** Reading the pages of a chunk *)

Lemma Forall_firstn {A} (P : A -> Prop) n l : Forall P l -> Forall P (firstn n l).
Proof. intros H. revert n. induction H; intros [|n]; cbn [firstn]; constructor; auto. Qed.
Lemma Forall_skipn {A} (P : A -> Prop) n l : Forall P l -> Forall P (skipn n l).
Proof. intros H. revert n. induction H; intros [|n]; cbn [skipn]; try constructor; auto. Qed.

Lemma needed_split T max : forall l, Forall (takes T max) l ->
  exists n, needed (values_of l) l = firstn n l /\ values_of (skipn n l) = 0%Z.
Proof.
  intros l Hl. induction Hl as [|p l Hp Hl IH]; [ exists 0%nat; split; reflexivity | ].
  cbn [needed]. rewrite values_of_cons. destruct Hp as (_ & _ & _ & _ & Hp). pose proof (values_of_nonneg _ _ _ Hl).
  destruct (Z.leb_spec (values p + values_of l) 0).
  - exists 0%nat. split; [ reflexivity | ]. cbn [skipn]. rewrite values_of_cons. lia.
  - destruct IH as (n & E1 & E2). exists (S n). replace (values p + values_of l - values p)%Z with (values_of l) by lia. cbn [firstn skipn]. rewrite E1. auto.
Qed.
Lemma values_of_app a b : values_of (a ++ b) = (values_of a + values_of b)%Z.
Proof. induction a as [|x a IH]; cbn [app]; [ reflexivity | ]. rewrite !values_of_cons, IH. lia. Qed.

Lemma compressor_pages C m o : forall ps cps b, comp_run C m (S (length ps)) (comp_new (map inl ps) o b) = Ok (map (fun cp => inl (Some cp)) cps ++ [inl None]) ->
  Forall2 (fun p cp => compress C m p [] o = Ok cp) ps cps.
Proof.
  intros ps cps b H. rewrite compressor_matches_fresh in H. revert cps H. induction ps as [|p ps IH]; intros cps H.
  - destruct cps as [|cp cps]; [ constructor | ]. cbn in H. apply Ok_inj in H. discriminate H.
  - change (compress_each C m o (map inl (p :: ps)) (S (length (p :: ps)))) with
      (match compress C m p [] o with
       | Ok cp => let* r := compress_each C m o (map inl ps) (S (length ps)) in Ok (inl (Some cp) :: r)
       | Err e => let* r := compress_each C m o (map inl ps) (S (length ps)) in Ok (inr e :: r)
       | Panic => Panic end) in H.
    destruct (compress C m p [] o) as [cp|e|] eqn:E; try discriminate H;
      destruct (compress_each C m o (map inl ps) (S (length ps))) as [l|e'|] eqn:El; try discriminate H; cbn [bind] in H; apply Ok_inj in H.
    + destruct cps as [|cp' cps]; cbn [map app] in H; [ discriminate H | ]. injection H as -> H. constructor; [ exact E | ]. apply IH. rewrite H. reflexivity.
    + destruct cps as [|cp' cps]; cbn [map app] in H; discriminate H.
Qed.

Lemma opened_exists F m schema stats gs kv file md i g j leaf : written_and_opened F m schema stats gs kv file md -> good_schema schema -> complete_groups schema gs ->
  nth_error gs i = Some g -> nth_error (sd_leaves schema) j = Some leaf ->
  exists rg c, nth_error (fmd_row_groups md) i = Some rg /\ nth_error (rgm_columns rg) j = Some c /\ cmd_descr c = leaf.
Proof.
  intros H Hg Hc Eg Ej. pose proof H as (s & version & created_by & w & w' & size & meta & Hs & Hh & He & -> & Hlen & Hmeta & Hsz & Hback & Hread).
  pose proof Hc as (Hcols & Hrows).
  destruct (file_ended _ _ _ _ _ _ _ _ _ _ _ _ Hs Hh He Hlen) as (meta' & Hmeta' & Hended & _). assert (meta' = meta) as -> by congruence.
  destruct (ended_open _ _ _ _ _ _ _ Hended Hlen Hg Hcols Hrows Hsz Hback) as (md' & Hread' & _ & _ & _ & _ & _ & _ & Hgroups).
  assert (md' = md) as -> by congruence.
  assert (exists rg, nth_error (fmd_row_groups md) i = Some rg) as [rg E].
  { destruct (nth_error (fmd_row_groups md) i) eqn:E; [ eexists; reflexivity | ]. exfalso. apply nth_error_None in E. apply Forall2_length in Hgroups.
    destruct Hended as (rgs1 & rgs2 & specs & h1 & h2 & h3 & rows & _ & Hl & _). cbn [fw_schema fw_new] in Hl. apply laid_groups_chunks, Forall2_length in Hl.
    assert (i < length gs)%nat by (apply nth_error_Some; congruence). apply (Nat.lt_irrefl i). refine (Nat.lt_le_trans _ _ _ H0 (Nat.le_trans _ _ _ (Nat.eq_le_incl _ _ (eq_trans Hl Hgroups)) E)). }
  destruct (opened_group _ _ _ _ _ _ _ _ _ _ _ H Hg Hc Eg E) as (_ & _ & _ & _ & rg' & _ & _ & _ & _ & G2 & _).
  exists rg. rewrite <- G2 in Ej. rewrite nth_error_map in Ej. destruct (nth_error (rgm_columns rg) j) as [c|]; [ | discriminate Ej ].
  exists c. injection Ej as Ej. auto.
Qed.

Lemma chunk_read F m file c pages scratch max : nlen file < 2 ^ 63 -> chunk_at F file (cmd_descr c, inl (map inl pages)) (cmd_chunk c) ->
  Forall (takes (f_header F) max) pages -> (values_of pages < 2 ^ 63)%Z ->
  exists codec r r', Forall (fun p => cp_compression p = codec) pages /\ get_page_iterator c file None scratch max = Ok r /\
    runs (pr_next (f_header F) m) r (map inl (map (read_page_of codec (cd_descriptor (cmd_descr c)) None false) (needed (values_of pages) pages))) r'.
Proof.
  intros Hlen (pages' & meta & Ep & Em & Hh & Hl & start & Hdesc) Htakes Hv.
  cbn [snd fst] in Ep, Hdesc. injection Ep as Ep. apply (f_equal (flat_map (fun x => match x with inl p => [p] | inr _ => [] end))) in Ep.
  assert (Epp : forall l : list compressed_page, flat_map (fun x : compressed_page + error => match x with inl p => [p] | inr _ => [] end) (map inl l) = l)
    by (clear; induction l as [|a l IH]; [ reflexivity | cbn [map flat_map app]; rewrite IH; reflexivity ]).
  rewrite !Epp in Ep. clear Epp. subst pages'.
  pose proof Hdesc as (Hcs & _ & Hnv & Hoff & Hdo & (codec & Hcodec & Ecodec & _) & _).
  pose proof (holds_bound _ _ _ Hh) as Hb. change (2 ^ 63) with 9223372036854775808 in Hlen.
  assert (Hsm : (0 <= cm_data_page_offset meta < 9223372036854775808)%Z).
  { unfold chunk_start in Hb. rewrite Hdo, Hoff in Hb. rewrite Hoff. destruct pages; [ lia | ]. rewrite N2Z.id in Hb. lia. }
  assert (Hbr : byte_range c = Ok (chunk_start meta, as_usize (cm_compressed_size meta))).
  { unfold byte_range, cmd_meta. rewrite Em. cbn [bind]. rewrite Hdo. unfold chunk_start. rewrite Hdo. unfold as_usize at 1, of_signed.
    change (2 ^ Z.of_N 64)%Z with 18446744073709551616%Z. rewrite Z.mod_small by lia. reflexivity. }
  destruct (holds_skip _ _ _ Hh) as [post Hpost].
  destruct (reader_returns_needed_pages (f_header F) m pages post (values_of pages) codec (cd_descriptor (cmd_descr c)) (fun _ _ => true) scratch max Htakes (Z.le_refl _) Hv) as (r' & Hr & _).
  exists codec. do 2 eexists. split; [ exact Hcodec | ]. split.
  - unfold get_page_iterator. rewrite Hbr. cbn [bind]. unfold cmd_compression, cmd_meta. rewrite Em. cbn [bind]. rewrite Ecodec, codec_round. cbn [bind]. rewrite Hpost, Hnv. reflexivity.
  - assert (Ef : forall l, filter (wanted ((fun _ _ => true) (cd_descriptor (cmd_descr c)))) l = l) by (clear; induction l as [|[x|x] l IH]; cbn [filter wanted]; [ reflexivity | | ]; rewrite IH; reflexivity).
    rewrite Ef in Hr. exact Hr.
Qed.
