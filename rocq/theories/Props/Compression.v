(** C40, C41, C66: page compression, buffer reuse, Hadoop-framed LZ4. *)
From Verif Require Import Base.Prelude Model.Types Model.Thrift Model.Intervals Model.Page Model.Compression
  Spec.CompressionSpec Proofs.CompressionProofs.
Open Scope N_scope.

(** A codec for the examples: compressing appends a zero byte, decompressing removes it. *)
Definition toy : codecs :=
  mk_codecs (fun _ x => Ok (x ++ [0])) (fun _ y => removelast y) (fun y => Some (nlen (removelast y)))
    (fun y cap => (removelast y, nlen (removelast y) <=? cap)) (fun y cap => (removelast y, nlen (removelast y) <=? cap)).
Lemma toy_inverts : inverts toy.
Proof.
  intros o x y H. apply Ok_inj in H. subst y.
  destruct o; cbn [toy stream_dec snappy_len snappy_dec lz4_dec]; rewrite ?removelast_last; auto.
  - split; [reflexivity|]. intros cap Hc. replace (nlen x <=? cap) with true by lia. reflexivity.
  - intros cap Hc. replace (nlen x <=? cap) with true by lia. reflexivity.
Qed.

Definition toy_desc := mk_descr (mk_prim (mk_fi [] Required None) None None Int32) 1 0.
Definition toy_v2 (flag : option bool) : t_data_header_v2 := mk_tdh2 2 0 2 0 3 1 flag None.
Definition toy_page (flag : option bool) : page :=
  PData (mk_dp (HV2 (toy_v2 flag)) [11; 12; 13; 14; 1; 2; 3] toy_desc (Some [mk_iv 0 2])).

(** C40. A page compressed into an empty buffer decompresses to itself, whatever the buffer given to the decompressor
    holds and whatever its capacity; the compressed page states the codec and the uncompressed size. *)
Theorem page_compression_roundtrip C m p o cp :
  inverts C -> compress C m p [] o = Ok cp -> (o <> OUncompressed -> says_compressed p) ->
  (forall cap buffer, decompress C m cap cp buffer = Ok p) /\
  cp_compression cp = options_compression o /\ cp_uncompressed_size cp = nlen (page_buffer p).
Proof.
  intros HC H Hs. split; [intros cap buffer; apply compress_decompress with o; assumption|].
  destruct p as [d|d]; cbn [compress] in H.
  - destruct (compress_data C m d [] o) as [cd|e|] eqn:Ec; try discriminate H. apply Ok_inj in H. subst cp.
    unfold compress_data in Ec. destruct (match o with OUncompressed => _ | _ => _ end) as [y|e|]; try discriminate Ec.
    apply Ok_inj in Ec. subst cd. split; reflexivity.
  - unfold compress_dict in H. destruct (match o with OUncompressed => _ | _ => _ end) as [y|e|]; try discriminate H.
    apply Ok_inj in H. subst cp. split; reflexivity.
Qed.
Print Assumptions page_compression_roundtrip.

(** In a version 2 page the level bytes come first, as they are; only what follows them is compressed. *)
Theorem v2_levels_in_front C m d h o cp rep def values :
  dp_header d = HV2 h -> dp_buffer d = rep ++ def ++ values ->
  dh2_rep_length h = Z.of_N (nlen rep) -> dh2_def_length h = Z.of_N (nlen def) -> nlen rep + nlen def < 2 ^ 31 ->
  o <> OUncompressed -> compress C m (PData d) [] o = Ok cp ->
  exists y, enc C o values = Ok y /\ cp_buffer cp = rep ++ def ++ y.
Proof.
  intros Hh Hb Hr Hd Hl Ho H. cbn [compress] in H.
  destruct (compress_data C m d [] o) as [cd|e|] eqn:Ec; try discriminate H. apply Ok_inj in H. subst cp.
  destruct (compress_data_inv _ _ _ _ _ _ Ho Ec) as (y & -> & Hy). rewrite Hh in Hy.
  destruct Hy as (n & Hn & _ & Hy). unfold levels_length in Hn. rewrite Hr, Hd in Hn.
  assert (Hi : in_s 32 (Z.of_N (nlen rep) + Z.of_N (nlen def)) = true).
  { unfold in_s. change (2 ^ (Z.of_N 32 - 1))%Z with 2147483648%Z. change (2 ^ 31) with 2147483648 in Hl. lia. }
  unfold sadd in Hn. rewrite Hi in Hn. cbn [bind] in Hn. apply Ok_inj in Hn.
  rewrite <- N2Z.inj_add in Hn. unfold as_usize in Hn.
  assert (n = nlen (rep ++ def)).
  { subst n. rewrite nlen_app. unfold of_signed. rewrite Z.mod_small; [lia|].
    change (2 ^ Z.of_N 64)%Z with 18446744073709551616%Z. change (2 ^ 31) with 2147483648 in Hl. lia. }
  rewrite Hb, app_assoc in Hy. rewrite skipn_nlen_app, firstn_nlen_app in Hy by assumption.
  pose proof (compress_bytes_inv _ _ _ _ _ Hy) as (_ & z & He & ->). exists z. split; [exact He|].
  cbn [cp_buffer cdp_buffer app]. rewrite app_assoc. reflexivity.
Qed.
Print Assumptions v2_levels_in_front.

Example page_compression_roundtrip_case :
  compress toy Checked (toy_page None) [] OSnappy =
    Ok (CData (mk_cdp (HV2 (toy_v2 None)) [11; 12; 13; 14; 1; 2; 3; 0] Snappy 7 toy_desc (Some [mk_iv 0 2]))) /\
  says_compressed (toy_page None) /\
  decompress toy Checked 100 (CData (mk_cdp (HV2 (toy_v2 None)) [11; 12; 13; 14; 1; 2; 3; 0] Snappy 7 toy_desc (Some [mk_iv 0 2])))
    [9; 9; 9; 9; 9; 9; 9; 9; 9; 9] = Ok (toy_page None).
Proof. split; [reflexivity|]. split; [cbn; discriminate|reflexivity]. Qed.

(** Compression goes through whenever the codec does and the level bytes lie inside the page. *)
Theorem page_compression_succeeds C m p o buffer :
  o <> OLzo -> o <> OLz4 -> (forall x, exists y, enc C o x = Ok y) ->
  match p with
  | PData d => match dp_header d with
               | HV2 h => exists n, levels_length m h = Ok n /\ n <= nlen (dp_buffer d)
               | HV1 _ => True end
  | PDict _ => True
  end ->
  exists cp, compress C m p buffer o = Ok cp.
Proof.
  intros H1 H2 He Hl.
  assert (Hc : forall x b, o <> OUncompressed -> exists y, compress_bytes C o x b = Ok y).
  { intros x b Ho. destruct (He x) as [y Hy]. exists (b ++ y). unfold compress_bytes. rewrite Hy.
    destruct o; try congruence; reflexivity. }
  assert (Ho : o = OUncompressed \/ o <> OUncompressed) by (destruct o; auto; right; discriminate).
  destruct Ho as [->|Ho]; [rewrite compress_uncompressed; eauto|].
  destruct p as [d|d]; cbn [compress].
  - unfold compress_data. destruct (dp_header d) as [h|h].
    + destruct (Hc (dp_buffer d) buffer Ho) as [y Hy].
      destruct o; try congruence; rewrite Hy; cbn [bind rmap]; eauto.
    + destruct Hl as (n & Hn & Hle). rewrite Hn. cbn [bind]. unfold slice_range.
      replace ((0 <=? n) && (n <=? nlen (dp_buffer d))) with true by lia.
      replace ((n <=? nlen (dp_buffer d)) && (nlen (dp_buffer d) <=? nlen (dp_buffer d))) with true by lia.
      destruct o; try congruence; cbn [bind];
        match goal with |- context [compress_bytes C _ ?x ?b] => destruct (Hc x b Ho) as [y Hy] end;
        rewrite Hy; cbn [bind rmap]; eauto.
  - destruct (Hc (di_buffer d) buffer Ho) as [y Hy]. unfold compress_dict.
    destruct o; try congruence; rewrite Hy; cbn [bind rmap]; eauto.
Qed.
Print Assumptions page_compression_succeeds.

(** A version 2 page whose header says its values are not compressed is compressed all the same, with that header; it
    does not decompress to itself. *)
Theorem page_compression_flag_refuted :
  exists C m p o cp, inverts C /\ compress C m p [] o = Ok cp /\ decompress C m 0 cp [] <> Ok p.
Proof.
  exists toy, Checked, (toy_page (Some false)), OSnappy. eexists. split; [exact toy_inverts|]. split; [reflexivity|].
  discriminate.
Qed.
Print Assumptions page_compression_flag_refuted.

(** The function that compresses one page appends to the buffer it is given: old content ends up in the page. *)
Theorem page_compression_dirty_buffer_refuted :
  exists C m p o b cp, inverts C /\ says_compressed p /\ compress C m p b o = Ok cp /\ decompress C m 0 cp [] <> Ok p.
Proof.
  exists toy, Checked, (PDict (mk_dict [1; 2] 2 true)), OSnappy, [7]. eexists.
  split; [exact toy_inverts|]. split; [exact I|]. split; [reflexivity|]. discriminate.
Qed.
Print Assumptions page_compression_dirty_buffer_refuted.

(** C41. Decompressing a page whose content fills its declared size does not depend on the buffer given. *)
Theorem decompress_ignores_buffer C m p cap1 buffer1 cap2 buffer2 :
  page_fills C m p -> decompress C m cap1 p buffer1 = decompress C m cap2 p buffer2.
Proof.
  intro H. rewrite (decompress_any_buffer C m p cap1 buffer1 H), (decompress_any_buffer C m p cap2 buffer2 H). reflexivity.
Qed.
Print Assumptions decompress_ignores_buffer.

(** Every page the crate compresses is of that kind. *)
Theorem compressed_pages_fill C m p o cp : inverts C -> compress C m p [] o = Ok cp -> page_fills C m cp.
Proof. apply compressed_fills. Qed.
Print Assumptions compressed_pages_fill.

(** The reusing decompressor, fed by any page iterator and started with any buffer, gives what decompressing each
    page alone gives, errors included, for any number of calls. *)
Theorem decompressor_matches_fresh {S} C m (P : page_iter S) R s l buffer caps :
  serves P R -> R s l ->
  (forall cp, In (inl cp) l -> page_fills C m cp) ->
  dec_run C m P caps (dec_new s buffer) = decompress_each C m l (length caps).
Proof.
  intros HP HR Hf. apply dec_run_each with R; [exact HP|exact HR|].
  apply Forall_forall. intros [cp|e] Hin; [apply Hf, Hin|exact I].
Qed.
Print Assumptions decompressor_matches_fresh.

(** The reusing compressor, likewise; here nothing is asked of the pages or the codec. *)
Theorem compressor_matches_fresh C m o l buffer n :
  comp_run C m n (comp_new l o buffer) = compress_each C m o l n.
Proof. apply comp_run_each. Qed.
Print Assumptions compressor_matches_fresh.

(** An iterator over a list of pages that keeps a scratch buffer. *)
Definition list_iter : page_iter (list (compressed_page + error) * list N) :=
  mk_pi (fun s => match fst s with [] => Ok (None, s) | x :: r => Ok (Some x, (r, snd s)) end)
        (fun s b => ((fst s, b), snd s)).
Example list_iter_serves : serves list_iter (fun s l => fst s = l).
Proof.
  split; [intros [l s] l' b H; exact H|]. split.
  - intros [l s] H. cbn [fst] in H. subst l. exists ([], s). split; reflexivity.
  - intros [l s] x l' H. cbn [fst] in H. subst l. exists (l', s). split; reflexivity.
Qed.
Definition toy_items : list (compressed_page + error) :=
  [inl (CDict (mk_cdict [8; 9; 0] Snappy 2 2 false)); inl (CDict (mk_cdict [1; 2] Uncompressed 2 2 true)); inr OutOfSpec;
   inl (CDict (mk_cdict [4; 0] Lz4Raw 1 1 false))].
Example decompressor_matches_fresh_case :
  (forall cp, In (inl cp) toy_items -> page_fills toy Checked cp) /\
  dec_run toy Checked list_iter [50; 50; 50; 50; 50] (dec_new (toy_items, [3; 3; 3]) [77; 77; 77]) =
    Ok [inl (Some (PDict (mk_dict [8; 9] 2 false))); inl (Some (PDict (mk_dict [1; 2] 2 true))); inr OutOfSpec;
        inl (Some (PDict (mk_dict [4] 1 false))); inl None].
Proof.
  split; [|reflexivity]. intros cp H. cbn in H.
  destruct H as [H|[H|[H|[H|[]]]]]; try discriminate H; injection H as <-; cbn; auto;
    intros w Hw; injection Hw as <-; reflexivity.
Qed.
Example compressor_matches_fresh_case :
  comp_run toy Checked 3 (comp_new [inl (PDict (mk_dict [1; 2] 2 true)); inl (PDict (mk_dict [3] 1 false))] OSnappy [9; 9]) =
    Ok [inl (Some (CDict (mk_cdict [1; 2; 0] Snappy 2 2 true))); inl (Some (CDict (mk_cdict [3; 0] Snappy 1 1 false))); inl None].
Proof. reflexivity. Qed.

(** Without the condition the claim fails: a page whose content is shorter than its header declares is returned with
    the rest of the old buffer in it. *)
Theorem buffer_leak_refuted :
  exists C m p buffer1 buffer2 q1 q2, inverts C /\
    decompress C m 8 p buffer1 = Ok q1 /\ decompress C m 8 p buffer2 = Ok q2 /\ q1 <> q2.
Proof.
  exists toy, Checked, (CDict (mk_cdict [5; 0] Snappy 1 3 false)), [1; 1; 1], [2; 2; 2]. do 2 eexists.
  split; [exact toy_inverts|]. split; [reflexivity|]. split; [reflexivity|]. discriminate.
Qed.
Print Assumptions buffer_leak_refuted.

(** For the block codecs the condition is exact: decoding is independent of the old buffer if and only if the block
    fills it (decoders that never write past the slice they are given). *)
Theorem snappy_leaks_iff C input n len :
  snappy_len C input = Some len -> len <= n -> nlen (fst (snappy_dec C input n)) <= n ->
  (fills C Snappy input n <->
   forall out1 out2, nlen out1 = n -> nlen out2 = n ->
     outcome (decompress_bytes C Snappy input out1) = outcome (decompress_bytes C Snappy input out2)).
Proof.
  intros Hl Hn Hw. split; [intros Hf out1 out2; apply fills_outcome; assumption|].
  intros H w Hd. rewrite Hd in Hw. cbn [fst] in Hw. destruct (N.eq_dec (nlen w) n) as [|Hne]; [assumption|exfalso].
  destruct (short_block_leaks (w, true) n eq_refl ltac:(cbn [fst]; lia)) as (o1 & o2 & H1 & H2 & Hneq).
  apply Hneq. specialize (H o1 o2 H1 H2). cbn [decompress_bytes] in H. rewrite Hl, H1, H2, Hd in H.
  replace (n <? len) with false in H by lia. exact H.
Qed.
Print Assumptions snappy_leaks_iff.
Theorem lz4_raw_leaks_iff C input n :
  nlen (fst (lz4_dec C input n)) <= n ->
  (fills C Lz4Raw input n <->
   forall out1 out2, nlen out1 = n -> nlen out2 = n ->
     outcome (decompress_bytes C Lz4Raw input out1) = outcome (decompress_bytes C Lz4Raw input out2)).
Proof.
  intros Hw. split; [intros Hf out1 out2; apply fills_outcome; assumption|].
  intros H w Hd. rewrite Hd in Hw. cbn [fst] in Hw. destruct (N.eq_dec (nlen w) n) as [|Hne]; [assumption|exfalso].
  destruct (short_block_leaks (w, true) n eq_refl ltac:(cbn [fst]; lia)) as (o1 & o2 & H1 & H2 & Hneq).
  apply Hneq. specialize (H o1 o2 H1 H2). cbn [decompress_bytes] in H. rewrite H1, H2, Hd in H. exact H.
Qed.
Print Assumptions lz4_raw_leaks_iff.

(** C66. Frames decompress to their contents, one after the other, if what follows each frame is longer than its block. *)
Theorem hadoop_frames_decompress C fs out :
  Forall (frame_ok C) fs -> tails_longer fs -> nlen out = nlen (frames_content fs) ->
  decompress_bytes C Lz4 (frames_bytes fs) out = (frames_content fs, Ok tt).
Proof.
  intros Hok Ht Hl. cbn [decompress_bytes].
  destruct (try_hadoop_frames C fs out Hok (eq_sym Hl)) as [H _]. rewrite (H Ht). reflexivity.
Qed.
Print Assumptions hadoop_frames_decompress.

(** A single frame always does. *)
Theorem hadoop_single_frame C content block out :
  frame_ok C (content, block) -> nlen out = nlen content ->
  decompress_bytes C Lz4 (be32 (nlen content) ++ be32 (nlen block) ++ block) out = (content, Ok tt).
Proof.
  intros Hok Hl. pose proof (hadoop_frames_decompress C [(content, block)] out) as H.
  unfold frames_bytes, frames_content in H. cbn [map concat fst snd] in H. rewrite !app_nil_r in H.
  apply H; [constructor; [exact Hok|constructor]|exact I|exact Hl].
Qed.
Print Assumptions hadoop_single_frame.

(** Otherwise the frames are not recognised. *)
Theorem hadoop_frames_rejected C fs out :
  Forall (frame_ok C) fs -> ~ tails_longer fs -> nlen out = nlen (frames_content fs) ->
  snd (try_decompress_hadoop C (frames_bytes fs) out) = Err OutOfSpec.
Proof. intros Hok Ht Hl. apply (try_hadoop_frames C fs out Hok (eq_sym Hl)), Ht. Qed.
Print Assumptions hadoop_frames_rejected.

Lemma toy_frame x : nlen x < 2 ^ 31 -> frame_ok toy (x, x ++ [0]).
Proof.
  intro H. change (2 ^ 31) with 2147483648 in H. unfold frame_ok, two32. cbn [fst snd]. rewrite nlen_app.
  change (nlen [0]) with 1. split; [lia|]. split; [lia|]. intros cap Hc. cbn [toy lz4_dec].
  rewrite removelast_last. replace (nlen x <=? cap) with true by lia. reflexivity.
Qed.
Definition toy_frames : list (list N * list N) := [([7; 8], [7; 8; 0]); ([9], [9; 0])].
Example hadoop_frames_case :
  Forall (frame_ok toy) toy_frames /\ tails_longer toy_frames /\
  decompress_bytes toy Lz4 [0; 0; 0; 2; 0; 0; 0; 3; 7; 8; 0; 0; 0; 0; 1; 0; 0; 0; 2; 9; 0] [1; 1; 1] = ([7; 8; 9], Ok tt).
Proof.
  split; [repeat constructor; apply (toy_frame [7; 8]) || apply (toy_frame [9]); reflexivity|].
  split; [|reflexivity]. split; [reflexivity|exact I].
Qed.

(** Two frames, the first long and the second short: the buffer is refused. *)
Theorem hadoop_frames_refuted :
  exists C fs out, Forall (frame_ok C) fs /\ nlen out = nlen (frames_content fs) /\
    snd (decompress_bytes C Lz4 (frames_bytes fs) out) = Err OutOfSpec.
Proof.
  exists toy, [([1; 2; 3; 4; 5; 6; 7; 8; 9; 10; 11], [1; 2; 3; 4; 5; 6; 7; 8; 9; 10; 11; 0]); ([5], [5; 0])].
  exists [0; 0; 0; 0; 0; 0; 0; 0; 0; 0; 0; 0].
  split; [repeat constructor; apply (toy_frame [1; 2; 3; 4; 5; 6; 7; 8; 9; 10; 11]) || apply (toy_frame [5]); reflexivity|].
  split; reflexivity.
Qed.
Print Assumptions hadoop_frames_refuted.
