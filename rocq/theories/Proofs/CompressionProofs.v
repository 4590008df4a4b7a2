From Verif Require Import Base.Prelude Model.Types Model.Thrift Model.Intervals Model.Page Model.Compression
  Spec.CompressionSpec.
Open Scope N_scope.

Lemma nlen_app {A} (a b : list A) : nlen (a ++ b) = nlen a + nlen b.
Proof. unfold nlen. rewrite app_length. lia. Qed.

Lemma write_prefix_full w out : length w = length out -> write_prefix w out = w.
Proof.
  intro H. unfold write_prefix. rewrite <- H, firstn_all, H, skipn_all2 by lia. apply app_nil_r.
Qed.
Lemma write_prefix_length w out : length (write_prefix w out) = length out.
Proof. unfold write_prefix. rewrite app_length, firstn_length, skipn_length. lia. Qed.

Lemma prepare_length cap n b : nlen (prepare cap n b) = n.
Proof.
  unfold prepare, nlen in *. destruct (cap <? n).
  - rewrite repeat_length. lia.
  - destruct (N.of_nat (length b) <? n) eqn:E.
    + rewrite app_length, repeat_length. lia.
    + rewrite firstn_length. lia.
Qed.

Lemma slice_range_from n l r : slice_range n (nlen l) l = Ok r -> n <= nlen l /\ r = skipn (N.to_nat n) l.
Proof.
  unfold slice_range. destruct ((n <=? nlen l) && (nlen l <=? nlen l)) eqn:E; [|discriminate].
  intro H. apply Ok_inj in H. split; [lia|]. subst r.
  rewrite firstn_all2; [reflexivity|]. rewrite skipn_length. unfold nlen in *. lia.
Qed.
Lemma slice_range_to n l r : slice_range 0 n l = Ok r -> n <= nlen l /\ r = firstn (N.to_nat n) l.
Proof.
  unfold slice_range. destruct ((0 <=? n) && (n <=? nlen l)) eqn:E; [|discriminate].
  intro H. apply Ok_inj in H. split; [lia|]. subst r. rewrite N.sub_0_r. reflexivity.
Qed.

(** * Decompressing what was compressed *)

Lemma compress_bytes_inv C o x out y :
  compress_bytes C o x out = Ok y ->
  o <> OUncompressed /\ exists z, enc C o x = Ok z /\ y = out ++ z.
Proof.
  unfold compress_bytes. destruct o; try discriminate; intro H; (split; [discriminate|]);
    destruct (enc C _ x) as [z|e|]; try discriminate; cbn [bind] in H; apply Ok_inj in H; eauto.
Qed.

Lemma decompress_bytes_enc C o x y out :
  inverts C -> o <> OUncompressed -> o <> OLzo -> o <> OLz4 -> enc C o x = Ok y -> nlen out = nlen x ->
  decompress_bytes C (options_compression o) y out = (x, Ok tt).
Proof.
  intros HC H1 H2 H3 He Hl. specialize (HC o x y He).
  assert (Hn : length out = length x) by (unfold nlen in Hl; lia).
  destruct o; try congruence; cbn [options_compression decompress_bytes] in *.
  - destruct HC as [-> Hd]. replace (nlen out <? nlen x) with false by lia.
    rewrite Hd by lia. unfold block_into, unit_res; cbn [fst snd rmap].
    rewrite write_prefix_full by lia. reflexivity.
  - rewrite HC. unfold read_exact_into. rewrite Hn, Nat.leb_refl, firstn_all. reflexivity.
  - rewrite HC. unfold read_exact_into. rewrite Hn, Nat.leb_refl, firstn_all. reflexivity.
  - rewrite HC. unfold read_exact_into. rewrite Hn, Nat.leb_refl, firstn_all. reflexivity.
  - rewrite HC by lia. unfold block_into, unit_res; cbn [fst snd rmap].
    rewrite write_prefix_full by lia. reflexivity.
Qed.

Lemma decompress_bytes_compress C o x y out :
  inverts C -> compress_bytes C o x [] = Ok y -> nlen out = nlen x ->
  decompress_bytes C (options_compression o) y out = (x, Ok tt).
Proof.
  intros HC H Hl. pose proof (compress_bytes_inv _ _ _ _ _ H) as (Hu & z & He & ->). cbn [app].
  apply decompress_bytes_enc; auto; intros ->; discriminate.
Qed.

Lemma options_uncompressed o : options_compression o = Uncompressed <-> o = OUncompressed.
Proof. destruct o; cbn; split; congruence. Qed.

Lemma cp_uncompressed_dec p : cp_compression p = Uncompressed \/ cp_compression p <> Uncompressed.
Proof. destruct (cp_compression p); auto; right; discriminate. Qed.

Lemma decompress_uncompressed C m cap p b :
  cp_compression p = Uncompressed -> decompress C m cap p b = Ok (create_page p (cp_buffer p)).
Proof.
  intro H. unfold decompress, decompress_buffer. rewrite H. destruct p; reflexivity.
Qed.

Definition run_page (C : codecs) (m : mode) (p : compressed_page) (buffer : list N) : list N * res unit :=
  match p with
  | CData d =>
      match cdp_header d with
      | HV1 _ => decompress_bytes C (cdp_compression d) (cdp_buffer d) buffer
      | HV2 h => decompress_v2 C m (cdp_buffer d) h (cdp_compression d) buffer
      end
  | CDict d => decompress_bytes C (cdi_compression d) (cdi_buffer d) buffer
  end.
Lemma decompress_buffer_compressed C m cap p b :
  cp_compression p <> Uncompressed ->
  decompress_buffer C m cap p b =
    (p, fst (run_page C m p (prepare cap (cp_uncompressed_size p) b)),
     rmap (fun _ => true) (snd (run_page C m p (prepare cap (cp_uncompressed_size p) b)))).
Proof.
  intro H. unfold decompress_buffer, run_page.
  destruct (cp_compression p) eqn:E; try congruence; destruct p as [d|d]; cbn [cp_compression] in E; rewrite E;
    (destruct (cdp_header d) as [h|h] || idtac);
    match goal with |- context [let (_, _) := ?x in _] => destruct x as [bb r] end; reflexivity.
Qed.
Lemma decompress_compressed C m cap p b :
  cp_compression p <> Uncompressed ->
  decompress C m cap p b =
    rmap (create_page p) (outcome (run_page C m p (prepare cap (cp_uncompressed_size p) b))).
Proof.
  intro H. unfold decompress. rewrite decompress_buffer_compressed by exact H.
  unfold outcome. destruct (snd (run_page C m p _)) as [[]|e|]; reflexivity.
Qed.

Definition sized (p : compressed_page) (b : list N) : Prop := nlen b = cp_uncompressed_size p.

Lemma compress_data_inv C m d b o cd :
  o <> OUncompressed -> compress_data C m d b o = Ok cd ->
  exists y, cd = mk_cdp (dp_header d) y (options_compression o) (nlen (dp_buffer d)) (dp_descriptor d) (dp_selected d) /\
  match dp_header d with
  | HV1 _ => compress_bytes C o (dp_buffer d) b = Ok y
  | HV2 h => exists n, levels_length m h = Ok n /\ n <= nlen (dp_buffer d) /\
      compress_bytes C o (skipn (N.to_nat n) (dp_buffer d)) (b ++ firstn (N.to_nat n) (dp_buffer d)) = Ok y
  end.
Proof.
  intros Ho H.
  assert (E : compress_data C m d b o =
    let* y := match dp_header d with
      | HV1 _ => compress_bytes C o (dp_buffer d) b
      | HV2 h =>
          let* n := levels_length m h in
          let* levels := slice_range 0 n (dp_buffer d) in
          let* values := slice_range n (nlen (dp_buffer d)) (dp_buffer d) in
          compress_bytes C o values (b ++ levels)
      end in
    Ok (mk_cdp (dp_header d) y (options_compression o) (nlen (dp_buffer d)) (dp_descriptor d) (dp_selected d))).
  { unfold compress_data. destruct o; try congruence; reflexivity. }
  rewrite E in H. clear E. destruct (dp_header d) as [h|h].
  - destruct (compress_bytes C o (dp_buffer d) b) as [y|e|]; try discriminate H. apply Ok_inj in H. eauto.
  - destruct (levels_length m h) as [n|e|]; try discriminate H. cbn [bind] in H.
    destruct (slice_range 0 n (dp_buffer d)) as [lv|e|] eqn:E1; try discriminate H. cbn [bind] in H.
    destruct (slice_range n (nlen (dp_buffer d)) (dp_buffer d)) as [vs|e|] eqn:E2; try discriminate H. cbn [bind] in H.
    pose proof (slice_range_to _ _ _ E1) as [Hn1 ->]. pose proof (slice_range_from _ _ _ E2) as [Hn2 ->].
    destruct (compress_bytes C o _ _) as [y|e|] eqn:Ey; try discriminate H. apply Ok_inj in H.
    exists y. split; [auto|]. exists n. auto.
Qed.

Lemma compress_run_page C m p o cp b :
  inverts C -> says_compressed p -> o <> OUncompressed -> compress C m p [] o = Ok cp -> sized cp b ->
  run_page C m cp b = (page_buffer p, Ok tt) /\ create_page cp (page_buffer p) = p /\
  cp_compression cp = options_compression o.
Proof.
  intros HC Hs Ho H Hb. destruct p as [d|d]; cbn [compress] in H.
  - destruct (compress_data C m d [] o) as [cd|e|] eqn:Ec; try discriminate H. cbn [rmap] in H. apply Ok_inj in H. subst cp.
    destruct (compress_data_inv _ _ _ _ _ _ Ho Ec) as (y & -> & Hy). clear Ec.
    destruct d as [h buf ds sel]. cbn [dp_header dp_buffer dp_descriptor dp_selected says_compressed] in *.
    unfold sized in Hb. cbn [cp_uncompressed_size cdp_uncompressed_size] in Hb.
    split; [|split; reflexivity]. cbn [run_page cdp_header cdp_compression cdp_buffer page_buffer dp_buffer].
    destruct h as [h|h].
    + apply decompress_bytes_compress; auto.
    + destruct Hy as (n & El & Hn & Hy). cbn [app] in Hy.
      pose proof (compress_bytes_inv _ _ _ _ _ Hy) as (_ & z & He & ->).
      unfold decompress_v2. rewrite El.
      replace (match dh2_is_compressed h with Some b0 => b0 | None => true end) with true
        by (destruct (dh2_is_compressed h) as [[]|]; congruence).
      assert (Hlen : length (firstn (N.to_nat n) buf) = N.to_nat n)
        by (rewrite firstn_length; unfold nlen in *; lia).
      replace ((nlen b <? n) || (nlen (firstn (N.to_nat n) buf ++ z) <? n)) with false
        by (rewrite nlen_app; unfold nlen in *; lia).
      rewrite skipn_app, Hlen, Nat.sub_diag, skipn_all2, skipn_O by lia. cbn [app].
      rewrite firstn_app, Hlen, Nat.sub_diag, firstn_O, app_nil_r, (firstn_all2 (firstn _ _)) by lia.
      assert (Hc : compress_bytes C o (skipn (N.to_nat n) buf) [] = Ok z).
      { unfold compress_bytes in Hy |- *. destruct o; try discriminate; rewrite He in *; reflexivity. }
      rewrite (decompress_bytes_compress C o _ z (skipn (N.to_nat n) b) HC Hc).
      2:{ unfold nlen in *. rewrite !skipn_length. lia. }
      rewrite firstn_skipn. reflexivity.
  - unfold compress_dict in H.
    assert (E : exists y, compress_bytes C o (di_buffer d) [] = Ok y /\
              cp = CDict (mk_cdict y (options_compression o) (di_num_values d) (nlen (di_buffer d)) (di_is_sorted d))).
    { destruct o; try congruence; destruct (compress_bytes C _ (di_buffer d) []); try discriminate; cbn [bind rmap] in H;
        apply Ok_inj in H; eauto. }
    destruct E as (y & Hy & ->). unfold sized in Hb. cbn [cp_uncompressed_size cdi_uncompressed_size] in Hb.
    split; [|split; [destruct d; reflexivity|reflexivity]]. cbn [run_page cdi_compression cdi_buffer page_buffer].
    apply decompress_bytes_compress; auto.
Qed.

Lemma compress_uncompressed C m p b :
  compress C m p b OUncompressed =
    Ok match p with
       | PData d => CData (mk_cdp (dp_header d) (dp_buffer d) Uncompressed (nlen (dp_buffer d)) (dp_descriptor d) (dp_selected d))
       | PDict d => CDict (mk_cdict (di_buffer d) Uncompressed (di_num_values d) (nlen (di_buffer d)) (di_is_sorted d))
       end.
Proof. destruct p as [d|d]; reflexivity. Qed.

Lemma compress_decompress C m p o cp cap b :
  inverts C -> compress C m p [] o = Ok cp -> (o <> OUncompressed -> says_compressed p) ->
  decompress C m cap cp b = Ok p.
Proof.
  intros HC H Hs.
  destruct (cp_uncompressed_dec cp) as [E|E].
  - rewrite decompress_uncompressed by exact E.
    assert (Hz : sized cp (prepare 0 (cp_uncompressed_size cp) [])) by apply prepare_length.
    assert (Ho : o = OUncompressed).
    { assert (Ho : o = OUncompressed \/ o <> OUncompressed) by (destruct o; auto; right; discriminate).
      destruct Ho as [Ho|Ho]; [exact Ho|]. apply options_uncompressed.
      destruct (compress_run_page C m p o cp _ HC (Hs Ho) Ho H Hz) as (_ & _ & Hc). congruence. }
    subst o.
    rewrite compress_uncompressed in H. apply Ok_inj in H. subst cp. destruct p as [[]|[]]; reflexivity.
  - rewrite decompress_compressed by congruence.
    assert (Ho : o <> OUncompressed)
        by (intros ->; rewrite compress_uncompressed in H; apply Ok_inj in H; subst cp; destruct p; apply E; reflexivity).
    destruct (compress_run_page C m p o cp (prepare cap (cp_uncompressed_size cp) b) HC (Hs Ho) Ho H
              (prepare_length _ _ _)) as (Hr & Hc & _).
    rewrite Hr; unfold outcome; cbn [fst snd rmap]; rewrite Hc; reflexivity.
Qed.

(** * Buffers *)

Lemma read_exact_fills w out1 out2 :
  length out1 = length out2 -> outcome (read_exact_into w out1) = outcome (read_exact_into w out2).
Proof.
  intro H. unfold read_exact_into. rewrite H. destruct (length out2 <=? length w)%nat; [|reflexivity].
  unfold outcome. cbn [fst snd rmap]. reflexivity.
Qed.

Lemma block_fills w n out1 out2 :
  nlen out1 = n -> nlen out2 = n -> (snd w = true -> nlen (fst w) = n) ->
  outcome (unit_res (block_into w out1)) = outcome (unit_res (block_into w out2)).
Proof.
  intros H1 H2 Hw. unfold block_into, unit_res, outcome; cbn [fst snd].
  destruct (snd w); [|reflexivity]. cbn [rmap]. rewrite !write_prefix_full; [reflexivity|..];
    specialize (Hw eq_refl); unfold nlen in *; lia.
Qed.

Lemma fills_outcome C c input n out1 out2 :
  fills C c input n -> nlen out1 = n -> nlen out2 = n ->
  outcome (decompress_bytes C c input out1) = outcome (decompress_bytes C c input out2).
Proof.
  intros Hf H1 H2. assert (Hl : length out1 = length out2) by (unfold nlen in *; lia).
  destruct c; cbn [decompress_bytes].
  - reflexivity.
  - cbn [fills] in Hf. destruct (snappy_len C input) as [len|]; [|reflexivity].
    rewrite H1, H2. destruct (n <? len); [reflexivity|]. apply block_fills with n; auto.
    intro Hs. apply Hf. destruct (snappy_dec C input n) as [w s]. cbn [fst snd] in *. subst s. reflexivity.
  - apply read_exact_fills, Hl.
  - reflexivity.
  - apply read_exact_fills, Hl.
  - destruct Hf as [r Hr]. cbn [decompress_bytes] in Hr. rewrite !Hr by assumption. reflexivity.
  - apply read_exact_fills, Hl.
  - rewrite H1, H2. apply block_fills with n; auto.
    intro Hs. apply Hf. destruct (lz4_dec C input n) as [w s]. cbn [fst snd] in *. subst s. reflexivity.
Qed.

Lemma decompress_bytes_length C c input out : length (fst (decompress_bytes C c input out)) = length out.
Proof.
  destruct c; cbn [decompress_bytes].
  all: try reflexivity.
  all: try (unfold read_exact_into; destruct (length out <=? length _)%nat eqn:E; cbn [fst];
            [rewrite firstn_length; apply Nat.leb_le in E; lia|apply write_prefix_length]).
  - destruct (snappy_len C input) as [len|]; [|reflexivity]. destruct (nlen out <? len); [reflexivity|].
    unfold unit_res, block_into; cbn [fst]. apply write_prefix_length.
  - assert (H : forall fuel inp il dn o, length (fst (hadoop_loop C fuel inp il dn o)) = (length dn + length o)%nat).
    { induction fuel as [|f IH]; intros inp il dn o; cbn [hadoop_loop].
      - cbn [fst]. apply app_length.
      - destruct (8 <=? il); [|apply app_length].
        destruct (_ <? be 0 (firstn 4 (skipn 4 inp))); [apply app_length|].
        destruct (nlen o <? be 0 (firstn 4 inp)) eqn:Eo; [apply app_length|].
        unfold block_into. destruct (lz4_dec C _ _) as [w s]; cbn [fst snd].
        destruct s; [|cbn [fst]; rewrite app_length, write_prefix_length; reflexivity].
        destruct (nlen w =? _); [|cbn [fst]; rewrite app_length, write_prefix_length; reflexivity].
        destruct (_ <? _ - _); [|cbn [fst]; rewrite app_length, write_prefix_length; reflexivity].
        rewrite IH, app_length, firstn_length, skipn_length, write_prefix_length.
        unfold nlen in Eo. lia. }
    unfold try_decompress_hadoop. specialize (H (S (length input)) input (nlen input) [] out).
    destruct (hadoop_loop _ _ _ _ _ _) as [o' [[]|e|]]; cbn [fst length] in *; try lia.
    unfold unit_res, block_into; cbn [fst]. rewrite write_prefix_length. lia.
  - unfold unit_res, block_into; cbn [fst]. apply write_prefix_length.
Qed.

Lemma page_fills_outcome C m p b1 b2 :
  page_fills C m p -> sized p b1 -> sized p b2 ->
  outcome (run_page C m p b1) = outcome (run_page C m p b2).
Proof.
  intros Hf H1 H2. unfold sized in *. destruct p as [d|d]; cbn [page_fills run_page cp_uncompressed_size] in *.
  - destruct (cdp_header d) as [h|h].
    + apply fills_outcome with (n := cdp_uncompressed_size d); assumption.
    + unfold decompress_v2. destruct (levels_length m h) as [off|e|] eqn:El; [|reflexivity|reflexivity].
      destruct (match dh2_is_compressed h with Some b => b | None => true end) eqn:Ei.
      * rewrite H1, H2. destruct ((cdp_uncompressed_size d <? off) || (nlen (cdp_buffer d) <? off)) eqn:E; [reflexivity|].
        specialize (Hf ltac:(intros Ef; rewrite Ef in Ei; discriminate Ei) off eq_refl ltac:(lia) ltac:(lia)).
        pose proof (fills_outcome C (cdp_compression d) (skipn (N.to_nat off) (cdp_buffer d)) (cdp_uncompressed_size d - off)
          (skipn (N.to_nat off) b1) (skipn (N.to_nat off) b2) Hf) as G.
        specialize (G ltac:(unfold nlen in *; rewrite skipn_length; lia) ltac:(unfold nlen in *; rewrite skipn_length; lia)).
        destruct (decompress_bytes C _ _ (skipn (N.to_nat off) b1)) as [v1 r1].
        destruct (decompress_bytes C _ _ (skipn (N.to_nat off) b2)) as [v2 r2].
        unfold outcome in *. cbn [fst snd] in *. destruct r1 as [[]|e1|], r2 as [[]|e2|]; cbn [rmap] in *; try congruence.
      * rewrite H1, H2. destruct (_ =? _); reflexivity.
  - apply fills_outcome with (n := cdi_uncompressed_size d); assumption.
Qed.

Lemma decompress_any_buffer C m p cap b :
  page_fills C m p -> decompress C m cap p b = decompress C m 0 p [].
Proof.
  intro Hf. destruct (cp_uncompressed_dec p) as [E|E].
  - rewrite !decompress_uncompressed by exact E. reflexivity.
  - rewrite !decompress_compressed by congruence; f_equal;
      apply page_fills_outcome; auto; apply prepare_length.
Qed.

(** Conversely a block that decodes to fewer bytes than declared exposes the old buffer. *)
Lemma short_block_leaks w n :
  snd w = true -> nlen (fst w) < n ->
  exists out1 out2, nlen out1 = n /\ nlen out2 = n /\
    outcome (unit_res (block_into w out1)) <> outcome (unit_res (block_into w out2)).
Proof.
  intros Hs Hw. exists (repeat 0 (N.to_nat n)), (repeat 1 (N.to_nat n)).
  unfold nlen in *. rewrite !repeat_length. split; [lia|]. split; [lia|].
  unfold block_into, unit_res, outcome; cbn [fst snd]. rewrite Hs. cbn [rmap]. intro H. apply Ok_inj in H.
  unfold write_prefix in H. rewrite !repeat_length, !firstn_all2 in H by lia. apply app_inv_head in H.
  assert (Hk : exists k, (N.to_nat n = length (fst w) + S k)%nat) by (exists (N.to_nat n - length (fst w) - 1)%nat; lia).
  destruct Hk as [k Hk]. rewrite Hk in H. 
  assert (Hsk : forall a : N, skipn (length (fst w)) (repeat a (length (fst w) + S k)) = repeat a (S k)).
  { intro a. rewrite repeat_app, skipn_app, repeat_length, Nat.sub_diag, skipn_O, skipn_all2; [reflexivity|].
    rewrite repeat_length. lia. }
  rewrite !Hsk in H. cbn [repeat] in H. discriminate H.
Qed.

(** * The reusing iterators *)

Lemma decompress_buffer_decompress C m cap p b :
  match decompress_buffer C m cap p b with
  | (p', b', Ok _) => decompress C m cap p b = Ok (create_page p' b')
  | (_, _, Err e) => decompress C m cap p b = Err e
  | (_, _, Panic) => decompress C m cap p b = Panic
  end.
Proof. unfold decompress. destruct (decompress_buffer C m cap p b) as [[p' b'] [was|e|]]; reflexivity. Qed.

Lemma dec_run_each {S} C m (P : page_iter S) R :
  serves P R -> forall caps d l,
  R (de_iter d) l ->
  Forall (fun x => match x with inl cp => page_fills C m cp | inr _ => True end) l ->
  dec_run C m P caps d = decompress_each C m l (length caps).
Proof.
  intros (Hsw & Hnil & Hcons). induction caps as [|cap caps IH]; intros d l HR Hf; cbn [dec_run length decompress_each];
    [reflexivity|].
  unfold dec_advance.
  set (pre := match de_current d with Some p => _ | None => _ end).
  assert (Hpre : R (fst (fst pre)) l).
  { subst pre. destruct (de_current d) as [p|]; [|exact HR]. destruct (de_was d); [exact HR|].
    specialize (Hsw (de_iter d) l (page_buffer p) HR). destruct (pi_swap P (de_iter d) (page_buffer p)). exact Hsw. }
  clearbody pre. destruct pre as [[it buffer] current]. cbn [fst] in Hpre.
  destruct l as [|[cp|e] l].
  - destruct (Hnil it Hpre) as (it' & -> & HR'). cbn [bind de_current]. rewrite (IH _ []); auto.
  - destruct (Hcons it _ l Hpre) as (it' & -> & HR'). cbn [bind].
    pose proof (decompress_buffer_decompress C m cap cp buffer) as Hd.
    rewrite (decompress_any_buffer C m cp cap buffer) in Hd by exact (Forall_inv Hf).
    destruct (decompress_buffer C m cap cp buffer) as [[cp' b'] [was|e|]]; rewrite Hd; cbn [bind de_current].
    + rewrite (IH _ l).
      * reflexivity.
      * cbn [de_iter]. destruct was; [apply Hsw, HR'|exact HR'].
      * exact (Forall_inv_tail Hf).
    + rewrite (IH _ l); [reflexivity|exact HR'|exact (Forall_inv_tail Hf)].
    + reflexivity.
  - destruct (Hcons it _ l Hpre) as (it' & -> & HR'). cbn [bind].
    rewrite (IH _ l); [reflexivity|exact HR'|exact (Forall_inv_tail Hf)].
Qed.

Lemma comp_run_each C m o : forall n items buffer current,
  comp_run C m n (mk_comp items o buffer current) = compress_each C m o items n.
Proof.
  induction n as [|n IH]; intros items buffer current; cbn [comp_run compress_each]; [reflexivity|].
  unfold comp_advance. cbn [co_current co_items co_options co_buffer].
  set (pre := match current with Some p => _ | None => _ end). clearbody pre.
  destruct pre as [[b buffer'] current']. unfold clear. cbn [firstn].
  destruct items as [|[p|e] items].
  - cbn [bind co_current]. rewrite IH. reflexivity.
  - destruct (compress C m p [] o) as [cp|e|]; cbn [bind co_current]; [rewrite IH|rewrite IH|]; reflexivity.
  - cbn [bind co_current]. rewrite IH. reflexivity.
Qed.

(** The pages the compressor makes fill their buffers. *)
Lemma compressed_fills C m p o cp :
  inverts C -> compress C m p [] o = Ok cp -> page_fills C m cp.
Proof.
  intros HC H.
  assert (Hraw : forall x y, enc C o x = Ok y -> o <> OLz4 -> fills C (options_compression o) y (nlen x)).
  { intros x y He Ho. specialize (HC o x y He). destruct o; try congruence; cbn [fills options_compression]; auto.
    - destruct HC as [_ HC]. intros w Hw. rewrite HC in Hw by lia. congruence.
    - intros w Hw. rewrite HC in Hw by lia. congruence. }
  assert (Hcb : forall x b y, compress_bytes C o x b = Ok y ->
    exists z, y = b ++ z /\ fills C (options_compression o) z (nlen x)).
  { intros x b y Hy. pose proof (compress_bytes_inv _ _ _ _ _ Hy) as (_ & z & He & ->). exists z. split; [reflexivity|].
    apply Hraw; [exact He|]. intros ->. discriminate Hy. }
  assert (Hu : o = OUncompressed -> page_fills C m cp).
  { intros ->. rewrite compress_uncompressed in H. apply Ok_inj in H. subst cp. destruct p as [d|d]; cbn [page_fills cdp_header]; [|exact I].
    cbn [cdp_compression]. destruct (dp_header d); [exact I|]. intros; exact I. }
  assert (Ho : o = OUncompressed \/ o <> OUncompressed) by (destruct o; auto; right; discriminate).
  destruct Ho as [Ho|Ho]; [auto|].
  destruct p as [d|d]; cbn [compress] in H.
  - destruct (compress_data C m d [] o) as [cd|e|] eqn:Ec; try discriminate H. cbn [rmap] in H. apply Ok_inj in H. subst cp.
    destruct (compress_data_inv _ _ _ _ _ _ Ho Ec) as (y & -> & Hy). clear Ec.
    cbn [page_fills cdp_header cdp_compression cdp_buffer cdp_uncompressed_size].
    destruct (dp_header d) as [h|h].
    + destruct (Hcb _ _ _ Hy) as (z & -> & Hz). exact Hz.
    + destruct Hy as (n & El & Hn & Hy). cbn [app] in Hy. destruct (Hcb _ _ _ Hy) as (z & -> & Hz).
      intros _ off Ho' _ _. rewrite El in Ho'. apply Ok_inj in Ho'. subst off.
      assert (Hlen : length (firstn (N.to_nat n) (dp_buffer d)) = N.to_nat n)
        by (rewrite firstn_length; unfold nlen in *; lia).
      rewrite skipn_app, Hlen, Nat.sub_diag, skipn_all2, skipn_O by lia. cbn [app].
      replace (nlen (dp_buffer d) - n) with (nlen (skipn (N.to_nat n) (dp_buffer d)))
        by (unfold nlen in *; rewrite skipn_length; lia).
      exact Hz.
  - unfold compress_dict in H.
    assert (E : exists y, compress_bytes C o (di_buffer d) [] = Ok y /\
              cp = CDict (mk_cdict y (options_compression o) (di_num_values d) (nlen (di_buffer d)) (di_is_sorted d))).
    { destruct o; try congruence; destruct (compress_bytes C _ (di_buffer d) []); try discriminate; cbn [bind rmap] in H;
        apply Ok_inj in H; eauto. }
    destruct E as (y & Hy & ->). destruct (Hcb _ _ _ Hy) as (z & -> & Hz). exact Hz.
Qed.

(** * Hadoop frames *)

Lemma be_acc l : forall acc, be acc l = acc * 256 ^ nlen l + be 0 l.
Proof.
  induction l as [|b l IH]; intro acc; cbn [be].
  - unfold nlen; cbn [length N.of_nat]. rewrite N.pow_0_r. lia.
  - rewrite (IH (acc * 256 + b)), (IH (0 * 256 + b)).
    unfold nlen; cbn [length]. rewrite Nat2N.inj_succ, N.pow_succ_r'. ring.
Qed.
Lemma be_be32 v : v < two32 -> be 0 (be32 v) = v.
Proof.
  intro H. unfold two32 in H. unfold be32. cbn [be].
  pose proof (N.div_mod v 256 ltac:(lia)). pose proof (N.div_mod (v / 256) 256 ltac:(lia)).
  pose proof (N.div_mod (v / 65536) 256 ltac:(lia)).
  assert (v / 65536 = v / 256 / 256) by (rewrite N.div_div by lia; reflexivity).
  assert (v / 16777216 = v / 65536 / 256) by (rewrite N.div_div by lia; reflexivity).
  assert (v / 16777216 mod 256 = v / 16777216).
  { apply N.mod_small. apply N.div_lt_upper_bound; lia. }
  lia.
Qed.

Lemma firstn_nlen_app {A} (x r : list A) n : n = nlen x -> firstn (N.to_nat n) (x ++ r) = x.
Proof.
  intros ->. unfold nlen. rewrite Nat2N.id, firstn_app, Nat.sub_diag, firstn_all, firstn_O. apply app_nil_r.
Qed.
Lemma skipn_nlen_app {A} (x r : list A) n : n = nlen x -> skipn (N.to_nat n) (x ++ r) = r.
Proof.
  intros ->. unfold nlen. rewrite Nat2N.id, skipn_app, Nat.sub_diag, skipn_all. reflexivity.
Qed.

(** One turn of the loop on a whole frame. *)
Lemma hadoop_frame C f fuel rest done out :
  frame_ok C f -> nlen (fst f) <= nlen out ->
  hadoop_loop C (S fuel) (frame_bytes f ++ rest) (nlen (frame_bytes f ++ rest)) done out =
    if nlen (snd f) <? nlen rest then
      hadoop_loop C fuel rest (nlen rest) (done ++ fst f) (skipn (length (fst f)) out)
    else (done ++ fst f ++ skipn (length (fst f)) out, if nlen rest =? 0 then Ok tt else Err OutOfSpec).
Proof.
  intros (H1 & H2 & Hd) Hout. cbn [hadoop_loop].
  assert (Hn : nlen (frame_bytes f ++ rest) = 8 + nlen (snd f) + nlen rest).
  { unfold frame_bytes. rewrite !nlen_app. change (nlen (be32 (nlen (fst f)))) with 4.
    change (nlen (be32 (nlen (snd f)))) with 4. lia. }
  rewrite Hn. replace (8 <=? 8 + nlen (snd f) + nlen rest) with true by lia.
  replace (firstn 4 (frame_bytes f ++ rest)) with (be32 (nlen (fst f))) by reflexivity.
  replace (firstn 4 (skipn 4 (frame_bytes f ++ rest))) with (be32 (nlen (snd f))) by reflexivity.
  replace (skipn 8 (frame_bytes f ++ rest)) with (snd f ++ rest) by reflexivity.
  rewrite !be_be32 by assumption. cbv zeta.
  replace (8 + nlen (snd f) + nlen rest - 8 <? nlen (snd f)) with false by lia.
  replace (nlen out <? nlen (fst f)) with false by lia.
  rewrite firstn_nlen_app, Hd by (auto || lia). unfold block_into. cbn [fst snd]. rewrite N.eqb_refl.
  replace (8 + nlen (snd f) + nlen rest - 8 - nlen (snd f)) with (nlen rest) by lia.
  rewrite skipn_nlen_app by reflexivity.
  assert (Hw : write_prefix (fst f) out = fst f ++ skipn (length (fst f)) out).
  { unfold write_prefix. rewrite firstn_all2 by (unfold nlen in Hout; lia). reflexivity. }
  rewrite Hw, firstn_nlen_app, skipn_nlen_app by reflexivity. reflexivity.
Qed.

Lemma frames_content_cons f fs : frames_content (f :: fs) = fst f ++ frames_content fs.
Proof. reflexivity. Qed.
Lemma frames_bytes_cons f fs : frames_bytes (f :: fs) = frame_bytes f ++ frames_bytes fs.
Proof. reflexivity. Qed.
Lemma frame_bytes_length f : nlen (frame_bytes f) = 8 + nlen (snd f).
Proof.
  unfold frame_bytes. rewrite !nlen_app. change (nlen (be32 (nlen (fst f)))) with 4.
  change (nlen (be32 (nlen (snd f)))) with 4. lia.
Qed.

Lemma hadoop_frames C fs : forall fuel done out,
  Forall (frame_ok C) fs -> fs <> [] -> nlen (frames_content fs) <= nlen out -> (length fs <= fuel)%nat ->
  (tails_longer fs ->
    hadoop_loop C fuel (frames_bytes fs) (nlen (frames_bytes fs)) done out =
      (done ++ frames_content fs ++ skipn (length (frames_content fs)) out, Ok tt)) /\
  (~ tails_longer fs ->
    snd (hadoop_loop C fuel (frames_bytes fs) (nlen (frames_bytes fs)) done out) = Err OutOfSpec).
Proof.
  induction fs as [|f fs IH]; intros fuel done out Hok Hne Hout Hfuel; [congruence|].
  destruct fuel as [|fuel]; [cbn [length] in Hfuel; lia|].
  rewrite frames_bytes_cons, frames_content_cons in *. rewrite nlen_app in Hout.
  rewrite hadoop_frame by (exact (Forall_inv Hok) || lia).
  destruct fs as [|g fs].
  - cbn [tails_longer]. split; [intros _|intro H; elim H; exact I].
    replace (nlen (snd f) <? nlen (frames_bytes [])) with false by (unfold nlen, frames_bytes; cbn; lia).
    unfold frames_content; cbn [map concat]. rewrite app_nil_r. reflexivity.
  - change (tails_longer (f :: g :: fs)) with (nlen (snd f) < nlen (frames_bytes (g :: fs)) /\ tails_longer (g :: fs)).
    destruct (nlen (snd f) <? nlen (frames_bytes (g :: fs))) eqn:E.
    + specialize (IH fuel (done ++ fst f) (skipn (length (fst f)) out) (Forall_inv_tail Hok) ltac:(discriminate)).
      specialize (IH ltac:(unfold nlen in *; rewrite skipn_length; lia) ltac:(cbn [length] in *; lia)).
      destruct IH as [IH1 IH2]. split.
      * intros [_ Ht]. rewrite (IH1 Ht), <- app_assoc. f_equal. rewrite <- app_assoc. do 3 f_equal.
        rewrite app_length. clear. generalize (length (frames_content (g :: fs))) as k. intro k.
        revert out. induction (fst f) as [|a l IH]; intro out; cbn [length Nat.add skipn]; [reflexivity|].
        destruct out; [destruct k; reflexivity|apply IH].
      * intro Hn. apply IH2. intro Ht. apply Hn. split; [lia|exact Ht].
    + split; [intros [Hl _]; lia|]. intros _. cbn [snd].
      replace (nlen (frames_bytes (g :: fs)) =? 0) with false; [reflexivity|].
      rewrite frames_bytes_cons, nlen_app, frame_bytes_length. lia.
Qed.

Lemma frames_bytes_fuel fs : (length fs <= length (frames_bytes fs))%nat.
Proof.
  induction fs as [|f fs IH]; [reflexivity|]. rewrite frames_bytes_cons, app_length.
  pose proof (frame_bytes_length f). unfold nlen in *. cbn [length]. lia.
Qed.

Lemma try_hadoop_frames C fs out :
  Forall (frame_ok C) fs -> nlen (frames_content fs) = nlen out ->
  (tails_longer fs -> try_decompress_hadoop C (frames_bytes fs) out = (frames_content fs, Ok tt)) /\
  (~ tails_longer fs -> snd (try_decompress_hadoop C (frames_bytes fs) out) = Err OutOfSpec).
Proof.
  intros Hok Hout. unfold try_decompress_hadoop. destruct fs as [|f fs].
  - cbn [tails_longer]. split; [intros _|intro H; elim H; exact I].
    destruct out; [reflexivity|]. unfold nlen, frames_content in Hout. cbn in Hout. lia.
  - pose proof (hadoop_frames C (f :: fs) (S (length (frames_bytes (f :: fs)))) [] out Hok ltac:(discriminate) ltac:(lia)
      ltac:(pose proof (frames_bytes_fuel (f :: fs)); lia)) as [H1 H2].
    split; [|exact H2]. intro Ht. rewrite (H1 Ht). cbn [app].
    rewrite skipn_all2 by (unfold nlen in Hout; lia). rewrite app_nil_r. reflexivity.
Qed.
