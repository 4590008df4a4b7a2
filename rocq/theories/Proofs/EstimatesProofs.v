(** Lemmas for Props/Estimates.v. *)
From Verif Require Import Base.Prelude Base.Iter Model.Uleb128 Model.Bitpacked Model.HybridRle Model.DeltaBitpacked Model.Estimates Spec.Bits Spec.RleSpec Spec.EstimatesSpec
  Proofs.BitsFacts Proofs.UlebProofs Proofs.BitpackedProofs Proofs.HybridRleProofs Proofs.HybridEncProofs Proofs.BitmapProofs Proofs.DeltaEncProofs.
Open Scope N_scope.

(** * Numbers *)

Lemma encode_u32_exact l w : encode_u32_est (mk_es l (fun _ => Some (length l))) w = encode_u32 l w.
Proof. reflexivity. Qed.

Lemma chunks_suffix w x : forall k items buffer, (32 * k <= length items)%nat ->
  bp_u32_chunks w k (items ++ x) buffer = let* (o, r, b) := bp_u32_chunks w k items buffer in Ok (o, r ++ x, b).
Proof.
  induction k as [|k IH]; intros items buffer Hl; [ reflexivity | ]. cbn [bp_u32_chunks].
  rewrite firstn_app, skipn_app. replace (32 - length items)%nat with 0%nat by lia. rewrite firstn_O, skipn_O, app_nil_r.
  destruct (encode_pack 4 _ w (repeat 0 128)) as [p| |]; cbn [bind]; try reflexivity.
  destruct (slice_to _ p) as [o| |]; cbn [bind]; try reflexivity.
  rewrite IH by (rewrite skipn_length; lia). destruct (bp_u32_chunks w k (skipn 32 items) _) as [[[o2 r2] b2]| |]; reflexivity.
Qed.

Lemma chunks_buffer w : forall k items buffer o r b, length buffer = 32%nat -> bp_u32_chunks w k items buffer = Ok (o, r, b) ->
  length b = 32%nat /\ incl b (items ++ buffer) /\ r = skipn (32 * k) items.
Proof.
  induction k as [|k IH]; intros items buffer o r b Hb E; cbn [bp_u32_chunks] in E.
  - injection E as <- <- <-. split; [ exact Hb | ]. split; [ apply incl_appr, incl_refl | reflexivity ].
  - set (buf := firstn 32 items ++ skipn (length (firstn 32 items)) buffer) in *.
    destruct (encode_pack 4 buf w (repeat 0 128)) as [p| |]; cbn [bind] in E; try discriminate.
    destruct (slice_to _ p) as [s| |]; cbn [bind] in E; try discriminate.
    destruct (bp_u32_chunks w k (skipn 32 items) buf) as [[[o2 r2] b2]| |] eqn:E2; cbn [bind] in E; try discriminate.
    injection E as _ <- <-. apply IH in E2 as (H1 & H2 & H3).
    2:{ unfold buf. rewrite app_length, skipn_length, firstn_length. lia. }
    split; [ exact H1 | ]. split.
    + intros x Hx. apply H2 in Hx. apply in_app_or in Hx as [Hx|Hx].
      * apply in_or_app. left. rewrite <- (firstn_skipn 32 items). apply in_or_app. right. exact Hx.
      * unfold buf in Hx. apply in_app_or in Hx as [Hx|Hx]; apply in_or_app.
        -- left. rewrite <- (firstn_skipn 32 items). apply in_or_app. left. exact Hx.
        -- right. rewrite <- (firstn_skipn (length (firstn 32 items)) buffer). apply in_or_app. right. exact Hx.
    + rewrite H3, skipn_skipn_add. f_equal. lia.
Qed.

(** Blocks that the items do not fill are filled with what is in the buffer. *)
Lemma chunks_pad w : forall k items buffer, length buffer = 32%nat ->
  exists pad, bp_u32_chunks w k items buffer = bp_u32_chunks w k (items ++ pad) buffer /\ incl pad (items ++ buffer) /\
    (length items + length pad = Nat.max (32 * k) (length items))%nat.
Proof.
  induction k as [|k IH]; intros items buffer Hb.
  - exists []. rewrite app_nil_r. split; [ reflexivity | ]. split; [ intros x [] | cbn [length]; lia ].
  - destruct (Nat.le_gt_cases 32 (length items)) as [Hl|Hl].
    + destruct (IH (skipn 32 items) (firstn 32 items)) as (pad & E & Hi & Hn); [ apply firstn_length_le; lia | ].
      rewrite skipn_length in Hn. exists pad. split; [ | split; [ | lia ] ].
      * cbn [bp_u32_chunks]. rewrite firstn_app, skipn_app. replace (32 - length items)%nat with 0%nat by lia. rewrite firstn_O, skipn_O, app_nil_r.
        assert (H32 : length (firstn 32 items) = 32%nat) by (apply firstn_length_le; lia). rewrite H32, skipn_all2, app_nil_r by lia. rewrite E. reflexivity.
      * intros x Hx. apply Hi in Hx. apply in_or_app. left. rewrite <- (firstn_skipn 32 items). apply in_app_or in Hx. apply in_or_app. tauto.
    + set (b1 := items ++ skipn (length items) buffer).
      assert (Hb1 : length b1 = 32%nat) by (unfold b1; rewrite app_length, skipn_length; lia).
      destruct (IH [] b1 Hb1) as (pad & E & Hi & Hn). cbn [length app] in *.
      exists (skipn (length items) buffer ++ pad). split; [ | split ].
      * cbn [bp_u32_chunks]. rewrite (firstn_all2 items) by lia. rewrite (skipn_all2 items) by lia. fold b1.
        replace (items ++ skipn (length items) buffer ++ pad) with (b1 ++ pad) by (unfold b1; rewrite <- app_assoc; reflexivity).
        rewrite firstn_app, skipn_app, Hb1, Nat.sub_diag, firstn_O, skipn_O, app_nil_r. rewrite (firstn_all2 b1) by lia. rewrite (skipn_all2 b1) by lia.
        rewrite Hb1, skipn_all2, app_nil_r by lia. cbn [app]. rewrite E. reflexivity.
      * intros x Hx. apply in_app_or in Hx as [Hx|Hx].
        -- apply in_or_app. right. rewrite <- (firstn_skipn (length items) buffer). apply in_or_app. right. exact Hx.
        -- apply Hi in Hx. unfold b1 in Hx. apply in_app_or in Hx as [Hx|Hx]; apply in_or_app; [ left; exact Hx | right ].
           rewrite <- (firstn_skipn (length items) buffer). apply in_or_app. right. exact Hx.
      * rewrite app_length, skipn_length. lia.
Qed.

(** An estimate that is too high is the encoding of more items. *)
Lemma encode_u32_pad w len items : (length items <= len)%nat ->
  exists pad, bitpacked_encode_u32_est w len items = bitpacked_encode_u32 w (items ++ pad) /\ incl pad (items ++ repeat 0 32) /\ length (items ++ pad) = len.
Proof.
  intros Hl. unfold bitpacked_encode_u32_est.
  assert (Hk : (32 * (len / 32) <= len < 32 * (len / 32) + 32)%nat) by (Z.to_euclidean_division_equations; lia).
  set (k := (len / 32)%nat) in *. destruct (chunks_pad w k items (repeat 0 32) (repeat_length _ _)) as (pad & E & Hi & Hn).
  rewrite E. destruct (bp_u32_chunks w k (items ++ pad) (repeat 0 32)) as [[[o r] b]| |] eqn:E2; cbn [bind].
  - destruct (chunks_buffer _ _ _ _ _ _ _ (repeat_length _ _) E2) as (Hb & Hbi & Hr).
    assert (Hrl : length r = (length items + length pad - 32 * k)%nat) by (rewrite Hr, skipn_length, app_length; lia).
    set (pad2 := firstn (len - 32 * k - length r) (skipn (length r) b)).
    assert (Hp2 : length pad2 = (len - 32 * k - length r)%nat) by (unfold pad2; rewrite firstn_length, skipn_length; lia).
    exists (pad ++ pad2). assert (Hlen : length (items ++ pad ++ pad2) = len) by (rewrite !app_length; lia).
    split; [ | split; [ | exact Hlen ] ].
    + unfold bitpacked_encode_u32. rewrite Hlen. fold k. rewrite app_assoc, chunks_suffix by (rewrite app_length; lia). rewrite E2. cbn [bind].
      destruct (len - k * 32 =? 0)%nat eqn:Z; [ reflexivity | ].
      rewrite (firstn_all2 r) by lia. rewrite (firstn_all2 (r ++ pad2)) by (rewrite app_length; lia).
      replace ((r ++ pad2) ++ skipn (length (r ++ pad2)) b) with (r ++ skipn (length r) b); [ reflexivity | ].
      rewrite <- app_assoc. f_equal. rewrite app_length, Hp2. unfold pad2.
      replace (length r + (len - 32 * k - length r))%nat with (length r + (len - 32 * k - length r))%nat by reflexivity.
      rewrite <- (skipn_skipn_add (len - 32 * k - length r) (length r) b). symmetry. apply firstn_skipn.
    + assert (Hb2 : incl b (items ++ repeat 0 32)).
      { intros x Hx. apply Hbi in Hx. apply in_app_or in Hx as [Hx|Hx]; [ | apply in_or_app; right; exact Hx ].
        apply in_app_or in Hx as [Hx|Hx]; [ apply in_or_app; left; exact Hx | exact (Hi _ Hx) ]. }
      intros x Hx. apply in_app_or in Hx as [Hx|Hx]; [ exact (Hi _ Hx) | ]. apply Hb2. rewrite <- (firstn_skipn (length r) b). apply in_or_app. right.
      rewrite <- (firstn_skipn (len - 32 * k - length r) (skipn (length r) b)). apply in_or_app. left. exact Hx.
  - exists (pad ++ repeat 0 (len - length (items ++ pad))).
    assert (Hlen : length (items ++ pad ++ repeat 0 (len - length (items ++ pad))) = len) by (rewrite !app_length, repeat_length; lia).
    split; [ | split; [ | exact Hlen ] ].
    + unfold bitpacked_encode_u32. rewrite Hlen. fold k. rewrite app_assoc, chunks_suffix by (rewrite app_length; lia). rewrite E2. reflexivity.
    + intros x Hx. apply in_app_or in Hx as [Hx|Hx]; [ exact (Hi _ Hx) | ]. apply repeat_spec in Hx as ->. apply in_or_app. right. left. reflexivity.
  - exists (pad ++ repeat 0 (len - length (items ++ pad))).
    assert (Hlen : length (items ++ pad ++ repeat 0 (len - length (items ++ pad))) = len) by (rewrite !app_length, repeat_length; lia).
    split; [ | split; [ | exact Hlen ] ].
    + unfold bitpacked_encode_u32. rewrite Hlen. fold k. rewrite app_assoc, chunks_suffix by (rewrite app_length; lia). rewrite E2. reflexivity.
    + intros x Hx. apply in_app_or in Hx as [Hx|Hx]; [ exact (Hi _ Hx) | ]. apply repeat_spec in Hx as ->. apply in_or_app. right. left. reflexivity.
Qed.

Lemma pval_prefix w a b : Forall (fits w) a -> pval w (a ++ b) mod 2 ^ N.of_nat (length a * w) = pval w a.
Proof.
  intros Ha. rewrite pval_app. rewrite N.mul_comm, N.mod_add by (apply N.pow_nonzero; discriminate). apply N.mod_small. apply pval_bound. exact Ha.
Qed.

Lemma mod_pow_prefix x a b : (a <= b)%nat -> (x mod 2 ^ N.of_nat b) mod 2 ^ N.of_nat a = x mod 2 ^ N.of_nat a.
Proof.
  intros H. apply N.bits_inj; intro j. destruct (N.lt_ge_cases j (N.of_nat a)) as [Hj|Hj].
  - rewrite !(N.mod_pow2_bits_low _ (N.of_nat a)) by assumption. apply N.mod_pow2_bits_low. lia.
  - rewrite !(N.mod_pow2_bits_high _ (N.of_nat a)) by assumption. reflexivity.
Qed.

Lemma encode_u32_est_roundtrip m w it h : (w <= 32)%nat -> Forall (fits w) (es_items it) -> es_upper it 0 = Some h ->
  (length (es_items it) <= h)%nat -> N.of_nat h < 2 ^ 56 ->
  exists out s, encode_u32_est it (N.of_nat w) = Ok out /\ hr_try_new m out w (nlen (es_items it)) = Ok s /\
    yields (hr_next m) (fun s r => hr_size_hint s = nlen r) s (es_items it).
Proof.
  intros Hw Hf Hu Hl Hn. set (l := es_items it) in *. unfold encode_u32_est, upper. rewrite Hu. cbn [bind].
  assert (Hn61 : N.of_nat h < 2 ^ 61).
  { change (2 ^ 56) with 72057594037927936 in Hn. change (2 ^ 61) with 2305843009213693952. lia. }
  destruct (bitpacked_header_spec h Hn61) as (hd & Eh & Hh). rewrite Eh. cbn [bind]. rewrite N.mod_small by lia. rewrite Nnat.Nat2N.id.
  fold l. destruct (encode_u32_pad w h l Hl) as (pad & -> & Hi & Hlen).
  destruct (Nat.eq_dec w 0) as [->|Hw0].
  - destruct (bitpacked_encode_u32_zero (l ++ pad)) as (out & ->). cbn [bind].
    destruct (hr_zero_bits m (hd ++ out) (length l)) as (s & Es & Hy).
    exists (hd ++ out), s. split; [reflexivity|]. split; [exact Es|].
    replace l with (repeat 0 (length l)) at 1; [exact Hy|].
    clear - Hf. induction Hf as [|x l Hx Hf IH]; [reflexivity|]. cbn [length repeat]. f_equal; [|exact IH].
    unfold fits in Hx. change (2 ^ N.of_nat 0) with 1 in Hx. lia.
  - assert (Hfp : Forall (fits w) (l ++ pad)).
    { apply Forall_app. split; [ exact Hf | ]. apply Forall_forall. intros x Hx. apply Hi in Hx. apply in_app_or in Hx as [Hx|Hx].
      - rewrite Forall_forall in Hf. exact (Hf x Hx).
      - apply repeat_spec in Hx as ->. unfold fits. apply N.neq_0_lt_0, N.pow_nonzero. discriminate. }
    destruct (bitpacked_encode_u32_spec w (l ++ pad)) as (out & Eo & Hlo & Hoo & Hle); [lia|assumption|].
    rewrite Eo. cbn [bind]. rewrite Hlen in Hlo, Hle.
    pose proof (ceil8_ge (h * w)) as [Hc1 Hc2]. pose proof (ceil8_ge h) as [Hd1 Hd2].
    change (2 ^ 56) with 72057594037927936 in Hn.
    destruct (hr_decodes_short_packed m w hd out l (N.of_nat (ceil8 h))) as (s & Es & Hy); try assumption; try lia.
    + unfold nlen. rewrite Hlo. change (2 ^ 61) with 2305843009213693952. nia.
    + rewrite Hlo. apply Nat.div_le_lower_bound; [ lia | ]. nia.
    + change (2 ^ 64) with 18446744073709551616. nia.
    + unfold nlen. rewrite Hlo. nia.
    + rewrite <- (mod_pow_prefix _ (length l * w) (h * w)) by nia. rewrite Hle. apply pval_prefix. exact Hf.
    + exists (hd ++ out), s. split; [reflexivity|]. split; assumption.
Qed.

(** * Booleans *)

Lemma bool_chunks_short : forall k items, (length items < 8 * k)%nat -> bool_chunks k items = Panic.
Proof.
  induction k as [|k IH]; intros items H; [ lia | ]. cbn [bool_chunks]. destruct (length items <? 8)%nat eqn:E; [ reflexivity | ].
  assert (H8 : length (firstn 8 items) = 8%nat) by (apply firstn_length_le; lia).
  rewrite bool_byte_spec by (try reflexivity; lia). cbn [bind]. rewrite IH by (rewrite skipn_length; lia). reflexivity.
Qed.

Lemma bool_chunks_suffix x : forall k items, (8 * k <= length items)%nat ->
  bool_chunks k (items ++ x) = let* (o, r) := bool_chunks k items in Ok (o, r ++ x).
Proof.
  induction k as [|k IH]; intros items H; [ reflexivity | ]. cbn [bool_chunks]. rewrite app_length.
  replace (length items + length x <? 8)%nat with false by lia. replace (length items <? 8)%nat with false by lia.
  rewrite firstn_app, skipn_app. replace (8 - length items)%nat with 0%nat by lia. rewrite firstn_O, skipn_O, app_nil_r.
  destruct (bool_byte 0 0 (firstn 8 items)) as [b| |]; cbn [bind]; try reflexivity. rewrite IH by (rewrite skipn_length; lia).
  destruct (bool_chunks k (skipn 8 items)) as [[o r]| |]; reflexivity.
Qed.

Lemma bool_byte_false n : forall items i byte, bool_byte i byte (items ++ repeat false n) = bool_byte i byte items.
Proof.
  induction items as [|v items IH]; intros i byte; cbn [app bool_byte].
  - revert i. induction n as [|n IH]; intros i; [ reflexivity | ]. cbn [repeat bool_byte bind]. apply IH.
  - destruct (if v then set_bit byte i else Ok byte) as [b| |]; cbn [bind]; try reflexivity. apply IH.
Qed.

Lemma bitmap_pad h items : (length items <= h)%nat -> (length items / 8 = h / 8)%nat ->
  bitmap_encode_est h items = bitmap_encode (items ++ repeat false (h - length items)).
Proof.
  intros Hl Hd. unfold bitmap_encode_est, bitmap_encode. rewrite app_length, repeat_length. replace (length items + (h - length items))%nat with h by lia.
  assert (H8 : (8 * (h / 8) <= length items)%nat) by (rewrite <- Hd; Z.to_euclidean_division_equations; lia).
  rewrite bool_chunks_suffix by exact H8. destruct (bool_chunks (h / 8) items) as [[o r]| |]; cbn [bind]; try reflexivity.
  destruct (h mod 8 =? 0)%nat; [ reflexivity | ]. rewrite bool_byte_false. reflexivity.
Qed.

(** * Integers *)

Lemma enc_scan_values m : forall items prev mn mx nb r1 r2 vs lst, enc_scan m prev mn mx nb items = Ok (r1, r2, vs, lst) -> length vs = length items.
Proof.
  induction items as [|x r IH]; intros prev mn mx nb r1 r2 vs lst E; cbn [enc_scan] in E.
  - injection E as _ _ <- _. reflexivity.
  - destruct (ssub m 64 x prev) as [d| |]; cbn [bind] in E; try discriminate. cbv zeta in E.
    destruct (ssub m 64 _ _) as [df| |]; cbn [bind] in E; try discriminate.
    destruct (enc_scan m x _ _ _ r) as [[[[a b] c] e]| |] eqn:E2; cbn [bind] in E; try discriminate.
    injection E as _ _ <- _. cbn [length]. f_equal. eapply IH. exact E2.
Qed.

Lemma enc_blocks_exact m it : exact it -> N.of_nat (length (es_items it)) < 2 ^ 64 -> forall fuel calls prev items values deltas,
  (length items <= fuel)%nat -> length values = 128%nat -> length items = (length (es_items it) - calls)%nat ->
  enc_blocks_est m fuel it calls prev items (length items) values deltas = Some (enc_blocks m fuel prev items deltas).
Proof.
  intros Hex H64. induction fuel as [|f IH]; intros calls prev items values deltas Hf Hv Hc.
  - destruct items; [ reflexivity | cbn [length] in Hf; lia ].
  - cbn [enc_blocks_est enc_blocks]. destruct items as [|x0 r0] eqn:Eit; [ reflexivity | ]. rewrite <- Eit in *.
    assert (Hpos : (0 < length items)%nat) by (rewrite Eit; cbn [length]; lia). clear Eit x0 r0.
    destruct (length items) as [|n'] eqn:El; [ lia | ]. rewrite <- El in *. clear n' El.
    destruct (enc_scan m prev i64_max i64_min 0 (firstn 128 items)) as [[[[mn nb] vs] lst]| |] eqn:Es; cbn [bind]; try reflexivity.
    apply enc_scan_values in Es. rewrite firstn_length in Es.
    unfold upper. rewrite Hex. cbn [bind].
    assert (Hz : (length (es_items it) - (calls + zip_calls items) = length items - length vs)%nat).
    { unfold zip_calls. destruct (length items <? 128)%nat eqn:E; lia. }
    rewrite Hz. unfold usub. replace (N.of_nat (length items) <? N.of_nat (length items - length vs)) with false by lia.
    replace (N.of_nat (length items - length vs) <=? N.of_nat (length items)) with true by lia.
    cbn [bind]. replace (N.to_nat (N.min (N.of_nat (length items) - N.of_nat (length items - length vs)) 128)) with (length vs) by lia.
    rewrite firstn_app, firstn_all, Nat.sub_diag. cbn [firstn]. rewrite app_nil_r.
    destruct (enc_rel m mn vs) as [rel| |]; cbn [bind]; try reflexivity.
    destruct (zigzag_bytes mn) as [hd| |]; cbn [bind]; try reflexivity.
    destruct (write_miniblock nb _) as [body| |]; cbn [bind]; try reflexivity.
    replace (length items - length vs)%nat with (length (skipn 128 items)) by (rewrite skipn_length; lia).
    rewrite IH.
    + destruct (enc_blocks m f lst (skipn 128 items) _) as [rest| |]; cbn [bind]; try reflexivity. rewrite <- !app_assoc. reflexivity.
    + rewrite skipn_length. lia.
    + rewrite app_length, skipn_length. lia.
    + rewrite skipn_length, Hz, Es. lia.
Qed.

Lemma uleb_decode_prefix : forall l rest r s c, (exists b, In b l /\ N.land b 128 = 0) -> uleb_decode_go (l ++ rest) r s c = uleb_decode_go l r s c.
Proof.
  induction l as [|x l IH]; intros rest r s c (b & Hb & Hz); [ destruct Hb | ]. cbn [app uleb_decode_go].
  destruct ((s =? 63) && (1 <? x)); [ reflexivity | ]. destruct (N.land x 128 =? 0) eqn:E; [ reflexivity | ].
  apply IH. destruct Hb as [-> | Hb]; [ rewrite Hz in E; discriminate | ]. eauto.
Qed.

Lemma uleb_decode_any v rest : v < two64 -> uleb_decode (uleb_enc 10 v ++ rest) = Ok (v, length (uleb_enc 10 v)).
Proof.
  intros Hv. rewrite <- (uleb_decode_enc v []) by (try exact Hv; constructor). rewrite app_nil_r. apply uleb_decode_prefix.
  destruct (uleb_enc_split 10 v) as (init & lst & -> & _ & Hlast); [ unfold two64 in Hv; change (2 ^ (7 * N.of_nat 10)) with 1180591620717411303424; lia | lia | ].
  exists lst. split; [ apply in_or_app; right; left; reflexivity | ]. apply N.bits_inj_0. intro j. rewrite N.land_spec. change 128 with (2 ^ 7).
  rewrite N.pow2_bits_eqb. destruct (7 =? j) eqn:E; [ | apply andb_false_r ]. apply N.eqb_eq in E as <-. rewrite andb_true_r.
  rewrite <- (N.mod_small lst (2 ^ 7)) by exact Hlast. apply N.mod_pow2_bits_high. lia.
Qed.

Lemma delta_announces m m' fuel it h out d : es_upper it 0 = Some h -> N.of_nat h < 2 ^ 64 -> delta_encode_est m fuel it = Some (Ok out) ->
  delta_try_new m' out = Ok d -> delta_size_hint d = N.of_nat h.
Proof.
  intros Hu H64 E Ed. unfold delta_encode_est, upper in E. rewrite Hu in E. rewrite (uleb_bytes_enc 128), (uleb_bytes_enc 1) in E by (unfold two64; lia). cbn [bind] in E.
  rewrite (uleb_bytes_enc (N.of_nat h)) in E by (unfold two64; change (2 ^ 64) with 18446744073709551616 in H64; lia). cbn [bind] in E.
  destruct (zigzag_bytes _) as [h4| |]; cbn [bind] in E; try discriminate.
  destruct (es_upper it 1) as [len|]; cbn [bind] in E; try discriminate.
  destruct (enc_blocks_est _ _ _ _ _ _ _ _ _) as [[body| |]|]; cbn [bind] in E; try discriminate.
  apply (f_equal (fun x => match x with Some (Ok o) => o | _ => [] end)) in E. cbv beta iota in E. subst out.
  unfold delta_try_new in Ed. rewrite <- !app_assoc in Ed. rewrite uleb_decode_any in Ed by reflexivity. cbn [bind] in Ed. change (negb (128 mod 128 =? 0)) with false in Ed. cbv iota in Ed.
  rewrite slice_from_app in Ed. cbn [bind] in Ed. rewrite uleb_decode_any in Ed by reflexivity. cbn [bind] in Ed. rewrite slice_from_app in Ed. cbn [bind] in Ed.
  rewrite uleb_decode_any in Ed by (unfold two64; change (2 ^ 64) with 18446744073709551616 in H64; lia). cbn [bind] in Ed. rewrite slice_from_app in Ed. cbn [bind] in Ed.
  destruct (zigzag_decode _) as [[fv c4]| |]; cbn [bind] in Ed; try discriminate. destruct (slice_from c4 _) as [vs| |]; cbn [bind] in Ed; try discriminate.
  change (1 =? 0) with false in Ed. cbv iota zeta in Ed. change (negb ((128 / 1) mod 8 =? 0)) with false in Ed. cbv iota in Ed.
  destruct (if 1 <? N.of_nat h then _ else _) as [cb| |]; cbn [bind] in Ed; try discriminate. injection Ed as <-. reflexivity.
Qed.

Lemma enc_blocks_fuel m : forall f f2 prev items deltas, (length items <= f)%nat -> (length items <= f2)%nat -> enc_blocks m f prev items deltas = enc_blocks m f2 prev items deltas.
Proof.
  induction f as [|f IH]; intros f2 prev items deltas H1 H2; [ destruct items; [ destruct f2; reflexivity | cbn [length] in H1; lia ] | ].
  destruct f2 as [|f2]; [ destruct items; [ reflexivity | cbn [length] in H2; lia ] | ].
  cbn [enc_blocks]. destruct items as [|x r] eqn:E; [ reflexivity | ]. rewrite <- E in *. assert (0 < length items)%nat by (rewrite E; cbn [length]; lia). clear E.
  destruct (enc_scan m prev i64_max i64_min 0 (firstn 128 items)) as [[[[mn nb] vs] lst]| |]; cbn [bind]; try reflexivity.
  destruct (enc_rel m mn vs) as [rel| |]; cbn [bind]; try reflexivity. destruct (zigzag_bytes mn); cbn [bind]; try reflexivity.
  destruct (write_miniblock nb _); cbn [bind]; try reflexivity. rewrite (IH f2) by (rewrite skipn_length; lia). reflexivity.
Qed.

Lemma delta_encode_exact m fuel it : exact it -> N.of_nat (length (es_items it)) < 2 ^ 64 -> (length (es_items it) <= fuel)%nat ->
  delta_encode_est m fuel it = Some (delta_encode m (es_items it)).
Proof.
  intros Hex H64 Hf. unfold delta_encode_est, delta_encode, upper. rewrite !Hex, Nat.sub_0_r. unfold nlen. cbn [bind].
  destruct (uleb_bytes 128) as [h1| |]; cbn [bind]; try reflexivity. destruct (uleb_bytes 1) as [h2| |]; cbn [bind]; try reflexivity.
  destruct (uleb_bytes _) as [h3| |]; cbn [bind]; try reflexivity. destruct (zigzag_bytes _) as [h4| |]; cbn [bind]; try reflexivity.
  set (first := match es_items it with [] => 0%Z | x :: _ => x end).
  replace (length (es_items it) - 1)%nat with (length (skipn 1 (es_items it))) by (rewrite skipn_length; reflexivity).
  rewrite enc_blocks_exact; try assumption; try (rewrite skipn_length; lia); [ | reflexivity ].
  rewrite (enc_blocks_fuel m fuel (length (es_items it))) by (rewrite skipn_length; lia).
  destruct (enc_blocks m _ first _ _) as [b| |]; cbn [bind]; try reflexivity. rewrite <- !app_assoc. reflexivity.
Qed.

Lemma encode_bool_est_roundtrip m it h : es_upper it 0 = Some h -> (length (es_items it) <= h)%nat -> N.of_nat h < 2 ^ 61 ->
  (length (es_items it) / 8 = h / 8)%nat ->
  exists out s, encode_bool_est it = Ok out /\ hr_try_new m out 1 (nlen (es_items it)) = Ok s /\
    yields (hr_next m) (fun s r => hr_size_hint s = nlen r) s (map N.b2n (es_items it)).
Proof.
  intros Hu Hl Hn Hd. set (l := es_items it) in *. unfold encode_bool_est, upper. rewrite Hu. cbn [bind].
  destruct (bitpacked_header_spec h Hn) as (hd & -> & Hh). cbn [bind]. fold l. rewrite bitmap_pad by assumption.
  destruct (bitmap_encode_spec (l ++ repeat false (h - length l))) as (out & -> & Hlo & Hok & Hs). cbn [bind].
  rewrite app_length, repeat_length in Hlo. replace (length l + (h - length l))%nat with h in Hlo by lia.
  pose proof (ceil8_ge h) as [Hd1 Hd2]. change (2 ^ 61) with 2305843009213693952 in Hn. clear Hd.
  destruct (hr_decodes_short_packed m 1 hd out (map N.b2n l) (N.of_nat (ceil8 h))) as (s & Es & Hy);
    rewrite ?map_length; try assumption.
  - lia.
  - unfold nlen. rewrite Hlo. change (2 ^ 61) with 2305843009213693952. lia.
  - rewrite Nat.div_1_r. lia.
  - change (2 ^ 64) with 18446744073709551616. lia.
  - unfold nlen. rewrite Hlo. lia.
  - apply Forall_forall. intros x Hx. apply in_map_iff in Hx as (b & <- & _). destruct b; reflexivity.
  - rewrite pval1_bits, le_bits_val by assumption. rewrite Hs, <- app_assoc, bits_val_app, bits_val_app, !bits_val_false, N.mul_0_r, N.add_0_r, N.mul_0_r, N.add_0_r.
    apply N.mod_small. rewrite Nat.mul_1_r. apply bits_val_bound.
  - exists (hd ++ out), s. split; [reflexivity|]. unfold nlen in *. rewrite map_length in Es. split; assumption.
Qed.

Lemma encode_bool_est_panics it h : es_upper it 0 = Some h -> N.of_nat h < 2 ^ 61 -> (length (es_items it) / 8 < h / 8)%nat -> encode_bool_est it = Panic.
Proof.
  intros Hu Hn Hd. unfold encode_bool_est, upper. rewrite Hu. cbn [bind]. destruct (bitpacked_header_spec h Hn) as (hd & -> & _). cbn [bind].
  unfold bitmap_encode_est. rewrite bool_chunks_short by (Z.to_euclidean_division_equations; lia). reflexivity.
Qed.

Lemma never_ends m : forall fuel calls prev values deltas, enc_blocks_est m fuel (mk_es [] (fun _ => Some 1%nat)) calls prev [] 1 values deltas = None.
Proof.
  induction fuel as [|f IH]; intros calls prev values deltas; [ reflexivity | ]. cbn [enc_blocks_est]. unfold upper. cbn [es_upper firstn enc_scan bind]. unfold usub.
  change (N.of_nat 1 <=? N.of_nat 1) with true. cbv iota. cbn [bind]. change (N.to_nat (N.min (N.of_nat 1 - N.of_nat 1) 128)) with 0%nat. cbn [firstn enc_rel bind].
  replace (zigzag_bytes i64_max) with (Ok [254; 255; 255; 255; 255; 255; 255; 255; 255; 1]) by (vm_compute; reflexivity). cbn [bind].
  unfold write_miniblock. change (0 <? 0) with false. cbv iota. cbn [bind]. rewrite skipn_nil, IH. reflexivity.
Qed.

Lemma never_ends_encode m fuel : delta_encode_est m fuel (mk_es [] (fun _ => Some 1%nat)) = None.
Proof.
  unfold delta_encode_est, upper. cbn [es_upper es_items bind].
  replace (uleb_bytes 128) with (Ok [128; 1]) by (vm_compute; reflexivity). replace (uleb_bytes 1) with (Ok [1]) by (vm_compute; reflexivity).
  replace (uleb_bytes (N.of_nat 1)) with (Ok [1]) by (vm_compute; reflexivity). replace (zigzag_bytes 0) with (Ok [0]) by (vm_compute; reflexivity).
  cbn [bind]. rewrite skipn_nil, never_ends. reflexivity.
Qed.
