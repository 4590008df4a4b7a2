From Verif Require Import Base.Prelude Base.LeFacts Base.Iter Spec.Bits Spec.UlebSpec Spec.RleSpec
  Model.Uleb128 Model.Bitpacked Model.HybridRle Proofs.UlebProofs Proofs.BitsFacts Proofs.BitpackedProofs
  Proofs.HybridRleProofs.
Open Scope N_scope.

(** *** The encoder of u32 values *)

Lemma skipn_skipn_add {A} a b (l : list A) : skipn a (skipn b l) = skipn (b + a) l.
Proof. revert l; induction b as [|b IH]; intros [|x l]; cbn [skipn Nat.add]; try reflexivity; [apply skipn_nil|apply IH]. Qed.


Lemma ceil8_ge n : (n <= 8 * ceil8 n)%nat /\ (8 * ceil8 n < n + 8)%nat.
Proof. unfold ceil8. destruct (n mod 8 =? 0)%nat eqn:E; Z.to_euclidean_division_equations; lia. Qed.

Lemma encode_pack_32 w buffer : length buffer = 32%nat ->
  encode_pack 4 buffer w (repeat 0 128) = pack 4 buffer (repeat 0 128) w.
Proof.
  intro H. unfold encode_pack. change (packed_len 4) with 128%nat. change (tbits 4) with 32%nat.
  rewrite H. cbn [Nat.ltb Nat.leb Nat.sub repeat]. rewrite app_nil_r. reflexivity.
Qed.

Lemma ceil8_32 w : ceil8 (32 * w) = (4 * w)%nat.
Proof. unfold ceil8. destruct (32 * w mod 8 =? 0)%nat eqn:E; Z.to_euclidean_division_equations; lia. Qed.

Lemma slice_to_ok {A} n (l : list A) : (n <= length l)%nat -> slice_to n l = Ok (firstn n l).
Proof. intro H. unfold slice_to. replace (n <=? length l)%nat with true by lia. reflexivity. Qed.

Lemma bp_u32_chunks_spec w : (0 < w <= 32)%nat -> forall k items buffer,
  (32 * k <= length items)%nat -> length buffer = 32%nat -> Forall (fits w) items ->
  exists out buffer', bp_u32_chunks w k items buffer = Ok (out, skipn (32 * k) items, buffer') /\
    length buffer' = 32%nat /\ length out = (4 * w * k)%nat /\ bytes_ok out /\
    le out = pval w (firstn (32 * k) items).
Proof.
  intros Hw. induction k as [|k IH]; intros items buffer Hl Hb Hf.
  - exists [], buffer. cbn [bp_u32_chunks]. rewrite !Nat.mul_0_r. cbn [skipn firstn]. split; [reflexivity|]. split; [assumption|]. split; [reflexivity|]. split; [constructor|reflexivity].
  - cbn [bp_u32_chunks].
    assert (H32 : length (firstn 32 items) = 32%nat) by (apply firstn_length_le; lia).
    rewrite H32, skipn_all2, app_nil_r by lia.
    rewrite encode_pack_32 by assumption.
    destruct (pack_fits 4 w (firstn 32 items) (repeat 0 128)) as (out' & Ep & Hlo & Hoo & Hle).
    { exact Hw. } { apply Forall_firstn; assumption. } { exact H32. } { apply zeros_le. }
    { rewrite repeat_length. lia. } { apply zeros_le. }
    rewrite Ep. cbn [bind]. rewrite repeat_length in Hlo.
    rewrite ceil8_32. rewrite slice_to_ok by lia. cbn [bind].
    destruct (IH (skipn 32 items) (firstn 32 items)) as (out2 & b2 & E2 & Hb2 & Hl2 & Ho2 & Hle2).
    { rewrite skipn_length. lia. } { exact H32. } { apply Forall_skipn; assumption. }
    rewrite E2. cbn [bind].
    assert (Hlf : length (firstn (4 * w) out') = (4 * w)%nat) by (apply firstn_length_le; lia).
    exists (firstn (4 * w) out' ++ out2), b2. split.
    { rewrite skipn_skipn_add. do 3 f_equal. f_equal. lia. }
    split; [assumption|]. split; [rewrite app_length, Hlf, Hl2; lia|].
    split; [apply bytes_ok_app; split; [apply bytes_ok_firstn|]; assumption|].
    rewrite le_app, Hle2. unfold nlen. rewrite Hlf.
    replace (32 * S k)%nat with (32 + 32 * k)%nat by lia.
    rewrite <- (firstn_skipn 32 items) at 2.
    rewrite firstn_app, H32. rewrite (firstn_all2 (firstn 32 items)) by lia.
    replace (32 + 32 * k - 32)%nat with (32 * k)%nat by lia.
    rewrite pval_app, H32.
    rewrite le_firstn by assumption. rewrite Hle.
    f_equal.
    + apply N.mod_small. eapply N.lt_le_trans; [apply pval_bound; apply Forall_firstn; assumption|].
      rewrite H32. apply N.pow_le_mono_r; [discriminate|]. lia.
    + f_equal. f_equal. lia.
Qed.

Lemma bitpacked_encode_u32_spec w l : (0 < w <= 32)%nat -> Forall (fits w) l ->
  exists out, bitpacked_encode_u32 w l = Ok out /\ length out = ceil8 (length l * w) /\ bytes_ok out /\
    le out mod 2 ^ N.of_nat (length l * w) = pval w l.
Proof.
  intros Hw Hf. unfold bitpacked_encode_u32.
  set (k := (length l / 32)%nat).
  assert (Hk : (32 * k <= length l < 32 * k + 32)%nat).
  { unfold k. Z.to_euclidean_division_equations; lia. }
  clearbody k.
  destruct (bp_u32_chunks_spec w Hw k l (repeat 0 32)) as (out & b & E & Hb & Hlo & Hoo & Hle);
    [lia|reflexivity|assumption|].
  rewrite E. cbn [bind].
  destruct (length l - k * 32 =? 0)%nat eqn:Er.
  - exists out. assert (length l = (32 * k)%nat) as Hlen by lia. split; [reflexivity|].
    split; [|split; [assumption|]].
    + rewrite Hlo, Hlen. replace (32 * k * w)%nat with (32 * (k * w))%nat by lia. rewrite ceil8_32. lia.
    + rewrite Hle. rewrite firstn_all2 by lia. apply N.mod_small. apply pval_bound; assumption.
  - set (r := (length l - k * 32)%nat) in *.
    set (good := firstn r (skipn (32 * k) l)).
    assert (Hg : good = skipn (32 * k) l).
    { unfold good. apply firstn_all2. rewrite skipn_length. lia. }
    assert (Hgl : length good = r) by (rewrite Hg, skipn_length; lia).
    assert (Hgf : Forall (fits w) good) by (rewrite Hg; apply Forall_skipn; assumption).
    rewrite encode_pack_32 by (rewrite app_length, skipn_length; lia).
    destruct (pack_prefix 4 w good (skipn (length good) b) (repeat 0 128)) as (o2 & E2 & Hl2 & Ho2 & Hm2 & _).
    { exact Hw. } { assumption. } { rewrite skipn_length. change (tbits 4) with 32%nat. lia. }
    { apply zeros_le. } { rewrite repeat_length. lia. } { apply zeros_le. }
    rewrite E2. cbn [bind]. rewrite repeat_length in Hl2.
    pose proof (ceil8_ge (r * w)) as [Hc1 Hc2].
    rewrite slice_to_ok by (rewrite Hl2; nia). cbn [bind].
    set (last := firstn (ceil8 (r * w)) o2).
    assert (Hll : length last = ceil8 (r * w)) by (apply firstn_length_le; rewrite Hl2; nia).
    exists (out ++ last). split; [reflexivity|].
    assert (Hlen : (length l * w = 32 * k * w + r * w)%nat) by nia.
    split; [|split].
    + rewrite app_length, Hlo, Hll, Hlen.
      pose proof (ceil8_ge (32 * k * w + r * w)) as [Hd1 Hd2]. lia.
    + apply bytes_ok_app; split; [assumption|apply bytes_ok_firstn; assumption].
    + rewrite le_app, Hle. unfold nlen. rewrite Hlo.
      replace (8 * N.of_nat (4 * w * k)) with (N.of_nat (32 * k * w)) by lia.
      rewrite Hlen.
      assert (Hlast : le last mod 2 ^ N.of_nat (r * w) = pval w good).
      { unfold last. rewrite le_firstn by assumption. rewrite <- Hgl in *. rewrite <- Hm2.
        apply N.bits_inj; intro j.
        destruct (N.lt_ge_cases j (N.of_nat (length good * w))) as [Hj|Hj].
        - rewrite !(N.mod_pow2_bits_low _ (N.of_nat (length good * w))) by assumption.
          apply N.mod_pow2_bits_low. lia.
        - rewrite !(N.mod_pow2_bits_high _ (N.of_nat (length good * w))) by assumption. reflexivity. }
      rewrite <- (firstn_skipn (32 * k) l) at 2. rewrite pval_app.
      rewrite firstn_length_le by lia. rewrite <- Hg, <- Hlast.
      assert (Hb1 : pval w (firstn (32 * k) l) < 2 ^ N.of_nat (32 * k * w)).
      { pose proof (pval_bound w (firstn (32 * k) l) (Forall_firstn _ _ _ Hf)) as HH.
        rewrite firstn_length_le in HH by lia. exact HH. }
      set (P := pval w (firstn (32 * k) l)) in *. set (X := le last).
      rewrite Nnat.Nat2N.inj_add, N.pow_add_r.
      set (A := 2 ^ N.of_nat (32 * k * w)) in *. set (C := 2 ^ N.of_nat (r * w)).
      assert (HA : A <> 0) by (unfold A; auto). assert (HC : C <> 0) by (unfold C; auto).
      clearbody P X A C. clear - HA HC Hb1.
      rewrite N.mod_mul_r by assumption.
      replace (P + A * X) with (P + X * A) by lia.
      rewrite N.mod_add, N.div_add by assumption.
      rewrite (N.mod_small P A), (N.div_small P A) by assumption. reflexivity.
Qed.

Lemma bitpacked_encode_u32_zero l : exists out, bitpacked_encode_u32 0 l = Ok out.
Proof.
  assert (Hpack : forall b, length b = 32%nat -> exists o, pack 4 b (repeat 0 128) 0 = Ok o /\ (0 < length o)%nat).
  { intros b Hb. eexists; split; [reflexivity|]. rewrite map_length, repeat_length. lia. }
  assert (H : forall k items buffer, (32 * k <= length items)%nat -> length buffer = 32%nat ->
    exists out b, bp_u32_chunks 0 k items buffer = Ok (out, skipn (32 * k) items, b) /\ length b = 32%nat).
  { induction k as [|k IH]; intros items buffer Hl Hb.
    - exists [], buffer. split; [reflexivity|assumption].
    - cbn [bp_u32_chunks].
      assert (H32 : length (firstn 32 items) = 32%nat) by (apply firstn_length_le; lia).
      rewrite H32, skipn_all2, app_nil_r by lia.
      rewrite encode_pack_32 by assumption.
      destruct (Hpack _ H32) as (o & -> & Ho). cbn [bind].
      change (ceil8 (32 * 0)) with 0%nat. rewrite slice_to_ok by lia. cbn [bind].
      destruct (IH (skipn 32 items) (firstn 32 items)) as (out2 & b2 & E2 & Hb2).
      { rewrite skipn_length. lia. } { exact H32. }
      rewrite E2. cbn [bind]. eexists _, b2. split; [|assumption].
      rewrite skipn_skipn_add. do 3 f_equal. f_equal. lia. }
  unfold bitpacked_encode_u32.
  set (k := (length l / 32)%nat).
  assert (Hk : (32 * k <= length l < 32 * k + 32)%nat).
  { unfold k. Z.to_euclidean_division_equations; lia. }
  clearbody k.
  destruct (H k l (repeat 0 32)) as (out & b & E & Hb); [lia|reflexivity|].
  rewrite E. cbn [bind].
  destruct (length l - k * 32 =? 0)%nat eqn:Er; [eexists; reflexivity|].
  rewrite encode_pack_32.
  2:{ rewrite app_length, !skipn_length, firstn_length, skipn_length. lia. }
  match goal with |- context [pack 4 ?bb _ _] => destruct (Hpack bb) as (o & -> & Ho) end.
  { rewrite app_length, !skipn_length, firstn_length, skipn_length. lia. }
  cbn [bind]. rewrite Nat.mul_0_r. change (ceil8 0) with 0%nat. rewrite slice_to_ok by lia.
  eexists; reflexivity.
Qed.

Lemma bitpacked_header_spec n : N.of_nat n < 2 ^ 61 ->
  exists h, bitpacked_header n = Ok h /\ varint (2 * N.of_nat (ceil8 n) + 1) h.
Proof.
  intro Hn. unfold bitpacked_header.
  pose proof (ceil8_ge n) as [_ Hc].
  assert (Hs : N.of_nat (ceil8 n) < 2 ^ 60).
  { change (2 ^ 61) with 2305843009213693952 in Hn. change (2 ^ 60) with 1152921504606846976. lia. }
  rewrite N.shiftl_mul_pow2. change (2 ^ 1) with 2.
  rewrite N.mod_small by (unfold two64; change (2 ^ 60) with 1152921504606846976 in Hs; lia).
  assert (E : N.lor (N.of_nat (ceil8 n) * 2) 1 = 2 * N.of_nat (ceil8 n) + 1).
  { rewrite N.mul_comm. rewrite <- N.succ_double_spec. destruct (N.of_nat (ceil8 n)); reflexivity. }
  rewrite E.
  assert (Hv : 2 * N.of_nat (ceil8 n) + 1 < two64).
  { unfold two64. change (2 ^ 60) with 1152921504606846976 in Hs. lia. }
  eexists. split; [apply uleb_bytes_enc; assumption|]. apply uleb_enc_varint; assumption.
Qed.

(** Decoding one packed run that fills the rest of the buffer, possibly shorter than declared. *)
Lemma hr_decodes_short_packed m w h body l g : (0 < w <= 32)%nat ->
  varint (2 * g + 1) h -> bytes_ok body -> nlen body < 2 ^ 61 -> (length l <= 8 * length body / w)%nat ->
  g * N.of_nat w < 2 ^ 64 -> nlen body <= g * N.of_nat w -> Forall (fits w) l ->
  le body mod 2 ^ N.of_nat (length l * w) = pval w l ->
  exists s, hr_try_new m (h ++ body) w (nlen l) = Ok s /\
    yields (hr_next m) (fun s r => hr_size_hint s = nlen r) s l.
Proof.
  intros Hw Hh Hok Hsz Hl H64 Hmin Hf Hle.
  destruct (list_eq_dec N.eq_dec body []) as [->|Hne].
  - assert (length l = 0%nat) as Hl0.
    { cbn [length] in Hl. rewrite Nat.mul_0_r, Nat.div_0_l in Hl by lia. lia. }
    destruct l as [|x l]; [|discriminate]. rewrite app_nil_r.
    unfold hr_try_new, read_next. rewrite (rle_next_header_only m h w _ Hh) by lia.
    cbn [bind]. eexists. split; [reflexivity|].
    apply (hr_yields m w Hw 0); [reflexivity|]. exists 0%nat. split; [reflexivity|].
    left. split; reflexivity.
  - unfold hr_try_new, read_next.
    rewrite <- (app_nil_r body).
    rewrite (rle_next_packed m h body [] w g); try assumption; try lia; try constructor.
    2:{ rewrite app_nil_r. lia. }
    2:{ rewrite app_nil_r. assumption. }
    cbn [bind rd_num_bits].
    destruct (read_packed m body w (length l) l Hw Hok Hsz Hl) as (d & Ed & Hy).
    { intros i Hi. rewrite bit_field_le by assumption.
      rewrite <- (mod_div_field (le body) w i (length l * w)) by nia. rewrite Hle.
      rewrite <- (pval_nth w l i 0 Hf Hi). rewrite N.mul_0_r, N.add_0_r. reflexivity. }
    { left. lia. }
    rewrite ?app_nil_r. unfold nlen at 2. rewrite Ed. cbn [bind].
    eexists. split; [reflexivity|].
    apply (hr_yields m w Hw (length l)); [reflexivity|].
    exists (length l). split; [reflexivity|]. right. exists l, [], [].
    split; [reflexivity|]. split.
    { constructor. rewrite firstn_all in Hy. exact Hy. }
    split; [constructor|]. split; [reflexivity|].
    cbn [app]. rewrite firstn_app, firstn_all, Nat.sub_diag. cbn [firstn].
    rewrite app_nil_r. reflexivity.
Qed.

Lemma hr_encode_roundtrip m w l : (w <= 32)%nat -> Forall (fits w) l -> nlen l < 2 ^ 56 ->
  exists out s, encode_u32 l (N.of_nat w) = Ok out /\
    hr_try_new m out w (nlen l) = Ok s /\
    yields (hr_next m) (fun s r => hr_size_hint s = nlen r) s l.
Proof.
  intros Hw Hf Hn. unfold nlen in Hn.
  assert (Hn61 : N.of_nat (length l) < 2 ^ 61).
  { change (2 ^ 56) with 72057594037927936 in Hn. change (2 ^ 61) with 2305843009213693952. lia. }
  unfold encode_u32. destruct (bitpacked_header_spec (length l) Hn61) as (h & Eh & Hh).
  rewrite Eh. cbn [bind].
  rewrite N.mod_small by lia. rewrite Nnat.Nat2N.id.
  destruct (Nat.eq_dec w 0) as [->|Hw0].
  - destruct (bitpacked_encode_u32_zero l) as (out & ->). cbn [bind].
    destruct (hr_zero_bits m (h ++ out) (length l)) as (s & Es & Hy).
    exists (h ++ out), s. split; [reflexivity|]. split; [exact Es|].
    replace l with (repeat 0 (length l)) at 1; [exact Hy|].
    clear - Hf. induction Hf as [|x l Hx Hf IH]; [reflexivity|]. cbn [length repeat]. f_equal; [|exact IH].
    unfold fits in Hx. change (2 ^ N.of_nat 0) with 1 in Hx. lia.
  - destruct (bitpacked_encode_u32_spec w l) as (out & Eo & Hlo & Hoo & Hle); [lia|assumption|].
    rewrite Eo. cbn [bind].
    pose proof (ceil8_ge (length l * w)) as [Hc1 Hc2]. pose proof (ceil8_ge (length l)) as [Hd1 Hd2].
    change (2 ^ 56) with 72057594037927936 in Hn.
    destruct (hr_decodes_short_packed m w h out l (N.of_nat (ceil8 (length l)))) as (s & Es & Hy);
      try assumption; try lia.
    + unfold nlen. rewrite Hlo. change (2 ^ 61) with 2305843009213693952. nia.
    + rewrite Hlo. apply Nat.div_le_lower_bound; lia.
    + change (2 ^ 64) with 18446744073709551616. nia.
    + unfold nlen. rewrite Hlo. nia.
    + exists (h ++ out), s. split; [reflexivity|]. split; assumption.
Qed.
