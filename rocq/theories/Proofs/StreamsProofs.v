From Verif Require Import Base.Prelude Base.LeFacts Base.Iter Spec.Bits Spec.UlebSpec Spec.RleSpec Spec.DeltaSpec Spec.StringsSpec
  Spec.StreamsSpec Model.HybridRle Model.DeltaBitpacked Model.DeltaByteArray Proofs.BitsFacts Proofs.BitpackedProofs
  Proofs.HybridRleProofs Proofs.HybridEncProofs Proofs.DeltaDecProofs Proofs.DeltaEncProofs Proofs.DeltaStringProofs Proofs.BitmapProofs.
Open Scope N_scope.

(** *** Decoding streams of strings that conform *)

Lemma number_stream_bytes m numbers data : number_stream m numbers data -> bytes_ok data.
Proof. intros (nmb & v & first & bl & H & _). eapply delta_stream_bytes; eassumption. Qed.

Lemma number_stream_decodes m numbers data trail : number_stream m numbers data -> bytes_ok trail -> nlen data < 2 ^ 61 ->
  exists s, delta_try_new m (data ++ trail) = Ok s /\ yields (delta_next m) (dd_P (length data)) s (map inl numbers).
Proof.
  intros (nmb & v & first & bl & H & Hv & Hm) Htr Hsz.
  destruct (delta_decodes m _ _ _ _ _ _ trail H Htr Hsz Hm) as (s & Es & Hy). rewrite Hv in Hy. eauto.
Qed.

Lemma concat_bytes strings : Forall bytes_ok strings -> bytes_ok (concat strings).
Proof. induction 1; cbn [concat]; [constructor|]. apply bytes_ok_app; split; assumption. Qed.

Lemma length_stream_bytes m strings data : length_stream m strings data -> Forall bytes_ok strings -> bytes_ok data.
Proof.
  intros (h & H & ->) Hok. apply bytes_ok_app. split; [eapply number_stream_bytes; eassumption|apply concat_bytes; assumption].
Qed.

Lemma length_stream_decodes m strings data : length_stream m strings data ->
  nlen (concat strings) < 2 ^ 31 -> nlen data < 2 ^ 61 -> Forall bytes_ok strings -> forall trail, bytes_ok trail ->
  exists s, dl_try_new m (data ++ trail) = Ok s /\
    yields (dl_next m)
      (fun s left => delta_size_hint (dl_lengths s) = nlen left /\ (left = [] -> dl_values s = Ok (concat strings)))
      s (map inl (zlens strings)).
Proof.
  intros (h & Hh & ->) Ht Hsz Hok trail Htr. pose proof (zlens_small _ Ht) as Hsm. rewrite <- app_assoc.
  destruct (number_stream_decodes m _ h (concat strings ++ trail) Hh) as (s & Es & Hy).
  { apply bytes_ok_app; split; [apply concat_bytes; assumption|assumption]. }
  { unfold nlen in *. rewrite app_length in Hsz. lia. }
  unfold dl_try_new. rewrite Es. cbn [bind]. eexists. split; [reflexivity|].
  eapply yields_weaken; [|apply (dl_yields m _ (length h) (concat strings ++ trail)); try eassumption].
  - cbn beta. intros st left [H1 H2]. split; [assumption|]. intro Hl. rewrite (H2 Hl), sum_zlens, N.add_0_l.
    unfold nlen. rewrite Nnat.Nat2N.id. rewrite slice_to_ok by (rewrite app_length; lia).
    rewrite firstn_app_len. reflexivity.
  - rewrite sum_zlens, N.add_0_l. assumption.
  - apply slice_from_app.
  - reflexivity.
Qed.

Lemma prefix_stream_decodes m prefixes suffixes data : prefix_stream m prefixes suffixes data ->
  Forall (fun p => N.of_nat p < 2 ^ 31) prefixes -> nlen (concat suffixes) < 2 ^ 31 -> nlen data < 2 ^ 61 ->
  Forall bytes_ok suffixes -> forall trail, bytes_ok trail ->
  exists s1, db_try_new m (data ++ trail) = Ok s1 /\
    yields (db_next m)
      (fun s1' left1 => left1 = [] ->
         exists s2, db_into_lengths m s1' = Ok s2 /\
           yields (dl_next m) (fun s2' left2 => left2 = [] -> dl_values s2' = Ok (concat suffixes))
             s2 (map (fun x => inl (Z.of_nat (length x))) suffixes))
      s1 (map (fun p => inl (N.of_nat p)) prefixes).
Proof.
  intros (h & b & Hh & Hb & ->) Hps Ht Hsz Hok trail Htr.
  assert (Hszs : nlen h < 2 ^ 61 /\ nlen b < 2 ^ 61) by (unfold nlen in *; rewrite app_length in Hsz; lia).
  rewrite <- app_assoc.
  destruct (number_stream_decodes m _ h (b ++ trail) Hh) as (s & Es & Hy); [|apply Hszs|].
  { apply bytes_ok_app; split; [eapply length_stream_bytes; eassumption|assumption]. }
  unfold db_try_new. rewrite Es. cbn [bind]. eexists. split; [reflexivity|].
  eapply yields_weaken; [|apply (db_yields m _ (length h)); [|exact Hy]].
  - cbn beta. intros st left (H1 & H2 & H3) Hl. unfold db_into_lengths. rewrite H1, Hl. cbn [nlen length N.of_nat N.eqb negb].
    rewrite (H3 Hl), H2, slice_from_app. cbn [bind].
    destruct (length_stream_decodes m _ b Hb Ht (proj2 Hszs) Hok trail Htr) as (s2 & Es2 & Hy2).
    exists s2. split; [assumption|]. unfold zlens in Hy2. rewrite map_map in Hy2.
    eapply yields_weaken; [|exact Hy2]. cbn beta. intros ? ? [_ H]. exact H.
  - assumption.
Qed.

(** *** What the encoders write conforms *)

Lemma encoded_number_stream m items data : i64s items -> nlen items < 2 ^ 64 -> delta_encode m items = Ok data ->
  number_stream m items data.
Proof.
  intros Hr Hn H. destruct (delta_encode_conforms m items data Hr Hn H) as (bl & Hs & Hv & Ha).
  exists 1%nat, 128%nat, (hd 0%Z items), bl. split; [assumption|]. split; [assumption|].
  destruct m; [right; apply Ha; reflexivity|left; reflexivity].
Qed.

Lemma encoded_length_stream m strings data : nlen strings < 2 ^ 64 -> nlen (concat strings) < 2 ^ 31 ->
  dl_encode m strings = Ok data -> length_stream m strings data.
Proof.
  intros Hn Ht He. unfold dl_encode in He. fold (zlens strings) in He.
  destruct (delta_encode m (zlens strings)) as [h| |] eqn:Eh; cbn [bind] in He; try discriminate.
  apply Ok_inj in He. subst data. exists h. split; [|reflexivity].
  apply encoded_number_stream; [apply small_i64s, zlens_small; assumption| |assumption].
  unfold nlen, zlens in *. rewrite map_length. assumption.
Qed.

Lemma encoded_prefix_stream m strings data : nlen strings < 2 ^ 64 -> nlen (concat strings) < 2 ^ 31 ->
  Forall bytes_ok strings -> db_encode m strings = Ok data ->
  exists prefixes suffixes, prefix_stream m prefixes suffixes data /\ rebuild [] prefixes suffixes = strings /\
    length prefixes = length strings /\ length suffixes = length strings.
Proof.
  intros Hn Ht Hok He.
  assert (Hs : ~ has_strict_prefix strings).
  { intro H. apply (proj1 (db_encode_iff m strings Hn Ht Hok)) in H. congruence. }
  apply no_sp_nil in Hs. unfold db_encode in He. rewrite db_prefixes_ok in He by (try assumption; lia). cbn [bind] in He.
  assert (Hps : Forall (fun z => 0 <= z < 2 ^ 31)%Z (map Z.of_nat (plens [] strings))) by (apply plens_small; assumption).
  assert (Hpl : nlen (map Z.of_nat (plens [] strings)) < 2 ^ 64).
  { unfold nlen in *. rewrite map_length. destruct (plens_bound strings []) as [_ ->]. assumption. }
  destruct (small_encode m _ Hps Hpl) as (h & Eh & Hh). rewrite Eh in He. cbn [bind] in He.
  destruct (db_suffixes_ok strings [] Hs) as (Ea & Eb & _ & Hd & Hl1 & Hl2). rewrite Ea in He. cbn [bind] in He.
  destruct (dl_encode m (sufs [] strings)) as [b| |] eqn:Eb2; cbn [bind] in He; try discriminate.
  apply Ok_inj in He. subst data. exists (plens [] strings), (sufs [] strings).
  split; [|auto]. exists h, b. split; [|split; [|reflexivity]].
  - apply encoded_number_stream; [apply small_i64s; assumption|assumption|assumption].
  - apply encoded_length_stream; [|unfold nlen in *; lia|assumption]. unfold nlen in *. rewrite Hl1. assumption.
Qed.

(** *** The hybrid encoder *)

Lemma varint_lead v h rest : varint v h -> uleb_lead (h ++ rest) = h.
Proof. intros (_ & _ & _ & init & last & -> & Hi & Hl). apply lead_varint; assumption. Qed.

Lemma varint_prefix v h rest v' h' rest' : varint v h -> varint v' h' -> h ++ rest = h' ++ rest' ->
  v = v' /\ h = h' /\ rest = rest'.
Proof.
  intros H H' E. pose proof (varint_lead _ _ rest H) as L. rewrite E, (varint_lead _ _ rest' H') in L. subst h'.
  destruct H as (_ & _ & Hv & _), H' as (_ & _ & Hv' & _). split; [congruence|]. split; [reflexivity|].
  apply app_inv_head in E. assumption.
Qed.

Lemma lsb_fields w n : forall v,
  lsb_bits (n * w) v = flat_map (lsb_bits w) (map (fun i => (v / 2 ^ N.of_nat (i * w)) mod 2 ^ N.of_nat w) (seq 0 n)).
Proof.
  induction n as [|n IH]; intro v; [reflexivity|].
  cbn [Nat.mul seq map flat_map]. rewrite lsb_bits_add. f_equal.
  - change (2 ^ N.of_nat 0) with 1. rewrite N.div_1_r, lsb_bits_mod by lia. reflexivity.
  - rewrite IH. f_equal. rewrite <- seq_shift, map_map. apply map_ext. intro i.
    rewrite N.div_div by (apply N.pow_nonzero; discriminate). rewrite <- N.pow_add_r.
    do 3 f_equal. lia.
Qed.

Lemma whole_groups n w : (ceil8 n * w <= ceil8 (n * w))%nat <-> (n mod 8 = 0 \/ (8 - n mod 8) * w < 8)%nat.
Proof.
  pose proof (ceil8_ge n) as [A1 A2]. pose proof (ceil8_ge (n * w)) as [B1 B2].
  pose proof (Nat.div_mod n 8 ltac:(lia)) as E. pose proof (Nat.mod_upper_bound n 8 ltac:(lia)) as U.
  set (q := (n / 8)%nat) in *. set (r := (n mod 8)%nat) in *. clearbody q r.
  set (g := ceil8 n) in *. set (b := ceil8 (n * w)) in *. clearbody g b.
  destruct (Nat.eq_dec r 0) as [Hr|Hr].
  - assert (g = q) by lia. subst. split; [auto|]. intros _. replace ((8 * q + 0) * w)%nat with (8 * (q * w))%nat in B1 by lia. lia.
  - assert (g = S q) by lia. subst g n.
    assert (X : (8 * (S q * w) = (8 * q + r) * w + (8 - r) * w)%nat).
    { rewrite <- Nat.mul_add_distr_r. replace (8 * q + r + (8 - r))%nat with (8 * S q)%nat by lia. lia. }
    split.
    + intro H. right. lia.
    + intros [H|H]; lia.
Qed.

Lemma encode_u32_conforms w l : (0 < w <= 32)%nat -> Forall (fits w) l -> nlen l < 2 ^ 56 ->
  exists out, encode_u32 l (N.of_nat w) = Ok out /\
    ((exists runs, conforming w runs out) <-> (length l mod 8 = 0 \/ (8 - length l mod 8) * w < 8)%nat) /\
    ((length l mod 8 = 0 \/ (8 - length l mod 8) * w < 8)%nat ->
       exists pad, conforming w [PackedRun (l ++ pad)] out /\ (length pad < 8)%nat).
Proof.
  intros Hw Hf Hn. unfold nlen in Hn.
  assert (Hn61 : N.of_nat (length l) < 2 ^ 61).
  { change (2 ^ 56) with 72057594037927936 in Hn. change (2 ^ 61) with 2305843009213693952. lia. }
  unfold encode_u32. destruct (bitpacked_header_spec (length l) Hn61) as (h & Eh & Hh).
  rewrite Eh. cbn [bind]. rewrite N.mod_small by lia. rewrite Nnat.Nat2N.id.
  destruct (bitpacked_encode_u32_spec w l Hw Hf) as (body & Eo & Hlo & Hoo & Hle). rewrite Eo. cbn [bind].
  exists (h ++ body). split; [reflexivity|].
  assert (Hgood : (length l mod 8 = 0 \/ (8 - length l mod 8) * w < 8)%nat ->
    exists pad, conforming w [PackedRun (l ++ pad)] (h ++ body) /\ (length pad < 8)%nat).
  { intro H. apply whole_groups in H. pose proof (ceil8_ge (length l)) as [A1 A2]. pose proof (ceil8_ge (length l * w)) as [B1 B2].
    set (g := ceil8 (length l)) in *.
    assert (Hlen : length body = (g * w)%nat).
    { assert ((length l * w <= 8 * (g * w))%nat) by (rewrite Nat.mul_assoc; apply Nat.mul_le_mono_r; lia). lia. }
    set (vs := map (fun i => (le body / 2 ^ N.of_nat (i * w)) mod 2 ^ N.of_nat w) (seq 0 (8 * g))).
    assert (Hvf : firstn (length l) vs = l).
    { unfold vs. replace (8 * g)%nat with (length l + (8 * g - length l))%nat by lia.
      rewrite firstn_map, seq_app, firstn_app, seq_length, Nat.sub_diag, firstn_all2 by (rewrite seq_length; lia).
      cbn [firstn]. rewrite app_nil_r. rewrite <- (map_nth_seq l 0) at 2. apply map_ext_in.
      intros i Hi. apply in_seq in Hi. rewrite <- (mod_div_field (le body) w i (length l * w)) by nia. rewrite Hle.
      rewrite <- (pval_nth w l i 0 Hf) by lia. rewrite N.mul_0_r, N.add_0_r. reflexivity. }
    exists (skipn (length l) vs). rewrite <- Hvf at 1. rewrite firstn_skipn. split.
    - rewrite <- (app_nil_r body). eapply conf_packed with (groups := g); try assumption.
      + unfold vs. rewrite map_length, seq_length. reflexivity.
      + unfold vs. apply Forall_forall. intros x Hx. apply in_map_iff in Hx as (i & <- & _). unfold fits.
        apply N.mod_lt. apply N.pow_nonzero. discriminate.
      + rewrite bit_stream_le by assumption. rewrite Hlen.
        replace (8 * (g * w))%nat with (8 * g * w)%nat by lia. apply lsb_fields.
      + constructor.
    - rewrite skipn_length. unfold vs. rewrite map_length, seq_length. lia. }
  split; [|exact Hgood]. split.
  - intros (runs & H). apply whole_groups.
    inversion H as [E0 E|c v h' b' rest runs' Hv' Hfit Hb' Hl' Hle' Hc Er E|g' vs h' b' rest runs' Hv' Hvs Hfit Hb' Hl' Hst Hc Er E].
    + exfalso. symmetry in E. apply app_eq_nil in E as [-> _]. apply varint_pos in Hh. cbn in Hh. lia.
    + exfalso. destruct (varint_prefix _ _ _ _ _ _ Hv' Hh E) as (X & _). lia.
    + destruct (varint_prefix _ _ _ _ _ _ Hv' Hh E) as (X & _ & Y). assert (g' = ceil8 (length l)) by lia. subst g'.
      apply (f_equal (@length N)) in Y. rewrite app_length in Y. lia.
  - intro H. destruct (Hgood H) as (pad & Hc & _). eexists. exact Hc.
Qed.

Lemma encode_bool_conforms l : nlen l < 2 ^ 61 ->
  exists out pad, encode_bool l = Ok out /\ conforming 1 [PackedRun (map N.b2n (l ++ pad))] out /\ (length pad < 8)%nat.
Proof.
  intro Hn. unfold encode_bool, nlen in *.
  destruct (bitpacked_header_spec (length l) Hn) as (h & -> & Hh). cbn [bind].
  destruct (bitmap_encode_spec l) as (out & -> & Hlo & Hok & Hs). cbn [bind].
  pose proof (ceil8_ge (length l)) as [Hd1 Hd2].
  eexists _, _. split; [reflexivity|]. split.
  - rewrite <- Hs. replace (h ++ out) with (h ++ out ++ []) by now rewrite app_nil_r.
    eapply conf_packed with (groups := ceil8 (length l)); try exact Hok.
    + exact Hh.
    + rewrite map_length, bit_stream_length. lia.
    + apply Forall_forall. intros x Hx. apply in_map_iff in Hx as (b & <- & _). destruct b; reflexivity.
    + lia.
    + clear. induction (bit_stream out) as [|b s IH]; [reflexivity|].
      cbn [map flat_map]. rewrite <- IH. destruct b; reflexivity.
    + constructor.
  - apply (f_equal (@length bool)) in Hs. rewrite app_length, bit_stream_length in Hs. lia.
Qed.
