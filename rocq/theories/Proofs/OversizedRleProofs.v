(** Lemmas about the hybrid encoder given values that do not fit. *)
From Verif Require Import Base.Prelude Base.LeFacts Base.Iter Spec.Bits Spec.UlebSpec Spec.RleSpec Spec.OversizedSpec Proofs.BitsFacts Model.Uleb128 Model.Bitpacked
  Model.HybridRle Proofs.UlebProofs Proofs.BitpackedProofs Proofs.BitpackRoomProofs Proofs.HybridRleProofs Proofs.HybridEncProofs Proofs.OversizedProofs.
Open Scope N_scope.

Lemma stored_prefix bits w a b i : (i < length a)%nat -> stored bits w (a ++ b) i = stored bits w a i.
Proof. intros H. unfold stored. rewrite app_nth1 by exact H. destruct i as [|h]; [reflexivity|]. rewrite app_nth1 by lia. reflexivity. Qed.

Lemma stored_after bits w a b i : (0 < bits)%nat -> (length a mod bits = 0)%nat -> stored bits w (a ++ b) (length a + i) = stored bits w b i.
Proof.
  intros Hb Hm. unfold stored. rewrite app_nth2_plus. f_equal.
  pose proof (Nat.div_mod (length a) bits ltac:(lia)) as D. rewrite Hm, Nat.add_0_r in D. set (k := (length a / bits)%nat) in D. clearbody k.
  destruct i as [|i].
  - rewrite Nat.add_0_r. destruct (length a) as [|h] eqn:E; [reflexivity|]. unfold spilled, word_used. rewrite D.
    replace (bits * k * w)%nat with (k * w * bits)%nat by lia. rewrite Nat.mod_mul by lia. reflexivity.
  - rewrite Nat.add_succ_r, app_nth2_plus. unfold spilled, word_used. rewrite D.
    replace (S (bits * k + i) * w)%nat with (S i * w + k * w * bits)%nat by lia. rewrite Nat.mod_add by lia. reflexivity.
Qed.

Lemma pval_bits w vs n : Forall (fits w) vs -> N.of_nat (length vs * w) <= n -> N.testbit (pval w vs) n = false.
Proof.
  intros Hf Hn. rewrite <- (N.mod_small (pval w vs) (2 ^ N.of_nat (length vs * w))) by (apply pval_bound; exact Hf).
  apply N.mod_pow2_bits_high. exact Hn.
Qed.

Lemma fields_pval w o vs : (0 < w)%nat -> bytes_ok o -> Forall (fits w) vs -> (forall i, (i < length vs)%nat -> bit_field w i o = nth i vs 0) ->
  le o mod 2 ^ N.of_nat (length vs * w) = pval w vs.
Proof.
  intros Hw Hok Hf H. apply N.bits_inj; intro n.
  destruct (N.lt_ge_cases n (N.of_nat (length vs * w))) as [Hn|Hn].
  - rewrite N.mod_pow2_bits_low by exact Hn. set (k := N.to_nat n). assert (En : n = N.of_nat k) by (unfold k; lia). clearbody k. subst n.
    pose proof (Nat.div_mod k w ltac:(lia)) as D. pose proof (Nat.mod_upper_bound k w ltac:(lia)) as U.
    set (i := (k / w)%nat) in *. set (j := (k mod w)%nat) in *. clearbody i j.
    assert (Hi : (i < length vs)%nat) by nia. specialize (H i Hi). rewrite bit_field_le in H by exact Hok.
    rewrite <- (pval_nth w vs i 0 Hf Hi), N.mul_0_r, N.add_0_r in H.
    apply (f_equal (fun x => N.testbit x (N.of_nat j))) in H. rewrite !N.mod_pow2_bits_low, !N.div_pow2_bits in H by lia.
    replace (N.of_nat k) with (N.of_nat j + N.of_nat (i * w)) by lia. exact H.
  - rewrite N.mod_pow2_bits_high by exact Hn. symmetry. apply pval_bits; assumption.
Qed.

Lemma field_cut w i n o : bytes_ok o -> (S i * w <= 8 * n)%nat -> bit_field w i (firstn n o) = bit_field w i o.
Proof.
  intros Hok H. rewrite !bit_field_le by (try apply bytes_ok_firstn; exact Hok). rewrite le_firstn by exact Hok.
  replace (8 * N.of_nat n) with (N.of_nat (8 * n)) by lia. apply mod_div_field. lia.
Qed.
Lemma field_first w i a b : bytes_ok a -> bytes_ok b -> (S i * w <= 8 * length a)%nat -> bit_field w i (a ++ b) = bit_field w i a.
Proof.
  intros Ha Hb H. rewrite <- (field_cut w i (length a) (a ++ b)) by (try (apply bytes_ok_app; split; assumption); exact H).
  rewrite firstn_app, firstn_all, Nat.sub_diag, firstn_O, app_nil_r. reflexivity.
Qed.
Lemma field_after w k i a b : bytes_ok a -> bytes_ok b -> (8 * length a = k * w)%nat -> bit_field w (k + i) (a ++ b) = bit_field w i b.
Proof.
  intros Ha Hb H. rewrite !bit_field_le by (try (apply bytes_ok_app; split); assumption).
  replace (le b) with (le (skipn (length a) (a ++ b))) by (rewrite skipn_app, skipn_all, Nat.sub_diag, skipn_O; reflexivity).
  rewrite le_skipn by (apply bytes_ok_app; split; assumption). rewrite N.div_div by auto. rewrite <- N.pow_add_r. do 3 f_equal. lia.
Qed.

Lemma u32_pack_fields w b : (0 < w <= 32)%nat -> length b = 32%nat ->
  exists o, pack 4 b (repeat 0 128) w = Ok o /\ length o = 128%nat /\ bytes_ok o /\ forall i, (i < 32)%nat -> bit_field w i o = stored 32 w b i.
Proof.
  intros Hw Hb. destruct (zeros_le 128) as [Z0 Z1]. destruct (pack_fields 4 w b (repeat 0 128)) as (o & E & L & K & V); [exact Hw|exact Hb|exact Z0|rewrite repeat_length; lia|].
  rewrite repeat_length in L. exists o. split; [exact E|]. split; [exact L|]. split; [exact K|]. intros i Hi. rewrite V by exact Hi.
  rewrite (bit_field_le w i (repeat 0 128)) by exact Z0. rewrite Z1, N.div_0_l, N.mod_0_l by auto. reflexivity.
Qed.

Lemma bp_u32_chunks_fields w : (0 < w <= 32)%nat -> forall k items buffer,
  (32 * k <= length items)%nat -> length buffer = 32%nat ->
  exists out buffer', bp_u32_chunks w k items buffer = Ok (out, skipn (32 * k) items, buffer') /\
    length buffer' = 32%nat /\ length out = (4 * w * k)%nat /\ bytes_ok out /\
    forall i, (i < 32 * k)%nat -> bit_field w i out = stored 32 w items i.
Proof.
  intros Hw. induction k as [|k IH]; intros items buffer Hl Hb.
  - exists [], buffer. cbn [bp_u32_chunks]. rewrite !Nat.mul_0_r, skipn_O. split; [reflexivity|]. split; [assumption|]. split; [reflexivity|]. split; [constructor|]. intros i Hi. lia.
  - cbn [bp_u32_chunks].
    assert (H32 : length (firstn 32 items) = 32%nat) by (apply firstn_length_le; lia).
    rewrite H32, skipn_all2, app_nil_r by lia.
    rewrite encode_pack_32 by assumption.
    destruct (u32_pack_fields w (firstn 32 items) Hw H32) as (o & Ep & Lo & Ko & Vo).
    rewrite Ep. cbn [bind]. rewrite ceil8_32. rewrite slice_to_ok by lia. cbn [bind].
    destruct (IH (skipn 32 items) (firstn 32 items)) as (out2 & b2 & E2 & Hb2 & Hl2 & Ho2 & V2).
    { rewrite skipn_length. lia. } { exact H32. }
    rewrite E2. cbn [bind].
    assert (Hlf : length (firstn (4 * w) o) = (4 * w)%nat) by (apply firstn_length_le; lia).
    exists (firstn (4 * w) o ++ out2), b2. split.
    { rewrite skipn_skipn_add. do 3 f_equal. f_equal. lia. }
    split; [assumption|]. split; [rewrite app_length, Hlf, Hl2; lia|].
    assert (Hof : bytes_ok (firstn (4 * w) o)) by (apply bytes_ok_firstn; exact Ko).
    split; [apply bytes_ok_app; split; assumption|].
    intros i Hi. rewrite <- (firstn_skipn 32 items). destruct (Nat.lt_ge_cases i 32) as [Hi'|Hi'].
    + rewrite field_first by (try assumption; rewrite Hlf; nia). rewrite field_cut by (try assumption; nia). rewrite Vo by exact Hi'.
      symmetry. apply stored_prefix. lia.
    + replace i with (32 + (i - 32))%nat by lia. rewrite field_after by (try assumption; rewrite Hlf; lia). rewrite V2 by lia.
      pose proof (stored_after 32 w (firstn 32 items) (skipn 32 items) (i - 32) ltac:(lia)) as X. rewrite H32 in X. symmetry. apply X. reflexivity.
Qed.

Lemma bitpacked_encode_u32_fields w l : (0 < w <= 32)%nat ->
  exists out, bitpacked_encode_u32 w l = Ok out /\ length out = ceil8 (length l * w) /\ bytes_ok out /\
    forall i, (i < length l)%nat -> bit_field w i out = stored 32 w l i.
Proof.
  intros Hw. unfold bitpacked_encode_u32.
  set (k := (length l / 32)%nat).
  assert (Hk : (32 * k <= length l < 32 * k + 32)%nat) by (unfold k; Z.to_euclidean_division_equations; lia).
  clearbody k.
  destruct (bp_u32_chunks_fields w Hw k l (repeat 0 32)) as (out & b & E & Hb & Hlo & Hoo & V); [lia|reflexivity|].
  rewrite E. cbn [bind].
  destruct (length l - k * 32 =? 0)%nat eqn:Er.
  - exists out. assert (length l = (32 * k)%nat) as Hlen by lia. split; [reflexivity|].
    split; [|split; [assumption|]].
    + rewrite Hlo, Hlen. replace (32 * k * w)%nat with (32 * (k * w))%nat by lia. rewrite ceil8_32. lia.
    + intros i Hi. apply V. lia.
  - set (r := (length l - k * 32)%nat) in *.
    set (good := firstn r (skipn (32 * k) l)).
    assert (Hg : good = skipn (32 * k) l) by (unfold good; apply firstn_all2; rewrite skipn_length; lia).
    assert (Hgl : length good = r) by (rewrite Hg, skipn_length; lia).
    rewrite encode_pack_32 by (rewrite app_length, skipn_length; lia).
    destruct (u32_pack_fields w (good ++ skipn (length good) b) Hw) as (o & Eo & Lo & Ko & Vo); [rewrite app_length, skipn_length; lia|].
    rewrite Eo. cbn [bind].
    pose proof (ceil8_ge (r * w)) as [Hc1 Hc2].
    rewrite slice_to_ok by (rewrite Lo; nia). cbn [bind].
    set (last := firstn (ceil8 (r * w)) o).
    assert (Hll : length last = ceil8 (r * w)) by (apply firstn_length_le; rewrite Lo; nia).
    assert (Hlast : bytes_ok last) by (apply bytes_ok_firstn; assumption).
    exists (out ++ last). split; [reflexivity|].
    assert (Hlen : (length l * w = 32 * k * w + r * w)%nat) by nia.
    split; [|split].
    + rewrite app_length, Hlo, Hll, Hlen. pose proof (ceil8_ge (32 * k * w + r * w)) as [Hd1 Hd2]. lia.
    + apply bytes_ok_app; split; assumption.
    + intros i Hi. destruct (Nat.lt_ge_cases i (32 * k)) as [Hi'|Hi'].
      * rewrite field_first by (try assumption; rewrite Hlo; nia). apply V. exact Hi'.
      * replace i with (32 * k + (i - 32 * k))%nat by lia. rewrite field_after by (try assumption; rewrite Hlo; lia).
        set (j := (i - 32 * k)%nat) in *. assert (Hj : (j < r)%nat) by lia.
        unfold last. rewrite field_cut by (try assumption; nia). rewrite Vo by lia. rewrite stored_prefix by lia.
        assert (Lf : length (firstn (32 * k) l) = (32 * k)%nat) by (apply firstn_length_le; lia).
        transitivity (stored 32 w (firstn (32 * k) l ++ good) (length (firstn (32 * k) l) + j)).
        -- symmetry. apply stored_after; [lia|]. rewrite Lf, Nat.mul_comm. apply Nat.mod_mul. lia.
        -- rewrite Hg, firstn_skipn, Lf. reflexivity.
Qed.

Lemma stored_zero bits l i : (0 < bits)%nat -> stored bits 0 l i = 0.
Proof.
  intros Hb. unfold stored. change (2 ^ N.of_nat 0) with 1. rewrite N.mod_1_r. destruct i as [|h]; [reflexivity|].
  unfold spilled, word_used. rewrite Nat.mul_0_r, Nat.mod_0_l by lia. reflexivity.
Qed.

Lemma hr_encode_oversized m w l : (w <= 32)%nat -> nlen l < 2 ^ 56 ->
  exists out s, encode_u32 l (N.of_nat w) = Ok out /\
    hr_try_new m out w (nlen l) = Ok s /\
    yields (hr_next m) (fun s r => hr_size_hint s = nlen r) s (map (stored 32 w l) (seq 0 (length l))).
Proof.
  intros Hw Hn. unfold nlen in Hn. set (l' := map (stored 32 w l) (seq 0 (length l))).
  assert (Ll : length l' = length l) by (unfold l'; rewrite map_length, seq_length; reflexivity).
  assert (Hn61 : N.of_nat (length l) < 2 ^ 61).
  { change (2 ^ 56) with 72057594037927936 in Hn. change (2 ^ 61) with 2305843009213693952. lia. }
  unfold encode_u32. destruct (bitpacked_header_spec (length l) Hn61) as (h & Eh & Hh).
  rewrite Eh. cbn [bind]. rewrite N.mod_small by lia. rewrite Nnat.Nat2N.id.
  destruct (Nat.eq_dec w 0) as [->|Hw0].
  - destruct (bitpacked_encode_u32_zero l) as (out & ->). cbn [bind].
    destruct (hr_zero_bits m (h ++ out) (length l)) as (s & Es & Hy).
    exists (h ++ out), s. split; [reflexivity|]. split; [exact Es|].
    replace l' with (repeat 0 (length l)); [exact Hy|]. unfold l'.
    assert (Z : forall n a, map (stored 32 0 l) (seq a n) = repeat 0 n); [|symmetry; apply Z].
    induction n as [|n IH]; intros a; cbn [seq map repeat]; [reflexivity|]. rewrite stored_zero by lia. f_equal. apply IH.
  - destruct (bitpacked_encode_u32_fields w l) as (out & Eo & Hlo & Hoo & V); [lia|].
    rewrite Eo. cbn [bind].
    assert (Hf : Forall (fits w) l').
    { apply Forall_forall. intros v Hv. apply in_map_iff in Hv as (i & <- & _). apply stored_small. }
    assert (Hle : le out mod 2 ^ N.of_nat (length l' * w) = pval w l').
    { apply fields_pval; try assumption; [lia|]. intros i Hi. rewrite Ll in Hi. rewrite V by exact Hi. unfold l'.
      rewrite (nth_indep _ 0 (stored 32 w l 0)) by (rewrite map_length, seq_length; exact Hi). rewrite map_nth, seq_nth by exact Hi. reflexivity. }
    pose proof (ceil8_ge (length l * w)) as [Hc1 Hc2]. pose proof (ceil8_ge (length l)) as [Hd1 Hd2].
    change (2 ^ 56) with 72057594037927936 in Hn.
    destruct (hr_decodes_short_packed m w h out l' (N.of_nat (ceil8 (length l)))) as (s & Es & Hy);
      try assumption; try lia.
    + unfold nlen. rewrite Hlo. change (2 ^ 61) with 2305843009213693952. nia.
    + rewrite Hlo, Ll. apply Nat.div_le_lower_bound; lia.
    + change (2 ^ 64) with 18446744073709551616. nia.
    + unfold nlen. rewrite Hlo. nia.
    + exists (h ++ out), s. split; [reflexivity|]. replace (nlen l) with (nlen l') by (unfold nlen; congruence). split; assumption.
Qed.
