From Verif Require Import Base.Prelude Base.LeFacts Base.Iter Spec.Bits Spec.UlebSpec Spec.RleSpec
  Model.Uleb128 Model.Bitpacked Model.HybridRle Proofs.UlebProofs Proofs.BitsFacts Proofs.BitpackedProofs
  Proofs.HybridRleProofs Proofs.HybridEncProofs.
Open Scope N_scope.

(** *** Encoding *)

Lemma bits_val_bound l : bits_val l < 2 ^ N.of_nat (length l).
Proof.
  induction l as [|b l IH]; [reflexivity|]. cbn [bits_val length].
  rewrite Nnat.Nat2N.inj_succ, N.pow_succ_r'. destruct b; lia.
Qed.

Lemma bits_val_app a b : bits_val (a ++ b) = bits_val a + 2 ^ N.of_nat (length a) * bits_val b.
Proof.
  induction a as [|x a IH]; cbn [app bits_val length].
  - change (2 ^ N.of_nat 0) with 1. lia.
  - rewrite IH, Nnat.Nat2N.inj_succ, N.pow_succ_r'. lia.
Qed.

Lemma bits_val_false n : bits_val (repeat false n) = 0.
Proof. induction n as [|n IH]; [reflexivity|]. cbn [repeat bits_val]. rewrite IH. reflexivity. Qed.

Lemma lsb_bits_val l : lsb_bits (length l) (bits_val l) = l.
Proof.
  induction l as [|b l IH]; [reflexivity|]. cbn [length]. rewrite lsb_bits_S. cbn [bits_val].
  f_equal.
  - destruct b; rewrite ?N.add_0_l.
    + rewrite N.add_comm. apply N.testbit_odd_0.
    + apply N.testbit_even_0.
  - transitivity (lsb_bits (length l) (bits_val l)); [|exact IH]. f_equal. destruct b; Z.to_euclidean_division_equations; lia.
Qed.

Lemma lsb_bits_pad l n : (length l <= n)%nat -> lsb_bits n (bits_val l) = l ++ repeat false (n - length l).
Proof.
  intro H.
  rewrite <- (lsb_bits_val (l ++ repeat false (n - length l))).
  rewrite bits_val_app, bits_val_false, N.mul_0_r, N.add_0_r.
  f_equal. rewrite app_length, repeat_length. lia.
Qed.

Lemma set_bit_spec byte i : (i < 8)%nat -> byte < 2 ^ N.of_nat i ->
  set_bit byte i = Ok (byte + 2 ^ N.of_nat i).
Proof.
  intros Hi Hb. unfold set_bit, bit_mask.
  assert (E : nth_error [1; 2; 4; 8; 16; 32; 64; 128] i = Some (2 ^ N.of_nat i)).
  { do 8 (destruct i as [|i]; [reflexivity|]). lia. }
  rewrite E. cbn [bind]. f_equal.
  pose proof (lor_shift_add byte 1 (N.of_nat i) Hb) as H. rewrite N.shiftl_1_l, N.mul_1_l in H. exact H.
Qed.

Lemma bool_byte_spec items : forall i byte, (i + length items <= 8)%nat -> byte < 2 ^ N.of_nat i ->
  bool_byte i byte items = Ok (byte + 2 ^ N.of_nat i * bits_val items).
Proof.
  induction items as [|v items IH]; intros i byte Hi Hb; cbn [bool_byte bits_val].
  - f_equal. lia.
  - cbn [length] in Hi.
    assert (Hp : 2 ^ N.of_nat (S i) = 2 * 2 ^ N.of_nat i) by (rewrite Nnat.Nat2N.inj_succ, N.pow_succ_r'; reflexivity).
    destruct v.
    + rewrite set_bit_spec by (try assumption; lia). cbn [bind].
      rewrite IH by (rewrite ?Hp; lia). f_equal. rewrite Hp. lia.
    + cbn [bind]. rewrite IH by (rewrite ?Hp; lia). f_equal. rewrite Hp. lia.
Qed.

Lemma bool_chunks_spec k : forall items, (8 * k <= length items)%nat ->
  exists out, bool_chunks k items = Ok (out, skipn (8 * k) items) /\ length out = k /\ bytes_ok out /\
    bit_stream out = firstn (8 * k) items.
Proof.
  induction k as [|k IH]; intros items Hl.
  - exists []. cbn [bool_chunks]. rewrite Nat.mul_0_r. cbn [skipn firstn].
    repeat split; try reflexivity; try constructor.
  - cbn [bool_chunks]. replace (length items <? 8)%nat with false by lia.
    assert (H8 : length (firstn 8 items) = 8%nat) by (apply firstn_length_le; lia).
    rewrite bool_byte_spec by (try reflexivity; lia). cbn [bind].
    change (2 ^ N.of_nat 0) with 1. rewrite N.add_0_l, N.mul_1_l.
    destruct (IH (skipn 8 items)) as (out & -> & Hlo & Hok & Hs); [rewrite skipn_length; lia|].
    cbn [bind]. eexists. split; [rewrite skipn_skipn_add; replace (8 + 8 * k)%nat with (8 * S k)%nat by lia; reflexivity|].
    split; [cbn [length]; lia|]. split.
    + constructor; [|assumption]. unfold byte_ok. pose proof (bits_val_bound (firstn 8 items)) as B.
      rewrite H8 in B. exact B.
    + cbn [bit_stream flat_map]. unfold bit_stream in Hs. rewrite Hs.
      rewrite lsb_bits_pad by lia. rewrite H8. cbn [Nat.sub repeat]. rewrite app_nil_r.
      replace (8 * S k)%nat with (8 + 8 * k)%nat by lia.
      rewrite <- (firstn_skipn 8 items) at 3. rewrite firstn_app, H8.
      rewrite (firstn_all2 (firstn 8 items)) by lia. do 2 f_equal. lia.
Qed.

Lemma bitmap_encode_spec l : exists out, bitmap_encode l = Ok out /\ length out = ceil8 (length l) /\
  bytes_ok out /\ bit_stream out = l ++ repeat false (8 * ceil8 (length l) - length l).
Proof.
  unfold bitmap_encode, ceil8.
  pose proof (Nat.div_mod (length l) 8 ltac:(lia)) as E. pose proof (Nat.mod_upper_bound (length l) 8 ltac:(lia)) as U.
  set (k := (length l / 8)%nat) in *. set (r := (length l mod 8)%nat) in *. clearbody k r.
  destruct (bool_chunks_spec k l) as (out & -> & Hlo & Hok & Hs); [lia|]. cbn [bind].
  destruct (r =? 0)%nat eqn:Er.
  - exists out. split; [reflexivity|]. split; [lia|]. split; [assumption|].
    rewrite Hs. rewrite firstn_all2 by lia.
    replace (8 * (k + 0) - length l)%nat with 0%nat by lia. cbn [repeat]. rewrite app_nil_r. reflexivity.
  - assert (Hlr : length (skipn (8 * k) l) = r) by (rewrite skipn_length; lia).
    rewrite bool_byte_spec by (try reflexivity; lia). cbn [bind].
    change (2 ^ N.of_nat 0) with 1. rewrite N.add_0_l, N.mul_1_l.
    eexists. split; [reflexivity|]. split; [rewrite app_length; cbn [length]; lia|].
    pose proof (bits_val_bound (skipn (8 * k) l)) as B. rewrite Hlr in B.
    assert (B8 : bits_val (skipn (8 * k) l) < 2 ^ 8).
    { eapply N.lt_le_trans; [exact B|]. apply N.pow_le_mono_r; [discriminate|lia]. }
    split.
    + apply bytes_ok_app. split; [assumption|]. constructor; [exact B8|constructor].
    + unfold bit_stream in *. rewrite flat_map_app, Hs. cbn [flat_map]. rewrite app_nil_r.
      rewrite lsb_bits_pad by lia. rewrite app_assoc, firstn_skipn, Hlr. do 2 f_equal. lia.
Qed.

Lemma pval1_bits l : pval 1 (map N.b2n l) = bits_val l.
Proof.
  induction l as [|b l IH]; [reflexivity|]. cbn [map pval bits_val]. rewrite IH.
  change (2 ^ N.of_nat 1) with 2. destruct b; reflexivity.
Qed.

Lemma le_bits_val out : bytes_ok out -> le out = bits_val (bit_stream out).
Proof.
  intro H. rewrite bit_stream_le by assumption. rewrite bits_val_lsb. symmetry. apply N.mod_small.
  pose proof (le_bound out H) as B. unfold nlen in B. eapply N.lt_le_trans; [exact B|].
  apply N.pow_le_mono_r; [discriminate|lia].
Qed.

Lemma encode_bool_roundtrip m l : nlen l < 2 ^ 61 ->
  exists out s, encode_bool l = Ok out /\ hr_try_new m out 1 (nlen l) = Ok s /\
    yields (hr_next m) (fun s r => hr_size_hint s = nlen r) s (map N.b2n l).
Proof.
  intro Hn. unfold encode_bool, nlen in *.
  destruct (bitpacked_header_spec (length l) Hn) as (h & -> & Hh). cbn [bind].
  destruct (bitmap_encode_spec l) as (out & -> & Hlo & Hok & Hs). cbn [bind].
  pose proof (ceil8_ge (length l)) as [Hd1 Hd2]. change (2 ^ 61) with 2305843009213693952 in Hn.
  destruct (hr_decodes_short_packed m 1 h out (map N.b2n l) (N.of_nat (ceil8 (length l)))) as (s & Es & Hy);
    rewrite ?map_length; try assumption.
  - lia.
  - unfold nlen. rewrite Hlo. change (2 ^ 61) with 2305843009213693952. lia.
  - change (8 * length out / 1)%nat with (fst (Nat.divmod (8 * length out) 0 0 0)).
    change (fst (Nat.divmod (8 * length out) 0 0 0)) with (8 * length out / 1)%nat. rewrite Nat.div_1_r. lia.
  - change (2 ^ 64) with 18446744073709551616. lia.
  - unfold nlen. rewrite Hlo. lia.
  - apply Forall_forall. intros x Hx. apply in_map_iff in Hx as (b & <- & _). destruct b; reflexivity.
  - rewrite pval1_bits, le_bits_val by assumption. rewrite Hs, bits_val_app, bits_val_false, N.mul_0_r, N.add_0_r.
    apply N.mod_small. rewrite Nat.mul_1_r. apply bits_val_bound.
  - exists (h ++ out), s. split; [reflexivity|]. unfold nlen in Es. rewrite map_length in Es. split; assumption.
Qed.

(** *** Iterating *)

Lemma land_pow2 c i : negb (N.land c (2 ^ i) =? 0) = N.testbit c i.
Proof.
  destruct (N.testbit c i) eqn:E.
  - destruct (N.land c (2 ^ i) =? 0) eqn:Z; [|reflexivity].
    apply N.eqb_eq in Z. apply (f_equal (fun x => N.testbit x i)) in Z.
    rewrite N.land_spec, E, N.pow2_bits_true, N.bits_0 in Z. discriminate.
  - assert (N.land c (2 ^ i) = 0) as ->; [|reflexivity].
    apply N.bits_inj; intro j. rewrite N.land_spec, N.bits_0.
    destruct (N.eq_dec i j) as [<-|Hne]; [rewrite E; reflexivity|].
    rewrite N.pow2_bits_false by assumption. apply andb_false_r.
Qed.

Lemma rotl8_step i : (i < 8)%nat -> rotl8 (2 ^ N.of_nat i) 1 = 2 ^ N.of_nat (S i mod 8).
Proof. intro H. do 8 (destruct i as [|i]; [reflexivity|]). lia. Qed.

Lemma rotl8_start off : rotl8 1 (N.of_nat off mod two32) = 2 ^ N.of_nat (off mod 8).
Proof.
  unfold rotl8.
  assert (E : (N.of_nat off mod two32) mod 8 = N.of_nat (off mod 8)).
  { unfold two32. rewrite Nnat.Nat2N.inj_mod. change (N.of_nat 8) with 8. Z.to_euclidean_division_equations; lia. }
  rewrite E. pose proof (Nat.mod_upper_bound off 8 ltac:(lia)) as U.
  set (i := (off mod 8)%nat) in *. clearbody i.
  do 8 (destruct i as [|i]; [reflexivity|]). lia.
Qed.

Lemma bm_yields n : forall s i, (i < 8)%nat -> bm_remaining s = N.of_nat n -> bm_mask s = 2 ^ N.of_nat i ->
  (n <= 8 - i + 8 * length (bm_iter s))%nat ->
  yields bm_next (fun s r => bm_size_hint s = nlen r) s
    (firstn n (skipn i (lsb_bits 8 (bm_current s)) ++ bit_stream (bm_iter s))).
Proof.
  induction n as [|n IH]; intros s i Hi Hr Hm Hn.
  - cbn [firstn]. apply yields_nil with s; [exact Hr|]. unfold bm_next. rewrite Hr. reflexivity.
  - assert (Hskip : skipn i (lsb_bits 8 (bm_current s)) =
              N.testbit (bm_current s) (N.of_nat i) :: skipn (S i) (lsb_bits 8 (bm_current s))).
    { do 8 (destruct i as [|i]; [reflexivity|]). lia. }
    rewrite Hskip. cbn [app firstn].
    assert (Hlen : forall T : list bool, (n <= length T)%nat -> length (firstn n T) = n)
      by (intros; apply firstn_length_le; assumption).
    assert (Hcond : length (skipn (S i) (lsb_bits 8 (bm_current s)) ++ bit_stream (bm_iter s)) =
              (7 - i + 8 * length (bm_iter s))%nat).
    { rewrite app_length, skipn_length, lsb_bits_length, bit_stream_length. lia. }
    assert (Hhint : bm_size_hint s = nlen (N.testbit (bm_current s) (N.of_nat i)
        :: firstn n (skipn (S i) (lsb_bits 8 (bm_current s)) ++ bit_stream (bm_iter s)))).
    { unfold bm_size_hint, nlen. cbn [length]. rewrite Hlen by lia. exact Hr. }
    assert (Hnext : bm_next s = 
       if 2 ^ N.of_nat (S i mod 8) =? 1 then
         match bm_iter s with
         | [] => Ok (Some (N.testbit (bm_current s) (N.of_nat i)), mk_bm [] (bm_current s) (N.of_nat n) (2 ^ N.of_nat (S i mod 8)))
         | v :: r => Ok (Some (N.testbit (bm_current s) (N.of_nat i)), mk_bm r v (N.of_nat n) (2 ^ N.of_nat (S i mod 8)))
         end
       else Ok (Some (N.testbit (bm_current s) (N.of_nat i)), mk_bm (bm_iter s) (bm_current s) (N.of_nat n) (2 ^ N.of_nat (S i mod 8)))).
    { unfold bm_next. rewrite Hr. change (N.of_nat (S n) =? 0) with false. cbv beta iota zeta.
      rewrite Hm, land_pow2, rotl8_step by assumption.
      replace (N.of_nat (S n) - 1) with (N.of_nat n) by lia. reflexivity. }
    destruct (Nat.eq_dec i 7) as [->|H7].
    + change (2 ^ N.of_nat (8 mod 8)) with 1 in Hnext. cbn [N.eqb Pos.eqb] in Hnext.
      destruct (bm_iter s) as [|v r] eqn:Ei.
      * eapply yields_cons; [exact Hhint|exact Hnext|].
        cbn [length] in Hn. assert (n = 0%nat) by lia. subst n. cbn [firstn].
        eapply yields_nil; [reflexivity|]. reflexivity.
      * eapply yields_cons; [exact Hhint|exact Hnext|].
        cbn [length] in Hn.
        apply (IH (mk_bm r v (N.of_nat n) 1) 0%nat);
             cbn [bm_remaining bm_mask bm_iter]; [lia|reflexivity|reflexivity|lia].
    + assert (HSi : (S i mod 8 = S i)%nat) by (apply Nat.mod_small; lia). rewrite HSi in Hnext.
      assert (Hne : 2 ^ N.of_nat (S i) =? 1 = false).
      { rewrite Nnat.Nat2N.inj_succ, N.pow_succ_r'. pose proof (pow2_pos (N.of_nat i)). lia. }
      rewrite Hne in Hnext.
      eapply yields_cons; [exact Hhint|exact Hnext|].
      apply (IH (mk_bm (bm_iter s) (bm_current s) (N.of_nat n) (2 ^ N.of_nat (S i))) (S i));
          cbn [bm_remaining bm_mask bm_iter]; [lia|reflexivity|reflexivity|lia].
Qed.

Lemma bm_new_spec slice off n : (off + n <= 8 * length slice)%nat ->
  exists s, bm_new slice off (N.of_nat n) = Ok s /\
    yields bm_next (fun s r => bm_size_hint s = nlen r) s (firstn n (skipn off (bit_stream slice))).
Proof.
  intro H. unfold bm_new, slice_from.
  pose proof (Nat.div_mod off 8 ltac:(lia)) as E. pose proof (Nat.mod_upper_bound off 8 ltac:(lia)) as U.
  rewrite rotl8_start.
  set (q := (off / 8)%nat) in *. set (i := (off mod 8)%nat) in *. clearbody q i.
  replace (q <=? length slice)%nat with true by lia. cbn [bind].
  eexists. split; [reflexivity|].
  assert (Hs : skipn off (bit_stream slice) = skipn i (bit_stream (skipn q slice))).
  { rewrite E. rewrite <- (skipn_skipn_add i (8 * q)). f_equal. clear.
    revert slice; induction q as [|q IH]; intros slice; [rewrite Nat.mul_0_r; reflexivity|].
    destruct slice as [|b slice]; [cbn [bit_stream flat_map skipn]; apply skipn_nil|].
    cbn [skipn]. rewrite <- IH. unfold bit_stream. cbn [flat_map].
    replace (8 * S q)%nat with (8 + 8 * q)%nat by lia. rewrite <- skipn_skipn_add.
    f_equal. }
  rewrite Hs.
  destruct (skipn q slice) as [|b r] eqn:Eb.
  - assert (Hz : n = 0%nat).
    { assert (length (skipn q slice) = 0%nat) by (rewrite Eb; reflexivity). rewrite skipn_length in *. lia. }
    subst n. cbn [firstn]. eapply yields_nil; [reflexivity|reflexivity].
  - assert (Hlen : length (skipn q slice) = S (length r)) by (rewrite Eb; reflexivity).
    rewrite skipn_length in Hlen.
    replace (skipn i (bit_stream (b :: r))) with (skipn i (lsb_bits 8 b) ++ bit_stream r).
    2:{ unfold bit_stream. cbn [flat_map]. rewrite skipn_app, lsb_bits_length.
        replace (i - 8)%nat with 0%nat by lia. reflexivity. }
    apply (bm_yields n (mk_bm (skipn 1 (b :: r)) b (N.of_nat n) (2 ^ N.of_nat i)) i);
      cbn [bm_remaining bm_mask bm_iter skipn]; [lia|reflexivity|reflexivity|lia].
Qed.
