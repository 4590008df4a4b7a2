From Verif Require Import Base.Prelude Base.LeFacts Model.Uleb128 Spec.UlebSpec.
Open Scope N_scope.

Lemma land127 b : N.land b 127 = b mod 128.
Proof. change 127 with (N.ones 7). rewrite N.land_ones. reflexivity. Qed.

Lemma land128_0 b : b < 256 -> (N.land b 128 =? 0) = (b <? 128).
Proof.
  intro H.
  assert (E : N.land b 128 = if b <? 128 then 0 else 128).
  { apply N.bits_inj; intro i. rewrite N.land_spec.
    change 128 with (2 ^ 7). rewrite N.pow2_bits_eqb.
    destruct (b <? 2 ^ 7) eqn:Hb.
    - rewrite N.bits_0. destruct (N.eqb_spec 7 i) as [<-|]; [|apply andb_false_r].
      rewrite (testbit_small b 7 7) by lia. reflexivity.
    - rewrite N.pow2_bits_eqb. destruct (N.eqb_spec 7 i) as [<-|]; [|apply andb_false_r].
      rewrite andb_true_r. rewrite N.testbit_eqb.
      change (2 ^ 7) with 128 in *.
      assert (b / 128 = 1) as -> by (Z.to_euclidean_division_equations; lia). reflexivity. }
  rewrite E. destruct (b <? 128); reflexivity.
Qed.

Definition uleb_panics (l : list N) : bool :=
  (10 <=? length (uleb_lead l))%nat && (1 <? nth 9 l 0).

Lemma lead_S b r : uleb_lead (b :: r) = if b <? 128 then [b] else b :: uleb_lead r.
Proof. reflexivity. Qed.

Definition uleb_panics_at (k : nat) (l : list N) : bool :=
  (10 - k <=? length (uleb_lead l))%nat && (1 <? nth (9 - k) l 0).

Lemma two64_eq : two64 = 2 ^ 64. Proof. reflexivity. Qed.

Lemma uleb_go_spec l : forall k r c, bytes_ok l -> (k <= 9)%nat -> r < 2 ^ (7 * N.of_nat k) ->
  uleb_decode_go l r (7 * N.of_nat k) c =
  if uleb_panics_at k l then Panic
  else Ok (r + 2 ^ (7 * N.of_nat k) * base128 (uleb_lead l), (c + length (uleb_lead l))%nat).
Proof.
  induction l as [|b l IH]; intros k r c Hl Hk Hr.
  - cbn [uleb_decode_go uleb_lead base128 length].
    unfold uleb_panics_at. cbn [uleb_lead length].
    replace (10 - k <=? 0)%nat with false by lia. cbn [andb].
    rewrite N.mul_0_r, N.add_0_r, Nat.add_0_r. reflexivity.
  - apply bytes_ok_cons in Hl as [Hb Hl].
    cbn [uleb_decode_go].
    destruct (Nat.eq_dec k 9) as [->|Hk9].
    + change (7 * N.of_nat 9 =? 63) with true. cbn [andb].
      unfold uleb_panics_at. change (9 - 9)%nat with 0%nat. cbn [nth].
      rewrite lead_S.
      assert (Hlen : (10 - 9 <=? length (if (b <? 128)%N then [b] else b :: uleb_lead l))%nat = true).
      { destruct (b <? 128); reflexivity. }
      rewrite Hlen. cbn [andb].
      destruct (1 <? b) eqn:Hb1; [reflexivity|].
      rewrite land128_0 by assumption.
      replace (b <? 128) with true by lia.
      cbn [length base128]. rewrite N.mul_0_r, N.add_0_r.
      rewrite land127, (N.mod_small b 128) by lia.
      rewrite (N.mod_small (N.shiftl _ _)).
      2:{ rewrite N.shiftl_mul_pow2, two64_eq. change (2 ^ 64) with (2 * 2 ^ (7 * N.of_nat 9)).
          apply N.mul_lt_mono_pos_r; [auto|lia]. }
      rewrite lor_shift_add by assumption.
      rewrite (N.mul_comm (2 ^ _)). rewrite Nat.add_1_r. reflexivity.
    + replace (7 * N.of_nat k =? 63) with false by lia. cbn [andb].
      rewrite land127.
      assert (Hsmall : b mod 128 < 128) by (apply N.mod_lt; discriminate).
      assert (Hle : 2 ^ (7 * N.of_nat k) * 128 = 2 ^ (7 * N.of_nat (S k))).
      { change 128 with (2 ^ 7). rewrite <- N.pow_add_r. f_equal. lia. }
      assert (Hle2 : 2 ^ (7 * N.of_nat (S k)) <= two64).
      { rewrite two64_eq. apply N.pow_le_mono_r; lia. }
      rewrite (N.mod_small (N.shiftl _ _)).
      2:{ rewrite N.shiftl_mul_pow2. rewrite N.mul_comm.
          eapply N.lt_le_trans; [|exact Hle2]. rewrite <- Hle.
          apply N.mul_lt_mono_pos_l; auto. }
      rewrite lor_shift_add by assumption.
      rewrite land128_0 by assumption. rewrite lead_S.
      destruct (b <? 128) eqn:Hb128.
      * unfold uleb_panics_at. rewrite lead_S, Hb128. cbn [length].
        replace (10 - k <=? 1)%nat with false by lia. cbn [andb].
        cbn [base128]. rewrite N.mul_0_r, N.add_0_r, Nat.add_1_r, (N.mul_comm (2 ^ _)). reflexivity.
      * replace (7 * N.of_nat k + 7) with (7 * N.of_nat (S k)) by lia.
        rewrite IH; [|assumption|lia|].
        2:{ rewrite <- Hle.
            replace (b mod 128 * 2 ^ (7 * N.of_nat k)) with (2 ^ (7 * N.of_nat k) * (b mod 128)) by apply N.mul_comm.
            assert (2 ^ (7 * N.of_nat k) * (b mod 128) <= 2 ^ (7 * N.of_nat k) * 127)
              by (apply N.mul_le_mono_l; lia). lia. }
        assert (Hp : uleb_panics_at (S k) l = uleb_panics_at k (b :: l)).
        { unfold uleb_panics_at. rewrite lead_S, Hb128. cbn [length].
          replace (9 - k)%nat with (S (9 - S k)) by lia. cbn [nth].
          f_equal. lia. }
        rewrite Hp. destruct (uleb_panics_at k (b :: l)); [reflexivity|].
        cbn [length base128]. rewrite <- Hle. f_equal. f_equal; lia.
Qed.

Lemma uleb_decode_spec l : bytes_ok l ->
  uleb_decode l =
  if uleb_panics l then Panic else Ok (base128 (uleb_lead l), length (uleb_lead l)).
Proof.
  intro H. unfold uleb_decode.
  change (uleb_decode_go l 0 0 0) with (uleb_decode_go l 0 (7 * N.of_nat 0) 0).
  rewrite (uleb_go_spec l 0 0 0) by (try assumption; try lia; cbn; lia).
  unfold uleb_panics_at, uleb_panics.
  change (10 - 0)%nat with 10%nat. change (9 - 0)%nat with 9%nat.
  destruct (_ && _); [reflexivity|].
  change (2 ^ (7 * N.of_nat 0)) with 1. f_equal. f_equal. lia.
Qed.

Lemma lead_len_le l : (length (uleb_lead l) <= length l)%nat.
Proof.
  induction l as [|b l IH]; cbn [uleb_lead length]; [lia|].
  destruct (b <? 128); cbn [length]; lia.
Qed.

(** When the tenth byte of the leading group is at most one the group ends there. *)
Lemma lead_len_10 l k : bytes_ok l -> (S k <= length (uleb_lead l))%nat -> nth k l 0 <= 1 ->
  length (uleb_lead l) = S k.
Proof.
  revert k; induction l as [|b l IH]; intros k Hl Hk Hn; cbn [uleb_lead length] in *; [lia|].
  apply bytes_ok_cons in Hl as [Hb Hl].
  destruct k as [|k]; cbn [nth] in Hn.
  - replace (b <? 128) with true in * by lia. reflexivity.
  - destruct (b <? 128); cbn [length] in *; [lia|].
    f_equal. apply IH; [assumption|lia|assumption].
Qed.

Lemma base128_bound l : base128 l < 2 ^ (7 * nlen l).
Proof.
  unfold nlen. induction l as [|b l IH]; [cbn; lia|].
  cbn [base128 length].
  replace (7 * N.of_nat (S (length l))) with (7 + 7 * N.of_nat (length l)) by lia.
  rewrite N.pow_add_r. change (2 ^ 7) with 128.
  assert (b mod 128 < 128) by (apply N.mod_lt; discriminate). lia.
Qed.

(** Encoder: the bytes written. *)
Fixpoint uleb_enc (fuel : nat) (v : N) : list N :=
  match fuel with
  | O => []
  | S f => if v <? 128 then [v] else (v mod 128 + 128) :: uleb_enc f (v / 128)
  end.

Lemma uleb_encode_spec container : forall v,
  v < 2 ^ (7 * nlen container) -> container <> [] ->
  exists c, uleb_encode v container = Ok (c, length (uleb_enc (length container) v)) /\
            length c = length container /\
            firstn (length (uleb_enc (length container) v)) c = uleb_enc (length container) v.
Proof.
  induction container as [|x rest IH]; intros v Hv Hne; [congruence|].
  cbn [uleb_encode length].
  assert (Hbyte : N.land (v mod 256) 127 = v mod 128).
  { rewrite land127. Z.to_euclidean_division_equations; lia. }
  rewrite Hbyte.
  assert (Hshift : N.shiftr v 7 = v / 128) by (rewrite N.shiftr_div_pow2; reflexivity).
  rewrite Hshift.
  assert (H0 : (v / 128 =? 0) = (v <? 128)).
  { destruct (v <? 128) eqn:E.
    - rewrite N.div_small by lia. reflexivity.
    - assert (1 <= v / 128) by (Z.to_euclidean_division_equations; lia). lia. }
  rewrite H0. cbn [uleb_enc].
  destruct (v <? 128) eqn:E.
  - eexists. split; [|split].
    + cbn [length]. rewrite N.mod_small by lia. reflexivity.
    + reflexivity.
    + reflexivity.
  - assert (Hv' : v / 128 < 2 ^ (7 * nlen rest)).
    { apply N.div_lt_upper_bound; [lia|]. change 128 with (2 ^ 7). rewrite <- N.pow_add_r.
      replace (7 + 7 * nlen rest) with (7 * nlen (x :: rest)) by (unfold nlen; cbn [length]; lia).
      assumption. }
    assert (Hne' : rest <> []).
    { intros ->. cbn in Hv'. assert (1 <= v / 128) by (Z.to_euclidean_division_equations; lia). lia. }
    destruct (IH (v / 128) Hv' Hne') as (c & Hc & Hlen & Hf).
    rewrite Hc. cbn [bind length].
    assert (Hlor : N.lor (v mod 128) 128 = v mod 128 + 128).
    { change 128 with (N.shiftl 1 7) at 2. rewrite lor_shift_add; [reflexivity|].
      change (2 ^ 7) with 128. apply N.mod_lt; discriminate. }
    rewrite Hlor.
    eexists. split; [reflexivity|]. split; [cbn [length]; congruence|].
    cbn [firstn]. rewrite Hf. reflexivity.
Qed.

Lemma uleb_bytes_enc v : v < two64 -> uleb_bytes v = Ok (uleb_enc 10 v).
Proof.
  intro Hv. unfold uleb_bytes.
  destruct (uleb_encode_spec (repeat 0 10) v) as (c & Hc & Hl & Hf).
  - eapply N.lt_trans; [exact Hv|]. reflexivity.
  - discriminate.
  - rewrite Hc. cbn [bind]. change (length (repeat 0 10)) with 10%nat in *. rewrite Hf. reflexivity.
Qed.

Lemma uleb_enc_len f v : (length (uleb_enc f v) <= f)%nat.
Proof.
  revert v; induction f as [|f IH]; intro v; cbn [uleb_enc length]; [lia|].
  destruct (v <? 128); cbn [length]; [lia|]. specialize (IH (v / 128)). lia.
Qed.

Lemma uleb_enc_pos f v : (0 < f)%nat -> (1 <= length (uleb_enc f v))%nat.
Proof. destruct f; [lia|]. cbn [uleb_enc]. destruct (v <? 128); cbn [length]; lia. Qed.

Lemma uleb_enc_ok f v : bytes_ok (uleb_enc f v).
Proof.
  revert v; induction f as [|f IH]; intro v; cbn [uleb_enc]; [constructor|].
  destruct (v <? 128) eqn:E; constructor; try constructor; try apply IH; unfold byte_ok; try lia.
Qed.

Lemma uleb_enc_lead f : forall v rest, v < 2 ^ (7 * N.of_nat f) ->
  (0 < f)%nat ->
  uleb_lead (uleb_enc f v ++ rest) = uleb_enc f v.
Proof.
  induction f as [|f IH]; intros v rest Hv Hf; [lia|].
  cbn [uleb_enc].
  destruct (v <? 128) eqn:E.
  - cbn [app uleb_lead]. rewrite E. reflexivity.
  - cbn [app uleb_lead]. replace (v mod 128 + 128 <? 128) with false by lia.
    f_equal. 
    assert (Hv' : v / 128 < 2 ^ (7 * N.of_nat f)).
    { apply N.div_lt_upper_bound; [lia|]. change 128 with (2 ^ 7). rewrite <- N.pow_add_r.
      replace (7 + 7 * N.of_nat f) with (7 * N.of_nat (S f)) by lia. assumption. }
    apply IH; [assumption|].
    destruct f; [|lia]. cbn in Hv'.
    assert (1 <= v / 128) by (Z.to_euclidean_division_equations; lia). lia.
Qed.

Lemma uleb_enc_val f : forall v, v < 2 ^ (7 * N.of_nat f) -> base128 (uleb_enc f v) = v.
Proof.
  induction f as [|f IH]; intros v Hv.
  - cbn in Hv |- *. lia.
  - cbn [uleb_enc]. destruct (v <? 128) eqn:E.
    + cbn [base128]. rewrite N.mod_small by lia. lia.
    + cbn [base128].
      assert (Hv' : v / 128 < 2 ^ (7 * N.of_nat f)).
      { apply N.div_lt_upper_bound; [lia|]. change 128 with (2 ^ 7). rewrite <- N.pow_add_r.
        replace (7 + 7 * N.of_nat f) with (7 * N.of_nat (S f)) by lia. assumption. }
      rewrite IH by assumption.
      assert ((v mod 128 + 128) mod 128 = v mod 128) as ->.
      { Z.to_euclidean_division_equations; lia. }
      Z.to_euclidean_division_equations; lia.
Qed.

(** The tenth byte of an encoding is at most one. *)
Lemma uleb_enc_nth9 f : forall k v rest, v < 2 ^ (7 * N.of_nat k + 1) ->
  (S k <= length (uleb_enc f v))%nat -> nth k (uleb_enc f v ++ rest) 0 <= 1.
Proof.
  induction f as [|f IH]; intros k v rest Hv Hk; cbn [uleb_enc length] in *; [lia|].
  destruct k as [|k].
  - change (2 ^ (7 * N.of_nat 0 + 1)) with 2 in Hv.
    replace (v <? 128) with true by lia. cbn. lia.
  - destruct (v <? 128) eqn:E; cbn [length] in Hk; [lia|].
    cbn [app nth]. apply IH; [|lia].
    apply N.div_lt_upper_bound; [lia|].
    change 128 with (2 ^ 7). rewrite <- N.pow_add_r.
    replace (7 + (7 * N.of_nat k + 1)) with (7 * N.of_nat (S k) + 1) by lia. assumption.
Qed.

Lemma uleb_decode_enc v rest : v < two64 -> bytes_ok rest ->
  uleb_decode (uleb_enc 10 v ++ rest) = Ok (v, length (uleb_enc 10 v)).
Proof.
  intros Hv Hr.
  assert (Hv70 : v < 2 ^ (7 * N.of_nat 10)) by (eapply N.lt_trans; [exact Hv|reflexivity]).
  rewrite uleb_decode_spec by (apply bytes_ok_app; split; [apply uleb_enc_ok|assumption]).
  unfold uleb_panics.
  rewrite uleb_enc_lead by (try assumption; lia).
  rewrite uleb_enc_val by assumption.
  destruct (10 <=? length (uleb_enc 10 v))%nat eqn:E; [|reflexivity].
  assert (nth 9 (uleb_enc 10 v ++ rest) 0 <= 1).
  { apply uleb_enc_nth9; [exact Hv|lia]. }
  replace (1 <? _) with false by lia. reflexivity.
Qed.

(** Minimality: a nonempty digit string with value [v] has at least as many digits. *)
Lemma uleb_enc_minimal f : forall l, (0 < length l)%nat ->
  (length (uleb_enc f (base128 l)) <= length l)%nat.
Proof.
  induction f as [|f IH]; intros l Hl; cbn [uleb_enc length]; [lia|].
  destruct l as [|b l]; [cbn in Hl; lia|].
  destruct (base128 (b :: l) <? 128) eqn:E; cbn [length]; [lia|].
  cbn [base128] in *.
  assert (b mod 128 < 128) by (apply N.mod_lt; discriminate).
  assert (Hd : (b mod 128 + 128 * base128 l) / 128 = base128 l).
  { rewrite N.mul_comm, N.div_add by lia. rewrite N.div_small by assumption. lia. }
  rewrite Hd.
  destruct l as [|b' l]; [cbn in E; lia|].
  apply le_n_S. apply IH. cbn [length]; lia.
Qed.

Lemma uleb_roundtrip v : v < two64 ->
  exists bs, uleb_bytes v = Ok bs /\ bytes_ok bs /\ (1 <= length bs <= 10)%nat /\
    (forall rest, bytes_ok rest -> uleb_decode (bs ++ rest) = Ok (v, length bs)) /\
    (forall other n, bytes_ok other -> other <> [] -> uleb_decode other = Ok (v, n) ->
       (length bs <= n)%nat).
Proof.
  intro Hv. exists (uleb_enc 10 v).
  split; [apply uleb_bytes_enc; assumption|].
  split; [apply uleb_enc_ok|].
  split; [split; [apply uleb_enc_pos; lia|apply uleb_enc_len]|].
  split; [intros rest Hr; apply uleb_decode_enc; assumption|].
  intros other n Ho Hne Hd.
  rewrite uleb_decode_spec in Hd by assumption.
  destruct (uleb_panics other); [discriminate|].
  injection Hd as Hv' Hn. subst.
  apply uleb_enc_minimal.
  destruct other as [|b o]; [congruence|]. cbn [uleb_lead].
  destruct (b <? 128); cbn [length]; lia.
Qed.

Lemma uleb_decode_total l : bytes_ok l ->
  (uleb_decode l = Panic <-> (10 <= length (uleb_lead l))%nat /\ 1 < nth 9 l 0) /\
  (uleb_decode l <> Panic ->
     uleb_decode l = Ok (base128 (uleb_lead l), length (uleb_lead l)) /\
     (length (uleb_lead l) <= length l)%nat /\ (length (uleb_lead l) <= 10)%nat /\
     base128 (uleb_lead l) < two64).
Proof.
  intro Hl. rewrite uleb_decode_spec by assumption. unfold uleb_panics.
  split.
  - destruct (10 <=? length (uleb_lead l))%nat eqn:E1; cbn [andb].
    + destruct (1 <? nth 9 l 0) eqn:E2.
      * split; intros _; [split; lia|reflexivity].
      * split; [discriminate|]. intros [_ H]. lia.
    + split; [discriminate|]. intros [H _]. lia.
  - destruct (_ && _) eqn:E; [congruence|intros _].
    split; [reflexivity|].
    split; [apply lead_len_le|].
    destruct (Nat.le_gt_cases 10 (length (uleb_lead l))) as [H10|H10].
    + assert (Hn : nth 9 l 0 <= 1) by lia.
      pose proof (lead_len_10 l 9 Hl H10 Hn) as HL.
      split; [lia|].
      (* value: nine full digits plus a last digit at most one *)
      assert (Hgen : forall k m, bytes_ok m -> length (uleb_lead m) = S k -> nth k m 0 <= 1 ->
                 base128 (uleb_lead m) < 2 ^ (7 * N.of_nat k + 1)).
      { clear. induction k as [|k IH]; intros m Hm HL Hn.
        - destruct m as [|b m]; [cbn in HL; lia|]. cbn [uleb_lead nth] in *.
          replace (b <? 128) with true by lia.
          cbn [base128]. rewrite N.mod_small by lia.
          change (2 ^ (7 * N.of_nat 0 + 1)) with 2. lia.
        - destruct m as [|b m]; [cbn in HL; lia|].
          apply bytes_ok_cons in Hm as [Hb Hm]. cbn [uleb_lead nth] in *.
          destruct (b <? 128); cbn [length] in HL; [lia|].
          cbn [base128].
          specialize (IH m Hm). assert (HL' : length (uleb_lead m) = S k) by lia.
          specialize (IH HL' Hn).
          assert (b mod 128 < 128) by (apply N.mod_lt; discriminate).
          replace (7 * N.of_nat (S k) + 1) with (7 + (7 * N.of_nat k + 1)) by lia.
          rewrite N.pow_add_r. change (2 ^ 7) with 128. lia. }
      exact (Hgen 9%nat l Hl HL Hn).
    + split; [lia|].
      eapply N.lt_le_trans; [apply base128_bound|].
      rewrite two64_eq. apply N.pow_le_mono_r; [discriminate|]. unfold nlen. lia.
Qed.

(** ZigZag. *)
Definition zz (z : Z) : N := if (0 <=? z)%Z then Z.to_N (2 * z) else Z.to_N (- 2 * z - 1).

Lemma lxor_m1 a : Z.lxor a (-1) = (- a - 1)%Z.
Proof. rewrite Z.lxor_m1_r. unfold Z.lnot. lia. Qed.

Lemma in64 z : (- 2 ^ 63 <= z < 2 ^ 63)%Z -> in_s 64 z = true.
Proof. unfold in_s. change (Z.of_N 64 - 1)%Z with 63%Z. lia. Qed.

Lemma wrap_id z : (- 2 ^ 63 <= z < 2 ^ 63)%Z -> wrap_s 64 z = z.
Proof.
  intro H. unfold wrap_s, to_signed, of_signed.
  change (2 ^ Z.of_N 64)%Z with 18446744073709551616%Z.
  change (2 ^ (64 - 1)) with 9223372036854775808.
  change (2 ^ 63)%Z with 9223372036854775808%Z in H.
  destruct (Z.to_N (z mod 18446744073709551616) <? 9223372036854775808) eqn:E;
  Z.to_euclidean_division_equations; lia.
Qed.

Lemma zigzag_zz z : (- 2 ^ 63 <= z < 2 ^ 63)%Z -> zigzag z = zz z.
Proof.
  intro H. unfold zigzag, zz.
  rewrite Z.shiftl_mul_pow2 by lia. change (2 ^ 1)%Z with 2%Z.
  rewrite Z.shiftr_div_pow2 by lia.
  change (2 ^ 63)%Z with 9223372036854775808%Z in *.
  destruct (0 <=? z)%Z eqn:E.
  - rewrite Z.div_small by lia. rewrite Z.lxor_0_r.
    unfold wrap_s, of_signed, to_signed.
    change (2 ^ Z.of_N 64)%Z with 18446744073709551616%Z.
    change (2 ^ (64 - 1)) with 9223372036854775808.
    destruct (Z.to_N ((z * 2) mod 18446744073709551616) <? 9223372036854775808) eqn:E2;
    Z.to_euclidean_division_equations; lia.
  - assert (z / 9223372036854775808 = -1)%Z as -> by (Z.to_euclidean_division_equations; lia).
    rewrite lxor_m1.
    unfold wrap_s, of_signed, to_signed.
    change (2 ^ Z.of_N 64)%Z with 18446744073709551616%Z.
    change (2 ^ (64 - 1)) with 9223372036854775808.
    destruct (Z.to_N ((z * 2) mod 18446744073709551616) <? 9223372036854775808) eqn:E2;
    Z.to_euclidean_division_equations; lia.
Qed.

Lemma zz_bound z : (- 2 ^ 63 <= z < 2 ^ 63)%Z -> zz z < two64.
Proof.
  unfold zz, two64. change (2 ^ 63)%Z with 9223372036854775808%Z.
  destruct (0 <=? z)%Z eqn:E; lia.
Qed.

Lemma unzigzag z : (- 2 ^ 63 <= z < 2 ^ 63)%Z ->
  Z.lxor (to_signed 64 (N.shiftr (zz z) 1)) (- Z.of_N (N.land (zz z) 1)) = z.
Proof.
  intro H. rewrite N.shiftr_div_pow2. change (2 ^ 1) with 2.
  change 1 with (N.ones 1). rewrite N.land_ones. change (2 ^ 1) with 2.
  unfold zz, to_signed.
  change (2 ^ Z.of_N 64)%Z with 18446744073709551616%Z.
  change (2 ^ (64 - 1)) with 9223372036854775808.
  change (2 ^ 63)%Z with 9223372036854775808%Z in *.
  destruct (0 <=? z)%Z eqn:E.
  - assert (Z.to_N (2 * z) mod 2 = 0) as -> by (Z.to_euclidean_division_equations; lia).
    cbn [Z.of_N Z.opp]. rewrite Z.lxor_0_r.
    destruct (_ <? _) eqn:E2; Z.to_euclidean_division_equations; lia.
  - assert (Z.to_N (-2 * z - 1) mod 2 = 1) as -> by (Z.to_euclidean_division_equations; lia).
    change (- Z.of_N 1)%Z with (-1)%Z. rewrite lxor_m1.
    destruct (_ <? _) eqn:E2; Z.to_euclidean_division_equations; lia.
Qed.

Lemma zigzag_bytes_enc z : (- 2 ^ 63 <= z < 2 ^ 63)%Z -> zigzag_bytes z = Ok (uleb_enc 10 (zz z)).
Proof.
  intro H. unfold zigzag_bytes, zigzag_encode. rewrite zigzag_zz by assumption.
  apply uleb_bytes_enc, zz_bound, H.
Qed.

Lemma zigzag_decode_enc z rest : (- 2 ^ 63 <= z < 2 ^ 63)%Z -> bytes_ok rest ->
  zigzag_decode (uleb_enc 10 (zz z) ++ rest) = Ok (z, length (uleb_enc 10 (zz z))).
Proof.
  intros H Hr. unfold zigzag_decode.
  rewrite uleb_decode_enc by (try assumption; apply zz_bound; assumption).
  cbn [bind]. rewrite unzigzag by assumption. reflexivity.
Qed.

Lemma zigzag_roundtrip z : (- 2 ^ 63 <= z < 2 ^ 63)%Z ->
  exists bs, zigzag_bytes z = Ok bs /\ bytes_ok bs /\ (1 <= length bs <= 10)%nat /\
    forall rest, bytes_ok rest -> zigzag_decode (bs ++ rest) = Ok (z, length bs).
Proof.
  intro H. exists (uleb_enc 10 (zz z)).
  split; [apply zigzag_bytes_enc; assumption|].
  split; [apply uleb_enc_ok|].
  split; [split; [apply uleb_enc_pos; lia|apply uleb_enc_len]|].
  intros rest Hr; apply zigzag_decode_enc; assumption.
Qed.
Lemma uleb_encode_full container : forall v, container = [] \/ 2 ^ (7 * nlen container) <= v -> uleb_encode v container = Panic.
Proof.
  induction container as [|x rest IH]; intros v H; [reflexivity|]. cbn [uleb_encode].
  destruct H as [H|H]; [discriminate|]. rewrite N.shiftr_div_pow2. change (2 ^ 7) with 128.
  replace (7 * nlen (x :: rest)) with (7 + 7 * nlen rest) in H by (unfold nlen; cbn [length]; lia). rewrite N.pow_add_r in H. change (2 ^ 7) with 128 in H.
  assert (Hd : 2 ^ (7 * nlen rest) <= v / 128) by (apply N.div_le_lower_bound; [lia | exact H]).
  assert (Hp : 0 < 2 ^ (7 * nlen rest)) by (apply N.neq_0_lt_0, N.pow_nonzero; discriminate).
  replace (v / 128 =? 0) with false by (symmetry; apply N.eqb_neq; lia).
  rewrite IH; [reflexivity|]. right. exact Hd.
Qed.
Lemma uleb_encode_rest container : forall v c n, uleb_encode v container = Ok (c, n) -> (n <= length container)%nat /\ skipn n c = skipn n container.
Proof.
  induction container as [|x rest IH]; intros v c n H; cbn [uleb_encode] in H; [discriminate|]. cbv zeta in H.
  destruct (_ =? 0).
  - apply Ok_inj in H. injection H as <- <-. cbn [length skipn]. split; [lia | reflexivity].
  - destruct (uleb_encode (N.shiftr v 7) rest) as [[c' n']|e|] eqn:E; cbn [bind] in H; try discriminate.
    apply Ok_inj in H. injection H as <- <-. destruct (IH _ _ _ E) as [H1 H2]. cbn [length skipn]. split; [lia | exact H2].
Qed.
Lemma uleb_enc_fuel f : forall g v, (0 < f)%nat -> (0 < g)%nat -> v < 2 ^ (7 * N.of_nat f) -> v < 2 ^ (7 * N.of_nat g) -> uleb_enc f v = uleb_enc g v.
Proof.
  induction f as [|f IH]; intros [|g] v Hf Hg H1 H2; try lia. cbn [uleb_enc]. destruct (v <? 128) eqn:E; [reflexivity|]. f_equal.
  apply N.ltb_ge in E.
  assert (Hs : forall k, v < 2 ^ (7 * N.of_nat (S k)) -> v / 128 < 2 ^ (7 * N.of_nat k)).
  { intros k H. apply N.div_lt_upper_bound; [lia|]. change 128 with (2 ^ 7). rewrite <- N.pow_add_r.
    replace (7 + 7 * N.of_nat k) with (7 * N.of_nat (S k)) by lia. exact H. }
  apply Hs in H1. apply Hs in H2. assert (Hd : 1 <= v / 128) by (apply N.div_le_lower_bound; lia).
  apply IH; [| | exact H1 | exact H2].
  - destruct f; [cbn in H1; lia | lia].
  - destruct g; [cbn in H2; lia | lia].
Qed.
Lemma uleb_container v container : v < 2 ^ 64 ->
  (container = [] \/ 2 ^ (7 * nlen container) <= v -> uleb_encode v container = Panic) /\
  (container <> [] -> v < 2 ^ (7 * nlen container) -> exists bs, uleb_bytes v = Ok bs /\ (length bs <= length container)%nat /\
     uleb_encode v container = Ok (bs ++ skipn (length bs) container, length bs)).
Proof.
  intros Hv. split; [apply uleb_encode_full|]. intros Hne Hc. exists (uleb_enc 10 v). split; [apply uleb_bytes_enc, Hv|].
  destruct (uleb_encode_spec container v Hc Hne) as (c & E & Hl & Hf).
  assert (Ee : uleb_enc (length container) v = uleb_enc 10 v).
  { apply uleb_enc_fuel; [destruct container; [contradiction | cbn [length]; lia] | lia | exact Hc | ]. eapply N.lt_trans; [exact Hv | reflexivity]. }
  rewrite Ee in *. destruct (uleb_encode_rest _ _ _ _ E) as [H1 H2]. split; [exact H1|]. rewrite E. f_equal. f_equal.
  rewrite <- (firstn_skipn (length (uleb_enc 10 v)) c), Hf, H2. reflexivity.
Qed.
