From Verif Require Import Base.Prelude Base.LeFacts Base.Iter Spec.Bits Proofs.BitsFacts Model.Bitpacked.
Open Scope N_scope.

(** Geometry of value [i] of [w] bits inside words of [bits] bits. *)
Lemma geometry (bits w i : nat) : (0 < w <= bits)%nat -> (i < bits)%nat ->
  let q := ((i * w) / bits)%nat in let o := ((i * w) mod bits)%nat in
  let q' := ((i * w + w) / bits)%nat in let o' := ((i * w + w) mod bits)%nat in
  (i * w = bits * q + o)%nat /\ (o < bits)%nat /\ (q < w)%nat /\
  (negb (q =? q')%nat && negb (o' =? 0)%nat = true ->
     q' = S q /\ (bits < o + w)%nat /\ (w - o' = bits - o)%nat /\ (S q < w)%nat) /\
  (negb (q =? q')%nat && negb (o' =? 0)%nat = false -> (o + w <= bits)%nat).
Proof.
  intros Hw Hi q o q' o'.
  assert (Hb : (bits <> 0)%nat) by lia.
  pose proof (Nat.div_mod (i * w) bits Hb) as E.
  pose proof (Nat.mod_upper_bound (i * w) bits Hb) as U.
  pose proof (Nat.div_mod (i * w + w) bits Hb) as E'.
  pose proof (Nat.mod_upper_bound (i * w + w) bits Hb) as U'.
  fold q o in E, U. fold q' o' in E', U'. fold o in U. fold o' in U'.
  assert (Hsw : (i * w + w <= bits * w)%nat) by nia.
  assert (Hq : (q < w)%nat) by nia.
  assert (Hq' : (q <= q' <= S q)%nat) by nia.
  split; [exact E|]. split; [exact U|]. split; [exact Hq|].
  split.
  - intro H. apply andb_true_iff in H as [H1 H2].
    assert (Hn : q' = S q) by lia. rewrite Hn in *.
    split; [reflexivity|]. assert (Ho' : o' <> 0%nat) by lia.
    assert ((bits * S q = bits * q + bits)%nat) by lia.
    split; [lia|]. split; [lia|]. nia.
  - intro H. apply andb_false_iff in H as [H1|H2].
    + assert (Hn : q' = q) by lia. rewrite Hn in *. lia.
    + assert (Ho' : o' = 0%nat) by lia. 
      destruct (Nat.eq_dec q q') as [Heq|Hne]; [rewrite <- Heq in *; lia|].
      assert (q' = S q) as Hs by lia. rewrite Hs in *. lia.
Qed.

Lemma ones_land v w : N.land v (mask w) = v mod 2 ^ N.of_nat w.
Proof. unfold mask. apply N.land_ones. Qed.

Lemma tbits_pow B : 2 ^ N.of_nat (tbits B) = 2 ^ (8 * N.of_nat B).
Proof. f_equal. unfold tbits. lia. Qed.

(** *** Unpacking *)

Lemma word_at_spec B inp idx : bytes_ok inp -> (idx * B + B <= length inp)%nat ->
  word_at B inp idx = Ok ((le inp / 2 ^ N.of_nat (idx * tbits B)) mod 2 ^ N.of_nat (tbits B)).
Proof.
  intros Hok Hlen. unfold word_at.
  replace (idx * B + B <=? length inp)%nat with true by lia.
  rewrite le_firstn by (apply bytes_ok_skipn; assumption).
  rewrite le_skipn by assumption. rewrite (tbits_pow B).
  replace (8 * N.of_nat (idx * B)) with (N.of_nat (idx * tbits B)) by (unfold tbits; lia).
  reflexivity.
Qed.

Lemma unpack_step_spec B w inp i : (0 < w <= tbits B)%nat -> (i < tbits B)%nat ->
  bytes_ok inp -> (w * B <= length inp)%nat ->
  unpack_step B w inp i = Ok (bit_field w i inp).
Proof.
  intros Hw Hi Hok Hlen.
  pose proof (geometry (tbits B) w i Hw Hi) as (E & U & Hq & Hstr & Hnst).
  rewrite bit_field_le by assumption.
  unfold unpack_step.
  set (q := ((i * w) / tbits B)%nat) in *. set (o := ((i * w) mod tbits B)%nat) in *.
  set (q' := ((i * w + w) / tbits B)%nat) in *. set (o' := ((i * w + w) mod tbits B)%nat) in *.
  clearbody q o q' o'.
  set (bits := tbits B) in *.
  rewrite E. replace (N.of_nat (bits * q + o)) with (N.of_nat (bits * q) + N.of_nat o) by lia.
  rewrite N.pow_add_r, <- N.div_div by auto.
  assert (Hin : (q * B + B <= length inp)%nat) by nia.
  destruct (_ && _) eqn:Estr.
  - specialize (Hstr eq_refl). destruct Hstr as (Hq' & Hov & Hsub & Hq1).
    rewrite Hq', Hsub.
    rewrite word_at_spec by assumption.
    assert (Hin' : (S q * B + B <= length inp)%nat) by nia.
    rewrite word_at_spec by assumption. cbn [bind]. fold bits.
    rewrite ones_land. rewrite (Nat.mul_comm q bits).
    set (X := le inp / 2 ^ N.of_nat (bits * q)).
    replace (le inp / 2 ^ N.of_nat (S q * bits)) with (X / 2 ^ N.of_nat bits).
    2:{ unfold X. rewrite N.div_div by auto. rewrite <- N.pow_add_r. do 2 f_equal. lia. }
    f_equal. apply N.bits_inj; intro j.
    rewrite N.lor_spec, N.shiftr_spec'.
    destruct (N.lt_ge_cases j (N.of_nat w)) as [Hj|Hj].
    + rewrite !(N.mod_pow2_bits_low _ (N.of_nat w) j) by lia.
      rewrite (N.mod_pow2_bits_low _ (N.of_nat bits) j) by lia.
      destruct (N.lt_ge_cases (j + N.of_nat o) (N.of_nat bits)) as [Hjo|Hjo].
      * rewrite N.mod_pow2_bits_low by lia.
        rewrite N.div_pow2_bits.
        rewrite N.shiftl_spec_low by lia. apply orb_false_r.
      * rewrite N.mod_pow2_bits_high by lia. rewrite orb_false_l.
        rewrite N.shiftl_spec_high' by lia.
        rewrite N.mod_pow2_bits_low by lia.
        rewrite !N.div_pow2_bits. f_equal. lia.
    + rewrite !N.mod_pow2_bits_high by lia. reflexivity.
  - specialize (Hnst eq_refl).
    rewrite word_at_spec by assumption. cbn [bind]. fold bits.
    rewrite ones_land. rewrite (Nat.mul_comm q bits).
    set (X := le inp / 2 ^ N.of_nat (bits * q)).
    f_equal. apply N.bits_inj; intro j.
    destruct (N.lt_ge_cases j (N.of_nat w)) as [Hj|Hj].
    + rewrite !(N.mod_pow2_bits_low _ (N.of_nat w) j) by lia.
      rewrite N.shiftr_spec', N.div_pow2_bits.
      apply N.mod_pow2_bits_low. lia.
    + rewrite !N.mod_pow2_bits_high by lia. reflexivity.
Qed.

Lemma unpack_loop_spec B w inp is : (0 < w <= tbits B)%nat ->
  bytes_ok inp -> (w * B <= length inp)%nat -> Forall (fun i => (i < tbits B)%nat) is ->
  unpack_loop B w inp is = Ok (map (fun i => bit_field w i inp) is).
Proof.
  intros Hw Hok Hlen H. induction H as [|i is Hi His IH]; [reflexivity|].
  cbn [unpack_loop map]. rewrite unpack_step_spec by assumption. cbn [bind].
  rewrite IH. reflexivity.
Qed.

Lemma unpack_spec B w inp : (0 < w <= tbits B)%nat -> bytes_ok inp -> (w * B <= length inp)%nat ->
  unpack B inp w = Ok (map (fun i => bit_field w i inp) (seq 0 (tbits B))).
Proof.
  intros Hw Hok Hlen. unfold unpack.
  replace (tbits B <? w)%nat with false by lia.
  replace (w =? 0)%nat with false by lia.
  replace (length inp <? w * B)%nat with false by lia.
  apply unpack_loop_spec; try assumption.
  apply Forall_forall; intros i Hi. apply in_seq in Hi. lia.
Qed.

(** *** Packing *)

Lemma or_prefix_spec val : forall out, bytes_ok out -> bytes_ok val -> (length val <= length out)%nat ->
  exists out', or_prefix out val = Ok out' /\ length out' = length out /\ bytes_ok out' /\
    le out' = N.lor (le out) (le val).
Proof.
  induction val as [|v val IH]; intros out Ho Hv Hl.
  - exists out. cbn [or_prefix le]. rewrite N.lor_0_r. destruct out; repeat split; assumption.
  - destruct out as [|x out]; [cbn in Hl; lia|].
    apply bytes_ok_cons in Ho as [Hx Ho]. apply bytes_ok_cons in Hv as [Hv0 Hv].
    destruct (IH out Ho Hv) as (out' & E & L & K & V); [cbn in Hl; lia|].
    exists (N.lor x v :: out'). cbn [or_prefix]. rewrite E. cbn [bind].
    split; [reflexivity|]. split; [cbn [length]; lia|].
    split.
    + apply bytes_ok_cons; split; [|assumption]. change 256 with (2 ^ 8). apply lor_bound; assumption.
    + cbn [le]. rewrite V. rewrite !(N.mul_comm 256).
      change 256 with (2 ^ 8). symmetry. apply lor_split; assumption.
Qed.

Lemma or_at_spec pos : forall out val, bytes_ok out -> bytes_ok val ->
  (pos + length val <= length out)%nat ->
  exists out', or_at out pos val = Ok out' /\ length out' = length out /\ bytes_ok out' /\
    le out' = N.lor (le out) (le val * 2 ^ (8 * N.of_nat pos)).
Proof.
  induction pos as [|pos IH]; intros out val Ho Hv Hl.
  - cbn [or_at]. change (2 ^ (8 * N.of_nat 0)) with 1. rewrite N.mul_1_r.
    apply or_prefix_spec; assumption.
  - destruct out as [|x out]; [cbn in Hl; lia|].
    apply bytes_ok_cons in Ho as [Hx Ho].
    destruct (IH out val Ho Hv) as (out' & E & L & K & V); [cbn in Hl; lia|].
    exists (x :: out'). cbn [or_at]. rewrite E. cbn [bind].
    split; [reflexivity|]. split; [cbn [length]; lia|].
    split; [apply bytes_ok_cons; split; assumption|].
    cbn [le]. rewrite V, pow256.
    rewrite !(N.mul_comm 256).
    replace (le val * (2 ^ (8 * N.of_nat pos) * 256)) with
      (0 + le val * 2 ^ (8 * N.of_nat pos) * 256) by lia.
    change 256 with (2 ^ 8) at 2 3. change 256 with (2 ^ 8).
    rewrite lor_split by (try assumption; reflexivity).
    rewrite N.lor_0_r. reflexivity.
Qed.

(** What value [v] at index [i] contributes to the packed number. *)
Lemma pack_step_spec B w i v out : (0 < w <= tbits B)%nat -> (i < tbits B)%nat ->
  bytes_ok out -> (w * B <= length out)%nat ->
  exists out' c, pack_step B w i v out = Ok out' /\ length out' = length out /\ bytes_ok out' /\
    le out' = N.lor (le out) c /\
    (fits w v -> c = v * 2 ^ N.of_nat (i * w)) /\
    (forall j, j < N.of_nat (i * w) -> N.testbit c j = false) /\
    c < 2 ^ N.of_nat (w * tbits B).
Proof.
  intros Hw Hi Hok Hlen.
  pose proof (geometry (tbits B) w i Hw Hi) as (E & U & Hq & Hstr & Hnst).
  unfold pack_step.
  set (q := ((i * w) / tbits B)%nat) in *. set (o := ((i * w) mod tbits B)%nat) in *.
  set (q' := ((i * w + w) / tbits B)%nat) in *. set (o' := ((i * w + w) mod tbits B)%nat) in *.
  clearbody q o q' o'.
  assert (Hin : (q * B + B <= length out)%nat) by nia.
  assert (Hqe : 8 * N.of_nat (q * B) = N.of_nat (tbits B * q)) by (unfold tbits; lia).
  assert (Hsplit : N.of_nat (i * w) = N.of_nat (tbits B * q) + N.of_nat o) by lia.
  assert (Hqlt : (tbits B * q + tbits B <= w * tbits B)%nat) by nia.
  destruct (_ && _) eqn:Estr.
  - specialize (Hstr eq_refl). destruct Hstr as (Hq' & Hov & Hsub & Hq1).
    rewrite Hq', Hsub.
    assert (Hin' : (S q * B + B <= length out)%nat) by nia.
    assert (Hqe' : 8 * N.of_nat (S q * B) = N.of_nat (tbits B * q) + N.of_nat (tbits B))
      by (unfold tbits; lia).
    set (a := N.shiftl v (N.of_nat o) mod 2 ^ N.of_nat (tbits B)).
    set (b := N.land (N.shiftr v (N.of_nat (tbits B - o))) (mask w)).
    destruct (or_at_spec (q * B) out (to_le B a) Hok (to_le_ok B a)) as (out1 & E1 & L1 & K1 & V1);
      [rewrite to_le_length; assumption|].
    rewrite E1. cbn [bind].
    destruct (or_at_spec (S q * B) out1 (to_le B b) K1 (to_le_ok B b)) as (out2 & E2 & L2 & K2 & V2);
      [rewrite to_le_length, L1; assumption|].
    exists out2. 
    assert (Ha : a < 2 ^ N.of_nat (tbits B)) by (apply N.mod_lt; auto).
    assert (Hb : b < 2 ^ N.of_nat w) by (unfold b; rewrite ones_land; apply N.mod_lt; auto).
    assert (Hwb : 2 ^ N.of_nat w <= 2 ^ N.of_nat (tbits B)) by (apply N.pow_le_mono_r; lia).
    exists (N.lor (a * 2 ^ N.of_nat (tbits B * q)) (b * 2 ^ (N.of_nat (tbits B * q) + N.of_nat (tbits B)))).
    split; [exact E2|]. split; [congruence|]. split; [exact K2|].
    split.
    { rewrite V2, V1, Hqe, Hqe'.
      rewrite !le_to_le_small by (rewrite <- tbits_pow; lia).
      symmetry; apply N.lor_assoc. }
    split; [|split].
    + intro Hf. unfold fits in Hf.
      rewrite N.pow_add_r, N.mul_assoc.
      replace (b * 2 ^ N.of_nat (tbits B * q) * 2 ^ N.of_nat (tbits B))
        with (b * 2 ^ N.of_nat (tbits B) * 2 ^ N.of_nat (tbits B * q)) by lia.
      rewrite <- !N.shiftl_mul_pow2, <- N.shiftl_lor, !N.shiftl_mul_pow2.
      rewrite Hsplit, N.pow_add_r.
      rewrite (N.mul_comm (2 ^ N.of_nat (tbits B * q))), N.mul_assoc. f_equal.
      rewrite <- N.shiftl_mul_pow2. rewrite lor_shift_add by assumption.
      unfold a, b. rewrite ones_land.
      rewrite N.shiftl_mul_pow2, N.shiftr_div_pow2.
      rewrite (N.mod_small (v / _)).
      2:{ eapply N.le_lt_trans; [|exact Hf]. apply N.div_le_upper_bound; [auto|].
          pose proof (pow2_pos (N.of_nat (tbits B - o))) as Hpp.
          clear - Hpp. revert Hpp. generalize (2 ^ N.of_nat (tbits B - o)). intros; nia. }
      assert (Hp : 2 ^ N.of_nat (tbits B) = 2 ^ N.of_nat (tbits B - o) * 2 ^ N.of_nat o).
      { rewrite <- N.pow_add_r. f_equal. lia. }
      rewrite Hp. rewrite N.mul_mod_distr_r by auto.
      rewrite (N.mul_assoc (v / _)), <- N.mul_add_distr_r. f_equal.
      rewrite (N.add_comm). rewrite (N.mul_comm (v / _)). symmetry. apply N.div_mod. auto.
    + intros j Hj. rewrite Hsplit in Hj. rewrite N.lor_spec.
      rewrite (N.mul_pow2_bits_low b) by lia.
      rewrite orb_false_r.
      destruct (N.lt_ge_cases j (N.of_nat (tbits B * q))) as [Hjq|Hjq].
      * apply N.mul_pow2_bits_low; assumption.
      * rewrite N.mul_pow2_bits_high by assumption.
        unfold a. rewrite N.mod_pow2_bits_low by lia.
        apply N.shiftl_spec_low. lia.
    + apply lor_bound.
      * eapply N.lt_le_trans with (2 ^ N.of_nat (tbits B) * 2 ^ N.of_nat (tbits B * q)).
        -- apply N.mul_lt_mono_pos_r; auto.
        -- rewrite <- N.pow_add_r. apply N.pow_le_mono_r; [discriminate|]. lia.
      * eapply N.lt_le_trans with (2 ^ N.of_nat (tbits B) * 2 ^ (N.of_nat (tbits B * q) + N.of_nat (tbits B))).
        -- apply N.mul_lt_mono_pos_r; [auto|lia].
        -- rewrite <- N.pow_add_r. apply N.pow_le_mono_r; [discriminate|]. clear - Hq1. nia.
  - specialize (Hnst eq_refl).
    set (a := N.shiftl (N.land v (mask w)) (N.of_nat o) mod 2 ^ N.of_nat (tbits B)).
    assert (Ha : a < 2 ^ N.of_nat (tbits B)) by (apply N.mod_lt; auto).
    destruct (or_at_spec (q * B) out (to_le B a) Hok (to_le_ok B a)) as (out1 & E1 & L1 & K1 & V1);
      [rewrite to_le_length; assumption|].
    exists out1, (a * 2 ^ N.of_nat (tbits B * q)).
    split; [exact E1|]. split; [exact L1|]. split; [exact K1|].
    split.
    { rewrite V1, Hqe. rewrite le_to_le_small by (rewrite <- tbits_pow; lia). reflexivity. }
    split; [|split].
    + intro Hf. unfold fits in Hf. unfold a. rewrite ones_land, N.shiftl_mul_pow2.
      rewrite (N.mod_small v) by assumption.
      rewrite N.mod_small.
      2:{ eapply N.lt_le_trans with (2 ^ N.of_nat w * 2 ^ N.of_nat o).
          - apply N.mul_lt_mono_pos_r; auto.
          - rewrite <- N.pow_add_r. apply N.pow_le_mono_r; [discriminate|]. lia. }
      rewrite Hsplit, N.pow_add_r. lia.
    + intros j Hj. rewrite Hsplit in Hj.
      destruct (N.lt_ge_cases j (N.of_nat (tbits B * q))) as [Hjq|Hjq].
      * apply N.mul_pow2_bits_low; assumption.
      * rewrite N.mul_pow2_bits_high by assumption.
        unfold a. rewrite N.mod_pow2_bits_low by lia.
        apply N.shiftl_spec_low. lia.
    + eapply N.lt_le_trans with (2 ^ N.of_nat (tbits B) * 2 ^ N.of_nat (tbits B * q)).
      * apply N.mul_lt_mono_pos_r; auto.
      * rewrite <- N.pow_add_r. apply N.pow_le_mono_r; [discriminate|]. lia.
Qed.

(** Packing arbitrary values from index [i] on leaves the bits below [i*w] alone. *)
Lemma pack_loop_any B w input : (0 < w <= tbits B)%nat -> forall i out,
  (i + length input <= tbits B)%nat -> bytes_ok out -> (w * B <= length out)%nat ->
  exists out', pack_loop B w i input out = Ok out' /\ length out' = length out /\ bytes_ok out' /\
    le out' mod 2 ^ N.of_nat (i * w) = le out mod 2 ^ N.of_nat (i * w) /\
    (le out < 2 ^ N.of_nat (w * tbits B) -> le out' < 2 ^ N.of_nat (w * tbits B)).
Proof.
  intros Hw. induction input as [|v input IH]; intros i out Hi Hok Hlen.
  - exists out. cbn [pack_loop]. repeat split; auto.
  - cbn [length] in Hi. cbn [pack_loop].
    destruct (pack_step_spec B w i v out Hw) as (out1 & c & E1 & L1 & K1 & V1 & _ & Z1 & B1);
      [lia|assumption|assumption|].
    rewrite E1. cbn [bind].
    destruct (IH (S i) out1) as (out2 & E2 & L2 & K2 & V2 & B2); [lia|assumption|lia|].
    exists out2. split; [exact E2|]. split; [congruence|]. split; [exact K2|].
    assert (Hii : N.of_nat (i * w) <= N.of_nat (S i * w)) by (clear; lia).
    split.
    + apply N.bits_inj; intro j.
      destruct (N.lt_ge_cases j (N.of_nat (i * w))) as [Hj|Hj].
      * rewrite !N.mod_pow2_bits_low by assumption.
        assert (Hj' : j < N.of_nat (S i * w)) by (clear - Hj Hii; lia).
        rewrite <- (N.mod_pow2_bits_low (le out2) (N.of_nat (S i * w))) by exact Hj'.
        rewrite V2. rewrite N.mod_pow2_bits_low by exact Hj'.
        rewrite V1, N.lor_spec, Z1 by assumption. apply orb_false_r.
      * rewrite !N.mod_pow2_bits_high by assumption. reflexivity.
    + intro H. apply B2. rewrite V1. apply lor_bound; assumption.
Qed.

(** Packing fitting values appends their bits. *)
Lemma pack_loop_fits B w input : (0 < w <= tbits B)%nat -> forall i out,
  Forall (fits w) input ->
  (i + length input <= tbits B)%nat -> bytes_ok out -> (w * B <= length out)%nat ->
  le out < 2 ^ N.of_nat (i * w) ->
  exists out', pack_loop B w i input out = Ok out' /\ length out' = length out /\ bytes_ok out' /\
    le out' = le out + 2 ^ N.of_nat (i * w) * pval w input.
Proof.
  intros Hw. induction input as [|v input IH]; intros i out Hf Hi Hok Hlen Hb.
  - exists out. cbn [pack_loop pval]. rewrite N.mul_0_r, N.add_0_r. repeat split; auto.
  - inversion Hf as [|? ? Hv Hf']; subst. cbn [length] in Hi. cbn [pack_loop].
    destruct (pack_step_spec B w i v out Hw) as (out1 & c & E1 & L1 & K1 & V1 & C1 & _ & _);
      [lia|assumption|assumption|].
    rewrite E1. cbn [bind]. rewrite (C1 Hv) in V1.
    rewrite <- N.shiftl_mul_pow2 in V1. rewrite lor_shift_add in V1 by assumption.
    destruct (IH (S i) out1 Hf') as (out2 & E2 & L2 & K2 & V2); [lia|assumption|lia| |].
    + rewrite V1. unfold fits in Hv.
      replace (N.of_nat (S i * w)) with (N.of_nat (i * w) + N.of_nat w) by lia.
      rewrite N.pow_add_r.
      assert (v * 2 ^ N.of_nat (i * w) <= (2 ^ N.of_nat w - 1) * 2 ^ N.of_nat (i * w))
        by (apply N.mul_le_mono_r; lia).
      rewrite N.mul_sub_distr_r in H.
      assert (1 * 2 ^ N.of_nat (i * w) <= 2 ^ N.of_nat w * 2 ^ N.of_nat (i * w)).
      { apply N.mul_le_mono_r. pose proof (pow2_pos (N.of_nat w)). lia. }
      lia.
    + exists out2. split; [exact E2|]. split; [lia|]. split; [exact K2|].
      rewrite V2, V1. cbn [pval].
      replace (N.of_nat (S i * w)) with (N.of_nat (i * w) + N.of_nat w) by lia.
      rewrite N.pow_add_r. lia.
Qed.

Lemma pack_loop_app B w a b : forall i out,
  pack_loop B w i (a ++ b) out =
  let* out1 := pack_loop B w i a out in pack_loop B w (i + length a) b out1.
Proof.
  induction a as [|v a IH]; intros i out; cbn [app pack_loop length].
  - cbn [bind]. rewrite Nat.add_0_r. reflexivity.
  - destruct (pack_step B w i v out); cbn [bind]; try reflexivity.
    rewrite IH. replace (S i + length a)%nat with (i + S (length a))%nat by lia. reflexivity.
Qed.

(** The general packing lemma: the first values fit, the others are arbitrary. *)
Lemma pack_prefix B w good bad out : (0 < w <= tbits B)%nat ->
  Forall (fits w) good -> (length good + length bad = tbits B)%nat ->
  bytes_ok out -> (w * B <= length out)%nat -> le out = 0 ->
  exists out', pack B (good ++ bad) out w = Ok out' /\ length out' = length out /\ bytes_ok out' /\
    le out' mod 2 ^ N.of_nat (length good * w) = pval w good /\
    le out' < 2 ^ N.of_nat (w * tbits B).
Proof.
  intros Hw Hf Hl Hok Hlen H0. unfold pack.
  replace (tbits B <? w)%nat with false by lia.
  replace (w =? 0)%nat with false by lia.
  replace (length out <? w * B)%nat with false by lia.
  rewrite pack_loop_app.
  destruct (pack_loop_fits B w good Hw 0 out Hf) as (o1 & E1 & L1 & K1 & V1);
    [lia|assumption|assumption|rewrite H0; cbn; lia|].
  rewrite E1. cbn [bind]. rewrite Nat.add_0_l.
  rewrite H0 in V1. change (2 ^ N.of_nat (0 * w)) with 1 in V1. rewrite N.mul_1_l, N.add_0_l in V1.
  pose proof (pval_bound w good Hf) as Bg.
  destruct (pack_loop_any B w bad Hw (length good) o1) as (o2 & E2 & L2 & K2 & V2 & B2);
    [lia|assumption|lia|].
  exists o2. split; [exact E2|]. split; [congruence|]. split; [exact K2|].
  split.
  - rewrite V2, V1. apply N.mod_small. exact Bg.
  - apply B2. rewrite V1. eapply N.lt_le_trans; [exact Bg|].
    apply N.pow_le_mono_r; [discriminate|]. clear - Hl. nia.
Qed.

Lemma pack_fits B w input out : (0 < w <= tbits B)%nat ->
  Forall (fits w) input -> length input = tbits B ->
  bytes_ok out -> (w * B <= length out)%nat -> le out = 0 ->
  exists out', pack B input out w = Ok out' /\ length out' = length out /\ bytes_ok out' /\
    le out' = pval w input.
Proof.
  intros Hw Hf Hl Hok Hlen H0.
  destruct (pack_prefix B w input [] out Hw Hf) as (o & E & L & K & V & Bd); try assumption.
  { cbn [length]. lia. }
  rewrite app_nil_r in E. exists o. repeat split; try assumption.
  rewrite <- V. symmetry. apply N.mod_small.
  eapply N.lt_le_trans; [exact Bd|]. apply N.pow_le_mono_r; [discriminate|]. nia.
Qed.

(** *** The decoder *)

Lemma tbits_w B w : (tbits B * w / 8 = B * w)%nat.
Proof. unfold tbits. replace (8 * B * w)%nat with (B * w * 8)%nat by lia. apply Nat.div_mul. lia. Qed.

Lemma packed_len_ge B w : (w <= tbits B)%nat -> (w * B <= packed_len B)%nat.
Proof.
  unfold packed_len, tbits. intro H. destruct (B =? 8)%nat eqn:E.
  - assert (B = 8%nat) by lia. subst. lia.
  - nia.
Qed.

Lemma mod_div_field X w i n : (i * w + w <= n)%nat ->
  (X mod 2 ^ N.of_nat n / 2 ^ N.of_nat (i * w)) mod 2 ^ N.of_nat w =
  (X / 2 ^ N.of_nat (i * w)) mod 2 ^ N.of_nat w.
Proof.
  intro H. apply N.bits_inj; intro j.
  destruct (N.lt_ge_cases j (N.of_nat w)) as [Hj|Hj].
  - rewrite !(N.mod_pow2_bits_low _ (N.of_nat w)) by assumption.
    rewrite !N.div_pow2_bits. rewrite N.mod_pow2_bits_low by lia. reflexivity.
  - rewrite !N.mod_pow2_bits_high by assumption. reflexivity.
Qed.

Lemma decode_pack_spec B w cur : (0 < w <= tbits B)%nat -> bytes_ok cur ->
  decode_pack B (firstn (B * w) cur) w = Ok (map (fun i => bit_field w i cur) (seq 0 (tbits B))).
Proof.
  intros Hw Hok. unfold decode_pack. rewrite tbits_w.
  set (chunk := firstn (B * w) cur).
  assert (Hc : bytes_ok chunk) by (apply bytes_ok_firstn; assumption).
  assert (Hle : le chunk = le cur mod 2 ^ N.of_nat (w * tbits B)).
  { unfold chunk. rewrite le_firstn by assumption. f_equal. f_equal. unfold tbits. lia. }
  assert (Hlc : (length chunk <= B * w)%nat) by (unfold chunk; rewrite firstn_length; lia).
  assert (Hfield : forall i inp, (i < tbits B)%nat -> bytes_ok inp -> le inp = le chunk ->
            bit_field w i inp = bit_field w i cur).
  { intros i inp Hi Hinp Heq. rewrite !bit_field_le by assumption. rewrite Heq, Hle.
    apply mod_div_field. nia. }
  assert (Hmap : forall inp, bytes_ok inp -> le inp = le chunk ->
      map (fun i => bit_field w i inp) (seq 0 (tbits B)) = map (fun i => bit_field w i cur) (seq 0 (tbits B))).
  { intros inp H1 H2. apply map_ext_in; intros i Hi. apply in_seq in Hi. apply Hfield; [lia|assumption|assumption]. }
  pose proof (packed_len_ge B w (proj2 Hw)) as Hp.
  destruct (length chunk <? B * w)%nat eqn:E.
  - replace (packed_len B <? length chunk)%nat with false by lia.
    set (pad := chunk ++ repeat 0 (packed_len B - length chunk)).
    assert (Hpad : bytes_ok pad).
    { unfold pad. apply bytes_ok_app; split; [assumption|]. apply bytes_ok_repeat; lia. }
    rewrite unpack_spec; [|assumption|assumption|].
    + f_equal. apply Hmap; [assumption|]. unfold pad. rewrite le_app, le_repeat0. lia.
    + unfold pad. rewrite app_length, repeat_length. lia.
  - rewrite unpack_spec; [|assumption|assumption|lia].
    f_equal. apply Hmap; auto.
Qed.

Lemma nth_error_map_seq {A} (f : nat -> A) n i : (i < n)%nat -> nth_error (map f (seq 0 n)) i = Some (f i).
Proof.
  intro H. rewrite nth_error_map.
  rewrite (nth_error_nth' (seq 0 n) 0%nat) by (rewrite seq_length; assumption).
  rewrite seq_nth by assumption. reflexivity.
Qed.

(** Decoder state after the block starting at [cur] was unpacked. *)
Definition bp_inv (B w : nat) (st : bp_decoder) (cur : list N) : Prop :=
  bytes_ok cur /\ bp_num_bits st = w /\
  bp_packed st = skipn (B * w) cur /\
  bp_unpacked st = map (fun i => bit_field w i cur) (seq 0 (tbits B)) /\
  (N.of_nat (bp_index st) + bp_remaining st) * N.of_nat w <= 8 * nlen cur /\
  (bp_index st <= tbits B)%nat /\ (bp_index st = tbits B -> bp_packed st = []).

Lemma bit_field_skip B w j cur : bytes_ok cur ->
  bit_field w j (skipn (B * w) cur) = bit_field w (tbits B + j) cur.
Proof.
  intro H. rewrite !bit_field_le by (try apply bytes_ok_skipn; assumption).
  rewrite le_skipn by assumption. rewrite N.div_div by auto. rewrite <- N.pow_add_r.
  do 3 f_equal. unfold tbits. lia.
Qed.

Lemma bp_yields B w : (0 < w <= tbits B)%nat -> forall n st cur,
  bp_remaining st = N.of_nat n -> bp_inv B w st cur ->
  yields (bp_next B) (fun s l => bp_size_hint s = nlen l) st
    (map (fun j => bit_field w (bp_index st + j) cur) (seq 0 n)).
Proof.
  intros Hw. induction n as [|n IH]; intros st cur Hr Hinv.
  - cbn [seq map]. apply yields_nil with st.
    + unfold bp_size_hint. rewrite Hr. reflexivity.
    + unfold bp_next. rewrite Hr. reflexivity.
  - destruct Hinv as (Hok & Hb & Hp & Hu & Hbd & Hi & Hend).
    assert (Hlt : (bp_index st < tbits B)%nat).
    { destruct (Nat.eq_dec (bp_index st) (tbits B)) as [He|Hne]; [|lia].
      exfalso. specialize (Hend He). rewrite Hend in Hp. symmetry in Hp.
      assert (Hlen : (length cur <= B * w)%nat).
      { assert (length (skipn (B * w) cur) = 0%nat) by (rewrite Hp; reflexivity).
        rewrite skipn_length in H. lia. }
      rewrite He, Hr in Hbd. unfold nlen in Hbd. unfold tbits in *.
      assert ((N.of_nat (8 * B) + N.of_nat (S n)) * N.of_nat w <= 8 * N.of_nat (B * w)) by lia.
      nia. }
    assert (Hseq : map (fun j => bit_field w (bp_index st + j) cur) (seq 0 (S n)) =
      bit_field w (bp_index st) cur :: map (fun j => bit_field w (bp_index st + S j) cur) (seq 0 n)).
    { cbn [seq map]. rewrite Nat.add_0_r. f_equal. rewrite <- seq_shift, map_map. reflexivity. }
    rewrite Hseq.
    assert (Hhint : bp_size_hint st =
      nlen (bit_field w (bp_index st) cur :: map (fun j => bit_field w (bp_index st + S j) cur) (seq 0 n))).
    { unfold bp_size_hint, nlen. rewrite Hr. cbn [length]. rewrite map_length, seq_length. reflexivity. }
    assert (Hnext : bp_next B st = 
      if (S (bp_index st) =? tbits B)%nat then
          match bp_packed st with
          | [] => Ok (Some (bit_field w (bp_index st) cur),
                      mk_bp [] (bp_num_bits st) (N.of_nat n) (S (bp_index st)) (bp_unpacked st))
          | _ =>
              Ok (Some (bit_field w (bp_index st) cur),
                  mk_bp (skipn (B * w) (bp_packed st)) (bp_num_bits st) (N.of_nat n) 0
                    (map (fun i => bit_field w i (bp_packed st)) (seq 0 (tbits B))))
          end
        else Ok (Some (bit_field w (bp_index st) cur),
                 mk_bp (bp_packed st) (bp_num_bits st) (N.of_nat n) (S (bp_index st)) (bp_unpacked st))).
    { unfold bp_next. replace (bp_remaining st =? 0) with false by lia.
      rewrite Hu. rewrite nth_error_map_seq by assumption.
      replace (bp_remaining st - 1) with (N.of_nat n) by lia.
      destruct (S (bp_index st) =? tbits B)%nat; [|reflexivity].
      rewrite Hb. destruct (bp_packed st) as [|x r] eqn:Ep; [reflexivity|].
      rewrite decode_pack_spec; [reflexivity|assumption|].
      rewrite Hp. apply bytes_ok_skipn; assumption. }
    destruct (S (bp_index st) =? tbits B)%nat eqn:Eend.
    + destruct (bp_packed st) as [|x r] eqn:Ep.
      * eapply yields_cons; [exact Hhint|exact Hnext|].
        set (st' := mk_bp [] (bp_num_bits st) (N.of_nat n) (S (bp_index st)) (bp_unpacked st)).
        replace (map (fun j => bit_field w (bp_index st + S j) cur) (seq 0 n)) with
          (map (fun j => bit_field w (bp_index st' + j) cur) (seq 0 n)).
        2:{ apply map_ext; intro j. cbn. f_equal. lia. }
        apply IH; [reflexivity|].
        unfold bp_inv, st'; cbn [bp_num_bits bp_packed bp_unpacked bp_index bp_remaining].
        repeat split; try assumption; try lia.
      * eapply yields_cons; [exact Hhint|exact Hnext|].
        match goal with |- yields _ _ ?s _ => set (st' := s) end.
        replace (map (fun j => bit_field w (bp_index st + S j) cur) (seq 0 n)) with
          (map (fun j => bit_field w (bp_index st' + j) (skipn (B * w) cur)) (seq 0 n)).
        2:{ apply map_ext; intro j. cbn [bp_index st']. rewrite bit_field_skip by assumption.
            f_equal. lia. }
        apply IH; [reflexivity|].
        assert (Hlong : (B * w <= length cur)%nat).
        { assert (length (skipn (B * w) cur) = S (length r)) by (rewrite <- Hp; reflexivity).
          rewrite skipn_length in H. lia. }
        unfold bp_inv, st'; cbn [bp_num_bits bp_packed bp_unpacked bp_index bp_remaining].
        split; [apply bytes_ok_skipn; assumption|].
        split; [assumption|].
        split; [rewrite Hp; reflexivity|].
        split; [rewrite <- Hp; reflexivity|].
        split.
        { unfold nlen in *. rewrite skipn_length. rewrite Hr in Hbd.
          assert (HB : N.of_nat (S (bp_index st)) = N.of_nat (8 * B)) by (unfold tbits in *; lia).
          nia. }
        split; [lia|].
        intro Hbad. exfalso. unfold tbits in *. lia.
    + eapply yields_cons; [exact Hhint|exact Hnext|].
      match goal with |- yields _ _ ?s _ => set (st' := s) end.
      replace (map (fun j => bit_field w (bp_index st + S j) cur) (seq 0 n)) with
          (map (fun j => bit_field w (bp_index st' + j) cur) (seq 0 n)).
      2:{ apply map_ext; intro j. cbn. f_equal. lia. }
      apply IH; [reflexivity|].
      unfold bp_inv, st'; cbn [bp_num_bits bp_packed bp_unpacked bp_index bp_remaining].
      repeat split; try assumption; try lia.
Qed.

Lemma bp_try_new_ok m B w packed n : (0 < w <= tbits B)%nat -> bytes_ok packed ->
  (n * w <= 8 * length packed)%nat -> N.of_nat n * N.of_nat w < 2 ^ 64 ->
  exists st, bp_try_new m B packed w (N.of_nat n) = Ok st /\
    yields (bp_next B) (fun s l => bp_size_hint s = nlen l) st
      (map (fun j => bit_field w j packed) (seq 0 n)).
Proof.
  intros Hw Hok Hn H64. unfold bp_try_new.
  replace (w =? 0)%nat with false by lia.
  unfold umul. replace (N.of_nat n * N.of_nat w <? 2 ^ 64) with true by lia. cbn [bind].
  replace (nlen packed * 8 <? N.of_nat n * N.of_nat w) with false by (unfold nlen; nia).
  destruct packed as [|x r] eqn:Ep.
  - assert (n = 0%nat) by (cbn [length] in Hn; nia). subst n.
    eexists. split; [reflexivity|]. cbn [seq map]. eapply yields_nil; reflexivity.
  - rewrite <- Ep in *. rewrite decode_pack_spec by assumption. cbn [bind].
    eexists. split; [reflexivity|].
    match goal with |- yields _ _ ?s _ => set (st := s) end.
    change (map (fun j => bit_field w j packed) (seq 0 n)) with
      (map (fun j => bit_field w (bp_index st + j) packed) (seq 0 n)).
    apply (bp_yields B w Hw); [reflexivity|].
    unfold bp_inv, st; cbn [bp_num_bits bp_packed bp_unpacked bp_index bp_remaining]. repeat split; try assumption; try lia.
    unfold nlen. nia.
Qed.

(** Exact error conditions. *)
Lemma bp_try_new_err B w packed n m : bytes_ok packed -> (w <= tbits B)%nat ->
  N.of_nat n * N.of_nat w < 2 ^ 64 ->
  (bp_try_new m B packed w (N.of_nat n) = Err OutOfSpec <->
   w = 0%nat \/ (8 * length packed < n * w)%nat).
Proof.
  intros Hok Hw H64. split.
  - intro H. destruct (Nat.eq_dec w 0) as [|Hw0]; [left; assumption|].
    destruct (Nat.le_gt_cases (n * w) (8 * length packed)) as [Hle|Hgt]; [|right; assumption].
    destruct (bp_try_new_ok m B w packed n) as (st & Hst & _); try assumption; [lia|].
    congruence.
  - intros [->|Hlt]; [reflexivity|].
    unfold bp_try_new. destruct (w =? 0)%nat eqn:E; [reflexivity|].
    unfold umul. replace (N.of_nat n * N.of_nat w <? 2 ^ 64) with true by lia. cbn [bind].
    replace (nlen packed * 8 <? N.of_nat n * N.of_nat w) with true by (unfold nlen; nia).
    reflexivity.
Qed.

(** *** The encoder *)

Lemma chunk_list_length {A} k n (l : list A) : length (chunk_list k n l) = k.
Proof. revert l; induction k as [|k IH]; intro l; cbn [chunk_list length]; [reflexivity|]. rewrite IH; reflexivity. Qed.

Lemma packed_size_eq B w : ((tbits B * w + 7) / 8 = w * B)%nat.
Proof.
  unfold tbits. replace (8 * B * w + 7)%nat with (7 + w * B * 8)%nat by lia.
  rewrite Nat.div_add by lia. reflexivity.
Qed.

(** Packing a list of full chunks into zeroed output. *)
Lemma encode_zip_spec B w exact us : (0 < w <= tbits B)%nat ->
  Forall (fun u => length u = tbits B /\ Forall (fits w) u) us ->
  forall packed, bytes_ok packed -> le packed = 0 -> (length us * (w * B) <= length packed)%nat ->
  exists out, encode_zip B w exact us packed = Ok out /\ length out = length packed /\ bytes_ok out /\
    le out = pval w (concat us).
Proof.
  intros Hw H. induction H as [|u us [Hu Hf] Hus IH]; intros packed Hok H0 Hlen.
  - exists packed. cbn [encode_zip concat pval]. repeat split; auto.
  - cbn [encode_zip length concat] in *.
    rewrite packed_size_eq.
    assert (HwB : (0 < w * B)%nat) by (unfold tbits in *; nia).
    destruct packed as [|x r] eqn:Ep; [cbn in Hlen; lia|]. rewrite <- Ep in *.
    replace (length packed <? w * B)%nat with false by lia. rewrite andb_false_r.
    assert (Hfl : length (firstn (w * B) packed) = (w * B)%nat) by (rewrite firstn_length; lia).
    destruct (pack_fits B w u (firstn (w * B) packed) Hw Hf Hu) as (c & Ec & Lc & Kc & Vc).
    { apply bytes_ok_firstn; assumption. }
    { lia. }
    { rewrite le_firstn by assumption. rewrite H0. apply N.mod_0_l. auto. }
    rewrite Ec. cbn [bind].
    destruct (IH (skipn (w * B) packed)) as (rest & Er & Lr & Kr & Vr).
    { apply bytes_ok_skipn; assumption. }
    { rewrite le_skipn by assumption. rewrite H0. apply N.div_0_l. auto. }
    { rewrite skipn_length. lia. }
    rewrite Er. cbn [bind].
    exists (c ++ rest). split; [reflexivity|].
    split; [rewrite app_length, Lc, Lr, skipn_length, firstn_length; lia|].
    split; [apply bytes_ok_app; split; assumption|].
    rewrite le_app, Vc, Vr, pval_app. do 2 f_equal.
    f_equal. unfold nlen. rewrite Lc, Hfl, Hu. unfold tbits. lia.
Qed.

Lemma concat_chunk_list {A} k n (l : list A) : concat (chunk_list k n l) = firstn (k * n) l.
Proof.
  revert l; induction k as [|k IH]; intro l; cbn [chunk_list concat Nat.mul]; [reflexivity|].
  rewrite IH.
  rewrite <- (firstn_skipn n l) at 3.
  rewrite firstn_app. 
  destruct (Nat.le_gt_cases n (length l)) as [Hn|Hn].
  - rewrite firstn_length_le by assumption.
    replace (n + k * n - n)%nat with (k * n)%nat by lia.
    rewrite (firstn_all2 (firstn n l)) by (rewrite firstn_length; lia). reflexivity.
  - rewrite (skipn_all2 l) by lia. rewrite !firstn_nil, !app_nil_r.
    rewrite !firstn_all2; try reflexivity; try (rewrite firstn_length; lia); try lia.
Qed.

Lemma Forall_firstn {A} (P : A -> Prop) n l : Forall P l -> Forall P (firstn n l).
Proof. intro H. rewrite <- (firstn_skipn n l) in H. apply Forall_app in H. tauto. Qed.
Lemma Forall_skipn {A} (P : A -> Prop) n l : Forall P l -> Forall P (skipn n l).
Proof. intro H. rewrite <- (firstn_skipn n l) in H. apply Forall_app in H. tauto. Qed.

Lemma chunk_list_forall B w k : forall l, Forall (fits w) l -> (k * tbits B <= length l)%nat ->
  Forall (fun u => length u = tbits B /\ Forall (fits w) u) (chunk_list k (tbits B) l).
Proof.
  induction k as [|k IH]; intros l Hf Hl; cbn [chunk_list]; constructor.
  - split; [apply firstn_length_le; lia|]. apply Forall_firstn; assumption.
  - apply IH; [apply Forall_skipn; assumption|]. rewrite skipn_length. lia.
Qed.

Definition n_chunks (B : nat) (n : nat) : nat := ((n + tbits B - 1) / tbits B)%nat.

Lemma n_chunks_div B n : (0 < B)%nat ->
  n_chunks B n = (n / tbits B + (if n mod tbits B =? 0 then 0 else 1))%nat.
Proof.
  intro HB. unfold n_chunks. set (t := tbits B). assert (Ht : (0 < t)%nat) by (unfold t, tbits; lia).
  pose proof (Nat.div_mod n t ltac:(lia)) as E. pose proof (Nat.mod_upper_bound n t ltac:(lia)) as U.
  destruct (n mod t =? 0)%nat eqn:Z.
  - assert (n mod t = 0)%nat by lia.
    replace (n + t - 1)%nat with ((t - 1) + (n / t) * t)%nat by lia.
    rewrite Nat.div_add by lia. rewrite Nat.div_small by lia. lia.
  - replace (n + t - 1)%nat with ((n mod t - 1) + (n / t + 1) * t)%nat by lia.
    rewrite Nat.div_add by lia. rewrite Nat.div_small by lia. lia.
Qed.

Lemma fits0 w : fits w 0.
Proof. unfold fits. auto. Qed.

Lemma bp_encode_spec B w unpacked packed : (0 < w <= tbits B)%nat ->
  Forall (fits w) unpacked -> bytes_ok packed -> le packed = 0 ->
  (n_chunks B (length unpacked) * (w * B) <= length packed)%nat ->
  exists out, bp_encode B unpacked w packed = Ok out /\ length out = length packed /\ bytes_ok out /\
    le out = pval w unpacked.
Proof.
  intros Hw Hf Hok H0 Hlen.
  assert (HB : (0 < B)%nat) by (unfold tbits in *; lia).
  assert (HwB : (0 < w * B)%nat) by nia.
  set (t := tbits B) in *. assert (Ht : (0 < t)%nat) by (unfold t, tbits; lia).
  rewrite n_chunks_div in Hlen by assumption. fold t in Hlen.
  pose proof (Nat.div_mod (length unpacked) t ltac:(lia)) as E.
  pose proof (Nat.mod_upper_bound (length unpacked) t ltac:(lia)) as U.
  assert (Hlr : length (chunks_remainder t unpacked) = (length unpacked mod t)%nat).
  { unfold chunks_remainder. rewrite skipn_length. lia. }
  unfold bp_encode. rewrite packed_size_eq. fold t.
  replace (w * B =? 0)%nat with false by lia.
  assert (Hch : Forall (fun u => length u = t /\ Forall (fits w) u) (chunks_exact t unpacked)).
  { unfold chunks_exact. apply chunk_list_forall; [assumption|]. fold t. lia. }
  assert (Hcl : length (chunks_exact t unpacked) = (length unpacked / t)%nat)
    by (unfold chunks_exact; apply chunk_list_length).
  assert (Hcat : concat (chunks_exact t unpacked) = firstn (length unpacked / t * t) unpacked)
    by (unfold chunks_exact; apply concat_chunk_list).
  destruct (chunks_remainder t unpacked) as [|v r] eqn:Er.
  - destruct (encode_zip_spec B w true (chunks_exact t unpacked) Hw Hch packed Hok H0) as (out & Eo & Lo & Ko & Vo).
    { rewrite Hcl. lia. }
    exists out. split; [exact Eo|]. repeat split; try assumption.
    rewrite Vo, Hcat. f_equal. apply firstn_all2.
    cbn [length] in Hlr. lia.
  - rewrite <- Er in *.
    set (last := chunks_remainder t unpacked ++ repeat 0 (t - length (chunks_remainder t unpacked))).
    assert (Hnz : (length unpacked mod t <> 0)%nat) by (rewrite <- Hlr, Er; cbn [length]; lia).
    destruct (encode_zip_spec B w false (chunks_exact t unpacked ++ [last]) Hw) with (packed := packed)
      as (out & Eo & Lo & Ko & Vo).
    { apply Forall_app; split; [exact Hch|]. constructor; [|constructor].
      fold t. unfold last. split.
      - rewrite app_length, repeat_length. lia.
      - apply Forall_app; split.
        + unfold chunks_remainder. apply Forall_skipn; assumption.
        + apply Forall_forall. intros z Hz. apply repeat_spec in Hz. subst. apply fits0. }
    { assumption. }
    { assumption. }
    { rewrite app_length, Hcl. cbn [length].
      destruct (length unpacked mod t =? 0)%nat eqn:Z; [lia|]. lia. }
    exists out. split; [exact Eo|]. repeat split; try assumption.
    rewrite Vo, concat_app, Hcat. cbn [concat]. rewrite app_nil_r. unfold last.
    rewrite app_assoc. unfold chunks_remainder. rewrite firstn_skipn.
    rewrite pval_app, pval_repeat0. lia.
Qed.

Lemma bit_field_of_pval w l out i : Forall (fits w) l -> bytes_ok out -> le out = pval w l ->
  (i < length l)%nat -> bit_field w i out = nth i l 0.
Proof.
  intros Hf Hok He Hi. rewrite bit_field_le by assumption. rewrite He.
  rewrite <- (pval_nth w l i 0 Hf Hi). rewrite N.mul_0_r, N.add_0_r. reflexivity.
Qed.

Lemma map_nth_seq {A} (l : list A) d : map (fun i => nth i l d) (seq 0 (length l)) = l.
Proof.
  induction l as [|x l IH]; [reflexivity|]. cbn [length seq map nth].
  f_equal. rewrite <- seq_shift, map_map. exact IH.
Qed.

Lemma pval_field_list w l out : Forall (fits w) l -> bytes_ok out -> le out = pval w l ->
  map (fun i => bit_field w i out) (seq 0 (length l)) = l.
Proof.
  intros Hf Hok He. rewrite <- (map_nth_seq l 0) at 2. apply map_ext_in; intros i Hi.
  apply in_seq in Hi. apply bit_field_of_pval with (l := l); try assumption. lia.
Qed.

Lemma nchunks_enough B w n : (0 < B)%nat -> (n * w <= 8 * (n_chunks B n * (w * B)))%nat.
Proof.
  intro HB. unfold n_chunks. set (t := tbits B). assert (Ht : (0 < t)%nat) by (unfold t, tbits; lia).
  assert (Hge : (n <= (n + t - 1) / t * t)%nat).
  { pose proof (Nat.div_mod (n + t - 1) t ltac:(lia)) as E.
    pose proof (Nat.mod_upper_bound (n + t - 1) t ltac:(lia)) as U. lia. }
  unfold t, tbits in *. nia.
Qed.

Lemma bp_roundtrip m B w l packed : (0 < w <= tbits B)%nat -> Forall (fits w) l ->
  bytes_ok packed -> le packed = 0 ->
  (n_chunks B (length l) * (w * B) <= length packed)%nat ->
  N.of_nat (length l) * N.of_nat w < 2 ^ 64 ->
  exists out st, bp_encode B l w packed = Ok out /\ length out = length packed /\ bytes_ok out /\
    firstn (length l * w) (bit_stream out) = flat_map (lsb_bits w) l /\
    bp_try_new m B out w (nlen l) = Ok st /\
    yields (bp_next B) (fun s l => bp_size_hint s = nlen l) st l.
Proof.
  intros Hw Hf Hok H0 Hlen H64.
  assert (HB : (0 < B)%nat) by (unfold tbits in *; lia).
  destruct (bp_encode_spec B w l packed Hw Hf Hok H0 Hlen) as (out & Eo & Lo & Ko & Vo).
  pose proof (nchunks_enough B w (length l) HB) as Hn.
  destruct (bp_try_new_ok m B w out (length l) Hw Ko) as (st & Est & Hy); [lia|assumption|].
  exists out, st. repeat split; try assumption.
  - rewrite bit_stream_le by assumption. rewrite firstn_lsb.
    rewrite Nat.min_l by lia. rewrite Vo.
    rewrite <- (lsb_pval w l 0 Hf). rewrite N.mul_0_r, N.add_0_r. reflexivity.
  - rewrite pval_field_list in Hy by assumption. exact Hy.
Qed.

Lemma zeros_le n : bytes_ok (repeat 0 n) /\ le (repeat 0 n) = 0.
Proof. split; [apply bytes_ok_repeat; lia|apply le_repeat0]. Qed.

Lemma unpack_too_wide B inp w : (tbits B < w)%nat -> unpack B inp w = Panic.
Proof. intro H. unfold unpack. replace (tbits B <? w)%nat with true by lia. reflexivity. Qed.

Lemma bp_try_new_too_wide m B packed w n : (tbits B < w)%nat -> packed <> [] ->
  (n * w <= 8 * length packed)%nat -> N.of_nat n * N.of_nat w < 2 ^ 64 ->
  bp_try_new m B packed w (N.of_nat n) = Panic.
Proof.
  intros Hw Hne Hn H64. unfold bp_try_new.
  replace (w =? 0)%nat with false by lia.
  unfold umul. replace (N.of_nat n * N.of_nat w <? 2 ^ 64) with true by lia. cbn [bind].
  replace (nlen packed * 8 <? N.of_nat n * N.of_nat w) with false by (unfold nlen; nia).
  destruct packed; [congruence|]. unfold decode_pack.
  destruct (_ <? _)%nat; [destruct (_ <? _)%nat|]; try reflexivity;
  rewrite unpack_too_wide by assumption; reflexivity.
Qed.

Lemma pack_layout B w l out : (0 < w <= tbits B)%nat -> Forall (fits w) l -> length l = tbits B ->
  bytes_ok out -> le out = 0 -> (w * B <= length out)%nat ->
  exists out', pack B l out w = Ok out' /\ length out' = length out /\ bytes_ok out' /\
    bit_stream out' = flat_map (lsb_bits w) l ++ repeat false (8 * length out - length l * w) /\
    unpack B out' w = Ok l.
Proof.
  intros Hw Hf Hl Hok H0 Hlen.
  destruct (pack_fits B w l out Hw Hf Hl Hok Hlen H0) as (o & E & L & K & V).
  exists o. repeat split; try assumption.
  - rewrite bit_stream_le by assumption. rewrite L, V.
    assert (Hle : (length l * w <= 8 * length out)%nat) by (rewrite Hl; unfold tbits; nia).
    replace (8 * length out)%nat with (length l * w + (8 * length out - length l * w))%nat at 1 by lia.
    rewrite lsb_bits_add. f_equal.
    + rewrite <- (lsb_pval w l 0 Hf). rewrite N.mul_0_r, N.add_0_r. reflexivity.
    + rewrite N.div_small by (apply pval_bound; assumption).
      generalize (8 * length out - length l * w)%nat as k. intro k.
      unfold lsb_bits. generalize 0%nat as s. induction k as [|k IH]; intro s; [reflexivity|].
      cbn [seq map repeat]. rewrite IH, N.bits_0. reflexivity.
  - rewrite unpack_spec; [|assumption|assumption|lia].
    rewrite <- Hl. rewrite pval_field_list by assumption. reflexivity.
Qed.

Lemma pack_prefix_fields B w good bad n : (0 < w <= tbits B)%nat ->
  Forall (fits w) good -> (length good + length bad = tbits B)%nat -> (w * B <= n)%nat ->
  exists out, pack B (good ++ bad) (repeat 0 n) w = Ok out /\ length out = n /\
    forall i, (i < length good)%nat -> bit_field w i out = nth i good 0.
Proof.
  intros Hw Hf Hl Hn.
  destruct (pack_prefix B w good bad (repeat 0 n) Hw Hf Hl) as (o & E & L & K & V & _);
    try apply zeros_le; [rewrite repeat_length; assumption|].
  rewrite repeat_length in L. exists o. repeat split; try assumption.
  intros i Hi. rewrite bit_field_le by assumption.
  rewrite <- (mod_div_field (le o) w i (length good * w)) by nia.
  rewrite V. rewrite <- (pval_nth w good i 0 Hf Hi). rewrite N.mul_0_r, N.add_0_r. reflexivity.
Qed.
