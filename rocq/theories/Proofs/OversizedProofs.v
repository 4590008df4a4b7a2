(** Lemmas about packing values that do not fit. *)
From Verif Require Import Base.Prelude Base.LeFacts Base.Iter Spec.Bits Spec.OversizedSpec Proofs.BitsFacts Model.Bitpacked Proofs.BitpackedProofs
  Proofs.BitpackRoomProofs.
Open Scope N_scope.

(** The part of a value that reaches the output. *)
Definition kept (bits w i : nat) (v : N) : N :=
  let used := word_used bits w (S i) in
  if (0 <? used)%nat && (used <? w)%nat then v mod 2 ^ N.of_nat (w + (w - used)) else v mod 2 ^ N.of_nat w.

Lemma pack_step_kept B w i v out : (0 < w <= tbits B)%nat -> (i < tbits B)%nat ->
  bytes_ok out -> (w * B <= length out)%nat ->
  exists out', pack_step B w i v out = Ok out' /\ length out' = length out /\ bytes_ok out' /\
    le out' = N.lor (le out) (kept (tbits B) w i v * 2 ^ N.of_nat (i * w)).
Proof.
  intros Hw Hi Hok Hlen.
  pose proof (geometry (tbits B) w i Hw Hi) as (E & U & Hq & Hstr & Hnst).
  assert (Hu : word_used (tbits B) w (S i) = ((i * w + w) mod tbits B)%nat) by (unfold word_used; f_equal; lia).
  assert (U' : ((i * w + w) mod tbits B < tbits B)%nat) by (apply Nat.mod_upper_bound; lia).
  pose proof (Nat.div_mod (i * w + w) (tbits B) ltac:(lia)) as E'.
  unfold pack_step, kept. rewrite Hu.
  set (q := ((i * w) / tbits B)%nat) in *. set (o := ((i * w) mod tbits B)%nat) in *.
  set (q' := ((i * w + w) / tbits B)%nat) in *. set (o' := ((i * w + w) mod tbits B)%nat) in *.
  clearbody q o q' o'.
  assert (Hin : (q * B + B <= length out)%nat) by nia.
  assert (Hqe : 8 * N.of_nat (q * B) = N.of_nat (tbits B * q)) by (unfold tbits; lia).
  assert (Hsplit : N.of_nat (i * w) = N.of_nat (tbits B * q) + N.of_nat o) by lia.
  destruct (_ && _) eqn:Estr.
  - specialize (Hstr eq_refl). destruct Hstr as (Hq' & Hov & Hsub & Hq1).
    apply andb_true_iff in Estr as [_ Ho]. rewrite Hq', Hsub.
    assert (Eo : (o' = o + w - tbits B)%nat) by (rewrite Hq' in E'; nia).
    replace ((0 <? o')%nat && (o' <? w)%nat) with true by (symmetry; apply andb_true_iff; split; lia).
    assert (Hin' : (S q * B + B <= length out)%nat) by nia.
    assert (Hqe' : 8 * N.of_nat (S q * B) = N.of_nat (tbits B * q) + N.of_nat (tbits B)) by (unfold tbits; lia).
    set (a := N.shiftl v (N.of_nat o) mod 2 ^ N.of_nat (tbits B)).
    set (b := N.land (N.shiftr v (N.of_nat (tbits B - o))) (mask w)).
    destruct (or_at_spec (q * B) out (to_le B a) Hok (to_le_ok B a)) as (out1 & E1 & L1 & K1 & V1);
      [rewrite to_le_length; assumption|].
    rewrite E1. cbn [bind].
    destruct (or_at_spec (S q * B) out1 (to_le B b) K1 (to_le_ok B b)) as (out2 & E2 & L2 & K2 & V2);
      [rewrite to_le_length, L1; assumption|].
    exists out2.
    assert (Ha : a < 2 ^ N.of_nat (tbits B)) by (apply N.mod_lt; auto).
    assert (Hb : b < 2 ^ N.of_nat w) by (unfold b; rewrite ones_land; apply N.mod_lt; auto).
    assert (Hwb : 2 ^ N.of_nat w <= 2 ^ N.of_nat (tbits B)) by (apply N.pow_le_mono_r; lia).
    split; [exact E2|]. split; [congruence|]. split; [exact K2|].
    rewrite V2, V1, Hqe, Hqe'. rewrite !le_to_le_small by (rewrite <- tbits_pow; lia).
    rewrite <- N.lor_assoc. f_equal. clear V1 V2 E1 E2 Ha Hb. unfold a, b. rewrite ones_land, Hsplit.
    apply N.bits_inj; intro j. rewrite N.lor_spec.
    destruct (N.lt_ge_cases j (N.of_nat (tbits B * q))) as [J1|J1].
    { rewrite !N.mul_pow2_bits_low by lia. reflexivity. }
    rewrite (N.mul_pow2_bits_high _ (N.of_nat (tbits B * q))) by lia.
    destruct (N.lt_ge_cases j (N.of_nat (tbits B * q) + N.of_nat o)) as [J2|J2].
    { rewrite !N.mul_pow2_bits_low by lia. rewrite orb_false_r, N.mod_pow2_bits_low by lia. apply N.shiftl_spec_low. lia. }
    rewrite (N.mul_pow2_bits_high _ (N.of_nat (tbits B * q) + N.of_nat o)) by lia.
    destruct (N.lt_ge_cases j (N.of_nat (tbits B * q) + N.of_nat (tbits B))) as [J3|J3].
    { rewrite N.mul_pow2_bits_low by lia. rewrite orb_false_r, !N.mod_pow2_bits_low by lia. rewrite N.shiftl_spec_high' by lia. f_equal. lia. }
    rewrite N.mod_pow2_bits_high by lia. rewrite orb_false_l, N.mul_pow2_bits_high by lia.
    destruct (N.lt_ge_cases j (N.of_nat (tbits B * q) + N.of_nat (tbits B) + N.of_nat w)) as [J4|J4].
    { rewrite !N.mod_pow2_bits_low by lia. rewrite N.shiftr_spec'. f_equal. lia. }
    rewrite !N.mod_pow2_bits_high by lia. reflexivity.
  - specialize (Hnst eq_refl).
    replace ((0 <? o')%nat && (o' <? w)%nat) with false.
    2:{ symmetry. apply andb_false_iff. apply andb_false_iff in Estr as [X|X]; [ | left; lia ].
        assert (q' = q) by lia. subst q'. right. assert (o' = o + w)%nat by nia. lia. }
    set (a := N.shiftl (N.land v (mask w)) (N.of_nat o) mod 2 ^ N.of_nat (tbits B)).
    assert (Ha : a < 2 ^ N.of_nat (tbits B)) by (apply N.mod_lt; auto).
    destruct (or_at_spec (q * B) out (to_le B a) Hok (to_le_ok B a)) as (out1 & E1 & L1 & K1 & V1);
      [rewrite to_le_length; assumption|].
    exists out1. split; [exact E1|]. split; [exact L1|]. split; [exact K1|].
    rewrite V1, Hqe. rewrite le_to_le_small by (rewrite <- tbits_pow; lia). f_equal.
    unfold a. rewrite ones_land, N.shiftl_mul_pow2, N.mod_small.
    2:{ eapply N.lt_le_trans with (2 ^ N.of_nat w * 2 ^ N.of_nat o).
        - apply N.mul_lt_mono_pos_r; [auto|]. apply N.mod_lt. auto.
        - rewrite <- N.pow_add_r. apply N.pow_le_mono_r; [discriminate|]. lia. }
    rewrite Hsplit, N.pow_add_r. lia.
Qed.

(** All values from index [i] on. *)
Fixpoint mixed (bits w i : nat) (l : list N) : N :=
  match l with
  | [] => 0
  | v :: r => N.lor (kept bits w i v * 2 ^ N.of_nat (i * w)) (mixed bits w (S i) r)
  end.

Lemma pack_loop_mixed B w input : (0 < w <= tbits B)%nat -> forall i out,
  (i + length input <= tbits B)%nat -> bytes_ok out -> (w * B <= length out)%nat ->
  exists out', pack_loop B w i input out = Ok out' /\ length out' = length out /\ bytes_ok out' /\
    le out' = N.lor (le out) (mixed (tbits B) w i input).
Proof.
  intros Hw. induction input as [|v input IH]; intros i out Hi Hok Hlen.
  - exists out. cbn [pack_loop mixed]. rewrite N.lor_0_r. repeat split; auto.
  - cbn [length] in Hi. cbn [pack_loop mixed].
    destruct (pack_step_kept B w i v out Hw) as (out1 & E1 & L1 & K1 & V1); [lia|assumption|assumption|].
    rewrite E1. cbn [bind].
    destruct (IH (S i) out1) as (out2 & E2 & L2 & K2 & V2); [lia|assumption|lia|].
    exists out2. split; [exact E2|]. split; [congruence|]. split; [exact K2|].
    rewrite V2, V1. symmetry. apply N.lor_assoc.
Qed.

Lemma mixed_low bits w l : forall i n, n < N.of_nat (i * w) -> N.testbit (mixed bits w i l) n = false.
Proof.
  induction l as [|v l IH]; intros i n H; cbn [mixed]; [apply N.bits_0|].
  rewrite N.lor_spec, N.mul_pow2_bits_low by exact H. rewrite IH; [reflexivity|]. lia.
Qed.

Lemma kept_high bits w i v n : N.of_nat (w + w) <= n -> N.testbit (kept bits w i v) n = false.
Proof. intros H. unfold kept. destruct (_ && _); apply N.mod_pow2_bits_high; lia. Qed.

Lemma mixed_bits bits w l : forall k i j, (j < w)%nat -> (i < length l)%nat ->
  N.testbit (mixed bits w k l) (N.of_nat ((k + i) * w + j)) =
  N.testbit (kept bits w (k + i) (nth i l 0)) (N.of_nat j) ||
  match i with O => false | S h => N.testbit (kept bits w (k + h) (nth h l 0)) (N.of_nat (w + j)) end.
Proof.
  induction l as [|v l IH]; intros k i j Hj Hi; [cbn in Hi; lia|]. cbn [mixed]. rewrite N.lor_spec.
  rewrite N.mul_pow2_bits_high by nia.
  destruct i as [|i].
  - rewrite mixed_low by nia. rewrite !orb_false_r, Nat.add_0_r. cbn [nth]. f_equal. lia.
  - cbn [length] in Hi. replace (k + S i)%nat with (S k + i)%nat by lia. rewrite IH by lia. cbn [nth].
    rewrite orb_comm, <- orb_assoc. f_equal.
    destruct i as [|h].
    + rewrite orb_false_l, !Nat.add_0_r. cbn [nth]. f_equal. lia.
    + rewrite (kept_high bits w k v) by nia. rewrite orb_false_r. cbn [nth]. do 2 f_equal. lia.
Qed.

Lemma stored_bits bits w l i j : (j < w)%nat ->
  N.testbit (stored bits w l i) (N.of_nat j) =
  N.testbit (kept bits w i (nth i l 0)) (N.of_nat j) ||
  match i with O => false | S h => N.testbit (kept bits w h (nth h l 0)) (N.of_nat (w + j)) end.
Proof.
  intros Hj. unfold stored. rewrite N.lor_spec. f_equal.
  - rewrite N.mod_pow2_bits_low by lia. unfold kept. destruct (_ && _); rewrite N.mod_pow2_bits_low by lia; reflexivity.
  - destruct i as [|h]; [apply N.bits_0|]. unfold spilled, kept. destruct (_ && _) eqn:E.
    + apply andb_true_iff in E as [E1 E2]. set (u := word_used bits w (S h)) in *.
      destruct (Nat.lt_ge_cases j (w - u)) as [H|H].
      * rewrite !N.mod_pow2_bits_low by lia. rewrite N.div_pow2_bits. f_equal. lia.
      * rewrite !N.mod_pow2_bits_high by lia. reflexivity.
    + rewrite N.bits_0, N.mod_pow2_bits_high by lia. reflexivity.
Qed.

Lemma stored_small bits w l i : stored bits w l i < 2 ^ N.of_nat w.
Proof.
  unfold stored. apply lor_bound; [apply N.mod_lt; auto|]. destruct i as [|h]; [auto|]. unfold spilled. destruct (_ && _); [|auto].
  eapply N.lt_le_trans; [apply N.mod_lt; auto|]. apply N.pow_le_mono_r; [discriminate|]. lia.
Qed.

Lemma pack_fields B w u out : (0 < w <= tbits B)%nat -> length u = tbits B -> bytes_ok out -> (w * B <= length out)%nat ->
  exists o, pack B u out w = Ok o /\ length o = length out /\ bytes_ok o /\
    forall i, (i < tbits B)%nat -> bit_field w i o = N.lor (bit_field w i out) (stored (tbits B) w u i).
Proof.
  intros Hw Hu Hok Hn. unfold pack. replace (tbits B <? w)%nat with false by lia. replace (w =? 0)%nat with false by lia.
  replace (length out <? w * B)%nat with false by lia.
  destruct (pack_loop_mixed B w u Hw 0 out) as (o & E & L & K & V); [lia|assumption|assumption|].
  exists o. split; [exact E|]. split; [exact L|]. split; [exact K|]. intros i Hi.
  rewrite !bit_field_le by assumption. rewrite V. apply N.bits_inj; intro j. rewrite N.lor_spec.
  destruct (N.lt_ge_cases j (N.of_nat w)) as [Hj|Hj].
  - rewrite !N.mod_pow2_bits_low by exact Hj. rewrite !N.div_pow2_bits, N.lor_spec. f_equal.
    replace j with (N.of_nat (N.to_nat j)) by lia. rewrite stored_bits by lia.
    replace (N.of_nat (N.to_nat j) + N.of_nat (i * w)) with (N.of_nat ((0 + i) * w + N.to_nat j)) by lia.
    rewrite mixed_bits by lia. reflexivity.
  - rewrite !N.mod_pow2_bits_high by exact Hj. symmetry. rewrite orb_false_l.
    rewrite <- (N.mod_small (stored (tbits B) w u i) (2 ^ N.of_nat w)) by apply stored_small. apply N.mod_pow2_bits_high. exact Hj.
Qed.

Lemma bit_field_first B w i a b : bytes_ok a -> bytes_ok b -> length a = (w * B)%nat -> (i < tbits B)%nat ->
  bit_field w i (a ++ b) = bit_field w i a.
Proof.
  intros Ha Hb L Hi. unfold bit_field, bit_stream. rewrite flat_map_app. fold (bit_stream a) (bit_stream b).
  rewrite skipn_app, firstn_app. pose proof (bit_stream_length a) as E. rewrite L in E.
  rewrite skipn_length, E. replace (w - (8 * (w * B) - i * w))%nat with 0%nat by (unfold tbits in Hi; nia).
  rewrite firstn_O, app_nil_r. reflexivity.
Qed.
Lemma bit_field_after B w i a b : bytes_ok a -> bytes_ok b -> length a = (w * B)%nat ->
  bit_field w (tbits B + i) (a ++ b) = bit_field w i b.
Proof.
  intros Ha Hb L. rewrite <- bit_field_skip by (apply bytes_ok_app; split; assumption).
  replace (B * w)%nat with (length a) by lia. rewrite skipn_app, skipn_all, Nat.sub_diag, skipn_O. reflexivity.
Qed.

Lemma encode_zip_fields B w exact us : (0 < w <= tbits B)%nat -> Forall (fun u => length u = tbits B) us ->
  forall packed, bytes_ok packed -> (length us * (w * B) <= length packed)%nat ->
  exists out, encode_zip B w exact us packed = Ok out /\ length out = length packed /\ bytes_ok out /\
    forall k i, (k < length us)%nat -> (i < tbits B)%nat ->
      bit_field w (k * tbits B + i) out = N.lor (bit_field w (k * tbits B + i) packed) (stored (tbits B) w (nth k us []) i).
Proof.
  intros Hw H. induction H as [|u us Hu Hus IH]; intros packed Hok Hlen.
  - exists packed. cbn [encode_zip]. split; [reflexivity|]. split; [reflexivity|]. split; [exact Hok|]. intros k i Hk. cbn in Hk. lia.
  - cbn [encode_zip length] in *. rewrite packed_size_eq.
    assert (HwB : (0 < w * B)%nat) by (unfold tbits in *; nia).
    destruct packed as [|x r] eqn:Ep; [cbn in Hlen; lia|]. rewrite <- Ep in *.
    replace (length packed <? w * B)%nat with false by lia. rewrite andb_false_r.
    assert (Hfl : length (firstn (w * B) packed) = (w * B)%nat) by (rewrite firstn_length; lia).
    destruct (pack_fields B w u (firstn (w * B) packed) Hw Hu) as (c & Ec & Lc & Kc & Vc); [apply bytes_ok_firstn; assumption|lia|].
    rewrite Ec. cbn [bind].
    destruct (IH (skipn (w * B) packed)) as (rest & Er & Lr & Kr & Vr); [apply bytes_ok_skipn; assumption|rewrite skipn_length; lia|].
    rewrite Er. cbn [bind]. exists (c ++ rest). split; [reflexivity|].
    split; [rewrite app_length, Lc, Lr, skipn_length, firstn_length; lia|].
    split; [apply bytes_ok_app; split; assumption|].
    assert (Hb1 : bytes_ok (firstn (w * B) packed)) by (apply bytes_ok_firstn; assumption).
    assert (Hb2 : bytes_ok (skipn (w * B) packed)) by (apply bytes_ok_skipn; assumption).
    intros [|k] i Hk Hi.
    + cbn [nth Nat.mul Nat.add]. rewrite (bit_field_first B) by (try assumption; lia). rewrite Vc by exact Hi. f_equal.
      rewrite <- (firstn_skipn (w * B) packed) at 2. rewrite (bit_field_first B) by assumption. reflexivity.
    + cbn [nth]. replace (S k * tbits B + i)%nat with (tbits B + (k * tbits B + i))%nat by lia.
      rewrite (bit_field_after B) by (try assumption; lia). rewrite Vr by (try exact Hi; lia). f_equal.
      rewrite <- (firstn_skipn (w * B) packed) at 2. rewrite (bit_field_after B) by assumption. reflexivity.
Qed.

Lemma nth_blocks {A} (t : nat) (us : list (list A)) d : Forall (fun u => length u = t) us -> forall k i, (k < length us)%nat -> (i < t)%nat ->
  nth (k * t + i) (concat us) d = nth i (nth k us []) d.
Proof.
  induction 1 as [|u us Hu Hus IH]; intros k i Hk Hi; [cbn in Hk; lia|]. cbn [concat length] in *. destruct k as [|k].
  - cbn [nth Nat.mul Nat.add]. apply app_nth1. lia.
  - cbn [nth]. rewrite app_nth2 by lia. replace (S k * t + i - length u)%nat with (k * t + i)%nat by lia. apply IH; lia.
Qed.

Lemma nth_padded (l : list N) pad i : nth i (l ++ repeat 0 pad) 0 = nth i l 0.
Proof.
  destruct (Nat.lt_ge_cases i (length l)) as [H|H]; [apply app_nth1; exact H|]. rewrite app_nth2 by exact H. rewrite (nth_overflow l) by exact H.
  generalize (i - length l)%nat. induction pad as [|p IH]; intros [|n]; cbn [repeat nth]; auto.
Qed.

Lemma stored_block bits w (us : list (list N)) k i : (0 < bits)%nat -> Forall (fun u => length u = bits) us -> (k < length us)%nat -> (i < bits)%nat ->
  stored bits w (concat us) (k * bits + i) = stored bits w (nth k us []) i.
Proof.
  intros Hb H Hk Hi. unfold stored. rewrite (nth_blocks bits) by assumption. f_equal.
  destruct i as [|i].
  - rewrite Nat.add_0_r. destruct (k * bits)%nat as [|h] eqn:E; [reflexivity|]. unfold spilled, word_used. rewrite <- E.
    replace (k * bits * w)%nat with (k * w * bits)%nat by lia. rewrite Nat.mod_mul by lia. reflexivity.
  - rewrite Nat.add_succ_r. rewrite (nth_blocks bits) by (try assumption; lia). unfold spilled, word_used.
    replace (S (k * bits + i) * w)%nat with (S i * w + k * w * bits)%nat by lia. rewrite Nat.mod_add by lia. reflexivity.
Qed.

Lemma bp_encode_fields B w l packed : (0 < w <= tbits B)%nat -> bytes_ok packed -> (n_chunks B (length l) * (w * B) <= length packed)%nat ->
  exists out, bp_encode B l w packed = Ok out /\ length out = length packed /\ bytes_ok out /\
    forall i, (i < length l)%nat -> bit_field w i out = N.lor (bit_field w i packed) (stored (tbits B) w l i).
Proof.
  intros Hw Hok Hlen. assert (HB : (0 < B)%nat) by (unfold tbits in *; lia). assert (Ht : (0 < tbits B)%nat) by lia.
  destruct (bp_encode_blocks B w l packed HB ltac:(lia)) as (us & pad & E & Hus & Lus & Cus & _). rewrite E.
  destruct (encode_zip_fields B w (length l mod tbits B =? 0)%nat us Hw Hus packed Hok) as (out & Eo & Lo & Ko & Vo); [rewrite Lus; exact Hlen|].
  exists out. split; [exact Eo|]. split; [exact Lo|]. split; [exact Ko|]. intros i Hi.
  pose proof (Nat.div_mod i (tbits B) ltac:(lia)) as D. pose proof (Nat.mod_upper_bound i (tbits B) ltac:(lia)) as U.
  set (k := (i / tbits B)%nat) in *. set (j := (i mod tbits B)%nat) in *. clearbody k j.
  assert (Ei : i = (k * tbits B + j)%nat) by lia.
  assert (Lc : length (concat us) = (length us * tbits B)%nat).
  { clear - Hus. induction Hus as [|u us Hu _ IH]; [reflexivity|]. cbn [concat length]. rewrite app_length, IH. lia. }
  assert (Hk : (k < length us)%nat).
  { assert (length l <= length (concat us))%nat by (rewrite Cus, app_length; lia). nia. }
  rewrite Ei. rewrite Vo by assumption. f_equal. rewrite <- stored_block by assumption. rewrite Cus, <- Ei. unfold stored.
  rewrite nth_padded. f_equal. destruct i as [|i']; [reflexivity|]. rewrite nth_padded. reflexivity.
Qed.
