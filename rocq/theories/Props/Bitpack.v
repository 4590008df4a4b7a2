(** C04, C05, C06, C70: bit packing. [B] is the size of the integer type in bytes
    (1, 2, 4, 8 for u8, u16, u32, u64); the theorems hold for every [B]. *)
From Verif Require Import Base.Prelude Base.Iter Spec.Bits Model.Bitpacked Proofs.BitpackedProofs.
Open Scope N_scope.

(** C04. One block: the bit stream of the output is the values' bits, least significant first, one
    value after the other, then zeros; unpacking it returns the values; unpacking any bytes reads the
    bit fields. *)
Theorem bitpacked_block_layout : forall B w l n,
  (0 < w <= 8 * B)%nat -> Forall (fits w) l -> length l = (8 * B)%nat -> (w * B <= n)%nat ->
  exists out, pack B l (repeat 0 n) w = Ok out /\ length out = n /\ bytes_ok out /\
    bit_stream out = flat_map (lsb_bits w) l ++ repeat false (8 * n - length l * w) /\
    unpack B out w = Ok l.
Proof.
  intros B w l n Hw Hf Hl Hn.
  destruct (pack_layout B w l (repeat 0 n) Hw Hf Hl (proj1 (zeros_le n)) (proj2 (zeros_le n)))
    as (o & H); rewrite repeat_length in *; [assumption|exists o; exact H].
Qed.
Print Assumptions bitpacked_block_layout.

Theorem bitpacked_unpack_fields : forall B w inp,
  (0 < w <= 8 * B)%nat -> bytes_ok inp -> (w * B <= length inp)%nat ->
  unpack B inp w = Ok (map (fun i => bit_field w i inp) (seq 0 (8 * B))).
Proof. exact unpack_spec. Qed.
Print Assumptions bitpacked_unpack_fields.

Example bitpacked_block_layout_case :
  let l := map N.of_nat (seq 0 8) ++ map N.of_nat (seq 0 8) in
  Forall (fits 3) l /\ length l = (8 * 2)%nat /\
  pack 2 l (repeat 0 7) 3 = Ok [136; 198; 250; 136; 198; 250; 0] /\
  unpack 2 [136; 198; 250; 136; 198; 250; 0] 3 = Ok l.
Proof. vm_compute. repeat split. repeat constructor. Qed.

(** C05. *)
Theorem bitpacked_roundtrip : forall m B w l n,
  (0 < w <= 8 * B)%nat -> Forall (fits w) l ->
  ((length l + 8 * B - 1) / (8 * B) * (w * B) <= n)%nat ->   (* room for all blocks *)
  N.of_nat (length l) * N.of_nat w < 2 ^ 64 ->
  exists out st, bp_encode B l w (repeat 0 n) = Ok out /\ length out = n /\ bytes_ok out /\
    firstn (length l * w) (bit_stream out) = flat_map (lsb_bits w) l /\
    bp_try_new m B out w (nlen l) = Ok st /\
    yields (bp_next B) (fun s rest => bp_size_hint s = nlen rest) st l.
Proof.
  intros m B w l n Hw Hf Hn H64.
  destruct (bp_roundtrip m B w l (repeat 0 n) Hw Hf (proj1 (zeros_le n)) (proj2 (zeros_le n)))
    as (o & st & H); rewrite ?repeat_length in *; [assumption|assumption|exists o, st; exact H].
Qed.
Print Assumptions bitpacked_roundtrip.

Example bitpacked_roundtrip_case :
  let l := [5; 0; 7; 1; 2; 3; 4; 6; 7; 7; 1] in
  Forall (fits 3) l /\
  bp_encode 1 l 3 (repeat 0 6) = Ok [197; 163; 209; 127; 0; 0] /\
  (let* st := bp_try_new Wrapping 1 [197; 163; 209; 127; 0; 0] 3 11 in drain (bp_next 1) 20 st) = Ok l.
Proof. vm_compute. repeat split. repeat constructor. Qed.

(** C06. The error condition is exact, and in every other case the decoder yields the bit fields,
    exactly as many as requested, with an exact size hint. *)
Theorem bitpacked_decoder_error_iff : forall B w packed n m,
  bytes_ok packed -> (w <= 8 * B)%nat -> N.of_nat n * N.of_nat w < 2 ^ 64 ->
  (bp_try_new m B packed w (N.of_nat n) = Err OutOfSpec <->
   w = 0%nat \/ (8 * length packed < n * w)%nat).
Proof. exact bp_try_new_err. Qed.
Print Assumptions bitpacked_decoder_error_iff.

Theorem bitpacked_decoder_any : forall m B w packed n,
  (0 < w <= 8 * B)%nat -> bytes_ok packed ->
  (n * w <= 8 * length packed)%nat -> N.of_nat n * N.of_nat w < 2 ^ 64 ->
  exists st, bp_try_new m B packed w (N.of_nat n) = Ok st /\
    yields (bp_next B) (fun s rest => bp_size_hint s = nlen rest) st
      (map (fun j => bit_field w j packed) (seq 0 n)).
Proof. exact bp_try_new_ok. Qed.
Print Assumptions bitpacked_decoder_any.

Example bitpacked_decoder_any_case :
  (let* st := bp_try_new Checked 4 [255; 1; 16] 5 4 in drain (bp_next 4) 9 st) = Ok [31; 15; 0; 0] /\
  bp_try_new Checked 4 [255; 1; 16] 5 5 = Err OutOfSpec.
Proof. vm_compute. split; reflexivity. Qed.

(** A bit width above the integer width is not an error but a panic. *)
Theorem bitpacked_decoder_too_wide_panics : forall m B packed w n,
  (8 * B < w)%nat -> packed <> [] -> (n * w <= 8 * length packed)%nat ->
  N.of_nat n * N.of_nat w < 2 ^ 64 ->
  bp_try_new m B packed w (N.of_nat n) = Panic.
Proof. exact bp_try_new_too_wide. Qed.
Print Assumptions bitpacked_decoder_too_wide_panics.

Example bitpacked_decoder_too_wide_case : bp_try_new Wrapping 4 [1;2;3;4;5] 33 1 = Panic.
Proof. reflexivity. Qed.

(** Without the bound on [length * num_bits] the claim is false: in release builds the product wraps,
    one byte is accepted as 2^61 eight-bit values, and iteration panics. *)
Theorem bitpacked_decoder_wrap_refuted :
  exists packed w n st, bytes_ok packed /\ nlen packed * 8 < n * N.of_nat w /\
    bp_try_new Wrapping 4 packed w n = Ok st /\ drain (bp_next 4) 33 st = Panic.
Proof.
  exists [0], 8%nat, (2 ^ 61), (mk_bp [] 8 (2 ^ 61) 0 (repeat 0 32)).
  split; [repeat constructor|]. split; [reflexivity|]. split; vm_compute; reflexivity.
Qed.
Print Assumptions bitpacked_decoder_wrap_refuted.

(** C70. The documentation says values that do not fit are saturated. They are not: a value above the
    width changes the values after it. *)
Theorem bitpacked_saturates_refuted :
  exists l out, length l = 32%nat /\ nth 6 l 0 = 32 /\ nth 7 l 0 = 0 /\
    pack 4 l (repeat 0 20) 5 = Ok out /\ bit_field 5 7 out <> 0.
Proof.
  exists (repeat 0 6 ++ [32] ++ repeat 0 25).
  eexists. split; [reflexivity|]. split; [reflexivity|]. split; [reflexivity|].
  split; [vm_compute; reflexivity|]. vm_compute. discriminate.
Qed.
Print Assumptions bitpacked_saturates_refuted.

(** What does hold: values that do not fit never change the values before them. *)
Theorem bitpacked_oversized_keeps_prefix : forall B w good bad n,
  (0 < w <= 8 * B)%nat -> Forall (fits w) good -> (length good + length bad = 8 * B)%nat ->
  (w * B <= n)%nat ->
  exists out, pack B (good ++ bad) (repeat 0 n) w = Ok out /\ length out = n /\
    forall i, (i < length good)%nat -> bit_field w i out = nth i good 0.
Proof. exact pack_prefix_fields. Qed.
Print Assumptions bitpacked_oversized_keeps_prefix.

Example bitpacked_oversized_case :
  Forall (fits 5) [1; 2; 3; 4; 5; 6; 7] /\
  (length [1; 2; 3; 4; 5; 6; 7] + length (repeat 4294967295%N 25) = 8 * 4)%nat.
Proof. split; [repeat constructor|reflexivity]. Qed.

(** C04. Packing one block: it succeeds unless the width is larger than the integers, the output is too short or there are too many values,
    and these are panics; it never returns an error. *)
Theorem bitpacked_pack_exact : forall B w l out, (1 <= B)%nat -> bytes_ok out ->
  let bad := (8 * B < length l)%nat \/ (8 * B < w)%nat \/ (0 < w /\ length out < w * B)%nat in
  (bad -> encode_pack B l w out = Panic) /\
  (~ bad -> exists out', encode_pack B l w out = Ok out' /\ length out' = length out).
Proof.
  intros B w l out HB Hok bad. unfold encode_pack.
  assert (Hp : (tbits B <= packed_len B)%nat).
  { unfold tbits, packed_len. destruct (B =? 8)%nat eqn:E; [apply Nat.eqb_eq in E; lia|]. rewrite <- (Nat.mul_1_r (8 * B)) at 1. apply Nat.mul_le_mono_l. exact HB. }
  unfold bad in *. clear bad. change (8 * B)%nat with (tbits B) in *.
  assert (Hpk : forall x, length x = tbits B ->
    ((tbits B < w)%nat \/ (0 < w /\ length out < w * B)%nat -> pack B x out w = Panic) /\
    (~ ((tbits B < w)%nat \/ (0 < w /\ length out < w * B)%nat) -> exists out', pack B x out w = Ok out' /\ length out' = length out)).
  { intros x Hx. unfold pack. destruct (Nat.ltb_spec (tbits B) w) as [Hw|Hw]; [split; [reflexivity | intros H; exfalso; apply H; left; exact Hw]|].
    destruct (Nat.eqb_spec w 0) as [->|Hw0].
    { split; [intros [H|[H _]]; lia|]. intros _. eexists. split; [reflexivity | apply map_length]. }
    destruct (Nat.ltb_spec (length out) (w * B)) as [Ho|Ho]; [split; [reflexivity | intros H; exfalso; apply H; right; lia]|].
    split; [intros [H|[_ H]]; lia|]. intros _.
    destruct (pack_loop_any B w x) with (i := 0%nat) (out := out) as (o & E & L & _); try assumption; try lia.
    exists o. split; assumption. }
  destruct (Nat.ltb_spec (length l) (packed_len B)) as [Hl|Hl].
  - destruct (Nat.ltb_spec (tbits B) (length l)) as [Ht|Ht].
    + split; [reflexivity | intros H; exfalso; apply H; left; exact Ht].
    + specialize (Hpk (l ++ repeat 0 (tbits B - length l))). rewrite app_length, repeat_length in Hpk.
      destruct Hpk as [H1 H2]; [lia|]. split; [intros [H|H]; [lia | apply H1, H] | intros H; apply H2; intros H'; apply H; right; exact H'].
  - destruct (Nat.eqb_spec (length l) (tbits B)) as [He|He].
    + destruct (Hpk l He) as [H1 H2]. split; [intros [H|H]; [lia | apply H1, H] | intros H; apply H2; intros H'; apply H; right; exact H'].
    + split; [reflexivity|]. intros H. exfalso. apply H. left. lia.
Qed.
Print Assumptions bitpacked_pack_exact.

Example bitpacked_pack_exact_case :
  encode_pack 1 [1; 2; 3] 2 [0; 0] = Ok [57; 0] /\ encode_pack 1 [1; 2; 3] 2 [0] = Panic /\ encode_pack 1 [1; 2; 3] 9 (repeat 0 9) = Panic /\
  encode_pack 2 (repeat 1 17) 1 [0; 0] = Panic.
Proof. split; [| split; [| split]]; vm_compute; reflexivity. Qed.
