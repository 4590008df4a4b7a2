(** C70: packing values that do not fit. *)
From Verif Require Import Base.Prelude Base.LeFacts Base.Iter Spec.Bits Spec.BitpackRoomSpec Spec.OversizedSpec Proofs.BitsFacts Model.Bitpacked Model.HybridRle Proofs.BitpackedProofs
  Proofs.BitpackRoomProofs Proofs.OversizedProofs Proofs.OversizedRleProofs.
Open Scope N_scope.

(** Any values at all, of any size, packed into a buffer with room that need not be clean: what is stored as value [i] is [stored], mixed with what
    the buffer held there. *)
Theorem bitpacked_oversized_exact : forall B w l packed, (0 < w <= 8 * B)%nat -> bytes_ok packed ->
  (blocks B (length l) * block_bytes B w <= length packed)%nat ->
  exists out, bp_encode B l w packed = Ok out /\ length out = length packed /\
    forall i, (i < length l)%nat -> bit_field w i out = N.lor (bit_field w i packed) (stored (8 * B) w l i).
Proof.
  intros B w l packed Hw Hok Hlen. destruct (bp_encode_fields B w l packed Hw Hok Hlen) as (out & E & L & _ & V). exists out. auto.
Qed.
Print Assumptions bitpacked_oversized_exact.
(** With four bits to a value no value lies in two words, so values are cut off; with three, the 31 reaches into the zero behind it. *)
Example bitpacked_oversized_exact_case :
  (blocks 1 8 * block_bytes 1 4 <= 4)%nat /\ bp_encode 1 [0; 62; 0; 31; 0; 0; 0; 255] 4 [0; 0; 0; 0] = Ok [224; 240; 0; 240] /\
  stored 8 4 [0; 62; 0; 31; 0; 0; 0; 255] 2 = 0 /\
  bp_encode 1 [0; 0; 31; 0; 0; 0; 0; 0] 3 [0; 0; 1] = Ok [192; 7; 1] /\ map (stored 8 3 [0; 0; 31; 0; 0; 0; 0; 0]) (seq 0 8) = [0; 0; 7; 3; 0; 0; 0; 0].
Proof. repeat split; try (vm_compute; reflexivity). Qed.

(** So this is what packing and unpacking gives, for all values. *)
Theorem bitpacked_oversized_back : forall m B w l packed, (0 < w <= 8 * B)%nat -> Forall (fun b => b = 0) packed ->
  (blocks B (length l) * block_bytes B w <= length packed)%nat -> N.of_nat (length l) * N.of_nat w < 2 ^ 64 ->
  exists out st, bp_encode B l w packed = Ok out /\ bp_try_new m B out w (nlen l) = Ok st /\
    yields (bp_next B) (fun s l => bp_size_hint s = nlen l) st (map (stored (8 * B) w l) (seq 0 (length l))).
Proof.
  intros m B w l packed Hw Hz Hlen H64. assert (HB : (0 < B)%nat) by lia.
  assert (E0 : packed = repeat 0 (length packed)) by (clear - Hz; induction Hz as [|x p -> _ IH]; [reflexivity|cbn [length repeat]; f_equal; exact IH]).
  destruct (zeros_le (length packed)) as [Hok H0]. rewrite <- E0 in Hok, H0.
  destruct (bp_encode_fields B w l packed Hw Hok Hlen) as (out & E & L & K & V).
  pose proof (nchunks_enough B w (length l) HB) as Hn. change (n_chunks B (length l)) with (blocks B (length l)) in Hn. change (w * B)%nat with (block_bytes B w) in Hn.
  destruct (bp_try_new_ok m B w out (length l) Hw K) as (st & Est & Hy); [lia|assumption|].
  exists out, st. split; [exact E|]. split; [exact Est|].
  replace (map (stored (8 * B) w l) (seq 0 (length l))) with (map (fun j => bit_field w j out) (seq 0 (length l))); [exact Hy|].
  apply map_ext_in. intros i Hi. apply in_seq in Hi. rewrite V by lia. rewrite (bit_field_le w i packed) by exact Hok. rewrite H0, N.div_0_l, N.mod_0_l by auto.
  reflexivity.
Qed.
Print Assumptions bitpacked_oversized_back.

(** The values come back exactly if all of them fit. *)
Theorem bitpacked_back_iff : forall m B w l packed, (0 < w <= 8 * B)%nat -> Forall (fun b => b = 0) packed ->
  (blocks B (length l) * block_bytes B w <= length packed)%nat -> N.of_nat (length l) * N.of_nat w < 2 ^ 64 ->
  exists out st back, bp_encode B l w packed = Ok out /\ bp_try_new m B out w (nlen l) = Ok st /\
    yields (bp_next B) (fun s l => bp_size_hint s = nlen l) st back /\
    (back = l <-> Forall (fits w) l) /\
    (forall i, (i < length l)%nat -> Forall (fits w) (firstn i l) -> nth i back 0 = nth i l 0 mod 2 ^ N.of_nat w).
Proof.
  intros m B w l packed Hw Hz Hlen H64. destruct (bitpacked_oversized_back m B w l packed Hw Hz Hlen H64) as (out & st & E & Est & Hy).
  exists out, st, (map (stored (8 * B) w l) (seq 0 (length l))). split; [exact E|]. split; [exact Est|]. split; [exact Hy|].
  assert (N1 : forall i, (i < length l)%nat -> nth i (map (stored (8 * B) w l) (seq 0 (length l))) 0 = stored (8 * B) w l i).
  { intros i Hi. rewrite (nth_indep _ 0 (stored (8 * B) w l 0)) by (rewrite map_length, seq_length; exact Hi). rewrite map_nth, seq_nth by exact Hi. reflexivity. }
  assert (S1 : forall i, (i < length l)%nat -> Forall (fits w) (firstn i l) -> stored (8 * B) w l i = nth i l 0 mod 2 ^ N.of_nat w).
  { intros i Hi Hf. unfold stored. destruct i as [|h]; [apply N.lor_0_r|]. unfold spilled.
    assert (Hh : nth h l 0 / 2 ^ N.of_nat w = 0).
    { apply N.div_small. rewrite Forall_forall in Hf. apply Hf.
      replace (nth h l 0) with (nth h (firstn (S h) l) 0).
      - apply nth_In. rewrite firstn_length. lia.
      - rewrite <- (firstn_skipn (S h) l) at 2. rewrite app_nth1 by (rewrite firstn_length; lia). reflexivity. }
    rewrite Hh. destruct (_ && _); [rewrite N.mod_0_l by auto|]; apply N.lor_0_r. }
  split.
  - split.
    + intros Eq. apply Forall_forall. intros v Hv. apply (In_nth l v 0) in Hv as (i & Hi & <-). rewrite <- Eq at 1. rewrite N1 by exact Hi. apply stored_small.
    + intros Hf. apply (nth_ext _ _ 0 0); [rewrite map_length, seq_length; reflexivity|]. intros i Hi. rewrite map_length, seq_length in Hi.
      rewrite N1 by exact Hi. rewrite S1; [|exact Hi|apply Forall_firstn; exact Hf]. apply N.mod_small. rewrite Forall_forall in Hf. apply Hf. apply nth_In. exact Hi.
  - intros i Hi Hf. rewrite N1 by exact Hi. apply S1; assumption.
Qed.
Print Assumptions bitpacked_back_iff.
Example bitpacked_back_iff_case : ~ Forall (fits 3) [1; 9] /\ (blocks 1 2 * block_bytes 1 3 <= 3)%nat /\
  bp_encode 1 [1; 9] 3 [0; 0; 0] = Ok [9; 0; 0] /\ map (stored 8 3 [1; 9]) (seq 0 2) = [1; 1].
Proof.
  split; [|repeat split; vm_compute; reflexivity]. intros H. inversion H as [|? ? _ H1]; inversion H1 as [|? ? X _]. cbv in X. discriminate X.
Qed.

(** The same for the numbers of the hybrid encoding (levels and dictionary indices): what is encoded in too few bits and decoded again. *)
Theorem hybrid_oversized_back : forall m w l, (w <= 32)%nat -> nlen l < 2 ^ 56 ->
  exists out s, encode_u32 l (N.of_nat w) = Ok out /\ hr_try_new m out w (nlen l) = Ok s /\
    yields (hr_next m) (fun s rest => hr_size_hint s = nlen rest) s (map (stored 32 w l) (seq 0 (length l))).
Proof. exact hr_encode_oversized. Qed.
Print Assumptions hybrid_oversized_back.
Example hybrid_oversized_back_case :
  let l := repeat 1 10 ++ [9; 0; 1; 0] in
  map (stored 32 3 l) (seq 0 14) = repeat 1 10 ++ [1; 1; 1; 0] /\
  (let* out := encode_u32 l 3 in let* s := hr_try_new Checked out 3 14 in drain (hr_next Checked) 20 s) = Ok (repeat 1 10 ++ [1; 1; 1; 0]).
Proof. split; vm_compute; reflexivity. Qed.
