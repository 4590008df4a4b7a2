(** C109: packing values into a buffer of any size. *)
From Verif Require Import Base.Prelude Base.LeFacts Base.Iter Spec.Bits Spec.BitpackRoomSpec Proofs.BitsFacts Model.Bitpacked Proofs.BitpackedProofs Proofs.BitpackRoomProofs.
Open Scope N_scope.

(** The encoder panics exactly in the cases of [packing_panics]; otherwise it returns the buffer, of the same length. It never
    returns an error. *)
Theorem packing_outcome : forall B w l packed, (1 <= B)%nat -> bytes_ok packed ->
  (packing_panics B w (length l) (length packed) -> bp_encode B l w packed = Panic) /\
  (~ packing_panics B w (length l) (length packed) ->
     exists out, bp_encode B l w packed = Ok out /\ length out = length packed /\ bytes_ok out).
Proof.
  intros B w l packed HB Hok. unfold packing_panics. destruct (Nat.eq_dec w 0) as [->|Hw0].
  { split; [|intros X; exfalso; apply X; left; reflexivity]. intros _. unfold bp_encode. rewrite packed_size_eq. reflexivity. }
  destruct (bp_encode_blocks B w l packed HB ltac:(lia)) as (us & pad & E & Hus & Lus & Cus & _). rewrite E.
  assert (Hr : (length l mod tbits B =? 0)%nat = false <-> ragged B (length l)) by (unfold ragged, block_values; change (8 * B)%nat with (tbits B); lia).
  assert (Hl : us <> [] <-> length l <> 0%nat).
  { destruct us as [|u us]; [|inversion Hus as [|? ? Hu]; subst].
    - split; [contradiction|]. cbn [concat] in Cus. destruct l; [contradiction|discriminate Cus].
    - split; [|discriminate]. intros _ X. rewrite X in Lus. rewrite n_chunks_div in Lus by lia. cbn [length] in Lus.
      rewrite Nat.div_0_l, Nat.mod_0_l in Lus by (unfold tbits; lia). discriminate Lus. }
  assert (Hp : packed <> [] <-> length packed <> 0%nat) by (destruct packed; cbn [length]; split; intros X; try discriminate; try contradiction; exfalso; apply X; reflexivity).
  change (block_values B) with (tbits B). change (block_bytes B w) with (w * B)%nat. change (blocks B (length l)) with (n_chunks B (length l)).
  destruct (Nat.le_gt_cases w (tbits B)) as [Hle|Hgt].
  - destruct (encode_zip_total B w (length l mod tbits B =? 0)%nat us ltac:(lia) Hus packed Hok) as [T1 T2]. rewrite Lus, Hr in T1, T2. split.
    + intros [X|(X1 & X2 & [[X3 _]|(X3 & X4 & X5)])]; [lia|lia|]. apply T1. split; assumption.
    + intros X. destruct T2 as (out & O & L & K & _); [|exists out; auto]. intros (Y1 & Y2 & Y3). apply X. right.
      split; [intros Z; apply Y1; rewrite Z; apply Nat.mod_0_l; unfold block_values; lia|].
      split; [intros Z; apply Y3; rewrite Z; apply Nat.mod_0_l; unfold tbits in *; nia|]. right. auto.
  - destruct (encode_zip_wide B w (length l mod tbits B =? 0)%nat us ltac:(lia) Hgt Hus packed) as [T1 T2]. rewrite Hl, Hp, Hr in T1, T2. split.
    + intros [X|(X1 & X2 & [[X3 X4]|(X3 & _)])]; [lia| |lia]. apply T1. auto.
    + intros X. exists packed. split; [|auto]. apply T2. intros (Y1 & Y2 & Y3). apply X. right. split; [exact Y1|]. split; [exact Y2|]. left. auto.
Qed.
Print Assumptions packing_outcome.

Example packing_outcome_case :
  packing_panics 1 3 9 5 /\ ~ packing_panics 1 3 9 6 /\ ~ packing_panics 1 3 16 5 /\ ~ packing_panics 1 3 9 3 /\
  bp_encode 1 (repeat 5 9) 3 (repeat 0 5%nat) = Panic /\ bp_encode 1 (repeat 5 9) 3 (repeat 0 6%nat) = Ok [109; 219; 182; 5; 0; 0].
Proof. unfold packing_panics, ragged, blocks, block_values, block_bytes. cbn. repeat split; try reflexivity; lia. Qed.

(** When the encoder returns, the buffer holds the first values in full, as many as there is room for, and zeros after them: values
    without room are dropped without an error. *)
Theorem packing_room : forall B w l packed out, (1 <= B)%nat -> Forall (fits w) l -> (w <= block_values B)%nat ->
  Forall (fun b => b = 0) packed -> bp_encode B l w packed = Ok out ->
  let k := values_with_room B w (length l) (length packed) in
  length out = length packed /\
  bit_stream out = flat_map (lsb_bits w) (firstn k l) ++ repeat false (8 * length packed - k * w).
Proof.
  intros B w l packed out HB Hf Hw Hz Eo k.
  assert (E0 : packed = repeat 0 (length packed)) by (clear - Hz; induction Hz as [|x p -> _ IH]; [reflexivity|cbn [length repeat]; f_equal; exact IH]).
  destruct (zeros_le (length packed)) as [Hok H0]. rewrite <- E0 in Hok, H0.
  destruct (Nat.eq_dec w 0) as [->|Hw0]; [unfold bp_encode in Eo; rewrite packed_size_eq in Eo; discriminate Eo|].
  destruct (bp_encode_blocks B w l packed HB ltac:(lia)) as (us & pad & E & Hus & Lus & Cus & Fus). rewrite E in Eo.
  change (block_values B) with (tbits B) in Hw.
  destruct (encode_zip_total B w (length l mod tbits B =? 0)%nat us ltac:(lia) Hus packed Hok) as [T1 T2].
  destruct T2 as (out' & O & L & K & V).
  { intros X. rewrite (T1 X) in Eo. discriminate Eo. }
  rewrite O in Eo. apply Ok_inj in Eo. subst out'. split; [exact L|].
  specialize (V (Fus Hf) H0). rewrite (concat_firstn_blocks _ _ Hus), Cus, pval_firstn_padded in V.
  assert (HwB : (0 < w * B)%nat) by nia.
  assert (Ek : firstn k l = firstn (length packed / (w * B) * tbits B) l).
  { unfold k, values_with_room. change (block_bytes B w) with (w * B)%nat. change (block_values B) with (tbits B).
    destruct (Nat.min_spec (length l) (length packed / (w * B) * tbits B)) as [[X ->]|[X ->]]; [|reflexivity].
    rewrite firstn_all, firstn_all2 by lia. reflexivity. }
  rewrite <- Ek in V.
  assert (Lk : length (firstn k l) = k) by (rewrite firstn_length; unfold k, values_with_room; lia).
  assert (Hk : (k * w <= 8 * length packed)%nat).
  { pose proof (Nat.mul_div_le (length packed) (w * B) ltac:(lia)) as D.
    assert (X : (k <= length packed / (w * B) * tbits B)%nat) by (unfold k, values_with_room; change (block_bytes B w) with (w * B)%nat; change (block_values B) with (tbits B); lia).
    revert X D. generalize (length packed / (w * B))%nat. unfold tbits. clear. intros q X D. nia. }
  rewrite <- L. rewrite <- Lk at 2. apply bit_stream_pval; [apply Forall_firstn; exact Hf|exact K|rewrite Lk, L; exact Hk|exact V].
Qed.
Print Assumptions packing_room.

Example packing_room_case :
  bp_encode 1 [1; 2; 3; 4; 5; 6; 7; 0; 7; 7; 7; 7; 7; 7; 7; 7] 3 [0; 0; 0; 0; 0] = Ok [209; 88; 31; 0; 0] /\
  values_with_room 1 3 16 5 = 8%nat.
Proof. split; reflexivity. Qed.

(** So it is not true that the encoder either packs every value or reports it: here sixteen values are given, the encoder succeeds,
    and reading back gives zeros for the last eight. *)
Theorem packing_all_refuted : ~ (forall B w l packed out, (1 <= B)%nat -> (1 <= w <= block_values B)%nat -> Forall (fits w) l ->
  Forall (fun b => b = 0) packed -> bp_encode B l w packed = Ok out ->
  (length l * w <= 8 * length out)%nat /\ firstn (length l * w) (bit_stream out) = flat_map (lsb_bits w) l).
Proof.
  intros H. specialize (H 1%nat 3%nat (repeat 7 16) [0; 0; 0; 0; 0] [255; 255; 255; 0; 0]).
  destruct H as [X _]; [lia|unfold block_values; lia|apply Forall_forall; intros x Hx; apply repeat_spec in Hx; subst; reflexivity|repeat constructor|reflexivity|].
  cbn in X. lia.
Qed.
Print Assumptions packing_all_refuted.
