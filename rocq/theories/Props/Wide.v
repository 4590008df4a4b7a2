(** C112: the hybrid encoding at bit widths the format does not foresee. *)
From Verif Require Import Base.Prelude Base.LeFacts Base.Iter Spec.Bits Spec.UlebSpec Spec.RleSpec Spec.WideSpec
  Model.Uleb128 Model.Bitpacked Model.HybridRle Proofs.BitsFacts Proofs.BitpackedProofs
  Proofs.HybridRleProofs Proofs.HybridEncProofs Proofs.BitpackRoomProofs Proofs.WideProofs.
Open Scope N_scope.

(** With overflow checks and a width above 32, every byte string holds some values at that width; what iterating gives is determined
    by them: the values, then zeros, or a panic in the run behind the first [r]. *)
Theorem wide_any_bytes : forall w data, (32 < w)%nat -> bytes_ok data -> nlen data < 2 ^ 61 ->
  exists p vals, wide Checked w p vals data /\
    forall n k, (let* s := hr_try_new Checked data w (N.of_nat n) in drain (hr_next Checked) k s)
      = match p with
        | None => Ok (firstn (Nat.min n k) (vals ++ repeat 0 n))
        | Some r => if (r =? 0)%nat || (length vals <? Nat.min n k)%nat then Panic else Ok (firstn (Nat.min n k) vals)
        end.
Proof.
  intros w data Hw Hok Hsz. destruct (wide_any w Hw (length data) data (Nat.le_refl _) Hok) as (p & vals & Hc).
  exists p, vals. split; [exact Hc|]. intros n k. rewrite (hr_wide_exactly Checked w p vals data n k Hw Hsz Hc).
  destruct p as [[|r]|]; cbn [wide_values orb Nat.eqb]; [reflexivity| |].
  - rewrite firstn_length, firstn_firstn, (Nat.min_comm n k).
    destruct (length vals <? Nat.min k n)%nat eqn:E.
    + replace (Nat.min n (length vals) <? Nat.min k n)%nat with true; [reflexivity|]. symmetry. apply Nat.ltb_lt. apply Nat.ltb_lt in E. lia.
    + replace (Nat.min n (length vals) <? Nat.min k n)%nat with false; [reflexivity|]. symmetry. apply Nat.ltb_ge. apply Nat.ltb_ge in E. lia.
  - replace (_ <? _)%nat with false.
    + rewrite firstn_firstn, (Nat.min_comm n k). reflexivity.
    + symmetry. apply Nat.ltb_ge. rewrite firstn_length, app_length, repeat_length. lia.
Qed.
Print Assumptions wide_any_bytes.
Example wide_any_bytes_case :
  (let* s := hr_try_new Checked [4; 1; 2; 3; 4; 9; 1; 6; 7; 0; 0; 0; 0] 40 9 in drain (hr_next Checked) 9 s)
    = Ok [67305985; 67305985; 7; 7; 7; 0; 0; 0; 0] /\
  (let* s := hr_try_new Checked [4; 1; 2; 3; 4; 9; 3; 6] 40 9 in drain (hr_next Checked) 2 s) = Ok [67305985; 67305985] /\
  (let* s := hr_try_new Checked [4; 1; 2; 3; 4; 9; 3; 6] 40 9 in drain (hr_next Checked) 3 s) = Panic.
Proof. vm_compute. auto. Qed.

(** The same in any build for data known to hold values at that width. *)
Theorem wide_exactly : forall m w p vals data n k, (32 < w)%nat -> nlen data < 2 ^ 61 -> wide m w p vals data ->
  (let* s := hr_try_new m data w (N.of_nat n) in drain (hr_next m) k s)
  = match p with
    | Some O => Panic
    | _ => if (length (wide_values p vals n) <? Nat.min n k)%nat then Panic else Ok (firstn k (wide_values p vals n))
    end.
Proof. exact hr_wide_exactly. Qed.
Print Assumptions wide_exactly.
Example wide_exactly_case : wide Wrapping 40 (Some 1%nat) [67305985; 67305985] ([4] ++ [1; 2; 3; 4; 9] ++ [3] ++ [6]).
Proof.
  assert (V : forall v, v < 128 -> varint v [v]).
  { intros v Hv. split; [eapply N.lt_trans; [exact Hv|reflexivity]|]. split; [cbn; lia|]. split.
    - cbn [base128]. rewrite N.mod_small by exact Hv. lia.
    - exists [], v. split; [reflexivity|]. split; [constructor|exact Hv]. }
  refine (wd_rle Wrapping 40 (Some 0%nat) 2 [4] [1; 2; 3; 4; 9] ([3] ++ [6]) [] _ _ _ _).
  - apply V. reflexivity.
  - repeat constructor.
  - reflexivity.
  - apply (wd_packed Wrapping 40 1 [3] [6]); [apply V; reflexivity|discriminate|left; reflexivity|repeat constructor|discriminate].
Qed.

(** Values of such a width laid out as the format says need not come back: only four bytes of a repeated value are read. *)
Theorem wide_values_refuted : exists w runs data s, conforming w runs data /\
  hr_try_new Checked data w 1 = Ok s /\ drain (hr_next Checked) 1 s = Ok [0] /\ runs_values runs = [2 ^ 32].
Proof.
  exists 40%nat, [RleRun 1 (2 ^ 32)], ([2] ++ [0; 0; 0; 0; 1] ++ []). eexists. split; [|split; [vm_compute; reflexivity|split; vm_compute; reflexivity]].
  apply conf_rle.
  - split; [reflexivity|]. split; [cbn; lia|]. split; [reflexivity|]. exists [], 2. split; [reflexivity|]. split; [constructor|reflexivity].
  - reflexivity.
  - repeat constructor.
  - reflexivity.
  - reflexivity.
  - constructor.
Qed.
Print Assumptions wide_values_refuted.

Lemma pack_128 w buffer : length buffer = 32%nat -> (w <= 32)%nat ->
  exists o, pack 4 buffer (repeat 0 128) w = Ok o /\ length o = 128%nat.
Proof.
  intros Hb Hw. destruct w as [|w].
  - eexists. split; [reflexivity|]. rewrite map_length, repeat_length. reflexivity.
  - destruct (pack_any 4 (S w) buffer (repeat 0 128)) as (o & E & L & _).
    + change (tbits 4) with 32%nat. lia.
    + exact Hb.
    + apply zeros_le.
    + rewrite repeat_length. lia.
    + exists o. split; [exact E|]. rewrite L. apply repeat_length.
Qed.
Lemma chunks_any w : (w <= 32)%nat -> forall k items buffer, (32 * k <= length items)%nat -> length buffer = 32%nat ->
  exists out b, bp_u32_chunks w k items buffer = Ok (out, skipn (32 * k) items, b) /\ length b = 32%nat /\ length out = (4 * w * k)%nat.
Proof.
  intros Hw. induction k as [|k IH]; intros items buffer Hl Hb.
  - exists [], buffer. split; [reflexivity|]. split; [assumption|]. cbn [length]. lia.
  - cbn [bp_u32_chunks].
    assert (H32 : length (firstn 32 items) = 32%nat) by (apply firstn_length_le; lia).
    rewrite H32, skipn_all2, app_nil_r by lia.
    rewrite encode_pack_32 by assumption.
    destruct (pack_128 w _ H32 Hw) as (o & -> & Ho). cbn [bind].
    rewrite ceil8_32. rewrite slice_to_ok by lia. cbn [bind].
    destruct (IH (skipn 32 items) (firstn 32 items)) as (out2 & b2 & E2 & Hb2 & Hl2).
    { rewrite skipn_length. lia. } { exact H32. }
    rewrite E2. cbn [bind]. exists (firstn (4 * w) o ++ out2), b2. split; [|split; [assumption|rewrite app_length, firstn_length; lia]].
    rewrite skipn_skipn_add. do 3 f_equal. f_equal. lia.
Qed.
Lemma ceil8_split w k r : ceil8 ((32 * k + r) * w) = (4 * w * k + ceil8 (r * w))%nat.
Proof.
  replace ((32 * k + r) * w)%nat with (r * w + (4 * w * k) * 8)%nat by lia. unfold ceil8. rewrite Nat.div_add, Nat.mod_add by lia.
  destruct ((r * w) mod 8 =? 0)%nat; lia.
Qed.

(** Encoding numbers with any number of bits: only its lowest eight bits count; values are packed into as many bytes as they need,
    behind a header with the number of groups, unless the width so obtained is above 32, which panics. *)
Theorem number_widths : forall items num_bits, nlen items < 2 ^ 61 ->
  let w := N.to_nat (num_bits mod 256) in
  ((32 < w)%nat -> items <> [] -> encode_u32 items num_bits = Panic) /\
  ((w <= 32)%nat \/ items = [] -> exists h body, encode_u32 items num_bits = Ok (h ++ body) /\
     varint (2 * N.of_nat (ceil8 (length items)) + 1) h /\ length body = ceil8 (length items * w)) /\
  encode_u32 items (N.of_nat w) = encode_u32 items num_bits.
Proof.
  intros items num_bits Hsz w.
  assert (Ew : N.of_nat w mod 256 = num_bits mod 256).
  { unfold w. rewrite Nnat.N2Nat.id. apply N.mod_mod. discriminate. }
  split; [|split].
  - intros Hw Hne. unfold encode_u32. fold w. destruct (bitpacked_header_spec (length items) Hsz) as (h & -> & _). cbn [bind].
    assert (Hp : forall b, length b = 32%nat -> encode_pack 4 b w (repeat 0 128) = Panic).
    { intros b Hb. rewrite encode_pack_32 by exact Hb. unfold pack. change (tbits 4) with 32%nat. replace (32 <? w)%nat with true by lia. reflexivity. }
    unfold bitpacked_encode_u32. destruct (length items / 32)%nat as [|k] eqn:Ek.
    + cbn [bp_u32_chunks bind]. rewrite Nat.mul_0_l, Nat.sub_0_r.
      assert (Hlt : (length items < 32)%nat) by (clear - Ek; Z.to_euclidean_division_equations; lia).
      destruct (length items =? 0)%nat eqn:E0; [apply Nat.eqb_eq in E0; apply length_zero_iff_nil in E0; contradiction|].
      rewrite Hp; [reflexivity|]. rewrite firstn_all, app_length, skipn_length, repeat_length. lia.
    + cbn [bp_u32_chunks]. assert (Hge : (32 <= length items)%nat) by (clear - Ek; Z.to_euclidean_division_equations; lia).
      rewrite Hp; [reflexivity|]. rewrite app_length, skipn_length, firstn_length, repeat_length. lia.
  - intros Hw. unfold encode_u32. fold w. destruct (bitpacked_header_spec (length items) Hsz) as (h & -> & Hh). cbn [bind].
    destruct items as [|x items'] eqn:Ei.
    { exists h, []. unfold bitpacked_encode_u32. cbn [length Nat.div bp_u32_chunks bind]. split; [reflexivity|]. split; [exact Hh|reflexivity]. }
    rewrite <- Ei in *. destruct Hw as [Hw|Hw]; [|congruence].
    unfold bitpacked_encode_u32. pose proof (Nat.div_mod (length items) 32 ltac:(lia)) as Hd. pose proof (Nat.mod_upper_bound (length items) 32 ltac:(lia)) as Hm.
    set (k := (length items / 32)%nat) in *. set (r := (length items mod 32)%nat) in *. clearbody k r.
    destruct (chunks_any w Hw k items (repeat 0 32)) as (out & b & E & Hb & Hl); [lia|reflexivity|]. rewrite E. cbn [bind].
    replace (length items - k * 32)%nat with r by lia.
    assert (Hc : ceil8 (length items * w) = (4 * w * k + ceil8 (r * w))%nat) by (rewrite Hd; apply ceil8_split).
    destruct (r =? 0)%nat eqn:Er.
    + apply Nat.eqb_eq in Er. cbn [bind]. exists h, out. split; [reflexivity|]. split; [exact Hh|]. rewrite Hc, Hl, Er. cbn [Nat.mul]. change (ceil8 0) with 0%nat. lia.
    + assert (Lr : length (firstn r (skipn (32 * k) items)) = r) by (rewrite firstn_length, skipn_length; lia).
      rewrite Lr. rewrite encode_pack_32 by (rewrite app_length, skipn_length, Lr; lia).
      destruct (pack_128 w (firstn r (skipn (32 * k) items) ++ skipn r b)) as (o & Eo & Lo); [rewrite app_length, skipn_length, Lr; lia|exact Hw|].
      rewrite Eo. cbn [bind]. pose proof (ceil8_ge (r * w)) as [_ Hce].
      assert (Hle : (ceil8 (r * w) <= 128)%nat) by nia.
      rewrite slice_to_ok by lia. cbn [bind]. exists h, (out ++ firstn (ceil8 (r * w)) o). split; [reflexivity|]. split; [exact Hh|].
      rewrite app_length, firstn_length, Hc, Hl. lia.
  - unfold encode_u32. rewrite Ew. reflexivity.
Qed.
Print Assumptions number_widths.
Example number_widths_case : encode_u32 [1; 2; 3] 33 = Panic /\ encode_u32 [1; 2; 3] 32 = Ok [3; 1; 0; 0; 0; 2; 0; 0; 0; 3; 0; 0; 0].
Proof. vm_compute. auto. Qed.

(** A number of bits that is enough for every value does not always keep them: 256 is taken as 0. *)
Theorem number_widths_refuted : exists items num_bits out, Forall (fits (N.to_nat num_bits)) items /\
  encode_u32 items num_bits = Ok out /\ length items = 3%nat /\ out = [3].
Proof.
  exists [1; 2; 3], 256, [3]. split; [|vm_compute; auto]. repeat constructor; apply N.ltb_lt; vm_compute; reflexivity.
Qed.
Print Assumptions number_widths_refuted.
