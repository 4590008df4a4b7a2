(** C07-C11: the RLE / bit-packing hybrid and boolean bitmaps.
    [yields next P s l]: iterating from [s] returns exactly [l] and then stops, without error or panic,
    and [P] (here: the size hint is the number of items to come) holds before every step.
    Bounds such as [2 ^ 56] items or [2 ^ 61] bytes only exclude buffers that no machine can hold. *)
From Verif Require Import Base.Prelude Base.Iter Spec.Bits Spec.UlebSpec Spec.RleSpec
  Model.HybridRle Proofs.HybridRleProofs Proofs.HybridEncProofs Proofs.BitmapProofs Proofs.HybridAnyProofs Proofs.HybridBrokenProofs.
Open Scope N_scope.

(** C07. *)
Theorem hybrid_rle_roundtrip : forall m w l,
  (w <= 32)%nat -> Forall (fits w) l -> nlen l < 2 ^ 56 ->
  exists out s, encode_u32 l (N.of_nat w) = Ok out /\
    hr_try_new m out w (nlen l) = Ok s /\
    yields (hr_next m) (fun s rest => hr_size_hint s = nlen rest) s l.
Proof. exact hr_encode_roundtrip. Qed.
Print Assumptions hybrid_rle_roundtrip.

Example hybrid_rle_roundtrip_case :
  let l := map N.of_nat (seq 0 7) ++ repeat 5 40 in
  Forall (fits 3) l /\
  (let* out := encode_u32 l 3 in let* s := hr_try_new Checked out 3 47 in drain (hr_next Checked) 60 s) = Ok l.
Proof. vm_compute. split; [repeat constructor|reflexivity]. Qed.

(** C08. The bytes of any list of runs decode to the runs' values, cut at the number requested; when
    more are requested than the runs hold, zeros follow. *)
Theorem hybrid_rle_decodes_conforming : forall m w runs data n,
  (0 < w <= 32)%nat -> conforming w runs data -> nlen data < 2 ^ 61 ->
  exists s, hr_try_new m data w (N.of_nat n) = Ok s /\
    yields (hr_next m) (fun s rest => hr_size_hint s = nlen rest) s
      (firstn n (flat_map run_values runs ++ repeat 0 n)).
Proof. exact hr_decodes_conforming. Qed.
Print Assumptions hybrid_rle_decodes_conforming.

(** An RLE run of 3 sevens, an empty RLE run, a bit-packed run of 8 values, an RLE run of 1. *)
Example hybrid_rle_decodes_conforming_case :
  let runs := [RleRun 3 7; RleRun 0 1; PackedRun [0; 1; 2; 3; 4; 5; 6; 7]; RleRun 1 2] in
  let data := [6; 7; 0; 1; 3; 136; 198; 250; 2; 2] in
  conforming 3 runs data /\
  (let* s := hr_try_new Checked data 3 14 in drain (hr_next Checked) 14 s)
    = Ok [7; 7; 7; 0; 1; 2; 3; 4; 5; 6; 7; 2; 0; 0].
Proof.
  split; [|vm_compute; reflexivity].
  assert (V : forall b, b < 128 -> varint b [b]).
  { intros b Hb. split; [eapply N.lt_trans; [exact Hb|reflexivity]|]. split; [cbn; lia|].
    split; [cbn [base128]; rewrite N.mod_small by assumption; lia|].
    exists [], b. repeat split; [constructor|assumption]. }
  change [6; 7; 0; 1; 3; 136; 198; 250; 2; 2] with
    ([6] ++ [7] ++ [0] ++ [1] ++ [3] ++ [136; 198; 250] ++ [2] ++ [2] ++ []).
  assert (OK : forall l, bytes_okb l = true -> bytes_ok l).
  { intros l H. apply Forall_forall. intros x Hx. unfold bytes_okb in H.
    rewrite forallb_forall in H. specialize (H x Hx). unfold byte_okb, byte_ok in *. lia. }
  apply conf_rle; [apply V; reflexivity|reflexivity|apply OK; reflexivity|reflexivity|reflexivity|].
  apply conf_rle; [apply V; reflexivity|reflexivity|apply OK; reflexivity|reflexivity|reflexivity|].
  apply conf_packed with (groups := 1%nat);
    [apply V; reflexivity|reflexivity|repeat constructor|apply OK; reflexivity|reflexivity|reflexivity|].
  apply conf_rle; [apply V; reflexivity|reflexivity|apply OK; reflexivity|reflexivity|reflexivity|].
  constructor.
Qed.

(** C09. Arbitrary bytes, arbitrary width (even zero, even above 32): no error is ever returned, and
    every collection that completes has exactly the requested length, with an exact size hint left. *)
Theorem hybrid_rle_exact_count : forall m data w n,
  (forall e, hr_try_new m data w n <> Err e) /\
  (forall s k, hr_try_new m data w n = Ok s ->
     (forall e, drain_st (hr_next m) k s <> Err e) /\
     (forall l s', drain_st (hr_next m) k s = Ok (l, s') ->
        nlen l = N.min (N.of_nat k) n /\ hr_size_hint s' = n - nlen l)).
Proof.
  intros m data w n. destruct (hr_try_new_any m data w n) as [H1 H2]. split; [exact H1|].
  intros s k Hs. rewrite <- (H2 s Hs). apply hr_drain_any.
Qed.
Print Assumptions hybrid_rle_exact_count.

(** Missing values read as zero: this covers truncated buffers as well ([readable] in Spec/RleSpec.v). *)
Theorem hybrid_rle_missing_values_are_zero : forall m w vals data n,
  (0 < w <= 32)%nat -> readable w vals data -> nlen data < 2 ^ 61 ->
  exists s, hr_try_new m data w (N.of_nat n) = Ok s /\
    yields (hr_next m) (fun s rest => hr_size_hint s = nlen rest) s (firstn n (vals ++ repeat 0 n)).
Proof. exact hr_decodes_readable. Qed.
Print Assumptions hybrid_rle_missing_values_are_zero.

Theorem hybrid_rle_zero_width : forall m data n,
  exists s, hr_try_new m data 0 (N.of_nat n) = Ok s /\
    yields (hr_next m) (fun s rest => hr_size_hint s = nlen rest) s (repeat 0 n).
Proof. exact hr_zero_bits. Qed.
Print Assumptions hybrid_rle_zero_width.

Example hybrid_rle_exact_count_case :   (* a bit-packed run declared with 64 groups, cut after 2 bytes *)
  (let* s := hr_try_new Checked [129; 1; 255; 255] 3 9 in drain (hr_next Checked) 100 s)
    = Ok [7; 7; 7; 7; 7; 0; 0; 0; 0].
Proof. vm_compute. reflexivity. Qed.

(** C10. *)
Theorem bitmap_layout : forall l,
  exists out, bitmap_encode l = Ok out /\ length out = ((length l + 7) / 8)%nat /\ bytes_ok out /\
    bit_stream out = l ++ repeat false (8 * ((length l + 7) / 8) - length l).
Proof.
  intro l. replace ((length l + 7) / 8)%nat with (ceil8 (length l)); [apply bitmap_encode_spec|].
  unfold ceil8. destruct (length l mod 8 =? 0)%nat eqn:E; Z.to_euclidean_division_equations; lia.
Qed.
Print Assumptions bitmap_layout.

Theorem bitmap_iterates_bits : forall slice off n,
  (off + n <= 8 * length slice)%nat ->
  exists s, bm_new slice off (N.of_nat n) = Ok s /\
    yields bm_next (fun s rest => bm_size_hint s = nlen rest) s (firstn n (skipn off (bit_stream slice))).
Proof. exact bm_new_spec. Qed.
Print Assumptions bitmap_iterates_bits.

Theorem bitmap_roundtrip : forall l,
  exists out s, bitmap_encode l = Ok out /\ bm_new out 0 (nlen l) = Ok s /\
    yields bm_next (fun s rest => bm_size_hint s = nlen rest) s l.
Proof.
  intro l. destruct (bitmap_encode_spec l) as (out & E & Hl & Hok & Hs).
  pose proof (ceil8_ge (length l)) as [H1 H2].
  destruct (bm_new_spec out 0 (length l)) as (s & Es & Hy); [lia|].
  exists out, s. split; [exact E|]. split; [exact Es|].
  rewrite Hs in Hy. cbn [skipn] in Hy. rewrite firstn_app, firstn_all, Nat.sub_diag in Hy. cbn [firstn] in Hy.
  rewrite app_nil_r in Hy. exact Hy.
Qed.
Print Assumptions bitmap_roundtrip.

Theorem hybrid_bool_roundtrip : forall m l, nlen l < 2 ^ 61 ->
  exists out s, encode_bool l = Ok out /\ hr_try_new m out 1 (nlen l) = Ok s /\
    yields (hr_next m) (fun s rest => hr_size_hint s = nlen rest) s (map N.b2n l).
Proof. exact encode_bool_roundtrip. Qed.
Print Assumptions hybrid_bool_roundtrip.

Example bitmap_roundtrip_case :
  let l := [true; false; true; true; false; false; true; false; true; true] in
  bitmap_encode l = Ok [77; 3] /\
  (let* s := bm_new [77; 3] 0 10 in drain bm_next 12 s) = Ok l /\
  (let* s := bm_new [77; 3] 6 4 in drain bm_next 12 s) = Ok [true; false; true; true].
Proof. vm_compute. repeat split. Qed.

(** C11. False: three bytes of a truncated RLE run panic, in every build mode. *)
Theorem hybrid_rle_corrupt_panics_refuted :
  exists data w n, bytes_ok data /\ (0 < w <= 32)%nat /\
    forall m, hr_try_new m data w (N.of_nat n) = Panic.
Proof.
  exists [4; 1], 9%nat, 2%nat. split; [repeat constructor; reflexivity|]. split; [lia|].
  intros []; vm_compute; reflexivity.
Qed.
Print Assumptions hybrid_rle_corrupt_panics_refuted.

(** The exact condition under which opening a stream panics: an over-long varint header, an RLE value
    cut by the end of the buffer, or (with overflow checks) an absurd group count. *)
Theorem hybrid_rle_open_panics_iff : forall m data w n,
  (0 < w <= 32)%nat -> bytes_ok data -> nlen data < 2 ^ 61 ->
  let lead := uleb_lead data in
  let v := base128 lead in
  let body := skipn (length lead) data in
  (hr_try_new m data w (N.of_nat n) = Panic <->
    ((10 <= length lead)%nat /\ 1 < nth 9 data 0) \/
    (~ ((10 <= length lead)%nat /\ 1 < nth 9 data 0) /\ body <> [] /\
     ((N.odd v = false /\ (length body < ceil8 w)%nat) \/
      (N.odd v = true /\ m = Checked /\ 2 ^ 64 <= v / 2 * N.of_nat w)))).
Proof. exact hr_try_new_panics. Qed.
Print Assumptions hybrid_rle_open_panics_iff.

(** What decoding broken bytes does, for every number [n] of values asked for and every number [k] of
    steps taken: a stream whose first run is broken cannot even be opened (not even for no values);
    otherwise the values before the broken run come out, and asking for one more panics. *)
Theorem hybrid_rle_broken_exactly : forall m w runs vals data n k,
  (0 < w <= 32)%nat -> nlen data < 2 ^ 61 -> broken m w runs vals data ->
  (let* s := hr_try_new m data w (N.of_nat n) in drain (hr_next m) k s)
  = if (runs =? 0)%nat || (length vals <? Nat.min n k)%nat then Panic else Ok (firstn (Nat.min n k) vals).
Proof. intros. apply hr_broken_exactly; assumption. Qed.
Print Assumptions hybrid_rle_broken_exactly.

(** A run of 3 sevens, then an RLE value of two bytes of which one is there. *)
Example hybrid_rle_broken_exactly_case :
  broken Checked 9 1 [7; 7; 7] [6; 7; 0; 4; 1] /\
  (let* s := hr_try_new Checked [6; 7; 0; 4; 1] 9 3 in drain (hr_next Checked) 5 s) = Ok [7; 7; 7] /\
  (let* s := hr_try_new Checked [6; 7; 0; 4; 1] 9 4 in drain (hr_next Checked) 5 s) = Panic.
Proof.
  split; [|split; vm_compute; reflexivity].
  assert (V : forall b, b < 128 -> varint b [b]).
  { intros b Hb. split; [eapply N.lt_trans; [exact Hb|reflexivity]|]. split; [cbn; lia|].
    split; [cbn [base128]; rewrite N.mod_small by assumption; lia|].
    exists [], b. repeat split; [constructor|assumption]. }
  change (broken Checked 9 1 (repeat (le [7; 0]) 3 ++ []) ([6] ++ [7; 0] ++ [4; 1])).
  apply bk_after_rle; [apply V; reflexivity|repeat constructor|reflexivity|].
  change [4; 1] with ([4] ++ [1]). eapply (bk_value _ _ 2); [apply V; reflexivity|repeat constructor|discriminate|].
  change (1 < 2)%nat. lia.
Qed.

(** Every sequence of bytes is of one of the two kinds: decoding it with overflow checks either returns
    any number of values, or is broken and behaves as above. *)
Theorem hybrid_rle_any_bytes : forall w data,
  (0 < w <= 32)%nat -> bytes_ok data -> nlen data < 2 ^ 61 ->
  (exists vals, readable w vals data /\
     forall n, exists s, hr_try_new Checked data w (N.of_nat n) = Ok s /\
       yields (hr_next Checked) (fun s rest => hr_size_hint s = nlen rest) s (firstn n (vals ++ repeat 0 n))) \/
  (exists runs vals, broken Checked w runs vals data /\
     forall n k, (let* s := hr_try_new Checked data w (N.of_nat n) in drain (hr_next Checked) k s)
       = if (runs =? 0)%nat || (length vals <? Nat.min n k)%nat then Panic else Ok (firstn (Nat.min n k) vals)).
Proof.
  intros w data Hw Hok Hsz.
  destruct (readable_or_broken w Hw (length data) data (Nat.le_refl _) Hok Hsz) as [[vals Hr]|(r & vals & Hr)].
  - left. exists vals. split; [exact Hr|]. intro n. apply hr_decodes_readable; assumption.
  - right. exists r, vals. split; [exact Hr|]. intros n k. apply hr_broken_exactly; assumption.
Qed.
Print Assumptions hybrid_rle_any_bytes.
