(** C12, C13, C14: DELTA_BINARY_PACKED. *)
From Verif Require Import Base.Prelude Base.Iter Spec.Bits Spec.UlebSpec Spec.RleSpec Spec.DeltaSpec
  Model.DeltaBitpacked Proofs.DeltaDecProofs Proofs.DeltaEncProofs.
Open Scope N_scope.

(** C12. Every sequence of 64-bit integers: encoding succeeds in a build without overflow checks, and the
    decoder over the bytes written, whatever follows them, announces the count, yields the items and
    nothing else, and reports exactly the bytes written as consumed. *)
Theorem delta_roundtrip : forall items, Forall (fun v => - 2 ^ 63 <= v < 2 ^ 63)%Z items -> nlen items < 2 ^ 64 ->
  exists data, delta_encode Wrapping items = Ok data /\ bytes_ok data /\
    (nlen data < 2 ^ 61 -> forall trail, bytes_ok trail ->
       exists s, delta_try_new Wrapping (data ++ trail) = Ok s /\
         yields (delta_next Wrapping)
           (fun s left => delta_size_hint s = nlen left /\ (left = [] -> delta_consumed s = length data))
           s (map inl items)).
Proof.
  intros items Hr Hn. destruct (delta_encode_ok Wrapping items Hr Hn (or_introl eq_refl)) as [data E].
  exists data. split; [assumption|]. split.
  - destruct (delta_encode_conforms _ _ _ Hr Hn E) as (bl & Hst & _). eapply delta_stream_bytes; eassumption.
  - intros Hs trail Ht. exact (delta_roundtrip_any Wrapping items data Hr Hn E Hs trail Ht).
Qed.
Print Assumptions delta_roundtrip.

Example delta_roundtrip_case :
  (let* data := delta_encode Wrapping [5; 3; 3; -2; 9223372036854775807; -9223372036854775808]%Z in
   let* s := delta_try_new Wrapping (data ++ [1; 2; 3]) in
   let* (l, s') := drain_st (delta_next Wrapping) 10 s in
   Ok (l, (delta_consumed s' =? length data)%nat)) =
  Ok ([inl 5%Z; inl 3%Z; inl 3%Z; inl (-2)%Z; inl 9223372036854775807%Z; inl (-9223372036854775808)%Z], true).
Proof. vm_compute. reflexivity. Qed.

(** C12, builds with overflow checks: whenever encoding succeeds, so does decoding. *)
Theorem delta_roundtrip_checked : forall items data,
  Forall (fun v => - 2 ^ 63 <= v < 2 ^ 63)%Z items -> nlen items < 2 ^ 64 ->
  delta_encode Checked items = Ok data -> nlen data < 2 ^ 61 ->
  delta_encode Wrapping items = Ok data /\
  forall trail, bytes_ok trail ->
    exists s, delta_try_new Checked (data ++ trail) = Ok s /\
      yields (delta_next Checked)
        (fun s left => delta_size_hint s = nlen left /\ (left = [] -> delta_consumed s = length data))
        s (map inl items).
Proof.
  intros items data Hr Hn E Hs. split; [apply delta_encode_mode; assumption|].
  intros trail Ht. exact (delta_roundtrip_any Checked items data Hr Hn E Hs trail Ht).
Qed.
Print Assumptions delta_roundtrip_checked.

Example delta_roundtrip_checked_case :
  (let* data := delta_encode Checked [5; 3; 3; -2; 100]%Z in
   let* s := delta_try_new Checked (data ++ [9]) in drain (delta_next Checked) 10 s) =
  Ok [inl 5%Z; inl 3%Z; inl 3%Z; inl (-2)%Z; inl 100%Z].
Proof. vm_compute. reflexivity. Qed.

(** C13 is false: with overflow checks on, encoding two ordinary integers can panic. *)
Theorem delta_encode_checked_panics_refuted :
  exists items, Forall (fun v => - 2 ^ 63 <= v < 2 ^ 63)%Z items /\ length items = 2%nat /\
    delta_encode Checked items = Panic.
Proof.
  exists [-9223372036854775808; 1]%Z. split; [|split; [reflexivity|vm_compute; reflexivity]].
  repeat constructor; lia.
Qed.
Print Assumptions delta_encode_checked_panics_refuted.

(** C13, the exact condition: consecutive items, and the differences of any one block, differ by at
    most a 64-bit signed number. Otherwise it panics. *)
Theorem delta_encode_checked_iff : forall items,
  Forall (fun v => - 2 ^ 63 <= v < 2 ^ 63)%Z items -> nlen items < 2 ^ 64 ->
  ((exists data, delta_encode Checked items = Ok data) <-> differences_fit items) /\
  (delta_encode Checked items = Panic <-> ~ differences_fit items).
Proof. exact delta_encode_checked. Qed.
Print Assumptions delta_encode_checked_iff.

Example delta_encode_checked_iff_case :
  is_panic (delta_encode Checked [0; 9223372036854775807; 0]%Z) = true /\
  is_ok (delta_encode Checked [0; 4611686018427387903; 0]%Z) = true.
Proof. vm_compute. split; reflexivity. Qed.

(** C14. Every conforming stream, with any number of miniblocks per block, any miniblock size and any
    bytes after it, decodes to its values. With overflow checks on, provided no addition overflows. *)
Theorem delta_decodes_conforming : forall m nmb v count first bl data trail,
  delta_stream nmb v count first bl data -> nlen data < 2 ^ 61 -> bytes_ok trail ->
  (m = Wrapping \/ adds_in_range first bl) ->
  exists s, delta_try_new m (data ++ trail) = Ok s /\
    yields (delta_next m)
      (fun s left => delta_size_hint s = nlen left /\ (left = [] -> delta_consumed s = length data))
      s (map inl (stream_values count first bl)).
Proof. intros. eapply delta_decodes; eassumption. Qed.
Print Assumptions delta_decodes_conforming.

(** A conforming stream that this crate's encoder does not produce: two miniblocks of 64 values. *)
Example delta_decodes_conforming_case :
  (let data := [128;1; 2; 3; 2] ++ [1] ++ [0; 7] ++ [] in
   delta_stream 2 64 3 1 [((-1)%Z, [0; 0])] data /\
   (let* s := delta_try_new Wrapping (data ++ [77]) in drain (delta_next Wrapping) 9 s) =
     Ok [inl 1%Z; inl 0%Z; inl (-1)%Z]).
Proof.
  cbv zeta. split; [|vm_compute; reflexivity].
  assert (V1 : forall b, b < 128 -> varint b [b]).
  { intros b Hb. split; [eapply N.lt_trans; [exact Hb|reflexivity]|]. split; [cbn; lia|].
    split; [cbn [base128]; rewrite N.mod_small by assumption; lia|]. exists [], b. split; [reflexivity|]. split; [constructor|assumption]. }
  apply (ds_intro 2 64 3 1 _ 128 [128;1] [2] [3] [2] ([1] ++ [0;7] ++ [] ++ [])); try reflexivity; try lia.
  - split; [reflexivity|]. split; [cbn; lia|]. split; [reflexivity|]. exists [128], 1.
    split; [reflexivity|]. split; [repeat constructor; lia|reflexivity].
  - apply V1; reflexivity.
  - apply V1; reflexivity.
  - split; [lia|]. apply V1; reflexivity.
  - apply bs_cons; try reflexivity; try discriminate; try (cbn; lia); try congruence.
    + split; [lia|]. apply V1; reflexivity.
    + repeat constructor.
    + intro Hn. exfalso. apply Hn. reflexivity.
    + apply (mb_cons 64 0 [7] [0; 0] [] []); try discriminate; try reflexivity; try lia; repeat constructor.
    + constructor.
Qed.
