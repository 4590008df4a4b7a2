(** C86, C87: what the encoders write conforms to the Parquet format (Spec/DeltaSpec.v, Spec/StreamsSpec.v,
    Spec/RleSpec.v), and every conforming stream of strings is decoded. *)
From Verif Require Import Base.Prelude Base.Iter Spec.Bits Spec.UlebSpec Spec.RleSpec Spec.DeltaSpec Spec.StringsSpec
  Spec.StreamsSpec Model.HybridRle Model.DeltaBitpacked Model.DeltaByteArray Proofs.UlebProofs Proofs.DeltaDecProofs Proofs.DeltaEncProofs
  Proofs.DeltaStringProofs Proofs.StreamsProofs Proofs.HybridRleProofs.
Open Scope N_scope.

(** C86. What encoding integers returns is a DELTA_BINARY_PACKED stream of them. (Without overflow checks encoding
    always returns; with them see delta_encode_checked_iff.) *)
Theorem encoded_integers_conform : forall m items data,
  Forall (fun v => - 2 ^ 63 <= v < 2 ^ 63)%Z items -> nlen items < 2 ^ 64 -> delta_encode m items = Ok data ->
  number_stream m items data.
Proof. exact encoded_number_stream. Qed.
Print Assumptions encoded_integers_conform.

Example encoded_integers_conform_case :
  delta_encode Checked [5; -3; 7]%Z = Ok ([128;1;1;3;10] ++ [15] ++ [5] ++ [64;2] ++ repeat 0 78) /\
  number_stream Checked [5; -3; 7]%Z ([128;1;1;3;10] ++ [15] ++ [5] ++ [64;2] ++ repeat 0 78).
Proof.
  assert (E : delta_encode Checked [5; -3; 7]%Z = Ok ([128;1;1;3;10] ++ [15] ++ [5] ++ [64;2] ++ repeat 0 78)) by (vm_compute; reflexivity).
  split; [exact E|]. apply encoded_integers_conform; [repeat (apply Forall_cons; [lia|]); constructor|reflexivity|exact E].
Qed.

(** C86. Strings: a DELTA_LENGTH_BYTE_ARRAY stream of them. *)
Theorem encoded_strings_conform : forall m strings,
  nlen strings < 2 ^ 64 -> nlen (concat strings) < 2 ^ 31 -> Forall bytes_ok strings ->
  exists data, dl_encode m strings = Ok data /\ length_stream m strings data.
Proof.
  intros m strings Hn Ht Hok. destruct (dl_encode_ok m strings Hn Ht Hok) as (data & E & _).
  exists data. split; [assumption|]. apply encoded_length_stream; assumption.
Qed.
Print Assumptions encoded_strings_conform.

Example encoded_strings_conform_case :
  Forall bytes_ok [[72;101]; []; [108;108;111]] /\
  dl_encode Wrapping [[72;101]; []; [108;108;111]] =
    Ok ([128;1;1;3;4;3;3] ++ [40] ++ repeat 0 47 ++ [72;101;108;108;111]).
Proof. split; [repeat constructor|vm_compute; reflexivity]. Qed.

(** C86. Incrementally encoded strings: when encoding returns, a DELTA_BYTE_ARRAY stream of prefixes and suffixes that
    rebuild the strings. *)
Theorem encoded_incremental_conform : forall m strings data,
  nlen strings < 2 ^ 64 -> nlen (concat strings) < 2 ^ 31 -> Forall bytes_ok strings ->
  db_encode m strings = Ok data ->
  exists prefixes suffixes, prefix_stream m prefixes suffixes data /\ rebuild [] prefixes suffixes = strings /\
    length prefixes = length strings /\ length suffixes = length strings.
Proof. exact encoded_prefix_stream. Qed.
Print Assumptions encoded_incremental_conform.

Example encoded_incremental_conform_case :
  is_ok (db_encode Checked [[72;101;108]; [72;101;108;1]; [72;2]; [72;2]]) = true.
Proof. vm_compute. reflexivity. Qed.

(** C86. Booleans: one bit-packed run of them, padded to a whole byte. *)
Theorem encoded_booleans_conform : forall l, nlen l < 2 ^ 61 ->
  exists out pad, encode_bool l = Ok out /\ conforming 1 [PackedRun (map N.b2n (l ++ pad))] out /\ (length pad < 8)%nat.
Proof. exact encode_bool_conforms. Qed.
Print Assumptions encoded_booleans_conform.

Example encoded_booleans_conform_case : encode_bool [true; false; true] = Ok [3; 5].
Proof. vm_compute. reflexivity. Qed.

(** C86 is false of the encoder of numbers: three numbers of three bits are announced as a group of eight, which takes
    three bytes, but only two are written. *)
Theorem encoded_numbers_conform_refuted :
  exists l, Forall (fits 3) l /\ exists out, encode_u32 l 3 = Ok out /\ ~ exists runs, conforming 3 runs out.
Proof.
  exists [1; 2; 3]. split; [repeat constructor|].
  assert (Hf : Forall (fits 3) [1; 2; 3]) by repeat constructor.
  destruct (encode_u32_conforms 3 [1; 2; 3] ltac:(lia) Hf eq_refl) as (out & E & [H _] & _).
  exists out. split; [exact E|]. intro Hr. apply H in Hr. cbn in Hr. lia.
Qed.
Print Assumptions encoded_numbers_conform_refuted.

(** C86, the exact condition: what is written for [l] at width [w] conforms if and only if the numbers fill whole groups
    of eight, or the bits missing from the last group are fewer than eight. It is then one bit-packed run of the numbers,
    padded to whole groups. *)
Theorem encoded_numbers_conform_iff : forall w l, (0 < w <= 32)%nat -> Forall (fits w) l -> nlen l < 2 ^ 56 ->
  exists out, encode_u32 l (N.of_nat w) = Ok out /\
    ((exists runs, conforming w runs out) <-> (length l mod 8 = 0 \/ (8 - length l mod 8) * w < 8)%nat) /\
    ((length l mod 8 = 0 \/ (8 - length l mod 8) * w < 8)%nat ->
       exists pad, conforming w [PackedRun (l ++ pad)] out /\ (length pad < 8)%nat).
Proof. exact encode_u32_conforms. Qed.
Print Assumptions encoded_numbers_conform_iff.

(** Six numbers of three bits: the two missing ones take six bits, so the three bytes are all there. *)
Example encoded_numbers_conform_iff_case :
  encode_u32 [1; 2; 3; 4; 5; 6] 3 = Ok [3; 209; 88; 3] /\ (6 mod 8 = 0 \/ (8 - 6 mod 8) * 3 < 8)%nat /\
  encode_u32 [1; 2; 3] 3 = Ok [3; 209; 0].
Proof. split; [vm_compute; reflexivity|]. split; [right; cbn; lia|vm_compute; reflexivity]. Qed.

(** C87. Every DELTA_LENGTH_BYTE_ARRAY stream, whoever wrote it and whatever bytes follow it, decodes to its strings. *)
Theorem delta_length_decodes_conforming : forall m strings data, length_stream m strings data ->
  nlen (concat strings) < 2 ^ 31 -> nlen data < 2 ^ 61 -> Forall bytes_ok strings -> forall trail, bytes_ok trail ->
  exists s, dl_try_new m (data ++ trail) = Ok s /\
    yields (dl_next m) (fun s' left => left = [] ->
        exists area, dl_values s' = Ok area /\ cut (map (@length N) strings) area = strings)
      s (map (fun x => inl (Z.of_nat (length x))) strings).
Proof.
  intros m strings data H Ht Hsz Hok trail Htr.
  destruct (length_stream_decodes m strings data H Ht Hsz Hok trail Htr) as (s & Es & Hy).
  exists s. split; [assumption|]. unfold zlens in Hy. rewrite map_map in Hy.
  eapply yields_weaken; [|exact Hy]. cbn beta. intros st left [_ Hv] Hl. exists (concat strings).
  split; [apply Hv; assumption|apply cut_concat].
Qed.
Print Assumptions delta_length_decodes_conforming.

Lemma small_varint b : b < 128 -> varint b [b].
Proof.
  intro Hb. split; [eapply N.lt_trans; [exact Hb|reflexivity]|]. split; [cbn; lia|].
  split; [cbn [base128]; rewrite N.mod_small by assumption; lia|]. exists [], b.
  split; [reflexivity|]. split; [constructor|assumption].
Qed.

(** Two numbers with a zero-width miniblock, in a layout this crate does not write: two miniblocks of 64. *)
Lemma small_zigzag z : (- 64 < z < 64)%Z -> zigzag_varint z [zigzag_code z].
Proof.
  intro H. split; [lia|]. apply small_varint. unfold zigzag_code. destruct (0 <=? z)%Z; lia.
Qed.

Lemma two_numbers a d : (- 64 < a < 64)%Z -> (- 64 < d < 64)%Z ->
  number_stream Checked [a; (a + d)%Z] ([128;1; 2; 2; zigzag_code a] ++ [zigzag_code d] ++ [0; 7]).
Proof.
  intros Ha Hd. exists 2%nat, 64%nat, a, [(d, [0])]. split; [|split].
  - apply (ds_intro 2 64 2 a _ 128 [128;1] [2] [2] [zigzag_code a] ([zigzag_code d] ++ [0;7] ++ [] ++ []));
      try reflexivity; try lia.
    + split; [reflexivity|]. split; [cbn; lia|]. split; [reflexivity|]. exists [128], 1.
      split; [reflexivity|]. split; [repeat constructor; lia|reflexivity].
    + apply small_varint; reflexivity.
    + apply small_varint; reflexivity.
    + apply small_zigzag; assumption.
    + apply bs_cons; try reflexivity; try discriminate; try (cbn; lia); try congruence.
      * apply small_zigzag; assumption.
      * repeat constructor.
      * intro Hn. exfalso. apply Hn. reflexivity.
      * apply (mb_cons 64 0 [7] [0] [] []); try discriminate; try reflexivity; try lia.
        -- repeat constructor.
        -- constructor.
        -- constructor.
      * constructor.
  - cbn [length stream_values stream_deltas flat_map block_deltas map fst snd app running].
    change (to_signed 64 0) with 0%Z. rewrite Z.add_0_r.
    rewrite (wrap_id d) by lia. rewrite (wrap_id (a + d)) by lia. reflexivity.
  - right. split.
    + repeat constructor. cbn [fst]. change (to_signed 64 0) with 0%Z. apply in_s_iff. lia.
    + cbn [stream_deltas flat_map block_deltas map fst snd app running_in_range].
      change (to_signed 64 0) with 0%Z. rewrite Z.add_0_r. rewrite (wrap_id d) by lia.
      split; [apply in_s_iff; lia|exact I].
Qed.

Example delta_length_decodes_conforming_case :
  let data := ([128;1; 2; 2; 2] ++ [4] ++ [0; 7]) ++ [65; 66; 67; 68] in
  length_stream Checked [[65]; [66; 67; 68]] data /\
  (let* s := dl_try_new Checked (data ++ [1;2]) in
   let* (l, s') := drain_st (dl_next Checked) 9 s in
   let* v := dl_values s' in Ok (l, v)) = Ok ([inl 1%Z; inl 3%Z], [65; 66; 67; 68]).
Proof.
  cbv zeta. split; [|vm_compute; reflexivity]. exists ([128;1; 2; 2; 2] ++ [4] ++ [0; 7]). split; [|reflexivity].
  exact (two_numbers 1 2 ltac:(lia) ltac:(lia)).
Qed.

(** C87. Every DELTA_BYTE_ARRAY stream, also of strings that the encoder of this crate panics on, decodes to its prefix
    lengths and suffixes. *)
Theorem delta_byte_array_decodes_conforming : forall m prefixes suffixes data, prefix_stream m prefixes suffixes data ->
  Forall (fun p => N.of_nat p < 2 ^ 31) prefixes -> nlen (concat suffixes) < 2 ^ 31 -> nlen data < 2 ^ 61 ->
  Forall bytes_ok suffixes -> forall trail, bytes_ok trail ->
  exists s1, db_try_new m (data ++ trail) = Ok s1 /\
    yields (db_next m)
      (fun s1' left1 => left1 = [] ->
         exists s2, db_into_lengths m s1' = Ok s2 /\
           yields (dl_next m) (fun s2' left2 => left2 = [] -> dl_values s2' = Ok (concat suffixes))
             s2 (map (fun x => inl (Z.of_nat (length x))) suffixes))
      s1 (map (fun p => inl (N.of_nat p)) prefixes).
Proof. exact prefix_stream_decodes. Qed.
Print Assumptions delta_byte_array_decodes_conforming.

(** "AB", then one byte of it followed by nothing: the encoder of this crate panics on these strings. *)
Example delta_byte_array_decodes_conforming_case :
  let data := ([128;1; 2; 2; 0] ++ [2] ++ [0; 7]) ++ ([128;1; 2; 2; 4] ++ [3] ++ [0; 7]) ++ [65; 66] in
  prefix_stream Checked [0; 1]%nat [[65; 66]; []] data /\ rebuild [] [0; 1]%nat [[65; 66]; []] = [[65; 66]; [65]] /\
  db_encode Checked [[65; 66]; [65]] = Panic /\
  (let* s := db_try_new Checked (data ++ [1;2]) in
   let* (ps, s') := drain_st (db_next Checked) 9 s in
   let* s2 := db_into_lengths Checked s' in
   let* (ls, s2') := drain_st (dl_next Checked) 9 s2 in
   let* v := dl_values s2' in Ok (ps, ls, v)) = Ok ([inl 0; inl 1], [inl 2%Z; inl 0%Z], [65; 66]).
Proof.
  cbv zeta. split; [|split; [reflexivity|split; vm_compute; reflexivity]].
  exists ([128;1; 2; 2; 0] ++ [2] ++ [0; 7]), (([128;1; 2; 2; 4] ++ [3] ++ [0; 7]) ++ [65; 66]).
  split; [exact (two_numbers 0 1 ltac:(lia) ltac:(lia))|]. split; [|reflexivity].
  exists ([128;1; 2; 2; 4] ++ [3] ++ [0; 7]). split; [|reflexivity]. exact (two_numbers 2 (-2) ltac:(lia) ltac:(lia)).
Qed.
