(** C15, C16, C17: DELTA_LENGTH_BYTE_ARRAY and DELTA_BYTE_ARRAY. *)
From Verif Require Import Base.Prelude Base.Iter Spec.StringsSpec Model.DeltaBitpacked Model.DeltaByteArray
  Proofs.DeltaStringProofs.
Open Scope N_scope.

(** C15. In both overflow modes encoding succeeds, the lengths come back in order, and once they are
    consumed the values area is the concatenation of the strings, whatever bytes follow. *)
Theorem delta_length_roundtrip : forall m strings,
  nlen strings < 2 ^ 64 -> nlen (concat strings) < 2 ^ 31 -> Forall bytes_ok strings ->
  exists data, dl_encode m strings = Ok data /\ bytes_ok data /\
    (nlen data < 2 ^ 61 -> forall trail, bytes_ok trail ->
       exists s, dl_try_new m (data ++ trail) = Ok s /\
         yields (dl_next m) (fun s' left => left = [] ->
             exists area, dl_values s' = Ok area /\ area = concat strings /\
               cut (map (@length N) strings) area = strings)
           s (map (fun x => inl (Z.of_nat (length x))) strings)).
Proof.
  intros m strings Hn Ht Hok. destruct (dl_encode_ok m strings Hn Ht Hok) as (data & E & Hb).
  exists data. split; [assumption|]. split; [assumption|]. intros Hs trail Htr.
  destruct (dl_roundtrip_gen m strings data Hn Ht E Hs Hok trail Htr) as (s & Es & Hy).
  exists s. split; [assumption|]. unfold zlens in Hy. rewrite map_map in Hy.
  eapply yields_weaken; [|exact Hy]. cbn beta. intros st left [_ H] Hl. exists (concat strings).
  split; [apply H; assumption|]. split; [reflexivity|]. apply cut_concat.
Qed.
Print Assumptions delta_length_roundtrip.

Example delta_length_roundtrip_case :
  (let* data := dl_encode Checked [[72;101]; []; [108;108;111]] in
   let* s := dl_try_new Checked (data ++ [1;2]) in
   let* (l, s') := drain_st (dl_next Checked) 9 s in
   let* v := dl_values s' in Ok (l, v)) =
  Ok ([inl 2%Z; inl 0%Z; inl 3%Z], [72;101;108;108;111]).
Proof. vm_compute. reflexivity. Qed.

(** C16. When no string is a strict prefix of its predecessor, encoding succeeds in both overflow modes
    and decoding (prefix lengths, then [into_lengths], then suffix lengths, then the values area) yields
    prefixes and suffixes from which the strings are rebuilt. *)
Theorem delta_byte_array_roundtrip : forall m strings,
  nlen strings < 2 ^ 64 -> nlen (concat strings) < 2 ^ 31 -> Forall bytes_ok strings ->
  ~ has_strict_prefix strings ->
  exists data, db_encode m strings = Ok data /\ bytes_ok data /\
    (nlen data < 2 ^ 61 -> forall trail, bytes_ok trail ->
       exists prefixes suffixes, rebuild [] prefixes suffixes = strings /\
         length prefixes = length strings /\ length suffixes = length strings /\
         exists s1, db_try_new m (data ++ trail) = Ok s1 /\
           yields (db_next m)
             (fun s1' left1 => left1 = [] ->
                exists s2, db_into_lengths m s1' = Ok s2 /\
                  yields (dl_next m) (fun s2' left2 => left2 = [] -> dl_values s2' = Ok (concat suffixes))
                    s2 (map (fun x => inl (Z.of_nat (length x))) suffixes))
             s1 (map (fun p => inl (N.of_nat p)) prefixes)).
Proof.
  intros m strings Hn Ht Hok Hs. destruct (proj2 (db_encode_iff m strings Hn Ht Hok) Hs) as (data & E & Hb).
  exists data. split; [assumption|]. split; [assumption|]. intros Hsz trail Htr.
  exact (db_roundtrip_gen m strings data Hn Ht Hok E Hsz trail Htr).
Qed.
Print Assumptions delta_byte_array_roundtrip.

Example delta_byte_array_roundtrip_case :
  (let* data := db_encode Checked [[72;101;108]; [72;101;108;1]; [72;2]; [72;2]] in
   let* s := db_try_new Checked (data ++ [1;2]) in
   let* (ps, s') := drain_st (db_next Checked) 9 s in
   let* s2 := db_into_lengths Checked s' in
   let* (ls, s2') := drain_st (dl_next Checked) 9 s2 in
   let* v := dl_values s2' in Ok (ps, ls, v)) =
  Ok ([inl 0; inl 3; inl 1; inl 2], [inl 3%Z; inl 1%Z; inl 1%Z; inl 0%Z], [72;101;108;1;2]) /\
  rebuild [] [0;3;1;2]%nat [[72;101;108];[1];[2];[]] = [[72;101;108]; [72;101;108;1]; [72;2]; [72;2]].
Proof. vm_compute. split; reflexivity. Qed.

(** C17 is false: "Hello" followed by "Hel" panics, with or without overflow checks. *)
Theorem delta_byte_array_panics_refuted :
  exists strings, Forall bytes_ok strings /\ length strings = 2%nat /\
    forall m, db_encode m strings = Panic.
Proof.
  exists [[72;101;108;108;111]; [72;101;108]]. split; [|split; [reflexivity|]].
  - repeat constructor.
  - intros []; vm_compute; reflexivity.
Qed.
Print Assumptions delta_byte_array_panics_refuted.

(** C17, the exact condition: it panics if and only if some string is a strict prefix of the one before
    it; otherwise it succeeds. *)
Theorem delta_byte_array_panics_iff : forall m strings,
  nlen strings < 2 ^ 64 -> nlen (concat strings) < 2 ^ 31 -> Forall bytes_ok strings ->
  (db_encode m strings = Panic <-> has_strict_prefix strings) /\
  (~ has_strict_prefix strings -> exists data, db_encode m strings = Ok data /\ bytes_ok data).
Proof. exact db_encode_iff. Qed.
Print Assumptions delta_byte_array_panics_iff.

Example delta_byte_array_panics_iff_case :
  has_strict_prefix [[1]; [2;3]; [2]; [2;7]] /\ db_encode Wrapping [[1]; [2;3]; [2]; [2;7]] = Panic.
Proof.
  split; [|vm_compute; reflexivity]. exists [[1]], [2;3], [2], [[2;7]]. split; [reflexivity|].
  exists [3]. split; [discriminate|reflexivity].
Qed.
