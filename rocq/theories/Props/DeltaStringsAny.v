(** C92: the decoders of delta-encoded strings on arbitrary bytes. *)
From Verif Require Import Base.Prelude Base.LeFacts Base.Iter Spec.Bits Spec.UlebSpec Spec.DeltaAnySpec
  Model.DeltaBitpacked Model.DeltaByteArray Proofs.DeltaDecProofs Proofs.DeltaAnyProofs Proofs.DeltaStringsAnyProofs Props.DeltaAny.
Open Scope N_scope.

(** C92 is false beyond what C91 says: one announced string of 5 bytes, of which 2 are there, and one of -1 bytes: the lengths are
    returned, and asking for the strings panics. Two strings of 2^32 - 1 bytes overflow the sum of the lengths. *)
Theorem delta_strings_panic_refuted : forall m,
  (exists s s', dl_try_new m [128; 1; 1; 1; 10; 7; 7] = Ok s /\ drain_st (dl_next m) 2 s = Ok ([inl 5%Z], s') /\ dl_values s' = Panic) /\
  (exists s s', dl_try_new m [128; 1; 1; 1; 1; 7; 7] = Ok s /\ drain_st (dl_next m) 2 s = Ok ([inl (-1)%Z], s') /\ dl_values s' = Panic) /\
  (exists s, dl_try_new Checked [128; 1; 1; 2; 1; 0; 0] = Ok s /\ drain (dl_next Checked) 2 s = Panic).
Proof. intros []; repeat split; repeat eexists; try (vm_compute; reflexivity). Qed.
Print Assumptions delta_strings_panic_refuted.

(** The exact behaviour of the decoder of DELTA_LENGTH_BYTE_ARRAY on every sequence of bytes. The lengths are the values that
    [delta_decoder_any] describes, truncated to 32 bits; with overflow checks, iterating panics at the first length that takes
    their sum beyond 32 bits. Once all lengths were returned, the bytes of the strings are handed out if they are there,
    and asking for them panics if they are not, or if it is asked before. *)
Theorem delta_length_any : forall m data, bytes_ok data ->
  (m = Wrapping -> forall bs nmb count first rest, header_at data = Some (bs, nmb, count, first, rest) -> bs / nmb < 2 ^ 56) ->
  match stream_at m data with
  | Refused => dl_try_new m data = Err OutOfSpec
  | OpenAborts => dl_try_new m data = Panic
  | Holds values e => exists s, dl_try_new m data = Ok s /\
      let lengths := map (fun v => inl (wrap_s 32 v)) in
      let total := length_sum values mod 2 ^ 32 in
      if sum_usable m values then
        match e with
        | Complete rest => (exists before, data = before ++ rest) /\
            yields (dl_next m) (fun d left => dl_values d =
              if (length left =? 0)%nat && (total <=? nlen rest) then Ok (firstn (N.to_nat total) rest) else Panic) s (lengths values)
        | Failed => exists s1 s2, returns (dl_next m) s (lengths values) s1 /\ dl_next m s1 = Ok (Some (inr OutOfSpec), s2)
        | Aborts => exists s1, returns (dl_next m) s (lengths values) s1 /\ dl_next m s1 = Panic
        end
      else exists k s1, (k < length values)%nat /\ returns (dl_next m) s (lengths (firstn k values)) s1 /\ dl_next m s1 = Panic /\
        length_sum (firstn k values) < 2 ^ 32 /\ 2 ^ 32 <= length_sum (firstn (S k) values)
  end.
Proof.
  intros m data Hok Hsm. pose proof (delta_decoder_any m data Hok Hsm) as H. unfold dl_try_new.
  destruct (stream_at m data) as [| |values e] eqn:Est.
  - rewrite H. reflexivity.
  - rewrite H. reflexivity.
  - assert (Hy : exists s, delta_try_new m data = Ok s /\ (exists s1, returns (delta_next m) s (map inl values) s1)).
    { destruct e as [rest| |].
      - destruct H as (s & E & Hy). exists s. split; [exact E|]. eapply yields_returns. exact Hy.
      - destruct H as (s & s1 & s2 & E & Hr & _). exists s. split; [exact E|]. exists s1. exact Hr.
      - destruct H as (s & s1 & E & Hr & _). exists s. split; [exact E|]. exists s1. exact Hr. }
    destruct Hy as (s & E & Hr). rewrite E. cbn [bind]. exists (mk_dl data s 0). split; [reflexivity|]. cbv zeta.
    destruct (sum_usable m values) eqn:Esum.
    + assert (Hf : fits_sum m 0 values). { unfold fits_sum, sum_usable in *. destruct m; [|exact I]. rewrite N.add_0_l. apply N.ltb_lt. exact Esum. }
      destruct e as [rest| |].
      * pose proof (stream_at_suffix _ _ _ _ Est) as [before Hb]. split; [exists before; exact Hb|].
        destruct H as (s0 & E0 & Hy). assert (s0 = s) by congruence. subst s0.
        eapply yields_weaken; [|eapply (dl_yields m data (length data - length rest)); [|reflexivity|exact Hf|exact Hy]].
        -- cbn beta. intros d left [Hh Hl]. unfold dl_values. rewrite Hh. destruct left as [|i left].
           ++ destruct (Hl eq_refl) as (Hc & Hby & Ht). cbn [length Nat.eqb andb]. rewrite Hc, Hby, Ht, N.add_0_l. change (nlen [] =? 0) with true. cbn [negb].
              rewrite Hb, app_length. replace (length before + length rest - length rest)%nat with (length before) by lia.
              unfold slice_from. rewrite app_length. replace (length before <=? length before + length rest)%nat with true by (symmetry; apply Nat.leb_le; lia).
              rewrite skipn_app, skipn_all, Nat.sub_diag. cbn [skipn app bind]. unfold slice_to, nlen.
              destruct (_ <=? N.of_nat _) eqn:Ele.
              ** replace (N.to_nat _ <=? length rest)%nat with true by (symmetry; apply Nat.leb_le; lia). reflexivity.
              ** replace (N.to_nat _ <=? length rest)%nat with false by (symmetry; apply Nat.leb_gt; lia). reflexivity.
           ++ cbn [length Nat.eqb andb]. replace (nlen (i :: left) =? 0) with false; [reflexivity|]. symmetry. apply N.eqb_neq. unfold nlen. cbn [length]. lia.
        -- intros s1 l [H1 H2]. split; assumption.
      * destruct H as (s0 & s1 & s2 & E0 & Hr1 & Hn). assert (s0 = s) by congruence. subst s0.
        destruct (dl_returns m data values s s1 0 ltac:(reflexivity) Hf Hr1) as [t Ht]. exists (mk_dl data s1 t), (mk_dl data s2 t). split; [exact Ht|].
        unfold dl_next. cbn [dl_lengths]. rewrite Hn. reflexivity.
      * destruct H as (s0 & s1 & E0 & Hr1 & Hn). assert (s0 = s) by congruence. subst s0.
        destruct (dl_returns m data values s s1 0 ltac:(reflexivity) Hf Hr1) as [t Ht]. exists (mk_dl data s1 t). split; [exact Ht|].
        unfold dl_next. cbn [dl_lengths]. rewrite Hn. reflexivity.
    + destruct m; [|discriminate Esum]. destruct Hr as [s1 Hr]. cbn [sum_usable] in Esum. apply N.ltb_ge in Esum.
      destruct (dl_overflow data values s s1 0 ltac:(reflexivity) Esum Hr) as (k & d & Hk & Hr1 & Hp & H1 & H2).
      exists k, d. rewrite N.add_0_l in H1, H2. auto.
Qed.
Print Assumptions delta_length_any.

(** Three strings; with [rest] long enough, one byte short, and lengths whose sum overflows. *)
Example delta_length_any_case :
  let lengths := [128; 1; 16; 3; 4] ++ [0] ++ [1] ++ repeat 0 15 ++ [2] in
  bytes_okb (lengths ++ [1; 2; 3]) = true /\
  stream_at Checked (lengths ++ [1; 2; 3; 4; 5; 6; 7; 8]) = Holds [2; 2; 3]%Z (Complete [1; 2; 3; 4; 5; 6; 7; 8]) /\
  sum_usable Checked [2; 2; 3]%Z = true /\ length_sum [2; 2; 3]%Z = 7 /\
  (let* s := dl_try_new Checked (lengths ++ [1; 2; 3; 4; 5; 6; 7; 8]) in let* (l, s) := drain_st (dl_next Checked) 4 s in let* v := dl_values s in Ok (l, v))
    = Ok (map inl [2; 2; 3]%Z, [1; 2; 3; 4; 5; 6; 7]) /\
  (let* s := dl_try_new Checked (lengths ++ [1; 2; 3; 4; 5; 6]) in let* (l, s) := drain_st (dl_next Checked) 4 s in dl_values s) = Panic /\
  sum_usable Checked [5; -5; 7]%Z = false /\ length_sum (firstn 1 [5; -5; 7])%Z = 5 /\ length_sum (firstn 2 [5; -5; 7])%Z = 2 ^ 32.
Proof. vm_compute. repeat split. Qed.

(** The exact behaviour of the decoder of DELTA_BYTE_ARRAY on every sequence of bytes: the prefix lengths are those of
    [delta_decoder_any], truncated to 32 bits; once all were returned, what follows them is given to the decoder of
    [delta_length_any], and asking for that before panics. *)
Theorem delta_byte_array_any : forall m data, bytes_ok data ->
  (m = Wrapping -> forall bs nmb count first rest, header_at data = Some (bs, nmb, count, first, rest) -> bs / nmb < 2 ^ 56) ->
  match stream_at m data with
  | Refused => db_try_new m data = Err OutOfSpec
  | OpenAborts => db_try_new m data = Panic
  | Holds values e => exists s, db_try_new m data = Ok s /\
      let prefixes := map (fun v => inl (of_signed 32 v)) values in
      match e with
      | Complete rest => (exists before, data = before ++ rest) /\
          yields (db_next m) (fun d left => db_into_lengths m d = if (length left =? 0)%nat then dl_try_new m rest else Panic) s prefixes
      | Failed => exists s1 s2, returns (db_next m) s prefixes s1 /\ db_next m s1 = Ok (Some (inr OutOfSpec), s2)
      | Aborts => exists s1, returns (db_next m) s prefixes s1 /\ db_next m s1 = Panic
      end
  end.
Proof.
  intros m data Hok Hsm. pose proof (delta_decoder_any m data Hok Hsm) as H. unfold db_try_new.
  destruct (stream_at m data) as [| |values [rest| |]] eqn:Est.
  - rewrite H. reflexivity.
  - rewrite H. reflexivity.
  - destruct H as (s & E & Hy). rewrite E. cbn [bind]. exists (mk_db data s). split; [reflexivity|]. cbv zeta.
    pose proof (stream_at_suffix _ _ _ _ Est) as [before Hb]. split; [exists before; exact Hb|].
    eapply yields_weaken; [|eapply (db_yields m data (length data - length rest)); [|exact Hy]].
    + cbn beta. intros d left [Hh Hl]. unfold db_into_lengths. rewrite Hh. destruct left as [|i left].
      * destruct (Hl eq_refl) as (Hc & Hby). cbn [length Nat.eqb]. rewrite Hc, Hby. change (nlen [] =? 0) with true. cbn [negb].
        rewrite Hb, app_length. replace (length before + length rest - length rest)%nat with (length before) by lia.
        unfold slice_from. rewrite app_length. replace (length before <=? length before + length rest)%nat with true by (symmetry; apply Nat.leb_le; lia).
        rewrite skipn_app, skipn_all, Nat.sub_diag. reflexivity.
      * cbn [length Nat.eqb]. replace (nlen (i :: left) =? 0) with false; [reflexivity|]. symmetry. apply N.eqb_neq. unfold nlen. cbn [length]. lia.
    + intros s1 l [H1 H2]. split; assumption.
  - destruct H as (s & s1 & s2 & E & Hr & Hn). rewrite E. cbn [bind]. exists (mk_db data s). split; [reflexivity|]. exists (mk_db data s1), (mk_db data s2).
    split; [apply db_returns; exact Hr|]. unfold db_next. cbn [db_lengths]. rewrite Hn. reflexivity.
  - destruct H as (s & s1 & E & Hr & Hn). rewrite E. cbn [bind]. exists (mk_db data s). split; [reflexivity|]. exists (mk_db data s1).
    split; [apply db_returns; exact Hr|]. unfold db_next. cbn [db_lengths]. rewrite Hn. reflexivity.
Qed.
Print Assumptions delta_byte_array_any.

(** Prefixes 0 and 1, suffixes "ab" and "c"; a stream that ends after the prefixes panics when asked for the lengths. *)
Example delta_byte_array_any_case :
  let prefixes := [128; 1; 16; 2; 0] ++ [2] ++ repeat 0 16 in
  let suffixes := [128; 1; 16; 2; 4] ++ [1] ++ repeat 0 16 ++ [97; 98; 99] in
  bytes_okb (prefixes ++ suffixes) = true /\
  stream_at Checked (prefixes ++ suffixes) = Holds [0; 1]%Z (Complete suffixes) /\
  stream_at Checked suffixes = Holds [2; 1]%Z (Complete [97; 98; 99]) /\
  (let* s := db_try_new Checked (prefixes ++ suffixes) in let* (l, s) := drain_st (db_next Checked) 3 s in let* d := db_into_lengths Checked s in
   let* (l2, d) := drain_st (dl_next Checked) 3 d in let* v := dl_values d in Ok (l, l2, v)) = Ok ([inl 0; inl 1], map inl [2; 1]%Z, [97; 98; 99]) /\
  (let* s := db_try_new Checked prefixes in let* (l, s) := drain_st (db_next Checked) 3 s in db_into_lengths Checked s) = Panic.
Proof. vm_compute. repeat split. Qed.
