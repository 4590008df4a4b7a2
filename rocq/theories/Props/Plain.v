(** C18-C21, C33, C67: PLAIN values, native values, byte-string comparison, level widths. *)
From Verif Require Import Base.Prelude Base.LeFacts Base.Iter Spec.PlainSpec Spec.StringsSpec
  Model.Types Model.Native Model.Plain Proofs.PlainProofs.
Open Scope N_scope.

(** C18. *)
Theorem plain_byte_array_roundtrip : forall l,
  Forall (fun s => nlen s < 2 ^ 32) l ->
  yields bi_next (fun s rest => bi_size_hint s = (nlen rest, Some (nlen rest)))
    (mk_bi (plain_strings l) (Some (nlen l))) (map inl l) /\
  yields bi_next (fun s _ => bi_size_hint s = (0, None)) (mk_bi (plain_strings l) None) (map inl l).
Proof. intros l H. split; [apply bi_roundtrip|apply bi_roundtrip_none]; exact H. Qed.
Print Assumptions plain_byte_array_roundtrip.

(** [yields] excludes panics; [plain_pieces] (Spec/PlainSpec.v) says which piece each item is. *)
Theorem plain_byte_array_any : forall values length_,
  bytes_ok values ->
  exists items, yields bi_next (fun _ _ => True) (mk_bi values length_) items /\
    plain_pieces values items /\ (4 * length items <= length values)%nat.
Proof. intros values n H. exact (bi_any (length values) values n (le_n _) H). Qed.
Print Assumptions plain_byte_array_any.

Example plain_byte_array_case :
  drain bi_next 9 (mk_bi (plain_strings [[97; 98]; []; [99]]) (Some 3)) = Ok [inl [97; 98]; inl []; inl [99]] /\
  drain bi_next 9 (mk_bi [1; 0; 0; 0; 7; 9; 0; 0; 0; 1; 0; 0] None) = Ok [inl [7]; inr OutOfSpec].
Proof. vm_compute. split; reflexivity. Qed.

(** C19. *)
Theorem native_roundtrip : forall t v,
  native_ok t v -> native_decode t (native_to_le t v) = Ok v.
Proof.
  intros t v H. unfold native_decode. rewrite native_to_le_length, Nat.eqb_refl, native_from_to by exact H.
  reflexivity.
Qed.
Print Assumptions native_roundtrip.

(** Little-endian: the bytes are those of the value's bit pattern (two's complement for integers, the words
    of the array one after the other for 96-bit values). *)
Definition bit_pattern (t : native) : carrier t -> N :=
  match t with
  | NI32 => fun z => Z.to_N (z mod 2 ^ 32)
  | NI64 => fun z => Z.to_N (z mod 2 ^ 64)
  | NF32 => fun b => b
  | NF64 => fun b => b
  | NI96 => fun v => let '(a, b, c) := v in a + 2 ^ 32 * b + 2 ^ 64 * c
  end.
Theorem native_little_endian : forall t v,
  native_ok t v ->
  length (native_to_le t v) = native_size t /\ bytes_ok (native_to_le t v) /\
  le (native_to_le t v) = bit_pattern t v.
Proof.
  intros t v H. split; [apply native_to_le_length|]. split; [apply native_to_le_ok|].
  destruct t; cbn [native_to_le bit_pattern native_ok carrier] in *.
  - apply le_to_le_small. unfold of_signed. change (8 * N.of_nat 4) with 32.
    change (2 ^ Z.of_N 32)%Z with 4294967296%Z. pose proof (Z.mod_pos_bound v 4294967296 eq_refl).
    change (2 ^ 32) with 4294967296. lia.
  - apply le_to_le_small. unfold of_signed. change (8 * N.of_nat 8) with 64.
    change (2 ^ Z.of_N 64)%Z with 18446744073709551616%Z.
    pose proof (Z.mod_pos_bound v 18446744073709551616 eq_refl).
    change (2 ^ 64) with 18446744073709551616. lia.
  - apply le_to_le_small. exact H.
  - apply le_to_le_small. exact H.
  - destruct v as [[a b] c]. destruct H as (Ha & Hb & Hc). rewrite !le_app, !le_to_le_small by assumption.
    unfold nlen. rewrite !to_le_length. change (2 ^ (8 * N.of_nat 4)) with (2 ^ 32).
    change (2 ^ 64) with (2 ^ 32 * 2 ^ 32). lia.
Qed.
Print Assumptions native_little_endian.

(** Decoding any bytes of the right length gives the value whose encoding they are; any other length panics. *)
Theorem native_decode_exact : forall t chunk,
  bytes_ok chunk ->
  (native_decode t chunk = Panic <-> length chunk <> native_size t) /\
  (length chunk = native_size t -> exists v, native_decode t chunk = Ok v /\ native_ok t v /\ native_to_le t v = chunk).
Proof.
  intros t chunk Hok. unfold native_decode. split.
  - destruct (Nat.eqb_spec (length chunk) (native_size t)); split; intros; try discriminate; try contradiction;
      try reflexivity; assumption.
  - intro H. rewrite H, Nat.eqb_refl. eexists. split; [reflexivity|]. now apply native_to_from.
Qed.
Print Assumptions native_decode_exact.

Example native_case :
  native_ok NI32 (-2)%Z /\ native_to_le NI32 (-2)%Z = [254; 255; 255; 255] /\
  native_decode NF32 [1; 0; 192; 127] = Ok 2143289345 /\   (* a NaN with a payload *)
  native_decode NI96 [1; 0; 0; 0; 2; 0; 0; 0; 3; 0; 0; 255] = Ok (1, 2, 4278190083) /\
  native_decode NI64 [1; 2; 3; 4] = Panic.
Proof. cbn. repeat split; try reflexivity; lia. Qed.

(** C20. *)
Theorem native_page_opens_iff : forall t values,
  ((exists s, cast_new t values = Ok s) <-> (exists k, length values = (k * native_size t)%nat)) /\
  (cast_new t values = Err OutOfSpec <-> ~ exists k, length values = (k * native_size t)%nat).
Proof.
  intros t values. pose proof (native_size_pos t) as Hp. unfold cast_new.
  destruct (Nat.eqb_spec (length values mod native_size t) 0) as [E|E]; cbn [negb].
  - assert (Hk : exists k, length values = (k * native_size t)%nat).
    { exists (length values / native_size t)%nat. rewrite Nat.mul_comm. apply Nat.div_exact; lia. }
    unfold ce_new. destruct (Nat.eqb_spec (native_size t) 0); [lia|].
    split; split; intros; try assumption; try discriminate; try contradiction. eexists; reflexivity.
  - assert (Hk : ~ exists k, length values = (k * native_size t)%nat).
    { intros [k Ek]. apply E. rewrite Ek. apply Nat.mod_mul. lia. }
    split; split; intros; try assumption; try contradiction; try reflexivity. now destruct H.
Qed.
Print Assumptions native_page_opens_iff.

Theorem native_page_values : forall t values s,
  bytes_ok values -> cast_new t values = Ok s ->
  exists vs, yields (cast_next t) (fun s items => ce_size_hint s = length items) s vs /\
    Forall (native_ok t) vs /\ concat (map (native_to_le t) vs) = values.
Proof.
  intros t values s Hok H. pose proof (native_size_pos t) as Hp. unfold cast_new, ce_new in H.
  destruct (Nat.eqb_spec (length values mod native_size t) 0) as [E|E]; cbn [negb] in H; [|discriminate].
  destruct (Nat.eqb_spec (native_size t) 0); [lia|]. injection H as <-.
  destruct (split_chunks (native_size t) values Hp) as (cs & rest & Ev & Hc & Hr).
  assert (rest = []).
  { rewrite Ev, app_length, (concat_length_eq (native_size t)) in E by exact Hc.
    rewrite Nat.add_comm, Nat.mod_add, Nat.mod_small in E by lia. now destruct rest. }
  subst rest. rewrite app_nil_r in Ev. subst values. exists (map (native_from_le t) cs).
  split; [now apply cast_yields|].
  assert (Hcs : Forall (fun c => bytes_ok c /\ length c = native_size t) cs).
  { clear E n. induction cs as [|c cs IH]; [constructor|]. cbn [concat] in Hok. apply bytes_ok_app in Hok as [H1 H2].
    inversion Hc; subst. constructor; auto. }
  split.
  - apply Forall_map. eapply Forall_impl; [|exact Hcs]. intros c [H1 H2]. now apply native_to_from.
  - rewrite map_map. f_equal. rewrite <- (map_id cs) at 2. apply map_ext_in. intros c Hin.
    rewrite Forall_forall in Hcs. destruct (Hcs c Hin). now apply native_to_from.
Qed.
Print Assumptions native_page_values.

Theorem native_page_roundtrip : forall t vs,
  Forall (native_ok t) vs ->
  exists s, cast_new t (concat (map (native_to_le t) vs)) = Ok s /\
    yields (cast_next t) (fun s items => ce_size_hint s = length items) s vs.
Proof.
  intros t vs Hvs.
  assert (Hc : Forall (fun c => length c = native_size t) (map (native_to_le t) vs)).
  { apply Forall_map. apply Forall_forall. intros v _. apply native_to_le_length. }
  pose proof (native_size_pos t) as Hp. eexists. split.
  - unfold cast_new, ce_new. rewrite (concat_length_eq (native_size t)) by exact Hc.
    rewrite Nat.mod_mul by lia. cbn [negb Nat.eqb]. destruct (Nat.eqb_spec (native_size t) 0); [lia|]. reflexivity.
  - pose proof (cast_yields t _ Hc) as Hy. rewrite map_map in Hy.
    assert (E : map (fun x => native_from_le t (native_to_le t x)) vs = vs); [|rewrite E in Hy; exact Hy].
    rewrite <- (map_id vs) at 2. apply map_ext_in. intros v Hin. apply native_from_to.
    rewrite Forall_forall in Hvs. auto.
Qed.
Print Assumptions native_page_roundtrip.

Example native_page_case :
  (let* s := cast_new NI32 [1; 0; 0; 0; 255; 255; 255; 255] in drain (cast_next NI32) 9 s) = Ok [1; -1]%Z /\
  cast_new NI64 [1; 0; 0; 0; 255] = Err OutOfSpec.
Proof. vm_compute. split; reflexivity. Qed.

(** C21. False: a values area that is not a multiple of the item size is accepted and its tail dropped. *)
Theorem fixed_len_tail_refuted : exists values size,
  (0 < size) /\ N.of_nat (length values) mod size <> 0 /\
  exists s, fl_new values size = Ok s /\ drain fl_next 9 s = Ok [[1; 2]].
Proof.
  exists [1; 2; 3], 2. split; [reflexivity|]. split; [vm_compute; discriminate|].
  eexists. split; vm_compute; reflexivity.
Qed.
Print Assumptions fixed_len_tail_refuted.

(** What holds: the consecutive items, in order, up to a tail shorter than one item; size zero panics. *)
Theorem fixed_len_items : forall values size,
  (0 < size) ->
  exists s items tail, fl_new values size = Ok s /\
    yields fl_next (fun s items => ce_size_hint s = length items) s items /\
    values = concat items ++ tail /\ Forall (fun i => nlen i = size) items /\ nlen tail < size.
Proof.
  intros values size Hs. unfold fl_new, ce_new, fl_next.
  destruct (split_chunks (N.to_nat size) values) as (cs & rest & Ev & Hc & Hr); [lia|].
  destruct (Nat.eqb_spec (N.to_nat size) 0); [lia|].
  exists (values, N.to_nat size), cs, rest. split; [reflexivity|]. split; [|split; [exact Ev|split]].
  - rewrite Ev. apply ce_yields; [lia|exact Hc|exact Hr].
  - eapply Forall_impl; [|exact Hc]. intros c E. unfold nlen. cbn in E. lia.
  - unfold nlen. lia.
Qed.
Print Assumptions fixed_len_items.

Theorem fixed_len_zero_panics : forall values, fl_new values 0 = Panic.
Proof. reflexivity. Qed.
Print Assumptions fixed_len_zero_panics.

Example fixed_len_case :
  (let* s := fl_new [1; 2; 3; 4; 5; 6] 3 in drain fl_next 9 s) = Ok [[1; 2; 3]; [4; 5; 6]].
Proof. vm_compute. reflexivity. Qed.

(** C33. False: a non-empty string and an extension of it compare equal. *)
Theorem ord_binary_refuted : exists a b, a <> b /\ ord_binary a b = Eq /\ lex_lt a b.
Proof. exists [1], [1; 2]. split; [discriminate|]. split; [reflexivity|]. apply lex_tail, lex_nil. Qed.
Print Assumptions ord_binary_refuted.

(** The exact meaning of each answer, against the unsigned lexicographic order. *)
Theorem ord_binary_exact : forall a b,
  (ord_binary a b = Lt <-> lex_lt a b /\ ~ (a <> [] /\ strict_prefix a b)) /\
  (ord_binary a b = Gt <-> lex_lt b a /\ ~ (b <> [] /\ strict_prefix b a)) /\
  (ord_binary a b = Eq <-> a = b \/ (a <> [] /\ strict_prefix a b) \/ (b <> [] /\ strict_prefix b a)).
Proof.
  assert (L : forall a b, ord_binary a b = Lt <-> lex_lt a b /\ ~ (a <> [] /\ strict_prefix a b)).
  { intros a b. rewrite ord_binary_lt. split; intros [H1 H2]; split; try exact H1; intros [Ha H].
    - apply H2. split; [exact Ha|]. destruct H as (c & _ & E). exists c. exact E.
    - apply H2. split; [exact Ha|]. destruct H as [r E]. exists r. split; [|exact E]. intros ->.
      rewrite app_nil_r in E. subst b. now apply lex_lt_irrefl in H1. }
  intros a b. split; [apply L|]. split.
  - rewrite <- L. rewrite (ord_binary_antisym a b). destruct (ord_binary a b); cbn [CompOpp];
      split; congruence.
  - rewrite ord_binary_eq. split.
    + intros [->|(Ha & Hb & [[r E]|[r E]])]; [left; reflexivity| |].
      * destruct r; [left; rewrite E; now rewrite app_nil_r|]. right; left. split; [exact Ha|].
        eexists. split; [|exact E]. discriminate.
      * destruct r; [left; rewrite E; now rewrite app_nil_r|]. right; right. split; [exact Hb|].
        eexists. split; [|exact E]. discriminate.
    + intros [->|[[Ha (c & Hc & E)]|[Hb (c & Hc & E)]]]; [left; reflexivity| |]; right.
      * repeat split; [exact Ha| |left; exists c; exact E]. subst b. destruct a; [contradiction|discriminate].
      * repeat split; [|exact Hb|right; exists c; exact E]. subst a. destruct b; [contradiction|discriminate].
Qed.
Print Assumptions ord_binary_exact.

(** On strings of one length (fixed-length columns) it is the total order the claim asks for. *)
Theorem ord_binary_same_length : forall a b, length a = length b ->
  (ord_binary a b = Lt <-> lex_lt a b) /\ (ord_binary a b = Gt <-> lex_lt b a) /\ (ord_binary a b = Eq <-> a = b).
Proof.
  intros a b Hl. destruct (ord_binary_exact a b) as (H1 & H2 & H3).
  assert (Ha : ~ strict_prefix a b).
  { intros (c & Hc & E). subst b. rewrite app_length in Hl. destruct c; [contradiction|cbn in Hl; lia]. }
  assert (Hb : ~ strict_prefix b a).
  { intros (c & Hc & E). subst a. rewrite app_length in Hl. destruct c; [contradiction|cbn in Hl; lia]. }
  rewrite H1, H2, H3. tauto.
Qed.
Print Assumptions ord_binary_same_length.

Example ord_binary_case :
  ord_binary [1; 2; 3] [1; 3] = Lt /\ ord_binary [] [0] = Lt /\ ord_binary [255] [254; 255] = Gt.
Proof. vm_compute. repeat split. Qed.

(** C67. *)
Theorem level_bit_width : forall max_level, (0 <= max_level < 2 ^ 15)%Z ->
  (forall l, (0 <= l <= max_level)%Z -> (l < 2 ^ Z.of_N (get_bit_width max_level))%Z) /\
  (forall w, (max_level < 2 ^ Z.of_N w)%Z -> get_bit_width max_level <= w).
Proof.
  intros z Hz. change (2 ^ 15)%Z with 32768%Z in Hz.
  assert (E : get_bit_width z = N.size (Z.to_N z)).
  { unfold get_bit_width, leading_zeros16, of_signed. change (2 ^ Z.of_N 16)%Z with 65536%Z.
    rewrite Z.mod_small by lia.
    assert (N.size (Z.to_N z) <= 15); [|lia].
    destruct (N.eq_dec (Z.to_N z) 0) as [->|Hn]; [cbn; lia|].
    rewrite N.size_log2 by exact Hn. assert (N.log2 (Z.to_N z) < 15); [|lia].
    apply N.log2_lt_pow2; [lia|]. change (2 ^ 15) with 32768. lia. }
  rewrite E. clear E. split.
  - intros l Hl. pose proof (N.size_gt (Z.to_N z)) as H. 
    apply N2Z.inj_lt in H. rewrite N2Z.inj_pow, Z2N.id in H by lia. change (Z.of_N 2) with 2%Z in H. lia.
  - intros w Hw. destruct (N.eq_dec (Z.to_N z) 0) as [->|Hn]; [cbn; lia|].
    rewrite N.size_log2 by exact Hn. apply N.le_succ_l, N.log2_lt_pow2; [lia|].
    apply N2Z.inj_lt. rewrite N2Z.inj_pow, Z2N.id by lia. exact Hw.
Qed.
Print Assumptions level_bit_width.

Example level_bit_width_case : get_bit_width 0 = 0 /\ get_bit_width 7 = 3 /\ get_bit_width 8 = 4 /\ get_bit_width 32767 = 15.
Proof. vm_compute. repeat split. Qed.
