(** C60: exactly what survives the conversion of types with numbers, and exactly what is read. *)
From Verif Require Import Base.Prelude Model.Types Spec.SchemaSpec Proofs.TypesFacts Props.Bridge.
Open Scope Z_scope.

Lemma as_i32_below n : as_i32 n < 2147483648.
Proof.
  unfold as_i32, wrap_s, to_signed, of_signed. change (2 ^ (32 - 1))%N with 2147483648%N. change (2 ^ Z.of_N 32) with 4294967296.
  pose proof (Z.mod_pos_bound (Z.of_N n) 4294967296 ltac:(lia)) as H. set (k := Z.of_N n mod 4294967296) in *. clearbody k.
  destruct (N.ltb_spec (Z.to_N k) 2147483648); lia.
Qed.
Lemma try_usize_i32_back n k : try_usize (as_i32 n) = Ok k -> (k < 2147483648)%N.
Proof. intros H. apply try_usize_inv in H. pose proof (as_i32_below n). lia. Qed.

(** C60. A physical type comes back exactly if its size, if it has one, is below 2^31. *)
Theorem physical_roundtrip_exactly p :
  physical_of_thrift (fst (physical_to_thrift p)) (snd (physical_to_thrift p)) = Ok p <-> physical_sized p.
Proof.
  split; [|apply physical_roundtrip]. destruct p; try (intros _; exact I). cbn -[as_i32]. intros H.
  destruct (try_usize (as_i32 size)) as [n| |] eqn:E; cbn [bind] in H; try discriminate. apply Ok_inj in H. injection H as ->.
  exact (try_usize_i32_back _ _ E).
Qed.
Print Assumptions physical_roundtrip_exactly.

(** C60. A converted type comes back exactly if its precision and scale, if it has them, are below 2^31. *)
Theorem converted_roundtrip_exactly c :
  converted_of_thrift (fst (converted_to_thrift c)) (snd (converted_to_thrift c)) = Ok c <-> converted_sized c.
Proof.
  split; [|apply converted_roundtrip]. destruct c; try (intros _; exact I). cbn -[as_i32]. intros H.
  destruct (try_usize (as_i32 precision)) as [n| |] eqn:E; cbn [bind] in H; try discriminate.
  destruct (try_usize (as_i32 scale)) as [k| |] eqn:E'; cbn [bind] in H; try discriminate. apply Ok_inj in H. injection H as -> ->.
  split; [exact (try_usize_i32_back _ _ E) | exact (try_usize_i32_back _ _ E')].
Qed.
Print Assumptions converted_roundtrip_exactly.

(** C60. Likewise for logical types. *)
Theorem logical_roundtrip_exactly l : logical_of_thrift (logical_to_thrift l) = Ok l <-> logical_sized l.
Proof.
  split; [|apply logical_roundtrip]. destruct l as [| |p s| | | |t| | | |]; try (intros _; exact I). cbn -[as_i32]. intros H.
  destruct (try_usize (as_i32 p)) as [n| |] eqn:E; cbn [bind] in H; try discriminate.
  destruct (try_usize (as_i32 s)) as [k| |] eqn:E'; cbn [bind] in H; try discriminate. apply Ok_inj in H. injection H as -> ->.
  split; [exact (try_usize_i32_back _ _ E) | exact (try_usize_i32_back _ _ E')].
Qed.
Print Assumptions logical_roundtrip_exactly.

Example roundtrip_exactly_case :
  physical_sized (FixedLenByteArray 2147483647) /\ ~ physical_sized (FixedLenByteArray 2147483648) /\
  physical_of_thrift (fst (physical_to_thrift (FixedLenByteArray 2147483648))) (snd (physical_to_thrift (FixedLenByteArray 2147483648))) = Err OutOfSpec /\
  converted_of_thrift (fst (converted_to_thrift (CDecimal 9 4294967298))) (snd (converted_to_thrift (CDecimal 9 4294967298))) = Ok (CDecimal 9 2).
Proof. split; [reflexivity|]. split; [intros H; discriminate H|]. split; reflexivity. Qed.

(** C60. The logical types that are read, exactly: those with the thrift value that is written for them (where precision and scale may be of any size),
    and integers of other widths, which are all taken for signed ones of 32 bits. Everything else is an error. *)
Theorem logical_reads_exactly : forall t,
  (forall l, logical_of_thrift t = Ok l <->
    t = match l with
        | LDecimal p s => TDecimal (Z.of_N s) (Z.of_N p)
        | _ => logical_to_thrift l
        end
    \/ (exists w s, t = TInteger w s /\ ~ In w [8; 16; 32; 64] /\ l = LInteger IInt32)) /\
  ((forall l, logical_of_thrift t <> Ok l) -> logical_of_thrift t = Err OutOfSpec).
Proof.
  intros t. split.
  - intros l. split; [apply logical_reads_partial|]. intros [->|(w & s & -> & Hn & ->)].
    + destruct l as [| |p s| | | |k| | | |]; try reflexivity; [|destruct k; reflexivity]. cbn. rewrite !try_usize_of_N. reflexivity.
    + cbn -[integer_of]. f_equal. f_equal. cbn in Hn. unfold integer_of.
      repeat match goal with
      | |- context [match ?p with _ => _ end] => destruct p; try reflexivity; try (exfalso; apply Hn; tauto)
      end.
  - intros H. destruct t as [| | | |sc pr| |u q|u q|w s| | | |]; try reflexivity; try (exfalso; eapply H; reflexivity).
    cbn in *. unfold try_usize in *. destruct (pr <? 0); [reflexivity|]. destruct (sc <? 0); [reflexivity|]. exfalso. eapply H. reflexivity.
Qed.
Print Assumptions logical_reads_exactly.

Example logical_reads_exactly_case :
  logical_of_thrift (TDecimal 2 (-1)) = Err OutOfSpec /\ logical_of_thrift TMap = Err OutOfSpec /\
  logical_of_thrift (TInteger (-8) false) = Ok (LInteger IInt32) /\ logical_of_thrift (TInteger 64 false) = Ok (LInteger IUInt64).
Proof. repeat split. Qed.
