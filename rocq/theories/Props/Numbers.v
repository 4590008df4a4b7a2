(** C94, C95: the order of numbers and the instants of INT96 timestamps. *)
From Verif Require Import Base.Prelude Spec.NumbersSpec Model.Native Proofs.NumbersProofs.
Open Scope N_scope.

(** C94 is false: a NaN is equal to every number, so that equality is not transitive, and timestamps too far from 1970 are ordered
    the wrong way round (or panic, with overflow checks). The numbers below are 1, NaN and 2; the days 2262-04-12 and 1970-01-01. *)
Theorem native_order_refuted :
  (forall m, native_ord m NF32 1065353216 2143289344 = Ok Eq /\ native_ord m NF32 2143289344 1073741824 = Ok Eq /\
             native_ord m NF32 1065353216 1073741824 = Ok Lt) /\
  (julian_day 2262 4 12 = 2547340 /\ julian_day 1970 1 1 = 2440588)%Z /\
  native_ord Wrapping NI96 (0, 0, 2547340) (0, 0, 2440588) = Ok Lt /\
  native_ord Checked NI96 (0, 0, 2547340) (0, 0, 2440588) = Panic.
Proof. split; [intros []|]; vm_compute; repeat split. Qed.
Print Assumptions native_order_refuted.

(** The exact order, on all values of the five types. *)
Theorem native_order_exact : forall m,
  (forall a b, native_ord m NI32 a b = Ok (a ?= b)%Z) /\ (forall a b, native_ord m NI64 a b = Ok (a ?= b)%Z) /\
  (forall a b, a < 2 ^ 32 -> b < 2 ^ 32 ->
     native_ord m NF32 a b = Ok (match real_compare (f32_value a) (f32_value b) with Some c => c | None => Eq end)) /\
  (forall a b, a < 2 ^ 64 -> b < 2 ^ 64 ->
     native_ord m NF64 a b = Ok (match real_compare (f64_value a) (f64_value b) with Some c => c | None => Eq end)) /\
  (forall a b, native_ok NI96 a -> native_ok NI96 b ->
     in_s 64 (instant (int96_day a) 0) = true -> in_s 64 (instant (int96_day a) (int96_nanos a)) = true ->
     in_s 64 (instant (int96_day b) 0) = true -> in_s 64 (instant (int96_day b) (int96_nanos b)) = true ->
     native_ord m NI96 a b = Ok (instant (int96_day a) (int96_nanos a) ?= instant (int96_day b) (int96_nanos b))%Z).
Proof.
  intro m. repeat split; try reflexivity.
  - intros a b Ha Hb. unfold native_ord, f32_value. rewrite <- (float_cmp_spec 8 23 inf32) by (reflexivity || assumption). reflexivity.
  - intros a b Ha Hb. unfold native_ord, f64_value. rewrite <- (float_cmp_spec 11 52 inf64) by (reflexivity || assumption). reflexivity.
  - intros [[a0 a1] a2] [[b0 b1] b2] (H1 & H2 & H3) (H4 & H5 & H6) A1 A2 B1 B2. unfold native_ord.
    rewrite (int96_spec m a0 a1 a2), (int96_spec m b0 b1 b2) by assumption. unfold int96_day, int96_nanos in *.
    destruct m; [rewrite A1, A2, B1, B2|rewrite !wrap_s_id by assumption]; reflexivity.
Qed.
Print Assumptions native_order_exact.
Example native_order_exact_case :
  f32_value 1065353216 = Finite (2 ^ 149) /\ f32_value 3212836864 = Finite (- 2 ^ 149) /\ f32_value 1 = Finite 1 /\
  f32_value 2147483648 = Finite 0 /\ f32_value 2139095040 = Infinite false /\ f32_value 4286578688 = Infinite true /\ f32_value 2143289344 = NaN /\
  f64_value 4607182418800017408 = Finite (2 ^ 1074) /\
  native_ord Checked NF32 3212836864 1 = Ok Lt /\ native_ord Checked NF32 0 2147483648 = Ok Eq /\ native_ord Checked NF32 4286578688 3212836864 = Ok Lt /\
  native_ok NI96 (0, 0, 2440589) /\ in_s 64 (instant 2440589 0) = true.
Proof. vm_compute. repeat split. Qed.

(** Comparing floats is comparing the numbers, and is refused exactly for NaNs. *)
Theorem float_compare_numeric : 
  (forall a b, a < 2 ^ 32 -> b < 2 ^ 32 -> float_partial_cmp 32 inf32 a b = real_compare (f32_value a) (f32_value b)) /\
  (forall a b, a < 2 ^ 64 -> b < 2 ^ 64 -> float_partial_cmp 64 inf64 a b = real_compare (f64_value a) (f64_value b)).
Proof.
  split; intros a b Ha Hb.
  - apply (float_cmp_spec 8 23 inf32); reflexivity || assumption.
  - apply (float_cmp_spec 11 52 inf64); reflexivity || assumption.
Qed.
Print Assumptions float_compare_numeric.
Example float_compare_numeric_case :
  float_partial_cmp 64 inf64 13830554455654793216 9221120237041090560 = None /\ float_partial_cmp 64 inf64 13830554455654793216 1 = Some Lt /\
  f64_value 13830554455654793216 = Finite (- 2 ^ 1074) /\ f64_value 9221120237041090560 = NaN.
Proof. vm_compute. repeat split. Qed.

(** C95 is false for timestamps that do not fit 64 bits: midnight of 2262-04-12 becomes a time in 1677 (or a panic). *)
Theorem int96_range_refuted :
  int96_to_i64_ns Wrapping (0, 0, 2547340) = Ok (-9223371273709551616)%Z /\ instant 2547340 0 = 9223372800000000000%Z /\
  int96_to_i64_ns Checked (0, 0, 2547340) = Panic /\
  (instant (julian_day 1677 9 21) 0 < -9223371273709551616 < instant (julian_day 1677 9 22) 0)%Z.
Proof. vm_compute. repeat split. Qed.
Print Assumptions int96_range_refuted.

(** Exact: the instant modulo 2^64; with overflow checks the instant, or a panic if it or the midnight before does not fit. *)
Theorem int96_exact : forall m v, native_ok NI96 v ->
  int96_to_i64_ns m v =
    match m with
    | Wrapping => Ok (wrap_s 64 (instant (int96_day v) (int96_nanos v)))
    | Checked =>
        if in_s 64 (instant (int96_day v) 0) && in_s 64 (instant (int96_day v) (int96_nanos v))
        then Ok (instant (int96_day v) (int96_nanos v)) else Panic
    end.
Proof. intros m [[v0 v1] v2] (H0 & H1 & H2). apply int96_spec; assumption. Qed.
Print Assumptions int96_exact.
Corollary int96_in_range : forall m v, native_ok NI96 v ->
  in_s 64 (instant (int96_day v) 0) = true -> in_s 64 (instant (int96_day v) (int96_nanos v)) = true ->
  int96_to_i64_ns m v = Ok (instant (int96_day v) (int96_nanos v)).
Proof. intros m v Hv H1 H2. rewrite int96_exact by exact Hv. rewrite H1, H2. destruct m; [|rewrite wrap_s_id by exact H2]; reflexivity. Qed.
Print Assumptions int96_in_range.
(** 2000-01-01 12:00:00. *)
Example int96_in_range_case :
  let v := (1218936832, 10058, Z.to_N (julian_day 2000 1 1)) in
  native_ok NI96 v /\ int96_nanos v = (12 * 60 * 60 * 1000000000)%Z /\ int96_day v = julian_day 2000 1 1 /\
  in_s 64 (instant (int96_day v) 0) = true /\ in_s 64 (instant (int96_day v) (int96_nanos v)) = true /\
  int96_to_i64_ns Checked v = Ok (946728000 * 1000000000)%Z.
Proof. vm_compute. repeat split. Qed.
