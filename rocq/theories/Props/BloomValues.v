(** C117: bloom filters over values. *)
From Verif Require Import Base.Prelude Base.LeFacts Model.Types Model.Native Model.Bloom Model.BloomValues Spec.BloomSpec Spec.BloomValuesSpec
  Proofs.PlainProofs Proofs.BloomProofs Props.Plain Props.Bloom.
Open Scope N_scope.

Lemma HNative_inj t (x y : carrier t) : HNative t x = HNative t y -> x = y.
Proof. intros E. injection E as E. apply Eqdep_dec.inj_pair2_eq_dec in E; [ exact E | decide equality ]. Qed.

(** Every value has exactly one encoding, and it is what is hashed. Two values of one type with one encoding are the same value. *)
Theorem values_hashed_by_encoding xxh64 v : value_exists v ->
  (exists b, plain_value v b /\ forall b', plain_value v b' -> b' = b) /\
  (forall b, plain_value v b -> hash_value xxh64 v = xxh64 b) /\
  (forall t x y b, v = HNative t x -> native_ok t y -> plain_value v b -> plain_value (HNative t y) b -> x = y).
Proof.
  assert (K : forall t (x : carrier t) b, native_ok t x -> (plain_value (HNative t x) b <-> b = native_to_le t x)).
  { intros t x b Ok. destruct (native_little_endian t x Ok) as (L & B & E). split.
    - intros P. assert (Q : length b = native_size t /\ bytes_ok b /\ le b = bit_pattern t x).
      { clear - P. destruct t; inversion P as [z b' Q1 Q2 Q3 E|z b' Q1 Q2 Q3 E|z b' Q1 Q2 Q3 E|z b' Q1 Q2 Q3 E|z1 z2 z3 b' Q1 Q2 Q3 E|]; apply HNative_inj in E; subst x;
          (split; [ exact Q1 | split; [ exact Q2 | ] ]); cbn [bit_pattern]; try exact Q3; rewrite <- Q3, N2Z.id; reflexivity. }
      destruct Q as (Q1 & Q2 & Q3). apply le_inj; [ exact Q2 | exact B | congruence | congruence ].
    - intros ->. destruct t; cbn [bit_pattern native_size] in E, L; try (constructor; auto; rewrite E; rewrite ?Z2N.id; try reflexivity; apply Z.mod_pos_bound; reflexivity).
      destruct x as [[x y] z]. constructor; auto. }
  intros V. destruct v as [t x|x]; cbn [value_exists] in V.
  - split; [ exists (native_to_le t x); split; [ apply K; auto | intros b' P; apply K in P; auto ] | ]. split.
    + intros b P. apply K in P as ->; [ reflexivity | exact V ].
    + intros t' x' y b E Y P P'. assert (t' = t) as -> by (injection E; auto). apply HNative_inj in E. subst x'.
      apply K in P; [ | exact V ]. apply K in P'; [ | exact Y ]. rewrite <- (native_from_to t x V), <- (native_from_to t y Y). congruence.
  - split; [ exists x; split; [ constructor; exact V | intros b' P; inversion P; reflexivity ] | ]. split.
    + intros b P. inversion P. reflexivity.
    + intros t' x' y b E. discriminate E.
Qed.
Print Assumptions values_hashed_by_encoding.

(** A filter into which values were inserted, and which may then have been stored in a file and read from it, finds every one of them, be it asked
    for as a value or by its encoded bytes, for every hash function, in any type and mix of types. *)
Theorem bloom_finds_values xxh64 m bitset values :
  (forall b, xxh64 b < 2 ^ 64) -> bytes_ok bitset -> (32 <= length bitset)%nat -> m = Wrapping \/ nlen bitset / 32 <= 2 ^ 32 ->
  Forall value_exists values ->
  exists bitset', insert_all m bitset (map (hash_value xxh64) values) = Ok bitset' /\ length bitset' = length bitset /\
    (forall v q b, In v values -> plain_value v b -> value_exists q -> plain_value q b -> is_in_set m bitset' (hash_value xxh64 q) = Ok true) /\
    (forall encode decode before after, (forall h rest, decode (encode h ++ rest) = Ok (h, rest)) -> nlen before < 2 ^ 63 -> nlen bitset < 2 ^ 31 ->
     bloom_read decode (Some (Z.of_N (nlen before))) (before ++ encode (mk_bh (Z.of_N (nlen bitset)) true true) ++ bitset' ++ after) = Ok bitset').
Proof.
  intros H Hb Hl Hm Hv.
  assert (Hh : Forall (fun h => h < 2 ^ 64) (map (hash_value xxh64) values)).
  { apply Forall_forall. intros h I. apply in_map_iff in I as (v & <- & _). destruct v; apply H. }
  destruct (bloom_no_false_negatives m bitset _ Hb Hl Hm Hh) as (b' & E & P). destruct (bloom_monotone m bitset _ b' Hb Hl Hh E) as [L _].
  exists b'. split; [ exact E | ]. split; [ exact L | ]. split.
  - intros v q b I Pv Vq Pq. rewrite Forall_forall in Hv. pose proof (Hv v I) as V.
    destruct (values_hashed_by_encoding xxh64 v V) as (_ & A & _). destruct (values_hashed_by_encoding xxh64 q Vq) as (_ & B & _).
    rewrite (B b Pq), <- (A b Pv). apply P. apply in_map. exact I.
  - intros encode decode before after D Hbe Hsz. assert (N1 : nlen b' = nlen bitset) by (unfold nlen; congruence). rewrite <- N1.
    apply bloom_read_back; [ exact D | exact Hbe | rewrite N1; exact Hsz ].
Qed.
Print Assumptions bloom_finds_values.
(** For the examples: a hash that adds the bytes up. *)
Definition bv_hash (b : list N) : N := (fold_right N.add 0 b * 2654435761) mod 2 ^ 64.
Example bloom_finds_values_case :
  let values := [HNative NI32 (-7)%Z; HNative NF64 4611686018427387904; HNative NI96 (1, 2, 3); HBytes [104; 105]] in
  Forall value_exists values /\ (forall b, bv_hash b < 2 ^ 64) /\
  let* bitset := insert_all Checked (repeat 0 64) (map (hash_value bv_hash) values) in
  let* a := is_in_set Checked bitset (hash_value bv_hash (HBytes [249; 255; 255; 255])) in
  let* b := is_in_set Checked bitset (hash_value bv_hash (HNative NI32 (-8)%Z)) in
  Ok (a, b) = Ok (true, false).
Proof.
  cbv zeta. split; [ repeat (apply Forall_cons; [ cbn; try lia | ]); try apply Forall_nil; unfold bytes_ok; repeat constructor; lia | ].
  split; [ intros b; apply N.mod_lt; discriminate | vm_compute; reflexivity ].
Qed.

(** Values that compare as equal are not found if their bytes differ: the two zeros of a float, and two ways to write the same instant in 96 bits. *)
Theorem bloom_equal_values_refuted : exists xxh64 zero minus (day next : N * N * N),
  (forall b, xxh64 b < 2 ^ 64) /\
  native_ok NF64 zero /\ native_ok NF64 minus /\ float_partial_cmp 64 inf64 zero minus = Some Eq /\
  native_ok NI96 day /\ native_ok NI96 next /\ native_ord Checked NI96 day next = Ok Eq /\
  (let* bitset := insert Checked (repeat 0 32) (hash_native xxh64 NF64 zero) in is_in_set Checked bitset (hash_native xxh64 NF64 minus)) = Ok false /\
  (let* bitset := insert Checked (repeat 0 32) (hash_native xxh64 NI96 day) in is_in_set Checked bitset (hash_native xxh64 NI96 next)) = Ok false.
Proof.
  exists bv_hash, 0, (2 ^ 63), (2437873664, 20116, 2440588), (0, 0, 2440589).
  split; [ intros b; apply N.mod_lt; discriminate | ]. do 3 (split; [ vm_compute; reflexivity | ]).
  split; [ vm_compute; auto | ]. split; [ vm_compute; auto | ]. do 2 (split; [ vm_compute; reflexivity | ]). vm_compute; reflexivity.
Qed.
Print Assumptions bloom_equal_values_refuted.
