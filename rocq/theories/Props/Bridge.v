(** C60: converting the crate's enums to their thrift values and back. For the plain enums a single
    equivalence says both halves of the claim: the thrift value of [x] reads back as [x], and no other
    integer reads as [x]; [_total] says that every remaining integer is an error (never a panic). *)
From Verif Require Import Base.Prelude Model.Types Spec.SchemaSpec Proofs.TypesFacts.
Open Scope Z_scope.

Ltac invert_enum H z :=
  destruct z as [|p|p]; cbn in H; try discriminate H; try (injection H as <-; reflexivity);
  repeat (destruct p as [p|p|]; cbn in H; try discriminate H; try (injection H as <-; reflexivity)).

Theorem repetition_bridge : forall z r, repetition_of_thrift z = Ok r <-> z = repetition_to_thrift r.
Proof. intros z r. split; [intro H; invert_enum H z | intros ->; destruct r; reflexivity]. Qed.
Print Assumptions repetition_bridge.

Theorem compression_bridge : forall z c, compression_of_thrift z = Ok c <-> z = compression_to_thrift c.
Proof. intros z r. split; [intro H; invert_enum H z | intros ->; destruct r; reflexivity]. Qed.
Print Assumptions compression_bridge.

Theorem encoding_bridge : forall z e, encoding_of_thrift z = Ok e <-> z = encoding_to_thrift e.
Proof. intros z r. split; [intro H; invert_enum H z | intros ->; destruct r; reflexivity]. Qed.
Print Assumptions encoding_bridge.

Theorem page_type_bridge : forall z p, page_type_of_thrift z = Ok p <-> z = page_type_to_thrift p.
Proof. intros z r. split; [intro H; invert_enum H z | intros ->; destruct r; reflexivity]. Qed.
Print Assumptions page_type_bridge.

Theorem boundary_order_bridge : forall z b, boundary_order_of_thrift z = Ok b <-> z = boundary_order_to_thrift b.
Proof. intros z r. split; [intro H; invert_enum H z | intros ->; destruct r; reflexivity]. Qed.
Print Assumptions boundary_order_bridge.

Theorem group_converted_bridge : forall z g, group_converted_of_thrift z = Ok g <-> z = group_converted_to_thrift g.
Proof. intros z r. split; [intro H; invert_enum H z | intros ->; destruct r; reflexivity]. Qed.
Print Assumptions group_converted_bridge.

Theorem group_logical_bridge : forall t g, group_logical_of_thrift t = Ok g <-> t = group_logical_to_thrift g.
Proof.
  intros t g. split.
  - destruct t; cbn; intro H; try discriminate; injection H as <-; reflexivity.
  - intros ->. destruct g; reflexivity.
Qed.
Print Assumptions group_logical_bridge.

Ltac total z := destruct z as [|p|p]; cbn; try discriminate; repeat (destruct p as [p|p|]; cbn; try discriminate).

(** Unknown integers are errors, and nothing panics. *)
Theorem enums_total : forall z,
  repetition_of_thrift z <> Panic /\ compression_of_thrift z <> Panic /\ encoding_of_thrift z <> Panic /\
  page_type_of_thrift z <> Panic /\ boundary_order_of_thrift z <> Panic /\ group_converted_of_thrift z <> Panic.
Proof. intro z. repeat split; total z. Qed.
Print Assumptions enums_total.

(** Compression options: the level does not change the codec written. *)
Theorem options_bridge : forall o, compression_of_thrift (options_to_thrift o) = Ok (options_compression o).
Proof. destruct o; reflexivity. Qed.
Print Assumptions options_bridge.

(** Compression levels are accepted exactly inside their documented range, unchanged. *)
Theorem levels_bridge : forall z l,
  (brotli_level z = Ok l <-> l = z /\ 0 <= z <= 11) /\
  (gzip_level z = Ok l <-> l = z /\ 0 <= z <= 10) /\
  (zstd_level z = Ok l <-> l = z /\ 1 <= z <= 22).
Proof.
  intros z l. unfold brotli_level, gzip_level, zstd_level, valid_level.
  repeat split; intros; repeat match goal with
   | H : context [if ?b then _ else _] |- _ => destruct b eqn:?
   | |- context [if ?b then _ else _] => destruct b eqn:?
   | H : Ok _ = Ok _ |- _ => injection H as <-
   | H : _ /\ _ |- _ => destruct H
   end; subst; try discriminate; try reflexivity; lia.
Qed.
Print Assumptions levels_bridge.

(** Annotations with numbers must fit the thrift fields ([physical_sized] and so on). *)
Theorem physical_roundtrip : forall p, physical_sized p ->
  physical_of_thrift (fst (physical_to_thrift p)) (snd (physical_to_thrift p)) = Ok p.
Proof.
  destruct p; try reflexivity. intro H. cbn -[as_i32]. rewrite try_usize_as_i32 by exact H. reflexivity.
Qed.
Print Assumptions physical_roundtrip.

Theorem converted_roundtrip : forall c, converted_sized c ->
  converted_of_thrift (fst (converted_to_thrift c)) (snd (converted_to_thrift c)) = Ok c.
Proof.
  destruct c; try reflexivity. intros [H1 H2]. cbn -[as_i32]. rewrite !try_usize_as_i32 by assumption. reflexivity.
Qed.
Print Assumptions converted_roundtrip.

Theorem logical_roundtrip : forall l, logical_sized l -> logical_of_thrift (logical_to_thrift l) = Ok l.
Proof.
  destruct l as [| |p s| | | |t| | | |]; try reflexivity.
  - intros [H1 H2]. cbn -[as_i32]. rewrite !try_usize_as_i32 by assumption. reflexivity.
  - destruct t; reflexivity.
Qed.
Print Assumptions logical_roundtrip.

(** The size condition is not decoration: a fixed length of 2^32 + 1 comes back as 1. *)
Theorem physical_roundtrip_refuted : exists p,
  physical_of_thrift (fst (physical_to_thrift p)) (snd (physical_to_thrift p)) <> Ok p.
Proof. exists (FixedLenByteArray 4294967297). vm_compute. discriminate. Qed.
Print Assumptions physical_roundtrip_refuted.

(** What the readers accept: an unknown physical or converted type is an error, a negative size too. *)
Theorem physical_reads : forall t len p,
  physical_of_thrift t len = Ok p <->
  t = fst (physical_to_thrift p) /\ (forall n, p = FixedLenByteArray n -> len = Some (Z.of_N n)).
Proof.
  intros t len p. split.
  - intro H. destruct t as [|q|q]; cbn in H; try discriminate H.
    + injection H as <-. split; [reflexivity|discriminate].
    + repeat (destruct q as [q|q|]; cbn in H; try discriminate H);
        try (injection H as <-; split; [reflexivity|discriminate]).
      destruct len as [l|]; [|discriminate]. unfold bind in H.
      destruct (try_usize l) as [n| |] eqn:E; try discriminate. injection H as <-.
      split; [reflexivity|]. intros k Hk. injection Hk as <-. f_equal. now apply try_usize_inv.
  - intros [-> H]. destruct p; try reflexivity. rewrite (H size eq_refl). cbn.
    rewrite try_usize_of_N. reflexivity.
Qed.
Print Assumptions physical_reads.

Theorem converted_reads : forall t dec c,
  converted_of_thrift t dec = Ok c <->
  t = fst (converted_to_thrift c) /\ (forall p s, c = CDecimal p s -> dec = Some (Z.of_N p, Z.of_N s)).
Proof.
  intros t dec c. split.
  - intro H. destruct t as [|q|q]; cbn in H; try discriminate H.
    + injection H as <-. split; [reflexivity|discriminate].
    + repeat (destruct q as [q|q|]; cbn in H; try discriminate H;
        try (injection H as <-; split; [reflexivity|discriminate])).
      destruct dec as [[p s]|]; [|discriminate]. unfold bind in H.
      destruct (try_usize p) as [n| |] eqn:E; try discriminate.
      destruct (try_usize s) as [k| |] eqn:E'; try discriminate. injection H as <-.
      split; [reflexivity|]. intros a b Hk. injection Hk as <- <-. 
      now rewrite (try_usize_inv _ _ E), (try_usize_inv _ _ E').
  - intros [-> H]. destruct c; try reflexivity. rewrite (H precision scale eq_refl). cbn.
    rewrite !try_usize_of_N. reflexivity.
Qed.
Print Assumptions converted_reads.

(** Integer annotations: the claim "out of range is an error" is false; an integer annotation with an
    unknown bit width is silently read as a 32-bit signed integer. *)
Theorem integer_width_refuted : exists w s,
  ~ In w [8; 16; 32; 64] /\ logical_of_thrift (TInteger w s) = Ok (LInteger IInt32).
Proof. exists 24, false. split; [cbn; intuition discriminate|reflexivity]. Qed.
Print Assumptions integer_width_refuted.

Theorem logical_reads_partial : forall t l,
  logical_of_thrift t = Ok l ->
  t = match l with
      | LDecimal p s => TDecimal (Z.of_N s) (Z.of_N p)
      | _ => logical_to_thrift l
      end
  \/ (exists w s, t = TInteger w s /\ ~ In w [8; 16; 32; 64] /\ l = LInteger IInt32).
Proof.
  intros t l H. destruct t as [| | | |sc pr| |u q|u q|w s| | | |]; cbn -[integer_of] in H; try discriminate;
    try (injection H as <-; left; reflexivity).
  - unfold bind in H. destruct (try_usize pr) as [n| |] eqn:E; try discriminate.
    destruct (try_usize sc) as [k| |] eqn:E'; try discriminate. injection H as <-. left.
    now rewrite (try_usize_inv _ _ E), (try_usize_inv _ _ E').
  - destruct (in_dec Z.eq_dec w [8; 16; 32; 64]) as [Hi|Hn].
    + left. cbn in Hi. destruct Hi as [<-|[<-|[<-|[<-|[]]]]]; destruct s; injection H as <-; reflexivity.
    + right. exists w, s. split; [reflexivity|]. split; [exact Hn|]. cbn in Hn. injection H as <-. f_equal.
      unfold integer_of.
      repeat match goal with
      | |- context [match ?p with _ => _ end] => destruct p; try reflexivity; try (exfalso; apply Hn; tauto)
      end.
Qed.
Print Assumptions logical_reads_partial.

Example bridge_case :
  physical_of_thrift 7 (Some 12) = Ok (FixedLenByteArray 12) /\
  physical_of_thrift 7 (Some (-1)) = Err OutOfSpec /\
  converted_of_thrift 5 (Some (9, 2)) = Ok (CDecimal 9 2) /\
  logical_to_thrift (LTimestamp Microseconds true) = TTimestamp true Microseconds /\
  encoding_of_thrift 1 = Err OutOfSpec /\ compression_of_thrift 8 = Err OutOfSpec.
Proof. vm_compute. repeat split. Qed.
