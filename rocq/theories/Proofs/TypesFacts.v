(** Facts about the casts and enum conversions of Model/Types.v. *)
From Verif Require Import Base.Prelude Model.Types.
Open Scope Z_scope.

Lemma wrap_s_in w z : (0 < w)%N -> - 2 ^ (Z.of_N w - 1) <= z < 2 ^ (Z.of_N w - 1) -> wrap_s w z = z.
Proof.
  intros Hw Hz. unfold wrap_s, to_signed, of_signed.
  assert (E : 2 ^ Z.of_N w = 2 * 2 ^ (Z.of_N w - 1)).
  { rewrite <- Z.pow_succ_r by lia. f_equal. lia. }
  assert (Hp : 0 < 2 ^ (Z.of_N w - 1)) by (apply Z.pow_pos_nonneg; lia).
  assert (Hc : Z.of_N (2 ^ (w - 1)) = 2 ^ (Z.of_N w - 1)).
  { rewrite N2Z.inj_pow. f_equal. lia. }
  pose proof (Z.mod_pos_bound z (2 ^ Z.of_N w)) as Hm.
  destruct (N.ltb_spec (Z.to_N (z mod 2 ^ Z.of_N w)) (2 ^ (w - 1))) as [H|H].
  - rewrite Z2N.id by lia. apply N2Z.inj_lt in H. rewrite Z2N.id, Hc in H by lia.
    destruct (Z.neg_nonneg_cases z).
    + replace z with (z + 2 ^ Z.of_N w + (-1) * 2 ^ Z.of_N w) in H by lia.
      rewrite Z.mod_add, Z.mod_small in H by lia. lia.
    + rewrite Z.mod_small by lia. reflexivity.
  - rewrite Z2N.id by lia. apply N2Z.inj_le in H. rewrite Z2N.id, Hc in H by lia.
    destruct (Z.neg_nonneg_cases z).
    + replace z with (z + 2 ^ Z.of_N w + (-1) * 2 ^ Z.of_N w) at 1 by lia.
      rewrite Z.mod_add, Z.mod_small by lia. lia.
    + rewrite Z.mod_small in H by lia. lia.
Qed.

Lemma as_i32_small n : (n < 2147483648)%N -> as_i32 n = Z.of_N n.
Proof. intro H. apply wrap_s_in; [lia|]. change (Z.of_N 32 - 1) with 31. change (2 ^ 31) with 2147483648. lia. Qed.
Lemma as_i64_small n : (n < 9223372036854775808)%N -> as_i64 n = Z.of_N n.
Proof.
  intro H. apply wrap_s_in; [lia|]. change (Z.of_N 64 - 1) with 63.
  change (2 ^ 63) with 9223372036854775808. lia.
Qed.
Lemma as_usize_nonneg z : 0 <= z < 18446744073709551616 -> as_usize z = Z.to_N z.
Proof. intro H. unfold as_usize, of_signed. change (2 ^ Z.of_N 64) with 18446744073709551616. rewrite Z.mod_small by lia. reflexivity. Qed.

Lemma try_usize_of_N n : try_usize (Z.of_N n) = Ok n.
Proof. unfold try_usize. destruct (Z.ltb_spec (Z.of_N n) 0); [lia|]. now rewrite N2Z.id. Qed.
Lemma try_usize_inv z n : try_usize z = Ok n -> z = Z.of_N n.
Proof. unfold try_usize. destruct (Z.ltb_spec z 0); [discriminate|]. intro E. injection E as <-. lia. Qed.
Lemma try_usize_as_i32 n : (n < 2147483648)%N -> try_usize (as_i32 n) = Ok n.
Proof. intro H. rewrite as_i32_small by assumption. apply try_usize_of_N. Qed.
Lemma try_usize_as_i64 n : (n < 9223372036854775808)%N -> try_usize (as_i64 n) = Ok n.
Proof. intro H. rewrite as_i64_small by assumption. apply try_usize_of_N. Qed.

Lemma physical_eqb_spec a b : physical_eqb a b = true <-> a = b.
Proof.
  destruct a, b; cbn; split; intro H; try discriminate; try reflexivity.
  - apply N.eqb_eq in H. congruence.
  - injection H as ->. apply N.eqb_refl.
Qed.
Lemma compression_eqb_spec a b : compression_eqb a b = true <-> a = b.
Proof. destruct a, b; cbn; split; intro H; try discriminate; reflexivity. Qed.
