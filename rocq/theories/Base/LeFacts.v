(** Arithmetic facts about little-endian byte strings. *)
From Verif Require Import Base.Prelude.

Lemma bytes_ok_cons b l : bytes_ok (b :: l) <-> (b < 256)%N /\ bytes_ok l.
Proof.
  unfold bytes_ok; split; intro H.
  - inversion H; subst; split; assumption.
  - destruct H; constructor; assumption.
Qed.

Lemma bytes_ok_app a b : bytes_ok (a ++ b) <-> bytes_ok a /\ bytes_ok b.
Proof. unfold bytes_ok. apply Forall_app. Qed.

Lemma bytes_ok_firstn n l : bytes_ok l -> bytes_ok (firstn n l).
Proof.
  intro H. rewrite <- (firstn_skipn n l) in H. apply bytes_ok_app in H. tauto.
Qed.

Lemma bytes_ok_skipn n l : bytes_ok l -> bytes_ok (skipn n l).
Proof.
  intro H. rewrite <- (firstn_skipn n l) in H. apply bytes_ok_app in H. tauto.
Qed.

Lemma bytes_ok_repeat n b : (b < 256)%N -> bytes_ok (repeat b n).
Proof.
  intro H. induction n as [|n IH]; simpl; [constructor|].
  constructor; assumption.
Qed.

Lemma bytes_okb_ok l : bytes_okb l = true <-> bytes_ok l.
Proof.
  unfold bytes_okb, bytes_ok. rewrite forallb_forall, Forall_forall.
  unfold byte_okb, byte_ok. split; intros H x Hx; specialize (H x Hx); lia.
Qed.

Lemma to_le_length n v : length (to_le n v) = n.
Proof. revert v; induction n as [|n IH]; intro v; simpl; [reflexivity|]. rewrite IH; reflexivity. Qed.

Lemma to_le_ok n v : bytes_ok (to_le n v).
Proof.
  revert v; induction n as [|n IH]; intro v; cbn [to_le]; [constructor|].
  constructor; [|apply IH]. unfold byte_ok. apply N.mod_lt. discriminate.
Qed.

Lemma pow256 n : (2 ^ (8 * N.of_nat (S n)) = 256 * 2 ^ (8 * N.of_nat n))%N.
Proof.
  replace (8 * N.of_nat (S n))%N with (8 + 8 * N.of_nat n)%N by lia.
  rewrite N.pow_add_r. reflexivity.
Qed.

Lemma le_bound l : bytes_ok l -> (le l < 2 ^ (8 * nlen l))%N.
Proof.
  unfold nlen. induction l as [|b l IH]; intro H.
  - simpl. lia.
  - apply bytes_ok_cons in H as [Hb Hl]. specialize (IH Hl).
    cbn [le length]. rewrite pow256. lia.
Qed.

Lemma le_to_le n v : le (to_le n v) = (v mod 2 ^ (8 * N.of_nat n))%N.
Proof.
  revert v; induction n as [|n IH]; intro v.
  - simpl. rewrite N.mod_1_r. reflexivity.
  - cbn [to_le le]. rewrite IH, pow256.
    rewrite N.mod_mul_r by (try lia; apply N.pow_nonzero; discriminate). lia.
Qed.

Lemma le_to_le_small n v : (v < 2 ^ (8 * N.of_nat n))%N -> le (to_le n v) = v.
Proof. intro H. rewrite le_to_le. apply N.mod_small; assumption. Qed.

Lemma to_le_le l : bytes_ok l -> to_le (length l) (le l) = l.
Proof.
  induction l as [|b l IH]; intro H; [reflexivity|].
  apply bytes_ok_cons in H as [Hb Hl].
  cbn [length le to_le].
  replace ((b + 256 * le l) mod 256)%N with b.
  2:{ rewrite N.mul_comm, N.mod_add by lia. symmetry; apply N.mod_small; assumption. }
  replace ((b + 256 * le l) / 256)%N with (le l).
  2:{ rewrite N.mul_comm, N.div_add by lia. rewrite N.div_small by assumption. lia. }
  rewrite IH by assumption. reflexivity.
Qed.

Lemma le_inj a b : bytes_ok a -> bytes_ok b -> length a = length b -> le a = le b -> a = b.
Proof.
  intros Ha Hb Hl He. rewrite <- (to_le_le a Ha), <- (to_le_le b Hb), Hl, He. reflexivity.
Qed.

Lemma le_app a b : le (a ++ b) = (le a + 2 ^ (8 * nlen a) * le b)%N.
Proof.
  unfold nlen. induction a as [|x a IH].
  - simpl. destruct (le b); reflexivity.
  - cbn [app le length]. rewrite pow256, IH. lia.
Qed.

Lemma le_repeat0 n : le (repeat 0%N n) = 0%N.
Proof. induction n as [|n IH]; cbn [repeat le]; [reflexivity|]. rewrite IH; reflexivity. Qed.

Lemma nlen_app {A} (a b : list A) : nlen (a ++ b) = (nlen a + nlen b)%N.
Proof. unfold nlen. rewrite app_length. lia. Qed.

Lemma le_firstn n l : bytes_ok l -> le (firstn n l) = (le l mod 2 ^ (8 * N.of_nat n))%N.
Proof.
  intro H.
  destruct (Nat.le_gt_cases n (length l)) as [Hn|Hn].
  - rewrite <- (firstn_skipn n l) at 2. rewrite le_app.
    unfold nlen. rewrite firstn_length_le by assumption.
    rewrite N.mul_comm, N.mod_add by (apply N.pow_nonzero; discriminate).
    symmetry; apply N.mod_small.
    pose proof (le_bound (firstn n l) (bytes_ok_firstn n l H)) as B.
    unfold nlen in B. rewrite firstn_length_le in B by assumption. exact B.
  - rewrite firstn_all2 by lia.
    symmetry; apply N.mod_small.
    eapply N.lt_le_trans; [apply le_bound; assumption|].
    apply N.pow_le_mono_r; [discriminate|]. unfold nlen; lia.
Qed.

Lemma le_skipn n l : bytes_ok l -> le (skipn n l) = (le l / 2 ^ (8 * N.of_nat n))%N.
Proof.
  intro H.
  destruct (Nat.le_gt_cases n (length l)) as [Hn|Hn].
  - rewrite <- (firstn_skipn n l) at 2. rewrite le_app.
    unfold nlen. rewrite firstn_length_le by assumption.
    rewrite N.mul_comm, N.div_add by (apply N.pow_nonzero; discriminate).
    rewrite N.div_small; [reflexivity|].
    pose proof (le_bound (firstn n l) (bytes_ok_firstn n l H)) as B.
    unfold nlen in B. rewrite firstn_length_le in B by assumption. exact B.
  - rewrite skipn_all2 by lia. cbn [le].
    symmetry; apply N.div_small.
    eapply N.lt_le_trans; [apply le_bound; assumption|].
    apply N.pow_le_mono_r; [discriminate|]. unfold nlen; lia.
Qed.

(** Disjoint bit patterns: or is addition. *)
Lemma lor_shift_add a q k : (a < 2 ^ k)%N -> N.lor a (N.shiftl q k) = (a + q * 2 ^ k)%N.
Proof.
  intro H. rewrite N.shiftl_mul_pow2. rewrite <- N.lxor_lor.
  - symmetry. apply N.add_nocarry_lxor.
    apply N.bits_inj_0; intro i. rewrite N.land_spec.
    destruct (N.lt_ge_cases i k) as [Hi|Hi].
    + rewrite N.mul_pow2_bits_low by assumption. apply andb_false_r.
    + rewrite <- (N.mod_small a (2 ^ k)) by assumption.
      rewrite N.mod_pow2_bits_high by assumption. reflexivity.
  - apply N.bits_inj_0; intro i. rewrite N.land_spec.
    destruct (N.lt_ge_cases i k) as [Hi|Hi].
    + rewrite N.mul_pow2_bits_low by assumption. apply andb_false_r.
    + rewrite <- (N.mod_small a (2 ^ k)) by assumption.
      rewrite N.mod_pow2_bits_high by assumption. reflexivity.
Qed.

Lemma lor_bound a b k : (a < 2 ^ k)%N -> (b < 2 ^ k)%N -> (N.lor a b < 2 ^ k)%N.
Proof.
  intros Ha Hb.
  replace (N.lor a b) with (N.lor a b mod 2 ^ k)%N.
  - apply N.mod_lt. apply N.pow_nonzero; discriminate.
  - apply N.bits_inj; intro i.
    destruct (N.lt_ge_cases i k) as [Hi|Hi].
    + rewrite N.mod_pow2_bits_low by assumption. reflexivity.
    + rewrite N.mod_pow2_bits_high by assumption. rewrite N.lor_spec.
      rewrite <- (N.mod_small a (2 ^ k)), <- (N.mod_small b (2 ^ k)) by assumption.
      rewrite !N.mod_pow2_bits_high by assumption. reflexivity.
Qed.

Lemma lor_split a b p q k : (a < 2 ^ k)%N -> (b < 2 ^ k)%N ->
  N.lor (a + p * 2 ^ k) (b + q * 2 ^ k) = (N.lor a b + N.lor p q * 2 ^ k)%N.
Proof.
  intros Ha Hb.
  rewrite <- (lor_shift_add a p k Ha), <- (lor_shift_add b q k Hb).
  rewrite <- (lor_shift_add (N.lor a b) (N.lor p q) k) by (apply lor_bound; assumption).
  rewrite N.shiftl_lor.
  rewrite <- !N.lor_assoc. f_equal.
  rewrite !N.lor_assoc. f_equal. apply N.lor_comm.
Qed.

Lemma testbit_small a k i : (a < 2 ^ k)%N -> (k <= i)%N -> N.testbit a i = false.
Proof.
  intros Ha Hi. rewrite <- (N.mod_small a (2 ^ k)) by assumption.
  apply N.mod_pow2_bits_high; assumption.
Qed.

Lemma pow2_pos k : (0 < 2 ^ k)%N.
Proof. apply N.neq_0_lt_0, N.pow_nonzero. discriminate. Qed.

Lemma pow2_nz k : (2 ^ k <> 0)%N.
Proof. apply N.pow_nonzero. discriminate. Qed.
#[global] Hint Resolve pow2_pos pow2_nz : core.

Lemma lt_pow2_of_bits a k : (forall i, (k <= i)%N -> N.testbit a i = false) -> (a < 2 ^ k)%N.
Proof.
  intro H.
  replace a with (a mod 2 ^ k)%N; [apply N.mod_lt; auto|].
  apply N.bits_inj; intro i.
  destruct (N.lt_ge_cases i k) as [Hi|Hi].
  - apply N.mod_pow2_bits_low; assumption.
  - rewrite N.mod_pow2_bits_high by assumption. symmetry; apply H; assumption.
Qed.
