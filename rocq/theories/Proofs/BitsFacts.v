(** Bit streams versus numbers. *)
From Verif Require Import Base.Prelude Base.LeFacts Spec.Bits.
Open Scope N_scope.

Lemma lsb_bits_length w v : length (lsb_bits w v) = w.
Proof. unfold lsb_bits. rewrite map_length, seq_length. reflexivity. Qed.

Lemma lsb_bits_S w v : lsb_bits (S w) v = N.testbit v 0 :: lsb_bits w (v / 2).
Proof.
  unfold lsb_bits. cbn [seq map]. f_equal.
  rewrite <- seq_shift, map_map. apply map_ext; intro i.
  replace (N.of_nat (S i)) with (N.of_nat i + 1) by lia.
  change 2 with (2 ^ 1). rewrite N.div_pow2_bits. reflexivity.
Qed.

Lemma lsb_bits_add a b v : lsb_bits (a + b) v = lsb_bits a v ++ lsb_bits b (v / 2 ^ N.of_nat a).
Proof.
  revert v; induction a as [|a IH]; intro v.
  - cbn [Nat.add]. change (2 ^ N.of_nat 0) with 1. rewrite N.div_1_r. reflexivity.
  - cbn [Nat.add]. rewrite !lsb_bits_S, IH. cbn [app]. do 3 f_equal.
    rewrite N.div_div by (try lia; auto).
    f_equal. replace (N.of_nat (S a)) with (1 + N.of_nat a) by lia.
    rewrite N.pow_add_r. reflexivity.
Qed.

Lemma lsb_bits_mod w v k : (w <= k)%nat -> lsb_bits w (v mod 2 ^ N.of_nat k) = lsb_bits w v.
Proof.
  intro H. unfold lsb_bits. apply map_ext_in; intros i Hi. apply in_seq in Hi.
  apply N.mod_pow2_bits_low. lia.
Qed.

Lemma bits_val_lsb w v : bits_val (lsb_bits w v) = v mod 2 ^ N.of_nat w.
Proof.
  revert v; induction w as [|w IH]; intro v.
  - cbn. rewrite N.mod_1_r. reflexivity.
  - rewrite lsb_bits_S. cbn [bits_val]. rewrite IH.
    replace (N.of_nat (S w)) with (1 + N.of_nat w) by lia.
    rewrite N.pow_add_r. change (2 ^ 1) with 2.
    rewrite N.mod_mul_r by (try lia; auto).
    f_equal. rewrite <- N.bit0_mod. destruct (N.testbit v 0); reflexivity.
Qed.

Lemma skipn_lsb k n v : skipn k (lsb_bits n v) = lsb_bits (n - k) (v / 2 ^ N.of_nat k).
Proof.
  destruct (Nat.le_gt_cases k n) as [H|H].
  - replace n with (k + (n - k))%nat at 1 by lia. rewrite lsb_bits_add.
    rewrite skipn_app, lsb_bits_length, Nat.sub_diag. cbn [skipn].
    rewrite skipn_all2 by (rewrite lsb_bits_length; lia). reflexivity.
  - rewrite skipn_all2 by (rewrite lsb_bits_length; lia).
    replace (n - k)%nat with 0%nat by lia. reflexivity.
Qed.

Lemma firstn_lsb k n v : firstn k (lsb_bits n v) = lsb_bits (min k n) v.
Proof.
  destruct (Nat.le_gt_cases k n) as [H|H].
  - replace n with (k + (n - k))%nat at 1 by lia. rewrite lsb_bits_add.
    rewrite firstn_app, lsb_bits_length, Nat.sub_diag. cbn [firstn].
    rewrite app_nil_r, firstn_all2 by (rewrite lsb_bits_length; lia). f_equal; lia.
  - rewrite firstn_all2 by (rewrite lsb_bits_length; lia). f_equal; lia.
Qed.

Lemma bit_stream_le l : bytes_ok l -> bit_stream l = lsb_bits (8 * length l) (le l).
Proof.
  induction l as [|b l IH]; intro H; [reflexivity|].
  apply bytes_ok_cons in H as [Hb Hl].
  unfold bit_stream in *. cbn [flat_map length le]. rewrite IH by assumption.
  replace (8 * S (length l))%nat with (8 + 8 * length l)%nat by lia.
  rewrite lsb_bits_add. change (2 ^ N.of_nat 8) with 256.
  replace ((b + 256 * le l) / 256) with (le l).
  2:{ rewrite N.mul_comm, N.div_add by lia. rewrite N.div_small by lia. lia. }
  f_equal.
  rewrite <- (lsb_bits_mod 8 (b + 256 * le l) 8) by lia. change (2 ^ N.of_nat 8) with 256.
  rewrite N.mul_comm, N.mod_add by lia. rewrite N.mod_small by lia. reflexivity.
Qed.

Lemma bit_stream_length l : length (bit_stream l) = (8 * length l)%nat.
Proof.
  unfold bit_stream. induction l as [|b l IH]; [reflexivity|].
  cbn [flat_map length]. rewrite app_length, IH, lsb_bits_length. lia.
Qed.

Lemma bit_field_le w i l : bytes_ok l ->
  bit_field w i l = (le l / 2 ^ N.of_nat (i * w)) mod 2 ^ N.of_nat w.
Proof.
  intro H. unfold bit_field. rewrite bit_stream_le by assumption.
  rewrite skipn_lsb, firstn_lsb, bits_val_lsb.
  destruct (Nat.le_gt_cases w (8 * length l - i * w)) as [Hw|Hw].
  - rewrite Nat.min_l by assumption. reflexivity.
  - rewrite Nat.min_r by lia.
    assert (Hb : le l / 2 ^ N.of_nat (i * w) < 2 ^ N.of_nat (8 * length l - i * w)).
    { apply N.div_lt_upper_bound; [auto|]. rewrite <- N.pow_add_r.
      eapply N.lt_le_trans; [apply le_bound; assumption|].
      apply N.pow_le_mono_r; [discriminate|]. unfold nlen. lia. }
    rewrite N.mod_small by assumption. symmetry; apply N.mod_small.
    eapply N.lt_le_trans; [exact Hb|]. apply N.pow_le_mono_r; [discriminate|]. lia.
Qed.

(** Numbers from [w]-bit digits. *)
Fixpoint pval (w : nat) (l : list N) : N :=
  match l with
  | [] => 0
  | v :: r => v + 2 ^ N.of_nat w * pval w r
  end.

Lemma pval_bound w l : Forall (fits w) l -> pval w l < 2 ^ N.of_nat (length l * w).
Proof.
  induction 1 as [|v l Hv Hl IH]; [cbn; lia|].
  cbn [pval length]. unfold fits in Hv.
  replace (N.of_nat (S (length l) * w)) with (N.of_nat w + N.of_nat (length l * w)) by lia.
  rewrite N.pow_add_r.
  assert (2 ^ N.of_nat w * pval w l <= 2 ^ N.of_nat w * (2 ^ N.of_nat (length l * w) - 1))
    by (apply N.mul_le_mono_l; lia).
  rewrite N.mul_sub_distr_l in H. 
  assert (2 ^ N.of_nat w * 1 <= 2 ^ N.of_nat w * 2 ^ N.of_nat (length l * w)).
  { apply N.mul_le_mono_l. pose proof (pow2_pos (N.of_nat (length l * w))). lia. }
  lia.
Qed.

Lemma pval_app w a b : pval w (a ++ b) = pval w a + 2 ^ N.of_nat (length a * w) * pval w b.
Proof.
  induction a as [|v a IH]; cbn [app pval length].
  - change (2 ^ N.of_nat (0 * w)) with 1. lia.
  - rewrite IH. replace (N.of_nat (S (length a) * w)) with (N.of_nat w + N.of_nat (length a * w)) by lia.
    rewrite N.pow_add_r. lia.
Qed.

Lemma pval_repeat0 w n : pval w (repeat 0 n) = 0.
Proof. induction n as [|n IH]; cbn [repeat pval]; [reflexivity|]. rewrite IH. lia. Qed.

Lemma lsb_pval w l n : Forall (fits w) l ->
  lsb_bits (length l * w) (pval w l + 2 ^ N.of_nat (length l * w) * n) = flat_map (lsb_bits w) l.
Proof.
  intro H. revert n. induction H as [|v l Hv Hl IH]; intro n; [reflexivity|].
  cbn [length flat_map pval Nat.mul]. rewrite lsb_bits_add. unfold fits in Hv.
  replace (N.of_nat (w + length l * w)) with (N.of_nat w + N.of_nat (length l * w)) by lia.
  rewrite N.pow_add_r.
  replace (v + 2 ^ N.of_nat w * pval w l + 2 ^ N.of_nat w * 2 ^ N.of_nat (length l * w) * n)
    with (v + (pval w l + 2 ^ N.of_nat (length l * w) * n) * 2 ^ N.of_nat w) by lia.
  rewrite N.div_add by auto. rewrite N.div_small by assumption. rewrite N.add_0_l, IH.
  f_equal.
  rewrite <- (lsb_bits_mod w _ w) by lia. rewrite N.mod_add by auto.
  rewrite lsb_bits_mod by lia. reflexivity.
Qed.

Lemma pval_nth w l i n : Forall (fits w) l -> (i < length l)%nat ->
  ((pval w l + 2 ^ N.of_nat (length l * w) * n) / 2 ^ N.of_nat (i * w)) mod 2 ^ N.of_nat w = nth i l 0.
Proof.
  intros H. revert i n. induction H as [|v l Hv Hl IH]; intros i n Hi; [cbn in Hi; lia|].
  cbn [pval length Nat.mul] in *. unfold fits in Hv.
  replace (N.of_nat (w + length l * w)) with (N.of_nat w + N.of_nat (length l * w)) by lia.
  rewrite N.pow_add_r.
  replace (v + 2 ^ N.of_nat w * pval w l + 2 ^ N.of_nat w * 2 ^ N.of_nat (length l * w) * n)
    with (v + (pval w l + 2 ^ N.of_nat (length l * w) * n) * 2 ^ N.of_nat w) by lia.
  destruct i as [|i]; cbn [nth].
  - change (2 ^ N.of_nat (0 * w)) with 1. rewrite N.div_1_r, N.mod_add by auto.
    apply N.mod_small; assumption.
  - replace (N.of_nat (S i * w)) with (N.of_nat w + N.of_nat (i * w)) by lia.
    rewrite N.pow_add_r, <- N.div_div by auto.
    rewrite N.div_add by auto. rewrite (N.div_small v) by assumption. rewrite N.add_0_l.
    apply IH. lia.
Qed.

Lemma le_pval l : le l = pval 8 l.
Proof. induction l as [|b l IH]; [reflexivity|]. cbn [le pval]. rewrite IH. reflexivity. Qed.
