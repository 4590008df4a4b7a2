(** Proofs about the order of floats and about INT96 timestamps. *)
From Verif Require Import Base.Prelude Spec.NumbersSpec Model.Native.
Open Scope N_scope.

(** Magnitudes in units of the smallest positive number. *)
Definition size_of (mb a : N) : N := if a / 2 ^ mb =? 0 then a mod 2 ^ mb else (2 ^ mb + a mod 2 ^ mb) * 2 ^ (a / 2 ^ mb - 1).
Lemma size_of_lt mb a b : a < b -> size_of mb a < size_of mb b.
Proof.
  intro H. unfold size_of. set (p := 2 ^ mb). assert (Hp : 0 < p) by (apply N.neq_0_lt_0, N.pow_nonzero; discriminate). clearbody p.
  pose proof (N.div_mod a p ltac:(lia)) as Ea. pose proof (N.div_mod b p ltac:(lia)) as Eb.
  pose proof (N.mod_lt a p ltac:(lia)) as Ha. pose proof (N.mod_lt b p ltac:(lia)) as Hb.
  assert (Hq : a / p <= b / p) by (apply N.div_le_mono; lia).
  set (qa := a / p) in *. set (qb := b / p) in *. set (ra := a mod p) in *. set (rb := b mod p) in *. clearbody qa qb ra rb.
  destruct (N.eq_dec qa qb) as [->|Hne].
  - assert (ra < rb) by (clear - H Ea Eb; lia). destruct (qb =? 0); [assumption|].
    apply N.mul_lt_mono_pos_r; [apply N.neq_0_lt_0, N.pow_nonzero; discriminate|lia].
  - assert (Hl : qa < qb) by lia. clear H Ea Eb a b. replace (qb =? 0) with false by lia.
    assert (H2 : p * 2 ^ (qb - 1) <= (p + rb) * 2 ^ (qb - 1)) by (apply N.mul_le_mono_r; lia).
    destruct (N.eqb_spec qa 0) as [->|Hz].
    + assert (1 <= 2 ^ (qb - 1)) by (apply N.neq_0_lt_0 in Hp; pose proof (N.pow_nonzero 2 (qb - 1) ltac:(discriminate)); lia).
      assert (p * 1 <= p * 2 ^ (qb - 1)) by (apply N.mul_le_mono_l; assumption). lia.
    + eapply N.lt_le_trans; [|exact H2].
      apply N.lt_le_trans with (p * 2 ^ qa).
      * replace qa with (N.succ (qa - 1)) at 2 by lia. rewrite N.pow_succ_r'. replace (p * (2 * 2 ^ (qa - 1))) with ((p + p) * 2 ^ (qa - 1)) by lia.
        apply N.mul_lt_mono_pos_r; [apply N.neq_0_lt_0, N.pow_nonzero; discriminate|lia].
      * apply N.mul_le_mono_l, N.pow_le_mono_r; [discriminate|lia].
Qed.
Lemma size_of_compare mb a b : (size_of mb a ?= size_of mb b) = (a ?= b).
Proof.
  destruct (N.compare_spec a b) as [->|H|H]; [apply N.compare_refl|rewrite N.compare_lt_iff; apply size_of_lt; exact H|].
  rewrite N.compare_gt_iff. apply size_of_lt. exact H.
Qed.

Section Float.
Context (eb mb inf : N) (Heb : 0 < eb) (Hinf : inf = (2 ^ eb - 1) * 2 ^ mb).
Let w := eb + mb + 1.

Lemma value_of b : b < 2 ^ w ->
  let mag := float_mag w b in
  float_value eb mb b =
    if inf <? mag then NaN
    else if inf =? mag then Infinite (negb (b <? 2 ^ (w - 1)))
    else Finite (if b <? 2 ^ (w - 1) then Z.of_N (size_of mb mag) else (- Z.of_N (size_of mb mag))%Z).
Proof.
  intros Hb mag. unfold float_value. assert (Hw : w - 1 = eb + mb) by (unfold w; lia). assert (Emag : mag = b mod 2 ^ (eb + mb)) by (unfold mag, float_mag; rewrite Hw; reflexivity). rewrite Hw. clearbody mag.
  assert (Hpe : 2 ^ eb <> 0) by (apply N.pow_nonzero; discriminate). assert (Hpm : 2 ^ mb <> 0) by (apply N.pow_nonzero; discriminate).
  assert (Hm : b mod 2 ^ mb = mag mod 2 ^ mb).
  { rewrite Emag, N.pow_add_r, (N.mul_comm (2 ^ eb)), N.mod_mul_r by assumption. rewrite (N.mul_comm (2 ^ mb)), N.mod_add, N.mod_mod by assumption. reflexivity. }
  assert (He : (b / 2 ^ mb) mod 2 ^ eb = mag / 2 ^ mb).
  { rewrite Emag, N.pow_add_r, (N.mul_comm (2 ^ eb)), N.mod_mul_r by assumption.
    rewrite N.add_comm, (N.mul_comm (2 ^ mb)), N.div_add_l by assumption. rewrite (N.div_small (b mod 2 ^ mb)) by (apply N.mod_lt; assumption). lia. }
  assert (Hs : N.testbit b (eb + mb) = negb (b <? 2 ^ (eb + mb))).
  { rewrite N.testbit_eqb. destruct (N.ltb_spec b (2 ^ (eb + mb))) as [L|L].
    - rewrite N.div_small by exact L. reflexivity.
    - assert (E : b / 2 ^ (eb + mb) = 1).
      { assert (Hb' : b < 2 * 2 ^ (eb + mb)).
        { replace (2 * 2 ^ (eb + mb)) with (2 ^ w); [exact Hb|]. unfold w. rewrite N.add_1_r, N.pow_succ_r'. reflexivity. }
        set (x := 2 ^ (eb + mb)) in *. clearbody x. clear - Hb' L. symmetry. apply (N.div_unique _ _ _ (b - x)); lia. }
      rewrite E. reflexivity. }
  rewrite Hm, He, Hs. clear Hm He Hs.
  assert (Hmag : mag < 2 ^ eb * 2 ^ mb) by (rewrite Emag, <- N.pow_add_r; apply N.mod_lt, N.pow_nonzero; discriminate). clear Emag.
  pose proof (N.div_mod mag (2 ^ mb) Hpm) as E. pose proof (N.mod_lt mag (2 ^ mb) Hpm) as Hr. unfold size_of.
  set (q := mag / 2 ^ mb) in *. set (r := mag mod 2 ^ mb) in *. set (p := 2 ^ mb) in *. set (k := 2 ^ eb) in *. clearbody q r p k.
  assert (Hq : q < k) by (apply (N.mul_lt_mono_pos_l p); lia).
  rewrite Hinf. destruct (N.eqb_spec q (k - 1)) as [->|Hn].
  - replace ((k - 1) * p <? mag) with (negb (r =? 0)); [destruct (r =? 0) eqn:Er|].
    + cbn [negb]. replace ((k - 1) * p =? mag) with true; [reflexivity|]. symmetry. apply N.eqb_eq. apply N.eqb_eq in Er. rewrite E, Er; lia.
    + reflexivity.
    + destruct (N.eqb_spec r 0) as [Er|Er]; cbn [negb]; symmetry; [apply N.ltb_ge|apply N.ltb_lt]; rewrite E, (N.mul_comm p); lia.
  - assert (Hlt : mag < (k - 1) * p).
    { assert (q + 1 <= k - 1) by lia. assert ((q + 1) * p <= (k - 1) * p) by (apply N.mul_le_mono_r; assumption). rewrite E, (N.mul_comm p). lia. }
    replace ((k - 1) * p <? mag) with false by (symmetry; apply N.ltb_ge; lia).
    replace ((k - 1) * p =? mag) with false by (symmetry; apply N.eqb_neq; lia).
    destruct (b <? 2 ^ (eb + mb)); reflexivity.
Qed.
End Float.

Lemma float_cmp_spec eb mb inf a b : 0 < eb -> inf = (2 ^ eb - 1) * 2 ^ mb ->
  a < 2 ^ (eb + mb + 1) -> b < 2 ^ (eb + mb + 1) ->
  float_partial_cmp (eb + mb + 1) inf a b = real_compare (float_value eb mb a) (float_value eb mb b).
Proof.
  intros He Hi Ha Hb. rewrite (value_of eb mb inf He Hi a Ha), (value_of eb mb inf He Hi b Hb).
  unfold float_partial_cmp, float_nan, float_key.
  set (A := float_mag (eb + mb + 1) a). set (B := float_mag (eb + mb + 1) b).
  set (sa := a <? 2 ^ (eb + mb + 1 - 1)). set (sb := b <? 2 ^ (eb + mb + 1 - 1)).
  clearbody A B sa sb. clear Ha Hb a b.
  assert (Hinf : 0 < inf).
  { assert (2 ^ 1 <= 2 ^ eb) by (apply N.pow_le_mono_r; [discriminate|lia]). change (2 ^ 1) with 2 in *.
    assert (2 ^ mb <> 0) by (apply N.pow_nonzero; discriminate). rewrite Hi. apply N.mul_pos_pos; lia. }
  destruct (inf <? A) eqn:EA; [reflexivity|]. destruct (inf <? B) eqn:EB; cbn [orb].
  { destruct (inf =? A); destruct sa; reflexivity. }
  apply N.ltb_ge in EA, EB.
  pose proof (size_of_compare mb A B) as HC. pose proof (size_of_lt mb 0 A) as HA. pose proof (size_of_lt mb 0 B) as HB.
  assert (H0 : size_of mb 0 = 0). { unfold size_of. rewrite N.div_0_l, N.mod_0_l by (apply N.pow_nonzero; discriminate). reflexivity. }
  rewrite H0 in HA, HB. set (SA := size_of mb A) in *. set (SB := size_of mb B) in *.
  assert (ZA : A = 0 -> SA = 0) by (intros ->; exact H0). assert (ZB : B = 0 -> SB = 0) by (intros ->; exact H0).
  clearbody SA SB. clear H0 Hi.
  destruct (N.eqb_spec inf A) as [<-|NA]; destruct (N.eqb_spec inf B) as [<-|NB]; destruct sa, sb; cbn [negb real_compare]; f_equal;
    rewrite ?Z.compare_refl; try reflexivity;
    try (apply Z.compare_lt_iff; lia); try (apply Z.compare_gt_iff; lia).
  - rewrite !N2Z.inj_compare. symmetry. exact HC.
  - destruct (N.eq_dec A 0) as [HA0|HA0]; destruct (N.eq_dec B 0) as [HB0|HB0].
    + rewrite (ZA HA0), (ZB HB0), HA0, HB0. reflexivity.
    + transitivity Gt; [apply Z.compare_gt_iff|symmetry; apply Z.compare_gt_iff]; lia.
    + transitivity Gt; [apply Z.compare_gt_iff|symmetry; apply Z.compare_gt_iff]; lia.
    + transitivity Gt; [apply Z.compare_gt_iff|symmetry; apply Z.compare_gt_iff]; lia.
  - destruct (N.eq_dec A 0) as [HA0|HA0]; destruct (N.eq_dec B 0) as [HB0|HB0].
    + rewrite (ZA HA0), (ZB HB0), HA0, HB0. reflexivity.
    + transitivity Lt; [apply Z.compare_lt_iff|symmetry; apply Z.compare_lt_iff]; lia.
    + transitivity Lt; [apply Z.compare_lt_iff|symmetry; apply Z.compare_lt_iff]; lia.
    + transitivity Lt; [apply Z.compare_lt_iff|symmetry; apply Z.compare_lt_iff]; lia.
  - rewrite !Z.compare_opp, !N2Z.inj_compare, (N.compare_antisym SA SB), (N.compare_antisym A B), HC. reflexivity.
Qed.

(** ** INT96 *)
Lemma wrap_s_64 z : wrap_s 64 z = ((z + 2 ^ 63) mod 2 ^ 64 - 2 ^ 63)%Z.
Proof.
  unfold wrap_s, of_signed, to_signed. change (Z.of_N 64) with 64%Z. change (2 ^ (64 - 1)) with 9223372036854775808.
  change (2 ^ 64)%Z with 18446744073709551616%Z. change (2 ^ 63)%Z with 9223372036854775808%Z.
  pose proof (Z.mod_pos_bound z 18446744073709551616 ltac:(lia)) as H.
  pose proof (Z.div_mod z 18446744073709551616 ltac:(lia)) as E.
  set (q := (z / 18446744073709551616)%Z) in *. set (r := (z mod 18446744073709551616)%Z) in *. clearbody q r.
  destruct (N.ltb_spec (Z.to_N r) 9223372036854775808) as [L|L].
  - rewrite Z2N.id by lia. replace ((z + 9223372036854775808) mod 18446744073709551616)%Z with (r + 9223372036854775808)%Z; [lia|].
    apply (Z.mod_unique_pos _ _ q); lia.
  - rewrite Z2N.id by lia. replace ((z + 9223372036854775808) mod 18446744073709551616)%Z with (r - 9223372036854775808)%Z; [lia|].
    apply (Z.mod_unique_pos _ _ (q + 1)); lia.
Qed.
Lemma wrap_s_cong a b : ((a - b) mod 2 ^ 64 = 0)%Z -> wrap_s 64 a = wrap_s 64 b.
Proof.
  intro H. rewrite !wrap_s_64. f_equal. apply Z.mod_divide in H; [|discriminate]. destruct H as [k Hk].
  replace (a + 2 ^ 63)%Z with (b + 2 ^ 63 + k * 2 ^ 64)%Z by lia. apply Z.mod_add. discriminate.
Qed.
Lemma wrap_s_id z : in_s 64 z = true -> wrap_s 64 z = z.
Proof.
  unfold in_s. change (2 ^ (Z.of_N 64 - 1))%Z with (2 ^ 63)%Z. rewrite wrap_s_64. change (2 ^ 63)%Z with 9223372036854775808%Z. change (2 ^ 64)%Z with 18446744073709551616%Z.
  intro H. apply andb_true_iff in H as [H1 H2]. rewrite Z.mod_small; lia.
Qed.
Lemma wrap_s_in z : in_s 64 (wrap_s 64 z) = true.
Proof.
  unfold in_s. change (2 ^ (Z.of_N 64 - 1))%Z with (2 ^ 63)%Z. rewrite wrap_s_64. pose proof (Z.mod_pos_bound (z + 2 ^ 63) (2 ^ 64) ltac:(reflexivity)) as H.
  set (r := ((z + 2 ^ 63) mod 2 ^ 64)%Z) in *. clearbody r. change (2 ^ 63)%Z with 9223372036854775808%Z in *. change (2 ^ 64)%Z with 18446744073709551616%Z in *. lia.
Qed.

Lemma nanos_exact m v0 v1 : v0 < 2 ^ 32 -> v1 < 2 ^ 32 ->
  sadd m 64 (wrap_s 64 (Z.of_N v1 * 2 ^ 32)) (Z.of_N v0) = Ok (to_signed 64 (v0 + 2 ^ 32 * v1)).
Proof.
  intros H0 H1. change (2 ^ 32) with 4294967296 in *. change (2 ^ 32)%Z with 4294967296%Z.
  assert (E : wrap_s 64 (Z.of_N v1 * 4294967296) = (if v1 <? 2147483648 then (Z.of_N v1 * 4294967296)%Z else (Z.of_N v1 * 4294967296 - 18446744073709551616)%Z)).
  { rewrite wrap_s_64. change (2 ^ 63)%Z with 9223372036854775808%Z. change (2 ^ 64)%Z with 18446744073709551616%Z.
    destruct (N.ltb_spec v1 2147483648).
    - rewrite Z.mod_small; lia.
    - replace ((Z.of_N v1 * 4294967296 + 9223372036854775808) mod 18446744073709551616)%Z with (Z.of_N v1 * 4294967296 - 9223372036854775808)%Z; [lia|].
      apply (Z.mod_unique_pos _ _ 1); lia. }
  rewrite E. unfold sadd, in_s, to_signed. change (2 ^ (Z.of_N 64 - 1))%Z with 9223372036854775808%Z.
  change (2 ^ (64 - 1)) with 9223372036854775808. change (2 ^ Z.of_N 64)%Z with 18446744073709551616%Z.
  destruct (N.ltb_spec v1 2147483648).
  - replace (v0 + 4294967296 * v1 <? 9223372036854775808) with true by (symmetry; apply N.ltb_lt; lia).
    replace (_ && _)%bool with true; [f_equal; lia|]. symmetry. apply andb_true_iff. split; [apply Z.leb_le|apply Z.ltb_lt]; lia.
  - replace (v0 + 4294967296 * v1 <? 9223372036854775808) with false by (symmetry; apply N.ltb_ge; lia).
    replace (_ && _)%bool with true; [f_equal; lia|]. symmetry. apply andb_true_iff. split; [apply Z.leb_le|apply Z.ltb_lt]; lia.
Qed.
Lemma int96_spec m v0 v1 v2 : v0 < 2 ^ 32 -> v1 < 2 ^ 32 -> v2 < 2 ^ 32 ->
  let day := Z.of_N v2 in let nanos := to_signed 64 (v0 + 2 ^ 32 * v1) in
  int96_to_i64_ns m (v0, v1, v2) =
    match m with
    | Wrapping => Ok (wrap_s 64 (instant day nanos))
    | Checked => if in_s 64 (instant day 0) && in_s 64 (instant day nanos) then Ok (instant day nanos) else Panic
    end.
Proof.
  intros H0 H1 H2 day nanos. unfold int96_to_i64_ns. rewrite (nanos_exact m v0 v1 H0 H1). fold nanos. fold day. cbn [bind].
  assert (Hd : (0 <= day < 4294967296)%Z) by (unfold day; change (2 ^ 32) with 4294967296 in H2; lia). clearbody day nanos.
  assert (Ej : julian_day 1970 1 1 = 2440588%Z) by reflexivity.
  assert (E1 : ssub m 64 day 2440588 = Ok (day - 2440588)%Z).
  { unfold ssub, in_s. change (2 ^ (Z.of_N 64 - 1))%Z with 9223372036854775808%Z.
    replace (_ && _)%bool with true; [reflexivity|]. symmetry. apply andb_true_iff. split; [apply Z.leb_le|apply Z.ltb_lt]; lia. }
  rewrite E1. cbn [bind].
  assert (E2 : smul m 64 (day - 2440588) 86400 = Ok ((day - 2440588) * 86400)%Z).
  { unfold smul, in_s. change (2 ^ (Z.of_N 64 - 1))%Z with 9223372036854775808%Z.
    replace (_ && _)%bool with true; [reflexivity|]. symmetry. apply andb_true_iff. split; [apply Z.leb_le|apply Z.ltb_lt]; lia. }
  rewrite E2. cbn [bind]. unfold smul, sadd, instant, day_ns. rewrite Ej.
  replace ((day - 2440588) * 86400 * 1000000000)%Z with ((day - 2440588) * (24 * 60 * 60 * 1000000000) + 0)%Z by lia.
  set (D := ((day - 2440588) * (24 * 60 * 60 * 1000000000))%Z). clearbody D. rewrite Z.add_0_r.
  destruct (in_s 64 D) eqn:ED.
  - cbn [bind andb]. destruct (in_s 64 (D + nanos)) eqn:ES; destruct m; try reflexivity. rewrite wrap_s_id by exact ES. reflexivity.
  - destruct m; [reflexivity|cbn [bind andb]].
    destruct (in_s 64 (wrap_s 64 D + nanos)) eqn:ES.
    + f_equal. rewrite <- (wrap_s_id _ ES). apply wrap_s_cong. rewrite (wrap_s_64 D).
      pose proof (Z.div_mod (D + 2 ^ 63) (2 ^ 64) ltac:(discriminate)) as E.
      replace (_ - _)%Z with (- ((D + 2 ^ 63) / 2 ^ 64) * 2 ^ 64)%Z by lia. apply Z.mod_mul. discriminate.
    + f_equal. apply wrap_s_cong. rewrite (wrap_s_64 D).
      pose proof (Z.div_mod (D + 2 ^ 63) (2 ^ 64) ltac:(discriminate)) as E.
      replace (_ - _)%Z with (- ((D + 2 ^ 63) / 2 ^ 64) * 2 ^ 64)%Z by lia. apply Z.mod_mul. discriminate.
Qed.
