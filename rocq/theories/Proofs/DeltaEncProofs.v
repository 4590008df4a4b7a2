From Verif Require Import Base.Prelude Base.LeFacts Base.Iter Spec.Bits Spec.UlebSpec Spec.RleSpec Spec.DeltaSpec
  Model.Uleb128 Model.Bitpacked Model.DeltaBitpacked Proofs.UlebProofs Proofs.BitsFacts Proofs.BitpackedProofs
  Proofs.HybridRleProofs Proofs.HybridEncProofs Proofs.DeltaDecProofs.
Open Scope N_scope.

(** *** Packing a list whose first values fit *)

Lemma mod_split a b p q : a < 2 ^ p -> (a + 2 ^ p * b) mod 2 ^ (p + q) = a + 2 ^ p * (b mod 2 ^ q).
Proof.
  intro Ha. pose proof (pow2_pos p) as Hp. pose proof (pow2_pos q) as Hq.
  rewrite N.pow_add_r.
  pose proof (N.div_mod b (2 ^ q) ltac:(lia)) as E.
  pose proof (N.mod_lt b (2 ^ q) ltac:(lia)) as U.
  symmetry. apply N.mod_unique with (q := b / 2 ^ q).
  - nia.
  - rewrite E at 1. ring.
Qed.

Lemma mod_low a b p r : r <= p -> (a + 2 ^ p * b) mod 2 ^ r = a mod 2 ^ r.
Proof.
  intro H. replace p with (r + (p - r)) by lia. rewrite N.pow_add_r.
  replace (a + 2 ^ r * 2 ^ (p - r) * b) with (a + (2 ^ (p - r) * b) * 2 ^ r) by ring.
  apply N.mod_add. apply N.pow_nonzero. lia.
Qed.

Lemma encode_zip_prefix B w : (0 < w <= tbits B)%nat -> forall k good bad packed,
  (length good + length bad = k * tbits B)%nat -> Forall (fits w) good ->
  bytes_ok packed -> le packed = 0 -> length packed = (k * (w * B))%nat ->
  exists out, encode_zip B w true (chunk_list k (tbits B) (good ++ bad)) packed = Ok out /\
    length out = length packed /\ bytes_ok out /\ le out mod 2 ^ N.of_nat (length good * w) = pval w good.
Proof.
  intros Hw. induction k as [|k IH]; intros good bad packed Hl Hf Hok H0 Hlen.
  - destruct good; [|cbn [length] in Hl; lia]. exists packed. cbn [chunk_list encode_zip].
    split; [reflexivity|]. split; [reflexivity|]. split; [assumption|]. rewrite H0. reflexivity.
  - rewrite Nat.mul_succ_l in Hl, Hlen. cbn [chunk_list encode_zip]. rewrite packed_size_eq.
    assert (HwB : (0 < w * B)%nat) by (unfold tbits in *; nia).
    destruct packed as [|x r] eqn:Ep; [cbn [length] in Hlen; lia|]. rewrite <- Ep in *. clear Ep x r.
    replace (length packed <? w * B)%nat with false by lia. cbn [andb].
    assert (Hf0 : le (firstn (w * B) packed) = 0).
    { rewrite le_firstn, H0 by assumption. apply N.mod_0_l. apply N.pow_nonzero. lia. }
    assert (Hs0 : le (skipn (w * B) packed) = 0).
    { rewrite le_skipn, H0 by assumption. apply N.div_0_l. apply N.pow_nonzero. lia. }
    assert (Hfl : length (firstn (w * B) packed) = (w * B)%nat) by (rewrite firstn_length; lia).
    assert (Hsl : length (skipn (w * B) packed) = (k * (w * B))%nat) by (rewrite skipn_length; lia).
    assert (Htw : (8 * (w * B) = tbits B * w)%nat) by (unfold tbits; nia).
    destruct (Nat.le_gt_cases (tbits B) (length good)) as [Hc|Hc].
    + rewrite firstn_app, skipn_app. replace (tbits B - length good)%nat with 0%nat by lia.
      cbn [firstn skipn]. rewrite app_nil_r.
      destruct (pack_fits B w (firstn (tbits B) good) (firstn (w * B) packed) Hw) as (o & E & L & K & V).
      { apply Forall_firstn; assumption. } { rewrite firstn_length; lia. } { apply bytes_ok_firstn; assumption. }
      { lia. } { assumption. }
      rewrite E. cbn [bind].
      destruct (IH (skipn (tbits B) good) bad (skipn (w * B) packed)) as (o2 & E2 & L2 & K2 & V2).
      { rewrite skipn_length. lia. } { apply Forall_skipn; assumption. } { apply bytes_ok_skipn; assumption. }
      { assumption. } { assumption. }
      rewrite E2. cbn [bind]. exists (o ++ o2). split; [reflexivity|].
      split; [rewrite app_length, L, L2, Hfl, Hsl, Hlen; apply Nat.add_comm|]. split; [apply bytes_ok_app; split; assumption|].
      rewrite le_app. unfold nlen. rewrite L, Hfl.
      replace (8 * N.of_nat (w * B)) with (N.of_nat (tbits B * w)) by lia.
      replace (N.of_nat (length good * w)) with (N.of_nat (tbits B * w) + N.of_nat (length (skipn (tbits B) good) * w))
        by (rewrite skipn_length, Nat.mul_sub_distr_r; assert (tbits B * w <= length good * w)%nat by (apply Nat.mul_le_mono_r; assumption); clear - H; lia).
      rewrite mod_split.
      2:{ rewrite V. replace (tbits B * w)%nat with (length (firstn (tbits B) good) * w)%nat
            by (rewrite firstn_length, Nat.min_l by assumption; reflexivity). apply pval_bound. apply Forall_firstn; assumption. }
      rewrite V, V2. rewrite <- (firstn_skipn (tbits B) good) at 3. rewrite pval_app.
      rewrite firstn_length. replace (min (tbits B) (length good)) with (tbits B) by lia. reflexivity.
    + rewrite firstn_app. rewrite (firstn_all2 (n := tbits B)) by lia.
      rewrite skipn_app. rewrite (skipn_all2 (n := tbits B)) by lia. cbn [app].
      destruct (pack_prefix B w good (firstn (tbits B - length good) bad) (firstn (w * B) packed) Hw Hf)
        as (o & E & L & K & V & _).
      { rewrite firstn_length. clear - Hl Hc. lia. } { apply bytes_ok_firstn; assumption. } { lia. } { assumption. }
      rewrite E. cbn [bind].
      destruct (IH [] (skipn (tbits B - length good) bad) (skipn (w * B) packed)) as (o2 & E2 & L2 & K2 & V2).
      { cbn [length]. rewrite skipn_length. clear - Hl Hc. lia. } { constructor. } { apply bytes_ok_skipn; assumption. }
      { assumption. } { assumption. }
      cbn [app] in E2. rewrite E2. cbn [bind]. exists (o ++ o2). split; [reflexivity|].
      split; [rewrite app_length, L, L2, Hfl, Hsl, Hlen; apply Nat.add_comm|]. split; [apply bytes_ok_app; split; assumption|].
      rewrite le_app. unfold nlen. rewrite L, Hfl.
      assert (Hgw : (length good * w <= tbits B * w)%nat) by (apply Nat.mul_le_mono_r; lia).
      rewrite mod_low by (clear - Hgw Htw; lia). exact V.
Qed.

Lemma write_miniblock_spec w good bad : (w <= 64)%nat -> Forall (fits w) good ->
  (length good + length bad = 128)%nat ->
  exists body, write_miniblock (N.of_nat w) (good ++ bad) = Ok body /\ bytes_ok body /\
    (8 * length body = 128 * w)%nat /\
    firstn (length good * w) (bit_stream body) = flat_map (lsb_bits w) good.
Proof.
  intros Hw Hf Hl. unfold write_miniblock. destruct (0 <? N.of_nat w) eqn:Ew.
  - rewrite Nnat.Nat2N.id. unfold bp_encode. rewrite app_length, Hl.
    change (tbits 8) with 64%nat in *.
    unfold chunks_remainder, chunks_exact. rewrite app_length, Hl. change (128 / 64)%nat with 2%nat.
    change (2 * 64)%nat with 128%nat.
    rewrite skipn_all2 by (rewrite app_length; lia).
    replace ((64 * w + 7) / 8 =? 0)%nat with false by (Z.to_euclidean_division_equations; lia).
    assert (Hc : ceil8 (128 * w) = (16 * w)%nat).
    { unfold ceil8. replace (128 * w)%nat with (16 * w * 8)%nat by lia.
      rewrite Nat.div_mul, Nat.mod_mul by lia. cbn [Nat.eqb]. lia. }
    rewrite Hc.
    destruct (zeros_le (16 * w)) as [Z1 Z2].
    destruct (encode_zip_prefix 8 w ltac:(change (tbits 8) with 64%nat; lia) 2 good bad (repeat 0 (16 * w)))
      as (o & E & L & K & V); try assumption.
    { rewrite repeat_length. lia. }
    change (tbits 8) with 64%nat in E. rewrite E. exists o. rewrite repeat_length in L.
    split; [reflexivity|]. split; [assumption|]. split; [lia|].
    rewrite bit_stream_le by assumption. rewrite firstn_lsb.
    replace (min (length good * w) (8 * length o)) with (length good * w)%nat by nia.
    rewrite <- (lsb_bits_mod _ (le o) (length good * w)) by lia. rewrite V.
    rewrite <- (lsb_pval w good 0 Hf). rewrite N.mul_0_r, N.add_0_r. reflexivity.
  - assert (w = 0%nat) by lia. subst w. exists []. split; [reflexivity|]. split; [constructor|].
    split; [reflexivity|]. rewrite Nat.mul_0_r. cbn [firstn].
    clear. induction good; cbn [flat_map]; [reflexivity|]. cbn. exact IHgood.
Qed.

(** *** Wrapping arithmetic *)

Lemma wrap_closed z : wrap_s 64 z = ((z + 2 ^ 63) mod 2 ^ 64 - 2 ^ 63)%Z.
Proof.
  unfold wrap_s, to_signed, of_signed. change (2 ^ (64 - 1)) with 9223372036854775808.
  change (Z.of_N 64) with 64%Z. change (2 ^ 64)%Z with 18446744073709551616%Z.
  change (2 ^ 63)%Z with 9223372036854775808%Z.
  pose proof (Z.mod_pos_bound z 18446744073709551616 ltac:(lia)).
  destruct (Z.to_N (z mod 18446744073709551616) <? 9223372036854775808) eqn:E;
  rewrite Z2N.id by lia; Z.to_euclidean_division_equations; lia.
Qed.

Lemma wrap_range z : (- 2 ^ 63 <= wrap_s 64 z < 2 ^ 63)%Z.
Proof.
  rewrite wrap_closed. pose proof (Z.mod_pos_bound (z + 2 ^ 63) (2 ^ 64) ltac:(lia)). lia.
Qed.

Lemma wrap_add a b : wrap_s 64 (a + wrap_s 64 b) = wrap_s 64 (a + b).
Proof.
  rewrite !wrap_closed.
  replace (a + ((b + 2 ^ 63) mod 2 ^ 64 - 2 ^ 63) + 2 ^ 63)%Z with (a + (b + 2 ^ 63) mod 2 ^ 64)%Z by ring.
  rewrite Z.add_mod_idemp_r by lia. rewrite Z.add_assoc. reflexivity.
Qed.

Lemma of_signed_wrap z : of_signed 64 (wrap_s 64 z) = of_signed 64 z.
Proof.
  rewrite wrap_closed. unfold of_signed. change (Z.of_N 64) with 64%Z. f_equal.
  rewrite Zminus_mod_idemp_l. f_equal. ring.
Qed.

Lemma ssub_inv m a b r : ssub m 64 a b = Ok r -> r = wrap_s 64 (a - b) /\ (m = Checked -> in_s 64 (a - b) = true).
Proof.
  unfold ssub. destruct (in_s 64 (a - b)) eqn:E.
  - intro H; injection H as <-. rewrite wrap_id by (apply in_s_iff; assumption). auto.
  - destruct m; [discriminate|]. intro H; injection H as <-. split; [reflexivity|discriminate].
Qed.

Lemma ssub_ok m a b : m = Wrapping \/ in_s 64 (a - b) = true -> ssub m 64 a b = Ok (wrap_s 64 (a - b)).
Proof.
  intro H. unfold ssub. destruct (in_s 64 (a - b)) eqn:E.
  - rewrite wrap_id by (apply in_s_iff; assumption). reflexivity.
  - destruct H as [->|H]; [reflexivity|discriminate].
Qed.

Lemma ssub_no_err m a b e : ssub m 64 a b <> Err e.
Proof. unfold ssub. destruct (in_s 64 (a - b)); [discriminate|]. destruct m; discriminate. Qed.

(** *** The scan of a block *)

Fixpoint wdeltas (prev : Z) (items : list Z) : list Z :=
  match items with
  | [] => []
  | x :: r => wrap_s 64 (x - prev) :: wdeltas x r
  end.

Definition fmin := fold_left Z.min.
Definition fmax := fold_left Z.max.

(** No subtraction of the scan overflows. *)
Fixpoint diffs_ok (prev : Z) (items : list Z) : Prop :=
  match items with
  | [] => True
  | x :: r => in_s 64 (x - prev) = true /\ diffs_ok x r
  end.

Lemma last_cons {A} (x : A) r : forall d, last (x :: r) d = last r x.
Proof.
  revert x; induction r as [|y r IH]; intros x d; [reflexivity|].
  change (last (x :: y :: r) d) with (last (y :: r) d). rewrite (IH y d), (IH y x). reflexivity.
Qed.

Lemma enc_scan_inv m : forall items prev mn mx nb mn' nb' vs last',
  enc_scan m prev mn mx nb items = Ok (mn', nb', vs, last') ->
  vs = wdeltas prev items /\ last' = last items prev /\ mn' = fmin vs mn /\
  nb' = (match items with [] => nb | _ => N.size (of_signed 64 (fmax vs mx - mn')) end) /\
  (m = Checked -> diffs_ok prev items /\ (items <> [] -> in_s 64 (fmax vs mx - mn') = true)).
Proof.
  induction items as [|x r IH]; intros prev mn mx nb mn' nb' vs last' H; cbn [enc_scan] in H.
  - injection H as <- <- <- <-. cbn. repeat split; try reflexivity. congruence.
  - destruct (ssub m 64 x prev) as [d| |] eqn:E1; cbn [bind] in H; try discriminate.
    destruct (ssub m 64 (Z.max mx d) (Z.min mn d)) as [df| |] eqn:E2; cbn [bind] in H; try discriminate.
    destruct (enc_scan m x (Z.min mn d) (Z.max mx d) (N.size (of_signed 64 df)) r) as [[[[mn1 nb1] vs1] l1]| |] eqn:E3;
      cbn [bind] in H; try discriminate.
    injection H as <- <- <- <-.
    apply ssub_inv in E1 as [-> C1]. apply ssub_inv in E2 as [-> C2].
    apply IH in E3 as (Ev & El & Em & En & Ec). subst vs1 l1 mn1.
    cbn [wdeltas]. split; [reflexivity|]. split; [symmetry; apply last_cons|]. split; [reflexivity|].
    split.
    + rewrite En. destruct r; [|reflexivity]. cbn [wdeltas fmax fmin fold_left]. rewrite of_signed_wrap. reflexivity.
    + intro Hm. destruct (Ec Hm) as [Ec1 Ec2]. split.
      * cbn [diffs_ok]. auto.
      * intros _. destruct r as [|y r]; [cbn [wdeltas fmax fmin fold_left]; auto|]. apply Ec2. discriminate.
Qed.

Lemma fmin_le l : forall mn, (fmin l mn <= mn)%Z /\ Forall (fun v => fmin l mn <= v)%Z l.
Proof.
  induction l as [|x l IH]; intro mn; cbn [fmin fold_left]; [split; [lia|constructor]|].
  destruct (IH (Z.min mn x)) as [H1 H2]. fold (fmin l (Z.min mn x)). split; [lia|].
  constructor; [lia|assumption].
Qed.
Lemma fmax_ge l : forall mx, (mx <= fmax l mx)%Z /\ Forall (fun v => v <= fmax l mx)%Z l.
Proof.
  induction l as [|x l IH]; intro mx; cbn [fmax fold_left]; [split; [lia|constructor]|].
  destruct (IH (Z.max mx x)) as [H1 H2]. fold (fmax l (Z.max mx x)). split; [lia|].
  constructor; [lia|assumption].
Qed.
Lemma fmin_in l : forall mn, fmin l mn = mn \/ In (fmin l mn) l.
Proof.
  induction l as [|x l IH]; intro mn; cbn [fmin fold_left]; [left; reflexivity|].
  fold (fmin l (Z.min mn x)). destruct (IH (Z.min mn x)) as [H|H]; [|right; right; assumption].
  rewrite H. destruct (Z.min_spec mn x) as [[_ ->]|[_ ->]]; [left; reflexivity|right; left; reflexivity].
Qed.
Lemma fmax_in l : forall mx, fmax l mx = mx \/ In (fmax l mx) l.
Proof.
  induction l as [|x l IH]; intro mx; cbn [fmax fold_left]; [left; reflexivity|].
  fold (fmax l (Z.max mx x)). destruct (IH (Z.max mx x)) as [H|H]; [|right; right; assumption].
  rewrite H. destruct (Z.max_spec mx x) as [[_ ->]|[_ ->]]; [right; left; reflexivity|left; reflexivity].
Qed.

Lemma wdeltas_range items : forall prev, Forall (fun v => - 2 ^ 63 <= v < 2 ^ 63)%Z (wdeltas prev items).
Proof. induction items as [|x r IH]; intro prev; cbn [wdeltas]; constructor; [apply wrap_range|apply IH]. Qed.

Lemma wdeltas_length items : forall prev, length (wdeltas prev items) = length items.
Proof. induction items as [|x r IH]; intro prev; cbn [wdeltas length]; [reflexivity|]. rewrite IH; reflexivity. Qed.

Lemma enc_rel_inv m mn : forall vs rel, enc_rel m mn vs = Ok rel ->
  rel = map (fun v => of_signed 64 (v - mn)) vs /\
  (m = Checked -> Forall (fun v => in_s 64 (v - mn) = true) vs).
Proof.
  induction vs as [|v r IH]; intros rel H; cbn [enc_rel] in H.
  - injection H as <-. split; [reflexivity|constructor].
  - destruct (ssub m 64 v mn) as [d| |] eqn:E1; cbn [bind] in H; try discriminate.
    destruct (enc_rel m mn r) as [l| |] eqn:E2; cbn [bind] in H; try discriminate.
    injection H as <-. apply ssub_inv in E1 as [-> C]. destruct (IH _ eq_refl) as [-> Cr].
    cbn [map]. rewrite of_signed_wrap. split; [reflexivity|]. intro Hm. constructor; auto.
Qed.

Lemma size_fits a b : a <= b -> fits (N.to_nat (N.size b)) a.
Proof.
  intro H. unfold fits. rewrite Nnat.N2Nat.id. pose proof (N.size_gt b). lia.
Qed.

Lemma size_le64 a : a < 2 ^ 64 -> N.size a <= 64.
Proof.
  intro H. destruct (N.eq_dec a 0) as [->|Hn]; [cbn; lia|].
  rewrite N.size_log2 by assumption.
  assert (N.log2 a < 64) by (apply N.log2_lt_pow2; lia). lia.
Qed.

Lemma of_signed_nonneg z : (0 <= z < 2 ^ 64)%Z -> of_signed 64 z = Z.to_N z.
Proof. intro H. unfold of_signed. change (Z.of_N 64) with 64%Z. rewrite Z.mod_small by assumption. reflexivity. Qed.

Lemma firstn_wdeltas n : forall items prev, firstn n (wdeltas prev items) = wdeltas prev (firstn n items).
Proof.
  induction n as [|n IH]; intros [|x r] prev; cbn [firstn wdeltas]; try reflexivity. rewrite IH; reflexivity.
Qed.

Lemma skipn_wdeltas n : forall items prev,
  skipn n (wdeltas prev items) = wdeltas (last (firstn n items) prev) (skipn n items).
Proof.
  induction n as [|n IH]; intros [|x r] prev; cbn [firstn skipn wdeltas]; try reflexivity.
  rewrite IH, last_cons. reflexivity.
Qed.

Lemma zigzag_bytes_varint z : (- 2 ^ 63 <= z < 2 ^ 63)%Z ->
  exists h, zigzag_bytes z = Ok h /\ zigzag_varint z h.
Proof.
  intro H. exists (uleb_enc 10 (zz z)). split; [apply zigzag_bytes_enc; assumption|].
  split; [assumption|]. apply uleb_enc_varint. apply zz_bound. assumption.
Qed.

(** One block: what the scan and the packing produce. *)
Lemma enc_block_layout prev items deltas : items <> [] -> (length items <= 128)%nat -> length deltas = 128%nat ->
  let vs := wdeltas prev items in
  let mn := fmin vs i64_max in
  let nb := N.size (of_signed 64 (fmax vs i64_min - mn)) in
  let rel := map (fun v => of_signed 64 (v - mn)) vs in
  exists body, write_miniblock nb (rel ++ skipn (length rel) deltas) = Ok body /\
    miniblocks 128 [nb mod 256] rel body /\ nb mod 256 < 256 /\ (- 2 ^ 63 <= mn < 2 ^ 63)%Z /\
    length (rel ++ skipn (length rel) deltas) = 128%nat /\
    map (fun d => wrap_s 64 (mn + to_signed 64 d)) rel = vs.
Proof.
  intros Hne Hl Hd. cbv zeta. set (vs := wdeltas prev items).
  set (mn := fmin vs i64_max). set (mx := fmax vs i64_min).
  pose proof (wdeltas_range items prev) as Hr. fold vs in Hr.
  assert (Hvl : length vs = length items) by apply wdeltas_length.
  destruct (fmin_le vs i64_max) as [Hmn1 Hmn2]. fold mn in Hmn1, Hmn2.
  destruct (fmax_ge vs i64_min) as [Hmx1 Hmx2]. fold mx in Hmx1, Hmx2.
  assert (Hmnr : (- 2 ^ 63 <= mn < 2 ^ 63)%Z).
  { destruct (fmin_in vs i64_max) as [H|H]; fold mn in H; [rewrite H; unfold i64_max; lia|].
    rewrite Forall_forall in Hr. apply Hr; assumption. }
  assert (Hmxr : (- 2 ^ 63 <= mx < 2 ^ 63)%Z).
  { destruct (fmax_in vs i64_min) as [H|H]; fold mx in H; [rewrite H; unfold i64_min; lia|].
    rewrite Forall_forall in Hr. apply Hr; assumption. }
  assert (Hmm : (0 <= mx - mn < 2 ^ 64)%Z).
  { destruct vs as [|v vs']; [destruct items; [congruence|discriminate]|].
    inversion Hmn2; inversion Hmx2; subst. lia. }
  set (nb := N.size (of_signed 64 (mx - mn))).
  assert (Hnb : nb <= 64).
  { apply size_le64. rewrite of_signed_nonneg by assumption. lia. }
  assert (Hfits : Forall (fits (N.to_nat nb)) (map (fun v => of_signed 64 (v - mn)) vs)).
  { apply Forall_forall. intros d Hin. apply in_map_iff in Hin as (v & <- & Hin).
    rewrite Forall_forall in Hmn2, Hmx2. specialize (Hmn2 v Hin). specialize (Hmx2 v Hin). cbn beta in *.
    apply size_fits. rewrite !of_signed_nonneg by lia. lia. }
  set (rel := map (fun v => of_signed 64 (v - mn)) vs) in *.
  assert (Hrl : length rel = length items) by (unfold rel; rewrite map_length; assumption).
  destruct (write_miniblock_spec (N.to_nat nb) rel (skipn (length rel) deltas)) as (body & E & K & L & S);
    [lia|assumption|rewrite skipn_length; lia|].
  rewrite Nnat.N2Nat.id in E. exists body. split; [assumption|]. split.
  { replace (nb mod 256) with (N.of_nat (N.to_nat nb)) by (rewrite Nnat.N2Nat.id, N.mod_small; lia).
    rewrite <- (app_nil_r body).
    assert (Hfn : firstn 128 rel = rel) by (apply firstn_all2; lia).
    apply mb_cons; try rewrite Hfn; try assumption; try lia.
    - intro H. rewrite H in Hrl. destruct items; [congruence|discriminate].
    - rewrite skipn_all2 by lia. constructor. }
  split; [apply N.mod_lt; lia|]. split; [assumption|].
  split; [rewrite app_length, skipn_length; lia|].
  unfold rel. rewrite map_map. rewrite <- (map_id vs) at 2. apply map_ext_in. intros v Hin.
  change (to_signed 64 (of_signed 64 (v - mn))) with (wrap_s 64 (v - mn)). rewrite wrap_add.
  replace (mn + (v - mn))%Z with v by ring. apply wrap_id. rewrite Forall_forall in Hr. apply Hr; assumption.
Qed.

(** All the additions a decoder with overflow checks does on the blocks are in range. *)
Definition bl_adds_ok (bl : list dblock) : Prop :=
  Forall (fun b => Forall (fun d => in_s 64 (fst b + to_signed 64 d) = true) (snd b)) bl.

Lemma enc_blocks_conforms m : forall fuel prev items deltas data,
  length deltas = 128%nat -> enc_blocks m fuel prev items deltas = Ok data ->
  exists bl, blocks 1 128 bl data /\ stream_deltas bl = wdeltas prev items /\
    (m = Checked -> bl_adds_ok bl).
Proof.
  induction fuel as [|fuel IH]; intros prev items deltas data Hd H.
  - destruct items; [|discriminate]. injection H as <-. exists []. split; [constructor|]. split; [reflexivity|constructor].
  - cbn [enc_blocks] in H. destruct items as [|x0 r0] eqn:Eit.
    { injection H as <-. exists []. split; [constructor|]. split; [reflexivity|constructor]. }
    rewrite <- Eit in *. assert (Hne : items <> []) by (rewrite Eit; discriminate). clear Eit x0 r0.
    set (cur := firstn 128 items) in *. set (nxt := skipn 128 items) in *.
    destruct (enc_scan m prev i64_max i64_min 0 cur) as [[[[mn nb] vs] lst]| |] eqn:E1; cbn [bind] in H; try discriminate.
    destruct (enc_rel m mn vs) as [rel| |] eqn:E2; cbn [bind] in H; try discriminate.
    destruct (zigzag_bytes mn) as [head| |] eqn:E3; cbn [bind] in H; try discriminate.
    destruct (write_miniblock nb (rel ++ skipn (length rel) deltas)) as [body| |] eqn:E4; cbn [bind] in H; try discriminate.
    destruct (enc_blocks m fuel lst nxt (rel ++ skipn (length rel) deltas)) as [rest| |] eqn:E5; cbn [bind] in H; try discriminate.
    injection H as <-.
    apply enc_scan_inv in E1 as (-> & -> & Emn & Enb & C1). apply enc_rel_inv in E2 as [-> C2].
    assert (Hcne : cur <> []). { unfold cur. destruct items; [congruence|discriminate]. }
    assert (Hcl : (length cur <= 128)%nat) by (unfold cur; rewrite firstn_length; lia).
    destruct (enc_block_layout prev cur deltas Hcne Hcl Hd) as (body' & Eb & Hmb & Hnb & Hmn & Hl & Hds).
    rewrite <- Emn in *.
    assert (Enb' : nb = N.size (of_signed 64 (fmax (wdeltas prev cur) i64_min - mn))).
    { rewrite Enb. destruct cur; [congruence|reflexivity]. }
    rewrite <- Enb' in *. rewrite E4 in Eb. injection Eb as <-.
    destruct (zigzag_bytes_varint mn Hmn) as (h & Eh & Hh). rewrite E3 in Eh. injection Eh as <-.
    apply IH in E5 as (bl & Hbl & Hsd & Hadds); [|assumption].
    set (rel := map (fun v => of_signed 64 (v - mn)) (wdeltas prev cur)) in *.
    assert (Hrl : length rel = length cur) by (unfold rel; rewrite map_length; apply wdeltas_length).
    exists ((mn, rel) :: bl). split; [|split].
    + change (blocks 1 128 ((mn, rel) :: bl) (head ++ [nb mod 256] ++ body ++ rest)).
      apply bs_cons; try assumption; try reflexivity.
      * apply bytes_ok_cons. split; [assumption|constructor].
      * intro Hn. rewrite Hn in Hrl. destruct cur; [congruence|discriminate].
      * lia.
      * intro Hb. rewrite Hrl. unfold cur. rewrite firstn_length.
        enough (128 < length items)%nat by lia.
        destruct (Nat.le_gt_cases (length items) 128) as [Hle|Hgt]; [|assumption]. exfalso. apply Hb.
        assert (Hn0 : nxt = []) by (apply skipn_all2; assumption). rewrite Hn0 in Hsd. cbn [wdeltas] in Hsd.
        destruct bl as [|[mn1 ds1] bl]; [reflexivity|]. exfalso. inversion Hbl. subst.
        unfold stream_deltas in Hsd. cbn [flat_map] in Hsd. apply app_eq_nil in Hsd as [Hsd _].
        unfold block_deltas in Hsd. cbn [snd] in Hsd. destruct ds1; [congruence|discriminate].
    + change (stream_deltas ((mn, rel) :: bl)) with (block_deltas (mn, rel) ++ stream_deltas bl).
      unfold block_deltas. cbn [fst snd]. rewrite Hds, Hsd.
      unfold cur at 1, nxt. rewrite <- firstn_wdeltas. unfold cur. rewrite <- skipn_wdeltas.
      apply firstn_skipn.
    + intro Hm. constructor; [|apply Hadds; assumption]. cbn [fst snd].
      specialize (C2 Hm). unfold rel. apply Forall_forall. intros d Hin. apply in_map_iff in Hin as (v & <- & Hin).
      rewrite Forall_forall in C2. specialize (C2 v Hin). cbn beta in C2.
      change (to_signed 64 (of_signed 64 (v - mn))) with (wrap_s 64 (v - mn)).
      rewrite wrap_id by (apply in_s_iff; assumption). replace (mn + (v - mn))%Z with v by ring.
      apply in_s_iff. pose proof (wdeltas_range cur prev) as Hr. rewrite Forall_forall in Hr. apply Hr; assumption.
Qed.

Lemma running_wdeltas : forall r x, Forall (fun v => - 2 ^ 63 <= v < 2 ^ 63)%Z r ->
  running x (wdeltas x r) = x :: r.
Proof.
  induction r as [|y r IH]; intros x H; cbn [wdeltas running]; [reflexivity|].
  inversion H; subst. rewrite wrap_add. replace (x + (y - x))%Z with y by ring. rewrite wrap_id by assumption.
  rewrite IH by assumption. reflexivity.
Qed.

Lemma diffs_ok_running : forall r x, Forall (fun v => - 2 ^ 63 <= v < 2 ^ 63)%Z r -> diffs_ok x r ->
  running_in_range x (wdeltas x r).
Proof.
  induction r as [|y r IH]; intros x Hr H; cbn [wdeltas running_in_range]; [trivial|].
  cbn [diffs_ok] in H. destruct H as [H1 H2]. inversion Hr; subst.
  rewrite wrap_id by (apply in_s_iff; assumption). replace (x + (y - x))%Z with y by ring.
  split; [apply in_s_iff; assumption|]. apply IH; assumption.
Qed.

Lemma diffs_ok_app a : forall b prev, diffs_ok prev a -> diffs_ok (last a prev) b -> diffs_ok prev (a ++ b).
Proof.
  induction a as [|x a IH]; intros b prev Ha Hb; cbn [app diffs_ok] in *; [assumption|].
  destruct Ha as [H1 H2]. split; [assumption|]. apply IH; [assumption|].
  rewrite last_cons in Hb. assumption.
Qed.

(** In checked mode a successful encoding overflowed nowhere. *)
Lemma enc_blocks_diffs : forall fuel prev items deltas data,
  enc_blocks Checked fuel prev items deltas = Ok data -> diffs_ok prev items.
Proof.
  induction fuel as [|fuel IH]; intros prev items deltas data H.
  - destruct items; [exact I|discriminate].
  - cbn [enc_blocks] in H. destruct items as [|x0 r0] eqn:Eit; [exact I|].
    rewrite <- Eit in *. clear Eit x0 r0.
    destruct (enc_scan Checked prev i64_max i64_min 0 (firstn 128 items)) as [[[[mn nb] vs] lst]| |] eqn:E1; cbn [bind] in H; try discriminate.
    destruct (enc_rel Checked mn vs) as [rel| |] eqn:E2; cbn [bind] in H; try discriminate.
    destruct (zigzag_bytes mn) as [head| |] eqn:E3; cbn [bind] in H; try discriminate.
    destruct (write_miniblock nb (rel ++ skipn (length rel) deltas)) as [body| |] eqn:E4; cbn [bind] in H; try discriminate.
    destruct (enc_blocks Checked fuel lst (skipn 128 items) (rel ++ skipn (length rel) deltas)) as [rest| |] eqn:E5; cbn [bind] in H; try discriminate.
    apply enc_scan_inv in E1 as (_ & -> & _ & _ & C1). destruct (C1 eq_refl) as [C1a _].
    rewrite <- (firstn_skipn 128 items). apply diffs_ok_app; [assumption|]. eapply IH; eassumption.
Qed.

Definition i64s (l : list Z) : Prop := Forall (fun v => - 2 ^ 63 <= v < 2 ^ 63)%Z l.

Lemma delta_encode_conforms m items data : i64s items -> nlen items < 2 ^ 64 ->
  delta_encode m items = Ok data ->
  exists bl, delta_stream 1 128 (length items) (hd 0%Z items) bl data /\
    stream_values (length items) (hd 0%Z items) bl = items /\
    (m = Checked -> adds_in_range (hd 0%Z items) bl).
Proof.
  intros Hr Hn H. unfold delta_encode in H.
  rewrite (uleb_bytes_enc 128) in H by (unfold two64; lia).
  rewrite (uleb_bytes_enc 1) in H by (unfold two64; lia).
  rewrite (uleb_bytes_enc (nlen items)) in H by (rewrite two64_eq; assumption).
  cbn [bind] in H.
  replace (match items with [] => 0%Z | x :: _ => x end) with (hd 0%Z items) in H by (destruct items; reflexivity).
  assert (Hh : (- 2 ^ 63 <= hd 0%Z items < 2 ^ 63)%Z).
  { destruct items; cbn [hd]; [lia|]. inversion Hr; assumption. }
  destruct (zigzag_bytes_varint _ Hh) as (h4 & Eh & Hh4). rewrite Eh in H. cbn [bind] in H.
  destruct (enc_blocks m (length items) (hd 0%Z items) (skipn 1 items) (repeat 0 128)) as [body| |] eqn:Eb;
    cbn [bind] in H; try discriminate. apply Ok_inj in H. subst data.
  destruct (enc_blocks_conforms m _ _ _ _ _ (repeat_length 0 128) Eb) as (bl & Hbl & Hsd & Hadds).
  exists bl. split; [|split].
  - assert (V1 : varint 128 (uleb_enc 10 128)) by (apply uleb_enc_varint; unfold two64; lia).
    assert (V2 : varint 1 (uleb_enc 10 1)) by (apply uleb_enc_varint; unfold two64; lia).
    assert (V3 : varint (nlen items) (uleb_enc 10 (nlen items))) by (apply uleb_enc_varint; rewrite two64_eq; assumption).
    generalize dependent (uleb_enc 10 128). generalize dependent (uleb_enc 10 1). generalize dependent (uleb_enc 10 (nlen items)).
    intros h3 V3 h2 V2 h1 V1.
    apply ds_intro with (block_size := 128); try reflexivity; try lia; try assumption.
    + rewrite Hsd, wdeltas_length, skipn_length. lia.
  - destruct items as [|x r]; [reflexivity|]. cbn [length stream_values hd skipn] in *. rewrite Hsd.
    apply running_wdeltas. inversion Hr; assumption.
  - intro Hm. split; [apply Hadds; assumption|]. rewrite Hsd. subst m. apply enc_blocks_diffs in Eb.
    apply diffs_ok_running; [apply Forall_skipn; assumption|assumption].
Qed.

Lemma delta_roundtrip_any m items data : i64s items -> nlen items < 2 ^ 64 ->
  delta_encode m items = Ok data -> nlen data < 2 ^ 61 -> forall trail, bytes_ok trail ->
  exists s, delta_try_new m (data ++ trail) = Ok s /\
    yields (delta_next m) (dd_P (length data)) s (map inl items).
Proof.
  intros Hr Hn H Hsz trail Htr.
  destruct (delta_encode_conforms m items data Hr Hn H) as (bl & Hst & Hv & Ha).
  enough (He : exists s, delta_try_new m (data ++ trail) = Ok s /\
    yields (delta_next m) (dd_P (length data)) s (map inl (stream_values (length items) (hd 0%Z items) bl)))
    by (rewrite Hv in He; exact He).
  eapply delta_decodes; try eassumption.
  destruct m; [right; apply Ha; reflexivity|left; reflexivity].
Qed.

(** *** Totality: wrapping always encodes; checked encodes exactly when nothing overflows *)

Lemma enc_scan_ok m : forall items prev mn mx nb,
  (m = Wrapping \/ (diffs_ok prev items /\
     (items <> [] -> in_s 64 (fmax (wdeltas prev items) mx - fmin (wdeltas prev items) mn) = true))) ->
  exists r, enc_scan m prev mn mx nb items = Ok r.
Proof.
  induction items as [|x r IH]; intros prev mn mx nb H; cbn [enc_scan]; [eexists; reflexivity|].
  rewrite ssub_ok.
  2:{ destruct H as [H|[H _]]; [left; assumption|right; apply H]. }
  cbn [bind]. set (d := wrap_s 64 (x - prev)).
  rewrite ssub_ok.
  2:{ destruct H as [H|[H1 H2]]; [left; assumption|right]. specialize (H2 ltac:(discriminate)).
      cbn [wdeltas fmax fmin fold_left] in H2. fold d in H2.
      fold (fmax (wdeltas x r) (Z.max mx d)) in H2. fold (fmin (wdeltas x r) (Z.min mn d)) in H2.
      destruct (fmin_le (wdeltas x r) (Z.min mn d)) as [A _]. destruct (fmax_ge (wdeltas x r) (Z.max mx d)) as [B _].
      apply in_s_iff. apply in_s_iff in H2. lia. }
  cbn [bind]. destruct (IH x (Z.min mn d) (Z.max mx d) (N.size (of_signed 64 (wrap_s 64 (Z.max mx d - Z.min mn d))))) as [[[[a b] c] e] E].
  { destruct H as [H|[H1 H2]]; [left; assumption|right]. cbn [diffs_ok] in H1. split; [apply H1|].
    intros _. exact (H2 ltac:(discriminate)). }
  rewrite E. cbn [bind]. eexists; reflexivity.
Qed.

Lemma enc_rel_ok m mn : forall vs, (m = Wrapping \/ Forall (fun v => in_s 64 (v - mn) = true) vs) ->
  exists r, enc_rel m mn vs = Ok r.
Proof.
  induction vs as [|v r IH]; intro H; cbn [enc_rel]; [eexists; reflexivity|].
  rewrite ssub_ok by (destruct H as [H|H]; [left; assumption|right; inversion H; assumption]). cbn [bind].
  destruct IH as [l ->]; [destruct H as [H|H]; [left; assumption|right; inversion H; assumption]|].
  cbn [bind]. eexists; reflexivity.
Qed.

(** Within each block of 128 deltas the widest gap fits. *)
Fixpoint gaps_ok (fuel : nat) (ds : list Z) : Prop :=
  match fuel with
  | O => True
  | S f =>
      (forall a b, In a (firstn 128 ds) -> In b (firstn 128 ds) -> in_s 64 (a - b) = true) /\
      gaps_ok f (skipn 128 ds)
  end.

Lemma enc_blocks_ok m : forall fuel prev items deltas, length deltas = 128%nat -> (length items <= fuel)%nat ->
  (m = Wrapping \/ (diffs_ok prev items /\ gaps_ok fuel (wdeltas prev items))) ->
  exists data, enc_blocks m fuel prev items deltas = Ok data.
Proof.
  induction fuel as [|fuel IH]; intros prev items deltas Hd Hf H.
  - destruct items; [|cbn [length] in Hf; lia]. eexists; reflexivity.
  - cbn [enc_blocks]. destruct items as [|x0 r0] eqn:Eit; [eexists; reflexivity|].
    rewrite <- Eit in *. assert (Hne : items <> []) by (rewrite Eit; discriminate). clear Eit x0 r0.
    set (cur := firstn 128 items) in *. set (nxt := skipn 128 items) in *.
    assert (Hcne : cur <> []). { unfold cur. destruct items; [congruence|discriminate]. }
    assert (Hcl : (length cur <= 128)%nat) by (unfold cur; rewrite firstn_length; lia).
    assert (Hsplit : m = Wrapping \/ (diffs_ok prev cur /\
       (forall a b, In a (wdeltas prev cur) -> In b (wdeltas prev cur) -> in_s 64 (a - b) = true) /\
       diffs_ok (last cur prev) nxt /\ gaps_ok fuel (wdeltas (last cur prev) nxt))).
    { destruct H as [H|[H1 [H2 H3]]]; [left; assumption|right].
      rewrite firstn_wdeltas in H2. rewrite skipn_wdeltas in H3. fold cur nxt in H2, H3.
      assert (Happ : forall a b p, diffs_ok p (a ++ b) -> diffs_ok p a /\ diffs_ok (last a p) b).
      { clear. induction a as [|x a IH]; intros b p H; cbn [app diffs_ok] in *; [split; [trivial|assumption]|].
        destruct H as [H1 H2]. apply IH in H2 as [H2 H3]. split; [split; assumption|].
        rewrite last_cons. assumption. }
      rewrite <- (firstn_skipn 128 items) in H1. apply Happ in H1 as [H1a H1b]. fold cur nxt in H1a, H1b. auto. }
    pose proof (wdeltas_range cur prev) as Hr. rewrite Forall_forall in Hr.
    assert (Hin : In (fmin (wdeltas prev cur) i64_max) (wdeltas prev cur) /\ In (fmax (wdeltas prev cur) i64_min) (wdeltas prev cur)).
    { destruct (wdeltas prev cur) as [|v vs] eqn:Ev.
      { apply (f_equal (@length Z)) in Ev. rewrite wdeltas_length in Ev. destruct cur; [congruence|discriminate]. }
      split.
      - destruct (fmin_in (v :: vs) i64_max) as [E|E]; [|assumption].
        destruct (fmin_le (v :: vs) i64_max) as [_ F]. inversion F; subst.
        assert (v = i64_max); [|left; congruence]. specialize (Hr v (or_introl eq_refl)). unfold i64_max in *. lia.
      - destruct (fmax_in (v :: vs) i64_min) as [E|E]; [|assumption].
        destruct (fmax_ge (v :: vs) i64_min) as [_ F]. inversion F; subst.
        assert (v = i64_min); [|left; congruence]. specialize (Hr v (or_introl eq_refl)). unfold i64_min in *. lia. }
    destruct Hin as [Hin1 Hin2].
    destruct (enc_scan_ok m cur prev i64_max i64_min 0) as [[[[mn nb] vs] lst] E1].
    { destruct Hsplit as [Hs|(Hs1 & Hs2 & _)]; [left; assumption|right]. split; [assumption|]. intros _. apply Hs2; assumption. }
    rewrite E1. cbn [bind]. apply enc_scan_inv in E1 as (-> & -> & Emn & Enb & _).
    destruct (enc_rel_ok m mn (wdeltas prev cur)) as [rel E2].
    { destruct Hsplit as [Hs|(Hs1 & Hs2 & _)]; [left; assumption|right]. apply Forall_forall. intros v Hv.
      apply Hs2; [assumption|]. rewrite Emn. assumption. }
    rewrite E2. cbn [bind]. apply enc_rel_inv in E2 as [-> _].
    destruct (enc_block_layout prev cur deltas Hcne Hcl Hd) as (body' & Eb & Hmb & Hnb & Hmn & Hl & Hds).
    rewrite <- Emn in *.
    assert (Enb' : nb = N.size (of_signed 64 (fmax (wdeltas prev cur) i64_min - mn))).
    { rewrite Enb. destruct cur; [congruence|reflexivity]. }
    rewrite <- Enb' in *. rewrite Eb.
    destruct (zigzag_bytes_varint mn Hmn) as (h & Eh & Hh). rewrite Eh. cbn [bind].
    destruct (IH (last cur prev) nxt (map (fun v => of_signed 64 (v - mn)) (wdeltas prev cur) ++ skipn (length (map (fun v => of_signed 64 (v - mn)) (wdeltas prev cur))) deltas)) as [rest E5].
    { assumption. }
    { unfold nxt. rewrite skipn_length. destruct items; [congruence|]. cbn [length] in *. lia. }
    { destruct Hsplit as [Hs|(_ & _ & Hs3 & Hs4)]; [left; assumption|right; auto]. }
    rewrite E5. cbn [bind]. eexists; reflexivity.
Qed.

Lemma delta_encode_ok m items : i64s items -> nlen items < 2 ^ 64 ->
  (m = Wrapping \/ (diffs_ok (hd 0%Z items) (skipn 1 items) /\
     gaps_ok (length items) (wdeltas (hd 0%Z items) (skipn 1 items)))) ->
  exists data, delta_encode m items = Ok data.
Proof.
  intros Hr Hn H. unfold delta_encode.
  rewrite (uleb_bytes_enc 128) by (unfold two64; lia).
  rewrite (uleb_bytes_enc 1) by (unfold two64; lia).
  rewrite (uleb_bytes_enc (nlen items)) by (rewrite two64_eq; assumption).
  cbn [bind].
  replace (match items with [] => 0%Z | x :: _ => x end) with (hd 0%Z items) by (destruct items; reflexivity).
  assert (Hh : (- 2 ^ 63 <= hd 0%Z items < 2 ^ 63)%Z).
  { destruct items; cbn [hd]; [lia|]. inversion Hr; assumption. }
  destruct (zigzag_bytes_varint _ Hh) as (h4 & Eh & Hh4). rewrite Eh. cbn [bind].
  destruct (enc_blocks_ok m (length items) (hd 0%Z items) (skipn 1 items) (repeat 0 128)) as [body ->].
  { apply repeat_length. } { rewrite skipn_length. lia. } { assumption. }
  cbn [bind]. eexists; reflexivity.
Qed.

Lemma enc_blocks_gaps : forall fuel prev items deltas data,
  enc_blocks Checked fuel prev items deltas = Ok data -> gaps_ok fuel (wdeltas prev items).
Proof.
  assert (Hnil : forall f, gaps_ok f []).
  { induction f; cbn [gaps_ok firstn skipn]; [trivial|]. split; [intros a b []|assumption]. }
  induction fuel as [|fuel IH]; intros prev items deltas data H; [exact I|].
  cbn [enc_blocks] in H. destruct items as [|x0 r0] eqn:Eit; [apply Hnil|].
  rewrite <- Eit in *. assert (Hne : items <> []) by (rewrite Eit; discriminate). clear Eit x0 r0.
  destruct (enc_scan Checked prev i64_max i64_min 0 (firstn 128 items)) as [[[[mn nb] vs] lst]| |] eqn:E1; cbn [bind] in H; try discriminate.
  destruct (enc_rel Checked mn vs) as [rel| |] eqn:E2; cbn [bind] in H; try discriminate.
  destruct (zigzag_bytes mn) as [head| |] eqn:E3; cbn [bind] in H; try discriminate.
  destruct (write_miniblock nb (rel ++ skipn (length rel) deltas)) as [body| |] eqn:E4; cbn [bind] in H; try discriminate.
  destruct (enc_blocks Checked fuel lst (skipn 128 items) (rel ++ skipn (length rel) deltas)) as [rest| |] eqn:E5; cbn [bind] in H; try discriminate.
  apply enc_scan_inv in E1 as (-> & -> & Emn & _ & C1). destruct (C1 eq_refl) as [_ C1b].
  cbn [gaps_ok]. rewrite firstn_wdeltas, skipn_wdeltas. split; [|eapply IH; eassumption].
  intros a b Ha Hb. specialize (C1b ltac:(destruct items; [congruence|discriminate])).
  destruct (fmin_le (wdeltas prev (firstn 128 items)) i64_max) as [_ F1].
  destruct (fmax_ge (wdeltas prev (firstn 128 items)) i64_min) as [_ F2].
  rewrite Forall_forall in F1, F2. rewrite <- Emn in F1.
  pose proof (F1 a Ha). pose proof (F1 b Hb). pose proof (F2 a Ha). pose proof (F2 b Hb). cbn beta in *.
  apply in_s_iff. apply in_s_iff in C1b. lia.
Qed.

Lemma bind_err {A B} (x : res A) (f : A -> res B) e :
  (forall e', x <> Err e') -> (forall a, x = Ok a -> f a <> Err e) -> bind x f <> Err e.
Proof. intros H1 H2. destruct x; cbn [bind]; [apply H2; reflexivity|exfalso; eapply H1; reflexivity|discriminate]. Qed.

(** A checked encoding that succeeds agrees with the wrapping one. *)
Lemma ssub_mode a b r : ssub Checked 64 a b = Ok r -> ssub Wrapping 64 a b = Ok r.
Proof. unfold ssub. destruct (in_s 64 (a - b)); [auto|discriminate]. Qed.

Lemma enc_scan_mode : forall items prev mn mx nb r,
  enc_scan Checked prev mn mx nb items = Ok r -> enc_scan Wrapping prev mn mx nb items = Ok r.
Proof.
  induction items as [|x r0 IH]; intros prev mn mx nb r H; cbn [enc_scan] in *; [assumption|].
  destruct (ssub Checked 64 x prev) as [d| |] eqn:E1; cbn [bind] in H; try discriminate.
  rewrite (ssub_mode _ _ _ E1). cbn [bind].
  destruct (ssub Checked 64 (Z.max mx d) (Z.min mn d)) as [df| |] eqn:E2; cbn [bind] in H; try discriminate.
  rewrite (ssub_mode _ _ _ E2). cbn [bind].
  destruct (enc_scan Checked x (Z.min mn d) (Z.max mx d) (N.size (of_signed 64 df)) r0) as [[[[mn1 nb1] vs1] l1]| |] eqn:E3;
    cbn [bind] in H; try discriminate.
  rewrite (IH _ _ _ _ _ E3). exact H.
Qed.

Lemma enc_rel_mode mn : forall vs r, enc_rel Checked mn vs = Ok r -> enc_rel Wrapping mn vs = Ok r.
Proof.
  induction vs as [|v vs IH]; intros r H; cbn [enc_rel] in *; [assumption|].
  destruct (ssub Checked 64 v mn) as [d| |] eqn:E1; cbn [bind] in H; try discriminate.
  rewrite (ssub_mode _ _ _ E1). cbn [bind].
  destruct (enc_rel Checked mn vs) as [l| |] eqn:E2; cbn [bind] in H; try discriminate.
  rewrite (IH _ eq_refl). exact H.
Qed.

Lemma enc_blocks_mode : forall fuel prev items deltas data,
  enc_blocks Checked fuel prev items deltas = Ok data -> enc_blocks Wrapping fuel prev items deltas = Ok data.
Proof.
  induction fuel as [|fuel IH]; intros prev items deltas data H; cbn [enc_blocks] in *; [assumption|].
  destruct items as [|x0 r0] eqn:Eit; [assumption|]. rewrite <- Eit in *. clear Eit x0 r0.
  destruct (enc_scan Checked prev i64_max i64_min 0 (firstn 128 items)) as [[[[mn nb] vs] lst]| |] eqn:E1; cbn [bind] in H; try discriminate.
  rewrite (enc_scan_mode _ _ _ _ _ _ E1). cbn [bind].
  destruct (enc_rel Checked mn vs) as [rel| |] eqn:E2; cbn [bind] in H; try discriminate.
  rewrite (enc_rel_mode _ _ _ E2). cbn [bind].
  destruct (zigzag_bytes mn) as [head| |] eqn:E3; cbn [bind] in H |- *; try discriminate.
  destruct (write_miniblock nb (rel ++ skipn (length rel) deltas)) as [body| |] eqn:E4; cbn [bind] in H |- *; try discriminate.
  destruct (enc_blocks Checked fuel lst (skipn 128 items) (rel ++ skipn (length rel) deltas)) as [rest| |] eqn:E5; cbn [bind] in H; try discriminate.
  rewrite (IH _ _ _ _ E5). exact H.
Qed.

Lemma delta_encode_mode items data : delta_encode Checked items = Ok data -> delta_encode Wrapping items = Ok data.
Proof.
  unfold delta_encode.
  destruct (uleb_bytes 128); cbn [bind]; try discriminate.
  destruct (uleb_bytes 1); cbn [bind]; try discriminate.
  destruct (uleb_bytes (nlen items)); cbn [bind]; try discriminate.
  destruct (zigzag_bytes _); cbn [bind]; try discriminate.
  destruct (enc_blocks Checked _ _ _ _) eqn:E; cbn [bind]; try discriminate.
  rewrite (enc_blocks_mode _ _ _ _ _ E). auto.
Qed.

(** *** The exact overflow condition *)

Lemma diffs_differences : forall r x, diffs_ok x r <-> Forall (fun d => in_s 64 d = true) (differences (x :: r)).
Proof.
  induction r as [|y r IH]; intro x; cbn [diffs_ok].
  - cbn [differences]. split; [constructor|trivial].
  - change (differences (x :: y :: r)) with ((y - x)%Z :: differences (y :: r)). split.
    + intros [H1 H2]. constructor; [assumption|]. apply IH; assumption.
    + intro H. inversion H; subst. split; [assumption|]. apply IH; assumption.
Qed.

Lemma wdeltas_differences : forall r x, diffs_ok x r -> wdeltas x r = differences (x :: r).
Proof.
  induction r as [|y r IH]; intros x H; [reflexivity|]. destruct H as [H1 H2].
  change (differences (x :: y :: r)) with ((y - x)%Z :: differences (y :: r)). cbn [wdeltas].
  rewrite IH by assumption. rewrite wrap_id by (apply in_s_iff; assumption). reflexivity.
Qed.

Lemma gaps_ok_iff : forall fuel ds, (length ds <= fuel)%nat ->
  (gaps_ok fuel ds <-> forall k a b, In a (firstn 128 (skipn (128 * k) ds)) ->
     In b (firstn 128 (skipn (128 * k) ds)) -> in_s 64 (a - b) = true).
Proof.
  induction fuel as [|fuel IH]; intros ds Hl.
  - destruct ds; [|cbn [length] in Hl; lia]. split; [|intros; exact I].
    intros _ k a b H. rewrite skipn_nil, firstn_nil in H. destruct H.
  - cbn [gaps_ok]. assert (Hl' : (length (skipn 128 ds) <= fuel)%nat).
    { rewrite skipn_length. lia. }
    rewrite (IH _ Hl'). split.
    + intros [H1 H2] [|k] a b.
      * change (128 * 0)%nat with 0%nat. apply H1.
      * replace (128 * S k)%nat with (128 + 128 * k)%nat by lia. rewrite <- skipn_skipn_add. apply H2.
    + intro H. split.
      * intros a b. apply (H 0%nat).
      * intros k a b. rewrite skipn_skipn_add. replace (128 + 128 * k)%nat with (128 * S k)%nat by lia. apply (H (S k)).
Qed.

Lemma differences_length l : (length (differences l) <= length l)%nat.
Proof.
  destruct l as [|x r]; [cbn; lia|]. revert x. induction r as [|y r IH]; intro x; [cbn; lia|].
  change (differences (x :: y :: r)) with ((y - x)%Z :: differences (y :: r)). specialize (IH y). cbn [length] in *. lia.
Qed.

Lemma differences_fit_iff items :
  (diffs_ok (hd 0%Z items) (skipn 1 items) /\ gaps_ok (length items) (wdeltas (hd 0%Z items) (skipn 1 items)))
  <-> differences_fit items.
Proof.
  unfold differences_fit. destruct items as [|x r].
  - split; [|intros; split; exact I]. intros _. split; [constructor|].
    intros k a b H. cbn [differences] in H. rewrite skipn_nil, firstn_nil in H. destruct H.
  - change (hd 0%Z (x :: r)) with x. change (skipn 1 (x :: r)) with r. split.
    + intros [H1 H2]. rewrite wdeltas_differences in H2 by assumption.
      pose proof (proj1 (gaps_ok_iff _ _ (differences_length (x :: r))) H2) as H3.
      split; [apply diffs_differences; assumption|assumption].
    + intros [H1 H2]. apply diffs_differences in H1. split; [assumption|].
      rewrite wdeltas_differences by assumption.
      apply (proj2 (gaps_ok_iff _ _ (differences_length (x :: r)))). assumption.
Qed.

Lemma delta_encode_no_err m items e : i64s items -> nlen items < 2 ^ 64 -> delta_encode m items <> Err e.
Proof.
  intros Hr Hn. unfold delta_encode.
  rewrite (uleb_bytes_enc 128) by (unfold two64; lia).
  rewrite (uleb_bytes_enc 1) by (unfold two64; lia).
  rewrite (uleb_bytes_enc (nlen items)) by (rewrite two64_eq; assumption).
  cbn [bind].
  replace (match items with [] => 0%Z | x :: _ => x end) with (hd 0%Z items) by (destruct items; reflexivity).
  assert (Hh : (- 2 ^ 63 <= hd 0%Z items < 2 ^ 63)%Z).
  { destruct items; cbn [hd]; [lia|]. inversion Hr; assumption. }
  destruct (zigzag_bytes_varint _ Hh) as (h4 & Eh & Hh4). rewrite Eh. cbn [bind].
  assert (Hb : forall fuel prev it deltas e', length deltas = 128%nat -> enc_blocks m fuel prev it deltas <> Err e').
  { clear. assert (Hscan : forall items prev mn mx nb e, enc_scan m prev mn mx nb items <> Err e).
    { induction items as [|x r IH]; intros prev mn mx nb e; cbn [enc_scan]; [discriminate|].
      apply bind_err; [intro; apply ssub_no_err|]. intros d _.
      apply bind_err; [intro; apply ssub_no_err|]. intros df _.
      apply bind_err; [intro; apply IH|]. intros [[[a b] c] f] _. discriminate. }
    assert (Hrel : forall mn vs e, enc_rel m mn vs <> Err e).
    { intros mn. induction vs as [|v r IH]; intro e; cbn [enc_rel]; [discriminate|].
      apply bind_err; [intro; apply ssub_no_err|]. intros d _.
      apply bind_err; [intro; apply IH|]. intros l _. discriminate. }
    induction fuel as [|fuel IH]; intros prev it deltas e Hd; cbn [enc_blocks].
    { destruct it; discriminate. }
    destruct it as [|x0 r0] eqn:Eit; [discriminate|]. rewrite <- Eit.
    assert (Hcne : firstn 128 it <> []) by (rewrite Eit; discriminate). clear Eit x0 r0.
    apply bind_err; [intro; apply Hscan|]. intros [[[mn nb] vs] lst] E1.
    apply bind_err; [intro; apply Hrel|]. intros rel E2. cbv zeta.
    apply enc_scan_inv in E1 as (-> & -> & Emn & Enb & _). apply enc_rel_inv in E2 as [-> _].
    destruct (enc_block_layout prev (firstn 128 it) deltas Hcne) as (body' & Eb & Hmb & Hnb & Hmn & Hl & Hds).
    { rewrite firstn_length. lia. } { assumption. }
    rewrite <- Emn in *.
    assert (Enb' : nb = N.size (of_signed 64 (fmax (wdeltas prev (firstn 128 it)) i64_min - mn))).
    { rewrite Enb. destruct (firstn 128 it); [congruence|reflexivity]. }
    rewrite <- Enb' in *.
    destruct (zigzag_bytes_varint mn Hmn) as (h & -> & Hh). cbn [bind]. rewrite Eb. cbn [bind].
    apply bind_err; [intro; apply IH; assumption|]. intros rest _. discriminate. }
  apply bind_err; [intro; apply Hb; apply repeat_length|]. intros body _. discriminate.
Qed.

Lemma delta_encode_checked items : i64s items -> nlen items < 2 ^ 64 ->
  ((exists data, delta_encode Checked items = Ok data) <-> differences_fit items) /\
  (delta_encode Checked items = Panic <-> ~ differences_fit items).
Proof.
  intros Hr Hn.
  assert (Hiff : (exists data, delta_encode Checked items = Ok data) <-> differences_fit items).
  { rewrite <- differences_fit_iff. split.
    - intros [data H]. unfold delta_encode in H.
      destruct (uleb_bytes 128); cbn [bind] in H; try discriminate.
      destruct (uleb_bytes 1); cbn [bind] in H; try discriminate.
      destruct (uleb_bytes (nlen items)); cbn [bind] in H; try discriminate.
      replace (match items with [] => 0%Z | x :: _ => x end) with (hd 0%Z items) in H by (destruct items; reflexivity).
      destruct (zigzag_bytes _); cbn [bind] in H; try discriminate.
      destruct (enc_blocks Checked (length items) (hd 0%Z items) (skipn 1 items) (repeat 0 128)) eqn:E; cbn [bind] in H; try discriminate.
      split; [eapply enc_blocks_diffs; eassumption|eapply enc_blocks_gaps; eassumption].
    - intro H. apply delta_encode_ok; try assumption. right. assumption. }
  split; [exact Hiff|]. split.
  - intros H Hf. apply Hiff in Hf as [data Hd]. congruence.
  - intro Hf. destruct (delta_encode Checked items) as [d|e|] eqn:E; [|exfalso; eapply delta_encode_no_err; eassumption|reflexivity].
    exfalso. apply Hf. apply Hiff. eexists; reflexivity.
Qed.

Lemma delta_stream_bytes nmb v count first bl data : delta_stream nmb v count first bl data -> bytes_ok data.
Proof.
  intros [bs h1 h2 h3 h4 body ? ? ? ? ? V1 V2 V3 V4 ? Hb].
  repeat (apply bytes_ok_app; split); eauto using varint_bytes, zigzag_varint_bytes, blocks_ok.
Qed.
