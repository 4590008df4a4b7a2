From Verif Require Import Base.Prelude Base.LeFacts Base.Iter Spec.Bits Spec.UlebSpec Spec.RleSpec
  Model.Uleb128 Model.Bitpacked Model.HybridRle Proofs.UlebProofs Proofs.BitsFacts Proofs.BitpackedProofs.
Open Scope N_scope.

(** *** Varints *)

Lemma base128_app a b : base128 (a ++ b) = base128 a + 2 ^ (7 * nlen a) * base128 b.
Proof.
  unfold nlen. induction a as [|x a IH]; cbn [app base128 length].
  - change (2 ^ (7 * N.of_nat 0)) with 1. lia.
  - rewrite IH. replace (7 * N.of_nat (S (length a))) with (7 + 7 * N.of_nat (length a)) by lia.
    rewrite N.pow_add_r. change (2 ^ 7) with 128. lia.
Qed.

Lemma lead_varint init last rest : Forall (fun b => 128 <= b < 256) init -> last < 128 ->
  uleb_lead ((init ++ [last]) ++ rest) = init ++ [last].
Proof.
  intros H Hl. induction H as [|b init Hb Hi IH]; cbn [app uleb_lead].
  - replace (last <? 128) with true by lia. reflexivity.
  - replace (b <? 128) with false by lia. f_equal. exact IH.
Qed.

Lemma varint_decode v h rest : varint v h -> bytes_ok rest ->
  uleb_decode (h ++ rest) = Ok (v, length h).
Proof.
  intros (Hv & Hlen & Hval & init & last & Eh & Hi & Hl) Hr.
  assert (Hok : bytes_ok h).
  { rewrite Eh. apply bytes_ok_app. split.
    - eapply Forall_impl; [|exact Hi]. intros b Hb. unfold byte_ok; cbn beta in *; lia.
    - constructor; [unfold byte_ok; lia|constructor]. }
  rewrite uleb_decode_spec by (apply bytes_ok_app; split; assumption).
  assert (Hlead : uleb_lead (h ++ rest) = h) by (rewrite Eh; apply lead_varint; assumption).
  unfold uleb_panics. rewrite Hlead, Hval.
  destruct (10 <=? length h)%nat eqn:E10; [|reflexivity].
  assert (H9 : length init = 9%nat).
  { rewrite Eh, app_length in *. cbn [length] in *. lia. }
  assert (Hn : nth 9 (h ++ rest) 0 = last).
  { rewrite Eh, <- app_assoc. rewrite app_nth2 by lia. rewrite H9. reflexivity. }
  rewrite Hn. rewrite Eh, base128_app in Hval. unfold nlen in Hval. rewrite H9 in Hval.
  cbn [base128] in Hval. rewrite N.mod_small in Hval by assumption.
  change (2 ^ (7 * N.of_nat 9)) with 9223372036854775808 in Hval.
  change (2 ^ 64) with 18446744073709551616 in Hv.
  replace (1 <? last) with false by lia. reflexivity.
Qed.

Lemma varint_pos v h : varint v h -> (1 <= length h)%nat.
Proof. intros (_ & _ & _ & init & last & -> & _). rewrite app_length. cbn [length]. lia. Qed.

Lemma varint_bytes v h : varint v h -> bytes_ok h.
Proof.
  intros (_ & _ & _ & init & last & -> & Hi & Hl). apply bytes_ok_app. split.
  - eapply Forall_impl; [|exact Hi]. intros b Hb. unfold byte_ok; cbn beta in *; lia.
  - constructor; [unfold byte_ok; lia|constructor].
Qed.

Lemma uleb_enc_split f : forall v, v < 2 ^ (7 * N.of_nat f) -> (0 < f)%nat ->
  exists init last, uleb_enc f v = init ++ [last] /\ Forall (fun b => 128 <= b < 256) init /\ last < 128.
Proof.
  induction f as [|f IH]; intros v Hv Hf; [lia|].
  cbn [uleb_enc]. destruct (v <? 128) eqn:E.
  - exists [], v. repeat split; [constructor|lia].
  - assert (Hv' : v / 128 < 2 ^ (7 * N.of_nat f)).
    { apply N.div_lt_upper_bound; [lia|]. change 128 with (2 ^ 7). rewrite <- N.pow_add_r.
      replace (7 + 7 * N.of_nat f) with (7 * N.of_nat (S f)) by lia. assumption. }
    destruct (IH (v / 128) Hv') as (init & last & E1 & H1 & H2).
    { destruct f; [|lia]. cbn in Hv'.
      assert (1 <= v / 128) by (Z.to_euclidean_division_equations; lia). lia. }
    exists (v mod 128 + 128 :: init), last. rewrite E1. repeat split; try assumption.
    constructor; [|assumption].
    assert (v mod 128 < 128) by (apply N.mod_lt; discriminate). lia.
Qed.

Lemma uleb_enc_varint v : v < two64 -> varint v (uleb_enc 10 v).
Proof.
  intro Hv. assert (Hv70 : v < 2 ^ (7 * N.of_nat 10)) by (eapply N.lt_trans; [exact Hv|reflexivity]).
  split; [exact Hv|]. split; [apply uleb_enc_len|]. split; [apply uleb_enc_val; assumption|].
  apply uleb_enc_split; [assumption|lia].
Qed.

(** *** One run *)

Lemma skipn_app_len {A} (a b : list A) : skipn (length a) (a ++ b) = b.
Proof. rewrite skipn_app, Nat.sub_diag, skipn_all. reflexivity. Qed.
Lemma firstn_app_len {A} (a b : list A) : firstn (length a) (a ++ b) = a.
Proof. rewrite firstn_app, Nat.sub_diag, firstn_all. cbn [firstn]. apply app_nil_r. Qed.

Lemma slice_from_app {A} (a b : list A) : slice_from (length a) (a ++ b) = Ok b.
Proof.
  unfold slice_from. rewrite app_length.
  replace (length a <=? length a + length b)%nat with true by lia.
  rewrite skipn_app_len. reflexivity.
Qed.

Lemma split_at_app {A} (a b : list A) : split_at (length a) (a ++ b) = Ok (a, b).
Proof.
  unfold split_at. rewrite app_length.
  replace (length a <=? length a + length b)%nat with true by lia.
  rewrite skipn_app_len, firstn_app_len. reflexivity.
Qed.

Lemma rle_next_header m h values w v : varint v h -> bytes_ok values -> (0 < w)%nat -> values <> [] ->
  rle_next m (mk_rle (h ++ values) w) =
   if N.land v 1 =? 1 then
     let* bytes := umul m 64 (N.shiftr v 1) (N.of_nat w) in
     let bytes := N.min bytes (nlen values) in
     let* (result, remaining) := split_at (N.to_nat bytes) values in
     Ok (Some (HBitpacked result), mk_rle remaining w)
   else
     let* (result, remaining) := split_at (ceil8 w) values in
     Ok (Some (HRle result (N.shiftr v 1)), mk_rle remaining w).
Proof.
  intros Hh Hok Hw Hne. unfold rle_next. cbn [rd_num_bits rd_values].
  replace (w =? 0)%nat with false by lia.
  pose proof (varint_pos v h Hh) as Hp.
  destruct (h ++ values) as [|x y] eqn:E.
  { destruct h; [cbn in Hp; lia|discriminate]. }
  rewrite <- E. rewrite (varint_decode v h values Hh Hok). cbn [bind].
  rewrite slice_from_app. cbn [bind]. destruct values; [congruence|]. reflexivity.
Qed.

Lemma odd_bits g : N.land (2 * g + 1) 1 = 1 /\ N.shiftr (2 * g + 1) 1 = g.
Proof.
  change 1 with (N.ones 1) at 2. rewrite N.land_ones. change (2 ^ 1) with 2.
  rewrite N.shiftr_div_pow2. change (2 ^ 1) with 2. split; Z.to_euclidean_division_equations; lia.
Qed.
Lemma even_bits g : N.land (2 * g) 1 = 0 /\ N.shiftr (2 * g) 1 = g.
Proof.
  change 1 with (N.ones 1) at 1. rewrite N.land_ones. change (2 ^ 1) with 2.
  rewrite N.shiftr_div_pow2. change (2 ^ 1) with 2. split; Z.to_euclidean_division_equations; lia.
Qed.

Lemma rle_next_rle m h body rest w count : varint (2 * count) h -> (0 < w)%nat ->
  bytes_ok body -> bytes_ok rest -> length body = ceil8 w ->
  rle_next m (mk_rle (h ++ body ++ rest) w) = Ok (Some (HRle body count), mk_rle rest w).
Proof.
  intros Hh Hw Hb Hr Hl.
  assert (Hc : (1 <= ceil8 w)%nat).
  { unfold ceil8. destruct (w mod 8 =? 0)%nat eqn:E; [|lia].
    pose proof (Nat.div_mod w 8 ltac:(lia)). lia. }
  rewrite (rle_next_header m h _ w (2 * count) Hh);
    [|apply bytes_ok_app; split; assumption|assumption|].
  2:{ intro E. apply app_eq_nil in E as [E _]. rewrite E in Hl. cbn [length] in Hl. lia. }
  destruct (even_bits count) as [-> ->]. change (0 =? 1) with false. cbv beta iota.
  rewrite <- Hl. rewrite split_at_app. reflexivity.
Qed.

Lemma rle_next_packed m h body rest w g : varint (2 * g + 1) h -> (0 < w)%nat ->
  bytes_ok body -> bytes_ok rest ->
  g * N.of_nat w < 2 ^ 64 -> nlen body = N.min (g * N.of_nat w) (nlen (body ++ rest)) ->
  body ++ rest <> [] ->
  rle_next m (mk_rle (h ++ body ++ rest) w) = Ok (Some (HBitpacked body), mk_rle rest w).
Proof.
  intros Hh Hw Hb Hr H64 Hmin Hne.
  rewrite (rle_next_header m h _ w (2 * g + 1) Hh);
    [|apply bytes_ok_app; split; assumption|assumption|assumption].
  destruct (odd_bits g) as [-> ->]. change (1 =? 1) with true. cbv beta iota.
  unfold umul. replace (g * N.of_nat w <? 2 ^ 64) with true by lia. cbn [bind].
  rewrite <- Hmin. unfold nlen. rewrite Nnat.Nat2N.id. rewrite split_at_app. reflexivity.
Qed.

Lemma rle_next_header_only m h w v : varint v h -> (0 < w)%nat ->
  rle_next m (mk_rle h w) = Ok (None, mk_rle [] w).
Proof.
  intros Hh Hw. unfold rle_next. cbn [rd_num_bits rd_values].
  replace (w =? 0)%nat with false by lia.
  pose proof (varint_pos v h Hh) as Hp.
  destruct h as [|x y] eqn:E; [cbn in Hp; lia|]. rewrite <- E in *.
  pose proof (varint_decode v h [] Hh ltac:(constructor)) as D. rewrite app_nil_r in D.
  rewrite D. cbn [bind]. pose proof (slice_from_app h []) as S. rewrite app_nil_r in S.
  rewrite S. reflexivity.
Qed.

(** *** State of the current run *)

Definition bp_yields_list (d : bp_decoder) (l : list N) : Prop :=
  yields (bp_next 4) (fun s r => bp_size_hint s = nlen r) d l.

Inductive st_vals : hr_state -> list N -> Prop :=
| sv_single v : st_vals (SSingle (Some v)) [v]
| sv_empty : st_vals (SSingle None) []
| sv_rle v n : st_vals (SRle v n) (repeat v (N.to_nat n))
| sv_bp d l : bp_yields_list d l -> st_vals (SBitpacked d) l.

Lemma st_vals_cons s v l : st_vals s (v :: l) ->
  exists s', state_next s = Ok (Some v, s') /\ st_vals s' l.
Proof.
  intro H. inversion H as [x E1 E2|E1|x n E1 E2|d l' Hy E1 E2]; subst.
  - exists (SSingle None). split; [reflexivity|constructor].
  - exists (SRle x (n - 1)). cbn [state_next].
    destruct (N.to_nat n) as [|k] eqn:En; [discriminate|]. cbn [repeat] in E2. injection E2 as -> <-.
    replace (n =? 0) with false by lia. split; [reflexivity|].
    replace k with (N.to_nat (n - 1)) by lia. constructor.
  - inversion Hy as [|s0 s1 a l0 Hp Hn Hy' E3]; subst.
    exists (SBitpacked s1). cbn [state_next]. rewrite Hn. split; [reflexivity|]. constructor. exact Hy'.
Qed.

Lemma st_vals_nil s : st_vals s [] -> exists s', state_next s = Ok (None, s').
Proof.
  intro H. inversion H as [x E1 E2|E1|x n E1 E2|d l' Hy E1 E2]; subst.
  - eexists; reflexivity.
  - destruct n as [|p]; [eexists; reflexivity|].
    exfalso. destruct (N.to_nat (N.pos p)) as [|k] eqn:E; [lia|]. discriminate.
  - inversion Hy as [s0 s1 Hp Hn E3|]; subst. cbn [state_next]. rewrite Hn. eexists; reflexivity.
Qed.

(** Opening a bit-packed run. *)
Lemma read_packed m body w rem vs : (0 < w <= 32)%nat -> bytes_ok body -> nlen body < 2 ^ 61 ->
  (length vs <= 8 * length body / w)%nat ->
  (forall i, (i < length vs)%nat -> bit_field w i body = nth i vs 0) ->
  (rem <= length vs \/ length vs = 8 * length body / w)%nat ->
  exists d, bp_try_new m 4 body w (N.min (nlen body * 8 / N.of_nat w) (N.of_nat rem)) = Ok d /\
    bp_yields_list d (firstn rem vs).
Proof.
  intros Hw Hok Hsz Hlv Hf Hcase.
  assert (Hq : nlen body * 8 / N.of_nat w = N.of_nat (8 * length body / w)).
  { unfold nlen. rewrite Nnat.Nat2N.inj_div. f_equal. lia. }
  rewrite Hq. set (k := (8 * length body / w)%nat) in *.
  assert (Hk : (k * w <= 8 * length body)%nat).
  { unfold k. pose proof (Nat.mul_div_le (8 * length body) w ltac:(lia)). lia. }
  replace (N.min (N.of_nat k) (N.of_nat rem)) with (N.of_nat (min k rem)) by lia.
  assert (Hmin : (min k rem * w <= 8 * length body)%nat) by nia.
  destruct (bp_try_new_ok m 4 w body (min k rem)) as (d & Ed & Hy); try assumption.
  { unfold nlen in Hsz. change (2 ^ 64) with (8 * 2 ^ 61). nia. }
  exists d. split; [exact Ed|].
  unfold bp_yields_list. replace (firstn rem vs) with (map (fun j => bit_field w j body) (seq 0 (min k rem))); [exact Hy|].
  assert (Hm : min k rem = length (firstn rem vs)) by (rewrite firstn_length; lia).
  rewrite Hm. rewrite <- (map_nth_seq (firstn rem vs) 0) at 2.
  apply map_ext_in; intros i Hi. apply in_seq in Hi.
  rewrite firstn_length in Hi. rewrite Hf by lia.
  rewrite <- (firstn_skipn rem vs) at 1. rewrite app_nth1 by (rewrite firstn_length; lia). reflexivity.
Qed.

Lemma pval_of_stream w vs body : bytes_ok body -> Forall (fits w) vs ->
  bit_stream body = flat_map (lsb_bits w) vs -> le body = pval w vs.
Proof.
  intros Hok Hf Hs. rewrite bit_stream_le in Hs by assumption.
  rewrite <- (lsb_pval w vs 0 Hf) in Hs. rewrite N.mul_0_r, N.add_0_r in Hs.
  apply (f_equal bits_val) in Hs. rewrite !bits_val_lsb in Hs.
  rewrite N.mod_small in Hs. rewrite N.mod_small in Hs by (apply pval_bound; assumption). exact Hs.
  eapply N.lt_le_trans; [apply le_bound; assumption|]. apply N.pow_le_mono_r; [discriminate|].
  unfold nlen. lia.
Qed.

(** *** The whole stream *)

Definition runs_values (runs : list run) : list N := flat_map run_values runs.

(** [hr_inv w s T]: iterating [s] must yield [T]. *)
Definition hr_inv (w : nat) (s : hr_decoder) (T : list N) : Prop :=
  exists rem, hr_remaining s = N.of_nat rem /\
  ((hr_st s = SNone /\ T = repeat 0 rem) \/
   (exists l vals rest, hr_decoder_ s = mk_rle rest w /\ st_vals (hr_st s) l /\
      readable w vals rest /\ nlen rest < 2 ^ 61 /\
      T = firstn rem (l ++ vals ++ repeat 0 rem))).

Lemma readable_ok w vals rest : readable w vals rest -> bytes_ok rest.
Proof.
  induction 1 as [|v h Hh|h Hne Hl Hf|count h body rest vals Hh Hb Hl Hc IH
                  |g h body rest vals Hh H64 Hb Hne Hmin Hc IH].
  - constructor.
  - eapply varint_bytes; eassumption.
  - eapply Forall_impl; [|exact Hf]. intros b Hb. unfold byte_ok; cbn beta in *; lia.
  - apply bytes_ok_app; split; [eapply varint_bytes; eassumption|]. apply bytes_ok_app; split; assumption.
  - apply bytes_ok_app; split; [eapply varint_bytes; eassumption|]. apply bytes_ok_app; split; assumption.
Qed.

Lemma conforming_ok w runs rest : conforming w runs rest -> bytes_ok rest.
Proof.
  induction 1 as [|count v h body rest runs Hh Hf Hb Hl Hv Hc IH
                  |g vs h body rest runs Hh Hl Hf Hb Hlb Hs Hc IH]; [constructor| |];
  apply bytes_ok_app; split; try (eapply varint_bytes; eassumption); apply bytes_ok_app; split; assumption.
Qed.

Lemma conforming_nil w runs : conforming w runs [] -> runs = [].
Proof.
  intro Hc. inversion Hc as [|count v h body rest runs' Hh Hf Hb Hl Hv Hc' E1 E2
                  |g vs h body rest runs' Hh Hl Hf Hb Hlb Hs Hc' E1 E2]; [reflexivity| |];
  pose proof (varint_pos _ _ Hh) as P; apply app_eq_nil in E2 as [-> _]; cbn [length] in P; lia.
Qed.

Lemma conforming_readable w runs data : (0 < w)%nat -> conforming w runs data -> nlen data < 2 ^ 61 ->
  readable w (runs_values runs) data.
Proof.
  intros Hw. induction 1 as [|count v h body rest runs Hh Hf Hb Hl Hv Hc IH
                  |g vs h body rest runs Hh Hl Hf Hb Hlb Hs Hc IH]; intro Hsz.
  - constructor.
  - cbn [runs_values flat_map run_values]. subst v. apply rb_rle; try assumption.
    apply IH. unfold nlen in *. rewrite !app_length in Hsz. lia.
  - cbn [runs_values flat_map run_values].
    assert (Hsz' : nlen body < 2 ^ 61 /\ nlen rest < 2 ^ 61).
    { unfold nlen in *. rewrite !app_length in Hsz. lia. }
    destruct (list_eq_dec N.eq_dec (body ++ rest) []) as [Enil|Hne].
    + apply app_eq_nil in Enil as [-> ->]. rewrite (conforming_nil _ _ Hc). cbn [runs_values flat_map].
      cbn [length] in Hlb. assert (g = 0%nat) by nia. subst g. destruct vs; [|cbn in Hl; lia].
      cbn [app]. rewrite app_nil_r. eapply rb_header. exact Hh.
    + replace vs with (map (fun i => bit_field w i body) (seq 0 (8 * length body / w))).
      * apply rb_packed with (groups := N.of_nat g); try assumption; try (apply IH; apply Hsz').
        -- destruct Hsz' as [Hsz' _]. unfold nlen in *. change (2 ^ 64) with (8 * 2 ^ 61). nia.
        -- unfold nlen in *. rewrite app_length. nia.
      * assert (H8 : (8 * length body / w = length vs)%nat).
        { rewrite Hlb, Hl. replace (8 * (g * w))%nat with (8 * g * w)%nat by lia. apply Nat.div_mul. lia. }
        rewrite H8. apply pval_field_list; try assumption. apply pval_of_stream; assumption.
Qed.

Lemma firstn_firstn_app {A} n (a b : list A) : firstn n (firstn n a ++ b) = firstn n (a ++ b).
Proof.
  destruct (Nat.le_gt_cases n (length a)) as [H|H].
  - rewrite !firstn_app. rewrite firstn_length_le by assumption. rewrite Nat.sub_diag.
    replace (n - length a)%nat with 0%nat by lia. cbn [firstn]. rewrite firstn_firstn, Nat.min_id. reflexivity.
  - rewrite (firstn_all2 a) by lia. reflexivity.
Qed.

Lemma rle_next_cut m h w : (0 < w)%nat -> h <> [] -> (length h <= 9)%nat ->
  Forall (fun b => 128 <= b < 256) h -> rle_next m (mk_rle h w) = Ok (None, mk_rle [] w).
Proof.
  intros Hw Hne Hl Hf. unfold rle_next. cbn [rd_num_bits rd_values].
  replace (w =? 0)%nat with false by lia.
  assert (Hok : bytes_ok h).
  { eapply Forall_impl; [|exact Hf]. intros b Hb. unfold byte_ok; cbn beta in *; lia. }
  assert (Hlead : uleb_lead h = h).
  { clear - Hf. induction Hf as [|b h Hb Hf IH]; [reflexivity|]. cbn [uleb_lead].
    replace (b <? 128) with false by lia. f_equal; exact IH. }
  destruct h as [|x y] eqn:E; [congruence|]. rewrite <- E in *.
  rewrite uleb_decode_spec by assumption. unfold uleb_panics. rewrite Hlead.
  replace (10 <=? length h)%nat with false by lia. cbn [andb bind].
  pose proof (slice_from_app h []) as S. rewrite app_nil_r in S. rewrite S. reflexivity.
Qed.

(** Reading the next run of a readable stream. *)
Lemma read_next_readable m w vals rest rem : (0 < w <= 32)%nat -> readable w vals rest -> nlen rest < 2 ^ 61 ->
  (exists d, read_next m (mk_rle rest w) (N.of_nat rem) = Ok (SNone, d) /\ vals = [] ) \/
  (exists st l vals' rest', read_next m (mk_rle rest w) (N.of_nat rem) = Ok (st, mk_rle rest' w) /\
     st_vals st l /\ readable w vals' rest' /\ (length rest' < length rest)%nat /\
     forall tail, firstn rem (l ++ vals' ++ tail) = firstn rem (vals ++ tail)).
Proof.
  intros Hw Hc Hsz.
  inversion Hc as [E1 E2|v h Hh E1 E2|h Hne Hl Hf E1 E2
                  |count h body rest' vals' Hh Hb Hl Hc' E1 E2
                  |g h body rest' vals' Hh H64 Hb Hne Hmin Hc' E1 E2]; subst.
  - left. eexists. split; [|reflexivity].
    unfold read_next, rle_next. cbn [rd_num_bits rd_values].
    replace (w =? 0)%nat with false by lia. reflexivity.
  - left. eexists. split; [|reflexivity].
    unfold read_next. rewrite (rle_next_header_only m rest w _ Hh) by lia. reflexivity.
  - left. eexists. split; [|reflexivity].
    unfold read_next. rewrite (rle_next_cut m rest w) by (try assumption; lia). reflexivity.
  - right. pose proof (readable_ok _ _ _ Hc') as Hr'.
    pose proof (varint_pos _ _ Hh) as Hp.
    unfold read_next. rewrite (rle_next_rle m h body rest' w (N.of_nat count)); try assumption; [|lia].
    cbn [bind].
    assert (Hval : rle_value body = le body).
    { unfold rle_value. rewrite firstn_all2; [reflexivity|]. rewrite Hl. unfold ceil8.
      clear - Hw. destruct (w mod 8 =? 0)%nat eqn:E; Z.to_euclidean_division_equations; lia. }
    rewrite Hval.
    destruct (N.of_nat count =? 1) eqn:E1.
    + eexists _, [le body], vals', rest'. split; [reflexivity|]. split; [constructor|].
      split; [assumption|]. split; [rewrite !app_length; lia|].
      intro tail. assert (count = 1%nat) by lia. subst count. reflexivity.
    + eexists _, (repeat (le body) (N.to_nat (N.of_nat count))), vals', rest'. split; [reflexivity|].
      split; [constructor|]. split; [assumption|]. split; [rewrite !app_length; lia|].
      intro tail. rewrite Nnat.Nat2N.id. rewrite <- app_assoc. reflexivity.
  - pose proof (readable_ok _ _ _ Hc') as Hr'.
    pose proof (varint_pos _ _ Hh) as Hp.
    assert (HszB : nlen body < 2 ^ 61).
    { unfold nlen in *. rewrite !app_length in Hsz. lia. }
    right. unfold read_next.
    rewrite (rle_next_packed m h body rest' w g); try assumption; try lia.
    cbn [bind rd_num_bits].
    set (vs := map (fun i => bit_field w i body) (seq 0 (8 * length body / w))).
    assert (Hlv : length vs = (8 * length body / w)%nat) by (unfold vs; rewrite map_length, seq_length; reflexivity).
    destruct (read_packed m body w rem vs Hw Hb HszB) as (d & Ed & Hy).
    { lia. }
    { intros i Hi. rewrite Hlv in Hi. unfold vs. symmetry. apply nth_error_nth.
      apply (nth_error_map_seq (fun i => bit_field w i body)); exact Hi. }
    { right. lia. }
    rewrite Ed. cbn [bind].
    eexists _, (firstn rem vs), vals', rest'. split; [reflexivity|]. split; [constructor; exact Hy|].
    split; [assumption|]. split; [rewrite !app_length; lia|].
    intro tail. rewrite <- app_assoc. apply firstn_firstn_app.
Qed.

Lemma hr_next_go_spec m w : (0 < w <= 32)%nat -> forall fuel s T rem,
  hr_remaining s = N.of_nat (S rem) ->
  hr_inv w s T ->
  (length (rd_values (hr_decoder_ s)) + 2 <= fuel \/ (hr_st s = SNone /\ 1 <= fuel))%nat ->
  exists v T' s', T = v :: T' /\ hr_next_go m fuel s = Ok (Some v, s') /\ hr_inv w s' T' /\
    hr_remaining s' = N.of_nat rem.
Proof.
  intros Hw. induction fuel as [|fuel IH]; intros s T rem Hr Hinv Hfuel; [lia|].
  cbn [hr_next_go]. rewrite Hr. change (N.of_nat (S rem) =? 0) with false. cbv beta iota.
  replace (N.of_nat (S rem) - 1) with (N.of_nat rem) by lia.
  destruct Hinv as (rem0 & Hr0 & [[Hn HT]|(l & vals & rest & Hd & Hst & Hc & Hsz & HT)]).
  - assert (rem0 = S rem) by lia. subst rem0. rewrite Hn. cbn [state_next bind].
    cbn [repeat] in HT. eexists 0, _, _. split; [exact HT|]. split; [reflexivity|].
    split; [|reflexivity]. exists rem. split; [reflexivity|]. left. split; reflexivity.
  - assert (rem0 = S rem) by lia. subst rem0.
    destruct l as [|v l].
    + destruct (st_vals_nil _ Hst) as (s1 & E1). rewrite E1. cbn [bind].
      assert (Hnn : hr_st s <> SNone) by (intro E; rewrite E in Hst; inversion Hst).
      destruct Hfuel as [Hfuel|[Hbad _]]; [|congruence].
      rewrite Hd in *. cbn [rd_values] in Hfuel.
      destruct (read_next_readable m w vals rest (S rem) Hw Hc Hsz)
        as [(d & Ed & Hnil)|(st & l' & vals' & rest' & Ed & Hst' & Hc' & Hlt & Htail)].
      * rewrite Ed. cbn [bind].
        apply IH; [reflexivity| |].
        -- exists (S rem). split; [reflexivity|]. left. split; [reflexivity|].
           rewrite HT. cbn [app]. rewrite Hnil. cbn [app]. apply firstn_all2. rewrite repeat_length. lia.
        -- right. split; [reflexivity|lia].
      * rewrite Ed. cbn [bind].
        apply IH; [reflexivity| |].
        -- exists (S rem). split; [reflexivity|]. right. exists l', vals', rest'.
           split; [reflexivity|]. split; [assumption|]. split; [assumption|].
           split; [unfold nlen in *; lia|].
           rewrite Htail. rewrite HT. reflexivity.
        -- left. cbn [hr_decoder_ rd_values]. lia.
    + destruct (st_vals_cons _ _ _ Hst) as (s1 & E1 & Hst1). rewrite E1. cbn [bind].
      cbn [app firstn] in HT.
      eexists v, _, _. split; [exact HT|]. split; [reflexivity|]. split; [|reflexivity].
      exists rem. split; [reflexivity|]. right. exists l, vals, rest.
      split; [exact Hd|]. split; [exact Hst1|]. split; [exact Hc|]. split; [exact Hsz|].
      replace (repeat 0 (S rem)) with (repeat 0 rem ++ [0]).
      2:{ rewrite <- repeat_cons. reflexivity. }
      rewrite !app_assoc. rewrite (firstn_app rem (_ ++ repeat 0 rem)).
      rewrite app_length, repeat_length.
      replace (rem - _)%nat with 0%nat by lia. cbn [firstn]. rewrite app_nil_r. reflexivity.
Qed.

Lemma hr_yields m w : (0 < w <= 32)%nat -> forall rem s T,
  hr_remaining s = N.of_nat rem -> hr_inv w s T ->
  yields (hr_next m) (fun s r => hr_size_hint s = nlen r) s T.
Proof.
  intros Hw. induction rem as [|rem IH]; intros s T Hr Hinv.
  - assert (T = []) as ->.
    { destruct Hinv as (rem0 & Hr0 & [[_ HT]|(l & vals & rest & _ & _ & _ & _ & HT)]);
      assert (rem0 = 0%nat) by lia; subst rem0; rewrite HT; reflexivity. }
    apply yields_nil with s.
    + unfold hr_size_hint. rewrite Hr. reflexivity.
    + unfold hr_next. rewrite Nat.add_comm. cbn [Nat.add hr_next_go]. rewrite Hr. reflexivity.
  - destruct (hr_next_go_spec m w Hw (length (rd_values (hr_decoder_ s)) + 2) s T rem Hr Hinv)
      as (v & T' & s' & HT & Hn & Hinv' & Hr'); [left; lia|].
    assert (HlenT : length T' = rem).
    { destruct Hinv' as (rem0 & Hr0 & Hcase). assert (rem0 = rem) by lia. subst rem0.
      destruct Hcase as [[_ HT']|(l & vals & rest & _ & _ & _ & _ & HT')]; rewrite HT'.
      - apply repeat_length.
      - rewrite firstn_length, !app_length, repeat_length. lia. }
    rewrite HT. eapply yields_cons.
    + unfold hr_size_hint, nlen. rewrite Hr. cbn [length]. rewrite HlenT. reflexivity.
    + exact Hn.
    + apply IH; assumption.
Qed.

Lemma hr_decodes_readable m w vals data n : (0 < w <= 32)%nat -> readable w vals data ->
  nlen data < 2 ^ 61 ->
  exists s, hr_try_new m data w (N.of_nat n) = Ok s /\
    yields (hr_next m) (fun s r => hr_size_hint s = nlen r) s (firstn n (vals ++ repeat 0 n)).
Proof.
  intros Hw Hc Hsz. unfold hr_try_new.
  destruct (read_next_readable m w vals data n Hw Hc Hsz)
        as [(d & Ed & Hnil)|(st & l' & vals' & rest' & Ed & Hst' & Hc' & Hlt & Htail)].
  - rewrite Ed. cbn [bind]. eexists. split; [reflexivity|].
    apply (hr_yields m w Hw n); [reflexivity|].
    exists n. split; [reflexivity|]. left. split; [reflexivity|].
    rewrite Hnil. cbn [app]. apply firstn_all2. rewrite repeat_length. lia.
  - rewrite Ed. cbn [bind]. eexists. split; [reflexivity|].
    apply (hr_yields m w Hw n); [reflexivity|].
    exists n. split; [reflexivity|]. right. exists l', vals', rest'.
    split; [reflexivity|]. split; [assumption|]. split; [assumption|]. split; [unfold nlen in *; lia|].
    rewrite Htail. reflexivity.
Qed.

Lemma hr_decodes_conforming m w runs data n : (0 < w <= 32)%nat -> conforming w runs data ->
  nlen data < 2 ^ 61 ->
  exists s, hr_try_new m data w (N.of_nat n) = Ok s /\
    yields (hr_next m) (fun s r => hr_size_hint s = nlen r) s
      (firstn n (runs_values runs ++ repeat 0 n)).
Proof.
  intros Hw Hc Hsz. apply hr_decodes_readable; try assumption. apply conforming_readable; try assumption. lia.
Qed.

(** Zero bits: all values are zero. *)
Lemma hr_zero_bits m data n :
  exists s, hr_try_new m data 0 (N.of_nat n) = Ok s /\
    yields (hr_next m) (fun s r => hr_size_hint s = nlen r) s (repeat 0 n).
Proof.
  eexists. split; [reflexivity|].
  assert (H : forall n d, yields (hr_next m) (fun s r => hr_size_hint s = nlen r) (mk_hr d SNone (N.of_nat n)) (repeat 0 n)).
  { clear. induction n as [|n IH]; intro d.
    - eapply yields_nil; [reflexivity|]. unfold hr_next. rewrite Nat.add_comm. reflexivity.
    - cbn [repeat]. eapply yields_cons.
      + unfold hr_size_hint, nlen. cbn [hr_remaining length]. rewrite repeat_length. reflexivity.
      + unfold hr_next. rewrite Nat.add_comm. cbn [Nat.add hr_next_go hr_remaining hr_st state_next bind].
        change (N.of_nat (S n) =? 0) with false. cbv beta iota.
        replace (N.of_nat (S n) - 1) with (N.of_nat n) by lia. reflexivity.
      + apply IH. }
  apply H.
Qed.
