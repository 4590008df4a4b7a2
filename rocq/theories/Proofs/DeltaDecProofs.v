From Verif Require Import Base.Prelude Base.LeFacts Base.Iter Spec.Bits Spec.UlebSpec Spec.RleSpec Spec.DeltaSpec
  Model.Uleb128 Model.Bitpacked Model.DeltaBitpacked Proofs.UlebProofs Proofs.BitsFacts Proofs.BitpackedProofs
  Proofs.HybridRleProofs.
Open Scope N_scope.

Lemma zigzag_varint_decode z h rest : zigzag_varint z h -> bytes_ok rest ->
  zigzag_decode (h ++ rest) = Ok (z, length h).
Proof.
  intros [Hz Hh] Hr. unfold zigzag_decode. rewrite (varint_decode _ _ _ Hh Hr). cbn [bind].
  change (zigzag_code z) with (zz z). rewrite unzigzag by assumption. reflexivity.
Qed.

Lemma zigzag_varint_bytes z h : zigzag_varint z h -> bytes_ok h.
Proof. intros [_ H]. eapply varint_bytes; eassumption. Qed.

Lemma field_of_prefix w l body : bytes_ok body -> Forall (fits w) l -> (length l * w <= 8 * length body)%nat ->
  firstn (length l * w) (bit_stream body) = flat_map (lsb_bits w) l ->
  le body mod 2 ^ N.of_nat (length l * w) = pval w l.
Proof.
  intros Hok Hf Hl Hs. rewrite bit_stream_le in Hs by assumption.
  rewrite firstn_lsb in Hs. rewrite Nat.min_l in Hs by assumption.
  rewrite <- (lsb_pval w l 0 Hf) in Hs. rewrite N.mul_0_r, N.add_0_r in Hs.
  apply (f_equal bits_val) in Hs. rewrite !bits_val_lsb in Hs. rewrite Hs.
  apply N.mod_small. apply pval_bound; assumption.
Qed.

Lemma fields_of_mod w l body : bytes_ok body -> Forall (fits w) l ->
  le body mod 2 ^ N.of_nat (length l * w) = pval w l ->
  map (fun j => bit_field w j body) (seq 0 (length l)) = l.
Proof.
  intros Hok Hf Hle. rewrite <- (map_nth_seq l 0) at 2. apply map_ext_in; intros i Hi. apply in_seq in Hi.
  rewrite bit_field_le by assumption.
  rewrite <- (mod_div_field (le body) w i (length l * w)) by nia. rewrite Hle.
  rewrite <- (pval_nth w l i 0 Hf) by lia. rewrite N.mul_0_r, N.add_0_r. reflexivity.
Qed.

(** *** Blocks *)

Definition mini_ok (o : option bp_decoder) (c : list N) : Prop :=
  match o with
  | Some d => yields (bp_next 8) (fun s r => bp_size_hint s = nlen r) d c
  | None => Forall (eq 0) c
  end.

(** The block will yield the relative deltas [l]; after that it has consumed [T] bytes and [rest]
    remains. *)
Definition binv (v : nat) (b : block) (l : list N) (T : nat) (rest : list N) : Prop :=
  exists c ds body, l = c ++ ds /\
    bl_vpmb b = N.of_nat v /\
    bl_remaining b = nlen l /\
    (c <> [] \/ ds = []) /\
    bl_index b + nlen c <= N.of_nat v /\ (ds <> [] -> bl_index b + nlen c = N.of_nat v) /\
    mini_ok (bl_mini b) c /\
    miniblocks v (bl_widths b) ds body /\ bl_values b = body ++ rest /\
    (bl_consumed b + length body = T)%nat /\ nlen body < 2 ^ 61.

Lemma advance_ok m v b ds body rest T : (0 < v)%nat -> ds <> [] ->
  bl_vpmb b = N.of_nat v -> bl_remaining b = nlen ds ->
  miniblocks v (bl_widths b) ds body -> bl_values b = body ++ rest ->
  (bl_consumed b + length body = T)%nat -> nlen body < 2 ^ 61 ->
  exists b', block_advance m b = Ok (None, b') /\ binv v b' ds T rest /\ bl_min b' = bl_min b.
Proof.
  intros Hv Hne Hvp Hrem Hmb Hvals HT Hsz.
  inversion Hmb as [ws E1 E2 E3|w ws ds0 bd rst Hne0 Hw Hf Hok Hlen Hbits Hrest E1 E2 E3]; [congruence|].
  subst ds0 body. unfold block_advance. rewrite <- E1, Hvp, Hrem.
  assert (Hlf : length (firstn v ds) = min v (length ds)) by apply firstn_length.
  assert (Hpos : (0 < length (firstn v ds))%nat).
  { rewrite Hlf. destruct ds; [congruence|]. cbn [length]. lia. }
  rewrite app_length in HT.
  assert (Hsz1 : nlen bd < 2 ^ 61 /\ nlen rst < 2 ^ 61).
  { unfold nlen in *. rewrite app_length in Hsz. lia. }
  destruct Hsz1 as [Hsz1 Hsz2].
  assert (Hidx : 0 + nlen (firstn v ds) <= N.of_nat v) by (unfold nlen; lia).
  assert (Hidx2 : skipn v ds <> [] -> 0 + nlen (firstn v ds) = N.of_nat v).
  { intro Hs. unfold nlen. assert (v < length ds)%nat; [|lia].
    destruct (Nat.le_gt_cases (length ds) v); [|assumption]. exfalso. apply Hs. apply skipn_all2. assumption. }
  assert (Hcase : firstn v ds <> [] \/ skipn v ds = []).
  { left. intro H. rewrite H in Hpos. cbn [length] in Hpos. lia. }
  destruct (0 <? N.of_nat w) eqn:Ew.
  - assert (Hmul : N.of_nat v * N.of_nat w < 2 ^ 64).
    { change (2 ^ 64) with (8 * 2 ^ 61). unfold nlen in Hsz1. lia. }
    unfold umul. replace (N.of_nat v * N.of_nat w <? 2 ^ 64) with true by lia. cbn [bind].
    assert (Hc8 : ceil8N (N.of_nat v * N.of_nat w) = nlen bd).
    { unfold nlen. replace (N.of_nat v * N.of_nat w) with (N.of_nat (length bd) * 8) by lia.
      unfold ceil8N. rewrite N.div_mul, N.mod_mul by lia. change (0 =? 0) with true. cbv iota. lia. }
    rewrite Hc8, Hvals.
    replace (nlen ((bd ++ rst) ++ rest) <? nlen bd) with false
      by (unfold nlen; rewrite !app_length; lia).
    unfold nlen at 1. rewrite Nnat.Nat2N.id. rewrite <- app_assoc, split_at_app. cbn [bind].
    rewrite Nnat.Nat2N.id.
    replace (N.min (nlen ds) (N.of_nat v)) with (N.of_nat (length (firstn v ds))) by (unfold nlen; lia).
    destruct (bp_try_new_ok m 8 w bd (length (firstn v ds))) as (d & Ed & Hy).
    { change (tbits 8) with 64%nat. lia. } { assumption. } { rewrite Hlen. nia. }
    { change (2 ^ 64) with (8 * 2 ^ 61). unfold nlen in Hsz1. nia. }
    rewrite Ed. eexists. split; [reflexivity|]. split; [|reflexivity].
    exists (firstn v ds), (skipn v ds), rst. cbn [bl_vpmb bl_remaining bl_index bl_mini bl_widths bl_values bl_consumed].
    split; [symmetry; apply firstn_skipn|]. split; [reflexivity|]. split; [reflexivity|].
    split; [assumption|]. split; [assumption|]. split; [assumption|]. split.
    { cbn [mini_ok]. rewrite fields_of_mod in Hy; try assumption.
      apply field_of_prefix; try assumption. nia. }
    split; [assumption|]. split; [reflexivity|]. split; [unfold nlen; rewrite Nnat.Nat2N.id; lia|assumption].
  - assert (w = 0%nat) by lia. subst w.
    assert (bd = []) as -> by (destruct bd; [reflexivity|cbn [length] in Hlen; lia]).
    eexists. split; [reflexivity|]. split; [|reflexivity].
    exists (firstn v ds), (skipn v ds), rst. cbn [bl_vpmb bl_remaining bl_index bl_mini bl_widths bl_values bl_consumed].
    split; [symmetry; apply firstn_skipn|]. split; [reflexivity|]. split; [reflexivity|].
    split; [assumption|]. split; [assumption|]. split; [assumption|]. split.
    { cbn [mini_ok]. eapply Forall_impl; [|exact Hf]. intros x Hx. unfold fits in Hx.
      change (2 ^ N.of_nat 0) with 1 in Hx. lia. }
    split; [assumption|]. split; [assumption|]. split; [cbn [length] in HT; lia|assumption].
Qed.

(** The addition is in range, or the build wraps. *)
Definition add_ok (m : mode) (z : Z) : Prop := m = Wrapping \/ in_s 64 z = true.

Lemma in_s_iff z : in_s 64 z = true <-> (- 2 ^ 63 <= z < 2 ^ 63)%Z.
Proof. unfold in_s. change (Z.of_N 64 - 1)%Z with 63%Z. lia. Qed.

Lemma sadd_ok m a b : add_ok m (a + b)%Z -> sadd m 64 a b = Ok (wrap_s 64 (a + b)%Z).
Proof.
  intro H. unfold sadd. destruct (in_s 64 (a + b)) eqn:E.
  - rewrite wrap_id by (apply in_s_iff; assumption). reflexivity.
  - destruct H as [->|H]; [reflexivity|congruence].
Qed.

Lemma block_next_ok m v b x l T rest : (0 < v)%nat -> binv v b (x :: l) T rest ->
  add_ok m (bl_min b + to_signed 64 x) ->
  exists b', block_next m b = Ok (Some (inl (wrap_s 64 (bl_min b + to_signed 64 x))), b') /\
    binv v b' l T rest /\ bl_min b' = bl_min b.
Proof.
  intros Hv (c & ds & body & El & Hvp & Hrem & Hcd & Hi1 & Hi2 & Hmini & Hmb & Hvals & HT & Hsz) Hadd.
  destruct c as [|x' c].
  { destruct Hcd as [Hcd|Hcd]; [congruence|]. subst ds. discriminate. }
  cbn [app] in El. injection El as <- El.
  unfold block_next. rewrite Hrem.
  replace (nlen (x :: l) =? 0) with false by (unfold nlen; cbn [length]; lia).
  assert (Hx : exists mini', (match bl_mini b with
      | Some d => let* (o, d') := bp_next 8 d in Ok (match o with Some v => v | None => 0 end, Some d')
      | None => Ok (0, None) end) = Ok (x, mini') /\ mini_ok mini' c).
  { destruct (bl_mini b) as [d|]; cbn [mini_ok] in Hmini.
    - inversion Hmini as [|s s' a l0 Hp Hn Hy]; subst. rewrite Hn. cbn [bind].
      eexists. split; [reflexivity|exact Hy].
    - inversion Hmini as [|a l0 H0 H1]; subst. exists None. split; [reflexivity|assumption]. }
  destruct Hx as (mini' & -> & Hmini'). cbn [bind].
  rewrite sadd_ok by assumption. cbn [bind].
  replace (nlen (x :: l) - 1) with (nlen l) by (unfold nlen; cbn [length]; lia).
  cbn [bl_vpmb]. rewrite Hvp.
  unfold nlen in Hi1, Hi2. cbn [length] in Hi1, Hi2.
  destruct ((0 <? nlen l) && (bl_index b + 1 =? N.of_nat v)) eqn:Eadv.
  - assert (Hc : c = []).
    { destruct c; [reflexivity|]. cbn [length] in Hi1. lia. }
    subst c. cbn [app] in El. subst l.
    assert (Hne : ds <> []).
    { intro E. subst ds. unfold nlen in Eadv. cbn [length] in Eadv. lia. }
    edestruct (advance_ok m v (mk_block (bl_min b) (N.of_nat v) (bl_widths b) (bl_values b) (nlen ds)
      (bl_index b + 1) mini' (bl_consumed b)) ds body rest T) as (b' & Eb & Hinv & Hmin);
      try assumption; try reflexivity.
    rewrite Eb. cbn [bind]. exists b'. split; [reflexivity|]. split; [exact Hinv|exact Hmin].
  - eexists. split; [reflexivity|]. split; [|reflexivity].
    exists c, ds, body. cbn [bl_vpmb bl_remaining bl_index bl_mini bl_widths bl_values bl_consumed].
    split; [symmetry; exact (eq_sym El)|]. split; [reflexivity|]. split; [reflexivity|].
    split.
    { destruct c; [|left; discriminate]. right. destruct ds; [reflexivity|]. exfalso.
      assert (HH : bl_index b + 1 = N.of_nat v) by (specialize (Hi2 ltac:(discriminate)); cbn [length] in Hi2; lia).
      unfold nlen in Eadv. rewrite El in Eadv. cbn [app length] in Eadv. lia. }
    unfold nlen. split; [lia|]. split; [intro Hd; specialize (Hi2 Hd); lia|].
    split; [assumption|]. split; [assumption|]. split; [assumption|]. split; assumption.
Qed.

Lemma block_next_end m v b T rest : binv v b [] T rest ->
  block_next m b = Ok (None, b) /\ bl_consumed b = T.
Proof.
  intros (c & ds & body & El & Hvp & Hrem & Hcd & Hi1 & Hi2 & Hmini & Hmb & Hvals & HT & Hsz).
  symmetry in El. apply app_eq_nil in El as [-> ->].
  unfold block_next. rewrite Hrem. split; [reflexivity|].
  inversion Hmb as [ws E1 E2 E3|w ws ds0 bd rst Hne0]; [|congruence]. subst body. cbn [length] in HT. lia.
Qed.

Lemma miniblocks_ok v ws ds body : miniblocks v ws ds body -> bytes_ok body.
Proof.
  induction 1; [constructor|]. apply bytes_ok_app; split; assumption.
Qed.

Lemma blocks_ok nmb v bl body : blocks nmb v bl body -> bytes_ok body.
Proof.
  induction 1; [constructor|]. apply bytes_ok_app; split; [eapply zigzag_varint_bytes; eassumption|].
  apply bytes_ok_app; split; [assumption|]. apply bytes_ok_app; split; [eapply miniblocks_ok; eassumption|assumption].
Qed.

Lemma block_try_new_ok m nmb v mn ds h widths body rest len :
  (0 < v)%nat -> N.of_nat nmb * N.of_nat v < 2 ^ 64 ->
  zigzag_varint mn h -> bytes_ok widths -> length widths = nmb -> ds <> [] ->
  miniblocks v widths ds body -> bytes_ok rest -> nlen body < 2 ^ 61 ->
  N.min len (N.of_nat nmb * N.of_nat v) = nlen ds ->
  exists b, block_try_new m (h ++ widths ++ body ++ rest) (N.of_nat nmb) (N.of_nat v) len = Ok b /\
    binv v b ds (length (h ++ widths ++ body)) rest /\ bl_min b = mn.
Proof.
  intros Hv H64 Hh Hwok Hwl Hne Hmb Hr Hsz Hlen. subst nmb. change (N.of_nat (length widths)) with (nlen widths) in *.
  unfold block_try_new, umul. replace (nlen widths * N.of_nat v <? 2 ^ 64) with true by lia. cbn [bind].
  assert (Hok2 : bytes_ok (widths ++ body ++ rest)).
  { apply bytes_ok_app; split; [assumption|]. apply bytes_ok_app; split; [eapply miniblocks_ok; eassumption|assumption]. }
  rewrite (zigzag_varint_decode _ _ _ Hh Hok2). cbn [bind]. rewrite slice_from_app. cbn [bind].
  replace (nlen (widths ++ body ++ rest) <? nlen widths) with false
    by (unfold nlen; rewrite !app_length; lia).
  cbv zeta. replace (N.to_nat (nlen widths)) with (length widths) by (unfold nlen; lia). rewrite split_at_app. cbn [bind].
  rewrite Hlen.
  edestruct (advance_ok m v (mk_block mn (N.of_nat v) widths (body ++ rest) (nlen ds) 0 None
     (length h + length widths)) ds body rest (length (h ++ widths ++ body))) as (b' & Eb & Hinv & Hmin);
    try assumption; try reflexivity.
  { cbn [bl_consumed]. rewrite !app_length. lia. }
  rewrite Eb. cbn [bind]. exists b'. split; [reflexivity|]. split; assumption.
Qed.

(** *** The decoder *)

Definition deltas_of (mn : Z) (ds : list N) : list Z :=
  map (fun d => wrap_s 64 (mn + to_signed 64 d)) ds.

Definition range_ok (m : mode) (mn : Z) (ds : list N) : Prop :=
  Forall (fun d => add_ok m (mn + to_signed 64 d)) ds.
Fixpoint run_ok (m : mode) (first : Z) (deltas : list Z) : Prop :=
  match deltas with
  | [] => True
  | d :: r => add_ok m (first + d) /\ run_ok m (wrap_s 64 (first + d)) r
  end.

Definition dd_P (total : nat) (s : delta_decoder) (r : list item) : Prop :=
  delta_size_hint s = nlen r /\ (r = [] -> delta_consumed s = total).

Lemma running_length first l : length (running first l) = S (length l).
Proof. revert first; induction l as [|d l IH]; intro first; cbn [running length]; [reflexivity|]. rewrite IH. reflexivity. Qed.

Lemma delta_yields m nmb v : (0 < v)%nat -> N.of_nat nmb * N.of_nat v < 2 ^ 64 ->
  forall n s b l T bl body trail pre total,
  (n = length l + length (stream_deltas bl))%nat ->
  dd_nmb s = N.of_nat nmb -> dd_vpmb s = N.of_nat v ->
  dd_remaining s = N.of_nat (S n) ->
  dd_block s = Some b -> binv v b l T (body ++ trail) -> range_ok m (bl_min b) l ->
  blocks nmb v bl body -> Forall (fun x => range_ok m (fst x) (snd x)) bl ->
  (bl <> [] -> True) ->
  bytes_ok trail -> nlen body < 2 ^ 61 ->
  dd_values s = pre ++ body ++ trail -> length pre = T ->
  (dd_consumed s + T + length body = total)%nat ->
  run_ok m (dd_next s) (deltas_of (bl_min b) l ++ stream_deltas bl) ->
  yields (delta_next m) (dd_P total) s
    (map inl (running (dd_next s) (deltas_of (bl_min b) l ++ stream_deltas bl))).
Proof.
  intros Hv H64. induction n as [|n IH]; intros s b l T bl body trail pre total Hn Hnmb Hvp Hrem Hb Hinv Hrl Hbl Hrbl _ Htr Hsz Hvals Hpre Htot Hrun.
  - assert (l = []) as -> by (destruct l; [reflexivity|cbn [length] in Hn; lia]).
    assert (bl = []) as ->.
    { destruct bl as [|[mn ds] bl]; [reflexivity|]. inversion Hbl. subst.
      unfold stream_deltas in Hn. cbn [flat_map length] in Hn. rewrite app_length in Hn.
      unfold block_deltas in Hn. rewrite map_length in Hn. cbn [snd] in Hn. destruct ds; [congruence|].
      cbn [length] in Hn. lia. }
    inversion Hbl; subst. cbn [deltas_of map stream_deltas flat_map app running].
    destruct (block_next_end m v b _ _ Hinv) as [_ Hc].
    eapply yields_cons.
    + split; [unfold delta_size_hint; rewrite Hrem; reflexivity|discriminate].
    + unfold delta_next. rewrite Hrem. change (N.of_nat 1 =? 0) with false. cbv iota.
      change (N.of_nat 1 - 1) with 0. cbn [N.eqb]. cbn [dd_next]. reflexivity.
    + eapply yields_nil.
      * split; [reflexivity|]. intros _. unfold delta_consumed. cbn [dd_consumed dd_block].
        rewrite Hb. cbn [length]. lia.
      * reflexivity.
  - assert (Hstep : exists s' b' delta l' T' bl' body' pre',
      load_delta m (mk_delta (dd_nmb s) (dd_vpmb s) (N.of_nat (S n)) (dd_next s) (dd_values s) (dd_block s) (dd_consumed s))
        = Ok (inl delta, s') /\
      deltas_of (bl_min b) l ++ stream_deltas bl = delta :: deltas_of (bl_min b') l' ++ stream_deltas bl' /\
      (n = length l' + length (stream_deltas bl'))%nat /\
      dd_nmb s' = N.of_nat nmb /\ dd_vpmb s' = N.of_nat v /\ dd_remaining s' = N.of_nat (S n) /\
      dd_next s' = dd_next s /\
      dd_block s' = Some b' /\ binv v b' l' T' (body' ++ trail) /\ range_ok m (bl_min b') l' /\
      blocks nmb v bl' body' /\ Forall (fun x => range_ok m (fst x) (snd x)) bl' /\ nlen body' < 2 ^ 61 /\
      dd_values s' = pre' ++ body' ++ trail /\ length pre' = T' /\
      (dd_consumed s' + T' + length body' = total)%nat).
    { unfold load_delta. cbn [dd_block dd_nmb dd_vpmb dd_remaining dd_next dd_values dd_consumed].
      rewrite Hb. destruct l as [|x l].
      - destruct (block_next_end m v b _ _ Hinv) as [Hend Hc]. rewrite Hend. cbn [bind].
        destruct bl as [|[mn ds] bl].
        { cbn [stream_deltas flat_map length] in Hn. lia. }
        inversion Hbl as [|mn' ds' h widths bd bl0 rst Hh Hwok Hwl Hne Hle Hfull Hmb Hrest E1 E2]. subst mn' ds' bl0 body.
        rewrite Hvals, Hc, <- Hpre, slice_from_app. cbn [bind].
        rewrite <- !app_assoc. rewrite Hnmb, Hvp.
        assert (Hld : length (stream_deltas ((mn, ds) :: bl)) = (length ds + length (stream_deltas bl))%nat).
        { unfold stream_deltas. cbn [flat_map]. rewrite app_length. unfold block_deltas at 1. rewrite map_length. reflexivity. }
        assert (Hn0 : (S n = length ds + length (stream_deltas bl))%nat) by (rewrite <- Hld; exact Hn). clear Hn; rename Hn0 into Hn.
        destruct (block_try_new_ok m nmb v mn ds h widths bd (rst ++ trail) (N.of_nat (S n)))
          as (nb & Enb & Hninv & Hnmin); try assumption.
        { apply bytes_ok_app; split; [eapply blocks_ok; eassumption|assumption]. }
        { unfold nlen in *. rewrite !app_length in Hsz. lia. }
        { destruct bl as [|b1 bl]; [cbn [stream_deltas flat_map length] in Hn; unfold nlen; lia|].
          specialize (Hfull ltac:(discriminate)). unfold nlen. lia. }
        rewrite Enb. inversion Hrbl as [|? ? Hr1 Hr2 E3]; subst. cbn [fst snd] in Hr1.
        destruct ds as [|x ds]; [congruence|].
        inversion Hr1 as [|? ? Hx Hr1' E4]; subst.
        destruct (block_next_ok m v nb x ds _ _ Hv Hninv Hx) as (nb' & En' & Hninv' & Hnmin').
        rewrite En'. cbn [bind].
        eexists _, nb', _, ds, _, bl, rst, (h ++ widths ++ bd).
        split; [reflexivity|]. cbn [dd_nmb dd_vpmb dd_remaining dd_next dd_block dd_values dd_consumed].
        rewrite Hnmin'. split; [reflexivity|]. split; [cbn [length] in Hn; lia|].
        split; [reflexivity|]. split; [reflexivity|]. split; [reflexivity|]. split; [reflexivity|]. split; [reflexivity|].
        split; [exact Hninv'|]. split; [exact Hr1'|]. split; [assumption|]. split; [assumption|].
        split; [unfold nlen in *; rewrite !app_length in Hsz; lia|].
        split; [rewrite <- !app_assoc; reflexivity|]. split; [reflexivity|].
        rewrite !app_length in *. lia.
      - inversion Hrl as [|? ? Hx Hrl' E4]; subst.
        destruct (block_next_ok m v b x l _ _ Hv Hinv Hx) as (b' & En' & Hinv' & Hmin').
        rewrite En'. cbn [bind].
        eexists _, b', _, l, _, bl, body, pre.
        split; [reflexivity|]. cbn [dd_nmb dd_vpmb dd_remaining dd_next dd_block dd_values dd_consumed].
        rewrite Hmin'. split; [reflexivity|]. split; [cbn [length] in Hn; lia|].
        split; [assumption|]. split; [assumption|]. split; [reflexivity|]. split; [reflexivity|]. split; [reflexivity|].
        split; [exact Hinv'|]. split; [exact Hrl'|]. split; [assumption|]. split; [assumption|]. split; [assumption|].
        split; [assumption|]. split; [reflexivity|]. lia. }
    destruct Hstep as (s' & b' & delta & l' & T' & bl' & body' & pre' & Hload & Hlist & Hn' & Hnmb' & Hvp' & Hrem'
      & Hnext' & Hb' & Hinv' & Hrl' & Hbl' & Hrbl' & Hsz' & Hvals' & Hpre' & Htot').
    rewrite Hlist in *. cbn [running map]. cbn [run_ok] in Hrun. destruct Hrun as [Hadd Hrun].
    eapply yields_cons.
    + split; [|discriminate]. unfold delta_size_hint, nlen. cbn [length]. rewrite Hrem, map_length, running_length, app_length.
      unfold deltas_of. rewrite map_length. lia.
    + unfold delta_next. rewrite Hrem.
      replace (N.of_nat (S (S n)) =? 0) with false by lia.
      replace (N.of_nat (S (S n)) - 1) with (N.of_nat (S n)) by lia.
      replace (N.of_nat (S n) =? 0) with false by lia. rewrite Hload. cbn [bind].
      rewrite Hnext', sadd_ok by assumption. cbn [bind]. reflexivity.
    + apply (IH (mk_delta (dd_nmb s') (dd_vpmb s') (dd_remaining s') (wrap_s 64 (dd_next s + delta))
               (dd_values s') (dd_block s') (dd_consumed s')) b' l' T' bl' body' trail pre' total);
        cbn [dd_nmb dd_vpmb dd_remaining dd_next dd_block dd_values dd_consumed]; try assumption; trivial.
Qed.

Lemma delta_decodes m nmb v count first bl data trail :
  delta_stream nmb v count first bl data -> bytes_ok trail -> nlen data < 2 ^ 61 ->
  (m = Wrapping \/ adds_in_range first bl) ->
  exists s, delta_try_new m (data ++ trail) = Ok s /\
    yields (delta_next m) (dd_P (length data)) s (map inl (stream_values count first bl)).
Proof.
  intros Hst Htr Hsz Hm. destruct Hst as [bs h1 h2 h3 h4 body Hbs Hprod Hnmb Hv Hv8 Hh1 Hh2 Hh3 Hh4 Hcount Hbl].
  assert (Hrange : Forall (fun x => range_ok m (fst x) (snd x)) bl /\ run_ok m first (stream_deltas bl)).
  { destruct Hm as [->|[Ha Hb]].
    - split.
      + apply Forall_forall. intros x _. apply Forall_forall. intros d _. left. reflexivity.
      + clear. generalize first. induction (stream_deltas bl) as [|d r IH]; intro f; cbn [run_ok]; [trivial|].
        split; [left; reflexivity|apply IH].
    - split.
      + eapply Forall_impl; [|exact Ha]. intros x Hx. eapply Forall_impl; [|exact Hx]. intros d Hd. right. exact Hd.
      + revert Hb. clear. generalize first. induction (stream_deltas bl) as [|d r IH]; intros f H; cbn [run_ok running_in_range] in *; [trivial|].
        destruct H as [H1 H2]. split; [right; assumption|]. rewrite wrap_id by (apply in_s_iff; assumption). apply IH; assumption. }
  destruct Hrange as [Hra Hrb].
  assert (Hok5 : bytes_ok (body ++ trail)) by (apply bytes_ok_app; split; [eapply blocks_ok; eassumption|assumption]).
  assert (Hok4 : bytes_ok (h4 ++ body ++ trail)) by (apply bytes_ok_app; split; [eapply zigzag_varint_bytes; eassumption|assumption]).
  assert (Hok3 : bytes_ok (h3 ++ h4 ++ body ++ trail)) by (apply bytes_ok_app; split; [eapply varint_bytes; eassumption|assumption]).
  assert (Hok2 : bytes_ok (h2 ++ h3 ++ h4 ++ body ++ trail)) by (apply bytes_ok_app; split; [eapply varint_bytes; eassumption|assumption]).
  unfold delta_try_new. rewrite <- !app_assoc.
  rewrite (varint_decode _ _ _ Hh1 Hok2). cbn [bind].
  replace (negb (bs mod 128 =? 0)) with false by lia.
  rewrite slice_from_app. cbn [bind]. rewrite (varint_decode _ _ _ Hh2 Hok3). cbn [bind].
  rewrite slice_from_app. cbn [bind]. rewrite (varint_decode _ _ _ Hh3 Hok4). cbn [bind].
  rewrite slice_from_app. cbn [bind]. rewrite (zigzag_varint_decode _ _ _ Hh4 Hok5). cbn [bind].
  rewrite slice_from_app. cbn [bind].
  replace (N.of_nat nmb =? 0) with false by lia.
  assert (Hdiv : bs / N.of_nat nmb = N.of_nat v).
  { rewrite <- Hprod, N.mul_comm, N.div_mul by lia. reflexivity. }
  rewrite Hdiv.
  assert (Hm8 : N.of_nat v mod 8 = 0).
  { change 8 with (N.of_nat 8). rewrite <- Nnat.Nat2N.inj_mod, Hv8. reflexivity. }
  rewrite Hm8. cbn [N.eqb negb].
  assert (H64 : N.of_nat nmb * N.of_nat v < 2 ^ 64) by (rewrite Hprod; apply Hh1).
  assert (Hszb : nlen body < 2 ^ 61) by (unfold nlen in *; rewrite !app_length in Hsz; lia).
  assert (Hlen : length (h1 ++ h2 ++ h3 ++ h4 ++ body) = (length h1 + length h2 + length h3 + length h4 + length body)%nat)
    by (rewrite !app_length; lia).
  destruct (1 <? N.of_nat count) eqn:Ec.
  - destruct bl as [|[mn ds] bl]; [cbn [stream_deltas flat_map length] in Hcount; lia|].
    inversion Hbl as [|mn' ds' h widths bd bl0 rst Hh Hwok Hwl Hne Hle Hfull Hmb Hrest E1 E2]. subst mn' ds' bl0 body.
    assert (Hld : length (stream_deltas ((mn, ds) :: bl)) = (length ds + length (stream_deltas bl))%nat).
    { unfold stream_deltas. cbn [flat_map]. rewrite app_length. unfold block_deltas at 1. rewrite map_length. reflexivity. }
    assert (Hc0 : (count - 1 = length ds + length (stream_deltas bl))%nat) by (rewrite <- Hld; exact Hcount).
    rewrite <- !app_assoc.
    destruct (block_try_new_ok m nmb v mn ds h widths bd (rst ++ trail) (N.of_nat count - 1))
      as (b & Eb & Hinv & Hmin); try assumption.
    { apply bytes_ok_app; split; [eapply blocks_ok; eassumption|assumption]. }
    { unfold nlen in *. rewrite !app_length in Hszb. lia. }
    { destruct bl as [|b1 bl]; [cbn [stream_deltas flat_map length] in Hc0; unfold nlen; lia|].
      specialize (Hfull ltac:(discriminate)). unfold nlen. lia. }
    rewrite Eb. cbn [bind]. eexists. split; [reflexivity|].
    inversion Hra as [|? ? Hr1 Hr2 E3]; subst. cbn [fst snd] in Hr1.
    destruct count as [|[|n]]; [lia|lia|].
    cbn [stream_values].
    change (stream_deltas ((bl_min b, ds) :: bl)) with (deltas_of (bl_min b) ds ++ stream_deltas bl) in *.
    assert (Hn : (S n = length ds + length (stream_deltas bl))%nat) by lia.
    match goal with |- yields _ _ ?st _ =>
      apply (delta_yields m (length widths) v Hv H64 (S n) st b ds (length (h ++ widths ++ bd)) bl rst trail (h ++ widths ++ bd))
    end; cbn [dd_nmb dd_vpmb dd_remaining dd_next dd_block dd_values dd_consumed]; try assumption; try reflexivity; trivial.
    + unfold nlen in *. rewrite !app_length in Hszb. lia.
    + rewrite <- !app_assoc. reflexivity.
    + rewrite Hlen, !app_length. lia.
  - cbn [bind]. eexists. split; [reflexivity|].
    assert (bl = []) as ->.
    { destruct bl as [|[mn ds] bl]; [reflexivity|]. inversion Hbl. subst.
      unfold stream_deltas in Hcount. cbn [flat_map length] in Hcount. rewrite app_length in Hcount.
      unfold block_deltas in Hcount. rewrite map_length in Hcount. cbn [snd] in Hcount. destruct ds; [congruence|].
      cbn [length] in Hcount. lia. }
    inversion Hbl; subst body.
    destruct count as [|[|n]]; [| |lia]; cbn [stream_values stream_deltas flat_map running map].
    + eapply yields_nil; [|reflexivity]. split; [reflexivity|]. intros _. unfold delta_consumed.
      cbn [dd_consumed dd_block]. rewrite Hlen. cbn [length]. lia.
    + eapply yields_cons; [split; [reflexivity|discriminate]|reflexivity|].
      eapply yields_nil; [|reflexivity]. split; [reflexivity|]. intros _. unfold delta_consumed.
      cbn [dd_consumed dd_block]. rewrite Hlen. cbn [length]. lia.
Qed.
