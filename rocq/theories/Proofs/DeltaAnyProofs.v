From Verif Require Import Base.Prelude Base.LeFacts Base.Iter Spec.Bits Spec.UlebSpec Spec.DeltaAnySpec
  Model.Uleb128 Model.Bitpacked Model.DeltaBitpacked Proofs.UlebProofs Proofs.BitsFacts Proofs.BitpackedProofs
  Proofs.HybridRleProofs Proofs.DeltaDecProofs.
Open Scope N_scope.

Lemma uleb_at l : bytes_ok l ->
  match varint_at l with
  | None => uleb_decode l = Panic
  | Some (u, rest) => exists c, uleb_decode l = Ok (u, c) /\ slice_from c l = Ok rest /\ bytes_ok rest /\ u < 2 ^ 64 /\ l = firstn c l ++ rest /\ length (firstn c l) = c
  end.
Proof.
  intro Hl. pose proof (uleb_decode_total l Hl) as [Hp Hn]. unfold varint_at.
  destruct ((10 <=? length (uleb_lead l))%nat && (1 <? nth 9 l 0)) eqn:E.
  - apply Hp. lia.
  - assert (uleb_decode l <> Panic) as Hne by (intro H; apply Hp in H; lia).
    destruct (Hn Hne) as (E1 & Hle & _ & Hb). eexists. split; [exact E1|].
    split; [unfold slice_from; replace (length (uleb_lead l) <=? length l)%nat with true by lia; reflexivity|].
    split; [apply bytes_ok_skipn; exact Hl|]. split; [exact Hb|]. split; [symmetry; apply firstn_skipn|]. apply firstn_length_le. exact Hle.
Qed.

Lemma signed_at u : u < 2 ^ 64 -> Z.lxor (to_signed 64 (N.shiftr u 1)) (- Z.of_N (N.land u 1)) = signed_of u.
Proof.
  intro Hu. rewrite N.shiftr_div_pow2. change (2 ^ 1) with 2. change 1 with (N.ones 1). rewrite N.land_ones. change (2 ^ 1) with 2.
  assert (Hd : u / 2 < 2 ^ 63) by (apply N.div_lt_upper_bound; [lia|]; change (2 * 2 ^ 63) with (2 ^ 64); exact Hu).
  assert (Es : to_signed 64 (u / 2) = Z.of_N (u / 2)).
  { unfold to_signed. replace (u / 2 <? 2 ^ (64 - 1)) with true by (change (64 - 1) with 63; lia). reflexivity. }
  rewrite Es. unfold signed_of. destruct (N.even u) eqn:E.
  - apply N.even_spec in E as [k ->]. rewrite N.mul_comm, N.mod_mul by lia. cbn [Z.of_N Z.opp]. apply Z.lxor_0_r.
  - assert (Ho : N.odd u = true) by (rewrite <- N.negb_even, E; reflexivity). apply N.odd_spec in Ho as [k ->].
    replace ((2 * k + 1) mod 2) with 1 by (rewrite N.add_comm, N.mul_comm, N.mod_add by lia; reflexivity).
    change (- Z.of_N 1)%Z with (-1)%Z. apply lxor_m1.
Qed.

Lemma zigzag_at l : bytes_ok l ->
  match varint_at l with
  | None => zigzag_decode l = Panic
  | Some (u, rest) => exists c, zigzag_decode l = Ok (signed_of u, c) /\ slice_from c l = Ok rest /\ bytes_ok rest /\ l = firstn c l ++ rest /\ length (firstn c l) = c
  end.
Proof.
  intro Hl. pose proof (uleb_at l Hl) as H. unfold zigzag_decode. destruct (varint_at l) as [[u rest]|].
  - destruct H as (c & E & Hs & Hr & Hu & Hf). exists c. rewrite E. cbn [bind]. rewrite signed_at by exact Hu. auto.
  - rewrite H. reflexivity.
Qed.

(** *** Blocks *)

(** The block will give the relative deltas [raw] and then end as [e] says. *)
Definition bany (v : nat) (b : block) (raw : list N) (e : ending) : Prop :=
  exists c more r, raw = c ++ more /\ bl_vpmb b = N.of_nat v /\ bl_remaining b = N.of_nat r /\ bytes_ok (bl_values b) /\ bytes_ok (bl_widths b) /\
    mini_ok (bl_mini b) c /\
    ((length c = r /\ more = [] /\ e = Complete (bl_values b)) \/
     ((0 < length c < r)%nat /\ bl_index b + nlen c = N.of_nat v /\ (r - length c <= length (bl_widths b) * v)%nat /\
      miniblocks_at v (r - length c) (bl_widths b) (bl_values b) = (more, e))) /\
    (bl_index b + nlen c <= N.of_nat v).

Lemma sadd_any m a b : sadd m 64 a b = if overflows m (a + b) then Panic else Ok (wrap_s 64 (a + b)).
Proof.
  unfold sadd, overflows. destruct (in_s 64 (a + b)) eqn:E.
  - rewrite wrap_id by (apply in_s_iff; exact E). destruct m; reflexivity.
  - destruct m; reflexivity.
Qed.

(** Setting up a miniblock. *)
Lemma advance_any m v b r raw e : (v mod 8 = 0)%nat -> (m = Wrapping -> N.of_nat v < 2 ^ 56) ->
  bl_vpmb b = N.of_nat v -> bl_remaining b = N.of_nat r -> bytes_ok (bl_values b) -> bytes_ok (bl_widths b) ->
  (0 < length (bl_widths b))%nat -> (r <= length (bl_widths b) * v)%nat -> miniblocks_at v r (bl_widths b) (bl_values b) = (raw, e) ->
  (raw = [] /\ e = Failed /\ exists b', block_advance m b = Ok (Some OutOfSpec, b')) \/
  (raw = [] /\ e = Aborts /\ block_advance m b = Panic) \/
  ((raw <> [] \/ exists rest, e = Complete rest) /\
   exists b' k, block_advance m b = Ok (None, b') /\ bany v b' raw e /\ bl_min b' = bl_min b /\
      bl_consumed b' = (bl_consumed b + k)%nat /\ (k <= length (bl_values b))%nat /\ bl_values b' = skipn k (bl_values b)).
Proof.
  intros Hv8 Hsm Hvp Hrem Hok Hwok Hw0 Hr E. unfold block_advance. destruct (bl_widths b) as [|w ws] eqn:Ew; [cbn in Hw0; lia|].
  inversion Hwok as [|? ? Hwb Hwok' ]; subst. cbn [miniblocks_at] in E. cbn [length] in Hr.
  assert (Hrest : forall ds rest, length ds = min r v -> forall b', bl_vpmb b' = N.of_nat v -> bl_remaining b' = N.of_nat r -> bytes_ok rest ->
    bl_values b' = rest -> bl_widths b' = ws -> mini_ok (bl_mini b') ds -> bl_index b' = 0 ->
    (if (r <=? v)%nat then (ds, Complete rest) else let (more, e0) := miniblocks_at v (r - v) ws rest in (ds ++ more, e0)) = (raw, e) ->
    (raw <> [] \/ exists rest, e = Complete rest) /\ bany v b' raw e).
  { intros ds rest Hl b' H1 H2 H3 H4 H5 H6 H7 H8. destruct (r <=? v)%nat eqn:El.
    - injection H8 as <- <-. split; [right; eexists; reflexivity|]. exists ds, [], r. rewrite app_nil_r. subst rest. rewrite H5.
      repeat split; try assumption.
      + left. repeat split. lia.
      + rewrite H7. unfold nlen. lia.
    - destruct (miniblocks_at v (r - v) ws rest) as [more e0] eqn:Em. injection H8 as <- <-. assert (0 < v)%nat by nia.
      split; [left; destruct ds; [cbn in Hl; lia|discriminate]|]. exists ds, more, r. subst rest. rewrite H5.
      repeat split; try assumption.
      + right. rewrite H7. unfold nlen. replace (length ds) with v by lia. repeat split; try lia. exact Em.
      + rewrite H7. unfold nlen. lia. }
  unfold miniblock in E. cbv zeta in E. destruct (N.eqb_spec w 0) as [->|Hne].
  - cbn [N.ltb N.compare]. right. right.
    pose (b' := mk_block (bl_min b) (bl_vpmb b) ws (bl_values b) (bl_remaining b) 0 None (bl_consumed b)).
    destruct (Hrest (repeat 0 (min r v)) (bl_values b) (repeat_length 0 (min r v)) b') as [G1 G2]; try assumption; try reflexivity.
    { cbn [b' bl_mini mini_ok]. clear. induction (min r v); constructor; auto. }
    split; [exact G1|]. exists b', 0%nat. cbn [skipn]. split; [reflexivity|]. split; [exact G2|]. split; [reflexivity|]. split; [cbn [b' bl_consumed]; lia|]. split; [lia|reflexivity].
  - replace (0 <? w) with true by lia. rewrite Hvp, Hrem.
    assert (H256 : w < 256) by (exact Hwb).
    unfold umul. destruct (2 ^ 64 <=? N.of_nat v * w) eqn:Eo.
    + injection E as <- <-. right. left. split; [reflexivity|]. split; [reflexivity|]. destruct m.
      * replace (N.of_nat v * w <? 2 ^ 64) with false by lia. reflexivity.
      * exfalso. specialize (Hsm eq_refl). change (2 ^ 56) with 72057594037927936 in Hsm. change (2 ^ 64) with 18446744073709551616 in Eo. nia.
    + replace (N.of_nat v * w <? 2 ^ 64) with true by lia. cbn [bind].
      pose (wn := N.to_nat w). assert (Ewn : w = N.of_nat wn) by (unfold wn; lia). set (size := (v * N.to_nat w / 8)%nat) in *.
      assert (Hsz : (8 * size = v * wn)%nat).
      { unfold size. fold wn. apply Nat.mod_divides in Hv8; [|lia]. destruct Hv8 as [q ->].
        replace (8 * q * wn)%nat with (q * wn * 8)%nat by lia. rewrite Nat.div_mul by lia. lia. }
      assert (Hc8 : ceil8N (N.of_nat v * w) = N.of_nat size).
      { replace (N.of_nat v * w) with (N.of_nat size * 8) by (rewrite Ewn; lia).
        unfold ceil8N. rewrite N.div_mul, N.mod_mul by lia. change (0 =? 0) with true. cbv iota. lia. }
      clearbody size. rewrite Hc8. destruct (length (bl_values b) <? size)%nat eqn:Es.
      { injection E as <- <-. left. split; [reflexivity|]. split; [reflexivity|].
        replace (nlen (bl_values b) <? N.of_nat size) with true by (unfold nlen; lia). eexists. reflexivity. }
      replace (nlen (bl_values b) <? N.of_nat size) with false by (unfold nlen; lia).
      rewrite Nnat.Nat2N.id. unfold split_at. replace (size <=? length (bl_values b))%nat with true by lia. cbn [bind]. fold wn.
      assert (Hfl : length (firstn size (bl_values b)) = size) by (apply firstn_length_le; lia).
      replace (N.min (N.of_nat r) (N.of_nat v)) with (N.of_nat (min r v)) by lia.
      assert (Hmin : N.of_nat (min r v) * N.of_nat wn < 2 ^ 64) by (rewrite <- Ewn; clear - Eo; nia).
      destruct ((64 <? w) && (0 <? v)%nat) eqn:E64.
      * injection E as <- <-. right. left. split; [reflexivity|]. split; [reflexivity|].
        rewrite (bp_try_new_too_wide m 8 (firstn size (bl_values b)) wn (min r v)); [reflexivity| | | |].
        -- change (tbits 8) with 64%nat. lia.
        -- intro H. rewrite H in Hfl. cbn [length] in Hfl. assert (0 < v)%nat as Hv0 by lia. assert (0 < wn)%nat as Hw1 by lia. clear - Hfl Hsz Hv0 Hw1. nia.
        -- rewrite Hfl, Hsz. clear. nia.
        -- exact Hmin.
      * right. right. destruct (Nat.eq_dec v 0) as [->|Hv0].
        -- assert (size = 0%nat) by lia. rewrite H in *. cbn [firstn skipn]. replace (min r 0) with 0%nat by lia.
           unfold bp_try_new. replace (wn =? 0)%nat with false by lia. cbn [umul N.of_nat].
           unfold umul. replace (0 * N.of_nat wn <? 2 ^ 64) with true by lia. cbn [bind]. replace (nlen (@nil N) * 8 <? 0 * N.of_nat wn) with false by (cbn; lia).
           match goal with |- _ /\ exists b' k, Ok (None, ?bb) = _ /\ _ => pose (b' := bb) end.
           destruct (Hrest [] (bl_values b) ltac:(cbn; lia) b') as [G1 G2]; try reflexivity; try assumption.
           { cbn [b' bl_mini mini_ok]. eapply yields_nil; reflexivity. }
           { replace (min r 0) with 0%nat in E by lia. exact E. }
           split; [exact G1|]. exists b', 0%nat. cbn [skipn]. split; [reflexivity|]. split; [exact G2|]. split; [reflexivity|]. split; [cbn [b' bl_consumed]; lia|]. split; [lia|reflexivity].
        -- destruct (bp_try_new_ok m 8 wn (firstn size (bl_values b)) (min r v)) as (d & Ed & Hy).
           { change (tbits 8) with 64%nat. lia. } { apply bytes_ok_firstn. assumption. } { rewrite Hfl, Hsz. clear. nia. } { exact Hmin. }
           rewrite Ed.
           match goal with |- _ /\ exists b' k, Ok (None, ?bb) = _ /\ _ => pose (b' := bb) end.
           destruct (Hrest (map (fun j => bit_field wn j (firstn size (bl_values b))) (seq 0 (min r v))) (skipn size (bl_values b)) (eq_trans (map_length _ _) (seq_length (min r v) 0)) b') as [G1 G2]; try reflexivity; try assumption.
           { apply bytes_ok_skipn. assumption. }
           split; [exact G1|]. exists b', size. split; [reflexivity|]. split; [exact G2|]. split; [reflexivity|]. split; [cbn [b' bl_consumed]; lia|]. split; [lia|reflexivity].
Qed.

Definition can_go_on (raw : list N) (e : ending) : Prop := raw <> [] \/ exists rest, e = Complete rest.

(** What stays the same while a block is read: its minimum, and where in the buffer it is. *)
Definition same_place (b b' : block) : Prop :=
  bl_min b' = bl_min b /\ exists k, bl_consumed b' = (bl_consumed b + k)%nat /\ (k <= length (bl_values b))%nat /\ bl_values b' = skipn k (bl_values b).
Lemma same_place_refl b b' : bl_min b' = bl_min b -> bl_consumed b' = bl_consumed b -> bl_values b' = bl_values b -> same_place b b'.
Proof. intros H1 H2 H3. split; [exact H1|]. exists 0%nat. rewrite H2, H3. cbn [skipn]. split; [lia|]. split; [lia|reflexivity]. Qed.

Lemma block_next_any m v b raw e : (v mod 8 = 0)%nat -> (m = Wrapping -> N.of_nat v < 2 ^ 56) -> bany v b raw e ->
  match raw with
  | [] => block_next m b = Ok (None, b) /\ e = Complete (bl_values b)
  | x :: raw' =>
      if overflows m (bl_min b + to_signed 64 x) then block_next m b = Panic
      else (raw' = [] /\ e = Failed /\ exists b', block_next m b = Ok (Some (inr OutOfSpec), b')) \/
           (raw' = [] /\ e = Aborts /\ block_next m b = Panic) \/
           (can_go_on raw' e /\ exists b', block_next m b = Ok (Some (inl (wrap_s 64 (bl_min b + to_signed 64 x))), b') /\ bany v b' raw' e /\ same_place b b')
  end.
Proof.
  intros Hv8 Hsm (c & more & r & -> & Hvp & Hrem & Hok & Hwok & Hmini & Hcase & Hidx).
  destruct c as [|x c].
  { destruct Hcase as [(Hr & -> & ->)|(H & _)]; [|cbn in H; lia]. cbn [length app] in *. subst r. cbn [app]. unfold block_next. rewrite Hrem. split; reflexivity. }
  cbn [app]. unfold block_next. rewrite Hrem.
  assert (Hr0 : (0 < r)%nat) by (destruct Hcase as [(H & _)|(H & _)]; cbn [length] in H; lia).
  replace (N.of_nat r =? 0) with false by lia.
  assert (Hx : exists mini', (match bl_mini b with
      | Some d => let* (o, d') := bp_next 8 d in Ok (match o with Some v => v | None => 0 end, Some d')
      | None => Ok (0, None) end) = Ok (x, mini') /\ mini_ok mini' c).
  { destruct (bl_mini b) as [d|]; cbn [mini_ok] in Hmini.
    - inversion Hmini as [|s s' a l0 Hp Hn Hy]; subst. rewrite Hn. cbn [bind].
      eexists. split; [reflexivity|exact Hy].
    - inversion Hmini as [|a l0 H0 H1]; subst. exists None. split; [reflexivity|assumption]. }
  destruct Hx as (mini' & -> & Hmini'). cbn [bind].
  rewrite sadd_any. destruct (overflows m _); [reflexivity|]. cbn [bind bl_vpmb]. rewrite Hvp.
  replace (N.of_nat r - 1) with (N.of_nat (r - 1)) by lia.
  set (b1 := mk_block (bl_min b) (N.of_nat v) (bl_widths b) (bl_values b) (N.of_nat (r - 1)) (bl_index b + 1) mini' (bl_consumed b)).
  unfold nlen in Hidx. cbn [length] in Hidx.
  destruct ((0 <? N.of_nat (r - 1)) && (bl_index b + 1 =? N.of_nat v)) eqn:Eadv.
  - destruct c as [|y c]; [|cbn [length] in Hidx; lia]. cbn [app length] in *.
    destruct Hcase as [(H & _)|(H & Hi & Hw & Hm)]; [lia|].
    destruct (advance_any m v b1 (r - 1) more e) as [(-> & -> & b' & Eb)|[(-> & -> & Eb)|(Hgo & b' & k & Eb & Hb & Hmin & Hc & Hk & Hvals)]]; try assumption; try reflexivity.
    + cbn [b1 bl_widths]. destruct (bl_widths b); [cbn in Hw; lia|cbn; lia].
    + left. split; [reflexivity|]. split; [reflexivity|]. rewrite Eb. cbn [bind]. eexists. reflexivity.
    + right. left. split; [reflexivity|]. split; [reflexivity|]. rewrite Eb. reflexivity.
    + right. right. split; [exact Hgo|]. rewrite Eb. cbn [bind]. eexists. split; [reflexivity|]. split; [exact Hb|].
      split; [exact Hmin|]. exists k. repeat split; assumption.
  - right. right.
    assert (Hb1 : bany v b1 (c ++ more) e).
    { exists c, more, (r - 1)%nat. cbn [b1 bl_vpmb bl_remaining bl_values bl_widths bl_mini bl_index]. repeat split; try assumption.
      - destruct Hcase as [(H & -> & ->)|(H & Hi & Hw & Hm)]; cbn [length] in H; [left; repeat split; lia|].
        right. unfold nlen in Hi. cbn [length] in Hi, Hm, Hw.
        assert (0 < length c)%nat by (destruct c; [cbn [length] in Hi; lia|cbn; lia]).
        unfold nlen. split; [lia|]. split; [lia|]. replace (r - 1 - length c)%nat with (r - S (length c))%nat by lia. split; assumption.
      - unfold nlen. lia. }
    split.
    { destruct Hcase as [(H & -> & ->)|(H & Hi & _)]; [right; eexists; reflexivity|]. left. unfold nlen in Hi. cbn [length] in *. destruct c; [exfalso; cbn [length] in Hi; lia|discriminate]. }
    eexists. split; [reflexivity|]. split; [exact Hb1|]. apply same_place_refl; reflexivity.
Qed.

Lemma block_try_new_any m nmb v n bytes mn raw e : (v mod 8 = 0)%nat -> (m = Wrapping -> N.of_nat v < 2 ^ 56) ->
  (0 < nmb)%nat -> N.of_nat nmb * N.of_nat v < 2 ^ 64 -> bytes_ok bytes -> block_at nmb v n bytes = (mn, raw, e) ->
  (raw = [] /\ e = Failed /\ block_try_new m bytes (N.of_nat nmb) (N.of_nat v) (N.of_nat n) = Err OutOfSpec) \/
  (raw = [] /\ e = Aborts /\ block_try_new m bytes (N.of_nat nmb) (N.of_nat v) (N.of_nat n) = Panic) \/
  (can_go_on raw e /\ exists b, block_try_new m bytes (N.of_nat nmb) (N.of_nat v) (N.of_nat n) = Ok b /\ bany v b raw e /\ bl_min b = mn /\
     exists pre, bytes = pre ++ bl_values b /\ length pre = bl_consumed b).
Proof.
  intros Hv8 Hsm Hnmb H64 Hok E. unfold block_try_new, umul. replace (N.of_nat nmb * N.of_nat v <? 2 ^ 64) with true by lia. cbn [bind].
  pose proof (zigzag_at bytes Hok) as Hz. unfold block_at in E. destruct (varint_at bytes) as [[u rest]|].
  2: { injection E as <- <- <-. right. left. rewrite Hz. repeat split. }
  destruct Hz as (c & -> & Hs & Hrok & Hcat & Hlen). cbn [bind]. rewrite Hs. cbn [bind].
  destruct (length rest <? nmb)%nat eqn:El.
  { injection E as <- <- <-. left. replace (nlen rest <? N.of_nat nmb) with true by (unfold nlen; lia). repeat split. }
  replace (nlen rest <? N.of_nat nmb) with false by (unfold nlen; lia). cbv zeta. rewrite Nnat.Nat2N.id.
  unfold split_at. replace (nmb <=? length rest)%nat with true by lia. cbn [bind].
  destruct (miniblocks_at v (min n (nmb * v)) (firstn nmb rest) (skipn nmb rest)) as [ds e0] eqn:Em. injection E as <- <- <-.
  replace (N.min (N.of_nat n) (N.of_nat nmb * N.of_nat v)) with (N.of_nat (min n (nmb * v))) by lia.
  assert (Hfl : length (firstn nmb rest) = nmb) by (apply firstn_length_le; lia).
  match goal with |- context [block_advance m ?bb] => set (b1 := bb) end.
  destruct (advance_any m v b1 (min n (nmb * v)) ds e0) as [(-> & -> & b' & Eb)|[(-> & -> & Eb)|(Hgo & b' & k & Eb & Hb & Hmin & Hc & Hk & Hvals)]]; try assumption; try reflexivity.
  - apply bytes_ok_skipn. assumption.
  - apply bytes_ok_firstn. assumption.
  - cbn [b1 bl_widths]. lia.
  - cbn [b1 bl_widths]. rewrite Hfl. lia.
  - left. rewrite Eb. repeat split.
  - right. left. rewrite Eb. repeat split.
  - right. right. split; [exact Hgo|]. rewrite Eb. cbn [bind]. exists b'. split; [reflexivity|]. split; [exact Hb|]. split; [exact Hmin|].
    cbn [b1 bl_values bl_consumed] in Hvals, Hc, Hk. exists (firstn c bytes ++ firstn nmb rest ++ firstn k (skipn nmb rest)). split.
    + rewrite Hvals, <- !app_assoc, firstn_skipn, firstn_skipn. exact Hcat.
    + rewrite Hc, !app_length, Hlen, Hfl, firstn_length_le by exact Hk. lia.
Qed.

Lemma advance_remaining m b o b' : block_advance m b = Ok (o, b') -> bl_remaining b' = bl_remaining b.
Proof.
  unfold block_advance. destruct (bl_widths b) as [|w ws]; [discriminate|]. destruct (0 <? w).
  - destruct (umul m 64 (bl_vpmb b) w) as [bits| |]; cbn [bind]; try discriminate.
    destruct (nlen (bl_values b) <? ceil8N bits); [intro H; injection H as <- <-; reflexivity|].
    destruct (split_at _ _) as [[mb rest]| |]; cbn [bind]; try discriminate.
    destruct (bp_try_new m 8 mb (N.to_nat w) _); try discriminate. intro H; injection H as <- <-. reflexivity.
  - intro H; injection H as <- <-. reflexivity.
Qed.
Lemma block_next_remaining m b o b' : block_next m b = Ok (Some o, b') -> bl_remaining b' = bl_remaining b - 1.
Proof.
  unfold block_next. destruct (bl_remaining b =? 0); [discriminate|].
  destruct (match bl_mini b with Some d => _ | None => _ end) as [[x mini]| |]; cbn [bind]; try discriminate.
  destruct (sadd m 64 _ _) as [z| |]; cbn [bind]; try discriminate. destruct ((0 <? _) && _).
  - destruct (block_advance m _) as [[[e|] b2]| |] eqn:E; cbn [bind]; try discriminate; intro H; injection H as <- <-; apply advance_remaining in E; exact E.
  - intro H; injection H as <- <-. reflexivity.
Qed.
Lemma block_try_new_remaining m bytes nmb v n b : block_try_new m bytes nmb v n = Ok b -> bl_remaining b <= n.
Proof.
  unfold block_try_new. destruct (umul m 64 nmb v) as [t| |]; cbn [bind]; try discriminate.
  destruct (zigzag_decode bytes) as [[z c]| |]; cbn [bind]; try discriminate. destruct (slice_from c bytes) as [r| |]; cbn [bind]; try discriminate.
  destruct (nlen r <? nmb); [discriminate|]. destruct (split_at _ _) as [[w r']| |]; cbn [bind]; try discriminate.
  destruct (block_advance m _) as [[[e|] b2]| |] eqn:E; cbn [bind]; try discriminate. intro H; injection H as <-.
  apply advance_remaining in E. rewrite E. cbn [bl_remaining]. lia.
Qed.

(** *** The decoder *)

Definition ahead (fuel : nat) (m : mode) (nmb v n : nat) (mn : Z) (raw : list N) (e : ending) : list Z * ending :=
  match deltas_at m mn raw e with
  | (l, Complete rest) => let (more, e') := blocks_at fuel m nmb v (n - length raw) rest in (l ++ more, e')
  | r => r
  end.

Lemma deltas_at_cons m mn x raw e : overflows m (mn + to_signed 64 x) = false -> can_go_on raw e ->
  deltas_at m mn (x :: raw) e = let (l, e') := deltas_at m mn raw e in (wrap_s 64 (mn + to_signed 64 x) :: l, e').
Proof. intros Ho Hgo. cbn [deltas_at]. rewrite Ho. destruct raw; [|reflexivity]. destruct Hgo as [H|[rest ->]]; [congruence|reflexivity]. Qed.

Lemma first_delta m nmb v fuel n b x raw e0 ds e : (v mod 8 = 0)%nat -> (m = Wrapping -> N.of_nat v < 2 ^ 56) ->
  bany v b (x :: raw) e0 -> ahead fuel m nmb v n (bl_min b) (x :: raw) e0 = (ds, e) ->
  (ds = [] /\ e = Failed /\ exists b', block_next m b = Ok (Some (inr OutOfSpec), b')) \/
  (ds = [] /\ e = Aborts /\ block_next m b = Panic) \/
  (exists d ds' b', ds = d :: ds' /\ block_next m b = Ok (Some (inl d), b') /\ bany v b' raw e0 /\ can_go_on raw e0 /\ same_place b b' /\
     ahead fuel m nmb v (n - 1) (bl_min b) raw e0 = (ds', e)).
Proof.
  intros Hv8 Hsm Hb E. pose proof (block_next_any m v b _ _ Hv8 Hsm Hb) as H. cbn beta iota in H. unfold ahead in *.
  destruct (overflows m (bl_min b + to_signed 64 x)) eqn:Eo.
  { cbn [deltas_at] in E. rewrite Eo in E. injection E as <- <-. right. left. repeat split. exact H. }
  destruct H as [(-> & -> & b' & Eb)|[(-> & -> & Eb)|(Hgo & b' & Eb & Hb' & Hsp)]].
  - cbn [deltas_at] in E. rewrite Eo in E. injection E as <- <-. left. repeat split. eexists. exact Eb.
  - cbn [deltas_at] in E. rewrite Eo in E. injection E as <- <-. right. left. repeat split. exact Eb.
  - rewrite deltas_at_cons in E by assumption. right. right.
    destruct (deltas_at m (bl_min b) raw e0) as [l e1]. destruct e1 as [rest| |].
    + cbn [length] in E. replace (n - 1 - length raw)%nat with (n - S (length raw))%nat by lia.
      destruct (blocks_at fuel m nmb v (n - S (length raw)) rest) as [more e']. injection E as <- <-. cbn [app]. eexists _, _, b'. repeat split; try eassumption; apply Hsp.
    + injection E as <- <-. eexists _, _, b'. repeat split; try eassumption; apply Hsp.
    + injection E as <- <-. eexists _, _, b'. repeat split; try eassumption; apply Hsp.
Qed.

Definition dany (m : mode) (nmb v total : nat) (s : delta_decoder) (n : nat) (ds : list Z) (e : ending) : Prop :=
  exists b raw e0 fuel pre, dd_nmb s = N.of_nat nmb /\ dd_vpmb s = N.of_nat v /\ dd_block s = Some b /\ bany v b raw e0 /\ can_go_on raw e0 /\
    (bl_remaining b <= N.of_nat n) /\ (n - length raw <= fuel)%nat /\ dd_values s = pre ++ bl_values b /\ length pre = bl_consumed b /\
    ahead fuel m nmb v n (bl_min b) raw e0 = (ds, e) /\ (dd_consumed s + length (dd_values s) = total)%nat.

Lemma bany_bytes v b raw e : bany v b raw e -> bytes_ok (bl_values b).
Proof. intros (c & more & r & H). apply H. Qed.

Lemma same_place_pre b b' (values pre : list N) : same_place b b' -> values = pre ++ bl_values b -> length pre = bl_consumed b ->
  exists pre', values = pre' ++ bl_values b' /\ length pre' = bl_consumed b'.
Proof.
  intros (_ & k & Hc & Hk & Hv) -> Hl. exists (pre ++ firstn k (bl_values b)). rewrite Hv, Hc, <- app_assoc, firstn_skipn. split; [reflexivity|].
  rewrite app_length, firstn_length_le by exact Hk. lia.
Qed.

Lemma load_delta_any m nmb v total s n ds e : (v mod 8 = 0)%nat -> (m = Wrapping -> N.of_nat v < 2 ^ 56) ->
  (0 < nmb)%nat -> N.of_nat nmb * N.of_nat v < 2 ^ 64 ->
  dany m nmb v total s (S n) ds e -> dd_remaining s = N.of_nat (S n) ->
  (ds = [] /\ e = Failed /\ exists s', load_delta m s = Ok (inr OutOfSpec, s')) \/
  (ds = [] /\ e = Aborts /\ load_delta m s = Panic) \/
  (exists d ds' s', ds = d :: ds' /\ load_delta m s = Ok (inl d, s') /\ dany m nmb v total s' n ds' e /\ dd_remaining s' = dd_remaining s /\ dd_next s' = dd_next s).
Proof.
  intros Hv8 Hsm Hnmb H64 (b & raw & e0 & fuel & pre & Hn1 & Hv1 & Hblk & Hb & Hgo & Hrem & Hfuel & Hvals & Hpre & Hah & Htot) Hr.
  unfold load_delta. rewrite Hblk. destruct raw as [|x raw].
  - destruct (block_next_any m v b _ _ Hv8 Hsm Hb) as [En ->]. rewrite En. cbn [bind].
    unfold slice_from. rewrite Hvals, app_length. replace (bl_consumed b <=? length pre + length (bl_values b))%nat with true by lia. cbn [bind].
    rewrite <- Hpre, skipn_app, skipn_all, Nat.sub_diag. cbn [skipn app]. rewrite Hn1, Hv1, Hr.
    unfold ahead in Hah. cbn [deltas_at length] in Hah. rewrite Nat.sub_0_r in *.
    destruct fuel as [|fuel]; [cbn in Hfuel; lia|]. cbn [blocks_at] in Hah.
    destruct (block_at nmb v (S n) (bl_values b)) as [[mn raw'] e1] eqn:Eb.
    destruct (block_try_new_any m nmb v (S n) (bl_values b) mn raw' e1 Hv8 Hsm Hnmb H64 (bany_bytes _ _ _ _ Hb) Eb)
      as [(-> & -> & Et)|[(-> & -> & Et)|(Hgo' & nb & Et & Hnb & Hmin & pre' & Hvals' & Hpre')]].
    + cbn [deltas_at app] in Hah. injection Hah as <- <-. left. rewrite Et. repeat split. eexists. reflexivity.
    + cbn [deltas_at app] in Hah. injection Hah as <- <-. right. left. rewrite Et. repeat split.
    + rewrite Et. destruct raw' as [|x raw'].
      * destruct (block_next_any m v nb _ _ Hv8 Hsm Hnb) as [En' ->]. rewrite En'. cbn [bind].
        cbn [app] in Hah. injection Hah as <- <-. left. repeat split. eexists. reflexivity.
      * assert (Hah' : ahead fuel m nmb v (S n) (bl_min nb) (x :: raw') e1 = (ds, e)).
        { rewrite Hmin. unfold ahead. destruct (deltas_at m mn (x :: raw') e1) as [l [rest| |]]; exact Hah || (injection Hah as <- <-; reflexivity) || idtac.
          destruct (blocks_at fuel m nmb v (S n - length (x :: raw')) rest). exact Hah. }
        destruct (first_delta m nmb v fuel (S n) nb x raw' e1 ds e Hv8 Hsm Hnb Hah') as [(-> & -> & b' & Eb')|[(-> & -> & Eb')|(d & ds' & b' & -> & Eb' & Hb' & Hgo2 & Hsp & Hah2)]].
        -- left. rewrite Eb'. cbn [bind]. repeat split. eexists. reflexivity.
        -- right. left. rewrite Eb'. repeat split.
        -- right. right. rewrite Eb'. cbn [bind]. eexists d, ds', _. split; [reflexivity|]. split; [reflexivity|]. cbn [dd_remaining dd_next].
           split; [|split; [first [reflexivity|exact (eq_sym Hr)]|reflexivity]].
           destruct (same_place_pre nb b' _ _ Hsp Hvals' Hpre') as (pre2 & Hvals2 & Hpre2).
           exists b', raw', e1, fuel, pre2. cbn [dd_nmb dd_vpmb dd_block dd_values dd_consumed].
           split; [reflexivity|]. split; [reflexivity|]. split; [reflexivity|]. split; [exact Hb'|]. split; [exact Hgo2|].
           split. { apply block_next_remaining in Eb'. apply block_try_new_remaining in Et. lia. }
           split; [cbn [length] in *; lia|]. split; [exact Hvals2|]. split; [exact Hpre2|].
           split. { destruct Hsp as [-> _]. replace (S n - 1)%nat with n in Hah2 by lia. exact Hah2. }
           rewrite Hvals, app_length in Htot. lia.
  - destruct (first_delta m nmb v fuel (S n) b x raw e0 ds e Hv8 Hsm Hb Hah) as [(-> & -> & b' & Eb')|[(-> & -> & Eb')|(d & ds' & b' & -> & Eb' & Hb' & Hgo2 & Hsp & Hah2)]].
    + left. rewrite Eb'. cbn [bind]. repeat split. eexists. reflexivity.
    + right. left. rewrite Eb'. repeat split.
    + right. right. rewrite Eb'. cbn [bind]. eexists d, ds', _. split; [reflexivity|]. split; [reflexivity|]. cbn [dd_remaining dd_next].
      split; [|split; reflexivity].
      destruct (same_place_pre b b' _ _ Hsp Hvals Hpre) as (pre2 & Hvals2 & Hpre2).
      exists b', raw, e0, fuel, pre2. cbn [dd_nmb dd_vpmb dd_block dd_values dd_consumed].
      split; [assumption|]. split; [assumption|]. split; [reflexivity|]. split; [exact Hb'|]. split; [exact Hgo2|].
      split. { apply block_next_remaining in Eb'. lia. }
      split; [cbn [length] in *; lia|]. split; [exact Hvals2|]. split; [exact Hpre2|].
      split. { destruct Hsp as [-> _]. replace (S n - 1)%nat with n in Hah2 by lia. exact Hah2. }
      exact Htot.
Qed.

Definition then_ends (m : mode) (total : nat) (s : delta_decoder) (vals : list Z) (e : ending) : Prop :=
  match e with
  | Complete rest => yields (delta_next m) (dd_P (total - length rest)) s (map inl vals)
  | Failed => exists s1 s2, returns (delta_next m) s (map inl vals) s1 /\ delta_next m s1 = Ok (Some (inr OutOfSpec), s2)
  | Aborts => exists s1, returns (delta_next m) s (map inl vals) s1 /\ delta_next m s1 = Panic
  end.

Lemma dany_end m nmb v total s ds e : dany m nmb v total s 0 ds e -> ds = [] /\ exists rest, e = Complete rest /\ delta_consumed s = (total - length rest)%nat.
Proof.
  intros (b & raw & e0 & fuel & pre & Hn1 & Hv1 & Hblk & Hb & Hgo & Hrem & Hfuel & Hvals & Hpre & Hah & Htot).
  destruct Hb as (c & more & r & -> & _ & Hr & _ & _ & _ & Hcase & _). assert (r = 0%nat) by lia. subst r.
  destruct Hcase as [(Hc & -> & ->)|(H & _)]; [|lia]. destruct c; [|discriminate Hc]. unfold ahead in Hah. cbn [app deltas_at length] in Hah.
  assert (Eb : blocks_at fuel m nmb v (0 - 0) (bl_values b) = ([], Complete (bl_values b))) by (destruct fuel; reflexivity).
  rewrite Eb in Hah. cbn [app] in Hah. injection Hah as <- <-. split; [reflexivity|]. eexists. split; [reflexivity|].
  unfold delta_consumed. rewrite Hblk, <- Hpre. rewrite Hvals, app_length in Htot. lia.
Qed.

Lemma stream_any m nmb v total : (v mod 8 = 0)%nat -> (m = Wrapping -> N.of_nat v < 2 ^ 56) -> (0 < nmb)%nat -> N.of_nat nmb * N.of_nat v < 2 ^ 64 ->
  forall n s ds e vals e', dany m nmb v total s n ds e -> dd_remaining s = N.of_nat (S n) -> values_at m (dd_next s) ds e = (vals, e') ->
  then_ends m total s vals e' /\ (forall rest, e' = Complete rest -> length vals = S n).
Proof.
  intros Hv8 Hsm Hnmb H64. induction n as [|n IH]; intros s ds e vals e' Hd Hr Hva.
  - destruct (dany_end _ _ _ _ _ _ _ Hd) as (-> & rest & -> & Hc). cbn [values_at] in Hva. injection Hva as <- <-. split; [|intros; reflexivity].
    cbn [then_ends map]. eapply yields_cons.
    + split; [unfold delta_size_hint; rewrite Hr; reflexivity|discriminate].
    + unfold delta_next. rewrite Hr. change (N.of_nat 1 =? 0) with false. cbv iota. change (N.of_nat 1 - 1) with 0. cbn [N.eqb]. reflexivity.
    + eapply yields_nil; [|reflexivity]. split; [reflexivity|]. intros _. exact Hc.
  - pose (s0 := mk_delta (dd_nmb s) (dd_vpmb s) (N.of_nat (S n)) (dd_next s) (dd_values s) (dd_block s) (dd_consumed s)).
    assert (Hd0 : dany m nmb v total s0 (S n) ds e).
    { destruct Hd as (b & raw & e0 & fuel & pre & H). exists b, raw, e0, fuel, pre. exact H. }
    assert (En : delta_next m s = let* (x, d) := load_delta m s0 in
        match x with
        | inr e => Ok (Some (inr e), d)
        | inl delta => let* next_value := sadd m 64 (dd_next d) delta in
            Ok (Some (inl (dd_next s)), mk_delta (dd_nmb d) (dd_vpmb d) (dd_remaining d) next_value (dd_values d) (dd_block d) (dd_consumed d))
        end).
    { unfold delta_next. rewrite Hr. replace (N.of_nat (S (S n)) =? 0) with false by lia.
      replace (N.of_nat (S (S n)) - 1) with (N.of_nat (S n)) by lia. replace (N.of_nat (S n) =? 0) with false by lia. reflexivity. }
    destruct (load_delta_any m nmb v total s0 n ds e Hv8 Hsm Hnmb H64 Hd0 eq_refl) as [(-> & -> & s' & El)|[(-> & -> & El)|(d & ds' & s' & -> & El & Hd' & Hr' & Hn')]].
    + cbn [values_at] in Hva. injection Hva as <- <-. split; [|discriminate]. exists s, s'. split; [constructor|]. rewrite En, El. reflexivity.
    + cbn [values_at] in Hva. injection Hva as <- <-. split; [|discriminate]. exists s. split; [constructor|]. rewrite En, El. reflexivity.
    + cbn [values_at] in Hva. rewrite El in En. cbn [bind] in En. rewrite Hn' in En. cbn [s0 dd_next] in En. rewrite sadd_any in En.
      destruct (overflows m (dd_next s + d)) eqn:Eo.
      { injection Hva as <- <-. split; [|discriminate]. exists s. split; [constructor|]. rewrite En. reflexivity. }
      cbn [bind] in En.
      match type of En with _ = Ok (_, ?ss) => pose (s1 := ss) end.
      destruct (values_at m (wrap_s 64 (dd_next s + d)) ds' e) as [l e1] eqn:Ev. injection Hva as <- <-.
      destruct (IH s1 ds' e l e1) as [Ht Hl].
      { destruct Hd' as (b & raw & e0 & fuel & pre & H). exists b, raw, e0, fuel, pre. exact H. }
      { cbn [s1 dd_remaining]. rewrite Hr'. reflexivity. }
      { exact Ev. }
      split.
      * destruct e1 as [rest| |]; cbn [then_ends map] in *.
        -- eapply yields_cons; [|exact En|exact Ht]. split; [|discriminate]. unfold delta_size_hint. rewrite Hr. unfold nlen. cbn [length]. rewrite map_length, (Hl rest eq_refl). reflexivity.
        -- destruct Ht as (s2 & s3 & Hret & Hnx). exists s2, s3. split; [econstructor; eassumption|exact Hnx].
        -- destruct Ht as (s2 & Hret & Hnx). exists s2. split; [econstructor; eassumption|exact Hnx].
      * intros rest He. cbn [length]. rewrite (Hl rest He). reflexivity.
Qed.

Lemma header_usable_iff bs nmb : header_usable bs nmb = true <-> bs mod 128 = 0 /\ nmb <> 0 /\ (bs / nmb) mod 8 = 0.
Proof. unfold header_usable. rewrite !andb_true_iff, negb_true_iff, !N.eqb_eq, N.eqb_neq. tauto. Qed.

Lemma header_steps m data : bytes_ok data ->
  match header_at data with
  | None => delta_try_new m data = Panic
  | Some (bs, nmb, count, first, rest) => bytes_ok rest /\ bs < 2 ^ 64 /\ nmb < 2 ^ 64 /\ count < 2 ^ 64 /\
      exists c, (c + length rest = length data)%nat /\
      delta_try_new m data =
        if negb (header_usable bs nmb) then Panic
        else let* current_block := (if 1 <? count then let* b := block_try_new m rest nmb (bs / nmb) (count - 1) in Ok (Some b) else Ok None) in
             Ok (mk_delta nmb (bs / nmb) count first rest current_block c)
  end.
Proof.
  intro H0. unfold header_at, delta_try_new. pose proof (uleb_at data H0) as U1. destruct (varint_at data) as [[bs d1]|]; [|rewrite U1; reflexivity].
  destruct U1 as (c1 & E1 & S1 & H1 & B1 & L1 & K1). rewrite E1. cbn [bind]. rewrite S1.
  pose proof (uleb_at d1 H1) as U2. destruct (varint_at d1) as [[nmb d2]|]; [|destruct (negb _); [reflexivity|cbn [bind]; rewrite U2; reflexivity]].
  destruct U2 as (c2 & E2 & S2 & H2 & B2 & L2 & K2).
  pose proof (uleb_at d2 H2) as U3. destruct (varint_at d2) as [[count d3]|]; [|destruct (negb _); [reflexivity|cbn [bind]; rewrite E2; cbn [bind]; rewrite S2; cbn [bind]; rewrite U3; reflexivity]].
  destruct U3 as (c3 & E3 & S3 & H3 & B3 & L3 & K3).
  pose proof (zigzag_at d3 H3) as U4. destruct (varint_at d3) as [[first d4]|];
    [|destruct (negb _); [reflexivity|cbn [bind]; rewrite E2; cbn [bind]; rewrite S2; cbn [bind]; rewrite E3; cbn [bind]; rewrite S3; cbn [bind]; rewrite U4; reflexivity]].
  destruct U4 as (c4 & E4 & S4 & H4 & L4 & K4).
  split; [exact H4|]. split; [exact B1|]. split; [exact B2|]. split; [exact B3|]. exists (c1 + c2 + c3 + c4)%nat. split.
  { apply (f_equal (@length N)) in L1, L2, L3, L4. rewrite app_length in *. lia. }
  cbn [bind]. rewrite E2. cbn [bind]. rewrite S2. cbn [bind]. rewrite E3. cbn [bind]. rewrite S3. cbn [bind]. rewrite E4. cbn [bind]. rewrite S4. cbn [bind].
  unfold header_usable. destruct (bs mod 128 =? 0); cbn [andb negb]; [|reflexivity]. destruct (nmb =? 0); cbn [andb negb]; [reflexivity|].
  destruct ((bs / nmb) mod 8 =? 0); reflexivity.
Qed.

Lemma stream_at_any m data : bytes_ok data ->
  (m = Wrapping -> forall bs nmb count first rest, header_at data = Some (bs, nmb, count, first, rest) -> bs / nmb < 2 ^ 56) ->
  match stream_at m data with
  | Refused => delta_try_new m data = Err OutOfSpec
  | OpenAborts => delta_try_new m data = Panic
  | Holds values e => exists s, delta_try_new m data = Ok s /\ then_ends m (length data) s values e
  end.
Proof.
  intros Hok Hsm. unfold stream_at. pose proof (header_steps m data Hok) as H.
  destruct (header_at data) as [[[[[bs nmb] count] first] rest]|]; [|exact H].
  destruct H as (Hrok & Hbs & Hnmb & Hcount & c & Hlen & ->). specialize (fun M => Hsm M _ _ _ _ _ eq_refl). cbv zeta.
  destruct (header_usable bs nmb) eqn:Hu; cbn [negb]; [|reflexivity]. apply header_usable_iff in Hu as (_ & Hn0 & Hv8).
  destruct (N.eqb_spec count 0) as [->|Hc0].
  { cbn [N.ltb N.compare bind]. eexists. split; [reflexivity|]. cbn [then_ends map]. eapply yields_nil; [|reflexivity].
    split; [reflexivity|]. intros _. unfold delta_consumed. cbn [dd_consumed dd_block]. lia. }
  destruct (N.eqb_spec count 1) as [->|Hc1].
  { cbn [N.ltb N.compare Pos.compare Pos.compare_cont bind]. eexists. split; [reflexivity|]. cbn [then_ends map]. eapply yields_cons; [split; [reflexivity|discriminate]|reflexivity|].
    eapply yields_nil; [|reflexivity]. split; [reflexivity|]. intros _. unfold delta_consumed. cbn [dd_consumed dd_block]. lia. }
  replace (1 <? count) with true by lia.
  set (v := N.to_nat (bs / nmb)) in *. set (k := N.to_nat nmb) in *. set (n := (N.to_nat count - 1)%nat) in *.
  assert (Ev : bs / nmb = N.of_nat v) by (unfold v; lia). assert (Ek : nmb = N.of_nat k) by (unfold k; lia).
  assert (En : count - 1 = N.of_nat n) by (unfold n; lia).
  assert (H64 : N.of_nat k * N.of_nat v < 2 ^ 64).
  { rewrite <- Ev, <- Ek. eapply N.le_lt_trans; [apply N.mul_div_le; exact Hn0|exact Hbs]. }
  assert (Hk : (0 < k)%nat) by lia.
  assert (Hv8' : (v mod 8 = 0)%nat).
  { rewrite Ev in Hv8. change 8 with (N.of_nat 8) in Hv8. rewrite <- Nnat.Nat2N.inj_mod in Hv8. lia. }
  assert (Hsm' : m = Wrapping -> N.of_nat v < 2 ^ 56) by (intro M; rewrite <- Ev; exact (Hsm M)).
  clearbody v k n. rewrite Ev, En, Ek.
  destruct (block_at k v n rest) as [[mn raw] e0] eqn:Eb.
  destruct (block_try_new_any m k v n rest mn raw e0 Hv8' Hsm' Hk H64 Hrok Eb) as [(-> & -> & Et)|[(-> & -> & Et)|(Hgo & b & Et & Hb & Hmin & pre & Hvals & Hpre)]].
  - rewrite Et. reflexivity.
  - rewrite Et. reflexivity.
  - rewrite Et. cbn [bind].
    destruct (ahead n m k v n mn raw e0) as [ds e] eqn:Hah.
    assert (G : match (raw, e0) with ([], Failed) => False | ([], Aborts) => False | _ => True end).
    { destruct raw; [|exact I]. destruct Hgo as [H|[r ->]]; [congruence|exact I]. }
    destruct (values_at m first ds e) as [vals e'] eqn:Eva.
    assert (Hgoal : exists s, Ok (mk_delta (N.of_nat k) (N.of_nat v) count first rest (Some b) c) = Ok s /\ then_ends m (length data) s vals e').
    { eexists. split; [reflexivity|].
      refine (proj1 (stream_any m k v (length data) Hv8' Hsm' Hk H64 n _ ds e vals e' _ _ _)).
      - exists b, raw, e0, n, pre. cbn [dd_nmb dd_vpmb dd_block dd_values dd_consumed]. repeat split; try assumption; try lia.
        + apply block_try_new_remaining in Et. exact Et.
        + rewrite Hmin. exact Hah.
      - cbn [dd_remaining]. lia.
      - exact Eva. }
    unfold ahead in Hah. destruct raw as [|x raw]; [destruct e0; try contradiction|]; rewrite Hah, Eva; exact Hgoal.
Qed.
