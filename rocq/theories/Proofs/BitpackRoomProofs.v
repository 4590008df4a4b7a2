(** Lemmas about packing into an output of any size. *)
From Verif Require Import Base.Prelude Base.LeFacts Base.Iter Spec.Bits Proofs.BitsFacts Model.Bitpacked Proofs.BitpackedProofs.
Open Scope N_scope.

Lemma pack_any B w u out : (0 < w <= tbits B)%nat -> length u = tbits B -> bytes_ok out -> (w * B <= length out)%nat ->
  exists o, pack B u out w = Ok o /\ length o = length out /\ bytes_ok o.
Proof.
  intros Hw Hu Hok Hn. unfold pack. replace (tbits B <? w)%nat with false by lia. replace (w =? 0)%nat with false by lia.
  replace (length out <? w * B)%nat with false by lia.
  destruct (pack_loop_any B w u) with (i := 0%nat) (out := out) as (o & E & L & K & _); try assumption; try lia.
  exists o. auto.
Qed.
Lemma sub_div n P : (0 < P <= n)%nat -> (n / P = S ((n - P) / P))%nat /\ ((n - P) mod P = n mod P)%nat.
Proof.
  intros H. replace n with ((n - P) + 1 * P)%nat at 1 4 by lia. rewrite Nat.div_add, Nat.mod_add by lia. split; [lia|reflexivity].
Qed.
Lemma encode_zip_total B w exact us : (0 < w <= tbits B)%nat -> Forall (fun u => length u = tbits B) us ->
  forall packed, bytes_ok packed ->
  let bad := exact = false /\ (length packed < length us * (w * B) /\ length packed mod (w * B) <> 0)%nat in
  (bad -> encode_zip B w exact us packed = Panic) /\
  (~ bad -> exists out, encode_zip B w exact us packed = Ok out /\ length out = length packed /\ bytes_ok out /\
     (Forall (Forall (fits w)) us -> le packed = 0 -> le out = pval w (concat (firstn (length packed / (w * B)) us)))).
Proof.
  intros Hw H. assert (HwB : (0 < w * B)%nat) by (unfold tbits in *; nia).
  induction H as [|u us Hu Hus IH]; intros packed Hok bad; unfold bad; clear bad.
  { cbn [length encode_zip]. split; [lia|]. intros _. exists packed. rewrite firstn_nil. cbn [concat pval]. auto. }
  cbn [encode_zip length]. rewrite packed_size_eq. remember (w * B)%nat as P eqn:EP.
  destruct packed as [|x r] eqn:Ep.
  { split; [intros (_ & _ & X); exfalso; apply X; apply Nat.mod_0_l; lia|]. intros _. exists [].
    split; [reflexivity|]. split; [reflexivity|]. split; [constructor|]. intros _ _. cbn [length]. rewrite Nat.div_0_l by lia. reflexivity. }
  assert (Hne : (0 < length packed)%nat) by (subst packed; cbn [length]; lia).
  rewrite <- Ep in *. clear Ep x r. destruct (Nat.ltb_spec (length packed) P) as [Hlt|Hge].
  - rewrite Nat.mod_small, Nat.div_small by lia. destruct exact; cbn [andb].
    + split; [intros [X _]; discriminate X|]. intros _. exists packed. cbn [firstn concat pval]. auto.
    + split; [|intros X; exfalso; apply X; split; [reflexivity|lia]]. intros _.
      unfold pack. rewrite firstn_all2 by lia. replace (tbits B <? w)%nat with false by lia. replace (w =? 0)%nat with false by lia.
      rewrite <- EP. replace (length packed <? P)%nat with true by lia. reflexivity.
  - rewrite andb_false_r. destruct (sub_div (length packed) P) as [D M]; [lia|].
    destruct (pack_any B w u (firstn P packed) Hw Hu) as (c & Ec & Lc & Kc); [apply bytes_ok_firstn; assumption|rewrite firstn_length; lia|].
    rewrite Ec. cbn [bind]. specialize (IH (skipn P packed) (bytes_ok_skipn _ _ Hok)). cbn zeta in IH. rewrite skipn_length in IH. rewrite M in IH.
    destruct IH as [I1 I2]. split.
    + intros (X1 & X2 & X3). rewrite I1; [reflexivity|]. split; [exact X1|]. split; [lia|exact X3].
    + intros X. destruct I2 as (rest & Er & Lr & Kr & Vr); [intros (Y1 & Y2 & Y3); apply X; split; [exact Y1|]; split; [lia|exact Y3]|].
      rewrite Er. cbn [bind]. exists (c ++ rest). split; [reflexivity|].
      split; [rewrite app_length, Lc, Lr, firstn_length; lia|]. split; [apply bytes_ok_app; split; assumption|].
      intros Hf H0. rewrite D. cbn [firstn concat].
      destruct (pack_fits B w u (firstn P packed) Hw (Forall_inv Hf) Hu) as (c' & Ec' & Lc' & Kc' & Vc').
      { apply bytes_ok_firstn; assumption. } { rewrite firstn_length; lia. } { rewrite le_firstn by assumption. rewrite H0. apply N.mod_0_l. auto. }
      assert (c' = c) as -> by congruence.
      rewrite le_app, pval_app, Vc', Vr; [|exact (Forall_inv_tail Hf)|rewrite le_skipn by assumption; rewrite H0; apply N.div_0_l; auto].
      do 2 f_equal. f_equal. unfold nlen. rewrite Lc, firstn_length, Hu. rewrite Nat.min_l by lia. subst P. unfold tbits. lia.
Qed.
Lemma encode_zip_wide B w exact us : (0 < B)%nat -> (tbits B < w)%nat -> Forall (fun u => length u = tbits B) us -> forall packed,
  let bad := us <> [] /\ packed <> [] /\ (exact = false \/ (w * B <= length packed)%nat) in
  (bad -> encode_zip B w exact us packed = Panic) /\ (~ bad -> encode_zip B w exact us packed = Ok packed).
Proof.
  intros HB Hw H packed bad. unfold bad. destruct us as [|u us]; [split; [intros [X _]; contradiction|reflexivity]|].
  cbn [encode_zip]. rewrite packed_size_eq. destruct packed as [|x r] eqn:Ep; [split; [intros (_ & X & _); contradiction|reflexivity]|].
  rewrite <- Ep. destruct (Nat.ltb_spec (length packed) (w * B)) as [Hlt|Hge].
  - destruct exact; cbn [andb].
    + split; [intros (_ & _ & [X|X]); [discriminate X|lia]|reflexivity].
    + split; [|intros X; exfalso; apply X; split; [discriminate|]; split; [subst; discriminate|left; reflexivity]].
      intros _. unfold pack. replace (tbits B <? w)%nat with true by lia. reflexivity.
  - rewrite andb_false_r. split; [|intros X; exfalso; apply X; split; [discriminate|]; split; [subst; discriminate|right; assumption]].
    intros _. unfold pack. replace (tbits B <? w)%nat with true by lia. reflexivity.
Qed.
(** The blocks that are packed: all of the same length, the last padded with zeros. *)
Lemma bp_encode_blocks B w l packed : (0 < B)%nat -> (0 < w)%nat ->
  exists us pad, bp_encode B l w packed = encode_zip B w (length l mod tbits B =? 0)%nat us packed /\
    Forall (fun u => length u = tbits B) us /\ length us = n_chunks B (length l) /\ concat us = l ++ repeat 0 pad /\
    (Forall (fits w) l -> Forall (Forall (fits w)) us).
Proof.
  intros HB Hw. unfold bp_encode. rewrite packed_size_eq. replace (w * B =? 0)%nat with false by nia. rewrite n_chunks_div by assumption.
  set (t := tbits B) in *. assert (Ht : (0 < t)%nat) by (unfold t, tbits; lia).
  pose proof (Nat.div_mod (length l) t ltac:(lia)) as E. pose proof (Nat.mod_upper_bound (length l) t ltac:(lia)) as U.
  assert (Hlr : length (chunks_remainder t l) = (length l mod t)%nat) by (unfold chunks_remainder; rewrite skipn_length; lia).
  assert (Hch : Forall (fun u => length u = t) (chunks_exact t l)).
  { unfold chunks_exact. assert (X : (length l / t * t <= length l)%nat) by lia. revert X. generalize (length l / t)%nat. clear. intros k. revert l.
    induction k as [|k IH]; intros l X; cbn [chunk_list]; constructor; [apply firstn_length_le; lia|]. apply IH. rewrite skipn_length. lia. }
  assert (Hcf : Forall (fits w) l -> Forall (Forall (fits w)) (chunks_exact t l)).
  { intros Hf. unfold chunks_exact. generalize (length l / t)%nat. clear - Hf. intros k. revert l Hf. induction k as [|k IH]; intros l Hf; cbn [chunk_list]; constructor.
    - apply Forall_firstn; assumption. - apply IH. apply Forall_skipn; assumption. }
  assert (Hcl : length (chunks_exact t l) = (length l / t)%nat) by (unfold chunks_exact; apply chunk_list_length).
  assert (Hcat : concat (chunks_exact t l) = firstn (length l / t * t) l) by (unfold chunks_exact; apply concat_chunk_list).
  destruct (chunks_remainder t l) as [|v r] eqn:Er.
  - cbn [length] in Hlr. rewrite <- Hlr. cbn [Nat.eqb]. exists (chunks_exact t l), 0%nat. split; [reflexivity|]. split; [exact Hch|].
    split; [lia|]. split; [|exact Hcf]. rewrite Hcat. cbn [repeat]. rewrite app_nil_r. apply firstn_all2. lia.
  - rewrite <- Er in *. assert (Hnz : (length l mod t <> 0)%nat) by (rewrite <- Hlr, Er; cbn [length]; lia).
    replace (length l mod t =? 0)%nat with false by lia.
    exists (chunks_exact t l ++ [chunks_remainder t l ++ repeat 0 (t - length (chunks_remainder t l))]), (t - length (chunks_remainder t l))%nat.
    split; [reflexivity|]. split; [|split; [|split]].
    + apply Forall_app; split; [exact Hch|]. constructor; [|constructor]. rewrite app_length, repeat_length. lia.
    + rewrite app_length, Hcl. reflexivity.
    + rewrite concat_app, Hcat. cbn [concat]. rewrite app_nil_r, app_assoc. unfold chunks_remainder at 1. rewrite firstn_skipn. reflexivity.
    + intros Hf. apply Forall_app; split; [exact (Hcf Hf)|]. constructor; [|constructor]. apply Forall_app; split.
      * unfold chunks_remainder. apply Forall_skipn; assumption.
      * apply Forall_forall. intros z Hz. apply repeat_spec in Hz. subst. apply fits0.
Qed.
Lemma concat_firstn_blocks {A} (t : nat) (us : list (list A)) : Forall (fun u => length u = t) us -> forall k,
  concat (firstn k us) = firstn (k * t) (concat us).
Proof.
  induction 1 as [|u us Hu Hus IH]; intros k; [rewrite firstn_nil; cbn [concat]; rewrite firstn_nil; reflexivity|].
  destruct k as [|k]; [reflexivity|]. cbn [firstn concat]. rewrite IH, firstn_app, Hu.
  replace (S k * t - t)%nat with (k * t)%nat by lia. rewrite (firstn_all2 u) by (rewrite Hu; nia). reflexivity.
Qed.
Lemma firstn_repeat0 (n k : nat) : firstn k (repeat 0 n) = repeat 0 (Nat.min k n).
Proof. revert n. induction k as [|k IH]; intros [|n]; cbn [firstn repeat Nat.min]; [reflexivity..|]. rewrite IH. reflexivity. Qed.
Lemma pval_firstn_padded w l pad k : pval w (firstn k (l ++ repeat 0 pad)) = pval w (firstn k l).
Proof. rewrite firstn_app, pval_app, firstn_repeat0, pval_repeat0. lia. Qed.
Lemma bit_stream_pval w l out : Forall (fits w) l -> bytes_ok out -> (length l * w <= 8 * length out)%nat -> le out = pval w l ->
  bit_stream out = flat_map (lsb_bits w) l ++ repeat false (8 * length out - length l * w).
Proof.
  intros Hf Hok Hle V. rewrite bit_stream_le by assumption. rewrite V.
  replace (8 * length out)%nat with (length l * w + (8 * length out - length l * w))%nat at 1 by lia.
  rewrite lsb_bits_add. f_equal.
  - rewrite <- (lsb_pval w l 0 Hf). rewrite N.mul_0_r, N.add_0_r. reflexivity.
  - rewrite N.div_small by (apply pval_bound; assumption). generalize (8 * length out - length l * w)%nat as k. intro k.
    unfold lsb_bits. generalize 0%nat as s. induction k as [|k IH]; intro s; [reflexivity|]. cbn [seq map repeat]. rewrite IH, N.bits_0. reflexivity.
Qed.
