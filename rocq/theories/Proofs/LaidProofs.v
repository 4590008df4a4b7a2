(** Positions in a dictionary, in runs of any kind, are decoded. *)
From Verif Require Import Base.Prelude Base.LeFacts Base.Iter Spec.Bits Spec.RleSpec Spec.RowsSpec Spec.LevelsSpec
  Spec.PageSpec Spec.PlainSpec Spec.ValuesSpec
  Model.Types Model.Native Model.Thrift Model.Intervals Model.Uleb128 Model.Bitpacked Model.HybridRle Model.Plain Model.Page Model.Deserialize
  Proofs.BitsFacts Proofs.HybridRleProofs Proofs.HybridEncProofs Proofs.PageProofs Proofs.PlainProofs Proofs.ValuesProofs Props.HybridRle.
Open Scope N_scope.

Lemma laid_decoder m p rep def w positions bytes : positions_laid w positions bytes -> page_parts p rep def (N.of_nat w :: bytes) ->
  nlen positions <= dp_num_values p -> dp_num_values p < 2 ^ 56 ->
  exists s extra, dict_indices_decoder m p = Ok s /\ nlen (positions ++ extra) = dp_num_values p /\
    yields (hr_next m) (fun s rest => hr_size_hint s = nlen rest) s (positions ++ extra).
Proof.
  intros (Hw & Hf & [(Hb & runs & more & Hc & E)|He]) Hp Hn H56; [|eapply positions_decoder; eassumption].
  unfold dict_indices_decoder. rewrite (split_parts m p _ _ _ Hp). cbn [bind]. replace (32 <? N.of_nat w) with false by lia. rewrite Nat2N.id.
  set (n := N.to_nat (dp_num_values p)). replace (dp_num_values p) with (N.of_nat n) by (unfold n; lia).
  assert (Hn' : (length positions <= n)%nat) by (unfold n, nlen in *; lia).
  destruct (Nat.eq_dec w 0) as [-> |Hw0].
  - destruct (hr_zero_bits m bytes n) as (s & Es & Hy). exists s, (repeat 0 (n - length positions)). split; [exact Es|].
    assert (E0 : repeat 0 n = positions ++ repeat 0 (n - length positions)).
    { replace n with (length positions + (n - length positions))%nat at 1 by lia. rewrite repeat_app. f_equal.
      clear - Hf. induction Hf as [|x l Hx _ IH]; [reflexivity|]. cbn [length repeat]. rewrite IH. unfold fits in Hx. cbn in Hx. f_equal. lia. }
    rewrite <- E0. split; [unfold nlen; rewrite repeat_length; reflexivity|exact Hy].
  - destruct (hybrid_rle_decodes_conforming m w runs bytes n ltac:(lia) Hc Hb) as (s & Es & Hy).
    rewrite E, <- app_assoc, firstn_app, (firstn_all2 (n := n)) in Hy by lia.
    exists s, (firstn (n - length positions) (more ++ repeat 0 n)). split; [exact Es|]. split; [|exact Hy].
    unfold nlen. rewrite app_length, firstn_length, app_length, repeat_length. lia.
Qed.
