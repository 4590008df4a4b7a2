(** Proofs about splitting page buffers. *)
From Verif Require Import Base.Prelude Base.LeFacts Spec.PageSpec Model.Types Model.Thrift Model.Plain Model.Page Proofs.TypesFacts
  Proofs.HybridRleProofs Proofs.HybridEncProofs.
Open Scope N_scope.

Lemma split_level_spec has buffer : bytes_ok buffer ->
  (exists lv rest, split_level has buffer = Ok (lv, rest) /\ buffer = v1_levels has lv ++ rest /\ v1_part has lv /\ bytes_ok rest) \/
  (split_level has buffer = Err OutOfSpec /\ forall lv rest, v1_part has lv -> buffer <> v1_levels has lv ++ rest).
Proof.
  intro Hok. destruct has; [|left; exists [], buffer; repeat split; try assumption].
  unfold split_level, get_length, v1_levels, v1_part. destruct (Nat.leb_spec 4 (length buffer)) as [L|L].
  - pose proof (firstn_skipn 4 buffer) as E. set (head := firstn 4 buffer) in *. set (tl := skipn 4 buffer) in *.
    assert (Hh : length head = 4%nat) by (apply firstn_length_le; exact L).
    assert (Hokt : bytes_ok head /\ bytes_ok tl) by (apply bytes_ok_app; rewrite E; exact Hok).
    destruct Hokt as [Hoh Hot].
    assert (Hle : le head < 2 ^ 32).
    { pose proof (le_bound head Hoh) as H. unfold nlen in H. rewrite Hh in H. exact H. }
    assert (Hlb : length buffer = (4 + length tl)%nat) by (rewrite <- E, app_length, Hh; reflexivity).
    destruct (Nat.leb_spec (4 + N.to_nat (le head)) (length buffer)) as [L2|L2].
    + left. exists (firstn (N.to_nat (le head)) tl), (skipn (N.to_nat (le head)) tl).
      assert (Hl : nlen (firstn (N.to_nat (le head)) tl) = le head)
        by (unfold nlen; rewrite firstn_length_le by lia; apply N2Nat.id).
      split; [|split; [|split]].
      * f_equal. f_equal. unfold tl. rewrite skipn_skipn_add. f_equal.
      * rewrite Hl, <- app_assoc, firstn_skipn. rewrite <- E at 1. f_equal.
        rewrite <- Hh. symmetry. apply to_le_le. exact Hoh.
      * rewrite Hl. exact Hle.
      * unfold bytes_ok in *. rewrite <- (firstn_skipn (N.to_nat (le head)) tl) in Hot. apply Forall_app in Hot. apply Hot.
    + right. split; [reflexivity|]. intros lv rest Hlv Eb. rewrite <- app_assoc in Eb.
      assert (head = to_le 4 (nlen lv)).
      { unfold head. rewrite Eb, firstn_app, to_le_length, Nat.sub_diag, firstn_O, app_nil_r.
        rewrite firstn_all2; [reflexivity|]. now rewrite to_le_length. }
      rewrite H, le_to_le_small in L2 by (cbn; exact Hlv). rewrite Eb, !app_length, to_le_length in L2.
      unfold nlen in L2. lia.
  - right. split; [reflexivity|]. intros lv rest _ Eb. rewrite Eb, !app_length, to_le_length in L. lia.
Qed.

Lemma v1_levels_inj has a b x y : v1_part has a -> v1_part has b -> v1_levels has a ++ x = v1_levels has b ++ y -> a = b /\ x = y.
Proof.
  unfold v1_levels, v1_part. destruct has; intros Ha Hb E; [|subst; cbn in E; now split].
  rewrite <- !app_assoc in E.
  assert (L : forall (a b c d : list N), length a = length c -> a ++ b = c ++ d -> a = c /\ b = d).
  { clear. induction a as [|u a IH]; intros b [|v c] d Hl E; cbn in *; try discriminate; [now split|].
    injection E as <- E. destruct (IH b c d ltac:(lia) E). now subst. }
  apply L in E as [E1 E2]; [|now rewrite !to_le_length].
  assert (nlen a = nlen b).
  { rewrite <- (le_to_le_small 4 (nlen a)), <- (le_to_le_small 4 (nlen b)) by assumption. now rewrite E1. }
  apply L in E2; [exact E2|]. unfold nlen in H. lia.
Qed.

Lemma split_v1_spec buffer has_rep has_def : bytes_ok buffer ->
  (exists rep def values, split_buffer_v1 buffer has_rep has_def = Ok (rep, def, values) /\
     buffer = v1_layout has_rep has_def rep def values /\ v1_part has_rep rep /\ v1_part has_def def) \/
  (split_buffer_v1 buffer has_rep has_def = Err OutOfSpec /\
   forall rep def values, v1_part has_rep rep -> v1_part has_def def -> buffer <> v1_layout has_rep has_def rep def values).
Proof.
  intro Hok. unfold split_buffer_v1, v1_layout.
  destruct (split_level_spec has_rep buffer Hok) as [(rep & rest & E & Eb & Hr & Hokr)|[E Hn]]; rewrite E; cbn [bind].
  - destruct (split_level_spec has_def rest Hokr) as [(def & values & E2 & Eb2 & Hd & _)|[E2 Hn]]; rewrite E2; cbn [bind].
    + left. exists rep, def, values. repeat split; try assumption. rewrite Eb at 1. now rewrite <- Eb2.
    + right. split; [reflexivity|]. intros rep' def' values Hr' Hd' Eb'. rewrite Eb in Eb'.
      apply v1_levels_inj in Eb' as [_ Eb']; try assumption. now apply Hn in Eb'.
  - right. split; [reflexivity|]. intros rep def values Hr Hd. now apply Hn.
Qed.

Lemma split_v2_spec m buffer rep def : nlen buffer < 2 ^ 64 -> rep < 2 ^ 63 -> def < 2 ^ 63 ->
  (rep + def <= nlen buffer -> exists a b c, split_buffer_v2 m buffer rep def = Ok (a, b, c) /\
     buffer = a ++ b ++ c /\ nlen a = rep /\ nlen b = def) /\
  (nlen buffer < rep + def -> split_buffer_v2 m buffer rep def = Panic).
Proof.
  intros Hl Hr Hd. unfold split_buffer_v2, slice_range, uadd.
  change (2 ^ 63) with 9223372036854775808 in *. change (2 ^ 64) with 18446744073709551616 in *.
  replace (rep + def <? 18446744073709551616) with true by lia. split; intro H.
  - replace ((0 <=? rep) && (rep <=? nlen buffer)) with true by lia. cbn [bind].
    replace ((rep <=? rep + def) && (rep + def <=? nlen buffer)) with true by lia. cbn [bind].
    replace ((rep + def <=? nlen buffer) && (nlen buffer <=? nlen buffer)) with true by lia. cbn [bind].
    do 3 eexists. split; [reflexivity|]. unfold nlen in *.
    replace (N.to_nat (rep + def - rep)) with (N.to_nat def) by lia. rewrite N.sub_0_r. cbn [N.to_nat skipn].
    replace (N.to_nat (rep + def)) with (N.to_nat rep + N.to_nat def)%nat by lia.
    rewrite <- skipn_skipn_add. split; [|split].
    + rewrite <- (firstn_skipn (N.to_nat rep) buffer) at 1. f_equal.
      rewrite <- (firstn_skipn (N.to_nat def) (skipn (N.to_nat rep) buffer)) at 1. f_equal.
      symmetry. apply firstn_all2. rewrite !skipn_length. lia.
    + rewrite firstn_length. lia.
    + rewrite firstn_length, skipn_length. lia.
  - destruct (N.leb_spec rep (nlen buffer)); cbn [andb N.leb bind].
    + replace ((0 <=? rep)) with true by lia. cbn [andb bind].
      replace ((rep <=? rep + def) && (rep + def <=? nlen buffer)) with false by lia. reflexivity.
    + replace ((0 <=? rep)) with true by lia. reflexivity.
Qed.

Lemma split_level_layout has lv rest : v1_part has lv -> split_level has (v1_levels has lv ++ rest) = Ok (lv, rest).
Proof.
  unfold v1_part, v1_levels, split_level, get_length. destruct has; [|intros ->; reflexivity].
  intro H. rewrite <- app_assoc, !app_length, to_le_length.
  replace (4 <=? 4 + (length lv + length rest))%nat with true by lia.
  rewrite firstn_app, to_le_length, Nat.sub_diag, firstn_O, app_nil_r.
  rewrite firstn_all2 by (rewrite to_le_length; lia). rewrite le_to_le_small by exact H.
  unfold nlen. rewrite Nat2N.id. replace (4 + length lv <=? 4 + (length lv + length rest))%nat with true by lia.
  do 2 f_equal.
  - rewrite skipn_app, to_le_length, Nat.sub_diag. rewrite skipn_all2 by (rewrite to_le_length; lia).
    cbn [app skipn]. rewrite firstn_app, Nat.sub_diag, firstn_all, firstn_O. apply app_nil_r.
  - rewrite app_assoc, skipn_app, app_length, to_le_length, Nat.sub_diag.
    rewrite skipn_all2 by (rewrite app_length, to_le_length; lia). reflexivity.
Qed.

Lemma try_usize_of_N n : n < 2 ^ 64 -> try_usize (Z.of_N n) = Ok n.
Proof.
  intro H. unfold try_usize. change (2 ^ 64) with 18446744073709551616 in H.
  destruct (Z.of_N n <? 0)%Z eqn:E; [lia|]. f_equal. lia.
Qed.

Lemma split_parts m p rep def values : page_parts p rep def values -> split_buffer m p = Ok (rep, def, values).
Proof.
  intros [Hlen H]. unfold split_buffer. destruct (dp_header p) as [h|h].
  - destruct H as (-> & Hr & Hd). unfold split_buffer_v1, v1_layout.
    rewrite split_level_layout by exact Hr. cbn [bind]. rewrite split_level_layout by exact Hd. reflexivity.
  - destruct H as (E & Er & Ed & Hr & Hd). rewrite Er, Ed.
    change (2 ^ 31) with 2147483648 in *.
    rewrite !try_usize_of_N by (change (2 ^ 64) with 18446744073709551616; lia). cbn [bind].
    destruct (split_v2_spec m (dp_buffer p) (nlen rep) (nlen def)) as [H _];
      [exact Hlen|change (2 ^ 63) with 9223372036854775808; lia|change (2 ^ 63) with 9223372036854775808; lia|].
    destruct H as (a & b & c & Es & Eb & Ha & Hb); [rewrite E; unfold nlen; rewrite !app_length; lia|].
    rewrite Es. rewrite E in Eb. unfold nlen in Ha, Hb.
    assert (L : forall (a b c d : list N), length a = length c -> a ++ b = c ++ d -> a = c /\ b = d).
    { clear. induction a as [|u a IH]; intros b [|v c] d Hl E; cbn in *; try discriminate; [now split|].
      injection E as <- E. destruct (IH b c d ltac:(lia) E). now subst. }
    apply L in Eb as [-> Eb]; [|lia]. apply L in Eb as [-> ->]; [reflexivity|lia].
Qed.
