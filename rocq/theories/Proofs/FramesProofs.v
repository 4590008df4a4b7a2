(** Proofs about any bytes given to the LZ4 decoder. *)
From Verif Require Proofs.BitpackedProofs.
From Verif Require Import Base.Prelude Base.LeFacts Model.Types Model.Compression Spec.CompressionSpec Spec.FramesSpec Proofs.CompressionProofs Proofs.HybridEncProofs.
Open Scope N_scope.

Lemma be_bound4 a b c d : byte_ok a -> byte_ok b -> byte_ok c -> byte_ok d ->
  be 0 [a; b; c; d] < two32 /\ be32 (be 0 [a; b; c; d]) = [a; b; c; d].
Proof.
  unfold byte_ok, two32. intros Ha Hb Hc Hd. cbn [be]. split; [lia|]. unfold be32.
  repeat match goal with |- _ :: _ = _ :: _ => f_equal end; Z.to_euclidean_division_equations; lia.
Qed.


Lemma hadoop_turn C content block fuel rest dn out :
  nlen content < two32 -> nlen block < two32 -> nlen content <= nlen out -> lz4_dec C block (nlen out) = (content, true) ->
  hadoop_loop C (S fuel) (frame_bytes (content, block) ++ rest) (nlen (frame_bytes (content, block) ++ rest)) dn out =
    if nlen block <? nlen rest then
      hadoop_loop C fuel rest (nlen rest) (dn ++ content) (skipn (length content) out)
    else (dn ++ content ++ skipn (length content) out, if nlen rest =? 0 then Ok tt else Err OutOfSpec).
Proof.
  intros H1 H2 Hout Hd. cbn [hadoop_loop].
  assert (Hn : nlen (frame_bytes (content, block) ++ rest) = 8 + nlen block + nlen rest).
  { rewrite nlen_app, frame_bytes_length. cbn [snd]. lia. }
  rewrite Hn. replace (8 <=? 8 + nlen block + nlen rest) with true by lia.
  replace (firstn 4 (frame_bytes (content, block) ++ rest)) with (be32 (nlen content)) by reflexivity.
  replace (firstn 4 (skipn 4 (frame_bytes (content, block) ++ rest))) with (be32 (nlen block)) by reflexivity.
  replace (skipn 8 (frame_bytes (content, block) ++ rest)) with (block ++ rest) by reflexivity.
  rewrite !be_be32 by assumption. cbv zeta.
  replace (8 + nlen block + nlen rest - 8 <? nlen block) with false by lia.
  replace (nlen out <? nlen content) with false by lia.
  rewrite firstn_nlen_app, Hd by reflexivity. unfold block_into. cbn [fst snd]. rewrite N.eqb_refl.
  replace (8 + nlen block + nlen rest - 8 - nlen block) with (nlen rest) by lia.
  rewrite skipn_nlen_app by reflexivity.
  assert (Hw : write_prefix content out = content ++ skipn (length content) out).
  { unfold write_prefix. rewrite firstn_all2 by (unfold nlen in Hout; lia). reflexivity. }
  rewrite Hw, firstn_nlen_app, skipn_nlen_app by reflexivity. reflexivity.
Qed.

Lemma framed_loop C input room content : framed C input room content -> forall fuel dn out,
  nlen out = room -> (length input < fuel)%nat ->
  hadoop_loop C fuel input (nlen input) dn out = (dn ++ content ++ skipn (length content) out, Ok tt).
Proof.
  induction 1 as [room | content block room H1 H2 H3 H4 | content block room rest more H1 H2 H3 H4 H5 H6 IH]; intros fuel dn out Ho Hf;
    (destruct fuel as [|fuel]; [lia|]).
  - reflexivity.
  - rewrite <- (app_nil_r (frame_bytes (content, block))). subst room. rewrite hadoop_turn by assumption.
    replace (nlen block <? nlen []) with false by (unfold nlen; cbn; lia). reflexivity.
  - subst room. rewrite hadoop_turn by assumption. replace (nlen block <? nlen rest) with true by lia.
    rewrite IH.
    + rewrite <- !app_assoc. do 2 f_equal. f_equal. f_equal. rewrite app_length. rewrite skipn_skipn_add. reflexivity.
    + unfold nlen in *. rewrite skipn_length. lia.
    + rewrite app_length in Hf. pose proof (frame_bytes_length (content, block)) as E. cbn [snd] in E. unfold nlen in E. lia.
Qed.

Lemma loop_framed C : forall fuel input dn out buf r, bytes_ok input ->
  hadoop_loop C fuel input (nlen input) dn out = (buf, r) ->
  (r = Ok tt /\ exists content, framed C input (nlen out) content) \/ r = Err OutOfSpec.
Proof.
  induction fuel as [|f IH]; intros input dn out buf r Hb; cbn [hadoop_loop]; [intros [= _ <-]; auto|].
  destruct (8 <=? nlen input) eqn:E8.
  2:{ intros H. apply pair_equal_spec in H as [_ <-]. destruct (nlen input =? 0) eqn:E0; [|auto]. left. split; [reflexivity|].
      destruct input; [|unfold nlen in E0; cbn in E0; lia]. exists []. apply framed_none. }
  destruct input as [|a1 [|a2 [|a3 [|a4 [|b1 [|b2 [|b3 [|b4 tl]]]]]]]]; try (unfold nlen in E8; cbn in E8; lia).
  change (firstn 4 (a1 :: a2 :: a3 :: a4 :: b1 :: b2 :: b3 :: b4 :: tl)) with [a1; a2; a3; a4].
  change (firstn 4 (skipn 4 (a1 :: a2 :: a3 :: a4 :: b1 :: b2 :: b3 :: b4 :: tl))) with [b1; b2; b3; b4].
  change (skipn 8 (a1 :: a2 :: a3 :: a4 :: b1 :: b2 :: b3 :: b4 :: tl)) with tl.
  unfold bytes_ok in Hb. do 8 (apply Forall_cons_iff in Hb as [? Hb]).
  destruct (be_bound4 a1 a2 a3 a4) as [D1 D2]; try assumption. destruct (be_bound4 b1 b2 b3 b4) as [K1 K2]; try assumption.
  remember (be 0 [a1; a2; a3; a4]) as D eqn:ED. remember (be 0 [b1; b2; b3; b4]) as K eqn:EK. clear ED EK. cbv zeta.
  assert (El : nlen (a1 :: a2 :: a3 :: a4 :: b1 :: b2 :: b3 :: b4 :: tl) - 8 = nlen tl) by (unfold nlen; cbn [length]; lia).
  rewrite El. destruct (nlen tl <? K) eqn:Ek; [intros [= _ <-]; auto|].
  destruct (nlen out <? D) eqn:Ed; [intros [= _ <-]; auto|].
  destruct (lz4_dec C (firstn (N.to_nat K) tl) (nlen out)) as [w ok] eqn:Ew. unfold block_into. cbn [fst snd].
  destruct ok; [|intros [= _ <-]; auto].
  destruct (nlen w =? D) eqn:Es; [|intros [= _ <-]; auto]. apply N.eqb_eq in Es.
  set (block := firstn (N.to_nat K) tl) in *. set (rest := skipn (N.to_nat K) tl).
  assert (Hblock : nlen block = K) by (unfold block, nlen in *; rewrite firstn_length; lia).
  assert (Hrest : nlen tl - K = nlen rest) by (unfold rest, nlen in *; rewrite skipn_length; lia).
  assert (Hin : a1 :: a2 :: a3 :: a4 :: b1 :: b2 :: b3 :: b4 :: tl = frame_bytes (w, block) ++ rest).
  { unfold frame_bytes. cbn [fst snd]. rewrite Es, Hblock, D2, K2. cbn [app]. do 8 f_equal. unfold block, rest. rewrite firstn_skipn. reflexivity. }
  rewrite Hrest. destruct (K <? nlen rest) eqn:Er.
  - intros Hr. apply IH in Hr; [|apply BitpackedProofs.Forall_skipn; exact Hb]. destruct Hr as [[-> (more & Hm)]|Hr]; [|auto]. left. split; [reflexivity|].
    exists (w ++ more). rewrite Hin. apply framed_more; try lia; [exact Ew|].
    replace (nlen out - nlen w) with (nlen (skipn (N.to_nat D) (write_prefix w out))); [exact Hm|].
    unfold nlen in *. rewrite skipn_length, write_prefix_length. lia.
  - intros Hr. apply pair_equal_spec in Hr as [_ <-]. destruct (nlen rest =? 0) eqn:E0; [|auto]. left. split; [reflexivity|].
    assert (rest = []) as E. { destruct rest; [reflexivity | unfold nlen in E0; cbn in E0; lia]. }
    exists w. rewrite Hin, E, app_nil_r. apply framed_last; try lia. exact Ew.
Qed.

Lemma hadoop_length C : forall fuel inp il dn o, length (fst (hadoop_loop C fuel inp il dn o)) = (length dn + length o)%nat.
Proof.
  induction fuel as [|f IH]; intros inp il dn o; cbn [hadoop_loop].
  - cbn [fst]. apply app_length.
  - destruct (8 <=? il); [|apply app_length].
    destruct (_ <? be 0 (firstn 4 (skipn 4 inp))); [apply app_length|].
    destruct (nlen o <? be 0 (firstn 4 inp)) eqn:Eo; [apply app_length|].
    unfold block_into. destruct (lz4_dec C _ _) as [w s]; cbn [fst snd].
    destruct s; [|cbn [fst]; rewrite app_length, write_prefix_length; reflexivity].
    destruct (nlen w =? _); [|cbn [fst]; rewrite app_length, write_prefix_length; reflexivity].
    destruct (_ <? _ - _); [|cbn [fst]; rewrite app_length, write_prefix_length; reflexivity].
    rewrite IH, app_length, firstn_length, skipn_length, write_prefix_length. unfold nlen in Eo. lia.
Qed.
