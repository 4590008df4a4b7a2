(** C66: the LZ4 codec on any bytes. *)
From Verif Require Import Base.Prelude Base.LeFacts Model.Types Model.Compression Spec.CompressionSpec Spec.FramesSpec Proofs.CompressionProofs Proofs.FramesProofs
  Props.Compression.
Open Scope N_scope.

(** C66. Whatever the bytes: if they are a sequence of frames, the output starts with their contents, and what the output held behind them stays.
    If they are not, they are taken as one block without a frame, and the result is that of the block decoder; bytes of the output that the
    block does not fill hold whatever was there or was written while looking for frames. It never panics. *)
Theorem lz4_any_bytes C input out : bytes_ok input ->
  (forall content, framed C input (nlen out) content ->
     decompress_bytes C Lz4 input out = (content ++ skipn (length content) out, Ok tt)) /\
  (~ (exists content, framed C input (nlen out) content) ->
     exists left_over, length left_over = length out /\
       let (written, complete) := lz4_dec C input (nlen out) in
       decompress_bytes C Lz4 input out =
         (firstn (length out) written ++ skipn (length written) left_over, if complete then Ok tt else Err OutOfSpec)).
Proof.
  intros Hb. cbn [decompress_bytes]. unfold try_decompress_hadoop. split.
  - intros content Hf. rewrite (framed_loop C _ _ _ Hf) by (reflexivity || lia). reflexivity.
  - intros Hn. pose proof (hadoop_length C (S (length input)) input (nlen input) [] out) as Hl.
    destruct (hadoop_loop C (S (length input)) input (nlen input) [] out) as [buf r] eqn:E. cbn [fst length Nat.add] in Hl.
    apply loop_framed in E; [|exact Hb]. destruct E as [[_ E]|E]; [contradiction|]. subst r.
    exists buf. split; [exact Hl|]. assert (Hl' : nlen buf = nlen out) by (unfold nlen; rewrite Hl; reflexivity). rewrite Hl'.
    destruct (lz4_dec C input (nlen out)) as [w ok]. unfold unit_res, block_into, write_prefix. cbn [fst snd]. rewrite Hl.
    destruct ok; reflexivity.
Qed.
Print Assumptions lz4_any_bytes.

(** C66. A sequence of frames has one content, and it fits the room. *)
Theorem frames_unique C input room a b : framed C input room a -> framed C input room b -> a = b /\ nlen a <= room.
Proof.
  intros Ha Hb.
  assert (L : forall i r c, framed C i r c -> nlen c <= r).
  { induction 1 as [r | c k r H1 H2 H3 H4 | c k r rest more H1 H2 H3 H4 H5 H6 IH]; [unfold nlen; cbn; lia | exact H3 | rewrite nlen_app; lia]. }
  pose proof (framed_loop C _ _ _ Ha (S (length input)) [] (repeat 0 (N.to_nat room))) as H1.
  pose proof (framed_loop C _ _ _ Hb (S (length input)) [] (repeat 1 (N.to_nat room))) as H2.
  pose proof (framed_loop C _ _ _ Ha (S (length input)) [] (repeat 1 (N.to_nat room))) as H3.
  pose proof (framed_loop C _ _ _ Hb (S (length input)) [] (repeat 0 (N.to_nat room))) as H4.
  assert (E : forall v : N, nlen (repeat v (N.to_nat room)) = room) by (intros v; unfold nlen; rewrite repeat_length; lia).
  specialize (H1 (E 0) ltac:(lia)). specialize (H2 (E 1) ltac:(lia)). specialize (H3 (E 1) ltac:(lia)). specialize (H4 (E 0) ltac:(lia)).
  rewrite H1 in H4. rewrite H2 in H3. clear H1 H2. apply pair_equal_spec in H3 as [H3 _]. apply pair_equal_spec in H4 as [H4 _]. cbn [app] in H3, H4.
  split; [|exact (L _ _ _ Ha)]. pose proof (L _ _ _ Ha) as La. pose proof (L _ _ _ Hb) as Lb. clear Ha Hb L E.
  assert (S : forall (v : N) k, skipn k (repeat v (N.to_nat room)) = repeat v (N.to_nat room - k)%nat).
  { intros v k. generalize (N.to_nat room) as n. induction k as [|k IH]; intros [|n]; cbn [repeat skipn Nat.sub]; try reflexivity. apply IH. }
  rewrite !S in H3, H4. unfold nlen in La, Lb.
  assert (Hlen : length a = length b).
  { destruct (Nat.lt_trichotomy (length a) (length b)) as [H|[H|H]]; [|exact H|]; exfalso.
    - assert (N0 : nth_error (a ++ repeat 0 (N.to_nat room - length a)) (length a) = Some 0).
      { rewrite nth_error_app2, Nat.sub_diag by lia. destruct (N.to_nat room - length a)%nat eqn:E; [lia | reflexivity]. }
      assert (N1 : nth_error (a ++ repeat 1 (N.to_nat room - length a)) (length a) = Some 1).
      { rewrite nth_error_app2, Nat.sub_diag by lia. destruct (N.to_nat room - length a)%nat eqn:E; [lia | reflexivity]. }
      rewrite H4, nth_error_app1 in N0 by lia. rewrite <- H3, nth_error_app1 in N1 by lia. congruence.
    - assert (N0 : nth_error (b ++ repeat 0 (N.to_nat room - length b)) (length b) = Some 0).
      { rewrite nth_error_app2, Nat.sub_diag by lia. destruct (N.to_nat room - length b)%nat eqn:E; [lia | reflexivity]. }
      assert (N1 : nth_error (b ++ repeat 1 (N.to_nat room - length b)) (length b) = Some 1).
      { rewrite nth_error_app2, Nat.sub_diag by lia. destruct (N.to_nat room - length b)%nat eqn:E; [lia | reflexivity]. }
      rewrite <- H4, nth_error_app1 in N0 by lia. rewrite H3, nth_error_app1 in N1 by lia. congruence. }
  rewrite Hlen in H4. apply app_inv_tail in H4. exact H4.
Qed.
Print Assumptions frames_unique.

(** Two frames; and a buffer that ends after the first frame's header, taken as a block. *)
Example lz4_any_bytes_witness :
  framed toy [0; 0; 0; 2; 0; 0; 0; 3; 7; 8; 0; 0; 0; 0; 1; 0; 0; 0; 2; 9; 0] 5 [7; 8; 9] /\
  decompress_bytes toy Lz4 [0; 0; 0; 2; 0; 0; 0; 3; 7; 8; 0; 0; 0; 0; 1; 0; 0; 0; 2; 9; 0] [1; 2; 3; 4; 5] = ([7; 8; 9; 4; 5], Ok tt) /\
  decompress_bytes toy Lz4 [0; 0; 0; 2; 0; 0; 0; 3; 7] [1; 2; 3; 4; 5; 6; 7; 8; 9; 10] = ([0; 0; 0; 2; 0; 0; 0; 3; 9; 10], Ok tt).
Proof.
  split; [|split; vm_compute; reflexivity].
  apply (framed_more toy [7; 8] [7; 8; 0] 5 [0; 0; 0; 1; 0; 0; 0; 2; 9; 0] [9]); try reflexivity; try (unfold nlen; cbn; lia).
  apply (framed_last toy [9] [9; 0] 3); try reflexivity; unfold nlen; cbn; lia.
Qed.
