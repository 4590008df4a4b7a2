(** C106: definition levels read from any bytes. *)
From Verif Require Import Base.Prelude Base.LeFacts Base.Iter Spec.Bits Spec.UlebSpec Spec.RleSpec Spec.LevelsSpec Spec.DeltaAnySpec
  Model.Uleb128 Model.Bitpacked Model.HybridRle Model.Deserialize
  Proofs.HybridBrokenProofs Proofs.LevelsAnyProofs.
Open Scope N_scope.

(** Every byte string is readable or broken (Spec/RleSpec.v); at one bit the build profile makes no difference. *)
Theorem level_bytes_classified : forall data, bytes_ok data -> nlen data < 2 ^ 61 ->
  (exists vals, readable 1 vals data) \/ (exists runs vals, forall m, broken m 1 runs vals data).
Proof.
  intros data Hb Hd. destruct (readable_or_broken 1 ltac:(lia) (length data) data ltac:(lia) Hb Hd) as [H|(r & vals & H)].
  - left. exact H.
  - right. exists r, vals. intro m. revert H. apply broken_1_any.
Qed.
Print Assumptions level_bytes_classified.

(** Readable bytes: the runs hold the first [n] levels there are, fewer when the bytes end early; nothing panics
    and nothing fails. The boolean iterator gives the levels of the first run. *)
Theorem level_runs_readable : forall m vals data n,
  readable 1 vals data -> nlen data < 2 ^ 61 -> n < 2 ^ 64 ->
  exists out,
    yields (ri_next m) (fun _ _ => True) (ri_new (mk_rle data 1) n) (map inl out) /\
    concat (map run_levels out) = firstn (N.to_nat n) (map (N.eqb 1) vals) /\ Forall run_ok out /\
    yields (bl_next (ri_next m)) (fun _ _ => True) (bl_new (ri_new (mk_rle data 1) n))
      (map inl (match out with [] => [] | first :: _ => run_levels first end)).
Proof.
  intros m vals data n Hc Hd Hn.
  destruct (ri_readable m vals data Hc n 0 ltac:(lia) Hn Hd) as (out & Hy & Hout & Hok). rewrite N.sub_0_r in Hout.
  exists out. split; [exact Hy|]. split; [exact Hout|]. split; [exact Hok|].
  destruct out as [|r out].
  - inversion Hy as [? i' _ E|]; subst. eapply yields_nil; [exact I|].
    unfold bl_next. cbn [bl_new bl_current bl_iter]. unfold ri_new. rewrite E. reflexivity.
  - inversion Hy as [|? i' ? ? _ E _]; subst. inversion Hok; subst. eapply bl_first_step; eassumption.
Qed.
Print Assumptions level_runs_readable.

(** Broken bytes: the levels before the broken header come out; the next call ends the iteration when they were
    enough and panics otherwise. The boolean iterator only panics when the first header is the broken one. *)
Theorem level_runs_broken : forall m runs vals data n,
  broken m 1 runs vals data -> nlen data < 2 ^ 61 -> n < 2 ^ 64 ->
  exists out s,
    returns (ri_next m) (ri_new (mk_rle data 1) n) (map inl out) s /\
    concat (map run_levels out) = firstn (N.to_nat n) (map (N.eqb 1) vals) /\ Forall run_ok out /\
    ri_next m s = (if n <=? nlen vals then Ok (None, s) else Panic) /\
    match out with
    | [] => bl_next (ri_next m) (bl_new (ri_new (mk_rle data 1) n)) =
              (if n <=? nlen vals then Ok (None, bl_new s) else Panic)
    | first :: _ =>
        yields (bl_next (ri_next m)) (fun _ _ => True) (bl_new (ri_new (mk_rle data 1) n)) (map inl (run_levels first))
    end.
Proof.
  intros m runs vals data n Hc Hd Hn.
  destruct (ri_broken m runs vals data Hc n 0 ltac:(lia) Hn Hd) as (out & s & Hy & Hout & Hok & He). rewrite N.sub_0_r in *.
  exists out, s. split; [exact Hy|]. split; [exact Hout|]. split; [exact Hok|]. split; [exact He|].
  destruct out as [|r out].
  - inversion Hy; subst. unfold bl_next. cbn [bl_new bl_current bl_iter]. unfold ri_new. rewrite He.
    destruct (n <=? nlen vals); reflexivity.
  - inversion Hy as [|? i' ? ? ? E _]; subst. inversion Hok; subst. eapply bl_first_step; eassumption.
Qed.
Print Assumptions level_runs_broken.

(** Three levels, then a header of 70 bits: three levels can be read, a fourth cannot. *)
Example level_runs_broken_case :
  let data := [6; 1] ++ repeat 255 10 in
  broken Checked 1 1 [1; 1; 1] data /\
  drain (ri_next Checked) 9 (ri_new (mk_rle data 1) 3) = Ok [inl (RRepeated true 3)] /\
  drain (ri_next Checked) 9 (ri_new (mk_rle data 1) 4) = Panic /\
  drain (bl_next (ri_next Checked)) 9 (bl_new (ri_new (mk_rle data 1) 4)) = Ok [inl true; inl true; inl true].
Proof.
  split; [|vm_compute; repeat split; reflexivity].
  apply (bk_after_rle Checked 1 3 [6] [1] (repeat 255 10) 0 []); try reflexivity.
  - repeat split; try reflexivity; [cbn; lia|]. exists [], 6. repeat split; try constructor; reflexivity.
  - repeat constructor; reflexivity.
  - apply (bk_header Checked 1 (repeat 255 9) 255 []); [reflexivity| |lia|constructor].
    repeat constructor; discriminate.
Qed.

(** A value byte other than 0 and 1 counts as unset, and a bit-packed run may be cut short. *)
Example level_runs_readable_case :
  let data := [4; 3; 9; 5] in
  readable 1 [3; 3; 1; 0; 1; 0; 0; 0; 0; 0] data /\
  drain (ri_next Checked) 9 (ri_new (mk_rle data 1) 20) = Ok [inl (RRepeated false 2); inl (RBitmap [5] 8)].
Proof.
  split; [|vm_compute; reflexivity].
  apply (rb_rle 1 2 [4] [3] [9; 5] [1; 0; 1; 0; 0; 0; 0; 0]); try reflexivity.
  - repeat split; try reflexivity; [cbn; lia|]. exists [], 4. repeat split; try constructor; reflexivity.
  - repeat constructor; reflexivity.
  - apply (rb_packed 1 4 [9] [5] [] []); try reflexivity; try discriminate; try (repeat constructor; reflexivity).
    repeat split; try reflexivity; [cbn; lia|]. exists [], 9. repeat split; try constructor; reflexivity.
Qed.
