(** Proofs about sliced iteration (SliceFilteredIter) and optional values. *)
From Verif Require Import Base.Prelude Base.Iter Spec.RowsSpec Spec.LevelsSpec Model.Intervals Model.Deserialize
  Proofs.HybridEncProofs.
Open Scope N_scope.

Definition total_len (l : list interval) : nat := length (rows_of l).
Lemma total_len_cons i l : total_len (i :: l) = (N.to_nat (iv_length i) + total_len l)%nat.
Proof. unfold total_len, rows_of. cbn [map concat]. rewrite app_length. unfold rows. now rewrite seq_length. Qed.

Lemma sum_lengths_ok m l : forall acc, (acc + N.of_nat (total_len l) < 2 ^ 64) ->
  sum_lengths m acc l = Ok (acc + N.of_nat (total_len l)).
Proof.
  induction l as [|i l IH]; intros acc H; cbn [sum_lengths].
  - unfold total_len. cbn. now rewrite N.add_0_r.
  - rewrite total_len_cons in H |- *. unfold uadd. replace (acc + iv_length i <? 2 ^ 64) with true by lia.
    cbn [bind]. rewrite IH by lia. f_equal. lia.
Qed.

Lemma iter_nth_some {S A} (next : S -> res (option A * S)) P k : forall s l,
  yields next P s l ->
  (exists a l' s', l = firstn k l ++ a :: l' /\ (k < length l)%nat /\ iter_nth next k s = Ok (Some a, s') /\ yields next P s' l') \/
  ((length l <= k)%nat /\ exists s', iter_nth next k s = Ok (None, s')).
Proof.
  induction k as [|k IH]; intros s l H; cbn [iter_nth].
  - inversion H as [? s' HP E|? s' a l' HP E Hy]; subst.
    + right. split; [cbn; lia|]. exists s'. exact E.
    + left. exists a, l', s'. repeat split; auto. cbn. lia.
  - inversion H as [? s' HP E|? s' a l' HP E Hy]; subst; rewrite E; cbn [bind].
    + right. split; [cbn; lia|]. exists s'. reflexivity.
    + destruct (IH s' l' Hy) as [(b & l2 & s2 & El & Hk & En & Hy2)|[Hk (s2 & En)]].
      * left. exists b, l2, s2. repeat split; try assumption; [|cbn; lia]. cbn [firstn app]. now rewrite <- El.
      * right. split; [cbn; lia|]. exists s2. exact En.
Qed.

(** [pick] relative to a position. *)
Definition pick_from {A} (p : nat) (l : list A) (rows : list nat) : list A :=
  flat_map (fun r => match nth_error l (r - p) with Some a => [a] | None => [] end) rows.

Lemma pick_from_app {A} p (l : list A) a b : pick_from p l (a ++ b) = pick_from p l a ++ pick_from p l b.
Proof. unfold pick_from. apply flat_map_app. Qed.

Lemma pick_from_nil {A} p rows : pick_from p (@nil A) rows = [].
Proof. unfold pick_from. induction rows as [|r rows IH]; [reflexivity|]. cbn [flat_map]. rewrite IH. destruct (r - p)%nat; reflexivity. Qed.

Lemma pick_from_shift {A} d p (l : list A) rows : Forall (fun r => (p + d <= r)%nat) rows ->
  pick_from p l rows = pick_from (p + d) (skipn d l) rows.
Proof.
  induction 1 as [|r rows Hr _ IH]; [reflexivity|]. unfold pick_from in *. cbn [flat_map]. rewrite IH. f_equal.
  replace (nth_error (skipn d l) (r - (p + d))) with (nth_error l (r - p)); [reflexivity|].
  clear - Hr. replace (r - p)%nat with (d + (r - (p + d)))%nat by lia. generalize (r - (p + d))%nat as k.
  intro k. revert l. induction d as [|d IH]; intros l; [reflexivity|]. destruct l as [|x l]; cbn.
  - destruct k; reflexivity.
  - apply IH. lia.
Qed.

Lemma pick_from_seq {A} p (l : list A) n : pick_from p l (seq p n) = firstn n l.
Proof.
  revert p l. induction n as [|n IH]; intros p l; [reflexivity|]. cbn [seq]. unfold pick_from. cbn [flat_map].
  rewrite Nat.sub_diag. destruct l as [|x l]; cbn [nth_error firstn].
  - cbn [app]. apply (@pick_from_nil A).
  - cbn [app]. f_equal. change (pick_from p (x :: l) (seq (S p) n) = firstn n l).
    rewrite (pick_from_shift 1 p (x :: l)).
    + replace (p + 1)%nat with (S p) by lia. cbn [skipn]. apply IH.
    + apply Forall_forall. intros r Hr. apply in_seq in Hr. lia.
Qed.

Lemma rows_ge l : forall p, sorted_disjoint_from p l -> Forall (fun r => (p <= r)%nat) (rows_of l).
Proof.
  induction l as [|i l IH]; intros p H; [constructor|]. destruct H as [H1 H2]. unfold rows_of. cbn [map concat].
  apply Forall_app. split.
  - apply Forall_forall. intros r Hr. unfold rows in Hr. apply in_seq in Hr. lia.
  - eapply Forall_impl; [|apply (IH _ H2)]. cbn. intros. lia.
Qed.

Section Slice.
Context {S A : Type} (next : S -> res (option A * S)) (P : S -> list A -> Prop) (m : mode).

Lemma sl_yields k : forall it its ivs rem p,
  k = (N.to_nat rem + total_len ivs)%nat ->
  yields next P it its ->
  sorted_disjoint_from (p + N.to_nat rem) ivs -> Forall non_empty ivs -> Forall iv_ok ivs ->
  N.of_nat (p + N.to_nat rem) < 2 ^ 64 -> N.of_nat k < 2 ^ 64 ->
  let its' := pick_from p its (seq p (N.to_nat rem) ++ rows_of ivs) in
  forall bounded : Prop, (bounded -> (length its' = k)%nat) ->
  yields (sl_next m next) (fun s l => bounded -> sl_size_hint s = nlen l)
    (mk_sl it ivs rem (N.of_nat (p + N.to_nat rem)) (N.of_nat k)) its'.
Proof.
  induction k as [|k IH]; intros it its ivs rem p Hk Hy Hs Hne Hiv Hp Hk64 its' bounded Hb.
  - assert (rem = 0) by lia. subst rem. assert (ivs = []).
    { destruct ivs as [|i r]; [reflexivity|]. rewrite total_len_cons in Hk. inversion Hne as [|? ? H]; subst.
      unfold non_empty in H. lia. }
    subst ivs. apply yields_nil with (s' := mk_sl it [] 0 (N.of_nat (p + N.to_nat 0)) (N.of_nat 0)); reflexivity.
  - assert (Hhint : bounded -> sl_size_hint (mk_sl it ivs rem (N.of_nat (p + N.to_nat rem)) (N.of_nat (Datatypes.S k))) = nlen its').
    { intro B. unfold nlen, sl_size_hint. cbn [sl_total]. now rewrite (Hb B). }
    destruct (N.eq_dec rem 0) as [->|Hrem].
    + (* next interval *)
      destruct ivs as [|i ivs]; [cbn in Hk; lia|]. rewrite total_len_cons in Hk.
      inversion Hne as [|? ? Hi Hne']; subst. inversion Hiv as [|? ? Hi2 Hiv']; subst.
      unfold non_empty in Hi. unfold iv_ok in Hi2. destruct Hs as [Hs1 Hs2]. cbn [N.to_nat] in *.
      rewrite Nat.add_0_r in *.
      set (d := (N.to_nat (iv_start i) - p)%nat).
      assert (Hstep : forall item it' o, iter_nth next d it = Ok (o, it') -> item = o ->
        sl_next m next (mk_sl it (i :: ivs) 0 (N.of_nat p) (N.of_nat (Datatypes.S k))) =
        Ok (item, mk_sl it' ivs (iv_length i - 1) (iv_start i + iv_length i) (N.of_nat k))).
      { intros item it' o E ->. unfold sl_next. cbn [sl_current_remaining sl_rows sl_current sl_iter sl_total].
        rewrite N.eqb_refl. unfold usub at 1. replace (N.of_nat p <=? iv_start i) with true by lia. cbn [bind].
        replace (N.to_nat (iv_start i - N.of_nat p)) with d by lia. rewrite E. cbn [bind].
        unfold uadd. rewrite (proj2 (N.ltb_lt _ _) Hi2). cbn [bind].
        unfold usub at 1. replace (1 <=? iv_length i) with true by lia. cbn [bind].
        unfold usub. replace (1 <=? N.of_nat (Datatypes.S k)) with true by lia. cbn [bind].
        do 3 f_equal. lia. }
      assert (Eits : its' = pick_from (p + d) (skipn d its) (seq (p + d) (N.to_nat (iv_length i)) ++ rows_of ivs)).
      { unfold its'. cbn [seq app]. unfold rows_of. cbn [map concat].
        replace (rows i) with (seq (p + d) (N.to_nat (iv_length i)))
          by (unfold rows; f_equal; lia).
        apply pick_from_shift. apply Forall_app. split.
        - apply Forall_forall. intros r Hr. apply in_seq in Hr. lia.
        - eapply Forall_impl; [|apply (rows_ge ivs _ Hs2)]. cbn. intros. lia. }
      destruct (iter_nth_some next P d it its Hy) as [(a & l' & it' & El & Hd & En & Hy')|[Hd (it' & En)]].
      * assert (Esk : skipn d its = a :: l').
        { rewrite El. rewrite skipn_app. rewrite firstn_length_le by lia. rewrite Nat.sub_diag.
          rewrite skipn_all2 by (rewrite firstn_length; lia). reflexivity. }
        set (rem' := iv_length i - 1) in *.
        assert (Eits2 : its' = a :: pick_from (p + d + 1) l' (seq (p + d + 1) (N.to_nat rem') ++ rows_of ivs)).
        { rewrite Eits, Esk. replace (N.to_nat (iv_length i)) with (Datatypes.S (N.to_nat rem')) by lia.
          cbn [seq app]. unfold pick_from at 1. cbn [flat_map]. rewrite Nat.sub_diag. cbn [nth_error app]. f_equal.
          replace (Datatypes.S (p + d)) with (p + d + 1)%nat by lia.
          change (pick_from (p + d) (a :: l') (seq (p + d + 1) (N.to_nat rem') ++ rows_of ivs) = 
                  pick_from (p + d + 1) l' (seq (p + d + 1) (N.to_nat rem') ++ rows_of ivs)).
          rewrite (pick_from_shift 1 (p + d) (a :: l')); [reflexivity|]. apply Forall_app. split.
          - apply Forall_forall. intros r Hr. apply in_seq in Hr. lia.
          - eapply Forall_impl; [|apply (rows_ge ivs _ Hs2)]. cbn. intros. lia. }
        rewrite Eits2. rewrite Eits2 in Hhint, Hb.
        eapply yields_cons; [exact Hhint|apply (Hstep _ _ _ En eq_refl)|].
        replace (iv_start i + iv_length i) with (N.of_nat (p + d + 1 + N.to_nat rem')) by lia.
        apply IH; try assumption; try lia.
        -- replace (p + d + 1 + N.to_nat rem')%nat with (N.to_nat (iv_start i) + N.to_nat (iv_length i))%nat by lia. exact Hs2.
        -- intro B. specialize (Hb B). cbn [length] in Hb. lia.
      * assert (E0 : its' = []). { rewrite Eits, skipn_all2 by exact Hd. apply pick_from_nil. }
        rewrite E0 in Hhint |- *. eapply yields_nil; [exact Hhint|apply (Hstep _ _ _ En eq_refl)].
    + (* inside an interval *)
      assert (Hstep : forall item it', next it = Ok (item, it') ->
        sl_next m next (mk_sl it ivs rem (N.of_nat (p + N.to_nat rem)) (N.of_nat (Datatypes.S k))) =
        Ok (item, mk_sl it' ivs (rem - 1) (N.of_nat (p + N.to_nat rem)) (N.of_nat k))).
      { intros item it' E. unfold sl_next. cbn [sl_current_remaining sl_rows sl_current sl_iter sl_total].
        replace (rem =? 0) with false by lia. unfold usub. replace (1 <=? N.of_nat (Datatypes.S k)) with true by lia. cbn [bind].
        rewrite E. cbn [bind]. do 3 f_equal. lia. }
      inversion Hy as [? it' HP E|? it' a l' HP E Hy']; subst.
      * assert (E0 : its' = []) by apply pick_from_nil. rewrite E0 in Hhint |- *.
        eapply yields_nil; [exact Hhint|apply Hstep; exact E].
      * assert (Eits : its' = a :: pick_from (p + 1) l' (seq (p + 1) (N.to_nat (rem - 1)) ++ rows_of ivs)).
        { unfold its'. replace (N.to_nat rem) with (Datatypes.S (N.to_nat (rem - 1))) by lia.
          cbn [seq app]. unfold pick_from at 1. cbn [flat_map]. rewrite Nat.sub_diag. cbn [nth_error app]. f_equal.
          replace (Datatypes.S p) with (p + 1)%nat by lia.
          change (pick_from p (a :: l') (seq (p + 1) (N.to_nat (rem - 1)) ++ rows_of ivs) = 
                  pick_from (p + 1) l' (seq (p + 1) (N.to_nat (rem - 1)) ++ rows_of ivs)).
          rewrite (pick_from_shift 1 p (a :: l')); [reflexivity|]. apply Forall_app. split.
          - apply Forall_forall. intros r Hr. apply in_seq in Hr. lia.
          - eapply Forall_impl; [|apply (rows_ge ivs _ Hs)]. cbn. intros. lia. }
        rewrite Eits. rewrite Eits in Hhint, Hb.
        eapply yields_cons; [exact Hhint|apply Hstep; exact E|].
        replace (p + N.to_nat rem)%nat with (p + 1 + N.to_nat (rem - 1))%nat in * by lia.
        apply IH; try assumption; try lia. intro B. specialize (Hb B). cbn [length] in Hb. lia.
Qed.
End Slice.

Lemma pick_all {A} (l : list A) rows : Forall (fun r => (r < length l)%nat) rows -> length (pick l rows) = length rows.
Proof.
  induction 1 as [|r rows Hr _ IH]; [reflexivity|]. unfold pick in *. cbn [flat_map]. rewrite app_length, IH.
  destruct (nth_error l r) eqn:E; [reflexivity|]. apply nth_error_None in E. lia.
Qed.

Lemma pick_from_0 {A} (l : list A) rows : pick_from 0 l rows = pick l rows.
Proof. unfold pick_from, pick. apply flat_map_ext. intro r. now rewrite Nat.sub_0_r. Qed.

(** Optional values. *)
Lemma ov_yields {S T A} (vnext : S -> res (option (bool + error) * S)) (next : T -> res (option A * T)) P Q levels :
  forall v t values,
  yields vnext P v (map inl levels) -> yields next Q t values -> (count_true levels <= length values)%nat ->
  yields (ov_next vnext next) (fun s l => exists x, P (fst s) x /\ length x = length l) (v, t) (map inl (pair_values levels values)).
Proof.
  induction levels as [|b levels IH]; intros v t values Hv Ht Hc; cbn [map pair_values] in *.
  - inversion Hv as [? v' HP E|]; subst. eapply yields_nil with (s' := (v', t)).
    + exists []. split; [exact HP|reflexivity].
    + unfold ov_next. cbn [fst snd]. rewrite E. reflexivity.
  - inversion Hv as [|? v' x l' HP E Hv']; subst.
    assert (Hlen : forall k (vs : list A), length (map (@inl (option A) error) (pair_values k vs)) = length k).
    { clear. induction k as [|[] k IHk]; intros vs; cbn; try reflexivity; [|now rewrite IHk].
      destruct vs; cbn; now rewrite IHk. }
    destruct b; cbn [count_true] in Hc.
    + destruct values as [|y values]; [cbn in Hc; lia|]. inversion Ht as [|? t' z l2 HQ E2 Ht']; subst. cbn [map].
      eapply yields_cons with (s' := (v', t')); [| |apply IH; try assumption; cbn in Hc; lia].
      * eexists. split; [exact HP|]. cbn [length]. now rewrite map_length, Hlen.
      * unfold ov_next. cbn [fst snd]. rewrite E. cbn [bind]. rewrite E2. reflexivity.
    + cbn [map]. eapply yields_cons with (s' := (v', t)); [| |apply IH; try assumption].
      * eexists. split; [exact HP|]. cbn [length]. now rewrite map_length, Hlen.
      * unfold ov_next. cbn [fst snd]. rewrite E. reflexivity.
Qed.
