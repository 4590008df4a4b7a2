From Verif Require Import Base.Prelude Base.LeFacts Base.Iter Spec.Bits Spec.UlebSpec Spec.RleSpec
  Model.Uleb128 Model.Bitpacked Model.HybridRle Proofs.UlebProofs Proofs.BitsFacts Proofs.BitpackedProofs
  Proofs.HybridRleProofs Proofs.HybridAnyProofs.
Open Scope N_scope.

Lemma broken_ok m w r vals rest : broken m w r vals rest -> bytes_ok rest /\ rest <> [].
Proof.
  assert (V : forall v h t, varint v h -> h ++ t <> []).
  { intros v h t Hh E. apply app_eq_nil in E as [-> _]. pose proof (varint_pos _ _ Hh) as P. cbn in P. lia. }
  induction 1 as [init last rest Hl Hf Hb Hr|count h body Hh Hb Hne Hl|g h body Hm Hh Hb Hne H64
                  |count h body rest r vals Hh Hb Hl Hc IH
                  |g h body rest r vals Hh H64 Hb Hmin Hc IH].
  - split; [|destruct init; discriminate]. apply bytes_ok_app; split.
    + eapply Forall_impl; [|exact Hf]. intros b Hx. unfold byte_ok; cbn beta in *; lia.
    + constructor; [unfold byte_ok; lia|exact Hr].
  - split; [|eapply V; exact Hh]. apply bytes_ok_app; split; [eapply varint_bytes; eassumption|assumption].
  - split; [|eapply V; exact Hh]. apply bytes_ok_app; split; [eapply varint_bytes; eassumption|assumption].
  - split; [|eapply V; exact Hh]. apply bytes_ok_app; split; [eapply varint_bytes; eassumption|].
    apply bytes_ok_app; split; [assumption|apply IH].
  - split; [|eapply V; exact Hh]. apply bytes_ok_app; split; [eapply varint_bytes; eassumption|].
    apply bytes_ok_app; split; [assumption|apply IH].
Qed.

Lemma read_next_broken_0 m w vals rest rem : (0 < w <= 32)%nat -> nlen rest < 2 ^ 61 ->
  broken m w 0 vals rest -> vals = [] /\ read_next m (mk_rle rest w) (N.of_nat rem) = Panic.
Proof.
  intros Hw Hsz Hc. destruct (broken_ok _ _ _ _ _ Hc) as [Hok Hne0].
  assert (V : forall v h t, varint v h -> uleb_lead (h ++ t) = h).
  { intros v h t (_ & _ & _ & init & last & -> & Hi & Hl). apply lead_varint; assumption. }
  assert (P : hr_try_new m rest w (N.of_nat rem) = Panic -> read_next m (mk_rle rest w) (N.of_nat rem) = Panic).
  { unfold hr_try_new. destruct (read_next m (mk_rle rest w) (N.of_nat rem)) as [[st d]|e|]; cbn [bind]; intro H;
      [discriminate|discriminate|reflexivity]. }
  inversion Hc as [init last rest' Hl Hf Hb Hr E0 E1 E2|count h body Hh Hb Hne Hl E0 E1 E2|g h body Hm Hh Hb Hne H64 E0 E1 E2| |].
  - split; [reflexivity|]. rewrite E2. apply P. apply (hr_try_new_panics m rest w rem Hw Hok Hsz). left. subst rest. split.
    + replace (uleb_lead (init ++ last :: rest')) with (init ++ uleb_lead (last :: rest')).
      * rewrite app_length, Hl. cbn [uleb_lead]. destruct (last <? 128); cbn [length]; lia.
      * clear - Hf. induction Hf as [|b init Hb Hf IH]; [reflexivity|]. cbn [app uleb_lead].
        replace (b <? 128) with false by lia. rewrite <- IH. reflexivity.
    + rewrite app_nth2 by lia. rewrite Hl. cbn. lia.
  - split; [reflexivity|]. rewrite E2. apply P. apply (hr_try_new_panics m rest w rem Hw Hok Hsz). right. subst rest.
    pose proof (varint_decode _ _ _ Hh Hb) as Hd.
    pose proof (uleb_decode_total (h ++ body) Hok) as [Hp _].
    split; [intro H; apply Hp in H; congruence|].
    rewrite (V _ _ body Hh). rewrite skipn_app, skipn_all, Nat.sub_diag. cbn [skipn app].
    split; [assumption|]. left. destruct Hh as (_ & _ & -> & _). split; [|assumption].
    rewrite N.odd_mul. reflexivity.
  - split; [reflexivity|]. rewrite E2. apply P. apply (hr_try_new_panics m rest w rem Hw Hok Hsz). right. subst rest.
    pose proof (varint_decode _ _ _ Hh Hb) as Hd.
    pose proof (uleb_decode_total (h ++ body) Hok) as [Hp _].
    split; [intro H; apply Hp in H; congruence|].
    rewrite (V _ _ body Hh). rewrite skipn_app, skipn_all, Nat.sub_diag. cbn [skipn app].
    split; [assumption|]. right. destruct Hh as (_ & _ & -> & _). split.
    + rewrite N.odd_add_mul_2 || rewrite N.add_comm, N.odd_add_mul_2. reflexivity.
    + split; [assumption|]. replace ((2 * g + 1) / 2) with g by (Z.to_euclidean_division_equations; lia). assumption.
Qed.

Lemma read_next_broken_S m w r vals rest rem : (0 < w <= 32)%nat -> nlen rest < 2 ^ 61 ->
  broken m w (S r) vals rest ->
  exists st l vals' rest', read_next m (mk_rle rest w) (N.of_nat rem) = Ok (st, mk_rle rest' w) /\
     st_vals st l /\ broken m w r vals' rest' /\ (length rest' < length rest)%nat /\
     firstn rem (l ++ vals') = firstn rem vals.
Proof.
  intros Hw Hsz Hc.
  inversion Hc as [| | |count h body rest' r' vals' Hh Hb Hl Hc' E0 E1 E2
                  |g h body rest' r' vals' Hh H64 Hb Hmin Hc' E0 E1 E2]; subst.
  - destruct (broken_ok _ _ _ _ _ Hc') as [Hr' _].
    pose proof (varint_pos _ _ Hh) as Hp.
    unfold read_next. rewrite (rle_next_rle m h body rest' w (N.of_nat count)); try assumption; [|lia].
    cbn [bind].
    assert (Hval : rle_value body = le body).
    { unfold rle_value. rewrite firstn_all2; [reflexivity|]. rewrite Hl. unfold ceil8.
      clear - Hw. destruct (w mod 8 =? 0)%nat eqn:E; Z.to_euclidean_division_equations; lia. }
    rewrite Hval.
    destruct (N.of_nat count =? 1) eqn:E1.
    + eexists _, [le body], vals', rest'. split; [reflexivity|]. split; [constructor|].
      split; [assumption|]. split; [rewrite !app_length; lia|].
      assert (count = 1%nat) by lia. subst count. reflexivity.
    + eexists _, (repeat (le body) (N.to_nat (N.of_nat count))), vals', rest'. split; [reflexivity|].
      split; [constructor|]. split; [assumption|]. split; [rewrite !app_length; lia|].
      rewrite Nnat.Nat2N.id. reflexivity.
  - destruct (broken_ok _ _ _ _ _ Hc') as [Hr' Hne'].
    pose proof (varint_pos _ _ Hh) as Hp.
    assert (HszB : nlen body < 2 ^ 61).
    { unfold nlen in *. rewrite !app_length in Hsz. lia. }
    assert (Hne2 : body ++ rest' <> []) by (intro E; apply app_eq_nil in E as [_ E]; contradiction).
    assert (Hmin2 : nlen body = N.min (g * N.of_nat w) (nlen (body ++ rest'))).
    { unfold nlen in *. rewrite app_length. lia. }
    unfold read_next.
    rewrite (rle_next_packed m h body rest' w g); try assumption; try lia.
    cbn [bind rd_num_bits].
    set (vs := map (fun i => bit_field w i body) (seq 0 (8 * length body / w))).
    assert (Hlv : length vs = (8 * length body / w)%nat) by (unfold vs; rewrite map_length, seq_length; reflexivity).
    destruct (read_packed m body w rem vs Hw Hb HszB) as (d & Ed & Hy).
    { lia. }
    { intros i Hi. rewrite Hlv in Hi. unfold vs. symmetry. apply nth_error_nth.
      apply (nth_error_map_seq (fun i => bit_field w i body)); exact Hi. }
    { right. lia. }
    rewrite Ed. cbn [bind].
    eexists _, (firstn rem vs), vals', rest'. split; [reflexivity|]. split; [constructor; exact Hy|].
    split; [assumption|]. split; [rewrite !app_length; lia|].
    apply firstn_firstn_app.
Qed.

Definition hr_binv (m : mode) (w : nat) (s : hr_decoder) (rem : nat) (T : list N) : Prop :=
  hr_remaining s = N.of_nat rem /\
  exists l r vals rest, hr_decoder_ s = mk_rle rest w /\ st_vals (hr_st s) l /\
      broken m w r vals rest /\ nlen rest < 2 ^ 61 /\ T = firstn rem (l ++ vals).

Lemma hr_next_go_broken m w : (0 < w <= 32)%nat -> forall fuel s T rem,
  hr_binv m w s (S rem) T ->
  (length (rd_values (hr_decoder_ s)) + 2 <= fuel)%nat ->
  match T with
  | [] => hr_next_go m fuel s = Panic
  | v :: T' => exists s', hr_next_go m fuel s = Ok (Some v, s') /\ hr_binv m w s' rem T'
  end.
Proof.
  intros Hw. induction fuel as [|fuel IH]; intros s T rem Hinv Hfuel; [lia|].
  destruct Hinv as (Hr & l & r & vals & rest & Hd & Hst & Hc & Hsz & HT).
  cbn [hr_next_go]. rewrite Hr. change (N.of_nat (S rem) =? 0) with false. cbv beta iota.
  replace (N.of_nat (S rem) - 1) with (N.of_nat rem) by lia.
  destruct l as [|v l].
  - destruct (st_vals_nil _ Hst) as (s1 & E1). rewrite E1. cbn [bind].
    rewrite Hd in *. cbn [rd_values] in Hfuel.
    destruct r as [|r].
    + destruct (read_next_broken_0 m w vals rest (S rem) Hw Hsz Hc) as [-> Ep].
      rewrite HT. cbn [app firstn]. rewrite Ep. reflexivity.
    + destruct (read_next_broken_S m w r vals rest (S rem) Hw Hsz Hc)
        as (st & l' & vals' & rest' & Ed & Hst' & Hc' & Hlt & Htail).
      rewrite Ed. cbn [bind]. apply IH; [|cbn [hr_decoder_ rd_values]; lia].
      split; [reflexivity|]. exists l', r, vals', rest'.
      split; [reflexivity|]. split; [assumption|]. split; [assumption|].
      split; [unfold nlen in *; lia|]. rewrite Htail, HT. reflexivity.
  - destruct (st_vals_cons _ _ _ Hst) as (s1 & E1 & Hst1). rewrite E1. cbn [bind].
    cbn [app firstn] in HT. rewrite HT. eexists. split; [reflexivity|]. split; [reflexivity|].
    exists l, r, vals, rest. split; [exact Hd|]. split; [exact Hst1|]. split; [exact Hc|]. split; [exact Hsz|]. reflexivity.
Qed.

Lemma hr_drain_broken m w : (0 < w <= 32)%nat -> forall k s T rem,
  hr_binv m w s rem T ->
  drain (hr_next m) k s = if (length T <? Nat.min rem k)%nat then Panic else Ok (firstn k T).
Proof.
  intros Hw. induction k as [|k IH]; intros s T rem Hinv; cbn [drain].
  - rewrite Nat.min_0_r. replace (length T <? 0)%nat with false by (symmetry; apply Nat.ltb_ge; lia). reflexivity.
  - destruct rem as [|rem].
    + destruct Hinv as (Hr & l & r & vals & rest & Hd & Hst & Hc & Hsz & HT).
      cbn [firstn] in HT. subst T. unfold hr_next.
      destruct (length (rd_values (hr_decoder_ s)) + 2)%nat eqn:E; [lia|]. cbn [hr_next_go]. rewrite Hr. reflexivity.
    + pose proof (hr_next_go_broken m w Hw (length (rd_values (hr_decoder_ s)) + 2) s T rem Hinv ltac:(lia)) as H.
      fold (hr_next m s) in H. destruct T as [|v T].
      * rewrite H. reflexivity.
      * destruct H as (s' & E & Hinv'). rewrite E. cbn [bind]. rewrite (IH _ _ _ Hinv').
        cbn [length Nat.min firstn].
        change (S (length T) <? S (Nat.min rem k))%nat with (length T <? Nat.min rem k)%nat.
        destruct (length T <? Nat.min rem k)%nat; reflexivity.
Qed.

Lemma hr_broken_exactly m w r vals data n k : (0 < w <= 32)%nat -> nlen data < 2 ^ 61 ->
  broken m w r vals data ->
  (let* s := hr_try_new m data w (N.of_nat n) in drain (hr_next m) k s)
  = if (r =? 0)%nat || (length vals <? Nat.min n k)%nat then Panic else Ok (firstn (Nat.min n k) vals).
Proof.
  intros Hw Hsz Hc. unfold hr_try_new. destruct r as [|r].
  - destruct (read_next_broken_0 m w vals data n Hw Hsz Hc) as [-> ->]. reflexivity.
  - destruct (read_next_broken_S m w r vals data n Hw Hsz Hc)
        as (st & l & vals' & rest' & Ed & Hst & Hc' & Hlt & Htail).
    rewrite Ed. cbn [bind]. rewrite (hr_drain_broken m w Hw k _ (firstn n vals) n).
    + cbn [orb Nat.eqb]. rewrite firstn_length.
      destruct (length vals <? Nat.min n k)%nat eqn:E.
      * replace (_ <? _)%nat with true; [reflexivity|]. symmetry. apply Nat.ltb_lt. apply Nat.ltb_lt in E. lia.
      * replace (_ <? _)%nat with false; [|symmetry; apply Nat.ltb_ge; apply Nat.ltb_ge in E; lia].
        rewrite firstn_firstn, Nat.min_comm. reflexivity.
    + split; [reflexivity|]. exists l, r, vals', rest'.
      split; [reflexivity|]. split; [assumption|]. split; [assumption|].
      split; [unfold nlen in *; lia|]. symmetry. exact Htail.
Qed.

Lemma lead_shape data : bytes_ok data ->
  (uleb_lead data = data /\ Forall (fun b => 128 <= b < 256) data) \/
  (exists init last rest, data = init ++ last :: rest /\ uleb_lead data = init ++ [last] /\
     Forall (fun b => 128 <= b < 256) init /\ last < 128 /\ bytes_ok rest).
Proof.
  induction 1 as [|b data Hb Hd IH]; [left; split; [reflexivity|constructor]|].
  cbn [uleb_lead]. destruct (b <? 128) eqn:E.
  - right. exists [], b, data. split; [reflexivity|]. split; [reflexivity|]. split; [constructor|]. split; [lia|assumption].
  - unfold byte_ok in Hb. destruct IH as [[H1 H2]|(init & last & rest & H1 & H2 & H3 & H4 & H5)].
    + left. rewrite H1. split; [reflexivity|]. constructor; [lia|assumption].
    + right. exists (b :: init), last, rest. rewrite H2, H1. split; [reflexivity|]. split; [reflexivity|].
      split; [constructor; [lia|assumption]|]. split; assumption.
Qed.

Lemma readable_or_broken w : (0 < w <= 32)%nat -> forall k data, (length data <= k)%nat ->
  bytes_ok data -> nlen data < 2 ^ 61 ->
  (exists vals, readable w vals data) \/ (exists r vals, broken Checked w r vals data).
Proof.
  intros Hw. induction k as [|k IH]; intros data Hk Hok Hsz.
  { destruct data; [|cbn in Hk; lia]. left. exists []. constructor. }
  assert (Long : forall init last rest, data = init ++ last :: rest -> length init = 9%nat ->
     Forall (fun b => 128 <= b < 256) init -> 1 < last ->
     exists r vals, broken Checked w r vals data).
  { intros init last rest -> Hl Hf Hlast. apply Forall_app in Hok as [_ Hok]. inversion Hok as [|? ? Hb Hr]; subst.
    unfold byte_ok in Hb. exists 0%nat, []. constructor; [assumption|assumption|lia|assumption]. }
  destruct (lead_shape data Hok) as [[H1 H2]|(init & last & rest & H1 & H2 & H3 & H4 & H5)].
  - destruct (Nat.le_gt_cases (length data) 9) as [H9|H9].
    + left. destruct data as [|b data]; [exists []; constructor|]. exists []. apply rb_cut; [discriminate|assumption|assumption].
    + right. apply (Long (firstn 9 data) (nth 9 data 0) (skipn 10 data)).
      * rewrite <- (firstn_skipn 9 data) at 1. f_equal.
        clear - H9. do 10 (destruct data as [|? data]; [cbn in H9; lia|]). reflexivity.
      * rewrite firstn_length. lia.
      * rewrite <- (firstn_skipn 9 data) in H2. apply Forall_app in H2. apply H2.
      * assert (In (nth 9 data 0) data) by (apply nth_In; lia).
        rewrite Forall_forall in H2. specialize (H2 _ H). cbn beta in H2. lia.
  - destruct (Nat.le_gt_cases 10 (length init)) as [H9|H9].
    { right. apply (Long (firstn 9 init) (nth 9 init 0) (skipn 10 init ++ last :: rest)).
      * rewrite H1. rewrite <- (firstn_skipn 9 init) at 1. rewrite <- app_assoc. f_equal.
        clear - H9. do 10 (destruct init as [|? init]; [cbn in H9; lia|]). reflexivity.
      * rewrite firstn_length. lia.
      * rewrite <- (firstn_skipn 9 init) in H3. apply Forall_app in H3. apply H3.
      * assert (In (nth 9 init 0) init) by (apply nth_In; lia).
        rewrite Forall_forall in H3. specialize (H3 _ H). cbn beta in H3. lia. }
    assert (Hcase : (exists r vals, broken Checked w r vals data) \/ varint (base128 (init ++ [last])) (init ++ [last])).
    { destruct (Nat.eq_dec (length init) 9) as [E9|N9].
      - destruct (N.lt_ge_cases 1 last) as [Hlast|Hlast]; [left; eapply Long; eassumption|]. right.
        destruct (uleb_decode_total data Hok) as [Hp Hnp].
        assert (NP : uleb_decode data <> Panic).
        { intro H. apply Hp in H as [_ H]. rewrite H1, app_nth2 in H by lia. rewrite E9 in H. cbn in H. lia. }
        destruct (Hnp NP) as (_ & _ & _ & Hlt). rewrite H2 in Hlt. split; [exact Hlt|].
        split; [rewrite app_length; cbn; lia|]. split; [reflexivity|]. exists init, last. repeat split; assumption.
      - right. destruct (uleb_decode_total data Hok) as [Hp Hnp].
        assert (NP : uleb_decode data <> Panic).
        { intro H. apply Hp in H as [H _]. rewrite H2, app_length in H. cbn in H. lia. }
        destruct (Hnp NP) as (_ & _ & _ & Hlt). rewrite H2 in Hlt. split; [exact Hlt|].
        split; [rewrite app_length; cbn; lia|]. split; [reflexivity|]. exists init, last. repeat split; assumption. }
    destruct Hcase as [Hb|Hv]; [right; exact Hb|].
    assert (Hdata : data = (init ++ [last]) ++ rest) by (rewrite H1, <- app_assoc; reflexivity).
    revert Hv Hdata. generalize (base128 (init ++ [last])). generalize (init ++ [last]). clear - Hw IH Hk Hsz H5.
    intros h v Hv ->. pose proof (varint_pos _ _ Hv) as Hpos. rewrite app_length in Hk.
    destruct (list_eq_dec N.eq_dec rest []) as [->|Hne].
    { left. exists []. rewrite app_nil_r. eapply rb_header. exact Hv. }
    assert (Sub : forall p, bytes_ok (skipn p rest) /\ (length (skipn p rest) <= k)%nat /\ nlen (skipn p rest) < 2 ^ 61).
    { intro p. split; [apply bytes_ok_skipn; assumption|]. rewrite skipn_length. split; [lia|].
      unfold nlen in *. rewrite app_length in Hsz. rewrite skipn_length. lia. }
    destruct (N.odd v) eqn:Ho.
    + apply N.odd_spec in Ho as [g Eg]. subst v.
      destruct (N.lt_ge_cases (g * N.of_nat w) (2 ^ 64)) as [H64|H64].
      2:{ right. exists 0%nat, []. eapply bk_groups; try eassumption. reflexivity. }
      set (p := N.to_nat (N.min (g * N.of_nat w) (nlen rest))).
      assert (Hlp : nlen (firstn p rest) = N.min (g * N.of_nat w) (nlen rest)).
      { unfold nlen. rewrite firstn_length. subst p. unfold nlen. lia. }
      destruct (Sub p) as (S1 & S2 & S3).
      destruct (IH _ S2 S1 S3) as [[vals Hr]|(r & vals & Hr)].
      * left. eexists. rewrite <- (firstn_skipn p rest) at 1. eapply rb_packed; try eassumption.
        -- apply bytes_ok_firstn; assumption.
        -- rewrite firstn_skipn. assumption.
        -- rewrite firstn_skipn. exact Hlp.
      * right. eexists _, _. rewrite <- (firstn_skipn p rest) at 1. eapply bk_after_packed; try eassumption.
        -- apply bytes_ok_firstn; assumption.
        -- destruct (broken_ok _ _ _ _ _ Hr) as [_ Hnz]. rewrite Hlp. apply N.min_l.
           destruct (N.le_gt_cases (g * N.of_nat w) (nlen rest)) as [L|L]; [exact L|]. exfalso. apply Hnz.
           apply skipn_all2. subst p. unfold nlen in *. lia.
    + assert (He : N.even v = true) by (rewrite <- N.negb_odd, Ho; reflexivity).
      apply N.even_spec in He as [c Ec]. subst v.
      destruct (Nat.lt_ge_cases (length rest) (ceil8 w)) as [Hs|Hs].
      { right. exists 0%nat, []. eapply bk_value; eassumption. }
      destruct (Sub (ceil8 w)) as (S1 & S2 & S3).
      assert (Hlc : length (firstn (ceil8 w) rest) = ceil8 w) by (rewrite firstn_length; lia).
      rewrite <- (Nnat.N2Nat.id c) in Hv.
      destruct (IH _ S2 S1 S3) as [[vals Hr]|(r & vals & Hr)].
      * left. eexists. rewrite <- (firstn_skipn (ceil8 w) rest) at 1. eapply rb_rle; try eassumption.
        apply bytes_ok_firstn; assumption.
      * right. eexists _, _. rewrite <- (firstn_skipn (ceil8 w) rest) at 1. eapply bk_after_rle; try eassumption.
        apply bytes_ok_firstn; assumption.
Qed.
