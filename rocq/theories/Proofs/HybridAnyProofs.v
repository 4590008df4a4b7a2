From Verif Require Import Base.Prelude Base.LeFacts Base.Iter Spec.Bits Spec.UlebSpec Spec.RleSpec
  Model.Uleb128 Model.Bitpacked Model.HybridRle Proofs.UlebProofs Proofs.BitsFacts Proofs.BitpackedProofs
  Proofs.HybridRleProofs.
Open Scope N_scope.

Lemma umul_le m a b c : umul m 64 a b = Ok c -> c <= a * b.
Proof.
  unfold umul. destruct (a * b <? 2 ^ 64); [intro H; injection H as <-; lia|].
  destruct m; [discriminate|]. intro H; injection H as <-. apply N.mod_le. discriminate.
Qed.
Lemma umul_no_err m a b e : umul m 64 a b <> Err e.
Proof. unfold umul. destruct (a * b <? 2 ^ 64); [discriminate|]. destruct m; discriminate. Qed.

Lemma split_no_err {A} n (l : list A) e : split_at n l <> Err e.
Proof. unfold split_at. destruct (n <=? length l)%nat; discriminate. Qed.
Lemma slice_no_err {A} n (l : list A) e : slice_from n l <> Err e.
Proof. unfold slice_from. destruct (n <=? length l)%nat; discriminate. Qed.

Lemma uleb_go_no_err : forall l r s k e, uleb_decode_go l r s k <> Err e.
Proof.
  induction l as [|b l IH]; intros r s k e; cbn [uleb_decode_go]; [discriminate|].
  destruct ((s =? 63) && (1 <? b)); [discriminate|]. destruct (N.land b 128 =? 0); [discriminate|]. apply IH.
Qed.

Ltac no_err :=
  match goal with
  | |- bind ?x _ <> Err _ => let E := fresh in destruct x eqn:E; cbn [bind]; [ | | discriminate]
  end.

Lemma rle_next_no_err m d e : rle_next m d <> Err e.
Proof.
  unfold rle_next. destruct (rd_num_bits d =? 0)%nat; [discriminate|].
  destruct (rd_values d) as [|x y] eqn:E; [discriminate|]. rewrite <- E.
  no_err; [|exfalso; eapply uleb_go_no_err; eassumption].
  destruct a as [ind cons]. no_err; [|exfalso; eapply slice_no_err; eassumption].
  destruct a; [discriminate|].
  destruct (N.land ind 1 =? 1).
  - no_err; [|exfalso; eapply umul_no_err; eassumption].
    no_err; [|exfalso; eapply split_no_err; eassumption]. destruct a1; discriminate.
  - no_err; [|exfalso; eapply split_no_err; eassumption]. destruct a0; discriminate.
Qed.

Lemma rle_next_some_w m d x d' : rle_next m d = Ok (Some x, d') ->
  rd_num_bits d' = rd_num_bits d /\ rd_num_bits d <> 0%nat.
Proof.
  unfold rle_next. destruct (rd_num_bits d =? 0)%nat eqn:E0; [discriminate|].
  destruct (rd_values d) as [|a b] eqn:E; [discriminate|]. rewrite <- E.
  destruct (uleb_decode (rd_values d)) as [[ind cons]| |]; cbn [bind]; try discriminate.
  destruct (slice_from cons (rd_values d)) as [vs| |]; cbn [bind]; try discriminate.
  destruct vs; [discriminate|].
  destruct (N.land ind 1 =? 1).
  - destruct (umul _ _ _ _); cbn [bind]; try discriminate.
    destruct (split_at _ _) as [[r1 r2]| |]; cbn [bind]; try discriminate.
    intro H; injection H as _ <-. cbn. split; [reflexivity|lia].
  - destruct (split_at _ _) as [[r1 r2]| |]; cbn [bind]; try discriminate.
    intro H; injection H as _ <-. cbn. split; [reflexivity|lia].
Qed.

Lemma decode_pack_no_err B p w e : decode_pack B p w <> Err e.
Proof.
  assert (H : forall is inp e, unpack_loop B w inp is <> Err e).
  { clear e. induction is as [|i is IH]; intros inp e; cbn [unpack_loop]; [discriminate|].
    no_err.
    - no_err; [discriminate|]. exfalso; eapply IH; eassumption.
    - exfalso. unfold unpack_step in *.
      assert (Hw : forall idx e', word_at B inp idx <> Err e').
      { intros idx e'. unfold word_at. destruct (_ <=? _)%nat; discriminate. }
      destruct (negb _ && negb _).
      + destruct (word_at B inp _) eqn:E1; cbn [bind] in *; try discriminate; [|eapply Hw; eassumption].
        destruct (word_at B inp _) eqn:E2 in H; cbn [bind] in *; try discriminate; eapply Hw; eassumption.
      + destruct (word_at B inp _) eqn:E1; cbn [bind] in *; try discriminate; eapply Hw; eassumption. }
  assert (H2 : forall inp, unpack B inp w <> Err e).
  { intro inp. unfold unpack. destruct (_ <? _)%nat; [discriminate|]. destruct (w =? 0)%nat; [discriminate|].
    destruct (_ <? _)%nat; [discriminate|]. apply H. }
  unfold decode_pack. destruct (_ <? _)%nat; [|apply H2]. destruct (_ <? _)%nat; [discriminate|apply H2].
Qed.

Lemma read_next_no_err m d rem e : read_next m d rem <> Err e.
Proof.
  unfold read_next. no_err; [|exfalso; eapply rle_next_no_err; eassumption].
  destruct a as [o d']. destruct o as [[packed|pack n]|].
  - destruct (rle_next_some_w _ _ _ _ H) as [Hw Hw0]. no_err; [discriminate|]. exfalso.
    rewrite Hw in *. unfold bp_try_new in H0.
    set (w := rd_num_bits d) in *. clearbody w.
    replace (w =? 0)%nat with false in H0 by lia.
    destruct (umul m 64 _ _) as [needed| |] eqn:E; cbn [bind] in H0; try discriminate;
      [|eapply umul_no_err; eassumption].
    apply umul_le in E.
    assert (Hle : N.min (nlen packed * 8 / N.of_nat w) rem * N.of_nat w <= nlen packed * 8).
    { pose proof (N.mul_div_le (nlen packed * 8) (N.of_nat w) ltac:(lia)).
      set (q := nlen packed * 8 / N.of_nat w) in *. clearbody q. nia. }
    replace (nlen packed * 8 <? needed) with false in H0 by lia.
    destruct packed; [discriminate|].
    destruct (decode_pack 4 _ w) eqn:E2; cbn [bind] in H0; try discriminate.
    eapply decode_pack_no_err; eassumption.
  - destruct (n =? 1); discriminate.
  - discriminate.
Qed.

Lemma bp_next_no_err B d e : bp_next B d <> Err e.
Proof.
  unfold bp_next. destruct (_ =? 0); [discriminate|]. destruct (nth_error _ _); [|discriminate].
  destruct (_ =? _)%nat; [|discriminate]. destruct (bp_packed d); [discriminate|].
  no_err; [discriminate|]. exfalso; eapply decode_pack_no_err; eassumption.
Qed.

Lemma state_next_no_err s e : state_next s <> Err e.
Proof.
  destruct s as [|d|v n|o]; cbn [state_next]; try discriminate.
  - no_err; [destruct a; discriminate|]. exfalso; eapply bp_next_no_err; eassumption.
  - destruct (n =? 0); discriminate.
Qed.

Lemma hr_next_go_any m fuel : forall s,
  (forall e, hr_next_go m fuel s <> Err e) /\
  (forall o s', hr_next_go m fuel s = Ok (o, s') ->
     (hr_remaining s = 0 /\ o = None /\ hr_remaining s' = 0) \/
     (0 < hr_remaining s /\ (exists v, o = Some v) /\ hr_remaining s' = hr_remaining s - 1)).
Proof.
  induction fuel as [|f IH]; intros s; cbn [hr_next_go]; [split; discriminate|].
  destruct (hr_remaining s =? 0) eqn:E0.
  - split; [discriminate|]. intros o s' H. injection H as <- <-. left. repeat split; lia.
  - destruct (state_next (hr_st s)) as [[o st']|e'|] eqn:E1; cbn [bind].
    + destruct o as [v|].
      * split; [discriminate|]. intros o s' H. injection H as <- <-. right.
        split; [lia|]. split; [exists v; reflexivity|reflexivity].
      * destruct (read_next m (hr_decoder_ s) (hr_remaining s)) as [[st2 d2]|e'|] eqn:E2; cbn [bind].
        -- destruct (IH (mk_hr d2 st2 (hr_remaining s))) as [IH1 IH2]. split; [exact IH1|].
           intros o s' H. apply IH2 in H. cbn [hr_remaining] in H. exact H.
        -- exfalso. eapply read_next_no_err; eassumption.
        -- split; discriminate.
    + exfalso. eapply state_next_no_err; eassumption.
    + split; discriminate.
Qed.

Lemma hr_drain_any m k : forall s,
  (forall e, drain_st (hr_next m) k s <> Err e) /\
  (forall l s', drain_st (hr_next m) k s = Ok (l, s') ->
     nlen l = N.min (N.of_nat k) (hr_remaining s) /\ hr_size_hint s' = hr_remaining s - nlen l).
Proof.
  induction k as [|k IH]; intros s; cbn [drain_st].
  - split; [discriminate|]. intros l s' H. injection H as <- <-. unfold nlen, hr_size_hint. cbn [length]. lia.
  - destruct (hr_next_go_any m (length (rd_values (hr_decoder_ s)) + 2) s) as [Hn1 Hn2].
    change (hr_next_go m (length (rd_values (hr_decoder_ s)) + 2) s) with (hr_next m s) in *.
    destruct (hr_next m s) as [[o s1]|e|] eqn:E1; cbn [bind].
    + specialize (Hn2 o s1 eq_refl). destruct Hn2 as [(H0 & -> & H1)|(H0 & [v ->] & H1)].
      * split; [discriminate|]. intros l s' H. injection H as <- <-.
        unfold nlen, hr_size_hint. cbn [length]. lia.
      * destruct (IH s1) as [IH1 IH2].
        destruct (drain_st (hr_next m) k s1) as [[l1 s2]|e|] eqn:E2; cbn [bind].
        -- specialize (IH2 l1 s2 eq_refl). split; [discriminate|]. intros l s' H. injection H as <- <-.
           unfold nlen in *. cbn [length]. lia.
        -- exfalso. eapply IH1; reflexivity.
        -- split; discriminate.
    + exfalso. eapply Hn1; reflexivity.
    + split; discriminate.
Qed.

Lemma hr_try_new_any m data w n :
  (forall e, hr_try_new m data w n <> Err e) /\
  (forall s, hr_try_new m data w n = Ok s -> hr_remaining s = n).
Proof.
  unfold hr_try_new. destruct (read_next m (mk_rle data w) n) as [[st d]|e|] eqn:E; cbn [bind].
  - split; [discriminate|]. intros s H. injection H as <-. reflexivity.
  - exfalso. eapply read_next_no_err; eassumption.
  - split; discriminate.
Qed.

(** Exact condition for the construction of the decoder to panic. *)
Lemma hr_try_new_panics m data w n : (0 < w <= 32)%nat -> bytes_ok data -> nlen data < 2 ^ 61 ->
  let lead := uleb_lead data in
  let v := base128 lead in
  let body := skipn (length lead) data in
  (hr_try_new m data w (N.of_nat n) = Panic <->
    ((10 <= length lead)%nat /\ 1 < nth 9 data 0) \/
    (~ ((10 <= length lead)%nat /\ 1 < nth 9 data 0) /\ body <> [] /\
     ((N.odd v = false /\ (length body < ceil8 w)%nat) \/
      (N.odd v = true /\ m = Checked /\ 2 ^ 64 <= v / 2 * N.of_nat w)))).
Proof.
  intros Hw Hok Hsz lead v body.
  destruct (uleb_decode_total data Hok) as [Hp Hnp].
  unfold hr_try_new, read_next, rle_next. cbn [rd_num_bits rd_values].
  replace (w =? 0)%nat with false by lia.
  destruct (list_eq_dec N.eq_dec data []) as [Hnil|Hne].
  { unfold body, v, lead. rewrite Hnil. cbn [bind uleb_lead length skipn nth]. split; [discriminate|].
    intros [[H _]|[_ [H _]]]; [lia|congruence]. }
  assert (Hmatch : forall T (x y : T), match data with [] => x | _ :: _ => y end = y)
    by (intros; clear - Hne; destruct data; [congruence|reflexivity]).
  rewrite Hmatch.
  fold lead v in Hp, Hnp.
  destruct (uleb_decode data) as [[v' k]|e|] eqn:Eu.
  - destruct (Hnp ltac:(discriminate)) as (HH & Hl1 & Hl2 & Hv). injection HH as -> ->.
    assert (Hnot : ~ ((10 <= length lead)%nat /\ 1 < nth 9 data 0)) by (intro HH; apply Hp in HH; discriminate).
    cbn [bind]. unfold slice_from. replace (length lead <=? length data)%nat with true by lia. cbn [bind].
    fold body.
    destruct (list_eq_dec N.eq_dec body []) as [Hbn|Hbne].
    { rewrite Hbn. cbn [bind]. split; [discriminate|]. intros [H|[_ [H _]]]; [contradiction|congruence]. }
    assert (Hmatch2 : forall T (x y : T), match body with [] => x | _ :: _ => y end = y)
      by (intros; clear - Hbne; destruct body; [congruence|reflexivity]).
    rewrite Hmatch2.
    assert (Hbok : bytes_ok body) by (apply bytes_ok_skipn; assumption).
    assert (Hbsz : nlen body < 2 ^ 61).
    { unfold nlen in *. unfold body. rewrite skipn_length. lia. }
    clearbody body.
    assert (Hodd : N.land v 1 =? 1 = N.odd v).
    { change 1 with (N.ones 1) at 1. rewrite N.land_ones. change (2 ^ 1) with 2.
      rewrite <- N.bit0_mod, N.bit0_odd. destruct (N.odd v); reflexivity. }
    rewrite Hodd, N.shiftr_div_pow2. change (2 ^ 1) with 2.
    clearbody v. destruct (N.odd v).
    + unfold umul.
      assert (Hdec : forall bytes, exists packed rest dec,
        split_at (N.to_nat (N.min bytes (nlen body))) body = Ok (packed, rest) /\
        bp_try_new m 4 packed w (N.min (nlen packed * 8 / N.of_nat w) (N.of_nat n)) = Ok dec).
      { intro bytes. unfold split_at.
        replace (N.to_nat (N.min bytes (nlen body)) <=? length body)%nat with true by (unfold nlen; lia).
        set (packed := firstn (N.to_nat (N.min bytes (nlen body))) body).
        set (vs := map (fun i => bit_field w i packed) (seq 0 (8 * length packed / w))).
        assert (Hlv : length vs = (8 * length packed / w)%nat) by (unfold vs; rewrite map_length, seq_length; reflexivity).
        destruct (read_packed m packed w n vs Hw) as (dd & Edd & _).
        { apply bytes_ok_firstn; assumption. }
        { unfold nlen, packed in *. rewrite firstn_length. lia. }
        { lia. }
        { intros i Hi. rewrite Hlv in Hi. unfold vs. symmetry. apply nth_error_nth.
          apply (nth_error_map_seq (fun i => bit_field w i packed)); exact Hi. }
        { right; lia. }
        eexists _, _, dd. split; [reflexivity|exact Edd]. }
      destruct (v / 2 * N.of_nat w <? 2 ^ 64) eqn:E64.
      * cbn [bind]. destruct (Hdec (v / 2 * N.of_nat w)) as (p & r & d & E1 & E2).
        rewrite E1. cbn [bind rd_num_bits]. rewrite E2. cbn [bind]. split; [discriminate|].
        intros [H|[_ [_ [[H _]|[_ [_ H]]]]]]; [contradiction|discriminate|lia].
      * destruct m.
        -- cbn [bind]. split; [|reflexivity]. intros _. right. split; [assumption|]. split; [assumption|].
           right. repeat split. lia.
        -- cbn [bind]. destruct (Hdec ((v / 2 * N.of_nat w) mod 2 ^ 64)) as (p & r & d & E1 & E2).
           rewrite E1. cbn [bind rd_num_bits]. rewrite E2. cbn [bind]. split; [discriminate|].
           intros [H|[_ [_ [[H _]|[_ [H _]]]]]]; [contradiction|discriminate|discriminate].
    + unfold split_at. destruct (ceil8 w <=? length body)%nat eqn:Ec; cbn [bind].
      * match goal with |- context [if ?c then _ else _] => destruct c end; cbn [bind];
        (split; [discriminate|]; intros [H|[_ [_ [[_ H]|[H _]]]]]; [contradiction|lia|discriminate]).
      * split; [|reflexivity]. intros _. right. split; [assumption|]. split; [assumption|].
        left. split; [reflexivity|lia].
  - exfalso. eapply uleb_go_no_err; exact Eu.
  - cbn [bind]. split; [|reflexivity]. intros _. left. apply Hp. reflexivity.
Qed.
