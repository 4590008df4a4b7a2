(** Lemmas about hybrid streams of more than 32 bits. *)
From Verif Require Import Base.Prelude Base.LeFacts Base.Iter Spec.Bits Spec.UlebSpec Spec.RleSpec Spec.WideSpec
  Model.Uleb128 Model.Bitpacked Model.HybridRle Proofs.UlebProofs Proofs.BitsFacts Proofs.BitpackedProofs
  Proofs.HybridRleProofs Proofs.HybridAnyProofs Proofs.HybridBrokenProofs.
Open Scope N_scope.

Lemma wide_ok m w p vals rest : wide m w p vals rest -> bytes_ok rest.
Proof.
  assert (I : forall init, Forall (fun b => 128 <= b < 256) init -> bytes_ok init).
  { intros init H. eapply Forall_impl; [|exact H]. intros b Hb. unfold byte_ok; cbn beta in *; lia. }
  induction 1 as [|v h Hh|h Hne Hl Hf|init last rest Hl Hf Hb Hr|count h body Hh Hb Hne Hl|g h body Hh Hg H64 Hb Hne|p h rest vals Hh Hne Hc IH|p count h body rest vals Hh Hb Hl Hc IH].
  - constructor.
  - eapply varint_bytes; eassumption.
  - apply I; assumption.
  - apply bytes_ok_app; split; [apply I; assumption|]. constructor; [unfold byte_ok; lia|exact Hr].
  - apply bytes_ok_app; split; [eapply varint_bytes; eassumption|assumption].
  - apply bytes_ok_app; split; [eapply varint_bytes; eassumption|assumption].
  - apply bytes_ok_app; split; [eapply varint_bytes; eassumption|assumption].
  - apply bytes_ok_app; split; [eapply varint_bytes; eassumption|]. apply bytes_ok_app; split; assumption.
Qed.

Lemma decode_pack_wide packed w : (32 < w)%nat -> decode_pack 4 packed w = Panic.
Proof.
  intros H. unfold decode_pack, unpack. change (tbits 4) with 32%nat. replace (32 <? w)%nat with true by lia.
  destruct (_ <? _)%nat; [destruct (_ <? _)%nat|]; reflexivity.
Qed.
Lemma packed_run_panics m w body rem : (32 < w)%nat -> body <> [] -> nlen body < 2 ^ 61 ->
  bp_try_new m 4 body w (N.min (nlen body * 8 / N.of_nat w) (N.of_nat rem)) = Panic.
Proof.
  intros Hw Hne Hsz. unfold bp_try_new. replace (w =? 0)%nat with false by lia.
  pose proof (N.mul_div_le (nlen body * 8) (N.of_nat w) ltac:(lia)) as D.
  set (q := nlen body * 8 / N.of_nat w) in *. clearbody q. set (len := N.min q (N.of_nat rem)).
  assert (Hlen : len * N.of_nat w <= nlen body * 8).
  { assert (len <= q) by (unfold len; lia). clearbody len. nia. }
  change (2 ^ 61) with 2305843009213693952 in Hsz.
  unfold umul. change (2 ^ 64) with 18446744073709551616. set (k := len * N.of_nat w) in *. clearbody k.
  replace (k <? 18446744073709551616) with true by lia. cbn [bind]. replace (nlen body * 8 <? k) with false by lia.
  destruct body as [|b r] eqn:E; [congruence|]. rewrite <- E. rewrite decode_pack_wide by exact Hw. reflexivity.
Qed.


Definition wide_step (m : mode) (w : nat) (p : option nat) (vals rest : list N) (rem : nat) : Prop :=
  exists st l vals' rest', read_next m (mk_rle rest w) (N.of_nat rem) = Ok (st, mk_rle rest' w) /\
    st_vals st l /\ wide m w p vals' rest' /\ (length rest' < length rest)%nat /\ vals = l ++ vals'.

Lemma wide_step_no_groups m w p vals rest h rem : (0 < w)%nat -> varint 1 h -> rest <> [] -> wide m w p vals rest ->
  wide_step m w p vals (h ++ rest) rem.
Proof.
  intros Hw Hh Hne Hc. pose proof (wide_ok _ _ _ _ _ Hc) as Hr. pose proof (varint_pos _ _ Hh) as Hp.
  exists (SBitpacked (mk_bp [] w 0%N 0 (repeat 0%N (tbits 4)))), [], vals, rest. split; [|split; [|split; [exact Hc|split; [rewrite app_length; lia|reflexivity]]]].
  - unfold read_next. change (h ++ rest) with (h ++ [] ++ rest).
    rewrite (rle_next_packed m h [] rest w 0); try assumption; try reflexivity; try apply Forall_nil; [|rewrite N.mul_0_l, N.min_0_l; reflexivity].
    cbn [bind rd_num_bits]. replace (nlen [] * 8 / N.of_nat w) with 0 by (symmetry; apply N.div_0_l; lia).
    rewrite N.min_0_l. unfold bp_try_new. replace (w =? 0)%nat with false by lia. reflexivity.
  - constructor. eapply yields_nil; reflexivity.
Qed.
Lemma wide_step_rle m w p vals count h body rest rem : (0 < w)%nat -> varint (2 * N.of_nat count) h -> bytes_ok body -> length body = ceil8 w ->
  wide m w p vals rest -> wide_step m w p (repeat (le (firstn 4 body)) count ++ vals) (h ++ body ++ rest) rem.
Proof.
  intros Hw Hh Hb Hl Hc. pose proof (wide_ok _ _ _ _ _ Hc) as Hr. pose proof (varint_pos _ _ Hh) as Hp.
  unfold wide_step, read_next. rewrite (rle_next_rle m h body rest w (N.of_nat count)); try assumption. cbn [bind]. unfold rle_value.
  destruct (N.of_nat count =? 1) eqn:E1.
  - assert (count = 1%nat) by lia. subst count. eexists _, [le (firstn 4 body)], vals, rest. split; [reflexivity|]. split; [constructor|].
    split; [exact Hc|]. split; [rewrite !app_length; lia|reflexivity].
  - eexists _, (repeat (le (firstn 4 body)) (N.to_nat (N.of_nat count))), vals, rest. split; [reflexivity|].
    split; [constructor|]. split; [exact Hc|]. split; [rewrite !app_length; lia|]. rewrite Nnat.Nat2N.id. reflexivity.
Qed.

Lemma read_next_wide m w p vals rest rem : (32 < w)%nat -> nlen rest < 2 ^ 61 -> wide m w p vals rest ->
  match p with
  | None => (exists d, read_next m (mk_rle rest w) (N.of_nat rem) = Ok (SNone, d) /\ vals = []) \/ wide_step m w None vals rest rem
  | Some O => vals = [] /\ read_next m (mk_rle rest w) (N.of_nat rem) = Panic
  | Some (S r) => wide_step m w (Some r) vals rest rem
  end.
Proof.
  intros Hw Hsz Hc. pose proof (wide_ok _ _ _ _ _ Hc) as Hok.
  destruct Hc as [|v h Hh|h Hne Hl Hf|init last rest Hl Hf Hb Hr|count h body Hh Hb Hne Hl|g h body Hh Hg H64 Hb Hne|p h rest vals Hh Hne Hc|p count h body rest vals Hh Hb Hl Hc].
  - left. eexists. split; [|reflexivity]. unfold read_next, rle_next. cbn [rd_num_bits rd_values]. replace (w =? 0)%nat with false by lia. reflexivity.
  - left. eexists. split; [|reflexivity]. unfold read_next. rewrite (rle_next_header_only m h w _ Hh) by lia. reflexivity.
  - left. eexists. split; [|reflexivity]. unfold read_next. rewrite (rle_next_cut m h w) by (try assumption; lia). reflexivity.
  - split; [reflexivity|]. unfold read_next, rle_next. cbn [rd_num_bits rd_values]. replace (w =? 0)%nat with false by lia.
    destruct (init ++ last :: rest) as [|x y] eqn:E; [destruct init; discriminate E|]. rewrite <- E in *.
    destruct (uleb_decode_total (init ++ last :: rest) Hok) as [Hp _].
    assert (Eu : uleb_decode (init ++ last :: rest) = Panic); [|rewrite Eu; reflexivity]. apply Hp. split.
    + replace (uleb_lead (init ++ last :: rest)) with (init ++ uleb_lead (last :: rest)).
      * rewrite app_length, Hl. cbn [uleb_lead]. destruct (last <? 128); cbn [length]; lia.
      * clear - Hf. induction Hf as [|b init Hb Hf IH]; [reflexivity|]. cbn [app uleb_lead].
        replace (b <? 128) with false by lia. rewrite <- IH. reflexivity.
    + rewrite app_nth2 by lia. rewrite Hl. cbn. lia.
  - split; [reflexivity|]. unfold read_next. rewrite (rle_next_header m h body w (2 * count)); try assumption; [|lia].
    destruct (even_bits count) as [-> _]. change (0 =? 1) with false. cbv beta iota.
    unfold split_at. replace (ceil8 w <=? length body)%nat with false by lia. reflexivity.
  - split; [reflexivity|]. unfold read_next. rewrite (rle_next_header m h body w (2 * g + 1)); try assumption; [|lia].
    destruct (odd_bits g) as [-> ->]. change (1 =? 1) with true. cbv beta iota. unfold umul.
    destruct (g * N.of_nat w <? 2 ^ 64) eqn:E64.
    2:{ destruct H64 as [H64| ->]; [lia|reflexivity]. }
    cbn [bind]. assert (Hgw : 1 <= g * N.of_nat w) by nia. set (q := g * N.of_nat w) in *. clearbody q.
    assert (Hbl : (1 <= length body)%nat) by (destruct body; [congruence|cbn [length]; lia]).
    unfold split_at. replace (N.to_nat (N.min q (nlen body)) <=? length body)%nat with true by (unfold nlen; lia). cbn [bind rd_num_bits].
    rewrite packed_run_panics; [reflexivity|exact Hw| |].
    + intros E. apply (f_equal (@length N)) in E. rewrite firstn_length in E. unfold nlen in E. cbn [length] in E. lia.
    + unfold nlen in *. rewrite app_length in Hsz. rewrite firstn_length. lia.
  - pose proof (wide_step_no_groups m w p vals rest h rem ltac:(lia) Hh Hne Hc) as H. destruct p; [exact H|right; exact H].
  - pose proof (wide_step_rle m w p vals count h body rest rem ltac:(lia) Hh Hb Hl Hc) as H. destruct p; [exact H|right; exact H].
Qed.

(** [hr_winv m w s rem T]: iterating [s] gives [T], then panics if [T] is shorter than the [rem] values expected. *)
Definition hr_winv (m : mode) (w : nat) (s : hr_decoder) (rem : nat) (T : list N) : Prop :=
  hr_remaining s = N.of_nat rem /\
  ((hr_st s = SNone /\ T = repeat 0 rem) \/
   (exists l p vals rest, hr_decoder_ s = mk_rle rest w /\ st_vals (hr_st s) l /\
      wide m w p vals rest /\ nlen rest < 2 ^ 61 /\ T = wide_values p (l ++ vals) rem)).

Lemma wide_values_cons p v l n : wide_values p (v :: l) (S n) = v :: wide_values p l n.
Proof.
  destruct p; cbn [wide_values app firstn]; [reflexivity|]. f_equal.
  assert (E : repeat 0 (S n) = repeat 0 n ++ [0]) by (apply (repeat_cons n 0)). rewrite E, app_assoc. rewrite firstn_app.
  replace (n - length (l ++ repeat 0%N n))%nat with 0%nat by (rewrite app_length, repeat_length; lia). cbn [firstn]. apply app_nil_r.
Qed.

Lemma hr_next_go_wide m w : (32 < w)%nat -> forall fuel s T rem,
  hr_winv m w s (S rem) T ->
  (length (rd_values (hr_decoder_ s)) + 2 <= fuel \/ (hr_st s = SNone /\ 1 <= fuel))%nat ->
  match T with
  | [] => hr_next_go m fuel s = Panic
  | v :: T' => exists s', hr_next_go m fuel s = Ok (Some v, s') /\ hr_winv m w s' rem T'
  end.
Proof.
  intros Hw. induction fuel as [|fuel IH]; intros s T rem Hinv Hfuel; [lia|].
  destruct Hinv as (Hr & Hcase).
  cbn [hr_next_go]. rewrite Hr. change (N.of_nat (S rem) =? 0) with false. cbv beta iota.
  replace (N.of_nat (S rem) - 1) with (N.of_nat rem) by lia.
  destruct Hcase as [[Hn HT]|(l & p & vals & rest & Hd & Hst & Hc & Hsz & HT)].
  - rewrite Hn. cbn [state_next bind]. cbn [repeat] in HT. subst T. eexists. split; [reflexivity|]. split; [reflexivity|]. left. split; reflexivity.
  - destruct l as [|v l].
    + destruct (st_vals_nil _ Hst) as (s1 & E1). rewrite E1. cbn [bind].
      assert (Hnn : hr_st s <> SNone) by (intro E; rewrite E in Hst; inversion Hst).
      destruct Hfuel as [Hfuel|[Hbad _]]; [|congruence].
      rewrite Hd in *. cbn [rd_values] in Hfuel.
      pose proof (read_next_wide m w p vals rest (S rem) Hw Hsz Hc) as R.
      assert (Step : forall q, wide_step m w q vals rest (S rem) -> (p = None <-> q = None) ->
        match T with
        | [] => (let* (st', d) := read_next m (mk_rle rest w) (N.of_nat (S rem)) in hr_next_go m fuel (mk_hr d st' (N.of_nat (S rem)))) = Panic
        | v :: T' => exists s', (let* (st', d) := read_next m (mk_rle rest w) (N.of_nat (S rem)) in hr_next_go m fuel (mk_hr d st' (N.of_nat (S rem)))) = Ok (Some v, s') /\ hr_winv m w s' rem T'
        end).
      { intros q (st & l' & vals' & rest' & Ed & Hst' & Hc' & Hlt & ->) Hq. rewrite Ed. cbn [bind]. apply IH; [|left; cbn [hr_decoder_ rd_values]; lia].
        split; [reflexivity|]. right. exists l', q, vals', rest'. split; [reflexivity|]. split; [assumption|]. split; [assumption|].
        split; [unfold nlen in *; lia|]. rewrite HT. cbn [app]. destruct p as [p|], q as [q|]; try reflexivity; exfalso; destruct Hq as [Q1 Q2]; [discriminate Q2; reflexivity|discriminate Q1; reflexivity]. }
      destruct p as [[|r]|].
      * destruct R as [-> Ep]. cbn [app wide_values firstn] in HT. subst T. rewrite Ep. reflexivity.
      * apply (Step (Some r) R). split; discriminate.
      * destruct R as [(d & Ed & ->)|R]; [|apply (Step None R); split; reflexivity].
        rewrite Ed. cbn [bind]. apply IH.
        -- split; [reflexivity|]. left. split; [reflexivity|]. rewrite HT. cbn [app wide_values]. apply firstn_all2. rewrite repeat_length. lia.
        -- right. split; [reflexivity|lia].
    + destruct (st_vals_cons _ _ _ Hst) as (s1 & E1 & Hst1). rewrite E1. cbn [bind].
      cbn [app] in HT. rewrite wide_values_cons in HT. subst T. eexists. split; [reflexivity|]. split; [reflexivity|].
      right. exists l, p, vals, rest. repeat split; assumption.
Qed.

Lemma hr_drain_wide m w : (32 < w)%nat -> forall k s T rem, hr_winv m w s rem T -> (length T <= rem)%nat ->
  drain (hr_next m) k s = if (length T <? Nat.min rem k)%nat then Panic else Ok (firstn k T).
Proof.
  intros Hw. induction k as [|k IH]; intros s T rem Hinv Hlen; cbn [drain].
  - rewrite Nat.min_0_r. replace (length T <? 0)%nat with false by (symmetry; apply Nat.ltb_ge; lia). reflexivity.
  - destruct rem as [|rem].
    + destruct Hinv as (Hr & _). destruct T as [|x T]; [|cbn [length] in Hlen; lia]. unfold hr_next.
      destruct (length (rd_values (hr_decoder_ s)) + 2)%nat eqn:E; [lia|]. cbn [hr_next_go]. rewrite Hr. reflexivity.
    + pose proof (hr_next_go_wide m w Hw (length (rd_values (hr_decoder_ s)) + 2) s T rem Hinv ltac:(left; lia)) as H.
      fold (hr_next m s) in H. destruct T as [|v T].
      * rewrite H. reflexivity.
      * destruct H as (s' & E & Hinv'). cbn [length] in Hlen. rewrite E. cbn [bind]. rewrite (IH _ _ _ Hinv') by lia.
        cbn [length Nat.min firstn].
        change (S (length T) <? S (Nat.min rem k))%nat with (length T <? Nat.min rem k)%nat.
        destruct (length T <? Nat.min rem k)%nat; reflexivity.
Qed.

Lemma wide_values_len p vals n : (length (wide_values p vals n) <= n)%nat.
Proof. destruct p; cbn [wide_values]; rewrite firstn_length; lia. Qed.

Lemma hr_wide_exactly m w p vals data n k : (32 < w)%nat -> nlen data < 2 ^ 61 -> wide m w p vals data ->
  (let* s := hr_try_new m data w (N.of_nat n) in drain (hr_next m) k s)
  = match p with
    | Some O => Panic
    | _ => if (length (wide_values p vals n) <? Nat.min n k)%nat then Panic else Ok (firstn k (wide_values p vals n))
    end.
Proof.
  intros Hw Hsz Hc. unfold hr_try_new. pose proof (read_next_wide m w p vals data n Hw Hsz Hc) as R.
  assert (Step : forall q, wide_step m w q vals data n -> (p = None <-> q = None) ->
     (let* s := let* (state, d) := read_next m (mk_rle data w) (N.of_nat n) in Ok (mk_hr d state (N.of_nat n)) in drain (hr_next m) k s)
     = if (length (wide_values p vals n) <? Nat.min n k)%nat then Panic else Ok (firstn k (wide_values p vals n))).
  { intros q (st & l & vals' & rest' & Ed & Hst & Hc' & Hlt & E) Hq. rewrite Ed. cbn [bind].
    apply (hr_drain_wide m w Hw k); [|apply wide_values_len]. split; [reflexivity|]. right. exists l, q, vals', rest'.
    split; [reflexivity|]. split; [assumption|]. split; [assumption|]. split; [unfold nlen in *; lia|].
    rewrite E. destruct p as [p|], q as [q|]; try reflexivity; exfalso; destruct Hq as [Q1 Q2]; [discriminate Q2; reflexivity|discriminate Q1; reflexivity]. }
  destruct p as [[|r]|].
  - destruct R as [_ ->]. reflexivity.
  - apply (Step (Some r) R). split; discriminate.
  - destruct R as [(d & Ed & ->)|R]; [|apply (Step None R); split; reflexivity]. rewrite Ed. cbn [bind].
    apply (hr_drain_wide m w Hw k); [|apply wide_values_len]. split; [reflexivity|]. left. split; [reflexivity|].
    cbn [wide_values app]. apply firstn_all2. rewrite repeat_length. lia.
Qed.

Lemma wide_any w : (32 < w)%nat -> forall k data, (length data <= k)%nat -> bytes_ok data ->
  exists p vals, wide Checked w p vals data.
Proof.
  intros Hw. induction k as [|k IH]; intros data Hk Hok.
  { destruct data; [|cbn in Hk; lia]. exists None, []. constructor. }
  assert (Long : forall init last rest, data = init ++ last :: rest -> length init = 9%nat ->
     Forall (fun b => 128 <= b < 256) init -> 1 < last ->
     exists p vals, wide Checked w p vals data).
  { intros init last rest -> Hl Hf Hlast. apply Forall_app in Hok as [_ Hok]. inversion Hok as [|? ? Hb Hr]; subst.
    unfold byte_ok in Hb. exists (Some 0%nat), []. apply wd_long; [assumption|assumption|lia|assumption]. }
  destruct (lead_shape data Hok) as [[H1 H2]|(init & last & rest & H1 & H2 & H3 & H4 & H5)].
  - destruct (Nat.le_gt_cases (length data) 9) as [H9|H9].
    + destruct data as [|b data]; [exists None, []; constructor|]. exists None, []. apply wd_cut; [discriminate|assumption|assumption].
    + apply (Long (firstn 9 data) (nth 9 data 0) (skipn 10 data)).
      * rewrite <- (firstn_skipn 9 data) at 1. f_equal.
        clear - H9. do 10 (destruct data as [|? data]; [cbn in H9; lia|]). reflexivity.
      * rewrite firstn_length. lia.
      * rewrite <- (firstn_skipn 9 data) in H2. apply Forall_app in H2. apply H2.
      * assert (In (nth 9 data 0) data) by (apply nth_In; lia).
        rewrite Forall_forall in H2. specialize (H2 _ H). cbn beta in H2. lia.
  - destruct (Nat.le_gt_cases 10 (length init)) as [H9|H9].
    { apply (Long (firstn 9 init) (nth 9 init 0) (skipn 10 init ++ last :: rest)).
      * rewrite H1. rewrite <- (firstn_skipn 9 init) at 1. rewrite <- app_assoc. f_equal.
        clear - H9. do 10 (destruct init as [|? init]; [cbn in H9; lia|]). reflexivity.
      * rewrite firstn_length. lia.
      * rewrite <- (firstn_skipn 9 init) in H3. apply Forall_app in H3. apply H3.
      * assert (In (nth 9 init 0) init) by (apply nth_In; lia).
        rewrite Forall_forall in H3. specialize (H3 _ H). cbn beta in H3. lia. }
    assert (Hcase : (exists p vals, wide Checked w p vals data) \/ varint (base128 (init ++ [last])) (init ++ [last])).
    { destruct (Nat.eq_dec (length init) 9) as [E9|N9].
      - destruct (N.lt_ge_cases 1 last) as [Hlast|Hlast]; [left; eapply Long; eassumption|]. right.
        destruct (uleb_decode_total data Hok) as [Hp Hnp].
        assert (NP : uleb_decode data <> Panic).
        { intro H. apply Hp in H as [_ H]. rewrite H1, app_nth2 in H by lia. rewrite E9 in H. cbn in H. lia. }
        destruct (Hnp NP) as (_ & _ & _ & Hlt). rewrite H2 in Hlt. split; [exact Hlt|].
        split; [rewrite app_length; cbn; lia|]. split; [reflexivity|]. exists init, last. repeat split; assumption.
      - right. destruct (uleb_decode_total data Hok) as [Hp Hnp].
        assert (NP : uleb_decode data <> Panic).
        { intro H. apply Hp in H as [H _]. rewrite H2, app_length in H. cbn in H. lia. }
        destruct (Hnp NP) as (_ & _ & _ & Hlt). rewrite H2 in Hlt. split; [exact Hlt|].
        split; [rewrite app_length; cbn; lia|]. split; [reflexivity|]. exists init, last. repeat split; assumption. }
    destruct Hcase as [Hb|Hv]; [exact Hb|].
    assert (Hdata : data = (init ++ [last]) ++ rest) by (rewrite H1, <- app_assoc; reflexivity).
    revert Hv Hdata. generalize (base128 (init ++ [last])). generalize (init ++ [last]). clear - Hw IH Hk H5.
    intros h v Hv ->. pose proof (varint_pos _ _ Hv) as Hpos. rewrite app_length in Hk.
    destruct (list_eq_dec N.eq_dec rest []) as [->|Hne].
    { exists None, []. rewrite app_nil_r. eapply wd_header. exact Hv. }
    destruct (N.odd v) eqn:Ho.
    + apply N.odd_spec in Ho as [g Eg]. subst v. destruct (N.eq_dec g 0) as [->|Hg].
      * destruct (IH rest ltac:(lia) H5) as (p & vals & Hc). exists (option_map S p), vals. apply wd_no_groups; assumption.
      * exists (Some 0%nat), []. eapply wd_packed; try eassumption. right. reflexivity.
    + assert (He : N.even v = true) by (rewrite <- N.negb_odd, Ho; reflexivity).
      apply N.even_spec in He as [c Ec]. subst v.
      destruct (Nat.lt_ge_cases (length rest) (ceil8 w)) as [Hs|Hs].
      { exists (Some 0%nat), []. eapply wd_short; eassumption. }
      destruct (IH (skipn (ceil8 w) rest)) as (p & vals & Hc); [rewrite skipn_length; lia|apply bytes_ok_skipn; assumption|].
      rewrite <- (Nnat.N2Nat.id c) in Hv. eexists _, _. rewrite <- (firstn_skipn (ceil8 w) rest) at 1. eapply wd_rle; try eassumption.
      * apply bytes_ok_firstn; assumption.
      * rewrite firstn_length. lia.
Qed.
