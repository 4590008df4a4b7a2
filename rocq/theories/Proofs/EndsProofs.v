(** Bounds on the number of items an iterator gives. *)
From Verif Require Import Base.Prelude Base.Iter Model.Types Model.Native Model.Thrift Model.Intervals Model.Uleb128 Model.Bitpacked
  Model.HybridRle Model.DeltaBitpacked Model.DeltaByteArray Model.Plain Model.Page Model.Deserialize Model.PageRead Model.Io
  Spec.EndsSpec Proofs.SchemaProofs Proofs.HybridAnyProofs.
Open Scope N_scope.

(** The same bound, step by step. *)
Fixpoint bounded {S A} (next : S -> res (option A * S)) (n : nat) (s : S) : Prop :=
  forall a s', next s = Ok (Some a, s') -> match n with O => False | Datatypes.S k => bounded next k s' end.

Lemma bounded_ends {S A} (next : S -> res (option A * S)) n : forall s, bounded next n s -> ends_within next s n.
Proof.
  induction n as [|n IH]; intros s Hb k items s' Hd.
  - destruct k as [|k]; cbn [drain_st] in Hd; [injection Hd as <- <-; cbn; lia|].
    apply bind_ok in Hd as ([o t] & Hn & Hd). destruct o as [a|]; [|injection Hd as <- <-; cbn; lia].
    cbn [bounded] in Hb. destruct (Hb _ _ Hn).
  - destruct k as [|k]; cbn [drain_st] in Hd; [injection Hd as <- <-; cbn; lia|].
    apply bind_ok in Hd as ([o t] & Hn & Hd). destruct o as [a|]; [|injection Hd as <- <-; cbn; lia].
    apply bind_ok in Hd as ([l t'] & Hn' & Hd). injection Hd as <- <-.
    cbn [bounded] in Hb. specialize (IH _ (Hb _ _ Hn) _ _ _ Hn'). cbn [length]. lia.
Qed.

Lemma ends_bounded {S A} (next : S -> res (option A * S)) n : forall s, ends_within next s n -> bounded next n s.
Proof.
  induction n as [|n IH]; intros s He; cbn [bounded]; intros a s' Hn.
  - specialize (He 1%nat [a] s'). cbn [drain_st] in He. rewrite Hn in He. cbn [bind length] in He.
    specialize (He eq_refl). lia.
  - apply IH. intros k items s'' Hd. specialize (He (Datatypes.S k) (a :: items) s'').
    cbn [drain_st] in He. rewrite Hn in He. cbn [bind] in He. rewrite Hd in He. cbn [bind length] in He.
    specialize (He eq_refl). lia.
Qed.

Lemma bounded_le {S A} (next : S -> res (option A * S)) n : forall k s, (n <= k)%nat -> bounded next n s -> bounded next k s.
Proof.
  intros k s Hle Hb. apply ends_bounded. intros j items s' Hd. apply (bounded_ends _ _ _ Hb) in Hd. lia.
Qed.

(** A measure that every item decreases. *)
Lemma measure_bounded {S A} (next : S -> res (option A * S)) (f : S -> nat) :
  (forall s a s', next s = Ok (Some a, s') -> (f s' < f s)%nat) -> forall s, bounded next (f s) s.
Proof.
  intros H s. remember (f s) as n eqn:E. revert s E.
  induction n as [n IH] using lt_wf_ind; intros s E.
  destruct n as [|n]; cbn [bounded]; intros a s' Hn; specialize (H _ _ _ Hn); [lia|].
  apply (bounded_le next (f s')); [lia|]. apply (IH (f s')); [lia | reflexivity].
Qed.

Lemma measure_ends {S A} (next : S -> res (option A * S)) (f : S -> nat) :
  (forall s a s', next s = Ok (Some a, s') -> (f s' < f s)%nat) -> forall s, ends_within next s (f s).
Proof. intros H s. apply bounded_ends, measure_bounded, H. Qed.

(** The delta decoders. *)
Lemma load_delta_remaining m d x d' : load_delta m d = Ok (x, d') -> dd_remaining d' = dd_remaining d.
Proof.
  unfold load_delta. destruct (dd_block d) as [b|]; [|discriminate]. intros H.
  apply bind_ok in H as ([o b'] & _ & H). destruct o as [y|].
  - injection H as <- <-. reflexivity.
  - apply bind_ok in H as (vs & _ & H).
    destruct (block_try_new m vs (dd_nmb d) (dd_vpmb d) (dd_remaining d)) as [nb|e|]; [| |discriminate].
    + apply bind_ok in H as ([o nb'] & _ & H). destruct o; injection H as <- <-; reflexivity.
    + injection H as <- <-; reflexivity.
Qed.

Lemma delta_next_remaining m d o d' : delta_next m d = Ok (Some o, d') -> dd_remaining d' < dd_remaining d.
Proof.
  unfold delta_next. destruct (dd_remaining d =? 0) eqn:E; [discriminate|]. apply N.eqb_neq in E.
  cbv zeta. destruct (dd_remaining d - 1 =? 0).
  - intros [= <- <-]. cbn [dd_remaining]. lia.
  - intros H. apply bind_ok in H as ([x d1] & Hl & H). apply load_delta_remaining in Hl. cbn [dd_remaining] in Hl.
    destruct x as [v|e].
    + apply bind_ok in H as (n & _ & H). injection H as <- <-. cbn [dd_remaining]. lia.
    + injection H as <- <-. lia.
Qed.

Lemma delta_ends m d : ends_within (delta_next m) d (N.to_nat (dd_remaining d)).
Proof.
  apply (measure_ends (delta_next m) (fun d => N.to_nat (dd_remaining d))).
  intros s a s' H. apply delta_next_remaining in H. lia.
Qed.

Lemma dl_ends m d : ends_within (DeltaByteArray.dl_next m) d (N.to_nat (dd_remaining (dl_lengths d))).
Proof.
  apply (measure_ends (DeltaByteArray.dl_next m) (fun d => N.to_nat (dd_remaining (dl_lengths d)))).
  intros s a s' H. unfold DeltaByteArray.dl_next in H. apply bind_ok in H as ([o l] & Hn & H).
  destruct o as [[v|e]|]; [apply bind_ok in H as (t & _ & H)| |discriminate]; injection H as <- <-;
    cbn [dl_lengths]; apply delta_next_remaining in Hn; lia.
Qed.

Lemma db_ends m d : ends_within (db_next m) d (N.to_nat (dd_remaining (db_lengths d))).
Proof.
  apply (measure_ends (db_next m) (fun d => N.to_nat (dd_remaining (db_lengths d)))).
  intros s a s' H. unfold db_next in H. apply bind_ok in H as ([o l] & Hn & H).
  destruct o as [[v|e]|]; [| |discriminate]; injection H as <- <-;
    cbn [db_lengths]; apply delta_next_remaining in Hn; lia.
Qed.

(** Plain strings, chunks and numbers. *)
Lemma bi_ends s : ends_within bi_next s (length (bi_values s) / 4).
Proof.
  apply (measure_ends bi_next (fun s => (length (bi_values s) / 4)%nat)). clear s.
  intros s a s' H. unfold bi_next in H. destruct (length (bi_values s) <? 4)%nat eqn:E; [discriminate|].
  apply Nat.ltb_ge in E. apply bind_ok in H as (h & _ & H). apply bind_ok in H as (v & Hv & H).
  assert (Hl : (length v + 4 <= length (bi_values s))%nat).
  { unfold slice_from in Hv. destruct (4 <=? length (bi_values s))%nat; [|discriminate]. apply Ok_inj in Hv. subst v.
    rewrite skipn_length. lia. }
  assert (Hs : (length (bi_values s') <= length v)%nat).
  { destruct (nlen v <? le h); [injection H as <- <-; cbn; lia|].
    apply bind_ok in H as ([r r'] & Hr & H). injection H as <- <-. cbn [bi_values].
    unfold split_at in Hr. destruct (N.to_nat (le h) <=? length v)%nat; [|discriminate]. injection Hr as <- <-.
    rewrite skipn_length. lia. }
  pose proof (Nat.div_le_mono (length (bi_values s') + 1 * 4) (length (bi_values s)) 4 ltac:(lia) ltac:(lia)) as Hd.
  rewrite Nat.div_add in Hd by lia. lia.
Qed.

Lemma ce_ends s : (0 < snd s)%nat -> ends_within ce_next s (length (fst s) / snd s).
Proof.
  intros Hp. apply bounded_ends. destruct s as [l w]. cbn [fst snd] in *.
  remember (length l / w)%nat as n eqn:E. revert l E. induction n as [|n IH]; intros l E; cbn [bounded]; intros a s' H.
  - unfold ce_next in H. destruct (length l <? w)%nat eqn:El; [discriminate|]. apply Nat.ltb_ge in El.
    pose proof (Nat.div_le_mono w (length l) w ltac:(lia) El) as Hd. rewrite Nat.div_same in Hd by lia. lia.
  - unfold ce_next in H. destruct (length l <? w)%nat eqn:El; [discriminate|]. apply Nat.ltb_ge in El.
    apply Ok_inj in H. apply pair_equal_spec in H as [_ <-]. apply IH. rewrite skipn_length.
    replace (length l) with ((length l - w) + 1 * w)%nat in E by lia. rewrite Nat.div_add in E by lia. lia.
Qed.

Lemma cast_bounded t n : forall s, bounded ce_next n s -> bounded (cast_next t) n s.
Proof.
  induction n as [|n IH]; intros s Hb; cbn [bounded] in *; intros a s' H; unfold cast_next in H;
    apply bind_ok in H as ([o s1] & Hn & H); destruct o as [c|]; try discriminate;
    apply bind_ok in H as (v & _ & H); injection H as _ <-.
  - exact (Hb _ _ Hn).
  - apply IH, (Hb _ _ Hn).
Qed.

(** Bit-packed values, bitmaps and run-length encoded values. *)
Lemma bp_ends B s : ends_within (bp_next B) s (N.to_nat (bp_remaining s)).
Proof.
  apply (measure_ends (bp_next B) (fun s => N.to_nat (bp_remaining s))). clear s.
  intros s a s' H. unfold bp_next in H. destruct (bp_remaining s =? 0) eqn:E; [discriminate|]. apply N.eqb_neq in E.
  destruct (nth_error (bp_unpacked s) (bp_index s)); [|discriminate]. cbv zeta in H.
  destruct (S (bp_index s) =? tbits B)%nat; [|apply Ok_inj in H; apply pair_equal_spec in H as [_ <-]; cbn [bp_remaining]; lia].
  destruct (bp_packed s); [apply Ok_inj in H; apply pair_equal_spec in H as [_ <-]; cbn [bp_remaining]; lia|].
  apply bind_ok in H as (u & _ & H). apply Ok_inj in H; apply pair_equal_spec in H as [_ <-]; cbn [bp_remaining]; lia.
Qed.

Lemma bm_next_remaining s a s' : bm_next s = Ok (Some a, s') -> bm_remaining s = bm_remaining s' + 1.
Proof.
  unfold bm_next. destruct (bm_remaining s =? 0) eqn:E; [discriminate|]. apply N.eqb_neq in E. cbv zeta. intros H.
  destruct (rotl8 (bm_mask s) 1 =? 1); [destruct (bm_iter s)|];
    apply Ok_inj in H; apply pair_equal_spec in H as [_ <-]; cbn [bm_remaining]; lia.
Qed.
Lemma bm_ends s : ends_within bm_next s (N.to_nat (bm_remaining s)).
Proof.
  apply (measure_ends bm_next (fun s => N.to_nat (bm_remaining s))). clear s.
  intros s a s' H. apply bm_next_remaining in H. lia.
Qed.

Lemma hr_ends m s : ends_within (hr_next m) s (N.to_nat (hr_remaining s)).
Proof.
  intros k l s' H. apply (proj2 (hr_drain_any m k s)) in H as [H _]. unfold nlen in H. lia.
Qed.

Lemma uleb_go_consumed values : forall r s c x k, uleb_decode_go values r s c = Ok (x, k) -> values <> [] -> (c < k)%nat.
Proof.
  assert (Hm : forall values r s c x k, uleb_decode_go values r s c = Ok (x, k) -> (c <= k)%nat).
  { clear. induction values as [|b values IH]; intros r s c x k; cbn [uleb_decode_go]; cbv zeta; [intros [= _ <-]; lia|].
    destruct ((s =? 63) && (1 <? b))%bool; [discriminate|]. destruct (N.land b 128 =? 0); [intros [= _ <-]; lia|].
    intros H. apply IH in H. lia. }
  intros r s c x k H Hne. destruct values as [|b values]; [congruence|]. cbn [uleb_decode_go] in H. cbv zeta in H.
  destruct ((s =? 63) && (1 <? b))%bool; [discriminate|]. destruct (N.land b 128 =? 0); [injection H as _ <-; lia|].
  apply Hm in H. lia.
Qed.

Lemma rle_next_shorter m d x d' : rle_next m d = Ok (Some x, d') -> (length (rd_values d') < length (rd_values d))%nat.
Proof.
  unfold rle_next. destruct (rd_num_bits d =? 0)%nat; [discriminate|].
  destruct (rd_values d) as [|a b] eqn:E; [discriminate|]. rewrite <- E. intros H.
  apply bind_ok in H as ([ind c] & Hu & H). apply uleb_go_consumed in Hu; [|rewrite E; discriminate].
  apply bind_ok in H as (vs & Hv & H). unfold slice_from in Hv.
  destruct (c <=? length (rd_values d))%nat eqn:El; [|discriminate]. apply Nat.leb_le in El.
  apply Ok_inj in Hv. assert (Hl : (length vs < length (rd_values d))%nat) by (subst vs; rewrite skipn_length; lia).
  clear Hv. destruct vs as [|v0 vs0] eqn:Ev; [discriminate|]. rewrite <- Ev in *. clear Ev.
  destruct (N.land ind 1 =? 1).
  - apply bind_ok in H as (bytes & _ & H). apply bind_ok in H as ([r rest] & Hs & H).
    apply Ok_inj in H. apply pair_equal_spec in H as [_ <-]. cbn [rd_values].
    unfold split_at in Hs. destruct (_ <=? length vs)%nat; [|discriminate]. apply Ok_inj in Hs.
    apply pair_equal_spec in Hs as [_ <-]. rewrite skipn_length. lia.
  - apply bind_ok in H as ([r rest] & Hs & H).
    apply Ok_inj in H. apply pair_equal_spec in H as [_ <-]. cbn [rd_values].
    unfold split_at in Hs. destruct (_ <=? length vs)%nat; [|discriminate]. apply Ok_inj in Hs.
    apply pair_equal_spec in Hs as [_ <-]. rewrite skipn_length. lia.
Qed.

Lemma rle_ends m d : ends_within (rle_next m) d (length (rd_values d)).
Proof. apply (measure_ends (rle_next m) (fun d => length (rd_values d))). intros s a s'. apply rle_next_shorter. Qed.

Lemma ri_ends m s : ends_within (ri_next m) s (length (rd_values (ri_iter s))).
Proof.
  apply (measure_ends (ri_next m) (fun s => length (rd_values (ri_iter s)))). clear s.
  intros s a s' H. unfold ri_next in H. destruct (ri_consumed s =? ri_length s); [discriminate|].
  apply bind_ok in H as ([o d] & Hn & H). destruct o as [[pack|v n]|]; [| |discriminate].
  - apply bind_ok in H as (z & _ & H). apply Ok_inj in H. apply pair_equal_spec in H as [_ <-]. cbn [ri_iter].
    eapply rle_next_shorter; eassumption.
  - destruct v; [discriminate|]. apply Ok_inj in H. apply pair_equal_spec in H as [_ <-]. cbn [ri_iter].
    eapply rle_next_shorter; eassumption.
Qed.

(** The adapters: what they wrap bounds them. *)
Definition bool_run_left (r : bool_run) : nat :=
  match r with BBitmap b => N.to_nat (bm_remaining b) | BRepeated _ n => N.to_nat n end.
Lemma bool_run_next_left r b r' : bool_run_next r = Ok (Some b, r') -> bool_run_left r = S (bool_run_left r').
Proof.
  destruct r as [bm|v n]; cbn [bool_run_next]; intros H.
  - apply bind_ok in H as ([o bm'] & Hn & H). apply Ok_inj in H. apply pair_equal_spec in H as [-> <-].
    apply bm_next_remaining in Hn. cbn [bool_run_left]. lia.
  - destruct (n =? 0) eqn:E; [discriminate|]. apply N.eqb_neq in E. apply Ok_inj in H.
    apply pair_equal_spec in H as [_ <-]. cbn [bool_run_left]. lia.
Qed.
Lemma bl_current_bounded {S} (next : S -> res (option (level_run + error) * S)) : forall n i r,
  (bool_run_left r <= n)%nat -> bounded (bl_next next) n (mk_bli i (Some r)).
Proof.
  induction n as [|n IH]; intros i r Hr; cbn [bounded]; intros a s' H; unfold bl_next in H; cbn [bl_current bl_iter] in H;
    apply bind_ok in H as ([o r'] & Hn & H); apply Ok_inj in H; apply pair_equal_spec in H as [Ho <-];
    destruct o as [b|]; try discriminate; apply bool_run_next_left in Hn; [lia|]. apply IH. lia.
Qed.

Lemma ov_bounded {S T A} (vnext : S -> res (option (bool + error) * S)) (next : T -> res (option A * T)) n :
  forall s, bounded vnext n (fst s) -> bounded (ov_next vnext next) n s.
Proof.
  induction n as [|n IH]; intros s Hb; cbn [bounded] in *; intros a s' H; unfold ov_next in H;
    apply bind_ok in H as ([o v] & Hn & H); destruct o as [x|]; try discriminate; specialize (Hb _ _ Hn); [destruct Hb|].
  apply IH. destruct x as [[|]|e].
  - apply bind_ok in H as ([x t] & _ & H). apply Ok_inj in H. apply pair_equal_spec in H as [_ <-]. exact Hb.
  - apply Ok_inj in H. apply pair_equal_spec in H as [_ <-]. exact Hb.
  - apply Ok_inj in H. apply pair_equal_spec in H as [_ <-]. exact Hb.
Qed.

Lemma nth_bounded {S A} (next : S -> res (option A * S)) k : forall n s a s', bounded next n s ->
  iter_nth next k s = Ok (Some a, s') -> exists n', n = Datatypes.S n' /\ bounded next n' s'.
Proof.
  induction k as [|k IH]; intros n s a s' Hb H; cbn [iter_nth] in H.
  - destruct n as [|n]; cbn [bounded] in Hb; specialize (Hb _ _ H); [destruct Hb|]. eauto.
  - apply bind_ok in H as ([o s1] & Hn & H). destruct o as [x|]; [|discriminate].
    destruct n as [|n]; cbn [bounded] in Hb; specialize (Hb _ _ Hn); [destruct Hb|].
    destruct (IH _ _ _ _ Hb H) as (n' & -> & Hb'). exists (Datatypes.S n'). split; [reflexivity|].
    apply (bounded_le next n'); [lia | exact Hb'].
Qed.
Lemma sl_bounded {S A} m (next : S -> res (option A * S)) n :
  forall s, bounded next n (sl_iter s) -> bounded (sl_next m next) n s.
Proof.
  assert (Hstep : forall s a s' n, bounded next n (sl_iter s) -> sl_next m next s = Ok (Some a, s') ->
    exists n', n = Datatypes.S n' /\ bounded next n' (sl_iter s')).
  { clear n. intros s a s' n Hb H. unfold sl_next in H. destruct (sl_current_remaining s =? 0).
    - destruct (sl_rows s) as [|i rows]; [discriminate|].
      apply bind_ok in H as (skip & _ & H). apply bind_ok in H as ([o it] & Hn & H).
      apply bind_ok in H as (x1 & _ & H). apply bind_ok in H as (x2 & _ & H). apply bind_ok in H as (x3 & _ & H).
      apply Ok_inj in H. apply pair_equal_spec in H as [-> <-]. cbn [sl_iter].
      eapply nth_bounded; eassumption.
    - apply bind_ok in H as (x1 & _ & H). apply bind_ok in H as ([o it] & Hn & H).
      apply Ok_inj in H. apply pair_equal_spec in H as [-> <-]. cbn [sl_iter].
      apply (nth_bounded next 0 n _ _ _ Hb Hn). }
  induction n as [|n IH]; intros s Hb; cbn [bounded]; intros a s' H; destruct (Hstep _ _ _ _ Hb H) as (n' & En & Hb');
    [discriminate|]. injection En as <-. apply IH, Hb'.
Qed.

Lemma bl_ends m s : ends_within (bl_next (ri_next m)) (bl_new s) (N.to_nat (ri_len s)).
Proof.
  apply bounded_ends. unfold bl_new.
  assert (Hone : forall n, (N.to_nat (ri_len s) <= S n)%nat -> forall a s',
    bl_next (ri_next m) (mk_bli s None) = Ok (Some a, s') ->
    (0 < ri_len s) /\ exists i r, s' = mk_bli i (Some r) /\ (bool_run_left r <= n)%nat).
  { intros n Hn a s' H. unfold bl_next in H. cbn [bl_current bl_iter] in H.
    apply bind_ok in H as ([o i] & Hi & H). destruct o as [[run|e]|]; [| |discriminate].
    2:{ exfalso. unfold ri_next in Hi. destruct (ri_consumed s =? ri_length s); [discriminate|].
        apply bind_ok in Hi as ([o d] & _ & Hi). destruct o as [[pack|v n']|]; [| |discriminate].
        - apply bind_ok in Hi as (z & _ & Hi). discriminate.
        - destruct v; discriminate. }
    assert (Hl : run_len run <= ri_len s).
    { unfold ri_next in Hi. destruct (ri_consumed s =? ri_length s); [discriminate|].
      apply bind_ok in Hi as ([o d] & _ & Hi). destruct o as [[pack|v n']|]; [| |discriminate].
      - apply bind_ok in Hi as (z & _ & Hi). apply Ok_inj in Hi. apply pair_equal_spec in Hi as [Hi _].
        injection Hi as <-. cbn [run_len]. lia.
      - destruct v; [discriminate|]. apply Ok_inj in Hi. apply pair_equal_spec in Hi as [Hi _].
        injection Hi as <-. cbn [run_len]. lia. }
    apply bind_ok in H as (r & Hr & H). apply bind_ok in H as ([o r'] & Hn' & H).
    apply Ok_inj in H. apply pair_equal_spec in H as [Ho <-]. destruct o as [b|]; [|discriminate].
    apply bool_run_next_left in Hn'.
    assert (Hb : bool_run_left r = N.to_nat (run_len run)).
    { destruct run as [bs k|v k]; cbn [bool_run_of] in Hr.
      - apply bind_ok in Hr as (bm & Hm & Hr). apply Ok_inj in Hr. subst r. unfold bm_new in Hm.
        apply bind_ok in Hm as (bs' & _ & Hm). apply Ok_inj in Hm. subst bm. reflexivity.
      - apply Ok_inj in Hr. subst r. reflexivity. }
    split; [lia|]. exists i, r'. split; [reflexivity|]. lia. }
  destruct (N.to_nat (ri_len s)) as [|n] eqn:E; cbn [bounded]; intros a s' H.
  - destruct (Hone 0%nat ltac:(lia) a s' H) as [H0 _]. lia.
  - destruct (Hone n ltac:(lia) a s' H) as [_ (i & r & -> & Hr)]. apply bl_current_bounded, Hr.
Qed.

(** The filter on runs, for any intervals. *)
Definition fh_inv {S} (s : filtered_iter S) : Prop :=
  fh_items s < 2 ^ 64 /\ words_ok (fh_rows s) /\ match fh_interval s with Some i => iv_start i < 2 ^ 64 | None => True end.
Definition behind (i : option interval) (items : N) : nat :=
  match i with Some i => if iv_start i =? items then 0%nat else 1%nat | None => 0%nat end.
Definition next_interval {S} (s : filtered_iter S) : option interval :=
  match fh_interval s with Some i => Some i | None => hd_error (fh_rows s) end.
Definition fh_pot {S} (n : nat) (s : filtered_iter S) : nat :=
  (3 * n + 2 * (length (fh_rows s) + match fh_interval s with Some _ => 1 | None => 0 end)
   + match fh_current s with Some _ => 2 | None => 0 end + behind (next_interval s) (fh_items s))%nat.

Lemma uadd_lt m a b c : uadd m 64 a b = Ok c -> c < 2 ^ 64.
Proof.
  unfold uadd. destruct (a + b <? 2 ^ 64) eqn:E; [apply N.ltb_lt in E; intros H; apply Ok_inj in H; subst c; exact E|].
  destruct m; [discriminate|]. intros H; apply Ok_inj in H; subst c. apply N.mod_lt. discriminate.
Qed.
Lemma behind_le i items : (behind i items <= 1)%nat.
Proof. unfold behind. destruct i as [i|]; [|lia]. destruct (iv_start i =? items); lia. Qed.

Ltac nb H v := apply bind_ok in H as (v & ? & H).

Lemma fh_step_pot {S} m (s : filtered_iter S) iv run offset full count skip_all emit a s' :
  fh_inv s -> fh_interval s = Some iv -> fh_current s = Some (run, offset) ->
  fh_step m s iv run offset full count skip_all emit = Ok (Some a, s') ->
  fh_inv s' /\ fh_iter s' = fh_iter s /\ forall n, (fh_pot n s' < fh_pot n s)%nat.
Proof.
  intros (Hi1 & Hi2 & Hi3) Hiv Hcur H. rewrite Hiv in Hi3. unfold fh_step in H.
  apply bind_ok in H as (rl & Hrl & H). apply bind_ok in H as (st & Hst & H).
  assert (Hp : forall n, fh_pot n s = (3 * n + 2 * (length (fh_rows s) + 1) + 2 + behind (Some iv) (fh_items s))%nat).
  { intros n. unfold fh_pot, next_interval. rewrite Hiv, Hcur. reflexivity. }
  destruct (0 <? st) eqn:E0.
  - apply N.ltb_lt in E0. cbv zeta in H.
    apply bind_ok in H as (mx & Hmx & H). apply bind_ok in H as (set & _ & H).
    apply bind_ok in H as (items & Hit & H). apply bind_ok in H as (off' & _ & H).
    apply Ok_inj in H. apply pair_equal_spec in H as [_ <-].
    split; [split; [exact (uadd_lt _ _ _ _ Hit) | split; [exact Hi2 | exact Hi3]] | split; [reflexivity|]].
    intros n. rewrite Hp. unfold fh_pot, next_interval. cbn [fh_rows fh_interval fh_current fh_items].
    pose proof (behind_le (Some iv) items) as Hb.
    destruct (N.min st mx =? mx) eqn:Em; [lia|]. apply N.eqb_neq in Em.
    assert (Hs : N.min st mx = st) by lia. rewrite Hs in Hit.
    assert (Hitems : items = iv_start iv).
    { clear - Hit Hst Hi1 Hi3. unfold usub in Hst. destruct (fh_items s <=? iv_start iv) eqn:El.
      - apply N.leb_le in El. apply Ok_inj in Hst. subst st. unfold uadd in Hit.
        replace (fh_items s + (iv_start iv - fh_items s)) with (iv_start iv) in Hit by lia.
        apply N.ltb_lt in Hi3. rewrite Hi3 in Hit. apply Ok_inj in Hit. congruence.
      - apply N.leb_gt in El. destruct m; [discriminate|]. apply Ok_inj in Hst. subst st. unfold uadd in Hit.
        replace (fh_items s + (2 ^ 64 + iv_start iv - fh_items s)) with (iv_start iv + 1 * 2 ^ 64) in Hit by lia.
        destruct (iv_start iv + 1 * 2 ^ 64 <? 2 ^ 64) eqn:E2; [apply N.ltb_lt in E2; lia|].
        apply Ok_inj in Hit. rewrite N.mod_add in Hit by discriminate. rewrite N.mod_small in Hit by exact Hi3. congruence. }
    assert (Hne : iv_start iv <> fh_items s).
    { intros Heq. unfold usub in Hst. rewrite Heq, N.leb_refl in Hst. apply Ok_inj in Hst. lia. }
    subst items. unfold behind. rewrite N.eqb_refl. apply N.eqb_neq in Hne. rewrite Hne. lia.
  - apply bind_ok in H as (no & _ & H).
    destruct (rl <? st).
    { apply bind_ok in H as (set & _ & H). apply bind_ok in H as ([iv' total] & Ha & H). apply bind_ok in H as (items & Hit & H).
      apply Ok_inj in H. apply pair_equal_spec in H as [_ <-].
      unfold advance_interval in Ha. apply bind_ok in Ha as (x1 & Hx1 & Ha). apply bind_ok in Ha as (x2 & _ & Ha).
      apply bind_ok in Ha as (x3 & _ & Ha). apply Ok_inj in Ha. apply pair_equal_spec in Ha as [<- _].
      split; [split; [exact (uadd_lt _ _ _ _ Hit) | split; [exact Hi2 | exact (uadd_lt _ _ _ _ Hx1)]] | split; [reflexivity|]].
      intros n. rewrite Hp. unfold fh_pot, next_interval. cbn [fh_rows fh_interval fh_current fh_items].
      pose proof (behind_le (Some (mk_iv x1 x2)) items). lia. }
    destruct (iv_length iv <? rl).
    { apply bind_ok in H as (items & Hit & H). apply bind_ok in H as (total & _ & H). apply bind_ok in H as (off' & _ & H).
      destruct (pop (fh_rows s)) as [next_iv rows] eqn:Epop.
      apply Ok_inj in H. apply pair_equal_spec in H as [_ <-].
      assert (Hrows : words_ok rows /\ match next_iv with Some i => iv_start i < 2 ^ 64 | None => True end /\
        (length rows + match next_iv with Some _ => 1 | None => 0 end = length (fh_rows s))%nat).
      { unfold pop in Epop. destruct (fh_rows s) as [|i r]; injection Epop as <- <-; [repeat split; constructor|].
        apply Forall_cons_iff in Hi2 as [H1 H2]. repeat split; [exact H2 | exact H1 | cbn [length]; lia]. }
      destruct Hrows as (R1 & R2 & R3).
      split; [split; [exact (uadd_lt _ _ _ _ Hit) | split; [exact R1 | exact R2]] | split; [reflexivity|]].
      intros n. rewrite Hp. unfold fh_pot. cbn [fh_rows fh_interval fh_current fh_items].
      match goal with |- context [behind (next_interval ?x) items] => pose proof (behind_le (next_interval x) items) end. lia. }
    apply bind_ok in H as (items & Hit & H). apply bind_ok in H as (rest & _ & H). cbv zeta in H.
    apply bind_ok in H as ([iv' total] & Ha & H).
    apply Ok_inj in H. apply pair_equal_spec in H as [_ <-].
    unfold advance_interval in Ha. apply bind_ok in Ha as (x1 & Hx1 & Ha). apply bind_ok in Ha as (x2 & _ & Ha).
    apply bind_ok in Ha as (x3 & _ & Ha). apply Ok_inj in Ha. apply pair_equal_spec in Ha as [<- _].
    split; [split; [exact (uadd_lt _ _ _ _ Hit) | split; [exact Hi2 | exact (uadd_lt _ _ _ _ Hx1)]] | split; [reflexivity|]].
    intros n. rewrite Hp. unfold fh_pot, next_interval. cbn [fh_rows fh_interval fh_current fh_items].
    pose proof (behind_le (Some (mk_iv x1 x2)) items). lia.
Qed.

Lemma fh_bounded {S} m (next : S -> res (option (level_run + error) * S)) : forall k n (s : filtered_iter S),
  fh_inv s -> bounded next n (fh_iter s) -> (fh_pot n s <= k)%nat -> bounded (fh_next m next) k s.
Proof.
  assert (Hbody : forall (s : filtered_iter S) iv run off a s', fh_inv s -> fh_interval s = Some iv -> fh_current s = Some (run, off) ->
    fh_body m s iv run off = Ok (Some a, s') -> fh_inv s' /\ fh_iter s' = fh_iter s /\ forall n, (fh_pot n s' < fh_pot n s)%nat).
  { intros s iv run off a s' Hinv Hiv Hc H. destruct run; cbn [fh_body] in H; eapply fh_step_pot; eassumption. }
  assert (Hstep : forall n (s : filtered_iter S) a s', fh_inv s -> bounded next n (fh_iter s) -> fh_next m next s = Ok (Some a, s') ->
    exists n', fh_inv s' /\ bounded next n' (fh_iter s') /\ (fh_pot n' s' < fh_pot n s)%nat).
  { intros n s a s' Hinv Hb H. unfold fh_next in H.
    destruct (match fh_interval s with Some i => (Some i, fh_rows s) | None => pop (fh_rows s) end) as [oiv rows] eqn:Ei.
    destruct oiv as [iv|]; [|discriminate].
    destruct Hinv as (Hi1 & Hi2 & Hi3).
    assert (Hr : words_ok rows /\ iv_start iv < 2 ^ 64 /\ next_interval s = Some iv /\
      (length rows + 1 = length (fh_rows s) + match fh_interval s with Some _ => 1 | None => 0 end)%nat).
    { unfold next_interval. destruct (fh_interval s) as [i|]; [injection Ei as <- <-; repeat split; assumption|].
      unfold pop in Ei. destruct (fh_rows s) as [|i r]; [discriminate|]. injection Ei as -> ->.
      apply Forall_cons_iff in Hi2 as [H1 H2]. cbn [hd_error length]. repeat split; [exact H2 | exact H1 | lia]. }
    destruct Hr as (R1 & R2 & R3 & R4).
    assert (Hp : fh_pot n s = (3 * n + 2 * (length rows + 1) + match fh_current s with Some _ => 2 | None => 0 end
       + behind (Some iv) (fh_items s))%nat) by (unfold fh_pot; rewrite R3, R4; reflexivity).
    destruct (fh_current s) as [[run off]|] eqn:Ec.
    - apply Hbody in H; [|split; [exact Hi1 | split; [exact R1 | exact R2]] | reflexivity | reflexivity].
      destruct H as (H1 & H2 & H3). exists n. cbn [fh_iter] in H2. rewrite H2. split; [exact H1|]. split; [exact Hb|].
      specialize (H3 n). unfold fh_pot at 2 in H3. cbn [fh_rows fh_interval fh_current fh_items next_interval] in H3.
      unfold next_interval in H3. cbn [fh_interval] in H3. lia.
    - apply bind_ok in H as ([o i] & Hn & H). destruct o as [[run|e]|]; [| |discriminate].
      + destruct n as [|n]; cbn [bounded] in Hb; specialize (Hb _ _ Hn); [destruct Hb|].
        apply Hbody in H; [|split; [exact Hi1 | split; [exact R1 | exact R2]] | reflexivity | reflexivity].
        destruct H as (H1 & H2 & H3). exists n. cbn [fh_iter] in H2. rewrite H2. split; [exact H1|]. split; [exact Hb|].
        specialize (H3 n). unfold fh_pot at 2 in H3. cbn [fh_rows fh_interval fh_current fh_items] in H3.
        unfold next_interval in H3. cbn [fh_interval] in H3. lia.
      + destruct n as [|n]; cbn [bounded] in Hb; specialize (Hb _ _ Hn); [destruct Hb|].
        apply Ok_inj in H. apply pair_equal_spec in H as [_ <-]. exists n. cbn [fh_iter].
        split; [split; [exact Hi1 | split; [exact R1 | exact R2]]|]. split; [exact Hb|].
        unfold fh_pot at 1. unfold next_interval. cbn [fh_rows fh_interval fh_current fh_items]. lia. }
  induction k as [|k IH]; intros n s Hinv Hb Hk; cbn [bounded]; intros a s' H;
    destruct (Hstep _ _ _ _ Hinv Hb H) as (n' & I' & B' & P'); [lia|]. apply (IH n'); [exact I' | exact B' | lia].
Qed.

Lemma fh_ends {S} m (next : S -> res (option (level_run + error) * S)) it rows n s :
  words_ok rows -> ends_within next it n -> fh_new m it rows = Ok s ->
  ends_within (fh_next m next) s (3 * n + 2 * length rows + 1).
Proof.
  intros Hw He H. unfold fh_new in H. apply bind_ok in H as (t & _ & H). apply Ok_inj in H. subst s.
  apply bounded_ends. apply (fh_bounded m next _ n).
  - split; [reflexivity | split; [exact Hw | exact I]].
  - apply ends_bounded, He.
  - unfold fh_pot, next_interval. cbn [fh_rows fh_interval fh_current fh_items].
    pose proof (behind_le (hd_error rows) 0). lia.
Qed.

(** The page readers. *)
Lemma ir_next_data_pages T r pages o r' : ir_next_data T r pages = Ok (Some o, r') ->
  (length (ir_pages r') < length pages)%nat /\ ir_state r' = Data.
Proof.
  induction pages as [|p rest IH]; cbn [ir_next_data]; [discriminate|]. cbv zeta.
  destruct (fp_selected p) as [|i l].
  - intros H. apply IH in H as [H1 H2]. cbn [length]. split; [lia | exact H2].
  - unfold item. match goal with |- match ?x with _ => _ end = _ -> _ => destruct x end; try discriminate;
      intros H; apply Ok_inj in H; apply pair_equal_spec in H as [_ <-]; cbn [ir_pages ir_state length]; (split; [lia | reflexivity]).
Qed.
Lemma ir_ends T m r : ends_within (ir_next T m) r (length (ir_pages r) + match ir_state r with MaybeDict => 1 | Data => 0 end).
Proof.
  apply (measure_ends (ir_next T m) (fun r => length (ir_pages r) + match ir_state r with MaybeDict => 1 | Data => 0 end)%nat).
  clear r. intros r a r' H. unfold ir_next in H. destruct (ir_state r).
  - apply bind_ok in H as (d & _ & H). destruct d as [x|].
    + unfold item in H. destruct x; [| |discriminate]; apply Ok_inj in H; apply pair_equal_spec in H as [_ <-];
        cbn [ir_pages ir_state]; lia.
    + apply ir_next_data_pages in H as [H ->]. lia.
  - apply ir_next_data_pages in H as [H ->]. lia.
Qed.

Section readers.
  Context (T : thrift t_page_header).
  Hypothesis HT : takes_a_byte T.

  Lemma build_shorter m r source seen x : build_page T m r = (source, seen, x) ->
    (length source <= length (pr_source r))%nat /\ ((exists p, x = Ok p) -> (length source < length (pr_source r))%nat).
  Proof.
    unfold build_page. destruct (t_dec T (pr_max r) (pr_source r)) as [[h rest]|e|] eqn:Ed;
      [apply HT in Ed| |]; [|intros [= <- <- <-]; split; [lia | intros [? ?]; discriminate]..].
    pose proof (fun k => skipn_length k rest) as Hk.
    repeat match goal with
    | |- match ?y with _ => _ end = _ -> _ => destruct y
    | |- (if ?y then _ else _) = _ -> _ => destruct y
    end; intros H; injection H as <- <- <-; rewrite ?Hk; (split; [lia | intros [? ?]; try discriminate; lia]).
  Qed.

  Lemma pr_next_shorter m fuel : forall r o r', pr_next_fuel T m fuel r = Ok (Some o, r') ->
    (length (pr_source r') <= length (pr_source r))%nat /\
    ((exists p, o = inl p) -> (length (pr_source r') < length (pr_source r))%nat).
  Proof.
    induction fuel as [|f IH]; intros r o r'; cbn [pr_next_fuel]; [discriminate|].
    destruct (pr_total r <=? pr_seen r)%Z; [discriminate|].
    destruct (build_page T m r) as [[source seen] x] eqn:Eb. apply build_shorter in Eb as [B1 B2].
    destruct x as [[p|p]|e|]; [| | |discriminate].
    - destruct (pr_filter r (pr_descriptor r) (cdp_header p)).
      + intros H. apply Ok_inj in H. apply pair_equal_spec in H as [_ <-]. cbn [pr_source pr_at].
        split; [exact B1|]. intros _. apply B2. eauto.
      + intros H. apply IH in H as [H1 H2]. cbn [pr_source pr_at] in H1, H2. specialize (B2 (ex_intro _ _ eq_refl)).
        split; [lia|]. intros _. lia.
    - intros H. apply Ok_inj in H. apply pair_equal_spec in H as [_ <-]. cbn [pr_source pr_at].
      split; [exact B1|]. intros _. apply B2. eauto.
    - intros H. injection H as <- <-. cbn [pr_source pr_at].
      split; [exact B1|]. intros [p Hp]. discriminate.
  Qed.

  Lemma stream_shorter m fuel : forall r p r', stream_next_fuel T m fuel r = Ok (Some (inl p), r') ->
    (length (pr_source r') < length (pr_source r))%nat.
  Proof.
    induction fuel as [|f IH]; intros r p r'; cbn [stream_next_fuel]; [discriminate|].
    destruct (pr_seen r <? pr_total r)%Z; [|discriminate].
    destruct (t_dec T (pr_max r) (pr_source r)) as [[h rest]|e|] eqn:Ed; [|discriminate|discriminate].
    apply HT in Ed. destruct (get_page_header h) as [dh|e|]; [|discriminate|discriminate].
    destruct (sadd m 64 (pr_seen r) (counted dh)) as [seen|e|]; [|discriminate|discriminate].
    destruct (try_usize (ph_compressed_size h)) as [n|e|]; [|discriminate|discriminate].
    destruct (match dh with Some dh => negb (pr_filter r (pr_descriptor r) dh) | None => false end).
    - intros H. apply IH in H. cbn [pr_source pr_at] in H. rewrite skipn_length in H. lia.
    - destruct (pr_max r <? n); [discriminate|]. destruct (nlen (firstn (N.to_nat n) rest) =? n); [|discriminate].
      destruct (finish_page h (firstn (N.to_nat n) rest) (pr_compression r) (pr_descriptor r) None); try discriminate.
      intros H. apply Ok_inj in H. apply pair_equal_spec in H as [_ <-]. cbn [pr_source pr_at].
      rewrite skipn_length. lia.
  Qed.
End readers.

Lemma stream_ends T m r : takes_a_byte T -> ends_within (stream_poll T m) (Some r) (S (length (pr_source r))).
Proof.
  intros HT. apply (measure_ends (stream_poll T m) (fun s => match s with Some r => S (length (pr_source r)) | None => 0%nat end)).
  intros s a s' H. unfold stream_poll in H. destruct s as [q|]; [|discriminate].
  apply bind_ok in H as ([o q'] & Hn & H). apply Ok_inj in H. apply pair_equal_spec in H as [-> <-].
  destruct a as [p|e]; [|lia]. apply (stream_shorter T HT) in Hn. lia.
Qed.

Lemma reader_stuck T m r e : (pr_seen r < pr_total r)%Z -> pr_source r = [] -> t_dec T (pr_max r) [] = Err e ->
  pr_scratch r = [] -> forall k, drain_st (pr_next T m) k r = Ok (repeat (inr e) k, r).
Proof.
  intros Hs Hn Hd Hsc. assert (Hstep : pr_next T m r = Ok (Some (inr e), r)).
  { unfold pr_next. rewrite Hn. cbn [length pr_next_fuel]. apply Z.leb_gt in Hs. rewrite Hs.
    unfold build_page. rewrite Hn, Hd. destruct r as [so co se to fi de sc mx]. unfold pr_at. cbn in *. subst. reflexivity. }
  induction k as [|k IH]; [reflexivity|]. cbn [drain_st]. rewrite Hstep. cbn [bind]. rewrite IH. reflexivity.
Qed.

Lemma reader_pages T m : takes_a_byte T -> forall k r items r', drain_st (pr_next T m) k r = Ok (items, r') ->
  (pages_among items + length (pr_source r') <= length (pr_source r))%nat.
Proof.
  intros HT. induction k as [|k IH]; intros r items r' H; cbn [drain_st] in H; [injection H as <- <-; cbn; lia|].
  apply bind_ok in H as ([o r1] & Hn & H). destruct o as [a|].
  - apply bind_ok in H as ([l r2] & Hd & H). injection H as <- <-. specialize (IH _ _ _ Hd).
    unfold pr_next in Hn. apply (pr_next_shorter T HT) in Hn as [H1 H2].
    unfold pages_among in *. cbn [filter]. destruct a as [p|e]; cbn [length]; [specialize (H2 (ex_intro _ _ eq_refl)); lia | lia].
  - injection H as <- <-. unfold pages_among. cbn [filter length].
    assert (Hl : forall f q q', pr_next_fuel T m f q = Ok (None, q') -> (length (pr_source q') <= length (pr_source q))%nat).
    { clear - HT. induction f as [|f IHf]; intros q q'; cbn [pr_next_fuel]; [discriminate|].
      destruct (pr_total q <=? pr_seen q)%Z; [intros H; injection H as <-; lia|].
      destruct (build_page T m q) as [[source seen] x] eqn:Eb. apply (build_shorter T HT) in Eb as [B1 B2].
      destruct x as [[p|p]|e|]; [| discriminate | discriminate | discriminate].
      destruct (pr_filter q (pr_descriptor q) (cdp_header p)); [discriminate|].
      intros H. apply IHf in H. cbn [pr_source pr_at] in H. lia. }
    apply Hl in Hn. lia.
Qed.
