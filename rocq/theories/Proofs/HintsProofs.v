From Verif Require Import Base.Prelude Base.Iter Model.Types Model.Thrift Model.Intervals Model.Uleb128 Model.Bitpacked Model.HybridRle Model.Plain Model.Page Model.Deserialize
  Spec.RleSpec Spec.LevelsSpec Spec.PlainSpec Spec.HintsSpec Proofs.BitmapProofs Proofs.LevelsProofs Proofs.PlainProofs Proofs.SliceProofs Proofs.SchemaProofs Proofs.BitsFacts.
Open Scope N_scope.

(** Within a run the iterator over runs does not move. *)
Lemma bl_keeps_iter {S} (next : S -> res (option (level_run + error) * S)) P s l : yields (bl_next next) P s l -> bl_current s <> None ->
  yields (bl_next next) (fun s' _ => bl_iter s' = bl_iter s) s l.
Proof.
  assert (K : forall s o s', bl_next next s = Ok (o, s') -> bl_current s <> None -> bl_iter s' = bl_iter s /\ bl_current s' <> None).
  { intros t o t' E H. unfold bl_next in E. destruct (bl_current t) as [r|]; [ | congruence ].
    destruct (bool_run_next r) as [[x r']| |]; cbn [bind] in E; try discriminate E. assert (t' = mk_bli (bl_iter t) (Some r')) by congruence.
    subst t'. cbn. split; [ reflexivity | discriminate ]. }
  induction 1 as [s s' _ E|s s' a l _ E Hy IH]; intros Hc.
  - eapply yields_nil; [ reflexivity | exact E ].
  - destruct (K _ _ _ E Hc) as [Hi Hc']. eapply yields_cons; [ reflexivity | exact E | ]. specialize (IH Hc'). rewrite Hi in IH. exact IH.
Qed.

Lemma yields_length {S A} (next : S -> res (option A * S)) P s l : yields next P s l -> forall Q l', yields next Q s l' -> l = l'.
Proof.
  induction 1 as [s s' _ E|s s' a l _ E Hy IH]; intros Q l' H'; inversion H' as [? t _ E'|? t a' k _ E' Hk]; subst; try congruence.
  assert (a' = a) by congruence. assert (t = s') by congruence. subst. f_equal. eapply IH. exact Hk.
Qed.

Lemma yields_suffix {S A} (next : S -> res (option A * S)) P s l : yields next P s l -> 
  yields next (fun s' left => P s' left /\ (length left <= length l)%nat) s l.
Proof.
  induction 1 as [s s' H E|s s' a l H E Hy IH].
  - eapply yields_nil; [ split; [ exact H | reflexivity ] | exact E ].
  - eapply yields_cons; [ split; [ exact H | reflexivity ] | exact E | ]. eapply yields_weaken; [ | exact IH ]. cbn [length]. intros ? ? [H1 H2]. split; [ exact H1 | lia ].
Qed.


Lemma run_of_ok run : run_ok run -> exists r', bool_run_of run = Ok r' /\
  match r' with
  | BBitmap b => yields bm_next (fun s r => bm_size_hint s = nlen r) b (run_levels run)
  | BRepeated v k => run_levels run = repeat v (N.to_nat k)
  end.
Proof.
  intros [_ Hok]. destruct run as [bytes k|v k]; cbn [bool_run_of run_levels].
  - destruct (bm_new_spec bytes 0 (N.to_nat k)) as (s & Es & Hys); [lia|]. rewrite N2Nat.id in Es. rewrite Es.
    eexists. split; [reflexivity|]. exact Hys.
  - eexists. split; reflexivity.
Qed.
Lemma run_levels_length run : run_ok run -> N.of_nat (length (run_levels run)) = run_len run.
Proof.
  intros [_ H]. destruct run as [bytes k|v k]; cbn [run_levels run_len].
  - rewrite firstn_length, bit_stream_length. lia.
  - rewrite repeat_length. lia.
Qed.

(** The first run taken from a page: its length is counted at once. *)
Lemma first_run m data n o s' : n < 2 ^ 64 -> ri_next m (ri_new (mk_rle data 1) n) = Ok (o, s') ->
  match o with None => ri_len s' = n | Some (inl run) => run_ok run /\ run_len run <= n /\ ri_len s' = n - run_len run | Some (inr _) => False end.
Proof.
  intros Hn E. unfold ri_next, ri_new in E. cbn [ri_consumed ri_length ri_iter] in E.
  destruct (0 =? n) eqn:H0. { apply Ok_inj in E. injection E as <- <-. unfold ri_len. cbn [ri_length ri_consumed]. lia. }
  destruct (rle_next m (mk_rle data 1)) as [[x d]|?|]; cbn [bind] in E; try discriminate E.
  destruct x as [[pack|value len]|].
  - destruct (umul m 64 (nlen pack) 8) as [ps|?|] eqn:Eu; cbn [bind] in E; try discriminate E.
    apply Ok_inj in E. injection E as <- <-. unfold ri_len, run_ok. cbn [ri_length ri_consumed run_len].
    assert (Hp : ps <= 8 * nlen pack).
    { unfold umul in Eu. destruct (nlen pack * 8 <? 2 ^ 64); [ apply Ok_inj in Eu; lia | ]. destruct m; [ discriminate Eu | ].
      apply Ok_inj in Eu. subst ps. rewrite (N.mul_comm 8). apply N.mod_le. discriminate. }
    unfold nlen in *. repeat split; lia.
  - destruct value as [|b v]; [ discriminate E | ]. apply Ok_inj in E. injection E as <- <-. unfold ri_len, run_ok. cbn [ri_length ri_consumed run_len]. repeat split; lia.
  - apply Ok_inj in E. injection E as <- <-. unfold ri_len. cbn [ri_length ri_consumed]. lia.
Qed.

Lemma level_hints m data n items P : n < 2 ^ 64 -> yields (bl_next (ri_next m)) P (bl_new (ri_new (mk_rle data 1) n)) items ->
  nlen items <= n /\
  yields (bl_next (ri_next m)) (fun s left => bl_size_hint s = if (length left =? length items)%nat then n else n - nlen items)
    (bl_new (ri_new (mk_rle data 1) n)) items.
Proof.
  intros Hn Hy.
  assert (H0 : bl_size_hint (bl_new (ri_new (mk_rle data 1) n)) = n) by (unfold bl_size_hint, ri_len; cbn; lia).
  inversion Hy as [? s' _ E|? s' a l _ E Hl]; subst.
  - split; [ cbn; lia | ]. eapply yields_nil; [ exact H0 | exact E ].
  - assert (Hs : bl_current s' <> None /\ nlen (a :: l) <= n /\ bl_size_hint s' = n - nlen (a :: l)).
    { pose proof E as E1. unfold bl_next in E1. cbn [bl_new bl_current bl_iter] in E1.
      destruct (ri_next m (ri_new (mk_rle data 1) n)) as [[o i]|?|] eqn:Er; cbn [bind] in E1; try discriminate E1.
      pose proof (first_run m data n o i Hn Er) as Hf. destruct o as [[run|e]|]; [ | contradiction | discriminate E1 ].
      destruct Hf as (Hok & Hle & Hi). destruct (run_of_ok run Hok) as (r' & Eb & Hr). rewrite Eb in E1. cbn [bind] in E1.
      pose proof (bl_run_yields (ri_next m) i r' _ _ Hr eq_refl) as Hb.
      assert (En : bl_next (ri_next m) (bl_new (ri_new (mk_rle data 1) n)) = bl_next (ri_next m) (mk_bli i (Some r'))).
      { unfold bl_next at 1. cbn [bl_new bl_current bl_iter]. rewrite Er. cbn [bind]. rewrite Eb. reflexivity. }
      destruct (bool_run_next r') as [[x r2]|?|]; cbn [bind] in E1; try discriminate E1.
      assert (Hs2 : s' = mk_bli i (Some r2)) by congruence.
      assert (Hall : map inl (run_levels run) = a :: l).
      { inversion Hb as [? t _ E2 Hnil|? t b k _ E2 Hk Hcons]; rewrite <- En in E2; [ congruence | ].
        assert (b = a) by congruence. assert (t = s') by congruence. subst b t. f_equal. eapply yields_length; eassumption. }
      pose proof (run_levels_length run Hok) as Hlen. rewrite <- Hall. unfold nlen. rewrite map_length, Hlen.
      subst s'. unfold bl_size_hint. cbn [bl_iter bl_current]. repeat split; [ discriminate | exact Hle | exact Hi ]. }
    destruct Hs as (Hc & Hle & Hh). split; [ exact Hle | ].
    eapply yields_cons; [ rewrite Nat.eqb_refl; exact H0 | exact E | ].
    pose proof (yields_suffix _ _ _ _ (bl_keeps_iter _ _ _ _ Hl Hc)) as Hk. eapply yields_weaken; [ | exact Hk ].
    cbv beta. intros s left [Hi Hs]. cbn [length].
    destruct (Nat.eqb_spec (length left) (S (length l))) as [E2|_]; [ lia | ]. unfold bl_size_hint in *. rewrite Hi. exact Hh.
Qed.

(** Following an iterator: every state it passes. *)
Lemma yields_both {S A} (next : S -> res (option A * S)) P s l : yields next P s l -> forall Q, yields next Q s l -> yields next (fun s k => P s k /\ Q s k) s l.
Proof.
  induction 1 as [s s' HP E|s s' a l HP E Hy IH]; intros Q HQ; inversion HQ as [? t HQ0 E'|? t a' k HQ0 E' Hk]; subst.
  - eapply yields_nil; [ split; assumption | exact E ].
  - eapply yields_cons; [ split; assumption | exact E | ]. apply IH. assert (t = s') by congruence. subst. exact Hk.
Qed.
Lemma yields_head {S A} (next : S -> res (option A * S)) P s l : yields next P s l -> P s l.
Proof. destruct 1; assumption. Qed.

Lemma level_contract m data n items P : n < 2 ^ 64 -> yields (bl_next (ri_next m)) P (bl_new (ri_new (mk_rle data 1) n)) items ->
  (yields (bl_next (ri_next m)) (fun s left => hint_holds (exactly (bl_size_hint s)) (length left)) (bl_new (ri_new (mk_rle data 1) n)) items <->
   nlen items = n /\ n <= 1).
Proof.
  intros Hn Hy. destruct (level_hints m data n items P Hn Hy) as [Hle Hh]. split.
  - intro Hc. pose proof (yields_both _ _ _ _ Hh _ Hc) as Hb. pose proof (yields_head _ _ _ _ Hb) as [H1 H2]. rewrite Nat.eqb_refl in H1. rewrite H1 in H2.
    unfold hint_holds, exactly in H2. cbn [fst snd] in H2. assert (He : nlen items = n) by (unfold nlen in *; lia). split; [ exact He | ].
    inversion Hb as [? s' _ E|? s' a l _ E Hl]; subst; [ cbn; lia | ]. pose proof (yields_head _ _ _ _ Hl) as [H3 H4].
    rewrite N.sub_diag in H3. cbn [length] in H3. destruct (Nat.eqb_spec (length l) (S (length l))); [ lia | ]. rewrite H3 in H4.
    unfold hint_holds, exactly, nlen in *. cbn [fst snd length] in *. lia.
  - intros [He H1]. eapply yields_weaken; [ | exact (yields_suffix _ _ _ _ Hh) ]. cbv beta. intros s left [E Hs]. rewrite E.
    unfold hint_holds, exactly, nlen in *. cbn [fst snd]. destruct (Nat.eqb_spec (length left) (length items)); lia.
Qed.

Lemma optional_hints {T A} m data n levels P (next : T -> res (option A * T)) Q t values : n < 2 ^ 64 ->
  yields (bl_next (ri_next m)) P (bl_new (ri_new (mk_rle data 1) n)) (map inl levels) -> yields next Q t values -> (count_true levels <= length values)%nat ->
  yields (ov_next (bl_next (ri_next m)) next)
    (fun s left => ov_size_hint s = if (length left =? length levels)%nat then n else n - nlen levels)
    (bl_new (ri_new (mk_rle data 1) n), t) (map inl (pair_values levels values)).
Proof.
  intros Hn Hy Ht Hc. destruct (level_hints m data n _ P Hn Hy) as [_ Hh].
  eapply yields_weaken; [ | eapply ov_yields; eassumption ]. cbv beta. intros s left (x & Hx & Hl). unfold ov_size_hint. rewrite Hx, Hl.
  unfold nlen. rewrite map_length. reflexivity.
Qed.

Lemma bi_hints l n : Forall (fun s => nlen s < 2 ^ 32) l ->
  yields bi_next (fun s left => bi_size_hint s = exactly (n - (nlen l - nlen left))) (mk_bi (plain_strings l) (Some n)) (map inl l).
Proof.
  intro H. assert (G : forall l n k, Forall (fun s => nlen s < 2 ^ 32) l ->
    yields bi_next (fun s left => bi_size_hint s = exactly (n - (k + nlen l - nlen left))) (mk_bi (plain_strings l) (Some (n - k))) (map inl l)).
  2: { pose proof (G l n 0 H) as G'. rewrite N.sub_0_r in G'. exact G'. }
  clear. induction l as [|s l IH]; intros n k H.
  - cbn [map]. eapply yields_nil; [ | reflexivity ]. unfold bi_size_hint, exactly, nlen. cbn [bi_length length]. do 2 f_equal; try f_equal; lia.
  - inversion H as [|? ? Hs Hl]; subst. cbn [map plain_strings concat]. eapply yields_cons.
    + unfold bi_size_hint, exactly, nlen. cbn [bi_length length]. rewrite map_length. do 2 f_equal; try f_equal; lia.
    + change (plain_strings (s :: l)) with (plain_string s ++ plain_strings l). rewrite bi_next_string by exact Hs. reflexivity.
    + cbn [option_map]. replace (n - k - 1) with (n - (k + 1)) by lia. eapply yields_weaken; [ | exact (IH n (k + 1) Hl) ].
      cbv beta. intros ? left E. rewrite E. unfold exactly, nlen. cbn [length]. do 2 f_equal; try f_equal; lia.
Qed.
Lemma bi_contract l n : Forall (fun s => nlen s < 2 ^ 32) l ->
  (yields bi_next (fun s left => hint_holds (bi_size_hint s) (length left)) (mk_bi (plain_strings l) (Some n)) (map inl l) <-> n = nlen l).
Proof.
  intro H. pose proof (bi_hints l n H) as Hh. split.
  - intro Hc. apply yields_head in Hc. unfold hint_holds, bi_size_hint in Hc. cbn [bi_length fst snd] in Hc. rewrite map_length in Hc. unfold nlen. lia.
  - intros ->. eapply yields_weaken; [ | exact (yields_suffix _ _ _ _ Hh) ]. cbv beta. intros s left [E Hs]. rewrite E. rewrite map_length in Hs.
    unfold hint_holds, exactly, nlen in *. cbn [fst snd]. lia.
Qed.
