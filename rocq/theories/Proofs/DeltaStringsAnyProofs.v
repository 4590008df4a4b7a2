From Verif Require Import Base.Prelude Base.LeFacts Base.Iter Spec.Bits Spec.UlebSpec Spec.DeltaAnySpec
  Model.DeltaBitpacked Model.DeltaByteArray Proofs.DeltaDecProofs Proofs.DeltaAnyProofs.
Open Scope N_scope.

Lemma of_signed_32 z : of_signed 32 z < 2 ^ 32.
Proof. unfold of_signed. change (2 ^ Z.of_N 32)%Z with 4294967296%Z. change (2 ^ 32) with 4294967296. pose proof (Z.mod_pos_bound z 4294967296 ltac:(lia)). lia. Qed.

(** The lengths that can be added to [tot]. *)
Definition fits_sum (m : mode) (tot : N) (values : list Z) : Prop := match m with Checked => tot + length_sum values < 2 ^ 32 | Wrapping => True end.
Lemma fits_cons m tot v values : tot < 2 ^ 32 -> fits_sum m tot (v :: values) ->
  exists t, uadd m 32 tot (of_signed 32 v) = Ok t /\ t < 2 ^ 32 /\ t = (tot + of_signed 32 v) mod 2 ^ 32 /\ fits_sum m t values.
Proof.
  intros Ht H. unfold uadd, fits_sum, length_sum in *. cbn [map fold_right] in H. pose proof (of_signed_32 v) as Hv. destruct (tot + of_signed 32 v <? 2 ^ 32) eqn:E.
  - eexists. split; [reflexivity|]. split; [lia|]. split; [rewrite N.mod_small; lia|]. destruct m; [lia|exact I].
  - destruct m; [exfalso; lia|]. eexists. split; [reflexivity|]. split; [apply N.mod_lt; discriminate|]. split; [reflexivity|exact I].
Qed.
Lemma sum_cons tot v values : ((tot + of_signed 32 v) mod 2 ^ 32 + length_sum values) mod 2 ^ 32 = (tot + length_sum (v :: values)) mod 2 ^ 32.
Proof. unfold length_sum. cbn [map fold_right]. rewrite N.add_mod_idemp_l by discriminate. f_equal. lia. Qed.

Lemma dl_step m bytes s tot v s' t : delta_next m s = Ok (Some (inl v), s') -> uadd m 32 tot (of_signed 32 v) = Ok t ->
  dl_next m (mk_dl bytes s tot) = Ok (Some (inl (wrap_s 32 v)), mk_dl bytes s' t).
Proof. intros E Et. unfold dl_next. cbn [dl_lengths dl_total dl_bytes]. rewrite E. cbn [bind]. rewrite Et. reflexivity. Qed.

Definition good_P (k : nat) (P : delta_decoder -> list item -> Prop) : Prop := forall s l, P s l -> delta_size_hint s = nlen l /\ (l = [] -> delta_consumed s = k).
Lemma dl_yields m (bytes : list N) k P values : good_P k P ->
  forall s tot, tot < 2 ^ 32 -> fits_sum m tot values -> yields (delta_next m) P s (map inl values) ->
  yields (dl_next m) (fun d left => delta_size_hint (dl_lengths d) = nlen left /\ (left = [] -> delta_consumed (dl_lengths d) = k /\
      dl_bytes d = bytes /\ dl_total d = (tot + length_sum values) mod 2 ^ 32))
    (mk_dl bytes s tot) (map (fun v => inl (wrap_s 32 v)) values).
Proof.
  intro HP. induction values as [|v values IH]; intros s tot Ht Hf Hy; cbn [map] in *.
  - inversion Hy as [? s' Hp E|]; subst. destruct (HP _ _ Hp) as [Hh Hc]. eapply yields_nil.
    + cbn [dl_lengths dl_bytes dl_total]. split; [exact Hh|]. intros _. unfold length_sum. cbn [map fold_right].
      rewrite N.add_0_r, N.mod_small by exact Ht. split; [apply Hc; reflexivity|]. split; reflexivity.
    + unfold dl_next. cbn [dl_lengths]. rewrite E. reflexivity.
  - inversion Hy as [|? s' ? ? Hp E Hy']; subst. destruct (HP _ _ Hp) as [Hh Hc]. destruct (fits_cons _ _ _ _ Ht Hf) as (t & Et & Ht' & Etm & Hf').
    eapply yields_cons; [|eapply dl_step; eassumption|].
    + cbn [dl_lengths]. split; [|discriminate]. rewrite Hh. unfold nlen. cbn [length]. rewrite !map_length. reflexivity.
    + eapply yields_weaken; [|exact (IH s' t Ht' Hf' Hy')]. cbn beta. intros d left [H0 H]. split; [exact H0|]. intro Hl. destruct (H Hl) as (H2 & H3 & H4).
      repeat split; try assumption. rewrite H4, Etm. apply sum_cons.
Qed.

Lemma dl_returns m bytes values : forall s s1 tot, tot < 2 ^ 32 -> fits_sum m tot values -> returns (delta_next m) s (map inl values) s1 ->
  exists t, returns (dl_next m) (mk_dl bytes s tot) (map (fun v => inl (wrap_s 32 v)) values) (mk_dl bytes s1 t).
Proof.
  induction values as [|v values IH]; intros s s1 tot Ht Hf Hr; cbn [map] in *.
  - inversion Hr; subst. exists tot. constructor.
  - inversion Hr as [|? s2 ? ? ? E Hr']; subst. destruct (fits_cons _ _ _ _ Ht Hf) as (t & Et & Ht' & _ & Hf').
    destruct (IH s2 s1 t Ht' Hf' Hr') as [t' H']. exists t'. econstructor; [eapply dl_step; eassumption|exact H'].
Qed.

Lemma yields_returns {S A} (next : S -> res (option A * S)) P : forall l s, yields next P s l -> exists s', returns next s l s'.
Proof. induction l as [|a l IH]; intros s H; inversion H as [|? s' ? ? Hp E Hy]; subst; [exists s; constructor|]. destruct (IH s' Hy) as [s2 H2]. exists s2. econstructor; eassumption. Qed.

(** Too large a sum, with overflow checks. *)
Lemma dl_overflow bytes values : forall s s1 tot, tot < 2 ^ 32 -> 2 ^ 32 <= tot + length_sum values -> returns (delta_next Checked) s (map inl values) s1 ->
  exists k d, (k < length values)%nat /\ returns (dl_next Checked) (mk_dl bytes s tot) (map (fun v => inl (wrap_s 32 v)) (firstn k values)) d /\ dl_next Checked d = Panic /\
    tot + length_sum (firstn k values) < 2 ^ 32 /\ 2 ^ 32 <= tot + length_sum (firstn (S k) values).
Proof.
  unfold length_sum. induction values as [|v values IH]; intros s s1 tot Ht Hs Hr; cbn [map fold_right] in *; [lia|].
  inversion Hr as [|? s2 ? ? ? E Hr']; subst. destruct (tot + of_signed 32 v <? 2 ^ 32) eqn:Ev.
  - destruct (IH s2 s1 (tot + of_signed 32 v)) as (k & d & Hk & Hrr & Hp & H1 & H2); [lia|lia|exact Hr'|].
    exists (S k), d. split; [cbn [length]; lia|]. split; [|split; [exact Hp|]].
    + cbn [firstn map]. econstructor; [|exact Hrr]. eapply dl_step; [exact E|]. unfold uadd. rewrite Ev. reflexivity.
    + cbn [firstn map fold_right] in *. lia.
  - exists 0%nat, (mk_dl bytes s tot). split; [cbn [length]; lia|]. split; [constructor|]. split; [|cbn [firstn map fold_right]; lia].
    unfold dl_next. cbn [dl_lengths]. rewrite E. cbn [bind dl_total]. unfold uadd. rewrite Ev. reflexivity.
Qed.

Lemma db_yields m (bytes : list N) k P values : good_P k P ->
  forall s, yields (delta_next m) P s (map inl values) ->
  yields (db_next m) (fun d left => delta_size_hint (db_lengths d) = nlen left /\ (left = [] -> delta_consumed (db_lengths d) = k /\ db_bytes d = bytes))
    (mk_db bytes s) (map (fun v => inl (of_signed 32 v)) values).
Proof.
  intro HP. induction values as [|v values IH]; intros s Hy; cbn [map] in *; inversion Hy as [? s' Hp E|? s' ? ? Hp E Hy']; subst; destruct (HP _ _ Hp) as [Hh Hc].
  - eapply yields_nil; [split; [exact Hh|intros _; split; [apply Hc; reflexivity|reflexivity]]|]. unfold db_next. cbn [db_lengths]. rewrite E. reflexivity.
  - eapply yields_cons; [split; [|discriminate]| |apply IH; exact Hy'].
    + cbn [db_lengths]. rewrite Hh. unfold nlen. cbn [length]. rewrite !map_length. reflexivity.
    + unfold db_next. cbn [db_lengths db_bytes]. rewrite E. reflexivity.
Qed.
Lemma db_returns m bytes values : forall s s1, returns (delta_next m) s (map inl values) s1 ->
  returns (db_next m) (mk_db bytes s) (map (fun v => inl (of_signed 32 v)) values) (mk_db bytes s1).
Proof.
  induction values as [|v values IH]; intros s s1 Hr; cbn [map] in *; inversion Hr as [|? s2 ? ? ? E Hr']; subst; [constructor|].
  econstructor; [|apply IH; exact Hr']. unfold db_next. cbn [db_lengths db_bytes]. rewrite E. reflexivity.
Qed.

(** What is left over is the end of the buffer. *)
Lemma varint_at_suffix l u rest : varint_at l = Some (u, rest) -> exists pre, l = pre ++ rest.
Proof. unfold varint_at. destruct (_ && _); [discriminate|]. intro H. injection H as <- <-. eexists. symmetry. apply firstn_skipn. Qed.
Lemma miniblocks_at_suffix v : forall widths n bytes ds rest, miniblocks_at v n widths bytes = (ds, Complete rest) -> exists pre, bytes = pre ++ rest.
Proof.
  induction widths as [|w widths IH]; intros n bytes ds rest H; cbn [miniblocks_at] in H.
  - injection H as <- <-. exists []. reflexivity.
  - destruct (miniblock v w (min n v) bytes) as [ds1 rest1| |] eqn:Em; try discriminate.
    assert (Hs : exists pre, bytes = pre ++ rest1).
    { unfold miniblock in Em. destruct (w =? 0); [injection Em as <- <-; exists []; reflexivity|]. destruct (2 ^ 64 <=? _); [discriminate|].
      destruct (_ <? _)%nat; [discriminate|]. destruct (_ && _); [discriminate|]. injection Em as <- <-. eexists. symmetry. apply firstn_skipn. }
    destruct Hs as [pre ->]. destruct (n <=? v)%nat; [injection H as <- <-; exists pre; reflexivity|].
    destruct (miniblocks_at v (n - v) widths rest1) as [more e] eqn:E2. injection H as <- ->. destruct (IH _ _ _ _ E2) as [p ->]. exists (pre ++ p). apply app_assoc.
Qed.
Lemma block_at_suffix nmb v n bytes mn ds rest : block_at nmb v n bytes = (mn, ds, Complete rest) -> exists pre, bytes = pre ++ rest.
Proof.
  unfold block_at. destruct (varint_at bytes) as [[u r]|] eqn:E; [|discriminate]. destruct (varint_at_suffix _ _ _ E) as [pre ->].
  destruct (_ <? _)%nat; [discriminate|]. destruct (miniblocks_at _ _ _ _) as [ds' e'] eqn:Em. intro H. injection H as <- <- ->.
  destruct (miniblocks_at_suffix _ _ _ _ _ _ Em) as [p Hp]. exists (pre ++ firstn nmb r ++ p). rewrite <- !app_assoc, <- Hp, firstn_skipn. reflexivity.
Qed.
Lemma deltas_at_complete m mn : forall ds e l rest, deltas_at m mn ds e = (l, Complete rest) -> e = Complete rest.
Proof.
  induction ds as [|d ds IH]; intros e l rest H; cbn [deltas_at] in H; [injection H as <- ->; reflexivity|].
  destruct (overflows _ _); [discriminate|]. destruct ds as [|d2 ds].
  - destruct e; try discriminate. injection H as _ ->. reflexivity.
  - destruct (deltas_at m mn (d2 :: ds) e) as [l' e'] eqn:E. injection H as <- ->. eapply IH. exact E.
Qed.
Lemma blocks_at_suffix m nmb v : forall fuel n bytes ds rest, blocks_at fuel m nmb v n bytes = (ds, Complete rest) -> exists pre, bytes = pre ++ rest.
Proof.
  induction fuel as [|fuel IH]; intros [|n] bytes ds rest H; cbn [blocks_at] in H; try discriminate.
  - injection H as <- <-. exists []. reflexivity.
  - injection H as <- <-. exists []. reflexivity.
  - destruct (block_at nmb v (S n) bytes) as [[mn raw] e] eqn:Eb.
    assert (H' : match deltas_at m mn raw e with (l, Complete rest) => let (more, e') := blocks_at fuel m nmb v (S n - length raw) rest in (l ++ more, e') | r => r end = (ds, Complete rest)).
    { destruct raw; [destruct e; try exact H; discriminate|exact H]. }
    clear H. destruct (deltas_at m mn raw e) as [l e1] eqn:Ed. destruct e1 as [r1| |]; try discriminate. apply deltas_at_complete in Ed. subst e.
    destruct (block_at_suffix _ _ _ _ _ _ _ Eb) as [pre ->]. destruct (blocks_at fuel m nmb v (S n - length raw) r1) as [more e2] eqn:E2.
    injection H' as <- ->. destruct (IH _ _ _ _ E2) as [p ->]. exists (pre ++ p). apply app_assoc.
Qed.
Lemma values_at_complete m : forall ds first e l rest, values_at m first ds e = (l, Complete rest) -> e = Complete rest.
Proof.
  induction ds as [|d ds IH]; intros first e l rest H; cbn [values_at] in H.
  - destruct e; injection H as <- H; subst; try reflexivity; discriminate.
  - destruct (overflows _ _); [discriminate|]. destruct (values_at m _ ds e) as [l' e'] eqn:E. injection H as <- ->. eapply IH. exact E.
Qed.
Lemma stream_at_suffix m data values rest : stream_at m data = Holds values (Complete rest) -> exists pre, data = pre ++ rest.
Proof.
  unfold stream_at, header_at. destruct (varint_at data) as [[bs d1]|] eqn:E1; [|discriminate]. destruct (varint_at_suffix _ _ _ E1) as [p1 ->].
  destruct (varint_at d1) as [[nmb d2]|] eqn:E2; [|discriminate]. destruct (varint_at_suffix _ _ _ E2) as [p2 ->].
  destruct (varint_at d2) as [[count d3]|] eqn:E3; [|discriminate]. destruct (varint_at_suffix _ _ _ E3) as [p3 ->].
  destruct (varint_at d3) as [[first d4]|] eqn:E4; [|discriminate]. destruct (varint_at_suffix _ _ _ E4) as [p4 ->].
  assert (G : (exists pre, d4 = pre ++ rest) -> exists pre, p1 ++ p2 ++ p3 ++ p4 ++ d4 = pre ++ rest).
  { intros [p ->]. exists (p1 ++ p2 ++ p3 ++ p4 ++ p). rewrite <- !app_assoc. reflexivity. }
  destruct (negb _); [discriminate|]. cbv zeta. destruct (count =? 0); [intro H; injection H as _ <-; apply G; exists []; reflexivity|].
  destruct (count =? 1); [intro H; injection H as _ <-; apply G; exists []; reflexivity|].
  destruct (block_at _ _ _ d4) as [[mn raw] e] eqn:Eb. intro H. apply G.
  match type of Eb with block_at ?k ?v ?n _ = _ => set (kk := k) in *; set (vv := v) in *; set (nn := n) in * end.
  assert (H' : (let (deltas, e) := match deltas_at m mn raw e with (l, Complete rest) => let (more, e') := blocks_at nn m kk vv (nn - length raw) rest in (l ++ more, e') | r => r end in
     let (values, e) := values_at m (signed_of first) deltas e in Holds values e) = Holds values (Complete rest)).
  { destruct raw; [destruct e; try exact H; discriminate|exact H]. }
  clear H. destruct (deltas_at m mn raw e) as [l e1] eqn:Ed. destruct e1 as [r1| |].
  - apply deltas_at_complete in Ed. subst e. destruct (block_at_suffix _ _ _ _ _ _ _ Eb) as [pre ->].
    destruct (blocks_at nn m kk vv (nn - length raw) r1) as [more e2] eqn:E5. destruct (values_at m _ _ e2) as [vs e3] eqn:E6. injection H' as <- ->.
    apply values_at_complete in E6. subst e2. destruct (blocks_at_suffix _ _ _ _ _ _ _ _ E5) as [p ->]. exists (pre ++ p). apply app_assoc.
  - destruct (values_at m _ l Failed) as [vs e3] eqn:E6. injection H' as <- ->. apply values_at_complete in E6. discriminate.
  - destruct (values_at m _ l Aborts) as [vs e3] eqn:E6. injection H' as <- ->. apply values_at_complete in E6. discriminate.
Qed.
