(** Proofs about going on with a half-read column chunk. *)
From Verif Require Import Base.Prelude Base.Iter Model.Types Model.Thrift Model.Intervals Model.Page Model.Io Model.PageRead Model.Resume
  Spec.PagesSpec Spec.EndsSpec Spec.ResumeSpec Proofs.SchemaProofs Proofs.PageIoProofs Proofs.EndsProofs.
Open Scope N_scope.

Lemma counted_back z : (- 2 ^ 31 <= z < 2 ^ 31)%Z -> to_signed 64 (as_usize z) = z.
Proof.
  intros H. unfold as_usize, to_signed, of_signed. change (2 ^ 31)%Z with 2147483648%Z in H.
  change (2 ^ Z.of_N 64)%Z with 18446744073709551616%Z. change (2 ^ (64 - 1)) with 9223372036854775808.
  assert (C : (0 <= z)%Z \/ (z < 0)%Z) by lia. destruct C as [C|C].
  - rewrite Z.mod_small by lia. destruct (Z.to_N z <? 9223372036854775808) eqn:E; lia.
  - replace (z mod 18446744073709551616)%Z with (z + 18446744073709551616)%Z.
    + destruct (Z.to_N (z + 18446744073709551616) <? 9223372036854775808) eqn:E; lia.
    + symmetry. rewrite <- (Z_mod_plus_full z 1). rewrite Z.mod_small; lia.
Qed.

Section resumed.
  Context (T : thrift t_page_header) (m : mode).
  Hypothesis HT : takes_a_byte T.
  Hypothesis HC : counts_fit T.

  (** The count cannot overflow with the bytes that are left. *)
  Definition roomy (r : page_reader) : Prop :=
    (Z.abs (pr_seen r) + 2147483648 * Z.of_nat (length (pr_source r)) < 9223372036854775808)%Z.

  Lemma counted_fits max s h rest dh : t_dec T max s = Ok (h, rest) -> get_page_header h = Ok dh ->
    (Z.abs (counted dh) <= 2147483648)%Z.
  Proof.
    intros Hd Hg. destruct (HC _ _ _ _ Hd) as [H1 H2]. unfold get_page_header in Hg.
    apply bind_ok in Hg as (ty & _ & Hg). destruct ty.
    - destruct (ph_data h) as [d|] eqn:E; [|discriminate]. apply bind_ok in Hg as (? & _ & Hg). apply bind_ok in Hg as (? & _ & Hg).
      apply bind_ok in Hg as (? & _ & Hg). apply Ok_inj in Hg as <-. cbn [counted header_num_values].
      specialize (H1 _ eq_refl). rewrite counted_back by exact H1. change (2 ^ 31)%Z with 2147483648%Z in H1. lia.
    - destruct (ph_data_v2 h) as [d|] eqn:E; [|discriminate]. apply bind_ok in Hg as (? & _ & Hg). apply Ok_inj in Hg as <-. cbn [counted header_num_values].
      specialize (H2 _ eq_refl). rewrite counted_back by exact H2. change (2 ^ 31)%Z with 2147483648%Z in H2. lia.
    - apply Ok_inj in Hg as <-. cbn. lia.
  Qed.

  Lemma sadd_fits a b : (Z.abs (a + b) < 9223372036854775808)%Z -> sadd m 64 a b = Ok (a + b)%Z.
  Proof.
    intros H. unfold sadd, in_s. change (2 ^ (Z.of_N 64 - 1))%Z with 9223372036854775808%Z.
    match goal with |- (if ?c then _ else _) = _ => assert (E : c = true) by lia; rewrite E end. reflexivity.
  Qed.

  Lemma finished_values max s h rest dh data c d p : t_dec T max s = Ok (h, rest) -> get_page_header h = Ok dh ->
    finish_page h data c d None = Ok p -> values p = counted dh.
  Proof.
    intros Hd Hg Hf. destruct (HC _ _ _ _ Hd) as [H1 H2]. unfold get_page_header in Hg. unfold finish_page in Hf.
    apply bind_ok in Hg as (ty & Hty & Hg). apply bind_ok in Hf as (ty' & Hty' & Hf). rewrite Hty in Hty'. apply Ok_inj in Hty' as <-.
    apply bind_ok in Hf as (size & _ & Hf). destruct ty.
    - destruct (ph_data h) as [x|] eqn:E; [|discriminate]. apply bind_ok in Hg as (? & _ & Hg). apply bind_ok in Hg as (? & _ & Hg).
      apply bind_ok in Hg as (? & _ & Hg). apply Ok_inj in Hg as <-. apply Ok_inj in Hf as <-.
      cbn [counted header_num_values values cdp_header]. symmetry. apply counted_back, H1, eq_refl.
    - destruct (ph_data_v2 h) as [x|] eqn:E; [|discriminate]. apply bind_ok in Hg as (? & _ & Hg). apply Ok_inj in Hg as <-.
      apply Ok_inj in Hf as <-. cbn [counted header_num_values values cdp_header]. symmetry. apply counted_back, H2, eq_refl.
    - destruct (ph_dict h) as [x|]; [|discriminate]. apply bind_ok in Hf as (n & _ & Hf). apply Ok_inj in Hf as <-.
      apply Ok_inj in Hg as <-. reflexivity.
  Qed.

  Lemma build_counts r source seen x sc : roomy r -> build_page T m r = (source, seen, x) ->
    roomy (pr_at r source seen sc) /\ (forall p, x = Ok p -> seen = pr_seen r + values p)%Z.
  Proof.
    unfold roomy, build_page. cbn [pr_at pr_seen pr_source]. intros Hr.
    destruct (t_dec T (pr_max r) (pr_source r)) as [[h rest]|e|] eqn:Ed; [|intros [= <- <- <-]; split; [lia | discriminate]..].
    pose proof (HT _ _ _ _ Ed) as Hl.
    destruct (get_page_header h) as [dh|e|] eqn:Eg; [|intros [= <- <- <-]; split; [lia | discriminate]..].
    pose proof (counted_fits _ _ _ _ _ Ed Eg) as Hc. rewrite sadd_fits by lia.
    destruct (try_usize (ph_compressed_size h)) as [n|e|]; [|intros [= <- <- <-]; split; [lia | discriminate]..].
    destruct (pr_max r <? n); [intros [= <- <- <-]; split; [lia | discriminate]|].
    pose proof (skipn_length (N.to_nat n) rest) as Hk.
    destruct (nlen (firstn (N.to_nat n) rest) =? n); intros H; injection H as <- <- <-; (split; [rewrite Hk; lia|]).
    - intros p Hf. rewrite (finished_values _ _ _ _ _ _ _ _ _ Ed Eg Hf). reflexivity.
    - discriminate.
  Qed.

  (** Two readers that differ in how the count is split. *)
  Definition alike (a b : page_reader) : Prop :=
    pr_source a = pr_source b /\ pr_compression a = pr_compression b /\ pr_filter a = pr_filter b /\
    pr_descriptor a = pr_descriptor b /\ pr_max a = pr_max b /\ (pr_total a - pr_seen a = pr_total b - pr_seen b)%Z.

  Lemma build_alike a b : alike a b -> roomy a -> roomy b ->
    exists source x seen seen', build_page T m a = (source, seen, x) /\ build_page T m b = (source, seen', x) /\
      (pr_total a - seen = pr_total b - seen')%Z.
  Proof.
    intros (Hs & Hc & Hf & Hd & Hm & Ht) Ha Hb. unfold roomy in Ha, Hb. unfold build_page. rewrite <- Hm, <- Hs, <- Hc, <- Hd in *.
    destruct (t_dec T (pr_max a) (pr_source a)) as [[h rest]|e|] eqn:Ed; [|repeat eexists; exact Ht..].
    pose proof (HT _ _ _ _ Ed) as Hl.
    destruct (get_page_header h) as [dh|e|] eqn:Eg; [|repeat eexists; exact Ht..].
    pose proof (counted_fits _ _ _ _ _ Ed Eg) as Hcf. rewrite !sadd_fits by lia.
    destruct (try_usize (ph_compressed_size h)) as [n|e|]; [|repeat eexists; lia..].
    destruct (pr_max a <? n); [repeat eexists; lia|].
    destruct (nlen (firstn (N.to_nat n) rest) =? n); repeat eexists; lia.
  Qed.

  Lemma next_alike fuel : forall a b, alike a b -> roomy a -> roomy b ->
    match pr_next_fuel T m fuel a with
    | Ok (o, a') => exists b', pr_next_fuel T m fuel b = Ok (o, b') /\ alike a' b' /\ roomy a' /\ roomy b'
    | Err e => pr_next_fuel T m fuel b = Err e
    | Panic => pr_next_fuel T m fuel b = Panic
    end.
  Proof.
    induction fuel as [|f IH]; intros a b Hab Ha Hb; cbn [pr_next_fuel]; [reflexivity|].
    pose proof Hab as (Hs & Hc & Hf & Hd & Hm & Ht).
    replace (pr_total b <=? pr_seen b)%Z with (pr_total a <=? pr_seen a)%Z by lia.
    destruct (pr_total a <=? pr_seen a)%Z; [exists b; auto|].
    destruct (build_alike a b Hab Ha Hb) as (source & x & sa & sb & Ea & Eb & Hx).
    pose proof (build_counts a _ _ _ [] Ha Ea) as [Ra _]. pose proof (build_counts b _ _ _ [] Hb Eb) as [Rb _].
    assert (Hal : alike (pr_at a source sa []) (pr_at b source sb [])) by (repeat split; assumption || reflexivity).
    rewrite Ea, Eb, <- Hf, <- Hd. destruct x as [[p|p]|e|]; [|eauto..|reflexivity].
    destruct (pr_filter a (pr_descriptor a) (cdp_header p)); [eauto|]. exact (IH _ _ Hal Ra Rb).
  Qed.

  Lemma drain_alike n : forall a b, alike a b -> roomy a -> roomy b -> drain (pr_next T m) n a = drain (pr_next T m) n b.
  Proof.
    induction n as [|n IH]; intros a b Hab Ha Hb; cbn [drain]; [reflexivity|].
    unfold pr_next at 1 3. pose proof Hab as (Hs & _). rewrite <- Hs.
    pose proof (next_alike (S (length (pr_source a))) a b Hab Ha Hb) as H.
    destruct (pr_next_fuel T m (S (length (pr_source a))) a) as [[o a']|e|].
    - destruct H as (b' & -> & Hab' & Ha' & Hb'). cbn [bind]. destruct o as [i|]; [|reflexivity].
      rewrite (IH a' b' Hab' Ha' Hb'). reflexivity.
    - rewrite H. reflexivity.
    - rewrite H. reflexivity.
  Qed.

  (** What a reader keeps of what it was made with. *)
  Definition kin (a b : page_reader) : Prop :=
    pr_compression a = pr_compression b /\ pr_filter a = pr_filter b /\ pr_descriptor a = pr_descriptor b /\
    pr_max a = pr_max b /\ pr_total a = pr_total b.

  Lemma next_keeps fuel : forall r o r', roomy r -> pr_next_fuel T m fuel r = Ok (o, r') ->
    roomy r' /\ kin r r' /\ (length (pr_source r') <= length (pr_source r))%nat /\
    (o <> None -> pr_scratch r' = []) /\
    ((forall h, pr_filter r (pr_descriptor r) h = true) -> match o with Some (inl p) => pr_seen r' = (pr_seen r + values p)%Z | None => r' = r | _ => True end).
  Proof.
    induction fuel as [|f IH]; intros r o r' Hr; cbn [pr_next_fuel]; [discriminate|].
    destruct (pr_total r <=? pr_seen r)%Z.
    { intros H. apply Ok_inj in H. apply pair_equal_spec in H as [<- <-]. unfold kin. repeat split; auto; congruence. }
    destruct (build_page T m r) as [[source seen] x] eqn:Eb. pose proof (build_counts r _ _ _ [] Hr Eb) as [R V].
    pose proof (build_shorter T HT _ _ _ _ _ Eb) as [B _].
    assert (D : forall o r'', @Ok (option (compressed_page + error) * page_reader) (Some o, pr_at r source seen []) = Ok (r'') ->
      match o with inl p => x = Ok p | inr _ => True end -> roomy (snd r'') /\ kin r (snd r'') /\
      (length (pr_source (snd r'')) <= length (pr_source r))%nat /\ (fst r'' <> None -> pr_scratch (snd r'') = []) /\
      ((forall h, pr_filter r (pr_descriptor r) h = true) -> match fst r'' with Some (inl p) => pr_seen (snd r'') = (pr_seen r + values p)%Z | None => snd r'' = r | _ => True end)).
    { intros i r'' H Hi. apply Ok_inj in H as <-. cbn [fst snd]. split; [exact R|]. split; [unfold kin; repeat split|]. split; [exact B|].
      split; [reflexivity|]. intros _. destruct i as [p|e]; [|exact I]. exact (V p Hi). }
    destruct x as [[p|p]|e|].
    - destruct (pr_filter r (pr_descriptor r) (cdp_header p)) eqn:Ef.
      + intros H. exact (D _ _ H eq_refl).
      + intros H. apply IH in H; [|exact R]. destruct H as (H1 & H2 & H3 & H4 & H5). cbn [pr_source pr_at] in H3.
        split; [exact H1|]. split; [exact H2|]. split; [lia|]. split; [exact H4|].
        intros Hall. rewrite Hall in Ef. discriminate.
    - intros H. exact (D _ _ H eq_refl).
    - intros H. exact (D _ _ H I).
    - discriminate.
  Qed.

  Lemma steps_keep r items r' : steps (pr_next T m) r items r' -> roomy r ->
    roomy r' /\ kin r r' /\ (length (pr_source r') <= length (pr_source r))%nat /\ (items <> [] -> pr_scratch r' = []) /\
    ((forall h, pr_filter r (pr_descriptor r) h = true) -> forall pages, items = map inl pages -> pr_seen r' = (pr_seen r + values_of pages)%Z).
  Proof.
    induction 1 as [r | r r1 a l r' Hn Hs IH]; intros Hr.
    - split; [exact Hr|]. split; [unfold kin; repeat split|]. split; [lia|]. split; [congruence|].
      intros _ [|p pages] Hp; [|discriminate]. cbn. lia.
    - unfold pr_next in Hn. destruct (next_keeps _ _ _ _ Hr Hn) as (H1 & H2 & H3 & H4 & H5).
      destruct (IH H1) as (I1 & I2 & I3 & I4 & I5). split; [exact I1|].
      split; [unfold kin in *; intuition congruence|]. split; [lia|].
      split.
      + intros _. destruct l as [|b l]; [|apply I4; discriminate]. inversion Hs; subst. apply H4. discriminate.
      + intros Hall pages Hp. destruct pages as [|p pages]; [discriminate|]. cbn [map] in Hp. injection Hp as -> ->.
        specialize (H5 Hall). cbn in H5. destruct H2 as (_ & K2 & K3 & _). rewrite K2, K3 in Hall. rewrite (I5 Hall pages eq_refl), H5, values_of_cons. lia.
  Qed.

  Lemma steps_drain k : forall r items r', steps (pr_next T m) r items r' -> 
    drain (pr_next T m) (length items + k) r = let* l := drain (pr_next T m) k r' in Ok (items ++ l).
  Proof.
    intros r items r' H. induction H as [r | r r1 a l r' Hn Hs IH]; cbn [length Nat.add app].
    - destruct (drain (pr_next T m) k r); reflexivity.
    - cbn [drain]. rewrite Hn. cbn [bind]. rewrite IH. destruct (drain (pr_next T m) k r'); reflexivity.
  Qed.
End resumed.

(** Calls of [next] on a chunk whose pages can be taken. *)
Lemma reader_steps T m r items r' : steps (pr_next T m) r items r' -> forall l rest, reader_ok T r l rest ->
  exists pre post, l = pre ++ post /\ items = map inl (map (as_read r) (filter (wanted_by r) pre)) /\
    needed (pr_total r - pr_seen r) l = pre ++ needed (pr_total r - pr_seen r - values_of pre) post /\
    reader_ok T r' post rest /\ pr_seen r' = (pr_seen r + values_of pre)%Z /\ pr_total r' = pr_total r.
Proof.
  induction 1 as [r | r r1 a items r' Hn Hs IH]; intros l rest Hok.
  - exists [], l. cbn [app filter map values_of fold_right]. rewrite Z.sub_0_r, Z.add_0_r. auto 8.
  - pose proof (pr_next_fuel_step T m l (S (length (pr_source r))) r rest Hok (Nat.lt_succ_diag_r _)) as Hst.
    fold (pr_next T m r) in Hst. destruct (filter (wanted_by r) (needed (pr_total r - pr_seen r) l)) as [|p w] eqn:Ew.
    { destruct Hst as (l' & seen & sc & H1 & _). rewrite Hn in H1. discriminate. }
    destruct Hst as (l' & seen & H1 & H2 & H3 & pre & H4 & H5 & H6). rewrite Hn in H1. apply Ok_inj in H1.
    apply pair_equal_spec in H1 as [H1 ->]. assert (Ea : a = inl (as_read r p)) by congruence.
    destruct (IH _ _ H2) as (pre2 & post & I1 & I2 & I3 & I4 & I5 & I6).
    change (wanted_by (pr_at r (chunk_bytes T l' ++ rest) seen [])) with (wanted_by r) in I2.
    change (as_read (pr_at r (chunk_bytes T l' ++ rest) seen [])) with (as_read r) in I2.
    cbn [pr_at pr_total pr_seen] in I3, I5, I6.
    assert (Hp : filter (wanted_by r) pre = [p]).
    { rewrite H5, filter_app, <- H3 in Ew. apply (app_inv_tail w). exact Ew. }
    assert (Hv : values_of (pre ++ pre2) = (values_of pre + values_of pre2)%Z).
    { clear. induction pre as [|q pre IHp]; cbn [app]; [reflexivity|]. rewrite !values_of_cons, IHp. lia. }
    exists (pre ++ pre2), post. split; [rewrite H4, I1, app_assoc; reflexivity|].
    split; [rewrite filter_app, Hp, !map_app, Ea, I2; reflexivity|].
    split; [rewrite H5, I3, <- app_assoc, Hv; do 3 f_equal; lia|]. split; [exact I4|]. split; [rewrite I5, Hv; lia | exact I6].
Qed.
