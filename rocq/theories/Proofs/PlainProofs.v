(** Lemmas for PLAIN values. *)
From Verif Require Import Base.Prelude Base.LeFacts Base.Iter Spec.PlainSpec Spec.StringsSpec
  Model.Types Model.Native Model.Plain Proofs.HybridRleProofs Proofs.DeltaEncProofs Proofs.TypesFacts.
Open Scope N_scope.

Lemma plain_string_length s : length (plain_string s) = (4 + length s)%nat.
Proof. unfold plain_string. now rewrite app_length, to_le_length. Qed.

(** One step over a well-formed string. *)
Lemma bi_next_string s rest n : nlen s < 2 ^ 32 ->
  bi_next (mk_bi (plain_string s ++ rest) n) = Ok (Some (inl s), mk_bi rest (option_map (fun x => x - 1) n)).
Proof.
  intro Hs. unfold bi_next. cbn [bi_values bi_length].
  assert (El : (length (plain_string s ++ rest) <? 4)%nat = false).
  { rewrite app_length, plain_string_length. apply Nat.ltb_ge. lia. }
  rewrite El. unfold slice_to. unfold plain_string.
  assert (E4 : (4 <=? length ((to_le 4 (nlen s) ++ s) ++ rest))%nat = true).
  { rewrite !app_length, to_le_length. apply Nat.leb_le. lia. }
  rewrite E4. rewrite <- app_assoc.
  assert (Ef : firstn 4 (to_le 4 (nlen s) ++ s ++ rest) = to_le 4 (nlen s)).
  { rewrite <- (to_le_length 4 (nlen s)) at 1. apply firstn_app_len. }
  rewrite Ef. cbn [bind]. rewrite le_to_le_small by exact Hs.
  assert (E5 : slice_from 4 (to_le 4 (nlen s) ++ s ++ rest) = Ok (s ++ rest)).
  { rewrite <- (to_le_length 4 (nlen s)) at 1. apply slice_from_app. }
  rewrite E5. cbn [bind]. rewrite nlen_app.
  destruct (N.ltb_spec (nlen s + nlen rest) (nlen s)) as [H|_]; [lia|].
  unfold nlen at 1. rewrite Nat2N.id, split_at_app. reflexivity.
Qed.

Lemma bi_roundtrip l : Forall (fun s => nlen s < 2 ^ 32) l ->
  yields bi_next (fun s rest => bi_size_hint s = (nlen rest, Some (nlen rest)))
    (mk_bi (plain_strings l) (Some (nlen l))) (map inl l).
Proof.
  induction l as [|s l IH]; intro H.
  - eapply yields_nil; reflexivity.
  - inversion H as [|? ? Hs Hl]; subst. cbn [map].
    unfold plain_strings. cbn [map concat]. fold (plain_strings l).
    eapply yields_cons.
    + unfold bi_size_hint, nlen. cbn [bi_length length]. rewrite map_length. reflexivity.
    + apply bi_next_string. exact Hs.
    + cbn [option_map]. replace (nlen (s :: l) - 1) with (nlen l) by (unfold nlen; cbn [length]; lia).
      apply IH. exact Hl.
Qed.

Lemma bi_roundtrip_none l : Forall (fun s => nlen s < 2 ^ 32) l ->
  yields bi_next (fun s _ => bi_size_hint s = (0, None)) (mk_bi (plain_strings l) None) (map inl l).
Proof.
  induction l as [|s l IH]; intro H.
  - eapply yields_nil; reflexivity.
  - inversion H as [|? ? Hs Hl]; subst. cbn [map].
    unfold plain_strings. cbn [map concat]. fold (plain_strings l).
    eapply yields_cons; [reflexivity|apply bi_next_string; exact Hs|]. apply IH. exact Hl.
Qed.

(** Arbitrary bytes. *)
Lemma bi_any n : forall values len, (length values <= n)%nat -> bytes_ok values ->
  exists items, yields bi_next (fun _ _ => True) (mk_bi values len) items /\
    plain_pieces values items /\ (4 * length items <= length values)%nat.
Proof.
  induction n as [|n IH]; intros values len Hn Hok.
  - destruct values; [|cbn in Hn; lia]. exists []. split; [|split].
    + eapply yields_nil; reflexivity.
    + constructor. cbn. lia.
    + cbn. lia.
  - destruct (Nat.ltb_spec (length values) 4) as [H4|H4].
    { exists []. split; [|split].
      - eapply yields_nil; [exact I|]. unfold bi_next. cbn [bi_values].
        destruct (Nat.ltb_spec (length values) 4); [reflexivity|lia].
      - constructor. exact H4.
      - cbn. lia. }
    set (head := firstn 4 values). set (rest := skipn 4 values).
    assert (Ev : values = head ++ rest) by (symmetry; apply firstn_skipn).
    assert (Hh : length head = 4%nat) by (apply firstn_length_le; exact H4).
    assert (Hrl : length rest = (length values - 4)%nat) by apply skipn_length.
    assert (Hh_ok : bytes_ok head) by (apply bytes_ok_firstn; exact Hok).
    assert (Hr_ok : bytes_ok rest) by (apply bytes_ok_skipn; exact Hok).
    assert (Hb : le head < 2 ^ 32).
    { pose proof (le_bound head Hh_ok) as Hb. unfold nlen in Hb. rewrite Hh in Hb. exact Hb. }
    destruct (N.ltb_spec (nlen rest) (le head)) as [Hbad|Hgood].
    + destruct (IH rest (option_map (fun x => x - 1) len)) as (items & Hy & Hp & Hl); [lia|exact Hr_ok|].
      exists (inr OutOfSpec :: items). split; [|split].
      * eapply yields_cons; [exact I| |exact Hy]. unfold bi_next. cbn [bi_values bi_length].
        destruct (Nat.ltb_spec (length values) 4); [lia|].
        unfold slice_to, slice_from. destruct (Nat.leb_spec 4 (length values)); [|lia].
        cbn [bind]. fold head rest. destruct (N.ltb_spec (nlen rest) (le head)); [reflexivity|lia].
      * rewrite Ev. apply pp_bad; assumption.
      * cbn [length]. lia.
    + set (k := N.to_nat (le head)).
      assert (Hk : (k <= length rest)%nat) by (unfold k, nlen in *; lia).
      destruct (IH (skipn k rest) (option_map (fun x => x - 1) len)) as (items & Hy & Hp & Hl).
      { rewrite skipn_length. lia. } { apply bytes_ok_skipn. exact Hr_ok. }
      exists (inl (firstn k rest) :: items).
      assert (Hfl : nlen (firstn k rest) = le head).
      { unfold nlen. rewrite firstn_length_le by exact Hk. unfold k. apply N2Nat.id. }
      assert (Ep : values = plain_string (firstn k rest) ++ skipn k rest).
      { unfold plain_string. rewrite Hfl, <- app_assoc, firstn_skipn. rewrite <- Hh, to_le_le by exact Hh_ok.
        exact Ev. }
      split; [|split].
      * eapply yields_cons; [exact I| |exact Hy]. rewrite Ep at 1. apply bi_next_string. rewrite Hfl. exact Hb.
      * rewrite Ep. constructor; [rewrite Hfl; exact Hb|exact Hp].
      * cbn [length]. rewrite skipn_length in Hl. lia.
Qed.

(** Native values. *)
Lemma native_to_le_length t v : length (native_to_le t v) = native_size t.
Proof.
  destruct t; cbn [native_to_le native_size]; try (apply to_le_length).
  destruct v as [[a b] c]. now rewrite !app_length, !to_le_length.
Qed.

Lemma native_to_le_ok t v : bytes_ok (native_to_le t v).
Proof.
  destruct t; cbn [native_to_le]; try apply to_le_ok.
  destruct v as [[a b] c]. rewrite !bytes_ok_app. repeat split; apply to_le_ok.
Qed.

Lemma of_to_signed w n : (0 < w) -> n < 2 ^ w -> of_signed w (to_signed w n) = n.
Proof.
  intros Hw Hn. unfold of_signed, to_signed.
  assert (Hz : Z.of_N (2 ^ w) = (2 ^ Z.of_N w)%Z) by (rewrite N2Z.inj_pow; reflexivity).
  destruct (N.ltb_spec n (2 ^ (w - 1))).
  - rewrite Z.mod_small by lia. apply N2Z.id.
  - replace (Z.of_N n - 2 ^ Z.of_N w)%Z with (Z.of_N n + (-1) * 2 ^ Z.of_N w)%Z by lia.
    rewrite Z.mod_add by lia. rewrite Z.mod_small by lia. apply N2Z.id.
Qed.

Lemma to_signed_range w n : (0 < w) -> n < 2 ^ w ->
  (- 2 ^ (Z.of_N w - 1) <= to_signed w n < 2 ^ (Z.of_N w - 1))%Z.
Proof.
  intros Hw Hn. unfold to_signed.
  assert (E : (2 ^ Z.of_N w = 2 * 2 ^ (Z.of_N w - 1))%Z) by (rewrite <- Z.pow_succ_r by lia; f_equal; lia).
  assert (Hz : Z.of_N (2 ^ w) = (2 ^ Z.of_N w)%Z) by (rewrite N2Z.inj_pow; reflexivity).
  assert (Hc : Z.of_N (2 ^ (w - 1)) = (2 ^ (Z.of_N w - 1))%Z) by (rewrite N2Z.inj_pow; f_equal; lia).
  destruct (N.ltb_spec n (2 ^ (w - 1))); lia.
Qed.

Lemma native_from_to t v : native_ok t v -> native_from_le t (native_to_le t v) = v.
Proof.
  destruct t; cbn [native_from_le native_to_le native_ok carrier] in *; intro H.
  - rewrite le_to_le_small.
    + apply wrap_s_in; [lia|]. exact H.
    + unfold of_signed. change (8 * N.of_nat 4) with 32.
      pose proof (Z.mod_pos_bound v (2 ^ Z.of_N 32) eq_refl) as Hm.
      change (2 ^ Z.of_N 32)%Z with 4294967296%Z in *. change (2 ^ 32) with 4294967296. lia.
  - rewrite le_to_le_small.
    + apply wrap_s_in; [lia|]. exact H.
    + unfold of_signed. change (8 * N.of_nat 8) with 64.
      pose proof (Z.mod_pos_bound v (2 ^ Z.of_N 64) eq_refl) as Hm.
      change (2 ^ Z.of_N 64)%Z with 18446744073709551616%Z in *. change (2 ^ 64) with 18446744073709551616. lia.
  - apply le_to_le_small. exact H.
  - apply le_to_le_small. exact H.
  - destruct v as [[a b] c]. destruct H as (Ha & Hb & Hc).
    assert (E1 : firstn 4 (to_le 4 a ++ to_le 4 b ++ to_le 4 c) = to_le 4 a).
    { rewrite <- (to_le_length 4 a) at 1. apply firstn_app_len. }
    assert (E2 : skipn 4 (to_le 4 a ++ to_le 4 b ++ to_le 4 c) = to_le 4 b ++ to_le 4 c).
    { rewrite <- (to_le_length 4 a) at 1. apply skipn_app_len. }
    assert (E3 : skipn 8 (to_le 4 a ++ to_le 4 b ++ to_le 4 c) = to_le 4 c).
    { rewrite app_assoc. replace 8%nat with (length (to_le 4 a ++ to_le 4 b)) at 1
        by (rewrite app_length, !to_le_length; reflexivity). apply skipn_app_len. }
    assert (E4 : firstn 4 (to_le 4 b ++ to_le 4 c) = to_le 4 b).
    { rewrite <- (to_le_length 4 b) at 1. apply firstn_app_len. }
    rewrite E1, E2, E3, E4, !le_to_le_small by assumption. reflexivity.
Qed.

Lemma native_to_from t l : bytes_ok l -> length l = native_size t ->
  native_ok t (native_from_le t l) /\ native_to_le t (native_from_le t l) = l.
Proof.
  intros Hok Hl. pose proof (le_bound l Hok) as Hb. unfold nlen in Hb. rewrite Hl in Hb.
  destruct t; cbn [native_from_le native_to_le native_ok native_size carrier] in *.
  - split; [apply (to_signed_range 32); [lia|exact Hb]|]. rewrite of_to_signed; [|lia|exact Hb].
    rewrite <- Hl. apply to_le_le. exact Hok.
  - split; [apply (to_signed_range 64); [lia|exact Hb]|]. rewrite of_to_signed; [|lia|exact Hb].
    rewrite <- Hl. apply to_le_le. exact Hok.
  - split; [exact Hb|]. rewrite <- Hl. apply to_le_le. exact Hok.
  - split; [exact Hb|]. rewrite <- Hl. apply to_le_le. exact Hok.
  - assert (L1 : length (firstn 4 l) = 4%nat) by (apply firstn_length_le; lia).
    assert (L2 : length (firstn 4 (skipn 4 l)) = 4%nat) by (apply firstn_length_le; rewrite skipn_length; lia).
    assert (L3 : length (skipn 8 l) = 4%nat) by (rewrite skipn_length; lia).
    assert (B : forall x, bytes_ok x -> length x = 4%nat -> le x < 2 ^ 32).
    { intros x Hx Hlx. pose proof (le_bound x Hx) as Hbx. unfold nlen in Hbx. rewrite Hlx in Hbx. exact Hbx. }
    assert (T : forall x, bytes_ok x -> length x = 4%nat -> to_le 4 (le x) = x).
    { intros x Hx Hlx. rewrite <- Hlx. apply to_le_le. exact Hx. }
    split.
    + repeat split; (apply B; [|assumption]); auto using bytes_ok_firstn, bytes_ok_skipn.
    + rewrite !T by auto using bytes_ok_firstn, bytes_ok_skipn.
      rewrite <- (firstn_skipn 4 l) at 4. f_equal.
      rewrite <- (firstn_skipn 4 (skipn 4 l)) at 2. f_equal.
      clear - Hl. do 8 (destruct l as [|? l]; [discriminate|]). reflexivity.
Qed.

Lemma native_size_pos t : (0 < native_size t)%nat.
Proof. destruct t; cbn; lia. Qed.

(** Chunks. *)
Lemma ce_next_app size c rest : length c = size ->
  ce_next (c ++ rest, size) = Ok (Some c, (rest, size)).
Proof.
  intro H. unfold ce_next. destruct (Nat.ltb_spec (length (c ++ rest)) size) as [Hl|_].
  - rewrite app_length in Hl. lia.
  - rewrite <- H at 1 2. now rewrite firstn_app_len, skipn_app_len.
Qed.

Lemma ce_yields size l rest : (0 < size)%nat -> Forall (fun c => length c = size) l -> (length rest < size)%nat ->
  yields ce_next (fun s items => ce_size_hint s = length items) (concat l ++ rest, size) l.
Proof.
  intros Hs Hl Hr. induction l as [|c l IH].
  - eapply yields_nil.
    + unfold ce_size_hint. cbn [fst snd concat app length]. apply Nat.div_small. exact Hr.
    + unfold ce_next. cbn [concat app]. destruct (Nat.ltb_spec (length rest) size); [reflexivity|lia].
  - inversion Hl as [|? ? Hc Hl']; subst. cbn [concat]. rewrite <- app_assoc.
    pose proof (IH Hl') as Hy. eapply yields_cons; [|apply ce_next_app; reflexivity|exact Hy].
    assert (Hh : ce_size_hint (concat l ++ rest, length c) = length l) by (inversion Hy; assumption).
    unfold ce_size_hint in *. cbn [fst snd length] in *. rewrite app_length.
    replace (length c + length (concat l ++ rest))%nat
      with (1 * length c + length (concat l ++ rest))%nat by lia.
    rewrite Nat.div_add_l by lia. rewrite Hh. reflexivity.
Qed.

Lemma split_chunks {A} size (l : list A) : (0 < size)%nat ->
  exists cs rest, l = concat cs ++ rest /\ Forall (fun c => length c = size) cs /\ (length rest < size)%nat.
Proof.
  intro Hs. remember (length l) as n eqn:En. revert l En.
  induction n as [n IH] using lt_wf_ind. intros l ->.
  destruct (Nat.ltb_spec (length l) size) as [H|H].
  - exists [], l. repeat split; [constructor|exact H].
  - destruct (IH (length (skipn size l))) with (l := skipn size l) as (cs & rest & E & Hc & Hr).
    + rewrite skipn_length. lia.
    + reflexivity.
    + exists (firstn size l :: cs), rest. split; [|split].
      * cbn [concat]. rewrite <- app_assoc, <- E. symmetry. apply firstn_skipn.
      * constructor; [apply firstn_length_le; exact H|exact Hc].
      * exact Hr.
Qed.

Lemma concat_length_eq {A} size (cs : list (list A)) : Forall (fun c => length c = size) cs ->
  length (concat cs) = (length cs * size)%nat.
Proof.
  induction cs as [|c cs IH]; intro H; [reflexivity|]. inversion H; subst.
  cbn [concat length]. rewrite app_length, IH by assumption. reflexivity.
Qed.

Lemma cast_yields t cs : Forall (fun c => length c = native_size t) cs ->
  yields (cast_next t) (fun s items => ce_size_hint s = length items)
    (concat cs, native_size t) (map (native_from_le t) cs).
Proof.
  intro Hc. pose proof (ce_yields (native_size t) cs [] (native_size_pos t) Hc (native_size_pos t)) as Hy.
  rewrite app_nil_r in Hy. revert Hc. generalize dependent (concat cs). intros s Hy.
  remember (s, native_size t) as st eqn:Est. clear s Est.
  induction Hy as [s s' HP Hn | s s' a l HP Hn Hy IH]; intro Hc.
  - eapply yields_nil; [exact HP|]. unfold cast_next. rewrite Hn. reflexivity.
  - inversion Hc as [|? ? Ha Hl]; subst. cbn [map]. eapply yields_cons.
    + cbn [length]. rewrite map_length. exact HP.
    + unfold cast_next. rewrite Hn. cbn [bind]. unfold native_decode. rewrite Ha, Nat.eqb_refl. reflexivity.
    + apply IH. exact Hl.
Qed.

(** Byte-string comparison. *)
Lemma ord_zip_refl a : ord_zip a a = Eq.
Proof. induction a as [|x a IH]; cbn [ord_zip]; [reflexivity|]. now rewrite N.compare_refl. Qed.

Lemma ord_zip_antisym a b : ord_zip b a = CompOpp (ord_zip a b).
Proof.
  revert b; induction a as [|x a IH]; intros [|y b]; cbn [ord_zip]; try reflexivity.
  rewrite (N.compare_antisym x y). destruct (x ?= y); cbn [CompOpp]; [apply IH|reflexivity|reflexivity].
Qed.

Lemma ord_zip_eq a b : ord_zip a b = Eq <-> (exists r, b = a ++ r) \/ (exists r, a = b ++ r).
Proof.
  revert b; induction a as [|x a IH]; intros b.
  - destruct b as [|y b]; cbn [ord_zip]; split; intros; try reflexivity; left; eexists; reflexivity.
  - destruct b as [|y b].
    + cbn [ord_zip]. split; [|reflexivity]. intros _. right. exists (x :: a). reflexivity.
    + cbn [ord_zip]. destruct (N.compare_spec x y) as [->|Hlt|Hlt].
      * rewrite IH. split; (intros [[r E]|[r E]]; [left|right]; exists r; [try (cbn; congruence)|try (cbn; congruence)]);
          cbn [app] in E; congruence.
      * split; [discriminate|]. intros [[r E]|[r E]]; cbn [app] in E; injection E as E _; lia.
      * split; [discriminate|]. intros [[r E]|[r E]]; cbn [app] in E; injection E as E _; lia.
Qed.

Lemma ord_zip_lt a b : ord_zip a b = Lt <-> lex_lt a b /\ ~ (exists r, b = a ++ r).
Proof.
  revert b; induction a as [|x a IH]; intros b.
  - destruct b; cbn [ord_zip]; (split; [discriminate|]); intros [_ H]; exfalso; apply H; eexists; reflexivity.
  - destruct b as [|y b]; cbn [ord_zip].
    + split; [discriminate|]. intros [H _]. inversion H.
    + destruct (N.compare_spec x y) as [->|Hlt|Hlt].
      * rewrite IH. split; intros [H1 H2]; split.
        -- now apply lex_tail.
        -- intros [r E]. cbn [app] in E. apply H2. exists r. congruence.
        -- inversion H1; subst; [lia|assumption].
        -- intros [r E]. apply H2. exists r. cbn [app]. congruence.
      * split; [|reflexivity]. intros _. split; [now apply lex_head|].
        intros [r E]. cbn [app] in E. injection E as E _. lia.
      * split; [discriminate|]. intros [H _]. inversion H; lia.
Qed.

Lemma lex_lt_irrefl a : ~ lex_lt a a.
Proof. induction a as [|x a IH]; intro H; inversion H; subst; [lia|auto]. Qed.

Lemma lex_lt_trans a b c : lex_lt a b -> lex_lt b c -> lex_lt a c.
Proof.
  intro H; revert c; induction H as [y l|x y l l' Hlt|x l l' H IH]; intros c Hc; inversion Hc; subst;
    try (constructor; fail); try (apply lex_head; lia); try (now apply lex_tail, IH).
Qed.

Lemma lex_total a b : lex_lt a b \/ a = b \/ lex_lt b a.
Proof.
  revert b; induction a as [|x a IH]; intros [|y b].
  - right; left; reflexivity.
  - left; constructor.
  - right; right; constructor.
  - destruct (N.lt_trichotomy x y) as [H|[->|H]].
    + left. now apply lex_head.
    + destruct (IH b) as [H|[->|H]]; [left|right; left|right; right]; try reflexivity; now apply lex_tail.
    + right; right. now apply lex_head.
Qed.

Lemma ord_binary_eq a b :
  ord_binary a b = Eq <-> a = b \/ (a <> [] /\ b <> [] /\ ((exists r, b = a ++ r) \/ (exists r, a = b ++ r))).
Proof.
  destruct a as [|x a], b as [|y b]; cbn [ord_binary].
  - split; [left; reflexivity|reflexivity].
  - split; [discriminate|]. intros [H|[H _]]; congruence.
  - split; [discriminate|]. intros [H|[_ [H _]]]; congruence.
  - rewrite ord_zip_eq. split.
    + intro H. right. repeat split; [discriminate|discriminate|exact H].
    + intros [->|[_ [_ H]]]; [|exact H]. left. exists []. now rewrite app_nil_r.
Qed.

Lemma ord_binary_lt a b :
  ord_binary a b = Lt <-> lex_lt a b /\ ~ (a <> [] /\ exists r, b = a ++ r).
Proof.
  destruct a as [|x a], b as [|y b]; cbn [ord_binary].
  - split; [discriminate|]. intros [H _]. inversion H.
  - split; [|reflexivity]. intros _. split; [constructor|]. intros [H _]. congruence.
  - split; [discriminate|]. intros [H _]. inversion H.
  - rewrite ord_zip_lt. split; intros [H1 H2]; split; try exact H1.
    + intros [_ H]. auto.
    + intros H. apply H2. split; [discriminate|exact H].
Qed.

Lemma ord_binary_antisym a b : ord_binary b a = CompOpp (ord_binary a b).
Proof. destruct a, b; cbn [ord_binary]; try reflexivity. apply ord_zip_antisym. Qed.
