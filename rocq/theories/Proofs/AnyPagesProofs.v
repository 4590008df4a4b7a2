From Verif Require Import Base.Prelude Base.Iter Model.Types Model.Thrift Model.Intervals Model.Page Model.Io
  Model.PageRead Spec.PagesSpec Spec.ForeignSpec Spec.AnyPagesSpec Spec.DeltaAnySpec Proofs.TypesFacts Proofs.CompressionProofs Proofs.PageIoProofs
  Proofs.PageReadProofs Proofs.ForeignProofs Proofs.SchemaProofs.
Open Scope N_scope.

Lemma page_type_cases z : 
  (z = 0%Z /\ page_type_of_thrift z = Ok PtData) \/ (z = 2%Z /\ page_type_of_thrift z = Ok PtDictionary) \/
  (z = 3%Z /\ page_type_of_thrift z = Ok PtDataV2) \/ (~ In z [0; 2; 3]%Z /\ page_type_of_thrift z = Err OutOfSpec).
Proof.
  destruct (Z.eq_dec z 0) as [->|H0]; [ tauto | ]. destruct (Z.eq_dec z 2) as [->|H2]; [ tauto | ].
  destruct (Z.eq_dec z 3) as [->|H3]; [ tauto | ]. right. right. right. split; [ cbn; intuition | ].
  unfold page_type_of_thrift. destruct z as [|[[p|p|]|[p|p|]|]|p]; try reflexivity; try contradiction; try (destruct p; reflexivity || contradiction).
Qed.
Lemma encoding_cases z : (known_encoding z /\ exists e, encoding_of_thrift z = Ok e) \/ (~ known_encoding z /\ encoding_of_thrift z = Err OutOfSpec).
Proof.
  destruct (encoding_of_thrift z) as [e|e|] eqn:E.
  - left. split; [ | eauto ]. unfold known_encoding. unfold encoding_of_thrift in E.
    repeat match type of E with context [match ?x with _ => _ end] => destruct x end; try discriminate E; lia.
  - right. split.
    + intros K. apply known_encoding_ok in K as [x K]. congruence.
    + f_equal. unfold encoding_of_thrift in E.
      repeat match type of E with context [match ?x with _ => _ end] => destruct x end; congruence.
  - exfalso. unfold encoding_of_thrift in E.
    repeat match type of E with context [match ?x with _ => _ end] => destruct x end; discriminate E.
Qed.

Lemma countable_cases h : (countable h /\ exists dh, get_page_header h = Ok dh) \/ (~ countable h /\ get_page_header h = Err OutOfSpec).
Proof.
  unfold countable, get_page_header. destruct (page_type_cases (ph_type h)) as [[-> E]|[[-> E]|[[-> E]|[N E]]]]; rewrite ?E; cbn [bind].
  - destruct (ph_data h) as [x|]; [ | right; split; [ intros (x & H & _); discriminate H | reflexivity ] ].
    destruct (encoding_cases (dh_encoding x)) as [[K1 [e1 E1]]|[K1 E1]]; rewrite E1; cbn [bind];
      [ | right; split; [ intros (y & H & H1 & _); injection H as <-; contradiction | reflexivity ] ].
    destruct (encoding_cases (dh_rep_encoding x)) as [[K2 [e2 E2]]|[K2 E2]]; rewrite E2; cbn [bind];
      [ | right; split; [ intros (y & H & _ & _ & H1); injection H as <-; contradiction | reflexivity ] ].
    destruct (encoding_cases (dh_def_encoding x)) as [[K3 [e3 E3]]|[K3 E3]]; rewrite E3; cbn [bind];
      [ | right; split; [ intros (y & H & _ & H1 & _); injection H as <-; contradiction | reflexivity ] ].
    left. split; [ exists x; auto | eauto ].
  - left. split; [ exact I | eauto ].
  - destruct (ph_data_v2 h) as [x|]; [ | right; split; [ intros (x & H & _); discriminate H | reflexivity ] ].
    destruct (encoding_cases (dh2_encoding x)) as [[K1 [e1 E1]]|[K1 E1]]; rewrite E1; cbn [bind];
      [ | right; split; [ intros (y & H & H1); injection H as <-; contradiction | reflexivity ] ].
    left. split; [ exists x; auto | eauto ].
  - right. split; [ | reflexivity ]. cbn in N. intros H. apply N.
    destruct (ph_type h) as [|[[p|p|]|[p|p|]|]|p]; try tauto; destruct p; tauto.
Qed.

Lemma try_usize_cases z : ((0 <= z)%Z /\ try_usize z = Ok (Z.to_N z)) \/ ((z < 0)%Z /\ try_usize z = Err OutOfSpec).
Proof. unfold try_usize. destruct (z <? 0)%Z eqn:E; [ right | left ]; split; try reflexivity; lia. Qed.

Definition told (h : t_page_header) (c : compression) (d : descriptor) (rows : option (list interval)) (p : compressed_page) : Prop :=
  ph_uncompressed_size h = Z.of_N (cp_uncompressed_size p) /\
  match p with
  | CData x =>
      cdp_compression x = c /\ cdp_descriptor x = d /\ cdp_selected x = rows /\
      match cdp_header x with
      | HV1 y => ph_type h = 0%Z /\ ph_data h = Some y
      | HV2 y => ph_type h = 3%Z /\ ph_data_v2 h = Some y
      end
  | CDict x =>
      cdi_compression x = c /\
      ph_type h = 2%Z /\ exists y, ph_dict h = Some y /\ dict_num_values y = Z.of_N (cdi_num_values x) /\
        (cdi_is_sorted x = true <-> dict_is_sorted y = Some true)
  end.
Lemma told_finish h data c d rows p : told h c d rows p -> cp_buffer p = data -> finish_page h data c d rows = Ok p.
Proof.
  intros (Hu & H) <-. unfold finish_page. rewrite Hu, try_usize_of. destruct p as [x|x]; cbn [cp_buffer cp_uncompressed_size].
  - destruct H as (<- & <- & <- & H). destruct x as [hd b cc u dd sel]. cbn in *.
    destruct hd; destruct H as [-> H]; cbn [page_type_of_thrift bind]; rewrite H; reflexivity.
  - destruct H as (<- & -> & y & H1 & H2 & H3). cbn [page_type_of_thrift bind]. rewrite H1, H2, try_usize_of. cbn [bind].
    destruct x as [b cc n u s]. cbn in *.
    replace (match dict_is_sorted y with Some b => b | None => false end) with s; [reflexivity|].
    destruct s; [rewrite (proj1 H3 eq_refl); reflexivity|]. destruct (dict_is_sorted y) as [[|]|]; try reflexivity. apply H3. reflexivity.
Qed.
Lemma finish_told h data c d rows : 
  (exists p, finish_page h data c d rows = Ok p /\ told h c d rows p /\ cp_buffer p = data) \/ 
  (finish_page h data c d rows = Err OutOfSpec /\ forall p, ~ told h c d rows p).
Proof.
  assert (D : (exists p, finish_page h data c d rows = Ok p /\ told h c d rows p /\ cp_buffer p = data) \/ finish_page h data c d rows = Err OutOfSpec).
  { unfold finish_page, told. destruct (page_type_cases (ph_type h)) as [[Et E]|[[Et E]|[[Et E]|[N E]]]]; rewrite E; cbn [bind]; [ | | | tauto ];
      (destruct (try_usize_cases (ph_uncompressed_size h)) as [[P Eu]|[P Eu]]; rewrite Eu; cbn [bind]; [ | tauto ]).
    - destruct (ph_data h) as [x|]; [ | tauto ]. left. eexists. split; [ reflexivity | ]. cbn. repeat split; auto; lia.
    - destruct (ph_dict h) as [x|]; [ | tauto ]. destruct (try_usize_cases (dict_num_values x)) as [[Q En]|[Q En]]; rewrite En; cbn [bind]; [ | tauto ].
      left. eexists. split; [ reflexivity | ]. cbn. split; [ | reflexivity ]. split; [ lia | ]. split; [ reflexivity | ]. split; [ assumption | ].
      exists x. split; [ reflexivity | ]. split; [ lia | ]. destruct (dict_is_sorted x) as [[|]|]; split; congruence.
    - destruct (ph_data_v2 h) as [x|]; [ | tauto ]. left. eexists. split; [ reflexivity | ]. cbn. repeat split; auto; lia. }
  destruct D as [D|D]; [ left; exact D | right ]. split; [ exact D | ]. intros p Hp.
  set (q := match p with CData x => CData (mk_cdp (cdp_header x) data (cdp_compression x) (cdp_uncompressed_size x) (cdp_descriptor x) (cdp_selected x))
                       | CDict x => CDict (mk_cdict data (cdi_compression x) (cdi_num_values x) (cdi_uncompressed_size x) (cdi_is_sorted x)) end).
  assert (Hq : told h c d rows q) by (destruct p; exact Hp).
  rewrite (told_finish h data c d rows q Hq) in D; [ discriminate D | destruct p; reflexivity ].
Qed.

Lemma told_describes h c d p : told h c d None p -> ph_compressed_size h = Z.of_N (nlen (cp_buffer p)) -> describes h p /\ of_column c d p.
Proof.
  intros (Hu & H) Hc. unfold describes, of_column, as_stored. destruct p as [x|x].
  - destruct H as (H1 & H2 & H3 & H4). split; [ repeat split; auto | ]. destruct x; cbn in *; subst; reflexivity.
  - destruct H as (H1 & H2 & H3). split; [ repeat split; auto | ]. destruct x; cbn in *; subst; reflexivity.
Qed.
Lemma describes_told h c d p : describes h p -> told h c d None (as_stored c d p).
Proof.
  intros (Hu & Hc & H). unfold told, as_stored. destruct p as [x|x]; cbn.
  - split; [ exact Hu | ]. repeat split; auto.
  - destruct H as [H1 H2]. split; [ exact Hu | ]. repeat split; auto.
Qed.

Lemma countable_known h c d rows p : countable h -> told h c d rows p -> known_encodings p.
Proof.
  unfold countable, known_encodings. intros Hc (_ & H). destruct p as [x|x]; [ | exact I ]. destruct H as (_ & _ & _ & H).
  destruct (cdp_header x); destruct H as [Ht H]; rewrite Ht in Hc; destruct Hc as (y & Hy & Hk); rewrite Hy in H; injection H as <-; assumption.
Qed.
Lemma known_countable h c d rows p : known_encodings p -> told h c d rows p -> countable h.
Proof.
  unfold countable, known_encodings. intros Hc (_ & H). destruct p as [x|x].
  - destruct H as (_ & _ & _ & H). destruct (cdp_header x) as [y|y]; destruct H as [Ht H]; rewrite Ht; exists y; auto.
  - destruct H as (_ & -> & _). exact I.
Qed.

Lemma counted_values T max bytes h rest c d rows p dh : counts_32 T -> t_dec T max bytes = Ok (h, rest) -> told h c d rows p ->
  get_page_header h = Ok dh -> (counted dh = values p /\ - 2 ^ 31 <= values p < 2 ^ 31)%Z.
Proof.
  intros HT Hd (_ & Ht) Hg. destruct (HT _ _ _ _ Hd) as [H1 H2].
  assert (W : forall z, (- 2 ^ 31 <= z < 2 ^ 31)%Z -> to_signed 64 (as_usize z) = z).
  { intros z Hz. change (to_signed 64 (as_usize z)) with (wrap_s 64 z). apply wrap_s_in; [ reflexivity | ].
    change (2 ^ 31)%Z with 2147483648%Z in Hz. change (2 ^ (Z.of_N 64 - 1))%Z with 9223372036854775808%Z. lia. }
  unfold get_page_header in Hg. destruct p as [x|x]; cbn [values].
  - destruct Ht as (_ & _ & _ & Ht). destruct (cdp_header x) as [y|y]; destruct Ht as [Et Ey]; rewrite Et, Ey in Hg; cbn [page_type_of_thrift bind] in Hg.
    + apply bind_ok in Hg as (e1 & _ & Hg). apply bind_ok in Hg as (e2 & _ & Hg). apply bind_ok in Hg as (e3 & _ & Hg). apply Ok_inj in Hg. subst dh.
      cbn [counted header_num_values]. rewrite W by auto. auto.
    + apply bind_ok in Hg as (e1 & _ & Hg). apply Ok_inj in Hg. subst dh. cbn [counted header_num_values]. rewrite W by auto. auto.
  - destruct Ht as (_ & Et & _). rewrite Et in Hg. cbn [page_type_of_thrift bind] in Hg. apply Ok_inj in Hg. subst dh. cbn [counted].
    split; [ reflexivity | ]. change (2 ^ 31)%Z with 2147483648%Z. lia.
Qed.
Lemma counted_32 T max bytes h rest dh : counts_32 T -> t_dec T max bytes = Ok (h, rest) ->
  get_page_header h = Ok dh -> (- 2 ^ 31 <= counted dh < 2 ^ 31)%Z.
Proof.
  intros HT Hd Hg. destruct (HT _ _ _ _ Hd) as [H1 H2].
  assert (W : forall z, (- 2 ^ 31 <= z < 2 ^ 31)%Z -> to_signed 64 (as_usize z) = z).
  { intros z Hz. change (to_signed 64 (as_usize z)) with (wrap_s 64 z). apply wrap_s_in; [ reflexivity | ].
    change (2 ^ 31)%Z with 2147483648%Z in Hz. change (2 ^ (Z.of_N 64 - 1))%Z with 9223372036854775808%Z. lia. }
  unfold get_page_header in Hg. apply bind_ok in Hg as (t & _ & Hg). destruct t.
  - destruct (ph_data h) as [y|]; [ | discriminate Hg ].
    apply bind_ok in Hg as (e1 & _ & Hg). apply bind_ok in Hg as (e2 & _ & Hg). apply bind_ok in Hg as (e3 & _ & Hg). apply Ok_inj in Hg. subst dh.
    cbn [counted header_num_values]. rewrite W by auto. auto.
  - destruct (ph_data_v2 h) as [y|]; [ | discriminate Hg ].
    apply bind_ok in Hg as (e1 & _ & Hg). apply Ok_inj in Hg. subst dh. cbn [counted header_num_values]. rewrite W by auto. auto.
  - apply Ok_inj in Hg. subst dh. cbn [counted]. change (2 ^ 31)%Z with 2147483648%Z. lia.
Qed.

(** One call of [build_page]. *)
Lemma build_any T m r :
  (forall max s, t_dec T max s <> Panic) -> counts_32 T ->
  (Z.abs (pr_seen r) + 2 ^ 31 < 2 ^ 63)%Z ->
  (exists p rest, build_page T m r = (rest, (pr_seen r + values p)%Z, Ok p) /\ page_in_front T (pr_max r) (pr_source r) p rest /\
     of_column (pr_compression r) (pr_descriptor r) p /\ (- 2 ^ 31 <= values p < 2 ^ 31)%Z) \/
  (exists source seen e, build_page T m r = (source, seen, Err e) /\ (forall p rest, ~ page_in_front T (pr_max r) (pr_source r) p rest) /\
     complaint T (pr_max r) (pr_source r) e).
Proof.
  intros Hnp HT Hb. unfold build_page, page_in_front, complaint. specialize (Hnp (pr_max r) (pr_source r)).
  destruct (t_dec T (pr_max r) (pr_source r)) as [[h more]|e|] eqn:Ed; [ | | congruence ].
  2:{ right. do 3 eexists. split; [ reflexivity | ]. split; [ | left; reflexivity ]. intros p rest (h & x & H & _). discriminate H. }
  destruct (countable_cases h) as [[Hc [dh Hg]]|[Hc Hg]]; rewrite Hg.
  2:{ right. do 3 eexists. split; [ reflexivity | ]. split.
      - intros p rest (h' & x & H & Hd & Hk & _). assert (h' = h) by congruence. subst h'.
        apply (describes_told h (pr_compression r) (pr_descriptor r)) in Hd. apply Hc. apply (known_countable h (pr_compression r) (pr_descriptor r) None _) in Hd; [ exact Hd | destruct p; exact Hk ].
      - right. exists h, more. split; [ reflexivity | ]. right. split; [ | reflexivity ]. intros [H _]. contradiction. }
  pose proof (counted_32 _ _ _ _ _ _ HT Ed Hg) as Hn.
  rewrite sadd_ok.
  2:{ unfold in_s. cbn. change (2 ^ 31)%Z with 2147483648%Z in *. change (2 ^ 63)%Z with 9223372036854775808%Z in *. clear - Hb Hn. lia. }
  destruct (try_usize_cases (ph_compressed_size h)) as [[P Ec]|[P Ec]]; rewrite Ec.
  2:{ right. do 3 eexists. split; [ reflexivity | ]. split.
      - intros p rest (h' & x & H & (_ & Hd & _) & _). assert (h' = h) by congruence. subst h'. lia.
      - right. exists h, more. split; [ reflexivity | ]. right. split; [ | reflexivity ]. intros [_ H]. lia. }
  destruct (pr_max r <? Z.to_N (ph_compressed_size h)) eqn:Em.
  { right. do 3 eexists. split; [ reflexivity | ]. split.
    - intros p rest (h' & x & H & (_ & Hd & _) & _ & Hm & _). assert (h' = h) by congruence. subst h'. lia.
    - right. exists h, more. split; [ reflexivity | ]. left. split; [ exact Hc | ]. split; [ lia | reflexivity ]. }
  cbv zeta. set (n := N.to_nat (Z.to_N (ph_compressed_size h))).
  destruct (nlen (firstn n more) =? Z.to_N (ph_compressed_size h)) eqn:El.
  2:{ right. do 3 eexists. split; [ reflexivity | ]. split.
      - intros p rest (h' & x & H & (_ & Hd & _) & _ & Hm & Hr). assert (h' = h) by congruence. assert (x = more) by congruence. subst h' x.
        apply N.eqb_neq in El. apply El. subst more. unfold nlen in *. rewrite firstn_length, app_length. subst n. lia.
      - right. exists h, more. split; [ reflexivity | ]. right. split; [ | reflexivity ]. intros [_ H]. lia. }
  apply N.eqb_eq in El.
  destruct (finish_told h (firstn n more) (pr_compression r) (pr_descriptor r) None) as [(p & Hf & Ht & Hbuf)|[Hf Hno]]; rewrite Hf.
  - left. destruct (counted_values _ _ _ _ _ _ _ _ _ _ HT Ed Ht Hg) as [Hv Hv']. exists p, (skipn n more). split; [ rewrite Hv; reflexivity | ].
    destruct (told_describes _ _ _ _ Ht) as [Hd Ho]; [ rewrite Hbuf, El; lia | ].
    split; [ | split; [ exact Ho | exact Hv' ] ]. exists h, more. split; [ reflexivity | ]. split; [ exact Hd | ].
    split; [ eapply countable_known; eassumption | ]. rewrite Hbuf. split; [ rewrite El; lia | symmetry; apply firstn_skipn ].
  - right. do 3 eexists. split; [ reflexivity | ]. split.
    + intros p rest (h' & x & H & Hd & _). assert (h' = h) by congruence. subst h'. apply (describes_told h (pr_compression r) (pr_descriptor r)) in Hd.
      eapply Hno. exact Hd.
    + right. exists h, more. split; [ reflexivity | ]. right. split; [ | reflexivity ]. intros [_ H]. lia.
Qed.

(** The result does not depend on the fuel. *)
Lemma fuel_enough T m : (forall max s h rest, t_dec T max s = Ok (h, rest) -> (length rest < length s)%nat) ->
  forall f1 f2 r, (length (pr_source r) < f1)%nat -> (length (pr_source r) < f2)%nat -> pr_next_fuel T m f1 r = pr_next_fuel T m f2 r.
Proof.
  intros Hc. induction f1 as [|f1 IH]; intros [|f2] r H1 H2; try lia. cbn [pr_next_fuel].
  destruct (pr_total r <=? pr_seen r)%Z; [ reflexivity | ].
  destruct (build_page T m r) as [[source seen] [[d|d]| |]] eqn:Eb; try reflexivity.
  destruct (pr_filter r (pr_descriptor r) (cdp_header d)); [ reflexivity | ].
  apply build_page_inv in Eb as (h & rest & dh & n & Hd & _ & _ & _ & _ & _ & Hs & _). pose proof (Hc _ _ _ _ Hd) as Hl.
  assert (length source <= length rest)%nat by (subst source; rewrite skipn_length; lia).
  apply IH; cbn [pr_at pr_source]; lia.
Qed.

Lemma outcome_first {S A} (next : S -> res (option (A + error) * S)) s s0 l e : next s = next s0 -> outcome next s0 l e -> outcome next s l e.
Proof.
  intros E. unfold outcome. destruct e as [x|].
  - intros (s' & H). exists s'. destruct (map inl l ++ [inr x]) eqn:El; [ destruct l; discriminate El | ]. inversion H; subst.
    econstructor; [ rewrite E; eassumption | eassumption ].
  - intros (s' & H). exists s'. eapply runs_first; eassumption.
Qed.
Lemma outcome_cons {S A} (next : S -> res (option (A + error) * S)) s s0 a l e : next s = Ok (Some (inl a), s0) -> outcome next s0 l e -> outcome next s (a :: l) e.
Proof.
  intros E. unfold outcome. destruct e as [x|]; intros (s' & H); exists s'; econstructor; eassumption.
Qed.

Lemma front_shrinks T max bytes p rest : (forall max s h rest, t_dec T max s = Ok (h, rest) -> (length rest < length s)%nat) ->
  page_in_front T max bytes p rest -> (length rest < length bytes)%nat.
Proof.
  intros Hc (h & more & Hd & _ & _ & _ & ->). apply Hc in Hd. rewrite app_length in Hd. lia.
Qed.

Lemma reader_any T m : (forall max s, t_dec T max s <> Panic) -> counts_32 T ->
  (forall max s h rest, t_dec T max s = Ok (h, rest) -> (length rest < length s)%nat) ->
  forall n r, (length (pr_source r) < n)%nat -> (Z.abs (pr_seen r) + 2 ^ 31 * Z.of_nat n < 2 ^ 63)%Z ->
  exists l e, chunk_pages T (pr_max r) (pr_compression r) (pr_descriptor r) (pr_filter r (pr_descriptor r)) (pr_total r) (pr_seen r) (pr_source r) l e /\
    outcome (pr_next T m) r l e.
Proof.
  intros Hnp HT Hc. induction n as [|n IH]; intros r Hl Hb; [ lia | ].
  destruct (Z.le_gt_cases (pr_total r) (pr_seen r)) as [Ht|Ht].
  { exists [], None. split; [ constructor; exact Ht | ]. exists r. constructor. unfold pr_next. cbn [pr_next_fuel].
    replace (pr_total r <=? pr_seen r)%Z with true by lia. reflexivity. }
  destruct (build_any T m r Hnp HT) as [(p & rest & Eb & Hf & Ho & Hv)|(source & seen & e & Eb & Hno & Hcp)].
  { change (2 ^ 31)%Z with 2147483648%Z in *. change (2 ^ 63)%Z with 9223372036854775808%Z in *. lia. }
  - pose proof (front_shrinks _ _ _ _ _ Hc Hf) as Hs.
    set (r' := pr_at r rest (pr_seen r + values p) []).
    destruct (IH r') as (l & e & Hch & Hout).
    { cbn [r' pr_at pr_source]. lia. }
    { cbn [r' pr_at pr_seen]. change (2 ^ 31)%Z with 2147483648%Z in *. change (2 ^ 63)%Z with 9223372036854775808%Z in *. lia. }
    exists (if wanted (pr_filter r (pr_descriptor r)) p then p :: l else l), e. split.
    { eapply chunk_page; eassumption. }
    assert (En : pr_next T m r = if wanted (pr_filter r (pr_descriptor r)) p then Ok (Some (inl p), r') else pr_next T m r').
    { unfold pr_next at 1. cbn [pr_next_fuel]. replace (pr_total r <=? pr_seen r)%Z with false by lia. rewrite Eb. fold r'.
      destruct p as [d|d]; cbn [wanted]; [ | reflexivity ]. destruct (pr_filter r (pr_descriptor r) (cdp_header d)); [ reflexivity | ].
      unfold pr_next. apply fuel_enough; [ exact Hc | cbn [r' pr_at pr_source]; lia | lia ]. }
    destruct (wanted (pr_filter r (pr_descriptor r)) p).
    + eapply outcome_cons; eassumption.
    + eapply outcome_first; eassumption.
  - exists [], (Some e). split; [ constructor; assumption | ]. exists (pr_at r source seen []). cbn [map app]. econstructor; [ | constructor ].
    unfold pr_next. cbn [pr_next_fuel]. replace (pr_total r <=? pr_seen r)%Z with false by lia. rewrite Eb. reflexivity.
Qed.

Lemma front_unique T max c d bytes p rest p' rest' : page_in_front T max bytes p rest -> of_column c d p -> page_in_front T max bytes p' rest' -> of_column c d p' ->
  p = p' /\ rest = rest'.
Proof.
  intros (h & more & E1 & D1 & _ & _ & M1) O1 (h' & more' & E2 & D2 & _ & _ & M2) O2.
  assert (h' = h) by congruence. assert (Em : more' = more) by congruence. rewrite Em in M2. clear Em E2 more'. subst h'.
  assert (B : cp_buffer p = cp_buffer p' /\ rest = rest').
  { destruct D1 as (_ & L1 & _). destruct D2 as (_ & L2 & _). assert (length (cp_buffer p) = length (cp_buffer p')) by (unfold nlen in *; lia).
    rewrite M1 in M2. clear - M2 H. revert H M2. generalize (cp_buffer p) (cp_buffer p'). induction l as [|a l IH]; intros [|b k] H E; try discriminate H; cbn in *.
    - auto.
    - injection E as -> E. destruct (IH k) as [-> ->]; auto. }
  destruct B as [B ->]. split; [ | reflexivity ].
  apply (describes_told h c d) in D1. apply (describes_told h c d) in D2. rewrite O1 in D1. rewrite O2 in D2.
  apply (told_finish h (cp_buffer p)) in D1; [ | reflexivity ]. apply (told_finish h (cp_buffer p)) in D2; [ | symmetry; exact B ]. congruence.
Qed.
Lemma complaint_unique T max bytes e e' : complaint T max bytes e -> complaint T max bytes e' -> e = e'.
Proof.
  intros [H|(h & more & E & H)] [H'|(h' & more' & E' & H')]; try congruence.
  assert (h' = h) by congruence. subst h'. destruct H as [(C & L & ->)|[N ->]]; destruct H' as [(C' & L' & ->)|[N' ->]]; try reflexivity; tauto.
Qed.
Lemma chunk_pages_unique T max c d keep total seen bytes l e : chunk_pages T max c d keep total seen bytes l e ->
  forall l' e', chunk_pages T max c d keep total seen bytes l' e' -> l' = l /\ e' = e.
Proof.
  induction 1 as [seen bytes H|seen bytes e H Hno Hc|seen bytes p rest l e H Hf Ho Hch IH]; intros l' e' H'; inversion H'; subst; try lia; auto.
  - split; [ reflexivity | ]. f_equal. eapply complaint_unique; eassumption.
  - exfalso. eapply Hno. eassumption.
  - exfalso. match goal with H : forall p rest, ~ page_in_front _ _ _ p rest |- _ => eapply H; eassumption end.
  - match goal with Hf' : page_in_front _ _ bytes ?q ?s, Ho' : of_column _ _ ?q |- _ => destruct (front_unique _ _ _ _ _ _ _ _ _ Hf Ho Hf' Ho') as [<- <-] end.
    match goal with Hx : chunk_pages _ _ _ _ _ _ _ rest _ _ |- _ => apply IH in Hx; destruct Hx as [-> ->] end. auto.
Qed.

(** * Through an index *)
Lemma located_told T c d located rows p h data : t_dec T 1048576 located = Ok (h, data) ->
  located_page T c d located rows p <-> told h c d rows p /\ cp_buffer p = data.
Proof.
  intros E. unfold located_page, told. split.
  - intros (h' & data' & E' & H). assert (h' = h) by congruence. assert (data' = data) by congruence. subst. tauto.
  - intros [H1 H2]. exists h, data. tauto.
Qed.
Lemma item_located T c d located rows : (forall max s, t_dec T max s <> Panic) ->
  exists i, located_item T c d located rows i /\
    forall St (s : St), item (let* (h, data) := t_dec T 1048576 located in finish_page h data c d rows) s = Ok (Some i, s).
Proof.
  intros Hnp. specialize (Hnp 1048576 located). destruct (t_dec T 1048576 located) as [[h data]|e|] eqn:E; [ | | congruence ]; cbn [bind].
  - destruct (finish_told h data c d rows) as [(p & Hf & Ht)|[Hf Hno]]; rewrite Hf; cbn [item].
    + exists (inl p). split; [ | reflexivity ]. cbn [located_item]. apply (located_told _ _ _ _ _ _ _ _ E). exact Ht.
    + exists (inr OutOfSpec). split; [ | reflexivity ]. cbn [located_item]. split; [ | right; split; [ eauto | reflexivity ] ].
      intros p Hp. apply (located_told _ _ _ _ _ _ _ _ E) in Hp as [Hp _]. exact (Hno p Hp).
  - exists (inr e). split; [ | reflexivity ]. cbn [located_item]. split; [ | left; exact E ].
    intros p (h & data & E' & _). congruence.
Qed.
Lemma dictionary_located T c d located : (forall max s, t_dec T max s <> Panic) ->
  exists i, located_dictionary T c d located i /\
    forall St (s : St), item (let* (h, data) := t_dec T 1048576 located in
      let* p := finish_page h data c d None in match p with CDict p => Ok (CDict p) | CData _ => Err OutOfSpec end) s = Ok (Some i, s).
Proof.
  intros Hnp. specialize (Hnp 1048576 located). destruct (t_dec T 1048576 located) as [[h data]|e|] eqn:E; [ | | congruence ]; cbn [bind].
  - destruct (finish_told h data c d None) as [(p & Hf & Ht)|[Hf Hno]]; rewrite Hf; cbn [bind].
    + destruct p as [x|x]; cbn [item].
      * exists (inr OutOfSpec). split; [ | reflexivity ]. cbn [located_dictionary]. split; [ | right; split; [ eauto | reflexivity ] ].
        intros y Hy. apply (located_told _ _ _ _ _ _ _ _ E) in Hy as [Hy Hb]. apply (told_finish h data c d None) in Hy; [ congruence | exact Hb ].
      * exists (inl (CDict x)). split; [ | reflexivity ]. cbn [located_dictionary]. split; [ | eauto ]. apply (located_told _ _ _ _ _ _ _ _ E). exact Ht.
    + exists (inr OutOfSpec). split; [ | reflexivity ]. cbn [located_dictionary]. split; [ | right; split; [ eauto | reflexivity ] ].
      intros p Hp. apply (located_told _ _ _ _ _ _ _ _ E) in Hp as [Hp _]. exact (Hno _ Hp).
  - exists (inr e). split; [ | reflexivity ]. cbn [located_dictionary]. split; [ | left; exact E ].
    intros p (h & data & E' & _). congruence.
Qed.

Lemma read_at_bytes file start len : read_at file start len = bytes_at file start len.
Proof. reflexivity. Qed.

Lemma next_data_pages T f s c d ps st ps' st' : forall l, ir_next_data T (mk_ir f s c d ps st) l = ir_next_data T (mk_ir f s c d ps' st') l.
Proof.
  induction l as [|p l IH]; [ reflexivity | ]. cbn [ir_next_data]. destruct (fp_selected p); [ exact IH | reflexivity ].
Qed.
Lemma indexed_data_any T m : (forall max s, t_dec T max s <> Panic) -> forall pages file start c d,
  exists items r', runs (ir_next T m) (mk_ir file start c d pages Data) items r' /\
    Forall2 (fun p i => located_item T c d (bytes_at file (fp_start p) (fp_length p)) (Some (fp_selected p)) i) (with_rows pages) items.
Proof.
  intros Hnp. induction pages as [|p pages IH]; intros file start c d.
  - exists [], (mk_ir file start c d [] Data). split; [ constructor; reflexivity | constructor ].
  - destruct (IH file start c d) as (items & r' & Hr & Hf). cbn [with_rows filter]. destruct (fp_selected p) as [|iv sel] eqn:Es.
    + exists items, r'. split; [ | exact Hf ]. eapply runs_first; [ | exact Hr ]. unfold ir_next. cbn [ir_state ir_pages ir_next_data]. rewrite Es.
      apply next_data_pages.
    + destruct (item_located T c d (bytes_at file (fp_start p) (fp_length p)) (Some (fp_selected p)) Hnp) as (i & Hi & Hitem).
      exists (i :: items), r'. split; [ | constructor; [ exact Hi | exact Hf ] ]. econstructor; [ | exact Hr ].
      unfold ir_next. cbn [ir_state ir_pages ir_next_data ir_file ir_column_start ir_compression ir_descriptor]. rewrite Es.
      unfold read_page_at. rewrite read_at_bytes. rewrite Es in Hitem. apply Hitem.
Qed.
Lemma indexed_any T m : (forall max s, t_dec T max s <> Panic) -> forall pages file start c d,
  match pages with p :: _ => start <= fp_start p | [] => True end ->
  exists dict items r', runs (ir_next T m) (ir_new file start c d pages) (dict ++ items) r' /\
    match pages with
    | p :: _ => if start <? fp_start p then exists i, dict = [i] /\ located_dictionary T c d (bytes_at file start (fp_start p - start)) i else dict = []
    | [] => dict = []
    end /\
    Forall2 (fun p i => located_item T c d (bytes_at file (fp_start p) (fp_length p)) (Some (fp_selected p)) i) (with_rows pages) items.
Proof.
  intros Hnp pages file start c d Hs. destruct (indexed_data_any T m Hnp pages file start c d) as (items & r' & Hr & Hf).
  destruct pages as [|p pages].
  - exists [], items, r'. split; [ | split; [ reflexivity | exact Hf ] ]. eapply runs_first; [ | exact Hr ]. reflexivity.
  - assert (Hu : usub m 64 (fp_start p) start = Ok (fp_start p - start)).
    { unfold usub. replace (start <=? fp_start p) with true by lia. destruct m; reflexivity. }
    destruct (start <? fp_start p) eqn:E.
    + destruct (dictionary_located T c d (bytes_at file start (fp_start p - start)) Hnp) as (i & Hi & Hitem).
      exists [i], items, r'. split; [ | split; [ exists i; auto | exact Hf ] ]. cbn [app]. econstructor; [ | exact Hr ].
      unfold ir_new, ir_next, read_dict. cbn [ir_state ir_pages ir_file ir_column_start ir_compression ir_descriptor]. rewrite Hu. cbn [bind].
      replace (0 <? fp_start p - start) with true by lia. cbn [bind]. unfold read_page_at. rewrite read_at_bytes. apply Hitem.
    + exists [], items, r'. split; [ | split; [ reflexivity | exact Hf ] ]. cbn [app]. eapply runs_first; [ | exact Hr ].
      unfold ir_new, ir_next, read_dict. cbn [ir_state ir_pages ir_file ir_column_start ir_compression ir_descriptor]. rewrite Hu. cbn [bind].
      replace (0 <? fp_start p - start) with false by lia. apply next_data_pages.
Qed.
