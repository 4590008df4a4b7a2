(** The buffers that the reusing decompressor and compressor hand back, and what they show after an error. *)
From Verif Require Import Base.Prelude Model.Types Model.Thrift Model.Page Base.Iter Model.Compression Model.PageRead Spec.PagesSpec Spec.CompressionSpec Proofs.SchemaProofs Proofs.CompressionProofs Proofs.EndToEndProofs.
Open Scope N_scope.

Lemma dec_trace_run {S} C m (P : page_iter S) : forall caps d,
  dec_run C m P caps d = let* (l, _) := dec_trace C m P caps d in Ok (map (fun x => match fst x with Some e => inr e | None => inl (snd x) end) l).
Proof.
  induction caps as [|cap caps IH]; intros d; [ reflexivity | ]. cbn [dec_run dec_trace]. destruct (dec_advance C m P cap d) as [[e d']| |]; cbn [bind]; try reflexivity.
  rewrite IH. destruct (dec_trace C m P caps d') as [[l d'']| |]; cbn [bind map fst snd]; reflexivity.
Qed.
Lemma comp_trace_run C m : forall n c,
  comp_run C m n c = let* (l, _) := comp_trace C m n c in Ok (map (fun x => match fst x with Some e => inr e | None => inl (snd x) end) l).
Proof.
  induction n as [|n IH]; intros c; [ reflexivity | ]. cbn [comp_run comp_trace]. destruct (comp_advance C m c) as [[e c']| |]; cbn [bind]; try reflexivity.
  rewrite IH. destruct (comp_trace C m n c') as [[l c'']| |]; cbn [bind map fst snd]; reflexivity.
Qed.

Lemma comp_back C m o : forall n items buffer current l c,
  comp_trace C m n (mk_comp items o buffer current) = Ok (l, c) -> comp_into_inner c = (skipn n items, []).
Proof.
  induction n as [|n IH]; intros items buffer current l c; cbn [comp_trace].
  { intros [= <- <-]. unfold comp_into_inner. cbn [co_items co_current skipn]. unfold clear. reflexivity. }
  unfold comp_advance. cbn [co_current co_items co_options co_buffer].
  set (pre := match current with Some p => _ | None => _ end). clearbody pre. destruct pre as [[b buffer'] current']. intros H.
  apply bind_ok in H as ([e c'] & H1 & H). apply bind_ok in H as ([l' c''] & H2 & H). injection H as <- <-.
  destruct items as [|[p|e'] items].
  - injection H1 as <- <-. rewrite (IH _ _ _ _ _ H2). rewrite skipn_nil. reflexivity.
  - destruct (compress C m p (clear b) o) as [cp|e'|]; [ | | discriminate ]; injection H1 as <- <-; rewrite (IH _ _ _ _ _ H2); reflexivity.
  - injection H1 as <- <-. rewrite (IH _ _ _ _ _ H2). reflexivity.
Qed.

(** What [get] shows. *)
Lemma dec_advance_failed {S} C m (P : page_iter S) cap d e d' : dec_advance C m P cap d = Ok (Some e, d') ->
  match de_current d with
  | None => de_current d' = None
  | Some p => de_current d' = Some (set_page_buffer (if de_was d then [] else snd (pi_swap P (de_iter d) (page_buffer p))) p)
  end.
Proof.
  unfold dec_advance.
  set (pre := match de_current d with Some p => _ | None => _ end).
  assert (Hpre : snd pre = option_map (fun p => set_page_buffer (if de_was d then [] else snd (pi_swap P (de_iter d) (page_buffer p))) p) (de_current d)).
  { subst pre. destruct (de_current d) as [p|]; [ | reflexivity ]. cbn [option_map]. destruct (de_was d); [ reflexivity | ]. destruct (pi_swap P (de_iter d) (page_buffer p)). reflexivity. }
  clearbody pre. destruct pre as [[it buffer] current]. cbn [snd] in Hpre. intros H. apply bind_ok in H as ([item it'] & _ & H).
  assert (Hd : de_current d' = current).
  { destruct item as [[cp|e']|]; [ | | discriminate ].
    - destruct (decompress_buffer C m cap cp buffer) as [[cp' b'] [w|e'|]]; [ discriminate | | discriminate ]. injection H as _ <-. reflexivity.
    - injection H as _ <-. reflexivity. }
  rewrite Hd, Hpre. destruct (de_current d); reflexivity.
Qed.
Lemma comp_advance_failed C m c e c' : comp_advance C m c = Ok (Some e, c') -> co_current c' = option_map (set_cp_buffer []) (co_current c).
Proof.
  unfold comp_advance. set (pre := match co_current c with Some p => _ | None => _ end).
  assert (Hpre : snd pre = option_map (set_cp_buffer []) (co_current c)) by (subst pre; destruct (co_current c); reflexivity).
  clearbody pre. destruct pre as [[b buffer] current]. cbn [snd] in Hpre. rewrite <- Hpre. destruct (co_items c) as [|[p|e'] r]; [ discriminate | | ].
  - destruct (compress C m p (clear b) (co_options c)); [ discriminate | | discriminate ]. intros [= _ <-]. reflexivity.
  - intros [= _ <-]. reflexivity.
Qed.

(** * The decompressor's buffers *)
Lemma decompress_buffer_was C m cap p b p' b' w : decompress_buffer C m cap p b = (p', b', Ok w) ->
  (cp_compression p = Uncompressed /\ w = false /\ create_page p' b' = create_page p (cp_buffer p) /\ b' = cp_buffer p) \/
  (cp_compression p <> Uncompressed /\ w = true /\ p' = p).
Proof.
  unfold decompress_buffer. destruct (cp_compression p) eqn:E.
  { intros [= <- <- <-]. left. split; [ reflexivity | ]. split; [ reflexivity | ]. split; [ destruct p; reflexivity | reflexivity ]. }
  all: match goal with |- (let (_, _) := ?x in _) = _ -> _ => destruct x as [buf r] end; intros [= <- _ H]; right; (split; [ discriminate | ]); destruct r; try discriminate; injection H as <-; auto.
Qed.
Lemma create_page_buffer p b : page_buffer (create_page p b) = b.
Proof. destruct p; reflexivity. Qed.

Definition holds_buffers {S} (P : page_iter S) (scratch : S -> list N) (d : decompressor S) (page_b dec_b : list N) : Prop :=
  match de_current d with
  | None => scratch (de_iter d) = page_b /\ de_buffer d = dec_b
  | Some p => if de_was d then scratch (de_iter d) = page_b /\ page_buffer p = dec_b else page_buffer p = page_b /\ de_buffer d = dec_b
  end.
Lemma holds_after {S} C m (P : page_iter S) scratch R cap d l page_b dec_b e d' :
  keeps_scratch P R scratch -> serves P R -> R (de_iter d) l -> holds_buffers P scratch d page_b dec_b -> dec_advance C m P cap d = Ok (e, d') -> e = None ->
  match l with
  | [] => de_current d' = None /\ R (de_iter d') [] /\ holds_buffers P scratch d' page_b dec_b
  | inl cp :: l => exists p, de_current d' = Some p /\ R (de_iter d') l /\
      holds_buffers P scratch d' (cp_buffer cp) (match cp_compression cp with Uncompressed => [] | _ => page_buffer p end)
  | inr _ :: _ => False
  end.
Proof.
  intros [Hk1 Hk2] (Hsw & Hnil & Hcons) HR Hh H ->. unfold dec_advance in H.
  set (pre := match de_current d with Some p => _ | None => _ end) in H.
  assert (Hpre : R (fst (fst pre)) l /\ scratch (fst (fst pre)) = page_b /\ snd (fst pre) = dec_b).
  { subst pre. unfold holds_buffers in Hh. destruct (de_current d) as [p|]; [ | cbn [fst snd]; tauto ]. destruct (de_was d); [ cbn [fst snd]; tauto | ].
    destruct Hh as [E1 E2]. specialize (Hsw (de_iter d) l (page_buffer p) HR). destruct (Hk1 (de_iter d) (page_buffer p)) as [_ Hk]. destruct (pi_swap P (de_iter d) (page_buffer p)) as [it b].
    cbn [fst snd] in *. rewrite Hk. auto. }
  clearbody pre. destruct pre as [[it buffer] current]. cbn [fst snd] in Hpre. destruct Hpre as (HR' & Hs & Hb). destruct l as [|[cp|x] l].
  - destruct (Hnil it HR') as (it' & E & HR''). rewrite E in H. cbn [bind] in H. injection H as <-. cbn [de_current de_iter]. split; [ reflexivity | ]. split; [ exact HR'' | ].
    unfold holds_buffers. cbn [de_current de_iter de_buffer]. rewrite (Hk2 _ _ HR' E). auto.
  - destruct (Hcons it _ l HR') as (it' & E & HR''). rewrite E in H. cbn [bind] in H.
    destruct (decompress_buffer C m cap cp buffer) as [[cp' b'] [w|x|]] eqn:Ed; [ | discriminate | discriminate ]. injection H as <-. cbn [de_current de_iter].
    exists (create_page cp' b'). split; [ reflexivity | ]. unfold holds_buffers. cbn [de_current de_was de_iter de_buffer]. rewrite create_page_buffer.
    apply decompress_buffer_was in Ed as [(E1 & -> & E2 & E3)|(E1 & -> & ->)].
    + split; [ exact HR'' | ]. rewrite E1, E3. auto.
    + split; [ apply Hsw; exact HR'' | ]. destruct (Hk1 it' (cp_buffer cp)) as [_ Hk]. rewrite Hk. destruct (cp_compression cp); try contradiction; auto.
  - destruct (Hcons it _ l HR') as (it' & E & _). rewrite E in H. cbn [bind] in H. discriminate.
Qed.
Lemma rev_last {A} (x y : A) l : rev (x :: y :: l) = match rev (y :: l) with a :: r => a :: r ++ [x] | [] => [x] end.
Proof. cbn [rev]. destruct (rev l ++ [y]) eqn:E; [ destruct (rev l); discriminate | ]. reflexivity. Qed.
Lemma buffers_after_cons a b cp p stored pages : length stored = length pages ->
  buffers_after a b (cp :: stored) (p :: pages) = buffers_after (cp_buffer cp) (match cp_compression cp with Uncompressed => [] | _ => page_buffer p end) stored pages.
Proof.
  intros El. destruct stored as [|x stored], pages as [|y pages]; try discriminate; [ reflexivity | ]. unfold buffers_after. rewrite !rev_last.
  destruct (rev (x :: stored)) eqn:E1; [ apply (f_equal (@length _)) in E1; rewrite rev_length in E1; discriminate | ].
  destruct (rev (y :: pages)) eqn:E2; [ apply (f_equal (@length _)) in E2; rewrite rev_length in E2; discriminate | ]. reflexivity.
Qed.
Lemma trace_nones {S} C m (P : page_iter S) scratch R : keeps_scratch P R scratch -> serves P R -> forall caps d trace d' page_b dec_b,
  R (de_iter d) [] -> holds_buffers P scratch d page_b dec_b -> dec_trace C m P caps d = Ok (trace, d') -> Forall (fun x => fst x = None) trace ->
  (caps <> [] -> de_current d' = None) /\ holds_buffers P scratch d' page_b dec_b.
Proof.
  intros Hk Hs. induction caps as [|cap caps IH]; intros d trace d' page_b dec_b HR Hh H Ht; cbn [dec_trace] in H; [ injection H as <- <-; split; [ contradiction | exact Hh ] | ].
  apply bind_ok in H as ([e d1] & H1 & H). apply bind_ok in H as ([l d2] & H2 & H). injection H as <- <-. pose proof (Forall_inv Ht) as He. cbn [fst] in He.
  destruct (holds_after C m P scratch R cap d [] page_b dec_b e d1 Hk Hs HR Hh H1 He) as (E & HR' & Hh'). destruct (IH _ _ _ _ _ HR' Hh' H2 (Forall_inv_tail Ht)) as [I1 I2].
  split; [ | exact I2 ]. intros _. destruct caps as [|c caps]; [ cbn [dec_trace] in H2; injection H2 as _ <-; exact E | apply I1; discriminate ].
Qed.
Lemma trace_buffers {S} C m (P : page_iter S) scratch R : keeps_scratch P R scratch -> serves P R -> forall pages caps d stored d' page_b dec_b k,
  R (de_iter d) (map inl stored) -> holds_buffers P scratch d page_b dec_b ->
  dec_trace C m P caps d = Ok (map (fun p => (None, Some p)) pages ++ repeat (None, None) (Datatypes.S k), d') ->
  length stored = length pages /\ snd (pi_swap P (de_iter d') []) = fst (buffers_after page_b dec_b stored pages) /\ de_buffer d' = snd (buffers_after page_b dec_b stored pages).
Proof.
  intros Hk Hs. induction pages as [|p pages IH]; intros caps d stored d' page_b dec_b k HR Hh H; cbn [map app] in H.
  - destruct stored as [|cp stored].
    + assert (Ht : Forall (fun x : option error * option page => fst x = None) (repeat (None, None) (Datatypes.S k))) by (apply Forall_forall; intros x Hx; apply repeat_spec in Hx; subst x; reflexivity).
      destruct caps as [|cap caps]; [ discriminate | ]. destruct (trace_nones C m P scratch R Hk Hs _ _ _ _ _ _ HR Hh H Ht) as [I1 I2]. unfold holds_buffers in I2. rewrite I1 in I2 by discriminate.
      split; [ reflexivity | ]. cbn [buffers_after rev fst snd]. destruct Hk as [Hk1 _]. rewrite (proj1 (Hk1 _ _)). exact I2.
    + exfalso. destruct caps as [|cap caps]; [ discriminate | ]. cbn [dec_trace] in H. apply bind_ok in H as ([e d1] & H1 & H). apply bind_ok in H as ([l d2] & H2 & H). cbn [repeat] in H. injection H as -> E _ _.
      destruct (holds_after C m P scratch R cap d (map inl (cp :: stored)) page_b dec_b None d1 Hk Hs HR Hh H1 eq_refl) as (p & E2 & _). congruence.
  - destruct caps as [|cap caps]; [ discriminate | ]. cbn [dec_trace] in H. apply bind_ok in H as ([e d1] & H1 & H). apply bind_ok in H as ([l d2] & H2 & H). injection H as -> E -> ->.
    pose proof (holds_after C m P scratch R cap d (map inl stored) page_b dec_b None d1 Hk Hs HR Hh H1 eq_refl) as Ha. destruct stored as [|cp stored]; cbn [map] in Ha.
    { destruct Ha as [Ha _]. congruence. }
    destruct Ha as (p' & E2 & HR' & Hh'). assert (p' = p) as -> by congruence. destruct (IH _ _ _ _ _ _ _ HR' Hh' H2) as (I1 & I2 & I3).
    split; [ cbn [length]; congruence | ]. rewrite (buffers_after_cons page_b dec_b cp p stored pages I1). auto.
Qed.

(** A page reader that selects all pages. *)
Definition reads_all T m (r : page_reader) (l : list (compressed_page + error)) : Prop :=
  (forall d h, pr_filter r d h = true) /\ exists r', runs (pr_next T m) r l r'.
Lemma next_keeps_filter T m : forall fuel r x r', pr_next_fuel T m fuel r = Ok (x, r') -> pr_filter r' = pr_filter r.
Proof.
  induction fuel as [|f IH]; intros r x r'; cbn [pr_next_fuel]; [ discriminate | ]. destruct (pr_total r <=? pr_seen r)%Z; [ intros [= _ <-]; reflexivity | ].
  destruct (build_page T m r) as [[src seen] [[p|p]|e|]]; try discriminate; try (intros [= _ <-]; reflexivity).
  destruct (pr_filter r (pr_descriptor r) (cdp_header p)); [ intros [= _ <-]; reflexivity | ]. intros H. apply IH in H. exact H.
Qed.
Lemma reads_all_serves T m : serves (pr_iter T m) (reads_all T m).
Proof.
  destruct (reader_serves T m) as (H1 & H2 & H3). split; [ | split ].
  - intros s l b [Hf H]. split; [ exact Hf | apply H1; exact H ].
  - intros s [Hf H]. destruct (H2 s H) as (s' & E & H'). exists s'. split; [ exact E | ]. split; [ | exact H' ]. cbn [pi_next pr_iter] in E. rewrite (next_keeps_filter _ _ _ _ _ _ E). exact Hf.
  - intros s x l [Hf H]. destruct (H3 s x l H) as (s' & E & H'). exists s'. split; [ exact E | ]. split; [ | exact H' ]. cbn [pi_next pr_iter] in E. rewrite (next_keeps_filter _ _ _ _ _ _ E). exact Hf.
Qed.
Lemma reads_all_keeps T m : keeps_scratch (pr_iter T m) (reads_all T m) pr_scratch.
Proof.
  split; [ intros s b; split; reflexivity | ]. intros s s' [Hf _]. cbn [pi_next pr_iter]. unfold pr_next. cbn [pr_next_fuel].
  destruct (pr_total s <=? pr_seen s)%Z; [ intros [= <-]; reflexivity | ]. destruct (build_page T m s) as [[src seen] [[p|p]|e|]]; try discriminate. rewrite Hf. discriminate.
Qed.
