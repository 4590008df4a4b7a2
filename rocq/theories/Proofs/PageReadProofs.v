From Verif Require Import Base.Prelude Base.Iter Model.Types Model.Thrift Model.Intervals Model.Page Model.Io
  Model.Statistics Model.PageRead Spec.PagesSpec Proofs.TypesFacts Proofs.CompressionProofs Proofs.PageIoProofs.
Open Scope N_scope.

(** * Arbitrary sources *)

Lemma finish_page_buffer h data c d sel p : finish_page h data c d sel = Ok p -> cp_buffer p = data.
Proof.
  unfold finish_page. destruct (page_type_of_thrift (ph_type h)) as [t| |]; cbn [bind]; intros H; try discriminate H.
  destruct (try_usize (ph_uncompressed_size h)) as [u| |]; cbn [bind] in H; try discriminate H.
  destruct t.
  - destruct (ph_data h); [ | discriminate H ]. apply Ok_inj in H. subst p. reflexivity.
  - destruct (ph_data_v2 h); [ | discriminate H ]. apply Ok_inj in H. subst p. reflexivity.
  - destruct (ph_dict h) as [dd|]; [ | discriminate H ]. destruct (try_usize (dict_num_values dd)); cbn [bind] in H; try discriminate H.
    apply Ok_inj in H. subst p. reflexivity.
Qed.

(** What a data page header contributes is what the finished page has. *)
Lemma finish_page_dh h data c d sel p dh : get_page_header h = Ok dh -> finish_page h data c d sel = Ok p -> page_dh p = dh.
Proof.
  unfold finish_page, get_page_header. destruct (page_type_of_thrift (ph_type h)) as [t| |]; cbn [bind]; intros Hd H; try discriminate H.
  destruct (try_usize (ph_uncompressed_size h)) as [u| |]; cbn [bind] in H; try discriminate H.
  destruct t.
  - destruct (ph_data h) as [x|]; [ | discriminate H ]. apply Ok_inj in H. subst p.
    destruct (encoding_of_thrift (dh_encoding x)); cbn [bind] in Hd; try discriminate Hd.
    destruct (encoding_of_thrift (dh_rep_encoding x)); cbn [bind] in Hd; try discriminate Hd.
    destruct (encoding_of_thrift (dh_def_encoding x)); cbn [bind] in Hd; try discriminate Hd.
    apply Ok_inj in Hd. subst dh. reflexivity.
  - destruct (ph_data_v2 h) as [x|]; [ | discriminate H ]. apply Ok_inj in H. subst p.
    destruct (encoding_of_thrift (dh2_encoding x)); cbn [bind] in Hd; try discriminate Hd.
    apply Ok_inj in Hd. subst dh. reflexivity.
  - destruct (ph_dict h) as [dd|]; [ | discriminate H ]. destruct (try_usize (dict_num_values dd)); cbn [bind] in H; try discriminate H.
    apply Ok_inj in H. subst p. apply Ok_inj in Hd. subst dh. reflexivity.
Qed.

Lemma finish_page_total h data c d sel : finish_page h data c d sel <> Panic.
Proof.
  assert (Ht : forall z, page_type_of_thrift z <> Panic).
  { intros z. destruct (page_type_of_thrift z) eqn:E; try discriminate. exfalso. revert E. unfold page_type_of_thrift.
    repeat match goal with |- context [match ?x with _ => _ end] => destruct x end; discriminate. }
  unfold finish_page. specialize (Ht (ph_type h)). destruct (page_type_of_thrift (ph_type h)) as [t| |]; cbn [bind]; try discriminate; try congruence.
  unfold try_usize. destruct (ph_uncompressed_size h <? 0)%Z; cbn [bind]; try discriminate.
  destruct t; [ destruct (ph_data h) | destruct (ph_data_v2 h) | destruct (ph_dict h) as [dd|] ]; try discriminate.
  destruct (dict_num_values dd <? 0)%Z; cbn [bind]; discriminate.
Qed.

Lemma get_page_header_total h : get_page_header h <> Panic.
Proof.
  assert (Ht : forall z, page_type_of_thrift z <> Panic).
  { intros z. destruct (page_type_of_thrift z) eqn:E; try discriminate. exfalso. revert E. unfold page_type_of_thrift.
    repeat match goal with |- context [match ?x with _ => _ end] => destruct x end; discriminate. }
  assert (He : forall z, encoding_of_thrift z <> Panic).
  { intros z. destruct (encoding_of_thrift z) eqn:E; try discriminate. exfalso. revert E. unfold encoding_of_thrift.
    repeat match goal with |- context [match ?x with _ => _ end] => destruct x end; discriminate. }
  unfold get_page_header. specialize (Ht (ph_type h)). destruct (page_type_of_thrift (ph_type h)) as [t| |]; cbn [bind]; try discriminate; try congruence.
  destruct t; [ destruct (ph_data h) as [x|] | destruct (ph_data_v2 h) as [x|] | ]; try discriminate.
  - pose proof (He (dh_encoding x)). destruct (encoding_of_thrift (dh_encoding x)); cbn [bind]; try discriminate; try congruence.
    pose proof (He (dh_rep_encoding x)). destruct (encoding_of_thrift (dh_rep_encoding x)); cbn [bind]; try discriminate; try congruence.
    pose proof (He (dh_def_encoding x)). destruct (encoding_of_thrift (dh_def_encoding x)); cbn [bind]; try discriminate; congruence.
  - pose proof (He (dh2_encoding x)). destruct (encoding_of_thrift (dh2_encoding x)); cbn [bind]; try discriminate; congruence.
Qed.

(** A page that was built: where everything comes from. *)
Lemma build_page_inv T m r source seen p : build_page T m r = (source, seen, Ok p) ->
  exists h rest dh n, t_dec T (pr_max r) (pr_source r) = Ok (h, rest) /\ get_page_header h = Ok dh /\
    sadd m 64 (pr_seen r) (counted dh) = Ok seen /\ ph_compressed_size h = Z.of_N n /\ n <= pr_max r /\ n <= nlen rest /\
    source = skipn (N.to_nat n) rest /\
    finish_page h (firstn (N.to_nat n) rest) (pr_compression r) (pr_descriptor r) None = Ok p /\ nlen (cp_buffer p) = n.
Proof.
  unfold build_page. destruct (t_dec T (pr_max r) (pr_source r)) as [[h rest]| |]; intros H; try discriminate H.
  destruct (get_page_header h) as [dh| |] eqn:Hd; try discriminate H.
  destruct (sadd m 64 (pr_seen r) (counted dh)) as [sn| |] eqn:Hs; try discriminate H.
  destruct (try_usize (ph_compressed_size h)) as [n| |] eqn:Hn; try discriminate H.
  destruct (pr_max r <? n) eqn:Hmax; try discriminate H.
  destruct (nlen (firstn (N.to_nat n) rest) =? n) eqn:Hl; [ | discriminate H ].
  assert (H1 : source = skipn (N.to_nat n) rest) by congruence. assert (H2 : seen = sn) by congruence.
  assert (H3 : finish_page h (firstn (N.to_nat n) rest) (pr_compression r) (pr_descriptor r) None = Ok p) by congruence.
  exists h, rest, dh, n. subst sn. apply try_usize_inv in Hn. split; [ reflexivity | ]. split; [ exact Hd | ].
  split; [ exact Hs | ]. split; [ exact Hn | ]. split; [ lia | ].
  apply N.eqb_eq in Hl. split; [ | split; [ exact H1 | split; [ exact H3 | ] ] ].
  - clear - Hl. unfold nlen in *. rewrite firstn_length in Hl. lia.
  - rewrite (finish_page_buffer _ _ _ _ _ _ H3). exact Hl.
Qed.

(** Every page returned is within the limit, and its bytes come from the source. *)
Lemma reader_limit T m fuel : forall r p r',
  pr_next_fuel T m fuel r = Ok (Some (inl p), r') -> nlen (cp_buffer p) <= pr_max r.
Proof.
  induction fuel as [|f IH]; intros r p r' H; cbn [pr_next_fuel] in H; [ discriminate H | ].
  destruct (pr_total r <=? pr_seen r)%Z; [ discriminate H | ].
  destruct (build_page T m r) as [[source seen] [[d|d]| |]] eqn:Hb; try discriminate H.
  - destruct (pr_filter r (pr_descriptor r) (cdp_header d)).
    + apply build_page_inv in Hb as (h & rest & dh & n & _ & _ & _ & _ & H1 & _ & _ & _ & H2).
      assert (p = CData d) by congruence. subst p. lia.
    + apply IH in H. exact H.
  - apply build_page_inv in Hb as (h & rest & dh & n & _ & _ & _ & _ & H1 & _ & _ & _ & H2).
    assert (p = CDict d) by congruence. subst p. lia.
Qed.

(** A header that declares more bytes than the limit or the source has, or a negative number, is an error. *)
Lemma reader_too_large T m r h rest :
  (pr_seen r < pr_total r)%Z -> t_dec T (pr_max r) (pr_source r) = Ok (h, rest) ->
  (forall dh, get_page_header h = Ok dh -> in_s 64 (pr_seen r + counted dh) = true) ->
  (ph_compressed_size h < 0 \/ Z.of_N (pr_max r) < ph_compressed_size h \/ Z.of_N (nlen rest) < ph_compressed_size h)%Z ->
  exists e r', pr_next T m r = Ok (Some (inr e), r').
Proof.
  intros Hseen Hdec Hin Hbig. unfold pr_next. cbn [pr_next_fuel].
  replace (pr_total r <=? pr_seen r)%Z with false by lia.
  unfold build_page. rewrite Hdec. pose proof (get_page_header_total h) as Hgt.
  destruct (get_page_header h) as [dh| |]; [ | eauto | congruence ].
  rewrite (sadd_ok m _ _ (Hin dh eq_refl)). unfold try_usize.
  destruct (ph_compressed_size h <? 0)%Z eqn:Eneg; [ eauto | ].
  destruct (pr_max r <? Z.to_N (ph_compressed_size h)) eqn:Emax; [ eauto | ].
  assert (Hl : (Z.of_N (nlen rest) < ph_compressed_size h)%Z) by lia.
  replace (nlen (firstn (N.to_nat (Z.to_N (ph_compressed_size h))) rest) =? Z.to_N (ph_compressed_size h)) with false; [ eauto | ].
  symmetry. apply N.eqb_neq. clear - Hl. unfold nlen in *. rewrite firstn_length. lia.
Qed.

(** No source makes the reader panic. *)
Lemma reader_total T m fuel : forall r,
  (forall max s, t_dec T max s <> Panic) ->
  (forall max s h rest, t_dec T max s = Ok (h, rest) -> (length rest < length s)%nat) ->
  (forall max s h rest dh, t_dec T max s = Ok (h, rest) -> get_page_header h = Ok dh -> (- 2 ^ 31 <= counted dh < 2 ^ 31)%Z) ->
  (Z.abs (pr_seen r) + 2 ^ 31 * Z.of_nat (length (pr_source r)) < 2 ^ 63)%Z ->
  (length (pr_source r) < fuel)%nat -> exists o r', pr_next_fuel T m fuel r = Ok (o, r').
Proof.
  induction fuel as [|f IH]; intros r Hnp Hcons Hcnt Hb Hf; [ lia | ]. cbn [pr_next_fuel].
  destruct (pr_total r <=? pr_seen r)%Z; [ eauto | ].
  destruct (build_page T m r) as [[source seen] x] eqn:Eb.
  assert (Hx : x <> Panic).
  { revert Eb. unfold build_page. specialize (Hnp (pr_max r) (pr_source r)).
    destruct (t_dec T (pr_max r) (pr_source r)) as [[h rest]| |] eqn:Ed; intros Eb; [ | congruence | congruence ].
    pose proof (get_page_header_total h) as Hg. pose proof (Hcons _ _ _ _ Ed) as Hlen.
    pose proof (fun dh => Hcnt _ _ _ _ dh Ed) as Hcnt1. clear Hcnt. rename Hcnt1 into Hcnt.
    destruct (get_page_header h) as [dh| |]; [ | congruence | congruence ].
    rewrite sadd_ok in Eb; [ | specialize (Hcnt dh eq_refl); unfold in_s; cbn; change (2 ^ 31)%Z with 2147483648%Z in *; change (2 ^ 63)%Z with 9223372036854775808%Z in *; clear - Hb Hcnt Hlen; lia ].
    unfold try_usize in Eb. destruct (ph_compressed_size h <? 0)%Z; [ congruence | ].
    destruct (pr_max r <? Z.to_N (ph_compressed_size h)); [ congruence | ].
    destruct (_ =? _) in Eb; [ | congruence ].
    assert (Hx : x = finish_page h (firstn (N.to_nat (Z.to_N (ph_compressed_size h))) rest) (pr_compression r) (pr_descriptor r) None) by congruence.
    rewrite Hx. apply finish_page_total. }
  destruct x as [[d|d]| |]; [ | eauto | eauto | congruence ].
  destruct (pr_filter r (pr_descriptor r) (cdp_header d)); [ eauto | ].
  apply build_page_inv in Eb as (h & rest & dh & n & Hd & Hg & Hs & _ & _ & _ & Hsrc & _).
  pose proof (Hcons _ _ _ _ Hd) as Hlen. pose proof Hcnt as Hcnt0. specialize (Hcnt _ _ _ _ _ Hd Hg).
  assert (Hin : in_s 64 (pr_seen r + counted dh) = true) by (unfold in_s; cbn; change (2 ^ 31)%Z with 2147483648%Z in *; change (2 ^ 63)%Z with 9223372036854775808%Z in *; clear - Hb Hcnt Hlen; lia).
  rewrite (sadd_ok _ _ _ Hin) in Hs. apply Ok_inj in Hs.
  assert (Hl : (length source <= length rest)%nat) by (subst source; rewrite skipn_length; lia).
  apply IH; try assumption; cbn [pr_at pr_seen pr_source].
  - subst seen. clear - Hb Hcnt Hl Hlen.
    assert (Ha : (Z.abs (pr_seen r + counted dh) <= Z.abs (pr_seen r) + 2147483648)%Z) by lia.
    revert Hb Ha. generalize (Z.abs (pr_seen r + counted dh)), (Z.abs (pr_seen r)).
    change (2 ^ 31)%Z with 2147483648%Z. change (2 ^ 63)%Z with 9223372036854775808%Z. intros a b Hb Ha. lia.
  - lia.
Qed.

(** * The asynchronous stream *)

(** As long as the reader meets no error, the stream does the same. *)
Lemma stream_matches T m fuel : forall r o r',
  pr_next_fuel T m fuel r = Ok (o, r') -> (forall e, o <> Some (inr e)) -> stream_next_fuel T m fuel r = Ok (o, r').
Proof.
  induction fuel as [|f IH]; intros r o r' H Ho; cbn [pr_next_fuel stream_next_fuel] in *; [ discriminate H | ].
  destruct (pr_total r <=? pr_seen r)%Z eqn:Et.
  { replace (pr_seen r <? pr_total r)%Z with false by lia. exact H. }
  replace (pr_seen r <? pr_total r)%Z with true by lia.
  destruct (build_page T m r) as [[source seen] x] eqn:Eb.
  destruct x as [p|e|]; [ | exfalso; apply (Ho e); congruence | discriminate H ].
  apply build_page_inv in Eb as (h & rest & dh & n & Hd & Hg & Hs & Hsize & Hmax & Hlen & Hsrc & Hfin & Hbuf).
  rewrite Hd, Hg, Hs, Hsize, try_usize_of_N.
  pose proof (finish_page_dh _ _ _ _ _ _ _ Hg Hfin) as Hdh.
  assert (Hfl : nlen (firstn (N.to_nat n) rest) =? n = true).
  { apply N.eqb_eq. clear - Hlen. unfold nlen in *. rewrite firstn_length. lia. }
  destruct p as [d|d]; cbn [page_dh] in Hdh; subst dh.
  - destruct (pr_filter r (pr_descriptor r) (cdp_header d)) eqn:Ef; cbn [negb].
    + replace (pr_max r <? n) with false by lia. rewrite Hfl, Hfin. rewrite <- Hsrc. exact H.
    + rewrite <- Hsrc. apply IH; assumption.
  - replace (pr_max r <? n) with false by lia. rewrite Hfl, Hfin. rewrite <- Hsrc. exact H.
Qed.

(** With no filter they agree on everything: same pages, same errors. *)
Lemma stream_same_unfiltered T m fuel : forall r,
  (forall d h, pr_filter r d h = true) ->
  match pr_next_fuel T m fuel r with
  | Ok (o, r') => exists r'', stream_next_fuel T m fuel r = Ok (o, r'') /\ pr_source r'' = pr_source r' /\ pr_seen r'' = pr_seen r'
  | Err e => stream_next_fuel T m fuel r = Err e
  | Panic => stream_next_fuel T m fuel r = Panic
  end.
Proof.
  destruct fuel as [|f]; intros r Hf; cbn [pr_next_fuel stream_next_fuel]; [ reflexivity | ].
  destruct (pr_total r <=? pr_seen r)%Z eqn:Et.
  { replace (pr_seen r <? pr_total r)%Z with false by lia. eauto. }
  replace (pr_seen r <? pr_total r)%Z with true by lia. unfold build_page.
  destruct (t_dec T (pr_max r) (pr_source r)) as [[h rest]| |]; [ | eauto | reflexivity ].
  destruct (get_page_header h) as [dh| |] eqn:Hg; [ | eauto | reflexivity ].
  destruct (sadd m 64 (pr_seen r) (counted dh)) as [seen| |]; [ | eauto | reflexivity ].
  destruct (try_usize (ph_compressed_size h)) as [n| |]; [ | eauto | reflexivity ].
  replace (match dh with Some dh0 => negb (pr_filter r (pr_descriptor r) dh0) | None => false end) with false
    by (destruct dh; [ rewrite Hf | ]; reflexivity).
  destruct (pr_max r <? n); [ eauto | ].
  destruct (nlen (firstn (N.to_nat n) rest) =? n); [ | eauto ].
  destruct (finish_page h (firstn (N.to_nat n) rest) (pr_compression r) (pr_descriptor r) None) as [[d|d]| |]; try rewrite Hf; eauto.
Qed.

(** * The indexed reader *)

Lemma read_at_exact pre x post : read_at (pre ++ x ++ post) (nlen pre) (nlen x) = x.
Proof.
  unfold read_at. rewrite skipn_nlen_app by reflexivity. apply firstn_nlen_app. reflexivity.
Qed.

Lemma chunk_bytes_app T a b : chunk_bytes T (a ++ b) = chunk_bytes T a ++ chunk_bytes T b.
Proof. unfold chunk_bytes. rewrite map_app, concat_app. reflexivity. Qed.
Lemma chunk_bytes_cons T a b : chunk_bytes T (a :: b) = page_bytes T a ++ chunk_bytes T b.
Proof. reflexivity. Qed.

Lemma read_page_at_of T pre p post : reads_back T 1048576 (header_of p) ->
  read_page_at T (pre ++ page_bytes T p ++ post) (nlen pre) (nlen (page_bytes T p)) = Ok (header_of p, cp_buffer p).
Proof. intros [_ H]. unfold read_page_at. rewrite read_at_exact. unfold page_bytes. apply H. Qed.

Lemma ir_data_step T r : forall l pre post pages,
  ir_file r = pre ++ chunk_bytes T (map fst l) ++ post -> Forall (fun x => reads_back T 1048576 (header_of (fst x))) l ->
  Forall2 same_place pages (placed T (nlen pre) l) ->
  match filter has_rows l with
  | [] => exists r', ir_next_data T r pages = Ok (None, r')
  | x :: w => exists l2 pre' pages', w = filter has_rows l2 /\ (length l2 < length l)%nat /\
      Forall (fun x => reads_back T 1048576 (header_of (fst x))) l2 /\
      ir_next_data T r pages =
        Ok (Some (inl (read_page_of (ir_compression r) (ir_descriptor r) (Some (snd x)) false (fst x))),
            mk_ir (ir_file r) (ir_column_start r) (ir_compression r) (ir_descriptor r) pages' Data) /\
      ir_file r = pre' ++ chunk_bytes T (map fst l2) ++ post /\ Forall2 same_place pages' (placed T (nlen pre') l2)
  end.
Proof.
  induction l as [|[p sel] l IH]; intros pre post pages Hfile Hall Hpl.
  - inversion Hpl; subst. cbn [filter ir_next_data]. eauto.
  - cbn [placed] in Hpl. inversion Hpl as [|fp y pages' ys (H1 & H2 & H3) Hrest]; subst.
    cbn [fp_start fp_length fp_selected] in H1, H2, H3.
    pose proof (Forall_inv Hall) as Hp. cbn [fst] in Hp. apply Forall_inv_tail in Hall.
    cbn [map fst] in Hfile. rewrite chunk_bytes_cons, <- app_assoc in Hfile.
    assert (Hnext : ir_file r = (pre ++ page_bytes T p) ++ chunk_bytes T (map fst l) ++ post) by (rewrite Hfile, <- app_assoc; reflexivity).
    assert (Hst : nlen (pre ++ page_bytes T p) = nlen pre + nlen (page_bytes T p)) by apply nlen_app.
    cbn [filter ir_next_data]. unfold has_rows at 1. cbn [snd]. rewrite H3. destruct sel as [|iv sel].
    + rewrite <- Hst in Hrest. specialize (IH _ _ _ Hnext Hall Hrest).
      destruct (filter has_rows l) as [|x w]; [ exact IH | ].
      destruct IH as (l2 & pre' & pg & E1 & E2 & E3). exists l2, pre', pg.
      split; [ exact E1 | ]. split; [ cbn [length]; lia | exact E3 ].
    + exists l, (pre ++ page_bytes T p), pages'. split; [ reflexivity | ]. split; [ cbn [length]; lia | ]. split; [ exact Hall | ].
      split; [ | split; [ exact Hnext | rewrite Hst; exact Hrest ] ].
      rewrite H1, H2, Hfile, (read_page_at_of T pre p _ Hp). cbn [bind]. rewrite finish_page_of. reflexivity.
Qed.

Lemma ir_data_runs T m : forall n l r pre post,
  (length l <= n)%nat -> ir_state r = Data ->
  ir_file r = pre ++ chunk_bytes T (map fst l) ++ post -> Forall (fun x => reads_back T 1048576 (header_of (fst x))) l ->
  Forall2 same_place (ir_pages r) (placed T (nlen pre) l) ->
  exists r', runs (ir_next T m) r (map inl (selected_pages (ir_compression r) (ir_descriptor r) l)) r'.
Proof.
  induction n as [|n IH]; intros l r pre post Hn Hst Hfile Hall Hpl;
    pose proof (ir_data_step T r l pre post _ Hfile Hall Hpl) as Hstep; unfold selected_pages;
    destruct (filter has_rows l) as [|x w] eqn:Ef.
  1, 3: destruct Hstep as [r' Hr]; exists r'; apply runs_nil; unfold ir_next; rewrite Hst; exact Hr.
  - destruct l; [ discriminate Ef | cbn in Hn; lia ].
  - destruct Hstep as (l2 & pre' & pg & -> & Hlen & Hall2 & Hr & Hf2 & Hp2).
    destruct (IH l2 (mk_ir (ir_file r) (ir_column_start r) (ir_compression r) (ir_descriptor r) pg Data) pre' post) as [r' Hrun];
      [ lia | reflexivity | exact Hf2 | exact Hall2 | exact Hp2 | ].
    exists r'. cbn [map]. eapply runs_cons; [ | exact Hrun ]. unfold ir_next. rewrite Hst. exact Hr.
Qed.

Lemma runs_first {S A} (next : S -> res (option A * S)) s s0 l s' : next s = next s0 -> runs next s0 l s' -> runs next s l s'.
Proof. intros E H. destruct H as [a b H1 | a b x l c H1 H2]; [ apply runs_nil; congruence | eapply runs_cons; [ rewrite E; exact H1 | exact H2 ] ]. Qed.

(** A column of a file: an optional dictionary page, then data pages. *)
Lemma ir_runs T m r dict l pre post :
  ir_state r = MaybeDict -> ir_column_start r = nlen pre ->
  ir_file r = pre ++ chunk_bytes T (dict ++ map fst l) ++ post ->
  (dict = [] \/ exists d, dict = [CDict d]) -> Forall (fun p => reads_back T 1048576 (header_of p)) (dict ++ map fst l) ->
  Forall2 same_place (ir_pages r) (placed T (nlen pre + nlen (chunk_bytes T dict)) l) ->
  exists r', runs (ir_next T m) r
    (map inl (match l with [] => [] | _ => map (read_page_of (ir_compression r) (ir_descriptor r) None false) dict end ++
       selected_pages (ir_compression r) (ir_descriptor r) l)) r'.
Proof.
  intros Hst Hcs Hfile Hdict Hall Hpl.
  rewrite chunk_bytes_app, <- app_assoc in Hfile.
  apply Forall_app in Hall as [Halld Hall].
  assert (Hall' : Forall (fun x => reads_back T 1048576 (header_of (fst x))) l) by (rewrite Forall_map in Hall; exact Hall).
  assert (Hnext : ir_file r = (pre ++ chunk_bytes T dict) ++ chunk_bytes T (map fst l) ++ post) by (rewrite Hfile, <- app_assoc; reflexivity).
  rewrite <- nlen_app in Hpl.
  set (r0 := mk_ir (ir_file r) (ir_column_start r) (ir_compression r) (ir_descriptor r) (ir_pages r) Data).
  destruct (ir_data_runs T m (length l) l r0 (pre ++ chunk_bytes T dict) post (le_n _) eq_refl Hnext Hall' Hpl) as [r' Hrun].
  change (ir_compression r0) with (ir_compression r) in Hrun. change (ir_descriptor r0) with (ir_descriptor r) in Hrun.
  assert (Hno : read_dict T m r = Ok None -> exists r', runs (ir_next T m) r (map inl (selected_pages (ir_compression r) (ir_descriptor r) l)) r').
  { intros Hd. exists r'. assert (Hn : ir_next T m r = ir_next T m r0) by (unfold ir_next; rewrite Hst, Hd; reflexivity).
    apply (runs_first _ _ _ _ _ Hn Hrun). }
  destruct l as [|[p sel] l].
  - cbn [app]. apply Hno. unfold read_dict. inversion Hpl. reflexivity.
  - cbn [placed] in Hpl. inversion Hpl as [|fp y pages' ys (H1 & H2 & H3) Hrest Hp Hy]; subst.
    cbn [fp_start] in H1. rewrite nlen_app in H1. clear Hno.
    assert (Hsub : usub m 64 (fp_start fp) (ir_column_start r) = Ok (nlen (chunk_bytes T dict))).
    { unfold usub. rewrite Hcs, H1. replace (nlen pre <=? nlen pre + nlen (chunk_bytes T dict)) with true by lia. f_equal. lia. }
    destruct Hdict as [->|[d ->]].
    + cbn [map app]. exists r'.
      assert (Hd : read_dict T m r = Ok None) by (unfold read_dict; rewrite <- Hp, Hsub; reflexivity).
      assert (Hn : ir_next T m r = ir_next T m r0) by (unfold ir_next; rewrite Hst, Hd; reflexivity).
      apply (runs_first _ _ _ _ _ Hn Hrun).
    + cbn [map app]. exists r'. eapply runs_cons; [ | exact Hrun ].
      unfold ir_next. rewrite Hst. unfold read_dict. rewrite <- Hp, Hsub. cbn [bind].
      assert (Hb : chunk_bytes T [CDict d] = page_bytes T (CDict d)) by (unfold chunk_bytes; cbn [map concat]; apply app_nil_r).
      rewrite Hb in *. pose proof (Forall_inv Halld) as Hrb.
      assert (Hpos : 0 < nlen (page_bytes T (CDict d))).
      { destruct Hrb as [Hne _]. unfold page_bytes. rewrite nlen_app. destruct (t_enc T (header_of (CDict d))); [ congruence | unfold nlen; cbn [length]; lia ]. }
      replace (0 <? nlen (page_bytes T (CDict d))) with true by lia. cbn [bind].
      rewrite Hcs, Hfile, (read_page_at_of T pre (CDict d) _ Hrb). cbn [bind]. rewrite finish_page_of. cbn [bind read_page_of].
      unfold item. unfold r0. rewrite Hcs, Hfile, Hp. reflexivity.
Qed.
