(** Lemmas for Props/PageMeta.v. *)
From Verif Require Import Base.Prelude Base.Iter Model.Types Model.Thrift Model.Intervals Model.Page Model.Io Model.Statistics Model.PageRead Model.PageMeta
  Model.Compression Spec.PagesSpec Spec.PageMetaSpec Proofs.PageIoProofs Proofs.AnyPagesProofs.
Open Scope N_scope.

Lemma unwrap_answers z : answers z (unwrap_encoding z).
Proof.
  unfold unwrap_encoding. destruct (encoding_cases z) as [(K & e & E)|(K & E)]; rewrite E.
  - left. exists e. split; [ | reflexivity ]. unfold encoding_of_thrift in E. destruct K as [-> | K].
    + injection E as <-. constructor.
    + assert (z = 2 \/ z = 3 \/ z = 4 \/ z = 5 \/ z = 6 \/ z = 7 \/ z = 8 \/ z = 9)%Z as [-> | [-> | [-> | [-> | [-> | [-> | [-> | ->]]]]]]] by lia;
        injection E as <-; constructor.
  - right. split; [ | reflexivity ]. intros e H. apply K. unfold known_encoding. destruct H; lia.
Qed.

Lemma known_answers z r : known_encoding z -> answers z r -> exists e, names z e /\ r = Ok e.
Proof.
  intros K [H|[H _]]; [ exact H | ]. exfalso. destruct (unwrap_answers z) as [(e & N & _)|[_ E]]; [ exact (H e N) | ].
  apply known_encoding_ok in K as [e K]. unfold unwrap_encoding in E. rewrite K in E. discriminate.
Qed.

Lemma get_page_header_known h dh : get_page_header h = Ok (Some dh) ->
  match dh with
  | HV1 x => known_encoding (dh_encoding x) /\ known_encoding (dh_def_encoding x) /\ known_encoding (dh_rep_encoding x)
  | HV2 x => known_encoding (dh2_encoding x)
  end.
Proof.
  assert (K : forall z e, encoding_of_thrift z = Ok e -> known_encoding z).
  { intros z e E. destruct (encoding_cases z) as [(H & _)|(_ & H)]; [ exact H | congruence ]. }
  unfold get_page_header. destruct (page_type_of_thrift (ph_type h)) as [ty| |]; cbn [bind]; try discriminate. destruct ty.
  - destruct (ph_data h) as [x|]; [ | discriminate ].
    destruct (encoding_of_thrift (dh_encoding x)) eqn:E1; cbn [bind]; try discriminate.
    destruct (encoding_of_thrift (dh_rep_encoding x)) eqn:E2; cbn [bind]; try discriminate.
    destruct (encoding_of_thrift (dh_def_encoding x)) eqn:E3; cbn [bind]; try discriminate.
    intros E. injection E as <-. repeat split; eapply K; eassumption.
  - destruct (ph_data_v2 h) as [x|]; [ | discriminate ].
    destruct (encoding_of_thrift (dh2_encoding x)) eqn:E1; cbn [bind]; try discriminate.
    intros E. injection E as <-. eapply K; eassumption.
  - discriminate.
Qed.

Lemma finish_header h data c d rows p dh : finish_page h data c d rows = Ok (CData p) -> get_page_header h = Ok dh -> dh = Some (cdp_header p).
Proof.
  unfold finish_page, get_page_header. destruct (page_type_of_thrift (ph_type h)) as [ty| |]; cbn [bind]; try discriminate.
  destruct (try_usize (ph_uncompressed_size h)) as [size| |]; cbn [bind]; try discriminate. destruct ty.
  - destruct (ph_data h) as [x|]; [ | discriminate ]. intros E. injection E as <-. cbn [cdp_header].
    destruct (encoding_of_thrift (dh_encoding x)); cbn [bind]; try discriminate.
    destruct (encoding_of_thrift (dh_rep_encoding x)); cbn [bind]; try discriminate.
    destruct (encoding_of_thrift (dh_def_encoding x)); cbn [bind]; try discriminate. intros E. injection E as <-. reflexivity.
  - destruct (ph_data_v2 h) as [x|]; [ | discriminate ]. intros E. injection E as <-. cbn [cdp_header].
    destruct (encoding_of_thrift (dh2_encoding x)); cbn [bind]; try discriminate. intros E. injection E as <-. reflexivity.
  - destruct (ph_dict h) as [x|]; [ | discriminate ]. destruct (try_usize (dict_num_values x)); cbn [bind]; discriminate.
Qed.

Lemma build_page_known T m r s n p : build_page T m r = (s, n, Ok (CData p)) -> known_encodings (CData p).
Proof.
  unfold build_page. destruct (t_dec T (pr_max r) (pr_source r)) as [[h src]| |]; try discriminate.
  destruct (get_page_header h) as [dh| |] eqn:G; try discriminate.
  destruct (sadd m 64 (pr_seen r) (counted dh)); try discriminate. destruct (try_usize (ph_compressed_size h)) as [k| |]; try discriminate.
  destruct (pr_max r <? k); [ discriminate | ]. cbv zeta. destruct (nlen _ =? k); [ | discriminate ].
  intros E. assert (F : finish_page h (firstn (N.to_nat k) src) (pr_compression r) (pr_descriptor r) None = Ok (CData p)) by congruence.
  pose proof (finish_header _ _ _ _ _ _ _ F G) as ->. apply get_page_header_known in G. exact G.
Qed.

Lemma pr_next_known T m r r' p : pr_next T m r = Ok (Some (inl (CData p)), r') -> known_encodings (CData p).
Proof.
  unfold pr_next. generalize (S (length (pr_source r))) as fuel. intros fuel. revert r. induction fuel as [|f IH]; intros r; cbn [pr_next_fuel]; [ discriminate | ].
  destruct (pr_total r <=? pr_seen r)%Z; [ discriminate | ]. destruct (build_page T m r) as [[s n] x] eqn:B.
  destruct x as [[q|q]|e|]; try discriminate.
  - destruct (pr_filter r (pr_descriptor r) (cdp_header q)).
    + intros E. assert (q = p) as -> by congruence. exact (build_page_known _ _ _ _ _ _ B).
    + apply IH.
Qed.

Lemma stream_next_known T m r r' p : stream_next T m r = Ok (Some (inl (CData p)), r') -> known_encodings (CData p).
Proof.
  unfold stream_next. generalize (S (length (pr_source r))) as fuel. intros fuel. revert r. induction fuel as [|f IH]; intros r; cbn [stream_next_fuel]; [ discriminate | ].
  destruct (pr_seen r <? pr_total r)%Z; [ | discriminate ]. destruct (t_dec T (pr_max r) (pr_source r)) as [[h src]| |]; try discriminate.
  destruct (get_page_header h) as [dh| |] eqn:G; try discriminate.
  destruct (sadd m 64 (pr_seen r) (counted dh)) as [seen| |]; try discriminate. destruct (try_usize (ph_compressed_size h)) as [k| |]; try discriminate.
  match goal with |- context [if ?b then stream_next_fuel _ _ _ _ else _] => destruct b; [ apply IH | ] end.
  destruct (pr_max r <? k); [ discriminate | ]. cbv zeta. destruct (nlen _ =? k); [ | discriminate ].
  destruct (finish_page h _ (pr_compression r) (pr_descriptor r) None) as [q| |] eqn:F; try discriminate.
  intros E. assert (q = CData p) as -> by congruence.
  pose proof (finish_header _ _ _ _ _ _ _ F G) as ->. apply get_page_header_known in G. exact G.
Qed.

Lemma decompress_data C m cap p b q : decompress C m cap (CData p) b = Ok q ->
  exists d, q = PData d /\ dp_header d = cdp_header p /\ dp_descriptor d = cdp_descriptor p /\ dp_selected d = cdp_selected p.
Proof.
  unfold decompress. destruct (decompress_buffer C m cap (CData p) b) as [[p' b'] r] eqn:D. destruct r as [x| |]; try discriminate.
  intros E. apply Ok_inj in E as <-. unfold decompress_buffer in D. cbn [cp_compression] in D.
  assert (S : p' = CData p \/ p' = set_cp_buffer b (CData p)).
  { destruct (cdp_compression p); cbv zeta in D;
      try (match type of D with context [let (_, _) := ?X in _] => destruct X as [b2 r2] end; injection D as <- _ _; left; reflexivity).
    injection D as <- _ _. right. reflexivity. }
  destruct S as [-> | ->]; cbn [create_page set_cp_buffer]; eexists; repeat split.
Qed.
