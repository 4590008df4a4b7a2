(** Proofs about reading chunks of any writer. *)
From Verif Require Import Base.Prelude Model.Types Model.Thrift Model.Intervals Model.Page Model.Io Model.PageRead
  Spec.PagesSpec Spec.ForeignSpec Proofs.TypesFacts Proofs.CompressionProofs Proofs.PageIoProofs.
Open Scope N_scope.

Lemma get_page_header_described h p : describes h p -> known_encodings p -> get_page_header h = Ok (page_dh p).
Proof.
  unfold get_page_header, describes, known_encodings, page_dh. intros (_ & _ & H). destruct p as [d|d].
  - destruct (cdp_header d) as [x|x]; destruct H as [-> H]; cbn [page_type_of_thrift bind]; rewrite H.
    + intros (H1 & H2 & H3). apply known_encoding_ok in H1 as [e1 ->]. apply known_encoding_ok in H2 as [e2 ->].
      apply known_encoding_ok in H3 as [e3 ->]. reflexivity.
    + intros H1. apply known_encoding_ok in H1 as [e ->]. reflexivity.
  - destruct H as [-> _]. reflexivity.
Qed.
Lemma finish_page_described h p c d : describes h p -> finish_page h (cp_buffer p) c d None = Ok (as_stored c d p).
Proof.
  intros (Hu & _ & H). unfold finish_page. rewrite Hu, try_usize_of. destruct p as [x|x]; cbn [cp_buffer cp_uncompressed_size as_stored].
  - destruct (cdp_header x) eqn:E; destruct H as [-> H]; cbn [page_type_of_thrift bind]; rewrite H; reflexivity.
  - destruct H as (-> & y & H1 & H2 & H3). cbn [page_type_of_thrift bind]. rewrite H1, H2, try_usize_of. cbn [bind].
    replace (match dict_is_sorted y with Some b => b | None => false end) with (cdi_is_sorted x); [reflexivity|].
    destruct (cdi_is_sorted x); [rewrite (proj1 H3 eq_refl); reflexivity|].
    destruct (dict_is_sorted y) as [[]|]; [exact (proj2 H3 eq_refl)|reflexivity..].
Qed.

Lemma build_page_described T m r x rest :
  readable T (pr_max r) x -> pr_source r = stored_bytes T x ++ rest -> in_s 64 (pr_seen r + values (snd x)) = true ->
  build_page T m r = (rest, (pr_seen r + values (snd x))%Z, Ok (as_stored (pr_compression r) (pr_descriptor r) (snd x))).
Proof.
  intros (Hd & Henc & Hmax & (Hne & Hrb) & Hval) Hsrc Hin. unfold build_page.
  rewrite Hsrc. unfold stored_bytes. rewrite <- app_assoc, Hrb. rewrite (get_page_header_described _ _ Hd Henc).
  rewrite counted_of by exact Hval. rewrite sadd_ok by exact Hin.
  destruct (proj2 Hd) as [-> _]. rewrite try_usize_of.
  replace (pr_max r <? nlen (cp_buffer (snd x))) with false by lia.
  rewrite firstn_nlen_app by reflexivity. rewrite skipn_nlen_app by reflexivity. rewrite N.eqb_refl, finish_page_described by exact Hd. reflexivity.
Qed.

Lemma foreign_step T m rest : forall l r,
  pr_source r = stored_chunk T l ++ rest -> Forall (readable T (pr_max r)) l ->
  (pr_total r - pr_seen r <= values_of (map snd l))%Z -> (- 2 ^ 63 <= pr_seen r)%Z -> (pr_seen r + values_of (map snd l) < 2 ^ 63)%Z ->
  let n := needed (pr_total r - pr_seen r) (map snd l) in
  exists x r1 r', (forall fuel, (length (pr_source r) < fuel)%nat -> pr_next_fuel T m fuel r = Ok (x, r1)) /\
    pr_source r' = stored_chunk T (skipn (length n) l) ++ rest /\
    match x with
    | None => filter (wanted (pr_filter r (pr_descriptor r))) n = [] /\ r' = r1
    | Some a => exists items, map inl (map (as_stored (pr_compression r) (pr_descriptor r)) (filter (wanted (pr_filter r (pr_descriptor r))) n)) = a :: items /\
        runs (pr_next T m) r1 items r'
    end.
Proof.
  induction l as [|x l IH]; intros r Hsrc Hall Htot Hlo Hhi n.
  - cbn [map values_of fold_right] in *. exists None, r, r. split; [|split; [exact Hsrc|split; reflexivity]].
    intros [|f] Hf; [lia|]. cbn [pr_next_fuel]. replace (pr_total r <=? pr_seen r)%Z with true by lia. reflexivity.
  - cbn [map] in *. rewrite values_of_cons in Htot, Hhi. pose proof (Forall_inv Hall) as Hx. apply Forall_inv_tail in Hall.
    assert (Hnn : (0 <= values_of (map snd l))%Z).
    { clear - Hall. induction Hall as [|y l (_ & _ & _ & _ & Hy) _ IH]; cbn [map]; [reflexivity|rewrite values_of_cons; lia]. }
    unfold n. cbn [needed]. destruct (pr_total r - pr_seen r <=? 0)%Z eqn:Ec.
    + exists None, r, r. split; [|split; [exact Hsrc|split; reflexivity]].
      intros [|f] Hf; [lia|]. cbn [pr_next_fuel]. replace (pr_total r <=? pr_seen r)%Z with true by lia. reflexivity.
    + assert (Hv := Hx). destruct Hv as (_ & _ & _ & (Hne & _) & Hv).
      assert (Hin : in_s 64 (pr_seen r + values (snd x)) = true) by (unfold in_s; cbn; lia).
      assert (Hsrc' : pr_source r = stored_bytes T x ++ (stored_chunk T l ++ rest))
        by (rewrite Hsrc; unfold stored_chunk; cbn [map concat]; rewrite <- app_assoc; reflexivity).
      pose proof (build_page_described T m r x _ Hx Hsrc' Hin) as Hb.
      set (r1 := pr_at r (stored_chunk T l ++ rest) (pr_seen r + values (snd x)) []).
      assert (Hlen : (length (pr_source r1) < length (pr_source r))%nat).
      { rewrite Hsrc'. unfold r1. cbn [pr_at pr_source]. unfold stored_bytes. rewrite !app_length.
        destruct (t_enc T (fst x)); [congruence|cbn [length]; clear; lia]. }
      destruct (IH r1) as (a & r2 & r' & H1 & H2 & H3); [reflexivity|exact Hall|unfold r1; cbn [pr_at pr_total pr_seen]; lia..|].
      unfold r1 in H2, H3. cbn [pr_at pr_total pr_seen pr_compression pr_descriptor pr_filter] in H2, H3.
      replace (pr_total r - (pr_seen r + values (snd x)))%Z with (pr_total r - pr_seen r - values (snd x))%Z in H2, H3 by lia.
      set (n' := needed (pr_total r - pr_seen r - values (snd x)) (map snd l)) in *.
      assert (Hret : wanted (pr_filter r (pr_descriptor r)) (snd x) = true ->
        (forall fuel, (length (pr_source r) < fuel)%nat -> pr_next_fuel T m fuel r = Ok (Some (inl (as_stored (pr_compression r) (pr_descriptor r) (snd x))), r1))).
      { intros Hw [|f] Hf; [lia|]. cbn [pr_next_fuel]. replace (pr_total r <=? pr_seen r)%Z with false by lia. rewrite Hb.
        destruct (snd x) as [p|p]; cbn [as_stored cdp_header] in *; [|reflexivity]. cbn [wanted] in Hw. rewrite Hw. reflexivity. }
      cbn [filter length skipn]. destruct (wanted (pr_filter r (pr_descriptor r)) (snd x)) eqn:Ew.
      * exists (Some (inl (as_stored (pr_compression r) (pr_descriptor r) (snd x)))), r1, r'. split; [exact (Hret eq_refl)|]. split; [exact H2|].
        exists (map inl (map (as_stored (pr_compression r) (pr_descriptor r)) (filter (wanted (pr_filter r (pr_descriptor r))) n'))). split; [reflexivity|]. pose proof (H1 (S (length (pr_source r1))) (Nat.lt_succ_diag_r _)) as H1'. destruct a as [a|].
        -- destruct H3 as (items & -> & Hr). eapply runs_cons; [exact H1'|exact Hr].
        -- destruct H3 as [-> ->]. apply runs_nil. exact H1'.
      * exists a, r2, r'. split; [|split; [exact H2|exact H3]].
        intros [|f] Hf; [lia|]. cbn [pr_next_fuel]. replace (pr_total r <=? pr_seen r)%Z with false by lia. rewrite Hb.
        destruct (snd x) as [p|p]; [|discriminate Ew]. cbn [wanted] in Ew. cbn [as_stored cdp_header]. rewrite Ew. apply H1. fold r1. lia.
Qed.
