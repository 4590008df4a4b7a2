From Verif Require Import Base.Prelude Base.Iter Model.Types Model.Thrift Model.Intervals Model.Page Model.Io
  Model.Statistics Model.PageWrite Model.PageRead Model.ColumnWrite Model.Compression Spec.PagesSpec Spec.CompressionSpec Proofs.TypesFacts
  Proofs.CompressionProofs.
Open Scope N_scope.

(** * Writers *)

Lemma wbind_ok {A B} (x : writer A) (f : A -> writer B) s s' b :
  wbind x f s = (s', Ok b) -> exists s1 a, x s = (s1, Ok a) /\ f a s1 = (s', Ok b).
Proof.
  unfold wbind. destruct (x s) as [s1 [a| |]]; intros H; [ exists s1, a; auto | discriminate H | discriminate H ].
Qed.
Lemma wres_ok {A} (x : res A) s s' a : wres x s = (s', Ok a) -> s' = s /\ x = Ok a.
Proof. unfold wres. intros H; injection H; intros; subst; auto. Qed.
Lemma wret_ok {A} (x : A) s s' a : wret x s = (s', Ok a) -> s' = s /\ x = a.
Proof. unfold wret. intros H. injection H. intros. subst. auto. Qed.
Lemma write_all_ok b s s' u : write_all b s = (s', Ok u) ->
  sk_data s' = sk_data s ++ b /\ sk_room s' = match sk_room s with None => None | Some r => Some (r - nlen b) end.
Proof.
  unfold write_all. destruct (sk_room s) as [r|].
  - destruct (nlen b <=? r); intros H; [ injection H; intros; subst; auto | discriminate H ].
  - intros H; injection H; intros; subst; auto.
Qed.
Lemma write_struct_ok {X} (T : thrift X) x s s' n : write_struct T x s = (s', Ok n) ->
  n = nlen (t_enc T x) /\ sk_data s' = sk_data s ++ t_enc T x.
Proof.
  unfold write_struct. intros H. apply wbind_ok in H as (s1 & u & H1 & H). apply write_all_ok in H1 as [H1 _].
  apply wret_ok in H as [-> <-]. auto.
Qed.

Lemma try_i32_ok n z : try_i32 n = Ok z -> n < 2 ^ 31 /\ z = Z.of_N n.
Proof.
  unfold try_i32. change (2 ^ 31) with 2147483648. destruct (n <? 2147483648) eqn:E; intros H.
  - apply Ok_inj in H. split; [lia | auto].
  - discriminate H.
Qed.
Lemma try_i32_of n : n < 2 ^ 31 -> try_i32 n = Ok (Z.of_N n).
Proof. unfold try_i32. change (2 ^ 31) with 2147483648. intros H. replace (n <? 2147483648) with true by lia. reflexivity. Qed.

Lemma assemble_header_ok p h : assemble_header p = Ok h -> h = header_of p /\ within_limits p.
Proof.
  unfold assemble_header, within_limits, header_of. destruct p as [d|d].
  - unfold assemble_data_page_header, maybe_bytes. cbn [cp_buffer cp_uncompressed_size].
    destruct (try_i32 (cdp_uncompressed_size d)) as [u| |] eqn:Hu; cbn [bind]; intros H; try discriminate H.
    destruct (try_i32 (nlen (cdp_buffer d))) as [c| |] eqn:Hc; cbn [bind] in H; try discriminate H.
    apply try_i32_ok in Hu as [Hu ->]. apply try_i32_ok in Hc as [Hc ->]. apply Ok_inj in H. subst h.
    split; [ destruct (cdp_header d); reflexivity | auto ].
  - unfold assemble_dict_page_header, maybe_bytes. cbn [cp_buffer cp_uncompressed_size].
    destruct (try_i32 (cdi_uncompressed_size d)) as [u| |] eqn:Hu; cbn [bind]; intros H; try discriminate H.
    destruct (try_i32 (nlen (cdi_buffer d))) as [c| |] eqn:Hc; cbn [bind] in H; try discriminate H.
    destruct (try_i32 (cdi_num_values d)) as [n| |] eqn:Hn; cbn [bind] in H; try discriminate H.
    apply try_i32_ok in Hu as [Hu ->]. apply try_i32_ok in Hc as [Hc ->]. apply try_i32_ok in Hn as [Hn ->].
    apply Ok_inj in H. subst h. split; [ reflexivity | auto ].
Qed.
Lemma assemble_header_of p : within_limits p -> assemble_header p = Ok (header_of p).
Proof.
  unfold assemble_header, within_limits, header_of. intros (Hc & Hu & Hn). destruct p as [d|d].
  - unfold assemble_data_page_header, maybe_bytes. cbn [cp_buffer cp_uncompressed_size] in *.
    rewrite !try_i32_of by assumption. cbn [bind]. destruct (cdp_header d); reflexivity.
  - unfold assemble_dict_page_header, maybe_bytes. cbn [cp_buffer cp_uncompressed_size] in *.
    rewrite !try_i32_of by assumption. reflexivity.
Qed.

Lemma write_page_ok T off p s s' spec : write_page T off p s = (s', Ok spec) ->
  within_limits p /\ sk_data s' = sk_data s ++ page_bytes T p /\
  ps_header spec = header_of p /\ ps_header_size spec = nlen (t_enc T (header_of p)) /\ ps_offset spec = off /\
  ps_bytes_written spec = nlen (page_bytes T p) /\ ps_compression spec = cp_compression p /\
  Ok (ps_statistics spec) = match p with CData d => cdp_statistics d | CDict _ => Ok None end /\
  Ok (ps_num_rows spec) = page_num_rows p /\ ps_num_values spec = cp_num_values p.
Proof.
  unfold write_page. intros H.
  apply wbind_ok in H as (s1 & h & H1 & H). apply wres_ok in H1 as [-> Hh]. apply assemble_header_ok in Hh as [-> Hlim].
  apply wbind_ok in H as (s2 & n & H2 & H). apply write_struct_ok in H2 as [-> H2].
  apply wbind_ok in H as (s3 & u & H3 & H). apply write_all_ok in H3 as [H3 _].
  apply wbind_ok in H as (s4 & st & H4 & H). apply wres_ok in H4 as [-> H4].
  apply wbind_ok in H as (s5 & nr & H5 & H). apply wres_ok in H5 as [-> H5].
  apply wret_ok in H as [-> <-]. cbn [ps_header ps_header_size ps_offset ps_bytes_written ps_compression ps_statistics ps_num_rows ps_num_values].
  split; [ exact Hlim | ]. split; [ rewrite H3, H2; unfold page_bytes; rewrite <- app_assoc; reflexivity | ].
  unfold page_bytes. rewrite nlen_app. repeat (split; [ solve [auto] | ]). auto.
Qed.

(** * Headers read back *)

Lemma known_encoding_ok z : known_encoding z -> exists e, encoding_of_thrift z = Ok e.
Proof.
  intros [->|H]; [ eexists; reflexivity | ].
  assert (z = 2 \/ z = 3 \/ z = 4 \/ z = 5 \/ z = 6 \/ z = 7 \/ z = 8 \/ z = 9)%Z as Hz by lia.
  destruct Hz as [->|[->|[->|[->|[->|[->|[->| ->]]]]]]]; eexists; reflexivity.
Qed.

Definition page_dh (p : compressed_page) : option page_header :=
  match p with CData d => Some (cdp_header d) | CDict _ => None end.

Lemma get_page_header_of p : known_encodings p -> get_page_header (header_of p) = Ok (page_dh p).
Proof.
  unfold get_page_header, header_of, known_encodings, page_dh. destruct p as [d|d]; cbn [cp_buffer cp_uncompressed_size].
  - destruct (cdp_header d) as [h|h]; cbn [ph_type ph_data ph_data_v2 page_type_of_thrift bind].
    + intros (H1 & H2 & H3). apply known_encoding_ok in H1 as [e1 ->]. apply known_encoding_ok in H2 as [e2 ->].
      apply known_encoding_ok in H3 as [e3 ->]. reflexivity.
    + intros H. apply known_encoding_ok in H as [e ->]. reflexivity.
  - reflexivity.
Qed.

Lemma try_usize_of n : try_usize (Z.of_N n) = Ok n.
Proof. unfold try_usize. replace (Z.of_N n <? 0)%Z with false by lia. rewrite N2Z.id. reflexivity. Qed.

Lemma header_of_sizes p : ph_compressed_size (header_of p) = Z.of_N (nlen (cp_buffer p)) /\
  ph_uncompressed_size (header_of p) = Z.of_N (cp_uncompressed_size p).
Proof. unfold header_of. destruct p as [d|d]; [ destruct (cdp_header d) | ]; cbn; auto. Qed.

Lemma finish_page_of p c d sel : finish_page (header_of p) (cp_buffer p) c d sel = Ok (read_page_of c d sel false p).
Proof.
  unfold finish_page, header_of. destruct p as [x|x]; cbn [cp_buffer cp_uncompressed_size].
  - destruct (cdp_header x) eqn:E; cbn [ph_type ph_uncompressed_size ph_data ph_data_v2 page_type_of_thrift bind];
      rewrite try_usize_of; cbn [bind read_page_of]; rewrite E; reflexivity.
  - cbn [ph_type ph_uncompressed_size ph_dict page_type_of_thrift bind].
    rewrite try_usize_of. cbn [bind dict_num_values dict_is_sorted]. rewrite try_usize_of. reflexivity.
Qed.

Lemma counted_of p : (0 <= values p < 2 ^ 31)%Z -> counted (page_dh p) = values p.
Proof.
  unfold counted, page_dh, values, header_num_values, as_usize. destruct p as [d|d]; [ | reflexivity ].
  change (2 ^ 31)%Z with 2147483648%Z. destruct (cdp_header d) as [h|h]; intros H;
    [ change (wrap_s 64 (dh_num_values h) = dh_num_values h) | change (wrap_s 64 (dh2_num_values h) = dh2_num_values h) ];
    (apply wrap_s_in; [ reflexivity | change (2 ^ (Z.of_N 64 - 1))%Z with 9223372036854775808%Z; lia ]).
Qed.

(** * The page reader *)

Definition ok_sum (z : Z) : Prop := (- 2 ^ 62 <= z < 2 ^ 63)%Z.

Lemma sadd_ok m a b : in_s 64 (a + b) = true -> sadd m 64 a b = Ok (a + b)%Z.
Proof. unfold sadd. intros ->. reflexivity. Qed.

Lemma build_page_of T m r p rest :
  takes T (pr_max r) p -> pr_source r = page_bytes T p ++ rest -> in_s 64 (pr_seen r + values p) = true ->
  build_page T m r = (rest, (pr_seen r + values p)%Z, Ok (read_page_of (pr_compression r) (pr_descriptor r) None false p)).
Proof.
  intros (Hlim & Henc & Hmax & (Hne & Hrb) & Hval) Hsrc Hin. unfold build_page.
  rewrite Hsrc. unfold page_bytes. rewrite <- app_assoc, Hrb. rewrite get_page_header_of by exact Henc.
  rewrite counted_of by exact Hval. rewrite sadd_ok by exact Hin.
  destruct (header_of_sizes p) as [-> _]. rewrite try_usize_of.
  replace (pr_max r <? nlen (cp_buffer p)) with false by lia.
  rewrite firstn_nlen_app by reflexivity. rewrite skipn_nlen_app by reflexivity. rewrite N.eqb_refl, finish_page_of. reflexivity.
Qed.

Lemma takes_bytes T max p : takes T max p -> (0 < length (page_bytes T p))%nat.
Proof.
  intros (_ & _ & _ & (Hne & _) & _). unfold page_bytes. rewrite app_length. destruct (t_enc T (header_of p)); [ congruence | cbn; lia ].
Qed.

Lemma pr_at_same r : pr_at r (pr_source r) (pr_seen r) (pr_scratch r) = r.
Proof. destruct r; reflexivity. Qed.
Lemma pr_at_at r a b c a' b' c' : pr_at (pr_at r a b c) a' b' c' = pr_at r a' b' c'.
Proof. reflexivity. Qed.

Lemma values_of_nonneg T max l : Forall (takes T max) l -> (0 <= values_of l)%Z.
Proof.
  induction 1 as [|p l (_ & _ & _ & _ & Hp) _ IH]; cbn [values_of fold_right]; [ lia | ].
  change (fold_right (fun (p : compressed_page) n => (values p + n)%Z) 0%Z l) with (values_of l). lia.
Qed.
Lemma values_of_cons p l : values_of (p :: l) = (values p + values_of l)%Z.
Proof. reflexivity. Qed.

Definition reader_ok (T : thrift t_page_header) (r : page_reader) (l : list compressed_page) (rest : list N) : Prop :=
  pr_source r = chunk_bytes T l ++ rest /\ Forall (takes T (pr_max r)) l /\
  (pr_total r - pr_seen r <= values_of l)%Z /\ (- 2 ^ 63 <= pr_seen r)%Z /\ (pr_seen r + values_of l < 2 ^ 63)%Z.

Definition wanted_by (r : page_reader) : compressed_page -> bool := wanted (pr_filter r (pr_descriptor r)).
Definition as_read (r : page_reader) (p : compressed_page) : compressed_page :=
  read_page_of (pr_compression r) (pr_descriptor r) None false p.

Lemma needed_app left l : exists rest, l = needed left l ++ rest.
Proof.
  revert left. induction l as [|p l IH]; intros left; cbn [needed]; [ exists []; reflexivity | ].
  destruct (left <=? 0)%Z; [ exists (p :: l); reflexivity | ].
  destruct (IH (left - values p)%Z) as [q Hq]. exists q. cbn [app]. rewrite <- Hq. reflexivity.
Qed.

(** One call: it skips the pages the filter rejects. *)
Lemma pr_next_fuel_step T m : forall l fuel r rest,
  reader_ok T r l rest -> (length (pr_source r) < fuel)%nat ->
  match filter (wanted_by r) (needed (pr_total r - pr_seen r) l) with
  | [] => exists l' seen sc, pr_next_fuel T m fuel r = Ok (None, pr_at r (chunk_bytes T l' ++ rest) seen sc) /\
      l = needed (pr_total r - pr_seen r) l ++ l' /\ reader_ok T (pr_at r (chunk_bytes T l' ++ rest) seen sc) l' rest /\
      (pr_total r <= seen)%Z
  | p :: w => exists l' seen, pr_next_fuel T m fuel r = Ok (Some (inl (as_read r p)), pr_at r (chunk_bytes T l' ++ rest) seen []) /\
      reader_ok T (pr_at r (chunk_bytes T l' ++ rest) seen []) l' rest /\
      w = filter (wanted_by r) (needed (pr_total r - seen) l') /\
      exists pre, l = pre ++ l' /\ needed (pr_total r - pr_seen r) l = pre ++ needed (pr_total r - seen) l' /\
        seen = (pr_seen r + values_of pre)%Z
  end.
Proof.
  induction l as [|p l IH]; intros fuel r rest Hok Hfuel.
  - destruct Hok as (Hsrc & _ & Htot & Hlo & Hhi). cbn [values_of fold_right] in Htot, Hhi. cbn [needed filter].
    destruct fuel as [|f]; [ lia | ]. cbn [pr_next_fuel]. replace (pr_total r <=? pr_seen r)%Z with true by lia.
    exists [], (pr_seen r), (pr_scratch r). rewrite <- Hsrc, pr_at_same. split; [ reflexivity | ]. split; [ reflexivity | ].
    split; [ | lia ]. repeat split; cbn [values_of fold_right]; auto; lia.
  - destruct Hok as (Hsrc & Hall & Htot & Hlo & Hhi). cbn [needed].
    rewrite values_of_cons in Htot, Hhi.
    pose proof (Forall_inv Hall) as Hp. apply Forall_inv_tail in Hall.
    pose proof (values_of_nonneg _ _ _ Hall) as Hnn.
    destruct fuel as [|f]; [ lia | ]. cbn [pr_next_fuel].
    destruct (pr_total r <=? pr_seen r)%Z eqn:Ec.
    + replace (pr_total r - pr_seen r <=? 0)%Z with true by lia. cbn [filter].
      exists (p :: l), (pr_seen r), (pr_scratch r). rewrite <- Hsrc, pr_at_same. split; [ reflexivity | ].
      split; [ reflexivity | ]. split; [ | lia ].
      split; [ exact Hsrc | ]. split; [ constructor; assumption | ]. rewrite values_of_cons. lia.
    + replace (pr_total r - pr_seen r <=? 0)%Z with false by lia. cbn [filter].
      assert (Hp' := Hp). destruct Hp' as (_ & _ & _ & _ & Hpv).
      assert (Hin : in_s 64 (pr_seen r + values p) = true) by (unfold in_s; cbn; lia).
      assert (Hsrc' : pr_source r = page_bytes T p ++ (chunk_bytes T l ++ rest))
        by (rewrite Hsrc; unfold chunk_bytes; cbn [map concat]; rewrite <- app_assoc; reflexivity).
      rewrite (build_page_of T m r p (chunk_bytes T l ++ rest) Hp Hsrc' Hin).
      assert (Hok' : reader_ok T (pr_at r (chunk_bytes T l ++ rest) (pr_seen r + values p) []) l rest).
      { unfold reader_ok. cbn [pr_at pr_source pr_max pr_total pr_seen]. repeat split; auto; lia. }
      assert (Hreq : (pr_total r - pr_seen r - values p = pr_total r - (pr_seen r + values p))%Z) by lia.
      rewrite Hreq.
      assert (Hret : wanted_by r p = true ->
        exists l' seen, @Ok (option (compressed_page + error) * page_reader)
            (Some (inl (as_read r p)), pr_at r (chunk_bytes T l ++ rest) (pr_seen r + values p) []) =
          Ok (Some (inl (as_read r p)), pr_at r (chunk_bytes T l' ++ rest) seen []) /\
          reader_ok T (pr_at r (chunk_bytes T l' ++ rest) seen []) l' rest /\
          filter (wanted_by r) (needed (pr_total r - (pr_seen r + values p)) l) =
            filter (wanted_by r) (needed (pr_total r - seen) l') /\
          exists pre, p :: l = pre ++ l' /\
            p :: needed (pr_total r - (pr_seen r + values p)) l = pre ++ needed (pr_total r - seen) l' /\
            seen = (pr_seen r + values_of pre)%Z).
      { intros _. exists l, (pr_seen r + values p)%Z. split; [ reflexivity | ]. split; [ exact Hok' | ]. split; [ reflexivity | ].
        exists [p]. split; [ reflexivity | ]. split; [ reflexivity | ]. rewrite values_of_cons. cbn [values_of fold_right]. lia. }
      destruct p as [d|d].
      * cbn [read_page_of cdp_header]. unfold wanted_by at 1 2, wanted at 1 2.
        destruct (pr_filter r (pr_descriptor r) (cdp_header d)) eqn:Ef.
        -- apply Hret. unfold wanted_by, wanted. exact Ef.
        -- assert (Hf : (length (pr_source (pr_at r (chunk_bytes T l ++ rest) (pr_seen r + values (CData d)) [])) < f)%nat).
           { cbn [pr_at pr_source]. rewrite Hsrc' in Hfuel. rewrite app_length in Hfuel.
             pose proof (takes_bytes _ _ _ Hp). lia. }
           specialize (IH f _ rest Hok' Hf).
           change (wanted_by (pr_at r (chunk_bytes T l ++ rest) (pr_seen r + values (CData d)) [])) with (wanted_by r) in IH.
           change (pr_total (pr_at r (chunk_bytes T l ++ rest) (pr_seen r + values (CData d)) [])) with (pr_total r) in IH.
           change (pr_seen (pr_at r (chunk_bytes T l ++ rest) (pr_seen r + values (CData d)) [])) with (pr_seen r + values (CData d))%Z in IH.
           revert IH. destruct (filter (wanted_by r) (needed (pr_total r - (pr_seen r + values (CData d))) l)) as [|q w] eqn:Ew;
             intros IH.
           ++ destruct IH as (l' & seen & sc & H1 & H2 & H3 & H4). exists l', seen, sc.
              split; [ exact H1 | ]. split; [ cbn [app]; rewrite <- H2; reflexivity | ]. split; assumption.
           ++ destruct IH as (l' & seen & H1 & H2 & H3 & pre & H4 & H5 & H6). exists l', seen.
              split; [ exact H1 | ]. split; [ exact H2 | ]. split; [ exact H3 | ].
              exists (CData d :: pre). cbn [app]. rewrite <- H4, <- H5. split; [ reflexivity | ]. split; [ reflexivity | ].
              rewrite values_of_cons. lia.
      * cbn [read_page_of]. apply Hret. reflexivity.
Qed.

(** The whole iteration. *)
Lemma reader_runs T m : forall w r l rest,
  reader_ok T r l rest -> filter (wanted_by r) (needed (pr_total r - pr_seen r) l) = w ->
  exists l' r', runs (pr_next T m) r (map inl (map (as_read r) w)) r' /\
    l = needed (pr_total r - pr_seen r) l ++ l' /\ pr_source r' = chunk_bytes T l' ++ rest.
Proof.
  induction w as [|p w IH]; intros r l rest Hok Hw.
  - pose proof (pr_next_fuel_step T m l (S (length (pr_source r))) r rest Hok (Nat.lt_succ_diag_r _)) as Hs.
    rewrite Hw in Hs. destruct Hs as (l' & seen & sc & H1 & H2 & _). exists l', (pr_at r (chunk_bytes T l' ++ rest) seen sc).
    split; [ apply runs_nil; exact H1 | ]. split; [ exact H2 | reflexivity ].
  - pose proof (pr_next_fuel_step T m l (S (length (pr_source r))) r rest Hok (Nat.lt_succ_diag_r _)) as Hs.
    rewrite Hw in Hs. destruct Hs as (l1 & seen & H1 & H2 & H3 & pre & H4 & H5 & _).
    destruct (IH (pr_at r (chunk_bytes T l1 ++ rest) seen []) l1 rest H2 (eq_sym H3)) as (l' & r' & Hr & Hl & Hsrc).
    exists l', r'. split; [ | split; [ | exact Hsrc ] ].
    + cbn [map]. eapply runs_cons; [ exact H1 | exact Hr ].
    + cbn [pr_at pr_total pr_seen] in Hl. rewrite H5, <- app_assoc, <- Hl. exact H4.
Qed.

(** The reader is a page iterator whatever buffers are swapped in. *)
Definition reading (T : thrift t_page_header) (c : compression) (d : descriptor) (f : descriptor -> page_header -> bool)
  (r : page_reader) (items : list (compressed_page + error)) : Prop :=
  pr_compression r = c /\ pr_descriptor r = d /\ pr_filter r = f /\
  exists l rest, reader_ok T r l rest /\
    items = map inl (map (read_page_of c d None false) (filter (wanted (f d)) (needed (pr_total r - pr_seen r) l))).

Lemma reader_serves T m c d f : serves (pr_iter T m) (reading T c d f).
Proof.
  split; [ | split ].
  - intros r l b H. exact H.
  - intros r (Hc & Hd & Hf & l & rest & Hok & Hi).
    pose proof (pr_next_fuel_step T m l (S (length (pr_source r))) r rest Hok (Nat.lt_succ_diag_r _)) as Hs.
    assert (Hw : filter (wanted_by r) (needed (pr_total r - pr_seen r) l) = []).
    { unfold wanted_by. rewrite Hf, Hd. destruct (filter _ _); [ reflexivity | discriminate Hi ]. }
    rewrite Hw in Hs. destruct Hs as (l' & seen & sc & H1 & H2 & H3 & H4).
    exists (pr_at r (chunk_bytes T l' ++ rest) seen sc). split; [ exact H1 | ].
    split; [ exact Hc | ]. split; [ exact Hd | ]. split; [ exact Hf | ]. exists l', rest. split; [ exact H3 | ].
    cbn [pr_at pr_total pr_seen]. replace (needed (pr_total r - seen) l') with (@nil compressed_page); [ reflexivity | ].
    destruct l' as [|q l']; [ reflexivity | ]. cbn [needed]. replace (pr_total r - seen <=? 0)%Z with true by lia. reflexivity.
  - intros r x items (Hc & Hd & Hf & l & rest & Hok & Hi).
    pose proof (pr_next_fuel_step T m l (S (length (pr_source r))) r rest Hok (Nat.lt_succ_diag_r _)) as Hs.
    unfold wanted_by, as_read in Hs. rewrite Hc, Hd, Hf in Hs.
    destruct (filter (wanted (f d)) (needed (pr_total r - pr_seen r) l)) as [|q w] eqn:Hw; [ discriminate Hi | ].
    destruct Hs as (l' & seen & H1 & H2 & H3 & _). cbn [map] in Hi.
    assert (Hx : x = inl (read_page_of c d None false q)) by congruence.
    assert (Hit : items = map inl (map (read_page_of c d None false) w)) by congruence.
    exists (pr_at r (chunk_bytes T l' ++ rest) seen []). split; [ rewrite Hx; exact H1 | ].
    split; [ exact Hc | ]. split; [ exact Hd | ]. split; [ exact Hf | ]. exists l', rest. split; [ exact H2 | ].
    cbn [pr_at pr_total pr_seen]. rewrite Hit, H3. reflexivity.
Qed.
