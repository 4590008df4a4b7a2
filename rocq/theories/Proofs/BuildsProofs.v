(** Proofs for C116. *)
From Verif Require Import Base.Prelude Model.Types Model.Thrift Model.Intervals Model.Page Model.Compression Model.Builds Spec.CompressionSpec Spec.BuildsSpec
  Proofs.SchemaProofs Proofs.CompressionProofs.
Open Scope N_scope.

Lemma lacks_dec f c : lacks f c \/ ~ lacks f c.
Proof.
  destruct c; try (right; intros H; inversion H; fail).
  - destruct (has_snappy f) eqn:E; [ right; intros H; inversion H; congruence | left; constructor; exact E ].
  - destruct (has_gzip f) eqn:E; [ right; intros H; inversion H; congruence | left; constructor; exact E ].
  - destruct (has_brotli f) eqn:E; [ right; intros H; inversion H; congruence | left; constructor; exact E ].
  - destruct (has_lz4 f) eqn:E; [ right; intros H; inversion H; congruence | ]. destruct (has_lz4_flex f) eqn:E2; [ right; intros H; inversion H; congruence | left; constructor; assumption ].
  - destruct (has_zstd f) eqn:E; [ right; intros H; inversion H; congruence | left; constructor; exact E ].
  - destruct (has_lz4 f) eqn:E; [ right; intros H; inversion H; congruence | ]. destruct (has_lz4_flex f) eqn:E2; [ right; intros H; inversion H; congruence | left; constructor; assumption ].
Qed.

Lemma inner_appends E o input : exists y r, forall out, inner_compress E o input out = (out ++ y, r).
Proof.
  unfold inner_compress. destruct (e_bound E o (nlen input)) as [max|e|];
    [ | exists [], (Err e); intros; rewrite app_nil_r; reflexivity | exists [], Panic; intros; rewrite app_nil_r; reflexivity ].
  destruct (e_block E o input max) as [w r]. set (z := write_prefix w (repeat 0 (N.to_nat max))).
  destruct r as [size|e|]; [ exists (firstn (N.to_nat size) z), (Ok tt) | exists z, (Err e) | exists z, Panic ]; intros out; try reflexivity.
  rewrite firstn_app. rewrite (firstn_all2 out) by lia. replace (length out + N.to_nat size - length out)%nat with (N.to_nat size) by lia. reflexivity.
Qed.
Lemma build_appends f E o input : exists y r, forall out, build_compress f E o input out = (out ++ y, r).
Proof.
  assert (K : forall e : error, exists (y : list N) r, forall out, (out, Err e) = (out ++ y, r : res unit)) by (intros e; exists [], (Err e); intros; rewrite app_nil_r; reflexivity).
  assert (St : exists y r, forall out, stream_compress E o input out = (out ++ y, r)).
  { unfold stream_compress. destruct (e_stream E o input) as [w r]. exists w, r. reflexivity. }
  unfold build_compress. destruct o; auto.
  - destruct (has_snappy f); [ apply inner_appends | auto ].
  - destruct (has_gzip f); auto.
  - destruct (has_brotli f); auto.
  - destruct (has_zstd f); auto.
  - destruct (has_lz4_flex f && negb (has_lz4 f)); [ apply inner_appends | ]. destruct (has_lz4 f); [ apply inner_appends | auto ].
Qed.
Lemma build_lacks f E o input out : lacks f (options_compression o) -> o <> OLz4 -> build_compress f E o input out = (out, Err FeatureNotActive).
Proof.
  intros L Ne. unfold build_compress. destruct o; cbn [options_compression] in L; inversion L; try congruence;
    repeat match goal with H : _ = false |- _ => rewrite H; clear H end; reflexivity.
Qed.
Lemma build_has f E o input out : ~ lacks f (options_compression o) -> build_compress f E o input out = build_compress default_build E o input out.
Proof.
  intros L. unfold build_compress, default_build. cbn [has_brotli has_gzip has_snappy has_lz4 has_lz4_flex has_zstd andb negb].
  destruct o; cbn [options_compression] in L; try reflexivity.
  - destruct (has_snappy f) eqn:H; [ reflexivity | exfalso; apply L; constructor; exact H ].
  - destruct (has_gzip f) eqn:H; [ reflexivity | exfalso; apply L; constructor; exact H ].
  - destruct (has_brotli f) eqn:H; [ reflexivity | exfalso; apply L; constructor; exact H ].
  - destruct (has_zstd f) eqn:H; [ reflexivity | exfalso; apply L; constructor; exact H ].
  - destruct (has_lz4 f) eqn:H; [ rewrite andb_false_r; reflexivity | ]. destruct (has_lz4_flex f) eqn:H2; [ reflexivity | exfalso; apply L; constructor; assumption ].
Qed.

Lemma build_decompress_lacks f C c input out : lacks f c -> build_decompress f C c input out = (out, Err FeatureNotActive).
Proof. intros L. unfold build_decompress. destruct L; repeat match goal with H : _ = false |- _ => rewrite H; clear H end; reflexivity. Qed.
Lemma build_decompress_has f C c input out : ~ lacks f c -> build_decompress f C c input out = decompress_bytes C c input out.
Proof.
  intros L. unfold build_decompress, decompress_bytes. destruct c; try reflexivity.
  - destruct (has_snappy f) eqn:H; [ reflexivity | exfalso; apply L; constructor; exact H ].
  - destruct (has_gzip f) eqn:H; [ reflexivity | exfalso; apply L; constructor; exact H ].
  - destruct (has_brotli f) eqn:H; [ reflexivity | exfalso; apply L; constructor; exact H ].
  - destruct (has_lz4 f) eqn:H; [ rewrite orb_true_r; reflexivity | ]. destruct (has_lz4_flex f) eqn:H2; [ reflexivity | exfalso; apply L; constructor; assumption ].
  - destruct (has_zstd f) eqn:H; [ reflexivity | exfalso; apply L; constructor; exact H ].
  - destruct (has_lz4 f) eqn:H; [ rewrite andb_false_r; reflexivity | ]. destruct (has_lz4_flex f) eqn:H2; [ reflexivity | exfalso; apply L; constructor; assumption ].
Qed.

Definition build_run f E o (input out : list N) : res (list N) := let (out, r) := build_compress f E o input out in let* _ := r in Ok out.
Lemma build_run_has f E C o input out : same_crates E C -> ~ lacks f (options_compression o) -> o <> OUncompressed -> build_run f E o input out = compress_bytes C o input out.
Proof.
  intros S L Ho. unfold build_run. rewrite build_has by exact L. unfold compress_bytes. rewrite S.
  destruct (build_appends default_build E o input) as (y & r & H). rewrite !H. unfold outcome. cbn [fst snd app].
  destruct o; try congruence; try (destruct r; reflexivity); specialize (H []); cbn in H; injection H as _ <-; reflexivity.
Qed.
Lemma build_page_has f E C m p b o : same_crates E C -> ~ lacks f (options_compression o) -> build_compress_page f E m p b o = compress C m p b o.
Proof.
  intros S L. unfold build_compress_page. fold (build_run f E o).
  assert (R : forall input out, o <> OUncompressed -> build_run f E o input out = compress_bytes C o input out) by (intros; apply build_run_has; assumption).
  unfold compress, compress_data, compress_dict. destruct p as [d|d].
  - destruct o; try (destruct (dp_header d) as [h|h]);
      try (destruct (levels_length m h) as [n|e|]; cbn [bind rmap]; try reflexivity;
           destruct (slice_range 0 n (dp_buffer d)) as [lv|e|]; cbn [bind rmap]; try reflexivity;
           destruct (slice_range n (nlen (dp_buffer d)) (dp_buffer d)) as [vs|e|]; cbn [bind rmap]; try reflexivity);
      try reflexivity; cbn zeta; fold (build_run f E);
      match goal with |- context [compress_bytes C ?x ?i ?j] => change (let (out, r) := build_compress f E x i j in let* _ := r in Ok out) with (build_run f E x i j); rewrite (R i j) by discriminate; destruct (compress_bytes C x i j); reflexivity end.
  - destruct o; try reflexivity; cbn zeta;
      match goal with |- context [compress_bytes C ?x ?i ?j] => change (let (out, r) := build_compress f E x i j in let* _ := r in Ok out) with (build_run f E x i j); rewrite (R i j) by discriminate; destruct (compress_bytes C x i j); reflexivity end.
Qed.

Lemma levels_within_length m x size : levels_within (HV2 x) size -> levels_length m x = Ok (Z.to_N (dh2_rep_length x + dh2_def_length x)).
Proof.
  cbn [levels_within]. change (2 ^ 31)%Z with 2147483648%Z. intros (A & B & C & _). unfold levels_length, sadd, in_s. change (2 ^ (Z.of_N 32 - 1))%Z with 2147483648%Z.
  replace ((- (2147483648) <=? dh2_rep_length x + dh2_def_length x)%Z && (dh2_rep_length x + dh2_def_length x <? 2147483648)%Z) with true by lia.
  cbn [bind]. unfold as_usize, of_signed. change (2 ^ Z.of_N 64)%Z with 18446744073709551616%Z. rewrite Z.mod_small by lia. reflexivity.
Qed.
Lemma slice_range_ok (l : list N) a b : a <= b -> b <= nlen l -> exists r, slice_range a b l = Ok r.
Proof.
  intros H1 H2. unfold slice_range. replace ((a <=? b) && (b <=? nlen l)) with true by lia. eauto.
Qed.
Lemma build_page_lacks f E m p b o : lacks f (options_compression o) -> o <> OLz4 ->
  match p with PData d => levels_within (dp_header d) (nlen (dp_buffer d)) | PDict _ => True end ->
  build_compress_page f E m p b o = Err FeatureNotActive.
Proof.
  intros L Ne W. assert (R : forall input out, build_compress f E o input out = (out, Err FeatureNotActive)) by (intros; apply build_lacks; assumption).
  assert (U : o <> OUncompressed) by (intros ->; inversion L).
  unfold build_compress_page. destruct p as [d|d].
  - assert (X : match dp_header d with
      | HV1 _ => let (out, r) := build_compress f E o (dp_buffer d) b in let* _ := r in Ok out
      | HV2 h =>
          let* n := levels_length m h in
          let* levels := slice_range 0 n (dp_buffer d) in
          let* values := slice_range n (nlen (dp_buffer d)) (dp_buffer d) in
          let (out, r) := build_compress f E o values (b ++ levels) in let* _ := r in Ok out
      end = Err FeatureNotActive).
    { destruct (dp_header d) as [h|h]; [ rewrite R; reflexivity | ]. rewrite (levels_within_length m h _ W). destruct W as (W1 & W2 & W3 & W4). cbn [bind].
      destruct (slice_range_ok (dp_buffer d) 0 (Z.to_N (dh2_rep_length h + dh2_def_length h))) as (x & ->); [ lia | exact W4 | ]. cbn [bind].
      destruct (slice_range_ok (dp_buffer d) (Z.to_N (dh2_rep_length h + dh2_def_length h)) (nlen (dp_buffer d))) as (y & ->); [ exact W4 | lia | ]. cbn [bind].
      rewrite R. reflexivity. }
    cbn zeta. destruct o; try congruence; rewrite X; reflexivity.
  - cbn zeta. destruct o; try congruence; rewrite R; reflexivity.
Qed.

Definition build_run_page f C m (p : compressed_page) (buffer : list N) : list N * res unit :=
  match p with
  | CData d =>
      match cdp_header d with
      | HV1 _ => build_decompress f C (cdp_compression d) (cdp_buffer d) buffer
      | HV2 h => build_decompress_v2 f C m (cdp_buffer d) h (cdp_compression d) buffer
      end
  | CDict d => build_decompress f C (cdi_compression d) (cdi_buffer d) buffer
  end.
Lemma build_page_run f C m cap p b : cp_compression p <> Uncompressed ->
  build_decompress_page f C m cap p b = rmap (create_page p) (outcome (build_run_page f C m p (prepare cap (cp_uncompressed_size p) b))).
Proof.
  intros H. unfold build_decompress_page, build_run_page.
  destruct (cp_compression p) eqn:E; try congruence; destruct p as [d|d]; cbn [cp_compression] in E; rewrite E;
    (destruct (cdp_header d) as [h|h] || idtac);
    match goal with |- context [let (_, _) := ?x in _] => destruct x as [bb r] end; destruct r as [[]|e|]; reflexivity.
Qed.
Lemma build_run_page_has f C m p b : ~ lacks f (cp_compression p) -> build_run_page f C m p b = run_page C m p b.
Proof.
  intros L. unfold build_run_page, run_page. destruct p as [d|d]; cbn [cp_compression] in L; [ | apply build_decompress_has; exact L ].
  destruct (cdp_header d) as [h|h]; [ apply build_decompress_has; exact L | ]. unfold build_decompress_v2, decompress_v2.
  destruct (levels_length m h) as [n|e|]; try reflexivity. rewrite build_decompress_has by exact L. reflexivity.
Qed.
Lemma build_decompress_page_has f C m cap p b : ~ lacks f (cp_compression p) -> build_decompress_page f C m cap p b = decompress C m cap p b.
Proof.
  intros L. destruct (cp_uncompressed_dec p) as [U|U].
  - unfold build_decompress_page, decompress, decompress_buffer. rewrite U. reflexivity.
  - rewrite build_page_run, decompress_compressed, build_run_page_has by assumption. reflexivity.
Qed.
Lemma lacks_compressed f c : lacks f c -> c <> Uncompressed.
Proof. intros L E. subst c. inversion L. Qed.
Lemma build_decompress_page_stored f C m cap p b : stored_as_is p -> build_decompress_page f C m cap p b = decompress C m cap p b.
Proof.
  intros (d & h & -> & Eh & Ei). destruct (cp_uncompressed_dec (CData d)) as [U|U].
  - unfold build_decompress_page, decompress, decompress_buffer. rewrite U. reflexivity.
  - rewrite build_page_run, decompress_compressed by assumption. unfold build_run_page, run_page. rewrite Eh. unfold build_decompress_v2, decompress_v2. rewrite Ei. reflexivity.
Qed.
Lemma build_decompress_page_refuses f C m cap p b : lacks f (cp_compression p) -> ~ stored_as_is p ->
  match p with
  | CData d => match cdp_header d with HV1 _ => True | HV2 h => exists n, levels_length m h = Ok n /\ n <= nlen (cdp_buffer d) /\ n <= cdp_uncompressed_size d end
  | CDict _ => True
  end ->
  build_decompress_page f C m cap p b = Err FeatureNotActive.
Proof.
  intros L N W. rewrite build_page_run by (eapply lacks_compressed; exact L). unfold build_run_page.
  destruct p as [d|d]; cbn [cp_compression] in L; [ | rewrite build_decompress_lacks by exact L; reflexivity ].
  destruct (cdp_header d) as [h|h] eqn:Eh; [ rewrite build_decompress_lacks by exact L; reflexivity | ].
  destruct W as (n & W & W1 & W2). unfold build_decompress_v2. rewrite W.
  assert (I : match dh2_is_compressed h with Some b => b | None => true end = true).
  { destruct (dh2_is_compressed h) as [[|]|] eqn:Ei; try reflexivity. exfalso. apply N. exists d, h. auto. }
  rewrite I. rewrite prepare_length. cbn [cp_uncompressed_size].
  replace (cdp_uncompressed_size d <? n) with false by lia. replace (nlen (cdp_buffer d) <? n) with false by lia. cbn [orb].
  rewrite build_decompress_lacks by exact L. reflexivity.
Qed.
Lemma build_decompress_page_lacks f C m cap p b : lacks f (cp_compression p) -> ~ stored_as_is p ->
  match p with CData d => levels_within (cdp_header d) (nlen (cdp_buffer d)) /\ levels_within (cdp_header d) (cdp_uncompressed_size d) | CDict _ => True end ->
  build_decompress_page f C m cap p b = Err FeatureNotActive.
Proof.
  intros L N W. apply build_decompress_page_refuses; [ exact L | exact N | ]. destruct p as [d|d]; [ | exact I ]. destruct (cdp_header d) as [h|h]; [ exact I | ].
  destruct W as [W W2]. exists (Z.to_N (dh2_rep_length h + dh2_def_length h)). split; [ exact (levels_within_length m h _ W) | ]. split; [ apply W | apply W2 ].
Qed.
Lemma compressed_levels C m p o cp : o <> OUncompressed -> compress C m p [] o = Ok cp ->
  match cp with
  | CData d => match cdp_header d with HV1 _ => True | HV2 h => exists n, levels_length m h = Ok n /\ n <= nlen (cdp_buffer d) /\ n <= cdp_uncompressed_size d end
  | CDict _ => True
  end.
Proof.
  intros Ho H. destruct p as [d|d]; cbn [compress] in H.
  - destruct (compress_data C m d [] o) as [cd|e|] eqn:E; try discriminate H. apply Ok_inj in H as <-. apply compress_data_inv in E as (y & -> & E); [ | exact Ho ].
    cbn [cdp_header cdp_buffer cdp_uncompressed_size]. destruct (dp_header d) as [h|h]; [ exact I | ]. destruct E as (n & L & B & E). exists n. split; [ exact L | ].
    split; [ | exact B ]. apply compress_bytes_inv in E as (_ & z & _ & ->). cbn [app]. rewrite nlen_app. unfold nlen in *. rewrite firstn_length. lia.
  - destruct (compress_dict C d [] o); try discriminate H. apply Ok_inj in H as <-. exact I.
Qed.
Lemma compressed_stored C m p o cp : compress C m p [] o = Ok cp -> says_compressed p -> ~ stored_as_is cp.
Proof.
  intros H S (d & h & -> & Eh & Ei). destruct p as [q|q]; cbn [compress] in H.
  - destruct (compress_data C m q [] o) as [cd|e|] eqn:E; try discriminate H. apply Ok_inj in H. injection H as <-.
    unfold compress_data in E. destruct (match o with OUncompressed => _ | _ => _ end) as [y|e|]; try discriminate E. apply Ok_inj in E. subst cd. cbn in Eh.
    cbn [says_compressed] in S. rewrite Eh in S. congruence.
  - destruct (compress_dict C q [] o); discriminate H.
Qed.
