(** C116: compression in every build of the crate. *)
From Verif Require Import Base.Prelude Model.Types Model.Thrift Model.Intervals Model.Page Model.Compression Model.Builds Spec.CompressionSpec Spec.BuildsSpec
  Proofs.CompressionProofs Proofs.BuildsProofs Props.Compression.
Open Scope N_scope.

(** Compressing bytes appends to the output and leaves what was in it, also when it fails, and what is appended does not depend on what was in it.
    A codec that the build lacks is refused with nothing appended; Lzo, the old Lz4 and no codec at all are refused by every build; else the build
    does what the default build does. *)
Theorem bytes_compress_in_any_build f E o input : exists y r,
  (forall out, build_compress f E o input out = (out ++ y, r)) /\
  (lacks f (options_compression o) -> o <> OLz4 -> y = [] /\ r = Err FeatureNotActive) /\
  (o = OUncompressed -> y = [] /\ r = Err InvalidParameter) /\
  (o = OLzo \/ o = OLz4 -> y = [] /\ r = Err FeatureNotSupported) /\
  (~ lacks f (options_compression o) -> build_compress default_build E o input [] = (y, r)).
Proof.
  destruct (build_appends f E o input) as (y & r & H). exists y, r. split; [ exact H | ]. specialize (H []). cbn [app] in H.
  split; [ | split; [ | split ] ].
  - intros L Ne. rewrite build_lacks in H by assumption. injection H as <- <-. auto.
  - intros ->. injection H as <- <-. auto.
  - intros [-> | ->]; injection H as <- <-; auto.
  - intros L. rewrite build_has in H by exact L. exact H.
Qed.
Print Assumptions bytes_compress_in_any_build.
(** An encoder of blocks that fails after some bytes, and one of streams that works. *)
Definition bx_encoders : encoders :=
  mk_encoders (fun _ x => (x ++ [0], Ok tt)) (fun _ n => Ok (n + 1)) (fun _ x _ => if nlen x =? 3 then ([9], Err OutOfSpec) else (x ++ [0], Ok (nlen x + 1))).
Example bytes_compress_case :
  build_compress (mk_features false true true false true false) bx_encoders OSnappy [1; 2; 3] [7] = ([7; 9; 0; 0; 0], Err OutOfSpec) /\
  build_compress (mk_features false true true false true false) bx_encoders OLz4Raw [1; 2] [7] = ([7; 1; 2; 0], Ok tt) /\
  build_compress (mk_features false true true false true false) bx_encoders (OZstd None) [1; 2] [7] = ([7], Err FeatureNotActive) /\
  lacks (mk_features false true true false true false) Zstd.
Proof. repeat (split; [ reflexivity | ]). constructor. reflexivity. Qed.

(** Decompressing bytes keeps the length of the output. A codec that the build lacks is refused and the output is left; else the build does what the
    default build does. *)
Theorem bytes_decompress_in_any_build f C c input out :
  length (fst (build_decompress f C c input out)) = length out /\
  (lacks f c -> build_decompress f C c input out = (out, Err FeatureNotActive)) /\
  (~ lacks f c -> build_decompress f C c input out = decompress_bytes C c input out).
Proof.
  split; [ | split; [ apply build_decompress_lacks | apply build_decompress_has ] ].
  destruct (lacks_dec f c) as [L|L]; [ rewrite build_decompress_lacks by exact L; reflexivity | ].
  rewrite build_decompress_has by exact L. apply decompress_bytes_length.
Qed.
Print Assumptions bytes_decompress_in_any_build.

(** A page compressed by any build with a codec can be read by every build that has it: the page comes back, whatever buffer is used. A build without
    it refuses the page with an error that says so. A build that lacks the codec does not compress. *)
Theorem builds_exchange_pages f E C m p o cp :
  inverts C -> same_crates E C -> (o <> OUncompressed -> says_compressed p) -> build_compress_page f E m p [] o = Ok cp ->
  ~ lacks f (options_compression o) /\ cp_compression cp = options_compression o /\
  forall g cap b,
    (~ lacks g (options_compression o) -> build_decompress_page g C m cap cp b = Ok p) /\
    (lacks g (options_compression o) -> build_decompress_page g C m cap cp b = Err FeatureNotActive).
Proof.
  intros I S P H.
  assert (L : ~ lacks f (options_compression o)).
  { intros L. unfold build_compress_page in H.
    assert (R : forall input out, exists e, build_compress f E o input out = (out, Err e)).
    { intros. destruct o; try (eexists; apply build_lacks; [ exact L | discriminate ]). eexists; reflexivity. }
    assert (U : o <> OUncompressed) by (intros ->; inversion L). clear - H R U.
    destruct p as [d|d]; cbn zeta in H.
    - destruct o; try congruence; (destruct (dp_header d) as [h|h];
        [ | destruct (levels_length m h) as [n|e|]; try discriminate H; cbn [bind] in H;
            destruct (slice_range 0 n (dp_buffer d)) as [lv|e|]; try discriminate H; cbn [bind] in H;
            destruct (slice_range n (nlen (dp_buffer d)) (dp_buffer d)) as [vs|e|]; try discriminate H; cbn [bind] in H ];
        match type of H with context [build_compress f E ?x ?i ?j] => destruct (R i j) as (e' & R'); rewrite R' in H; discriminate H end).
    - destruct o; try congruence;
        match type of H with context [build_compress f E ?x ?i ?j] => destruct (R i j) as (e' & R'); rewrite R' in H; discriminate H end. }
  rewrite (build_page_has f E C) in H by assumption. destruct (page_compression_roundtrip C m p o cp I H P) as (A & B & _).
  split; [ exact L | ]. split; [ exact B | ]. intros g cap b. split; intros G.
  - rewrite build_decompress_page_has by (rewrite B; exact G). apply A.
  - assert (U : o <> OUncompressed) by (intros ->; inversion G). apply build_decompress_page_refuses; [ rewrite B; exact G | | ].
    + eapply compressed_stored; [ exact H | apply P; exact U ].
    + eapply compressed_levels; [ exact U | exact H ].
Qed.
Print Assumptions builds_exchange_pages.
Definition bx_good : encoders := mk_encoders (fun _ x => (x ++ [0], Ok tt)) (fun _ n => Ok (n + 1)) (fun _ x _ => (x ++ [0], Ok (nlen x + 1))).
Definition bx_codecs : codecs :=
  mk_codecs (fun o x => outcome (build_compress default_build bx_good o x [])) (stream_dec toy) (snappy_len toy) (snappy_dec toy) (lz4_dec toy).
Lemma bx_enc o x y : enc bx_codecs o x = Ok y -> y = x ++ [0].
Proof.
  cbn [enc bx_codecs]. unfold outcome, build_compress, default_build, stream_compress, inner_compress, bx_good. cbn [has_brotli has_gzip has_snappy has_lz4 has_lz4_flex has_zstd andb negb e_stream e_bound e_block].
  assert (K : firstn (length (@nil N) + N.to_nat (nlen x + 1)) ([] ++ write_prefix (x ++ [0]) (repeat 0 (N.to_nat (nlen x + 1)))) = x ++ [0]).
  { rewrite write_prefix_full by (rewrite app_length, repeat_length; unfold nlen; cbn [length]; lia). cbn [app length Nat.add].
    apply firstn_all2. rewrite app_length. unfold nlen. cbn [length]. lia. }
  destruct o; cbn [fst snd rmap bind]; rewrite ?K; intros H; try discriminate H; apply Ok_inj in H as <-; reflexivity.
Qed.
Lemma bx_inverts : inverts bx_codecs.
Proof. intros o x y H. apply bx_enc in H as ->. exact (toy_inverts o x (x ++ [0]) eq_refl). Qed.
(** The encoders and decoders of the example are crates as the theorem asks for; a page of the second version goes from one build to two others. *)
Example builds_exchange_case :
  inverts bx_codecs /\ same_crates bx_good bx_codecs /\
  let* cp := build_compress_page (mk_features false false true false true true) bx_good Checked (toy_page None) [] OLz4Raw in
  let* q := build_decompress_page (mk_features true false false true false false) bx_codecs Checked 0 cp [1; 2] in
  Ok (q, build_decompress_page (mk_features true true true false false true) bx_codecs Checked 0 cp []) = Ok (toy_page None, Err FeatureNotActive).
Proof. split; [ exact bx_inverts | ]. split; [ intros o x; reflexivity | vm_compute; reflexivity ]. Qed.

(** A build that lacks the codec refuses to compress a page with it, with an error that says so. *)
Theorem page_compression_refused f E m p b o :
  lacks f (options_compression o) -> o <> OLz4 ->
  match p with PData d => levels_within (dp_header d) (nlen (dp_buffer d)) | PDict _ => True end ->
  build_compress_page f E m p b o = Err FeatureNotActive.
Proof. apply build_page_lacks. Qed.
Print Assumptions page_compression_refused.
Definition bx_small : features := mk_features false true true false true false.
Example page_compression_refused_case :
  lacks bx_small (options_compression (OBrotli (Some 3%Z))) /\ (levels_within (HV2 (toy_v2 None)) 7%N /\
  build_compress_page bx_small bx_good Checked (toy_page None) [1] (OBrotli (Some 3%Z)) = Err FeatureNotActive).
Proof. split; [ constructor; reflexivity | ]. split; [ cbn; lia | vm_compute; reflexivity ]. Qed.

(** For every page, written by whatever writer: a build reads it as the default build does, unless it lacks the codec and the page is compressed;
    then it refuses it. A page of the second version whose values are not compressed is read by every build. *)
Theorem pages_read_in_any_build f C m cap p b :
  (~ lacks f (cp_compression p) \/ stored_as_is p -> build_decompress_page f C m cap p b = decompress C m cap p b) /\
  (lacks f (cp_compression p) -> ~ stored_as_is p ->
   match p with CData d => levels_within (cdp_header d) (nlen (cdp_buffer d)) /\ levels_within (cdp_header d) (cdp_uncompressed_size d) | CDict _ => True end ->
   build_decompress_page f C m cap p b = Err FeatureNotActive).
Proof.
  split; [ intros [L|L]; [ apply build_decompress_page_has; exact L | apply build_decompress_page_stored; exact L ] | apply build_decompress_page_lacks ].
Qed.
Print Assumptions pages_read_in_any_build.
Example pages_read_case :
  let p flag := CData (mk_cdp (HV2 (toy_v2 flag)) [11; 12; 13; 14; 1; 2; 3] Zstd 7 toy_desc None) in
  let f := mk_features true true true true false false in
  lacks f Zstd /\ stored_as_is (p (Some false)) /\
  build_decompress_page f toy Checked 0 (p (Some false)) [] = Ok (PData (mk_dp (HV2 (toy_v2 (Some false))) [11; 12; 13; 14; 1; 2; 3] toy_desc None)) /\
  build_decompress_page f toy Checked 0 (p None) [] = Err FeatureNotActive.
Proof.
  intros p f. split; [ constructor; reflexivity | ]. split; [ eexists; eexists; repeat split; reflexivity | ]. split; vm_compute; reflexivity.
Qed.
