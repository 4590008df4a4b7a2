(** Proofs about writing column chunks. *)
From Coq Require Import Sorting.Sorted.
From Verif Require Import Base.Prelude Model.Types Model.Thrift Model.Intervals Model.Page Model.Io Model.Statistics
  Model.PageWrite Model.ColumnWrite Spec.PagesSpec Spec.ChunkSpec Base.LeFacts Proofs.TypesFacts Proofs.PageIoProofs.
Open Scope N_scope.

(** What the writer remembers of a page written at [off]. *)
Definition spec_for (T : thrift t_page_header) (off : N) (p : compressed_page) (spec : page_spec) : Prop :=
  within_limits p /\
  ps_header spec = header_of p /\ ps_header_size spec = nlen (t_enc T (header_of p)) /\ ps_offset spec = off /\
  ps_bytes_written spec = nlen (page_bytes T p) /\ ps_compression spec = cp_compression p /\
  Ok (ps_statistics spec) = match p with CData d => cdp_statistics d | CDict _ => Ok None end /\
  Ok (ps_num_rows spec) = page_num_rows p /\ ps_num_values spec = cp_num_values p.
Inductive specs_for (T : thrift t_page_header) : N -> list compressed_page -> list page_spec -> Prop :=
| specs_nil off : specs_for T off [] []
| specs_cons off p spec l specs : spec_for T off p spec -> specs_for T (off + nlen (page_bytes T p)) l specs ->
    specs_for T off (p :: l) (spec :: specs).

Lemma write_pages_ok T : forall pages off s s' specs, write_pages T off pages s = (s', Ok specs) ->
  exists l, pages = map inl l /\ sk_data s' = sk_data s ++ chunk_bytes T l /\ specs_for T off l specs.
Proof.
  induction pages as [|[p|e] pages IH]; intros off s s' specs H; cbn [write_pages] in H.
  - apply wret_ok in H as [-> <-]. exists []. split; [ reflexivity | ]. split; [ rewrite app_nil_r; reflexivity | constructor ].
  - apply wbind_ok in H as (s1 & spec & H1 & H). apply wbind_ok in H as (s2 & sp & H2 & H). apply wret_ok in H as [-> <-].
    apply write_page_ok in H1 as (A & B & C). pose proof C as (_ & _ & _ & C4 & _). rewrite C4 in H2.
    apply IH in H2 as (l & -> & H2 & H3). exists (p :: l). split; [ reflexivity | ].
    split; [ rewrite H2, B; unfold chunk_bytes; cbn [map concat]; rewrite app_assoc; reflexivity | ].
    constructor; [ | exact H3 ]. split; assumption.
  - apply wres_ok in H as [_ H]. discriminate H.
Qed.

Lemma specs_size_for T off l specs : specs_for T off l specs -> specs_size specs = nlen (chunk_bytes T l).
Proof.
  induction 1 as [|off p spec l specs H _ IH]; [ reflexivity | ].
  unfold chunk_bytes in *. cbn [specs_size fold_right map concat]. fold (specs_size specs). rewrite IH, nlen_app.
  destruct H as (_ & _ & _ & _ & -> & _). lia.
Qed.

Lemma in_distinct_codecs c : forall l, In c (distinct_codecs l) <-> In c l.
Proof.
  induction l as [|x l IH]; [ reflexivity | ]. cbn [distinct_codecs].
  destruct (existsb (compression_eqb x) (distinct_codecs l)) eqn:E.
  - apply existsb_exists in E as (y & Hy & E). assert (x = y) as <-.
    { clear - E. destruct x, y; try reflexivity; vm_compute in E; discriminate E. }
    cbn [In]. rewrite <- IH. split; [ auto | intros [->|]; auto ].
  - cbn [In]. rewrite IH. reflexivity.
Qed.
Lemma one_codec l : nlen (distinct_codecs l) <= 1 ->
  forall x, In x l -> x = match distinct_codecs l with c :: _ => c | [] => Uncompressed end.
Proof.
  intros Hn x Hx. apply in_distinct_codecs in Hx. destruct (distinct_codecs l) as [|c [|]]; cbn [In] in Hx.
  - destruct Hx.
  - destruct Hx as [->|[]]. reflexivity.
  - unfold nlen in Hn. cbn [length] in Hn. lia.
Qed.

Lemma header_of_type p : page_type_of_thrift (ph_type (header_of p)) =
  Ok match p with CData d => match cdp_header d with HV1 _ => PtData | HV2 _ => PtDataV2 end | CDict _ => PtDictionary end.
Proof. destruct p as [d|d]; cbn [header_of]; [ destruct (cdp_header d) | ]; reflexivity. Qed.
Lemma spec_num_values_for T off p spec : spec_for T off p spec -> spec_num_values spec = Ok (values p).
Proof.
  intros (_ & Hh & _). unfold spec_num_values. rewrite Hh, header_of_type.
  destruct p as [d|d]; cbn [header_of values]; [ destruct (cdp_header d) | ]; reflexivity.
Qed.
Lemma spec_encodings_for T off p spec : spec_for T off p spec -> spec_encodings spec = Ok (page_encodings p).
Proof.
  intros (_ & Hh & _). unfold spec_encodings. rewrite Hh, header_of_type.
  destruct p as [d|d]; cbn [header_of page_encodings]; [ destruct (cdp_header d) | ]; reflexivity.
Qed.
Lemma collect_for {A} (f : page_spec -> res A) (g : compressed_page -> A) T :
  (forall off p spec, spec_for T off p spec -> f spec = Ok (g p)) ->
  forall off l specs, specs_for T off l specs -> collect_res (map f specs) = Ok (map g l).
Proof.
  intros Hfg. induction 1 as [|off p spec l specs H _ IH]; [ reflexivity | ].
  cbn [map collect_res]. rewrite (Hfg _ _ _ H). cbn [bind]. rewrite IH. reflexivity.
Qed.

Lemma insert_sorted_ok x : forall l, StronglySorted Z.lt l ->
  StronglySorted Z.lt (insert_sorted x l) /\ forall y, In y (insert_sorted x l) <-> (y = x \/ In y l).
Proof.
  induction l as [|z l IH]; intros Hs; cbn [insert_sorted].
  - split; [ repeat constructor | ]. intros y. cbn [In]. intuition.
  - apply StronglySorted_inv in Hs as [Hl Hz]. destruct (Z.ltb_spec x z) as [Hlt|Hge]; [ | destruct (Z.eqb_spec x z) as [->|Hne] ].
    + split; [ | intros y; cbn [In]; intuition ].
      constructor; [ constructor; assumption | ]. constructor; [ exact Hlt | ].
      eapply Forall_impl; [ | exact Hz ]. cbn beta. intros; lia.
    + split; [ constructor; assumption | ]. intros y. cbn [In]. intuition.
    + destruct (IH Hl) as [IH1 IH2]. split.
      * constructor; [ exact IH1 | ]. apply Forall_forall. intros y Hy. apply IH2 in Hy as [->|Hy]; [ lia | ].
        rewrite Forall_forall in Hz. auto.
      * intros y. cbn [In]. rewrite IH2. intuition.
Qed.
Lemma sorted_set_ok l : is_sorted_set l (sorted_set l).
Proof.
  induction l as [|x l [IH1 IH2]]; cbn [sorted_set fold_right].
  - split; [ constructor | reflexivity ].
  - destruct (insert_sorted_ok x (sorted_set l) IH1) as [H1 H2]. split; [ exact H1 | ]. intros y.
    change (In y (insert_sorted x (sorted_set l)) <-> In y (x :: l)). rewrite H2, IH2. cbn [In]. intuition.
Qed.

Lemma zsum_sizes T off l specs : specs_for T off l specs ->
  zsum (map (fun s => Z.of_N (ps_header_size s) + ph_compressed_size (ps_header s))%Z specs) = Z.of_N (nlen (chunk_bytes T l)) /\
  zsum (map (fun s => Z.of_N (ps_header_size s) + ph_uncompressed_size (ps_header s))%Z specs) = Z.of_N (uncompressed_bytes T l).
Proof.
  induction 1 as [|off p spec l specs H _ [IH1 IH2]]; [ split; reflexivity | ].
  unfold zsum, chunk_bytes, uncompressed_bytes in *. cbn [map fold_right concat]. rewrite IH1, IH2.
  destruct H as (_ & -> & -> & _). destruct (header_of_sizes p) as [-> ->].
  unfold page_bytes. rewrite !nlen_app. lia.
Qed.
Lemma zsum_values l : zsum (map values l) = values_of l.
Proof. induction l as [|p l IH]; [ reflexivity | ]. rewrite values_of_cons, <- IH. reflexivity. Qed.

Lemma specs_codecs T off l specs : specs_for T off l specs -> map ps_compression specs = map cp_compression l.
Proof.
  induction 1 as [|off p spec l specs H _ IH]; [ reflexivity | ]. cbn [map]. rewrite IH.
  destruct H as (_ & _ & _ & _ & _ & -> & _). reflexivity.
Qed.

Lemma build_column_chunk_ok T m off l specs d chunk : specs_for T off l specs -> off < 2 ^ 63 ->
  build_column_chunk m specs d = Ok chunk ->
  exists meta reduced, chunk = mk_tcc None (cm_data_page_offset meta + cm_compressed_size meta) (Some meta) None None None None None None /\
    describes T off d l meta /\
    reduce_statistics m (map ps_statistics specs) = Ok reduced /\
    (match reduced with None => Ok None | Some s => let* s := serialize_statistics s in Ok (Some s) end) = Ok (cm_statistics meta).
Proof.
  intros Hs Hoff. unfold build_column_chunk.
  destruct (zsum_sizes T off l specs Hs) as [-> ->].
  rewrite (collect_for _ _ T (spec_num_values_for T) off l specs Hs), (collect_for _ _ T (spec_encodings_for T) off l specs Hs).
  rewrite (specs_codecs T off l specs Hs). cbn [bind].
  destruct (N.ltb_spec 1 (nlen (distinct_codecs (map cp_compression l)))) as [|Hone]; [ discriminate | ].
  pose proof (one_codec _ Hone) as Hc.
  destruct (reduce_statistics m (map ps_statistics specs)) as [reduced|e|]; [ | discriminate | discriminate ]. cbn [bind].
  destruct (match reduced with None => Ok None | Some s => let* s := serialize_statistics s in Ok (Some s) end) as [st|e|] eqn:Est;
    [ | discriminate | discriminate ]. cbn [bind].
  intros H. apply Ok_inj in H.
  match type of H with mk_tcc _ _ (Some ?x) _ _ _ _ _ _ = _ => exists x, reduced end. split; [ symmetry; exact H | ].
  split; [ | split; [ reflexivity | exact Est ] ].
  unfold describes. cbn [cm_compressed_size cm_uncompressed_size cm_num_values cm_data_page_offset cm_dictionary_page_offset cm_codec cm_encodings cm_path cm_type].
  split; [ reflexivity | ]. split; [ reflexivity | ]. split; [ apply zsum_values | ].
  split. { destruct Hs as [|off p spec l specs Hsp _]; [ reflexivity | ]. destruct Hsp as (_ & _ & _ & -> & _).
    apply as_i64_small. exact Hoff. }
  split; [ reflexivity | ].
  split. { eexists. split; [ | split; [ reflexivity | ] ].
    - apply Forall_forall. intros p Hp. apply Hc. apply in_map. exact Hp.
    - intros ->. reflexivity. }
  split; [ apply sorted_set_ok | ]. split; reflexivity.
Qed.

Lemma write_column_chunk_ok T TM m off d pages s s' chunk specs size : off < 2 ^ 63 ->
  write_column_chunk T TM m off d pages s = (s', Ok (chunk, specs, size)) ->
  exists l meta reduced, pages = map inl l /\ specs_for T off l specs /\
    sk_data s' = sk_data s ++ chunk_bytes T l ++ t_enc TM meta /\
    size = nlen (chunk_bytes T l) + nlen (t_enc TM meta) /\
    chunk = mk_tcc None (cm_data_page_offset meta + cm_compressed_size meta) (Some meta) None None None None None None /\
    describes T off d l meta /\
    reduce_statistics m (map ps_statistics specs) = Ok reduced /\
    (match reduced with None => Ok None | Some s => let* s := serialize_statistics s in Ok (Some s) end) = Ok (cm_statistics meta).
Proof.
  intros Hoff H. unfold write_column_chunk in H. apply wbind_ok in H as (s1 & sp & H1 & H).
  apply write_pages_ok in H1 as (l & -> & Hd & Hs). apply wbind_ok in H as (s2 & ch & H2 & H).
  apply wres_ok in H2 as [-> Hb]. pose proof Hb as Hb'. apply (build_column_chunk_ok T m off l sp d ch Hs Hoff) in Hb' as (meta & reduced & -> & Hdesc & Hr).
  cbn [cc_meta] in H. apply wbind_ok in H as (s3 & n & H3 & H). apply write_struct_ok in H3 as [-> H3].
  apply wret_ok in H as [-> H]. assert (Hch := f_equal (fun x => fst (fst x)) H). assert (Hsp := f_equal (fun x => snd (fst x)) H).
  assert (Hsz := f_equal snd H). cbn [fst snd] in Hch, Hsp, Hsz. subst chunk specs size.
  exists l, meta, reduced. split; [ reflexivity | ]. split; [ exact Hs | ].
  split; [ rewrite H3, Hd, <- app_assoc; reflexivity | ]. split; [ rewrite (specs_size_for T off l sp Hs); reflexivity | ].
  split; [ reflexivity | ]. split; [ exact Hdesc | exact Hr ].
Qed.

Lemma map_inl_inj {A B} : forall l l' : list A, map (@inl A B) l = map inl l' -> l = l'.
Proof.
  induction l as [|a l IH]; intros [|b l'] H; try discriminate H; [ reflexivity | ].
  cbn [map] in H. injection H as -> H. rewrite (IH l' H). reflexivity.
Qed.

Lemma write_pages_then_error T e rest : forall l off s s1 specs,
  write_pages T off (map inl l) s = (s1, Ok specs) ->
  exists s', write_pages T off (map inl l ++ inr e :: rest) s = (s', Err e) /\ sk_data s' = sk_data s1.
Proof.
  induction l as [|p l IH]; intros off s s1 specs H; cbn [map app write_pages] in H |- *.
  - apply wret_ok in H as [-> _]. exists s. split; reflexivity.
  - apply wbind_ok in H as (s2 & spec & H1 & H). apply wbind_ok in H as (s3 & sp & H2 & H). apply wret_ok in H as [-> _].
    destruct (IH _ _ _ _ H2) as (s' & H' & Hd). exists s'. unfold wbind at 1. rewrite H1. unfold wbind at 1. rewrite H'.
    split; [ reflexivity | exact Hd ].
Qed.

Lemma write_page_of T off p x data : within_limits p ->
  (match p with CData d => cdp_statistics d = Ok x /\ cdp_selected d <> Some [] | CDict _ => x = None end) ->
  exists spec, write_page T off p (mk_sink data None) = (mk_sink (data ++ page_bytes T p) None, Ok spec) /\ ps_statistics spec = x.
Proof.
  intros Hlim Hs. unfold write_page, wbind, wres, wret, write_struct, write_all.
  rewrite (assemble_header_of p Hlim). cbn [sk_room sk_data wbind wret fst snd].
  destruct p as [d|d].
  - destruct Hs as [-> Hsel].
    unfold page_num_rows. cbn [cp_selected]. destruct (cdp_selected d) as [ivs|].
    2: { unfold wbind, wret; cbn [sk_room sk_data]. eexists. split; [ unfold page_bytes; rewrite <- app_assoc; reflexivity | reflexivity ]. }
    destruct (rev ivs) as [|iv r] eqn:Er.
    + exfalso. apply Hsel. f_equal. apply (f_equal (@rev _)) in Er. rewrite rev_involutive in Er. exact Er.
    + unfold wbind, wret; cbn [sk_room sk_data]. eexists. split; [ unfold page_bytes; rewrite <- app_assoc; reflexivity | reflexivity ].
  - subst x. unfold page_num_rows. cbn [cp_selected]. unfold wbind, wret. cbn [sk_room sk_data].
    eexists. split; [ unfold page_bytes; rewrite <- app_assoc; reflexivity | reflexivity ].
Qed.

Lemma Forall2_head {A B} (R : A -> B -> Prop) a b l l' : Forall2 R (a :: l) (b :: l') -> R a b.
Proof. intros H. inversion H. assumption. Qed.
Lemma Forall2_tail {A B} (R : A -> B -> Prop) a b l l' : Forall2 R (a :: l) (b :: l') -> Forall2 R l l'.
Proof. intros H. inversion H. assumption. Qed.
Lemma write_pages_of T : forall l stats, Forall within_limits l ->
  Forall2 (fun p x => match p with CData d => cdp_statistics d = Ok x /\ cdp_selected d <> Some [] | CDict _ => x = None end) l stats ->
  forall off data, exists specs, write_pages T off (map inl l) (mk_sink data None) = (mk_sink (data ++ chunk_bytes T l) None, Ok specs) /\
    specs_for T off l specs /\ map ps_statistics specs = stats.
Proof.
  induction l as [|p l IH]; intros stats Hlim Hst off data.
  - inversion Hst; subst. exists []. cbn [map write_pages]. unfold wret. split; [ cbn; rewrite app_nil_r; reflexivity | ].
    split; [ constructor | reflexivity ].
  - destruct stats as [|x stats]; [ inversion Hst | ]. assert (Hx := Forall2_head _ _ _ _ _ Hst); apply Forall2_tail in Hst; cbn beta in Hx.
    destruct (write_page_of T off p x data (Forall_inv Hlim) Hx) as (spec & Hw & Hsx).
    pose proof (write_page_ok _ _ _ _ _ _ Hw) as (A & _ & C). pose proof C as (_ & _ & _ & C4 & _).
    destruct (IH stats (Forall_inv_tail Hlim) Hst (off + ps_bytes_written spec) (data ++ page_bytes T p)) as (specs & Hws & Hss & Hsm).
    exists (spec :: specs). cbn [map write_pages]. unfold wbind at 1. rewrite Hw. unfold wbind at 1. rewrite Hws.
    split; [ unfold wret, chunk_bytes; cbn [map concat]; rewrite app_assoc; reflexivity | ].
    rewrite C4 in Hss. split; [ constructor; [ split; assumption | exact Hss ] | ]. cbn [map]. rewrite Hsx, Hsm. reflexivity.
Qed.

Lemma distinct_codecs_same c : forall l, Forall (fun x => x = c) l -> nlen (distinct_codecs l) <= 1.
Proof.
  intros l H. assert (E : distinct_codecs l = [] \/ distinct_codecs l = [c]).
  { induction H as [|x l -> H IH]; [ left; reflexivity | ]. cbn [distinct_codecs]. right.
    destruct IH as [-> | ->]; cbn [existsb]; [ reflexivity | ].
    unfold compression_eqb. rewrite Z.eqb_refl. reflexivity. }
  destruct E as [-> | ->]; cbv; discriminate.
Qed.
Lemma build_column_chunk_of T m off l specs d c reduced st : specs_for T off l specs -> same_codec c l ->
  reduce_statistics m (map ps_statistics specs) = Ok reduced ->
  (match reduced with None => Ok None | Some s => let* s := serialize_statistics s in Ok (Some s) end) = Ok st ->
  exists meta, build_column_chunk m specs d =
    Ok (mk_tcc None (cm_data_page_offset meta + cm_compressed_size meta) (Some meta) None None None None None None).
Proof.
  intros Hs Hc Hr Hst. unfold build_column_chunk.
  rewrite (collect_for _ _ T (spec_num_values_for T) off l specs Hs), (collect_for _ _ T (spec_encodings_for T) off l specs Hs).
  rewrite (specs_codecs T off l specs Hs). cbn [bind].
  assert (Hn : nlen (distinct_codecs (map cp_compression l)) <= 1).
  { apply (distinct_codecs_same c). apply Forall_map. exact Hc. }
  apply N.ltb_ge in Hn. rewrite Hn, Hr. cbn [bind]. rewrite Hst. cbn [bind].
  match goal with |- context [mk_tcc None _ (Some ?x) _ _ _ _ _ _] => exists x end. reflexivity.
Qed.
