(** Proofs about chunks of any writer: what is stored is decompressed and read. *)
From Verif Require Import Base.Prelude Base.Iter Model.Types Model.Thrift Model.Intervals Model.Page Model.Compression Model.Io Model.PageRead Model.Metadata
  Spec.PagesSpec Spec.ForeignSpec Spec.CompressionSpec Spec.PlainSpec Spec.PageSpec Spec.RowsSpec Spec.ValuesSpec Spec.RunsSpec Spec.ForeignValuesSpec
  Proofs.CompressionProofs Proofs.PageIoProofs Proofs.EndToEndProofs Props.Compression Props.Runs Props.Foreign.
Open Scope N_scope.

Lemma block_content (r : list N * bool) out content : r = (content, true) -> nlen out = nlen content -> unit_res (block_into r out) = (content, Ok tt).
Proof.
  intros -> Hl. unfold block_into, unit_res, write_prefix. cbn [fst snd]. unfold nlen in Hl.
  rewrite firstn_all2, skipn_all2 by lia. rewrite app_nil_r. reflexivity.
Qed.
Lemma stream_content w out content : w = content -> nlen out = nlen content -> read_exact_into w out = (content, Ok tt).
Proof.
  intros -> Hl. unfold read_exact_into, nlen in *. replace (length out <=? length content)%nat with true by lia. rewrite firstn_all2 by lia. reflexivity.
Qed.
Lemma unpacks_bytes C c stored content out : c <> Uncompressed -> unpacks C c stored content -> nlen out = nlen content ->
  decompress_bytes C c stored out = (content, Ok tt).
Proof.
  intros Hc Hu Hl. destruct c; cbn [unpacks] in Hu; try congruence; try contradiction; cbn [decompress_bytes].
  - destruct Hu as [-> Hu]. rewrite Hl, N.ltb_irrefl. apply block_content; [apply Hu, N.le_refl|exact Hl].
  - apply stream_content; assumption.
  - apply stream_content; assumption.
  - destruct Hu as (fs & -> & -> & Hok & Ht). exact (hadoop_frames_decompress C fs out Hok Ht Hl).
  - apply stream_content; assumption.
  - rewrite Hl. apply block_content; [apply Hu, N.le_refl|exact Hl].
Qed.
Lemma levels_length_ok m h : (0 <= dh2_rep_length h)%Z -> (0 <= dh2_def_length h)%Z -> (dh2_rep_length h + dh2_def_length h < 2 ^ 31)%Z ->
  levels_length m h = Ok (Z.to_N (dh2_rep_length h + dh2_def_length h)).
Proof.
  intros H1 H2 H3. unfold levels_length, sadd. set (s := (dh2_rep_length h + dh2_def_length h)%Z) in *. assert (0 <= s)%Z by (unfold s; lia). clearbody s.
  change (2 ^ 31)%Z with 2147483648%Z in H3.
  assert (E : in_s 32 s = true) by (unfold in_s; change (2 ^ (Z.of_N 32 - 1))%Z with 2147483648%Z; lia).
  rewrite E. cbn [bind]. unfold as_usize, of_signed. change (2 ^ Z.of_N 64)%Z with 18446744073709551616%Z. rewrite Z.mod_small by lia. reflexivity.
Qed.

(** A stored page is decompressed to its body, whatever buffer it is decompressed into. *)
Lemma packed_decompress C m c d cp body cap b : packed C c cp body -> decompress C m cap (as_stored c d cp) b = Ok (create_page (as_stored c d cp) body).
Proof.
  intros (Hl & Hp). destruct (cp_uncompressed_dec (as_stored c d cp)) as [E|E].
  - rewrite decompress_uncompressed by exact E. f_equal. f_equal. destruct cp as [x|x]; cbn [as_stored cp_compression cdp_compression cdi_compression cp_buffer cdp_buffer cdi_buffer] in *; subst c; [|exact Hp].
    destruct (cdp_header x) as [h|h]; [exact Hp|]. destruct Hp as (_ & _ & _ & levels & stored & content & -> & -> & _ & Hp). f_equal. destruct Hp as [[-> _]|[Hp _]]; [reflexivity|exact Hp].
  - rewrite decompress_compressed by exact E.
    set (out := prepare cap (cp_uncompressed_size (as_stored c d cp)) b).
    assert (Ho : nlen out = nlen body) by (unfold out; rewrite prepare_length, Hl; destruct cp; reflexivity).
    clearbody out. assert (Hc : c <> Uncompressed) by (destruct cp; exact E).
    assert (G : run_page C m (as_stored c d cp) out = (body, Ok tt)); [|rewrite G; reflexivity].
    destruct cp as [x|x]; cbn [as_stored run_page cdp_header cdp_compression cdp_buffer cdi_compression cdi_buffer]; [|apply unpacks_bytes; assumption].
    destruct (cdp_header x) as [h|h]; [apply unpacks_bytes; assumption|].
    destruct Hp as (H1 & H2 & H3 & levels & stored & content & -> & -> & Hn & Hp). unfold decompress_v2. rewrite levels_length_ok by assumption. rewrite <- Hn, N2Z.id.
    destruct Hp as [[-> ->]|[Hp Hi]]; [rewrite Ho, N.eqb_refl; reflexivity|].
    replace (match dh2_is_compressed h with Some b0 => b0 | None => true end) with true by (destruct (dh2_is_compressed h) as [[]|]; congruence).
    assert (En : N.to_nat (nlen levels) = length levels) by (unfold nlen; lia).
    assert (L1 : nlen (levels ++ content) = nlen levels + nlen content) by (unfold nlen; rewrite app_length; lia).
    assert (L2 : nlen (levels ++ stored) = nlen levels + nlen stored) by (unfold nlen; rewrite app_length; lia).
    replace ((nlen out <? nlen levels) || (nlen (levels ++ stored) <? nlen levels)) with false by lia. cbn zeta. rewrite En.
    rewrite skipn_app, Nat.sub_diag, skipn_O, skipn_all. cbn [app].
    rewrite (unpacks_bytes C c stored content (skipn (length levels) out) Hc Hp) by (unfold nlen in *; rewrite skipn_length; lia).
    rewrite firstn_app, Nat.sub_diag, firstn_O, firstn_all, app_nil_r. reflexivity.
Qed.

(** Pages that are decompressed in the same way whatever the buffer is. *)
Lemma dec_run_same {S} C m (P : page_iter S) R : serves P R -> forall caps d cps ps, R (de_iter d) (map inl cps) ->
  Forall2 (fun cp p => forall cap b, decompress C m cap cp b = Ok p) cps ps -> length caps = Datatypes.S (length ps) ->
  dec_run C m P caps d = Ok (map (fun p => inl (Some p)) ps ++ [inl None]).
Proof.
  intros (Hsw & Hnil & Hcons). induction caps as [|cap caps IH]; intros d cps ps HR Hf Hn; [discriminate Hn|]. cbn [dec_run].
  unfold dec_advance.
  set (pre := match de_current d with Some p => _ | None => _ end).
  assert (Hpre : R (fst (fst pre)) (map inl cps)).
  { subst pre. destruct (de_current d) as [p|]; [|exact HR]. destruct (de_was d); [exact HR|].
    specialize (Hsw (de_iter d) _ (page_buffer p) HR). destruct (pi_swap P (de_iter d) (page_buffer p)). exact Hsw. }
  clearbody pre. destruct pre as [[it buffer] current]. cbn [fst] in Hpre.
  destruct Hf as [|cp p cps ps Hp Hf]; cbn [map] in *.
  - destruct (Hnil it Hpre) as (it' & -> & HR'). cbn [bind de_current]. destruct caps; [reflexivity|discriminate Hn].
  - destruct (Hcons it _ _ Hpre) as (it' & -> & HR'). cbn [bind].
    pose proof (decompress_buffer_decompress C m cap cp buffer) as Hd. rewrite Hp in Hd.
    destruct (decompress_buffer C m cap cp buffer) as [[cp' b'] [was|e|]]; try discriminate Hd. apply Ok_inj in Hd. rewrite <- Hd. cbn [bind de_current].
    rewrite (IH _ cps ps).
    + reflexivity.
    + cbn [de_iter]. destruct was; [apply Hsw, HR'|exact HR'].
    + exact Hf.
    + cbn [length] in Hn. lia.
Qed.

Lemma located_reader T file c codec l scratch max : located T file c codec l -> exists after,
  get_page_iterator c file None scratch max = Ok (pr_new (stored_chunk T l ++ after) (values_of (map snd l)) codec (cd_descriptor (cmd_descr c)) (fun _ _ => true) scratch max).
Proof.
  intros (meta & before & after & Em & -> & Hb & Ho & Hn & Hc). exists after. unfold get_page_iterator, byte_range, cmd_compression, cmd_meta. rewrite Em. cbn [bind].
  rewrite Hc. cbn [bind]. rewrite Hn. f_equal. f_equal.
  change (2 ^ 63) with 9223372036854775808 in Hb.
  assert (E : forall z, z = Z.of_N (nlen before) -> as_usize z = nlen before).
  { intros z ->. unfold as_usize, of_signed. change (2 ^ Z.of_N 64)%Z with 18446744073709551616%Z. rewrite Z.mod_small by lia. apply N2Z.id. }
  replace (match cm_dictionary_page_offset meta with Some o => as_usize o | None => as_usize (cm_data_page_offset meta) end) with (nlen before) by (destruct (cm_dictionary_page_offset meta); symmetry; apply E; exact Ho).
  replace (N.to_nat (nlen before)) with (length before) by (unfold nlen; lia). rewrite skipn_app, Nat.sub_diag, skipn_O, skipn_all. reflexivity.
Qed.

Lemma needed_first T max : forall l, Forall (readable T max) l ->
  exists n, (n <= length l)%nat /\ needed (values_of (map snd l)) (map snd l) = firstn n (map snd l) /\ values_of (skipn n (map snd l)) = 0%Z.
Proof.
  assert (Hv : forall l, Forall (readable T max) l -> (0 <= values_of (map snd l))%Z).
  { induction 1 as [|x l (_ & _ & _ & _ & Hx) _ IH]; cbn [map]; [reflexivity|rewrite values_of_cons; lia]. }
  intros l Hl. induction Hl as [|p l Hp Hl IH]; [exists 0%nat; repeat split; cbn; lia|].
  cbn [map needed]. rewrite values_of_cons. destruct Hp as (_ & _ & _ & _ & Hp). pose proof (Hv l Hl).
  destruct (Z.leb_spec (values (snd p) + values_of (map snd l)) 0).
  - exists 0%nat. split; [lia|]. split; [reflexivity|]. cbn [skipn]. rewrite values_of_cons. lia.
  - destruct IH as (n & E0 & E1 & E2). exists (S n). split; [cbn [length]; lia|].
    replace (values (snd p) + values_of (map snd l) - values (snd p))%Z with (values_of (map snd l)) by lia. cbn [firstn skipn]. rewrite E1. auto.
Qed.
(** The pages of a chunk, for any way [H] in which they hold something and any way [R] to read it. *)
Lemma foreign_pages {E} T C m file c codec l (H : compressed_page -> list E -> Prop) (R : page -> list E -> Prop) held scratch max :
  located T file c codec l -> Forall (readable T max) l -> (values_of (map snd l) < 2 ^ 63)%Z ->
  (forall cp es, H cp es -> exists body, packed C codec cp body /\ R (create_page (as_stored codec (cd_descriptor (cmd_descr c)) cp) body) es) ->
  (forall cp es, H cp es -> (0 <= values cp < 2 ^ 31)%Z -> values cp = 0%Z -> es = []) ->
  Forall2 H (map snd l) held ->
  exists r pages,
    get_page_iterator c file None scratch max = Ok r /\
    (forall caps buffer, length caps = S (length pages) ->
       dec_run C m (pr_iter T m) caps (dec_new r buffer) = Ok (map (fun p => inl (Some p)) pages ++ [inl None])) /\
    Forall2 R pages (firstn (length pages) held) /\
    concat (firstn (length pages) held) = concat held.
Proof.
  intros Hl Hr Hv HR H0 Hh. set (d := cd_descriptor (cmd_descr c)) in *.
  destruct (located_reader T file c codec l scratch max Hl) as (after & Hg).
  destruct (foreign_chunk_read T m l after (values_of (map snd l)) codec d (fun _ _ => true) scratch max Hr (Z.le_refl _) Hv) as (r' & Hruns & _). cbn zeta in Hruns.
  destruct (needed_first T max l Hr) as (n & Hn & En & Ez). rewrite En in Hruns.
  assert (Ef : forall l, filter (PagesSpec.wanted ((fun (_ : descriptor) (_ : page_header) => true) d)) l = l)
    by (clear; induction l as [|[x|x] l IH]; cbn [filter PagesSpec.wanted]; [reflexivity| |]; rewrite IH; reflexivity).
  rewrite Ef in Hruns. clear Ef En.
  assert (Hvs : Forall (fun p => (0 <= values p < 2 ^ 31)%Z) (map snd l)) by (clear - Hr; induction Hr as [|x l (_ & _ & _ & _ & Hx) _ IH]; constructor; auto).
  assert (Hlen : (n <= length (map snd l))%nat) by (rewrite map_length; exact Hn).
  set (cps := map snd l) in *. clearbody cps. clear Hr Hn Hl.
  assert (Hpages : forall n, exists pages, length pages = length (firstn n cps) /\ Forall2 (fun cp p => forall cap b, decompress C m cap cp b = Ok p) (map (as_stored codec d) (firstn n cps)) pages /\
            Forall2 R pages (firstn n held)).
  { clear - Hh HR. induction Hh as [|cp es cps held Hp Hh IH]; intros [|n]; cbn [firstn map]; try (exists []; repeat split; constructor).
    destruct (IH n) as (pages & E1 & H1 & H2). destruct (HR cp es Hp) as (body & Hb & Hr). exists (create_page (as_stored codec d cp) body :: pages). split; [cbn [length]; lia|].
    split; constructor; try assumption. intros cap b. apply packed_decompress. exact Hb. }
  destruct (Hpages n) as (pages & E1 & H1 & H2). assert (El : length pages = n) by (rewrite E1, firstn_length; lia).
  exists (pr_new (stored_chunk T l ++ after) (values_of cps) codec d (fun _ _ => true) scratch max), pages.
  split; [exact Hg|]. rewrite El. split; [|split; [exact H2|]].
  - intros caps buffer Hcaps. eapply (dec_run_same C m _ _ (reader_serves T m)); [|exact H1|rewrite El; exact Hcaps]. exists r'. exact Hruns.
  - clear - Hh Hvs Ez H0. revert n Ez. induction Hh as [|cp es cps held Hp Hh IH]; intros n Ez; [destruct n; reflexivity|].
    pose proof (Forall_inv Hvs) as Hv. apply Forall_inv_tail in Hvs. specialize (IH Hvs). cbn beta in Hv.
    destruct n as [|n]; cbn [firstn concat]; [|f_equal; apply IH; exact Ez].
    cbn [skipn] in Ez. rewrite values_of_cons in Ez.
    assert (Hz : (0 <= values_of cps)%Z) by (clear - Hvs; induction Hvs as [|x cps Hx _ IH]; [reflexivity|rewrite values_of_cons; cbn beta in Hx; lia]).
    rewrite (H0 cp es Hp Hv) by lia. cbn [app]. specialize (IH 0%nat). cbn [firstn concat skipn] in IH. apply IH. lia.
Qed.
Lemma no_values_no_cells {A} x body d (cells : list A) : dp_num_values (mk_dp (cdp_header x) body d None) = nlen cells -> (0 <= values (CData x) < 2 ^ 31)%Z -> values (CData x) = 0%Z -> cells = [].
Proof.
  intros E Hv Hz. unfold dp_num_values, header_num_values in E. cbn [dp_header values] in *.
  destruct cells; [reflexivity|]. exfalso. destruct (cdp_header x); rewrite Hz in E; unfold nlen in E; cbn [length] in E; unfold as_usize, of_signed in E; cbn in E; lia.
Qed.
