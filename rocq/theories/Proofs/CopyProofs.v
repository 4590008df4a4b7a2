(** Proofs about pages that are copied from one file to another. *)
From Verif Require Import Base.Prelude Base.Iter Model.Types Model.Thrift Model.Intervals Model.Page Model.Io Model.PageMeta Model.PageRead Model.Compression Model.Metadata Model.FileWrite
  Spec.PagesSpec Spec.ChunkSpec Spec.MetadataSpec Spec.FileSpec Spec.PlainSpec Spec.ValuesSpec Spec.NestedSpec Spec.ForeignSpec Spec.ForeignValuesSpec Spec.CopySpec
  Proofs.TypesFacts Proofs.PageIoProofs Proofs.MetadataProofs Proofs.FileWriteProofs Proofs.IndexReadProofs Proofs.EndToEndProofs Proofs.ForeignProofs Proofs.ForeignValuesProofs Props.Foreign.
Open Scope N_scope.

(** The writer does not store that a dictionary is sorted. *)
Definition unsorted (p : compressed_page) : compressed_page :=
  match p with CData x => CData x | CDict x => CDict (mk_cdict (cdi_buffer x) (cdi_compression x) (cdi_num_values x) (cdi_uncompressed_size x) false) end.
Definition restored (p : compressed_page) : t_page_header * compressed_page := (header_of p, unsorted p).
Lemma restored_bytes T : forall l, stored_chunk T (map restored l) = chunk_bytes T l.
Proof.
  induction l as [|p l IH]; [reflexivity|]. unfold stored_chunk, chunk_bytes in *. cbn [map concat]. rewrite IH. f_equal. unfold stored_bytes, page_bytes. cbn [restored fst snd]. destruct p; reflexivity.
Qed.
Lemma restored_values : forall l, values_of (map snd (map restored l)) = values_of l.
Proof. induction l as [|p l IH]; [reflexivity|]. cbn [map]. rewrite !values_of_cons, IH. f_equal. destruct p; reflexivity. Qed.
Lemma restored_readable T max p : known_encodings p -> (0 <= values p < 2 ^ 31)%Z -> nlen (cp_buffer p) <= max -> reads_back T max (header_of p) -> readable T max (restored p).
Proof.
  intros H1 H2 H3 H4. split; [|split; [|split; [|split; [exact H4|]]]].
  - unfold ForeignSpec.describes, restored, header_of. cbn [fst snd]. destruct p as [x|x]; cbn [unsorted]; [destruct (cdp_header x); repeat split|]. cbn. repeat split. eexists. repeat split; discriminate.
  - destruct p; exact H1.
  - destruct p; exact H3.
  - destruct p; exact H2.
Qed.

Lemma copy_located F m schema stats gs kv file md i g rg j c copied : written_and_opened F m schema stats gs kv file md -> good_schema schema -> complete_groups schema gs ->
  nth_error gs i = Some g -> nth_error (fmd_row_groups md) i = Some rg -> nth_error g j = Some (inl (map inl copied)) -> nth_error (rgm_columns rg) j = Some c ->
  exists codec, Forall (fun p => cp_compression p = codec) copied /\ located (f_header F) file c codec (map restored copied).
Proof.
  intros H Hg Hc E1 E2 E3 E4. destruct (opened_column _ _ _ _ _ _ _ _ _ _ _ _ _ _ H Hg Hc E1 E2 E3 E4) as (_ & Hlen & (pages' & meta & Ep & Em & Hh & Hl & start & Hdesc)).
  cbn [snd fst] in Ep, Hdesc. injection Ep as Ep. apply (f_equal (flat_map (fun x => match x with inl p => [p] | inr _ => [] end))) in Ep.
  assert (Epp : forall l : list compressed_page, flat_map (fun x : compressed_page + error => match x with inl p => [p] | inr _ => [] end) (map inl l) = l)
    by (clear; induction l as [|a l IH]; [ reflexivity | cbn [map flat_map app]; rewrite IH; reflexivity ]).
  rewrite !Epp in Ep. clear Epp. subst pages'. destruct Hdesc as (_ & _ & Hnv & Hoff & Hdo & (codec & Hcodec & Ecodec & _) & _).
  exists codec. split; [exact Hcodec|]. destruct Hh as (pre & post & Ef & Epre). exists meta, pre, post. split; [exact Em|]. split; [rewrite restored_bytes; exact Ef|].
  assert (Hpre : nlen pre <= nlen file) by (rewrite Ef; unfold nlen; rewrite app_length; lia). split; [set (b := 2 ^ 63) in *; clearbody b; lia|].
  split; [|split; [rewrite restored_values; exact Hnv|rewrite Ecodec; apply codec_round]].
  unfold chunk_start in Epre. rewrite Hdo in Epre |- *. rewrite Epre. rewrite Z2N.id; [reflexivity|]. rewrite Hoff. destruct copied; lia.
Qed.

(** A copied page holds what the page held. *)
Lemma copied_holds k C codec d dict p q entries : page_holds_nested k C codec d dict p entries -> rows_set (as_stored codec d p) q -> page_holds_nested k C codec d dict (unsorted q) entries.
Proof.
  intros (body & Hp & Hs) Hq. exists body. destruct p as [x|x]; cbn [as_stored rows_set] in Hq.
  - destruct Hq as (rows & ->). cbn [unsorted cdp_select_rows cdp_header]. split; [exact Hp|exact Hs].
  - subst q. cbn [unsorted cdi_num_values cdi_is_sorted cdi_buffer]. split; [exact Hp|]. inversion Hs as [| |? words E1 E2 E3]; subst. eapply nested_dictionary; [reflexivity|exact E2|exact E3].
Qed.
Lemma copied_kept codec d p q : rows_set (as_stored codec d p) q -> known_encodings q = known_encodings p /\ values q = values p /\ cp_compression q = codec.
Proof. destruct p as [x|x]; cbn [as_stored rows_set]; [intros (rows & ->)|intros ->]; repeat split. Qed.

(** What the reader of a chunk of any writer returns. *)
Lemma chunk_reading T m file c codec l scratch max : located T file c codec l -> Forall (readable T max) l -> (values_of (map snd l) < 2 ^ 63)%Z ->
  exists r r' n, get_page_iterator c file None scratch max = Ok r /\ (n <= length l)%nat /\
    runs (pr_next T m) r (map inl (map (as_stored codec (cd_descriptor (cmd_descr c))) (firstn n (map snd l)))) r' /\ values_of (skipn n (map snd l)) = 0%Z.
Proof.
  intros Hl Hr Hv. set (d := cd_descriptor (cmd_descr c)) in *. destruct (located_reader T file c codec l scratch max Hl) as (after & Hg).
  destruct (foreign_chunk_read T m l after (values_of (map snd l)) codec d (fun _ _ => true) scratch max Hr (Z.le_refl _) Hv) as (r' & Hruns & _). cbn zeta in Hruns.
  destruct (needed_first T max l Hr) as (n & Hn & En & Ez). rewrite En in Hruns.
  assert (Ef : forall l, filter (PagesSpec.wanted ((fun (_ : descriptor) (_ : page_header) => true) d)) l = l)
    by (clear; induction l as [|[x|x] l IH]; cbn [filter PagesSpec.wanted]; [reflexivity| |]; rewrite IH; reflexivity).
  rewrite Ef in Hruns. eexists _, r', n. split; [exact Hg|]. split; [exact Hn|]. split; [exact Hruns|exact Ez].
Qed.

Lemma nested_no_values k C codec d dict cp entries : page_holds_nested k C codec d dict cp entries -> (0 <= values cp < 2 ^ 31)%Z -> values cp = 0%Z -> entries = [].
Proof.
  intros (body & Hp & Hc) Hv' Hz. destruct cp as [x|x]; [|inversion Hc; reflexivity].
  eapply (no_values_no_cells x body d); [|exact Hv'|exact Hz].
  inversion Hc as [? ? ? ? ? (_ & _ & _ & _ & Hn & _)|? ? ? ? ? ? ? ? ? ? ? (_ & _ & _ & _ & Hn & _)|]; subst; exact Hn.
Qed.
Lemma rest_empty {E} (H : compressed_page -> list E -> Prop) ps held : (forall cp es, H cp es -> (0 <= values cp < 2 ^ 31)%Z -> values cp = 0%Z -> es = []) ->
  Forall2 H ps held -> Forall (fun p => (0 <= values p < 2 ^ 31)%Z) ps -> values_of ps = 0%Z -> concat held = [].
Proof.
  intros H0. induction 1 as [|p es ps held Hp Hh IH]; intros Hv Hz; [reflexivity|]. rewrite values_of_cons in Hz. inversion Hv as [|? ? V1 V2]; subst.
  assert (Hnn : (0 <= values_of ps)%Z) by (clear - V2; induction V2 as [|x l Hx _ IH]; [reflexivity|rewrite values_of_cons; lia]).
  cbn [concat]. rewrite (H0 p es Hp V1) by lia. apply IH; [exact V2|lia].
Qed.
Lemma Forall2_split {A B} (P : A -> B -> Prop) n : forall l l', Forall2 P l l' -> Forall2 P (firstn n l) (firstn n l') /\ Forall2 P (skipn n l) (skipn n l').
Proof. induction n as [|n IH]; intros l l' H; [split; [constructor|exact H]|]. destruct H as [|x y l l' Hx H]; [split; constructor|]. cbn [firstn skipn]. destruct (IH l l' H). split; [constructor; assumption|assumption]. Qed.
Lemma copies_hold k C codec d dict ps held copied : Forall2 (page_holds_nested k C codec d dict) ps held -> Forall2 rows_set (map (as_stored codec d) ps) copied ->
  Forall2 (page_holds_nested k C codec d dict) (map snd (map restored copied)) held.
Proof.
  intros H. revert copied. induction H as [|p es ps held Hp H IH]; intros copied Hc; inversion Hc as [|? q ? qs Hq Hqs]; subst; cbn [map]; constructor.
  - cbn [restored snd]. eapply copied_holds; eassumption.
  - apply IH. exact Hqs.
Qed.
Lemma copies_kept codec d ps copied : Forall2 rows_set (map (as_stored codec d) ps) copied -> Forall known_encodings ps -> Forall (fun p => (0 <= values p < 2 ^ 31)%Z) ps ->
  Forall (fun p => known_encodings p /\ (0 <= values p < 2 ^ 31)%Z /\ cp_compression p = codec) copied /\ values_of copied = values_of ps.
Proof.
  revert copied. induction ps as [|p ps IH]; intros copied Hc He Hv; inversion Hc as [|? q ? qs Hq Hqs]; subst; [split; constructor|]. inversion He; inversion Hv; subst.
  destruct (copied_kept codec d p q Hq) as (E1 & E2 & E3). destruct (IH qs Hqs) as [I1 I2]; [assumption..|]. split; [constructor; [rewrite E1, E2; repeat split; try assumption; lia|exact I1]|].
  rewrite !values_of_cons, I2, E2. reflexivity.
Qed.
