(** Proofs about accepted metadata, the bytes of columns and sidecars. *)
From Verif Require Import Base.Prelude Base.LeFacts Model.Types Model.Thrift Model.Intervals Model.Page Model.Io Model.Schema Model.Metadata Model.FileWrite
  Spec.SchemaSpec Spec.MetadataSpec Spec.AcceptSpec Proofs.TypesFacts Proofs.SchemaProofs Proofs.MetadataProofs Proofs.CompressionProofs.
Open Scope N_scope.

Lemma try_usize_nonneg z : (0 <= z)%Z -> try_usize z = Ok (Z.to_N z).
Proof. intro H. unfold try_usize. replace (z <? 0)%Z with false by lia. reflexivity. Qed.
Lemma try_usize_neg z : ~ (0 <= z)%Z -> try_usize z = Err OutOfSpec.
Proof. intro H. unfold try_usize. replace (z <? 0)%Z with true by lia. reflexivity. Qed.
Lemma codec_known z : (0 <= z <= 7)%Z -> exists c, compression_of_thrift z = Ok c.
Proof.
  intro H. assert (z = 0 \/ z = 1 \/ z = 2 \/ z = 3 \/ z = 4 \/ z = 5 \/ z = 6 \/ z = 7)%Z as Hz by lia.
  destruct Hz as [->|[->|[->|[->|[->|[->|[->| ->]]]]]]]; eexists; reflexivity.
Qed.
Lemma codec_unknown z : ~ (0 <= z <= 7)%Z -> compression_of_thrift z = Err OutOfSpec.
Proof.
  intro H. destruct z as [|p|p]; [lia| |reflexivity]. cbn. 
  destruct p as [[[p|p|]|[p|p|]|]|[[p|p|]|[p|p|]|]|]; try reflexivity; exfalso; lia.
Qed.
Lemma collect_good {A B} (f : A -> res B) (g : A -> B) l : (forall x, In x l -> f x = Ok (g x)) -> collect_res (map f l) = Ok (map g l).
Proof.
  induction l as [|x l IH]; intro H; [reflexivity|]. cbn [map collect_res]. rewrite (H x (or_introl eq_refl)), IH by (intros; apply H; right; assumption). reflexivity.
Qed.
Lemma collect_bad {A B} (f : A -> res B) (P : A -> Prop) l :
  (forall x, In x l -> (P x /\ exists b, f x = Ok b) \/ (~ P x /\ f x = Err OutOfSpec)) ->
  ~ Forall P l -> collect_res (map f l) = Err OutOfSpec.
Proof.
  induction l as [|x l IH]; intros H Hn; [exfalso; apply Hn; constructor|]. cbn [map collect_res].
  destruct (H x (or_introl eq_refl)) as [[Hx [b ->]]|[_ ->]]; [|reflexivity]. cbn [bind]. rewrite IH; [reflexivity|intros; apply H; right; assumption|].
  intro Hl. apply Hn. constructor; assumption.
Qed.

Lemma column_exact d c : (chunk_acceptable c /\ column_from_thrift d c = Ok (mk_cmd c d)) \/ (~ chunk_acceptable c /\ column_from_thrift d c = Err OutOfSpec).
Proof.
  unfold chunk_acceptable, column_from_thrift. destruct (cc_meta c) as [meta|]; [|right; split; [tauto|reflexivity]].
  destruct (Z.leb_spec 0 (cm_compressed_size meta)); [rewrite try_usize_nonneg by assumption|right; split; [|rewrite try_usize_neg by lia; reflexivity]]; [|lia].
  cbn [bind]. destruct (cm_dictionary_page_offset meta) as [o|] eqn:Eo.
  1: destruct (Z.leb_spec 0 o); [rewrite (try_usize_nonneg o) by assumption; cbn [bind]|right; split; [|rewrite (try_usize_neg o) by lia; reflexivity]].
  2: { intros [_ H1]. specialize (H1 o eq_refl). lia. }
  all: cbn [bind]; destruct (Z.leb_spec 0 (cm_data_page_offset meta)); [rewrite try_usize_nonneg by assumption|right; split; [lia|rewrite try_usize_neg by lia; reflexivity]];
    cbn [bind].
  all: assert (D : (0 <= cm_codec meta <= 7 \/ ~ 0 <= cm_codec meta <= 7)%Z) by lia; destruct D as [D|D];
    [left; destruct (codec_known _ D) as [k ->]; cbn [bind]|right; rewrite (codec_unknown _ D); split; [tauto|reflexivity]].
  - split; [|reflexivity]. split; [lia|]. intros o' [= <-]. assumption.
  - split; [|reflexivity]. split; [lia|]. intros o' [=].
Qed.

Lemma group_exact s g : (group_acceptable s g /\ row_group_from_thrift s g = Ok (group_of s g)) \/ (~ group_acceptable s g /\ row_group_from_thrift s g = Err OutOfSpec).
Proof.
  unfold group_acceptable, row_group_from_thrift.
  destruct (Nat.eqb_spec (length (sd_leaves s)) (length (rg_columns g))) as [El|El]; cbn [negb]; [|right; split; [intros [H _]; congruence|reflexivity]].
  destruct (Z.leb_spec 0 (rg_total_byte_size g)); [rewrite try_usize_nonneg by assumption|right; split; [lia|rewrite try_usize_neg by lia; reflexivity]].
  cbn [bind]. destruct (Z.leb_spec 0 (rg_num_rows g)); [rewrite try_usize_nonneg by assumption|right; split; [lia|rewrite try_usize_neg by lia; reflexivity]].
  cbn [bind].
  assert (D : Forall chunk_acceptable (rg_columns g) \/ ~ Forall chunk_acceptable (rg_columns g)).
  { clear. induction (rg_columns g) as [|c l IH]; [left; constructor|]. destruct (column_exact (mk_cdescr (mk_descr (mk_prim (mk_fi [] Required None) None None Int32) 0 0) [] (Primitive (mk_prim (mk_fi [] Required None) None None Int32))) c) as [[H _]|[H _]].
    - destruct IH as [IH|IH]; [left; constructor; assumption|right; intro F; apply IH; inversion F; assumption].
    - right. intro F. apply H. inversion F; assumption. }
  destruct D as [D|D].
  - left. split; [auto|]. rewrite (collect_good _ (fun x => mk_cmd (fst x) (snd x))); [reflexivity|].
    intros [c d] Hin. cbn [fst snd]. apply in_combine_l in Hin. rewrite Forall_forall in D. specialize (D c Hin).
    destruct (column_exact d c) as [[_ ->]|[H1 _]]; [reflexivity|contradiction].
  - right. split; [tauto|]. rewrite (collect_bad _ (fun x => chunk_acceptable (fst x))); [reflexivity| |].
    + intros [c d] _. cbn [fst snd]. destruct (column_exact d c) as [[H1 ->]|[H1 ->]]; [left|right]; split; eauto.
    + intro F. apply D. clear - F El. revert El F. generalize (sd_leaves s). induction (rg_columns g) as [|c l IH]; intros k El F; [constructor|].
      destruct k as [|d k]; [discriminate El|]. cbn [combine] in F. inversion F; subst. constructor; [assumption|]. apply (IH k); [cbn in El; lia|assumption].
Qed.

Lemma orders_exact s o : option_map (fun o => parse_column_orders o s) o = orders_of s o.
Proof.
  destruct o as [l|]; [|reflexivity]. cbn [option_map orders_of]. f_equal. unfold parse_column_orders. generalize (sd_leaves s).
  induction l as [|x l IH]; intros [|d k]; try reflexivity. cbn [combine map firstn length]. rewrite IH. reflexivity.
Qed.
Lemma file_exact m s t : sd_try_from_thrift m (fm_schema t) = Ok s ->
  (file_acceptable s t /\ file_from_thrift m t = Ok (metadata_of s t)) \/ (~ file_acceptable s t /\ file_from_thrift m t = Err OutOfSpec).
Proof.
  intro Hs. unfold file_acceptable, file_from_thrift. rewrite Hs. cbn [bind].
  assert (D : Forall (group_acceptable s) (fm_row_groups t) \/ ~ Forall (group_acceptable s) (fm_row_groups t)).
  { clear. induction (fm_row_groups t) as [|c l IH]; [left; constructor|]. destruct (group_exact s c) as [[H _]|[H _]].
    - destruct IH as [IH|IH]; [left; constructor; assumption|right; intro F; apply IH; inversion F; assumption].
    - right. intro F. apply H. inversion F; assumption. }
  destruct D as [D|D].
  - rewrite (collect_good _ (group_of s)).
    2: { intros g Hg. rewrite Forall_forall in D. specialize (D g Hg). destruct (group_exact s g) as [[_ ->]|[H1 _]]; [reflexivity|contradiction]. }
    cbn [bind]. cbv zeta. rewrite orders_exact.
    destruct (Z.leb_spec 0 (fm_num_rows t)); [rewrite try_usize_nonneg by assumption; left|right; rewrite try_usize_neg by lia]; split; try reflexivity; [tauto|lia].
  - right. split; [tauto|]. rewrite (collect_bad _ (group_acceptable s)); [reflexivity| |exact D].
    intros g _. destruct (group_exact s g) as [[H1 ->]|[H1 ->]]; [left|right]; split; eauto.
Qed.

(** ** The bytes of a column *)
Lemma read_at_chunk file c bytes : chunk_located (cmd_chunk c) -> chunk_at file c bytes -> read_column file c = Ok bytes.
Proof.
  unfold chunk_located. intros Hl (meta & before & after & Hm & -> & Hb & Hc). rewrite Hm in Hl. destruct Hl as ((H1 & H1') & (H2 & H2') & H3 & _).
  assert (E : byte_range c = Ok (nlen before, nlen bytes)).
  { unfold byte_range, cmd_meta. rewrite Hm. cbn [bind]. rewrite Hb, Hc. unfold chunk_start, chunk_length.
    assert (U : forall z, (0 <= z < 2 ^ 63)%Z -> as_usize z = Z.to_N z).
    { intros z Hz. unfold as_usize, of_signed. rewrite Z.mod_small; [reflexivity|]. change (2 ^ Z.of_N 64)%Z with (2 * 2 ^ 63)%Z. lia. }
    rewrite (U (cm_compressed_size meta)) by (split; assumption). destruct (cm_dictionary_page_offset meta) as [o|]; [rewrite (U o) by exact H3|rewrite U by (split; assumption)]; reflexivity. }
  unfold read_column. rewrite E. cbn [bind]. unfold read_at. unfold nlen. rewrite !Nat2N.id. f_equal.
  rewrite skipn_app, skipn_all, Nat.sub_diag. cbn [skipn app]. rewrite firstn_app, firstn_all, Nat.sub_diag, firstn_O, app_nil_r. reflexivity.
Qed.
