(** Lemmas for skipping row groups by the statistics of a column (C127). *)
From Verif Require Import Base.Prelude Base.Codec Model.Types Model.Native Model.Thrift Model.Page Model.Io Model.Statistics Model.PageWrite Model.Compression Model.ColumnWrite
  Model.Schema Model.Metadata Model.ColumnMeta Model.FileWrite Spec.PlainSpec Spec.StatsSpec Spec.ChunkSpec Spec.SchemaSpec Spec.MetadataSpec Spec.FileSpec Spec.ValuesSpec Spec.SkipSpec
  Proofs.StatsProofs Proofs.ColumnWriteProofs Proofs.FileWriteProofs Proofs.IndexReadProofs Props.Statistics.
Open Scope N_scope.

(** ** The metadata of a written chunk has the merged statistics *)

Definition chunk_summed (F : formats) (x : column_descriptor * (pages_iter + error)) (c : t_column_chunk) : Prop :=
  exists pos l specs meta, snd x = inl (map inl l) /\ cc_meta c = Some meta /\ specs_for (f_header F) pos l specs /\ summed specs meta.
Lemma laid_summed F file pos cols chunks specss hi : laid F file pos cols chunks specss hi -> Forall2 (chunk_summed F) cols chunks.
Proof.
  induction 1 as [|pos d l meta chunk specs cols chunks specss hi Hm Hs Hd Hh Hl IH Hz]; constructor; [|exact IH]. exists pos, l, specs, meta. auto.
Qed.
Lemma laid_groups_summed F m ds file pos i gs rgs specsss hi : laid_groups F m ds file pos i gs rgs specsss hi ->
  Forall2 (fun g rg => Forall2 (chunk_summed F) (combine ds g) (rg_columns rg)) gs rgs.
Proof.
  induction 1 as [|pos i g0 rg0 sp0 mid gs rgs spss hi Hl Hf Ha Hg IH]; constructor; [|exact IH]. eapply laid_summed; exact Hl.
Qed.
Lemma opened_summed F m schema stats gs kv file md i g rg j pages c : written_and_opened F m schema stats gs kv file md -> good_schema schema -> complete_groups schema gs ->
  nth_error gs i = Some g -> nth_error (fmd_row_groups md) i = Some rg -> nth_error g j = Some (inl pages) -> nth_error (rgm_columns rg) j = Some c ->
  nth_error (sd_leaves schema) j = Some (cmd_descr c) /\ chunk_summed F (cmd_descr c, inl pages) (cmd_chunk c).
Proof.
  intros H Hg Hc E1 E2 E3 E4. destruct (opened_group _ _ _ _ _ _ _ _ _ _ _ H Hg Hc E1 E2) as (s & v & cb & meta & rg' & Hended & Hlen & E' & G1 & G2 & _).
  assert (nth_error (sd_leaves schema) j = Some (cmd_descr c)) as Ed by (rewrite <- G2; apply map_nth_error; exact E4).
  split; [exact Ed|]. destruct Hended as (rgs1 & rgs2 & specs & h1 & h2 & h3 & rows & _ & Hl & _). cbn [fw_schema fw_new] in Hl. apply laid_groups_summed in Hl.
  pose proof (nth_error_Forall2 _ _ _ _ _ _ Hl E1 E') as Hch. cbn beta in Hch.
  refine (nth_error_Forall2 _ _ _ j _ _ Hch _ _); [apply nth_error_combine; assumption|]. rewrite <- G1. apply map_nth_error. exact E4.
Qed.

(** ** The statistics of the pages *)

Lemma specs_known T : forall pos l specs, specs_for T pos l specs -> forall cds cps stats, l = cds ++ cps -> Forall (fun p => is_data p = false) cds ->
  Forall2 (fun p s => exists d, p = CData d /\ cdp_statistics d = Ok (Some s)) cps stats -> known (map ps_statistics specs) = stats.
Proof.
  induction 1 as [pos|pos p spec l specs Hs _ IH]; intros cds cps stats E Hcds Hst.
  - destruct cds; [|discriminate]. cbn in E. subst cps. inversion Hst. reflexivity.
  - destruct Hs as (_ & _ & _ & _ & _ & _ & Hs & _). cbn [map]. rewrite known_cons. destruct cds as [|q cds]; cbn [app] in E.
    + subst cps. inversion Hst as [|? s ? stats' (d & -> & Ed) Hst']; subst. rewrite Ed in Hs. apply Ok_inj in Hs. rewrite Hs.
      f_equal. exact (IH [] l stats' eq_refl (Forall_nil _) Hst').
    + injection E as <- E. inversion Hcds as [|? ? Hq Hcds']; subst. destruct p as [d|d]; [discriminate Hq|]. apply Ok_inj in Hs. rewrite Hs.
      exact (IH cds cps stats eq_refl Hcds' Hst).
Qed.

(** ** Merging *)

Lemma value_le_trans k a b c : value_le k a b -> value_le k b c -> value_le k a c.
Proof.
  destruct k as [[]| | |]; cbn [value_le value carrier] in *; try solve [apply lex_le_trans | intros; lia | unfold bool_le; auto | tauto].
Qed.
Lemma known_Some {A} (l : list A) : known (map Some l) = l.
Proof. induction l as [|a l IH]; [reflexivity|]. cbn [map]. rewrite known_cons, IH. reflexivity. Qed.
Lemma known_incl {A B} (f : B -> option A) (P : A -> Prop) l : Forall (fun x => all_opt P (f x)) l -> Forall P (known (map f l)).
Proof. induction 1 as [|x l Hx _ IH]; [constructor|]. cbn [map]. rewrite known_cons. destruct (f x); [constructor; assumption|exact IH]. Qed.
Lemma extreme_all {A} le (P : A -> Prop) l o : extreme le l o -> Forall P l -> all_opt P o.
Proof. destruct o as [v|]; [|exact (fun _ _ => I)]. intros [Hin _] H. rewrite Forall_forall in H. exact (H v Hin). Qed.
Lemma extreme_impl {A} (le le' : A -> A -> Prop) l o : (forall a b, le a b -> le' a b) -> extreme le l o -> extreme le' l o.
Proof. intros H. destruct o as [v|]; [|auto]. intros [Hin Hall]. split; [exact Hin|]. eapply Forall_impl; [|exact Hall]. auto. Qed.
(** Statistics of one type and kind are a list of fields. *)
Definition one_kind (k : kind) (p : primitive_type) (stats : list statistics) : list (option (value k) * option (value k)) -> Prop :=
  match k as k return list (option (value k) * option (value k)) -> Prop with
  | KNative t => fun bs => exists xs, stats = map (fun s => SNative t (fst s) (snd s)) (map (pair p) xs) /\ map fst bs = map st_min xs /\ map snd bs = map st_max xs
  | KBinary => fun bs => exists xs, stats = map (fun s => SBinary (fst s) (snd s)) (map (pair p) xs) /\ map fst bs = map st_min xs /\ map snd bs = map st_max xs
  | KFixed _ => fun bs => exists xs, stats = map (fun s => SFixed (fst s) (snd s)) (map (pair p) xs) /\ map fst bs = map st_min xs /\ map snd bs = map st_max xs
  | KBoolean => fun bs => exists xs, stats = map SBool xs /\ map fst bs = map st_min xs /\ map snd bs = map st_max xs
  end.
Lemma same_kind k p : forall stats bs, Forall (stats_of_type p) stats -> Forall2 (bounds_stated k) stats bs -> one_kind k p stats bs.
Proof.
  intros stats bs Ht H. induction H as [|s b stats bs Hb _ IH]; [destruct k; exists []; repeat split|].
  inversion Ht as [|? ? Hs Ht']; subst. specialize (IH Ht').
  destruct k as [t| | |]; destruct IH as (xs & -> & E1 & E2); cbn [bounds_stated] in Hb.
  - destruct Hb as (p' & x & -> & ->). destruct Hs as (-> & _). exists (x :: xs). cbn [map fst snd]. rewrite E1, E2. auto.
  - destruct Hb as (p' & x & -> & ->). destruct Hs as (-> & _). exists (x :: xs). cbn [map fst snd]. rewrite E1, E2. auto.
  - destruct Hb as (p' & x & -> & ->). destruct Hs as (-> & _). exists (x :: xs). cbn [map fst snd]. rewrite E1, E2. auto.
  - destruct Hb as (x & -> & ->). exists (x :: xs). cbn [map fst snd]. rewrite E1, E2. auto.
Qed.

Lemma native_merged t m (pages : list (option (primitive_type * stats_of (carrier t)))) first rest :
  known pages = first :: rest -> counts_fit (map (fun s => st_null_count (snd s)) (known pages)) ->
  comparable (KNative t) (known (map (fun s => st_min (snd s)) (known pages))) -> comparable (KNative t) (known (map (fun s => st_max (snd s)) (known pages))) ->
  exists r, reduce_statistics m (map (option_map (fun s => SNative t (fst s) (snd s))) pages) = Ok (Some (SNative t (fst first) r)) /\
    extreme (value_le (KNative t)) (known (map (fun s => st_min (snd s)) (known pages))) (st_min r) /\
    extreme (fun a b => value_le (KNative t) b a) (known (map (fun s => st_max (snd s)) (known pages))) (st_max r) /\
    st_null_count r = known_sum (map (fun s => st_null_count (snd s)) (known pages)).
Proof.
  intros E Hn H1 H2. destruct t; cbn [comparable value_le carrier] in *; try contradiction.
  - destruct (chunk_statistics_int32 m pages first rest E Hn) as (r & A1 & A2 & A3 & A4). exists r. refine (conj A1 (conj A2 (conj _ A4))).
    eapply extreme_impl; [|exact A3]. cbn beta. intros; lia.
  - destruct (chunk_statistics_int64 m pages first rest E Hn) as (r & A1 & A2 & A3 & A4). exists r. refine (conj A1 (conj A2 (conj _ A4))).
    eapply extreme_impl; [|exact A3]. cbn beta. intros; lia.
  - destruct (chunk_statistics_float m pages first rest E H1 H2 Hn) as (r & A1 & A2 & A3 & A4). exists r. refine (conj A1 (conj A2 (conj _ A4))).
    eapply extreme_impl; [|exact A3]. cbn beta. intros; lia.
  - destruct (chunk_statistics_double m pages first rest E H1 H2 Hn) as (r & A1 & A2 & A3 & A4). exists r. refine (conj A1 (conj A2 (conj _ A4))).
    eapply extreme_impl; [|exact A3]. cbn beta. intros; lia.
Qed.

Lemma merged k m p pages stats bs : known pages = stats -> stats <> [] -> Forall (stats_of_type p) stats -> Forall2 (bounds_stated k) stats bs ->
  comparable k (known (map fst bs)) -> comparable k (known (map snd bs)) -> counts_fit (map stats_null_count stats) ->
  exists r b, reduce_statistics m pages = Ok (Some r) /\ stats_of_type p r /\ bounds_stated k r b /\
    extreme (value_le k) (known (map fst bs)) (fst b) /\ extreme (fun x y => value_le k y x) (known (map snd bs)) (snd b) /\
    stats_null_count r = known_sum (map stats_null_count stats).
Proof.
  intros Ek Hne Ht Hb C1 C2 Hn. pose proof (same_kind _ _ _ _ Ht Hb) as Hk. destruct k as [t| |size|]; destruct Hk as (xs & Es & E1 & E2); cbn [value] in *; rewrite E1 in *; rewrite E2 in *.
  all: rewrite (chunk_statistics_ignores_unknown m pages (map Some stats)) by (rewrite known_Some; exact Ek); clear Ek.
  all: destruct xs as [|x xs]; [rewrite Es in Hne; exfalso; apply Hne; reflexivity|].
  - set (l := map Some (map (pair p) (x :: xs))).
    assert (Kl : known l = (p, x) :: map (pair p) xs) by (unfold l; rewrite known_Some; reflexivity).
    assert (El : map Some stats = map (option_map (fun s => SNative t (fst s) (snd s))) l) by (subst stats; unfold l; rewrite !map_map; reflexivity).
    assert (M1 : map (fun s => st_min (snd s)) (known l) = map st_min (x :: xs)) by (unfold l; rewrite known_Some, map_map; reflexivity).
    assert (M2 : map (fun s => st_max (snd s)) (known l) = map st_max (x :: xs)) by (unfold l; rewrite known_Some, map_map; reflexivity).
    assert (M3 : map (fun s => st_null_count (snd s)) (known l) = map stats_null_count stats) by (subst stats; unfold l; rewrite known_Some, !map_map; reflexivity).
    assert (Hok : Forall (fun y => native_physical t = pt_physical p /\ all_opt (native_ok t) (st_min y) /\ all_opt (native_ok t) (st_max y)) (x :: xs)).
    { subst stats. clear - Ht. rewrite !Forall_map in Ht. eapply Forall_impl; [|exact Ht]. cbn beta. intros y (_ & A). exact A. }
    pose proof (native_merged t m l _ _ Kl) as N. rewrite M1, M2, M3, <- El in N. destruct (N Hn C1 C2) as (r & A1 & A2 & A3 & A4). clear N.
    exists (SNative t p r), (st_min r, st_max r). split; [exact A1|]. split; [|split; [exists p, r; auto|split; [exact A2|split; [exact A3|exact A4]]]].
    cbn [stats_of_type]. split; [reflexivity|]. split; [exact (proj1 (Forall_inv Hok))|].
    split; [eapply extreme_all; [exact A2|]|eapply extreme_all; [exact A3|]]; apply known_incl; eapply Forall_impl; try exact Hok; cbn beta; tauto.
  - set (l := map Some (map (pair p) (x :: xs))).
    assert (Kl : known l = (p, x) :: map (pair p) xs) by (unfold l; rewrite known_Some; reflexivity).
    assert (El : map Some stats = map (option_map (fun s => SBinary (fst s) (snd s))) l) by (subst stats; unfold l; rewrite !map_map; reflexivity).
    assert (M1 : map (fun s => st_min (snd s)) (known l) = map st_min (x :: xs)) by (unfold l; rewrite known_Some, map_map; reflexivity).
    assert (M2 : map (fun s => st_max (snd s)) (known l) = map st_max (x :: xs)) by (unfold l; rewrite known_Some, map_map; reflexivity).
    assert (M3 : map (fun s => st_null_count (snd s)) (known l) = map stats_null_count stats) by (subst stats; unfold l; rewrite known_Some, !map_map; reflexivity).
    assert (Hp : pt_physical p = ByteArray) by (subst stats; exact (proj2 (Forall_inv Ht))).
    pose proof (chunk_statistics_binary m l _ _ Kl) as N. rewrite M1, M2, M3, <- El in N. destruct (N C1 C2 Hn) as (r & A1 & A2 & A3 & A4). clear N.
    exists (SBinary p r), (st_min r, st_max r). split; [exact A1|]. split; [split; [reflexivity|exact Hp]|]. split; [exists p, r; auto|auto].
  - set (l := map Some (map (pair p) (x :: xs))).
    assert (Kl : known l = (p, x) :: map (pair p) xs) by (unfold l; rewrite known_Some; reflexivity).
    assert (El : map Some stats = map (option_map (fun s => SFixed (fst s) (snd s))) l) by (subst stats; unfold l; rewrite !map_map; reflexivity).
    assert (M1 : map (fun s => st_min (snd s)) (known l) = map st_min (x :: xs)) by (unfold l; rewrite known_Some, map_map; reflexivity).
    assert (M2 : map (fun s => st_max (snd s)) (known l) = map st_max (x :: xs)) by (unfold l; rewrite known_Some, map_map; reflexivity).
    assert (M3 : map (fun s => st_null_count (snd s)) (known l) = map stats_null_count stats) by (subst stats; unfold l; rewrite known_Some, !map_map; reflexivity).
    assert (Hp : exists n, pt_physical p = FixedLenByteArray n) by (subst stats; destruct (Forall_inv Ht) as (_ & n & A & _); exists n; exact A).
    destruct Hp as [n Hp].
    assert (Hok : Forall (fun y => all_opt (fun v => nlen v = n) (st_min y) /\ all_opt (fun v => nlen v = n) (st_max y)) (x :: xs)).
    { subst stats. clear - Ht Hp. rewrite !Forall_map in Ht. eapply Forall_impl; [|exact Ht]. cbn beta. intros y (_ & n' & A & B). assert (n' = n) as -> by congruence. exact B. }
    assert (K1 : Forall (fun v => nlen v = n) (known (map st_min (x :: xs)))) by (apply known_incl; eapply Forall_impl; [|exact Hok]; cbn beta; tauto).
    assert (K2 : Forall (fun v => nlen v = n) (known (map st_max (x :: xs)))) by (apply known_incl; eapply Forall_impl; [|exact Hok]; cbn beta; tauto).
    pose proof (chunk_statistics_fixed m n l _ _ Kl) as N. rewrite M1, M2, M3, <- El in N.
    destruct N as (r & A1 & A2 & A3 & A4); [unfold l; rewrite known_Some; apply Forall_map, Forall_forall; intros y _; exact Hp|exact K1|exact K2|exact Hn|].
    exists (SFixed p r), (st_min r, st_max r). split; [exact A1|]. split; [split; [reflexivity|exists n; split; [exact Hp|]]|split; [exists p, r; auto|auto]].
    split; [eapply extreme_all; [exact A2|exact K1]|eapply extreme_all; [exact A3|exact K2]].
  - set (l := map Some (x :: xs)).
    assert (Kl : known l = x :: xs) by (unfold l; rewrite known_Some; reflexivity).
    assert (El : map Some stats = map (option_map SBool) l) by (subst stats; unfold l; rewrite !map_map; reflexivity).
    assert (M3 : map st_null_count (known l) = map stats_null_count stats) by (subst stats; rewrite Kl, !map_map; reflexivity).
    assert (Hp : pt_physical p = Boolean) by (subst stats; exact (Forall_inv Ht)).
    pose proof (chunk_statistics_boolean m l _ _ Kl) as N. rewrite M3, <- El in N. rewrite Kl in N. destruct (N Hn) as (r & A1 & A2 & A3 & A4). clear N.
    exists (SBool r), (st_min r, st_max r). split; [exact A1|]. split; [exact Hp|]. split; [exists r; auto|auto].
Qed.

(** Each value within the bounds of its page is within the merged bounds. *)
Lemma within_merged k bs b b0 v : extreme (value_le k) (known (map fst bs)) (fst b) -> extreme (fun x y => value_le k y x) (known (map snd bs)) (snd b) ->
  In b0 bs -> within k b0 v -> within k b v.
Proof.
  intros H1 H2 Hin (lo & hi & -> & L & U).
  assert (I1 : In lo (known (map fst bs))) by (unfold known; rewrite in_flat_map; exists (Some lo); split; [apply (in_map fst) in Hin; exact Hin|left; reflexivity]).
  assert (I2 : In hi (known (map snd bs))) by (unfold known; rewrite in_flat_map; exists (Some hi); split; [apply (in_map snd) in Hin; exact Hin|left; reflexivity]).
  destruct b as [[lo'|] [hi'|]]; cbn [fst snd extreme] in *.
  - destruct H1 as [_ H1]. destruct H2 as [_ H2]. rewrite Forall_forall in H1, H2. exists lo', hi'. split; [reflexivity|].
    split; eapply value_le_trans; eauto.
  - rewrite H2 in I2. destruct I2.
  - rewrite H1 in I1. destruct I1.
  - rewrite H1 in I1. destruct I1.
Qed.

Lemma nulls_app {A} (a b : list (option A)) : nulls (a ++ b) = (nulls a + nulls b)%Z.
Proof. unfold nulls. rewrite filter_app, app_length. lia. Qed.
Lemma nulls_counts k : forall stats bs cellss, Forall2 (fun x cells => honest k (fst x) (snd x) cells) (combine stats bs) cellss -> length stats = length bs ->
  Forall (fun z => 0 <= z)%Z (known (map stats_null_count stats)) /\ (sum_Z (known (map stats_null_count stats)) <= nulls (concat cellss))%Z /\
  (Forall (fun s => stats_null_count s <> None) stats -> known (map stats_null_count stats) = map nulls cellss).
Proof.
  induction stats as [|s stats IH]; intros [|b bs] cellss H Hl; cbn [length combine] in *; try discriminate.
  - inversion H; subst. repeat split; [constructor|cbn; lia].
  - inversion H as [|? cells ? cellss' (_ & _ & Hn) H']; subst. cbn [fst] in Hn. apply IH in H'; [|lia]. destruct H' as (A1 & A2 & A3).
    cbn [map]. rewrite known_cons. cbn [concat]. rewrite nulls_app. assert (0 <= nulls cells)%Z by (unfold nulls; lia).
    destruct (stats_null_count s) as [n|] eqn:En.
    + rewrite (Hn n eq_refl). split; [constructor; assumption|]. split; [cbn [sum_Z fold_right]; fold (sum_Z (known (map stats_null_count stats))); lia|].
      intros F. rewrite A3 by exact (Forall_inv_tail F). reflexivity.
    + split; [exact A1|]. split; [lia|]. intros F. exfalso. apply (Forall_inv F). exact En.
Qed.
Lemma nulls_sum {A} (cellss : list (list (option A))) : sum_Z (map nulls cellss) = nulls (concat cellss).
Proof. induction cellss as [|c l IH]; [reflexivity|]. cbn [map sum_Z fold_right concat]. fold (sum_Z (map nulls l)). rewrite IH, nulls_app. reflexivity. Qed.
Lemma filtered_length {A} (f : A -> bool) l : (length (filter f l) <= length l)%nat.
Proof. induction l as [|a l IH]; [reflexivity|]. cbn [filter]. destruct (f a); cbn [length]; lia. Qed.
