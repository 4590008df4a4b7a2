(** Comparing statistics and indexes. *)
From Verif Require Import Base.Prelude Model.Types Model.Native Model.Statistics Model.Indexes Model.Equality
  Spec.NumbersSpec Spec.StatsSpec Spec.EqualitySpec Model.Thrift Model.Schema Model.Intervals Proofs.NumbersProofs Proofs.PlainProofs Proofs.IntervalsProofs.
Open Scope N_scope.

Definition decides {A} (P : A -> Prop) (eqb : A -> A -> bool) (R : A -> A -> Prop) : Prop :=
  forall a b, P a -> P b -> eqb a b = true <-> R a b.

Lemma primitive_eqb_spec : forall a b, primitive_eqb a b = true <-> a = b.
Proof. intros a b. unfold primitive_eqb. destruct (primitive_eq_dec a b); split; congruence. Qed.
Lemma physical_eqb_spec : forall a b, physical_eqb a b = true <-> a = b.
Proof.
  intros [] []; cbn; split; intro H; try reflexivity; try discriminate H.
  - apply N.eqb_eq in H as ->. reflexivity.
  - injection H as ->. apply N.eqb_refl.
Qed.
Lemma boundary_order_eqb_spec : forall a b, boundary_order_eqb a b = true <-> a = b.
Proof. intros [] []; cbn; split; congruence. Qed.

Lemma native_eqb_spec : forall t, decides (native_ok t) (native_eqb t) (same_number t).
Proof.
  intros [] a b Ha Hb.
  1,2: apply Z.eqb_eq.
  - unfold native_eqb, same_number, f32_value. rewrite <- (float_cmp_spec 8 23 inf32) by (reflexivity || exact Ha || exact Hb).
    destruct (float_partial_cmp _ _ _ _) as [[]|]; split; congruence.
  - unfold native_eqb, same_number, f64_value. rewrite <- (float_cmp_spec 11 52 inf64) by (reflexivity || exact Ha || exact Hb).
    destruct (float_partial_cmp _ _ _ _) as [[]|]; split; congruence.
  - destruct a as [[a0 a1] a2], b as [[b0 b1] b2]. cbn. rewrite !andb_true_iff, !N.eqb_eq. split; [intros [[-> ->] ->]; reflexivity|].
    intro H. injection H as -> -> ->. auto.
Qed.
Lemma bool_eqb_spec : decides (fun _ => True) Bool.eqb eq.
Proof. intros a b _ _. apply Bool.eqb_true_iff. Qed.
Lemma bytes_spec : decides (fun _ : list N => True) (vec_eqb N.eqb) eq.
Proof.
  intros a b _ _. revert b. induction a as [|x a IH]; intros [|y b]; cbn; split; intro H; try reflexivity; try discriminate H.
  - apply andb_true_iff in H as [H1 H2]. apply N.eqb_eq in H1 as ->. apply IH in H2 as ->. reflexivity.
  - injection H as -> ->. rewrite N.eqb_refl. apply IH. reflexivity.
Qed.

Lemma option_eqb_spec : forall A (P : A -> Prop) eqb R, decides P eqb R -> decides (all_opt P) (option_eqb eqb) (same_option R).
Proof. intros A P eqb R H [a|] [b|] Ha Hb; cbn in *; [apply H; assumption| | |]; split; intro; auto; try discriminate; contradiction. Qed.
Lemma option_z_spec : forall a b, option_eqb Z.eqb a b = true <-> a = b.
Proof.
  intros [a|] [b|]; cbn; try (split; congruence). rewrite Z.eqb_eq. split; congruence.
Qed.
Lemma stats_of_eqb_spec : forall A (P : A -> Prop) eqb R, decides P eqb R ->
  decides (fun s => all_opt P (st_min s) /\ all_opt P (st_max s)) (stats_of_eqb eqb) (same_counts_and_bounds R).
Proof.
  intros A P eqb R H a b [Ha1 Ha2] [Hb1 Hb2]. unfold stats_of_eqb, same_counts_and_bounds.
  rewrite !andb_true_iff, !option_z_spec, (option_eqb_spec _ _ _ _ H _ _ Ha1 Hb1), (option_eqb_spec _ _ _ _ H _ _ Ha2 Hb2). tauto.
Qed.
Lemma typed_stats_spec : forall A (P : A -> Prop) eqb R, decides P eqb R ->
  decides (fun s => all_opt P (st_min (snd s)) /\ all_opt P (st_max (snd s))) (typed_stats_eqb eqb)
    (fun a b => fst a = fst b /\ same_counts_and_bounds R (snd a) (snd b)).
Proof.
  intros A P eqb R H [p a] [q b] Ha Hb. unfold typed_stats_eqb. cbn [fst snd] in *.
  rewrite andb_true_iff, primitive_eqb_spec, (stats_of_eqb_spec _ _ _ _ H _ _ Ha Hb). tauto.
Qed.

Lemma all_opt_true : forall A (o : option A), all_opt (fun _ => True) o.
Proof. intros A [a|]; exact I. Qed.

Lemma statistics_eq_spec : forall a b, stats_values_ok a -> stats_values_ok b ->
  ~ mislabelled_statistics a -> ~ mislabelled_statistics b ->
  exists r, statistics_eq a b = Ok r /\ (r = true <-> same_statistics a b).
Proof.
  intros a b Ha Hb La Lb. unfold statistics_eq.
  assert (B : forall x y : stats_of bool, stats_of_eqb Bool.eqb x y = true <-> same_counts_and_bounds eq x y).
  { intros x y. apply (stats_of_eqb_spec _ _ _ _ bool_eqb_spec); split; apply all_opt_true. }
  assert (S : forall p q (x y : stats_of (list N)), typed_stats_eqb (vec_eqb N.eqb) (p, x) (q, y) = true <-> p = q /\ same_counts_and_bounds eq x y).
  { intros p q x y. apply (typed_stats_spec _ _ _ _ bytes_spec (p, x) (q, y)); split; apply all_opt_true. }
  destruct (physical_eqb (stats_physical a) (stats_physical b)) eqn:E.
  2:{ exists false. split; [reflexivity|]. split; [discriminate|]. intro H. exfalso.
      assert (X : stats_physical a = stats_physical b) by (destruct H; reflexivity).
      apply physical_eqb_spec in X. congruence. }
  apply physical_eqb_spec in E.
  destruct a as [a|t p a|p a|p a].
  - cbn [stats_physical] in *. destruct b as [b|u q b|q b|q b]; cbn [stats_physical] in E; try discriminate E.
    + exists (stats_of_eqb Bool.eqb a b). split; [reflexivity|]. rewrite B. split; intro H; [constructor; exact H|inversion H; assumption].
    + destruct u; discriminate E.
    + exfalso. apply Lb. intros [n Hn]. congruence.
  - assert (Hb' : (exists q b', b = SNative t q b') \/ mislabelled_statistics b).
    { destruct b as [b|u q b|q b|q b]; cbn [stats_physical mislabelled_statistics] in *.
      - destruct t; discriminate E.
      - left. destruct t, u; try discriminate E; eauto.
      - destruct t; discriminate E.
      - right. intros [n Hn]. destruct t; cbn [native_physical] in E; congruence. }
    destruct Hb' as [(q & b' & ->)|Hb']; [|contradiction].
    exists (typed_stats_eqb (native_eqb t) (p, a) (q, b')). split.
    + destruct t; reflexivity.
    + rewrite (typed_stats_spec _ _ _ _ (native_eqb_spec t) (p, a) (q, b') Ha Hb). cbn [fst snd]. split.
      * intros [-> H]. constructor. exact H.
      * intro H. inversion H; subst.
        repeat match goal with Hx : existT _ _ _ = existT _ _ _ |- _ => apply Eqdep_dec.inj_pair2_eq_dec in Hx; [|decide equality] end.
        subst. auto.
  - cbn [stats_physical] in *. destruct b as [b|u q b|q b|q b]; cbn [stats_physical] in E; try discriminate E.
    + destruct u; discriminate E.
    + exists (typed_stats_eqb (vec_eqb N.eqb) (p, a) (q, b)). split; [reflexivity|]. rewrite S.
      split; [intros [-> H]; constructor; exact H|intro H; inversion H; subst; auto].
    + exfalso. apply Lb. intros [n Hn]. congruence.
  - cbn [stats_physical] in *. cbn [mislabelled_statistics] in La.
    destruct (pt_physical p) eqn:Hp; try (exfalso; apply La; intros [n Hn]; congruence).
    destruct b as [b|u q b|q b|q b]; cbn [stats_physical] in E; try discriminate E.
    + destruct u; discriminate E.
    + exists (typed_stats_eqb (vec_eqb N.eqb) (p, a) (q, b)). split; [reflexivity|]. rewrite S.
      split; [intros [-> H]; constructor; exact H|intro H; inversion H; subst; auto].
Qed.

Lemma statistics_eq_panic : forall a b,
  statistics_eq a b = Panic <-> statistics_about a = statistics_about b /\ (mislabelled_statistics a \/ mislabelled_statistics b).
Proof.
  intros a b. unfold statistics_eq. change stats_physical with statistics_about.
  destruct (physical_eqb (statistics_about a) (statistics_about b)) eqn:E.
  2:{ split; [discriminate|]. intros [H _]. apply physical_eqb_spec in H. congruence. }
  apply physical_eqb_spec in E.
  assert (F : forall n, pt_physical n = pt_physical n) by reflexivity.
  destruct a as [a|t p a|p a|p a], b as [b|u q b|q b|q b]; cbn [statistics_about mislabelled_statistics] in *;
    try destruct t; try destruct u; cbn [native_physical] in *; try discriminate E;
    try (split; [cbn; discriminate|intros [_ [[]|[]]]]; fail);
    try (rewrite <- E; cbn; split; [intros _; split; [reflexivity|right; intros [n Hn]; congruence]|reflexivity]; fail);
    try (rewrite E; cbn; split; [intros _; split; [reflexivity|left; intros [n Hn]; congruence]|reflexivity]; fail).
  destruct (pt_physical p) eqn:Hp; cbn; split; intro H; try reflexivity; try discriminate H;
    try (split; [exact E|left; intros [n Hn]; congruence]).
  exfalso. destruct H as [_ [H|H]]; apply H; [exists size|exists size]; congruence.
Qed.

(** ** Indexes. *)
Lemma page_index_eqb_spec : forall A (P : A -> Prop) eqb R, decides P eqb R ->
  decides (fun x => all_opt P (pi_min x) /\ all_opt P (pi_max x)) (page_index_eqb eqb) (same_page R).
Proof.
  intros A P eqb R H a b [Ha1 Ha2] [Hb1 Hb2]. unfold page_index_eqb, same_page.
  rewrite !andb_true_iff, option_z_spec, (option_eqb_spec _ _ _ _ H _ _ Ha1 Hb1), (option_eqb_spec _ _ _ _ H _ _ Ha2 Hb2). tauto.
Qed.
Lemma vec_eqb_spec : forall A (P : A -> Prop) eqb R, decides P eqb R -> decides (Forall P) (vec_eqb eqb) (Forall2 R).
Proof.
  intros A P eqb R H a. induction a as [|x a IH]; intros [|y b] Ha Hb; cbn [vec_eqb].
  - split; constructor.
  - split; [discriminate|intro X; inversion X].
  - split; [discriminate|intro X; inversion X].
  - inversion Ha; inversion Hb; subst. rewrite andb_true_iff, (H x y), (IH b) by assumption.
    split; [intros []; constructor; assumption|intro X; inversion X; auto].
Qed.
Lemma untyped_index_spec : forall A (P : A -> Prop) eqb R, decides P eqb R ->
  forall l l' o o', Forall (fun x => all_opt P (pi_min x) /\ all_opt P (pi_max x)) l ->
  Forall (fun x => all_opt P (pi_min x) /\ all_opt P (pi_max x)) l' ->
  untyped_index_eqb eqb (l, o) (l', o') = true <-> Forall2 (same_page R) l l' /\ o = o'.
Proof.
  intros A P eqb R H l l' o o' Hl Hl'. unfold untyped_index_eqb. cbn [fst snd].
  rewrite andb_true_iff, boundary_order_eqb_spec, (vec_eqb_spec _ _ _ _ (page_index_eqb_spec _ _ _ _ H) _ _ Hl Hl'). tauto.
Qed.
Lemma typed_index_spec : forall A (P : A -> Prop) eqb R, decides P eqb R ->
  forall p q l l' o o', Forall (fun x => all_opt P (pi_min x) /\ all_opt P (pi_max x)) l ->
  Forall (fun x => all_opt P (pi_min x) /\ all_opt P (pi_max x)) l' ->
  typed_index_eqb eqb (p, (l, o)) (q, (l', o')) = true <-> p = q /\ Forall2 (same_page R) l l' /\ o = o'.
Proof.
  intros A P eqb R H p q l l' o o' Hl Hl'. unfold typed_index_eqb. cbn [fst snd].
  rewrite andb_true_iff, primitive_eqb_spec, (untyped_index_spec _ _ _ _ H _ _ _ _ Hl Hl'). tauto.
Qed.
Lemma forall_true : forall A (l : list (page_index A)), Forall (fun x => all_opt (fun _ => True) (pi_min x) /\ all_opt (fun _ => True) (pi_max x)) l.
Proof. intros A l. apply Forall_forall. intros. split; apply all_opt_true. Qed.

Lemma index_eq_spec : forall a b, index_values_ok a -> index_values_ok b ->
  ~ mislabelled_index a -> ~ mislabelled_index b ->
  exists r, index_eq a b = Ok r /\ (r = true <-> same_index a b).
Proof.
  intros a b Ha Hb La Lb. unfold index_eq.
  assert (S : forall p q l l' o o', typed_index_eqb (vec_eqb N.eqb) (p, (l, o)) (q, (l', o')) = true <->
                                    p = q /\ Forall2 (same_page eq) l l' /\ o = o').
  { intros. apply (typed_index_spec _ _ _ _ bytes_spec); apply forall_true. }
  destruct (physical_eqb (index_physical a) (index_physical b)) eqn:E.
  2:{ exists false. split; [reflexivity|]. split; [discriminate|]. intro H. exfalso.
      assert (X : index_physical a = index_physical b) by (destruct H; reflexivity).
      apply physical_eqb_spec in X. congruence. }
  apply physical_eqb_spec in E.
  destruct a as [a o|t p a o|p a o|p a o].
  - cbn [index_physical] in *. destruct b as [b o'|u q b o'|q b o'|q b o']; cbn [index_physical] in E; try discriminate E.
    + exists (untyped_index_eqb Bool.eqb (a, o) (b, o')). split; [reflexivity|].
      rewrite (untyped_index_spec _ _ _ _ bool_eqb_spec) by apply forall_true.
      split; [intros [H ->]; constructor; exact H|intro H; inversion H; subst; auto].
    + destruct u; discriminate E.
    + exfalso. apply Lb. intros [n Hn]. congruence.
  - assert (Hb' : (exists q b' o', b = INative t q b' o') \/ mislabelled_index b).
    { destruct b as [b o'|u q b o'|q b o'|q b o']; cbn [index_physical mislabelled_index] in *.
      - destruct t; discriminate E.
      - left. destruct t, u; try discriminate E; eauto.
      - destruct t; discriminate E.
      - right. intros [n Hn]. destruct t; cbn [native_physical] in E; congruence. }
    destruct Hb' as [(q & b' & o' & ->)|Hb']; [|contradiction].
    exists (typed_index_eqb (native_eqb t) (p, (a, o)) (q, (b', o'))). split.
    + destruct t; reflexivity.
    + rewrite (typed_index_spec _ _ _ _ (native_eqb_spec t) p q a b' o o' Ha Hb). split.
      * intros (-> & H & ->). constructor. exact H.
      * intro H. inversion H; subst.
        repeat match goal with Hx : existT _ _ _ = existT _ _ _ |- _ => apply Eqdep_dec.inj_pair2_eq_dec in Hx; [|decide equality] end.
        subst. auto.
  - cbn [index_physical] in *. destruct b as [b o'|u q b o'|q b o'|q b o']; cbn [index_physical] in E; try discriminate E.
    + destruct u; discriminate E.
    + exists (typed_index_eqb (vec_eqb N.eqb) (p, (a, o)) (q, (b, o'))). split; [reflexivity|]. rewrite S.
      split; [intros (-> & H & ->); constructor; exact H|intro H; inversion H; subst; auto].
    + exfalso. apply Lb. intros [n Hn]. congruence.
  - cbn [index_physical] in *. cbn [mislabelled_index] in La.
    destruct (pt_physical p) eqn:Hp; try (exfalso; apply La; intros [n Hn]; congruence).
    destruct b as [b o'|u q b o'|q b o'|q b o']; cbn [index_physical] in E; try discriminate E.
    + destruct u; discriminate E.
    + exists (typed_index_eqb (vec_eqb N.eqb) (p, (a, o)) (q, (b, o'))). split; [reflexivity|]. rewrite S.
      split; [intros (-> & H & ->); constructor; exact H|intro H; inversion H; subst; auto].
Qed.

Lemma index_eq_panic : forall a b,
  index_eq a b = Panic <-> index_about a = index_about b /\ (mislabelled_index a \/ mislabelled_index b).
Proof.
  intros a b. unfold index_eq. change index_physical with index_about.
  destruct (physical_eqb (index_about a) (index_about b)) eqn:E.
  2:{ split; [discriminate|]. intros [H _]. apply physical_eqb_spec in H. congruence. }
  apply physical_eqb_spec in E.
  destruct a as [a o|t p a o|p a o|p a o], b as [b o'|u q b o'|q b o'|q b o']; cbn [index_about mislabelled_index] in *;
    try destruct t; try destruct u; cbn [native_physical] in *; try discriminate E;
    try (split; [cbn; discriminate|intros [_ [[]|[]]]]; fail);
    try (rewrite <- E; cbn; split; [intros _; split; [reflexivity|right; intros [n Hn]; congruence]|reflexivity]; fail);
    try (rewrite E; cbn; split; [intros _; split; [reflexivity|left; intros [n Hn]; congruence]|reflexivity]; fail).
  destruct (pt_physical p) eqn:Hp; cbn; split; intro H; try reflexivity; try discriminate H;
    try (split; [exact E|left; intros [n Hn]; congruence]).
  exfalso. destruct H as [_ [H|H]]; apply H; [exists size|exists size]; congruence.
Qed.

(** ** The relations. *)
Lemma real_eq : forall a b, real_compare a b = Some Eq <-> a = b /\ a <> NaN.
Proof.
  intros [|[]|x] [|[]|y]; cbn; split; intro H; try discriminate H; try (destruct H; congruence); try (split; congruence).
  - injection H as H. apply Z.compare_eq in H as ->. split; [reflexivity|discriminate].
  - destruct H as [H _]. injection H as ->. rewrite Z.compare_refl. reflexivity.
Qed.
Lemma number_sym : forall t a b, same_number t a b -> same_number t b a.
Proof. intros [] a b; cbn [same_number]; try (intro; congruence); rewrite !real_eq; intros [H1 H2]; split; congruence. Qed.
Lemma number_trans : forall t a b c, same_number t a b -> same_number t b c -> same_number t a c.
Proof. intros [] a b c; cbn [same_number]; try congruence; rewrite !real_eq; intros [H1 H2] [H3 H4]; split; congruence. Qed.
Lemma number_refl : forall t a, same_number t a a <-> ~ is_nan t a.
Proof. intros [] a; cbn [same_number is_nan]; try (split; auto; fail); rewrite real_eq; split; [intros [_ H]; exact H|intro H; split; [reflexivity|exact H]| |]; try (intros [_ H]; exact H); intro H; split; [reflexivity|exact H]. Qed.

Definition partial_equivalence {A} (R : A -> A -> Prop) : Prop :=
  (forall a b, R a b -> R b a) /\ (forall a b c, R a b -> R b c -> R a c).
Lemma eq_per : forall A, partial_equivalence (@eq A).
Proof. split; congruence. Qed.
Lemma number_per : forall t, partial_equivalence (same_number t).
Proof. split; [apply number_sym|apply number_trans]. Qed.
Lemma option_per : forall A (R : A -> A -> Prop), partial_equivalence R -> partial_equivalence (same_option R).
Proof.
  intros A R [S T]. split.
  - intros [a|] [b|]; cbn; auto.
  - intros [a|] [b|] [c|]; cbn; try tauto. apply T.
Qed.
Lemma fields_per : forall A (R : A -> A -> Prop), partial_equivalence R -> partial_equivalence (same_counts_and_bounds R).
Proof.
  intros A R H. destruct (option_per _ _ H) as [S T]. split.
  - intros a b (H1 & H2 & H3 & H4). repeat split; auto.
  - intros a b c (H1 & H2 & H3 & H4) (H1' & H2' & H3' & H4'). repeat split; try congruence; eapply T; eassumption.
Qed.
Lemma page_per : forall A (R : A -> A -> Prop), partial_equivalence R -> partial_equivalence (same_page R).
Proof.
  intros A R H. destruct (option_per _ _ H) as [S T]. split.
  - intros a b (H1 & H2 & H3). repeat split; auto.
  - intros a b c (H1 & H2 & H3) (H1' & H2' & H3'). repeat split; try congruence; eapply T; eassumption.
Qed.
Lemma forall2_per : forall A (R : A -> A -> Prop), partial_equivalence R -> partial_equivalence (Forall2 R).
Proof.
  intros A R [S T]. split.
  - intros a b H. induction H; constructor; auto.
  - intros a b c H. revert c. induction H; intros c Hc; inversion Hc; subst; constructor; eauto.
Qed.

Lemma statistics_per : partial_equivalence same_statistics.
Proof.
  split.
  - intros a b H. destruct H; constructor; (apply fields_per; [apply eq_per || apply number_per|assumption]).
  - intros a b c H1 H2. destruct H1 as [a b H|t p a b H|p a b H|p a b H]; inversion H2; subst;
      repeat match goal with Hx : existT _ _ _ = existT _ _ _ |- _ => apply Eqdep_dec.inj_pair2_eq_dec in Hx; [|decide equality] end; subst;
      constructor; (eapply fields_per; [apply eq_per || apply number_per|eassumption|assumption]).
Qed.
Lemma index_per : partial_equivalence same_index.
Proof.
  split.
  - intros a b H. destruct H; constructor; (apply forall2_per; [apply page_per; (apply eq_per || apply number_per)|assumption]).
  - intros a b c H1 H2. destruct H1; inversion H2; subst;
      repeat match goal with Hx : existT _ _ _ = existT _ _ _ |- _ => apply Eqdep_dec.inj_pair2_eq_dec in Hx; [|decide equality] end; subst;
      constructor; (eapply forall2_per; [apply page_per; (apply eq_per || apply number_per)|eassumption|assumption]).
Qed.

Lemma option_refl : forall A (R : A -> A -> Prop) (bad : A -> Prop), (forall a, R a a <-> ~ bad a) ->
  forall o, same_option R o o <-> ~ some_is bad o.
Proof. intros A R bad H [a|]; cbn; [apply H|tauto]. Qed.
Lemma statistics_refl : forall s, same_statistics s s <-> ~ nan_statistics s.
Proof.
  assert (E : forall A (s : stats_of A), same_counts_and_bounds eq s s).
  { intros A [n d [x|] [y|]]; repeat split. }
  intros [s|t p s|p s|p s]; cbn [nan_statistics]; try (split; [tauto|intros _; constructor; apply E]).
  assert (F := option_refl _ _ _ (number_refl t)). split.
  - intro H. inversion H as [|t' p' a b (H1 & H2 & H3 & H4)| |]; subst.
    repeat match goal with Hx : existT _ _ _ = existT _ _ _ |- _ => apply Eqdep_dec.inj_pair2_eq_dec in Hx; [|decide equality] end; subst.
    apply F in H3, H4. tauto.
  - intro H. constructor. repeat split; apply F; tauto.
Qed.
Lemma index_refl : forall i, same_index i i <-> ~ nan_index i.
Proof.
  assert (E : forall A (l : list (page_index A)), Forall2 (same_page eq) l l).
  { intros A l. induction l as [|[[x|] [y|] n] l IH]; repeat constructor; exact IH. }
  intros [l o|t p l o|p l o|p l o]; cbn [nan_index]; try (split; [tauto|intros _; constructor; apply E]).
  assert (F := option_refl _ _ _ (number_refl t)).
  assert (G : Forall2 (same_page (same_number t)) l l <-> ~ Exists (fun x => some_is (is_nan t) (pi_min x) \/ some_is (is_nan t) (pi_max x)) l).
  { induction l as [|x l IH].
    - split; [intros _ H; inversion H|constructor].
    - rewrite Exists_cons. split.
      + intro H. inversion H as [|? ? ? ? (H1 & H2 & _) H3]; subst. apply F in H1, H2. apply IH in H3. tauto.
      + intro H. constructor; [repeat split; apply F; tauto|apply IH; tauto]. }
  split.
  - intro H. inversion H; subst.
    repeat match goal with Hx : existT _ _ _ = existT _ _ _ |- _ => apply Eqdep_dec.inj_pair2_eq_dec in Hx; [|decide equality] end; subst.
    apply G. assumption.
  - intro H. constructor. apply G. exact H.
Qed.

(** ** What is read. *)
Lemma index_pages_values : forall A (value : list N -> res A) (Q : A -> Prop) i l,
  (forall b v, In b (ci_min_values i) \/ In b (ci_max_values i) -> value b = Ok v -> Q v) ->
  index_pages value i = Ok l -> Forall (fun x => all_opt Q (pi_min x) /\ all_opt Q (pi_max x)) l.
Proof.
  intros A value Q i l H E. unfold index_pages in E. apply collect_inv in E.
  set (z := zip_index _ _ _ _) in E.
  assert (Hz : Forall (fun x => let '(mn, mx, _, _) := x in In mn (ci_min_values i) /\ In mx (ci_max_values i)) z).
  { subst z. clear. generalize (ci_min_values i) as a, (ci_max_values i) as b, (ci_null_pages i) as c.
    intros a. set (d := match ci_null_counts i with Some _ => _ | None => _ end). clearbody d.
    intros b c. assert (X : forall a' b', incl a a' -> incl b b' ->
      Forall (fun x => let '(mn, mx, _, _) := x in In mn a' /\ In mx b') (zip_index a b c d)).
    { revert b c d. induction a as [|x a IH]; intros [|y b] [|u c] [|w d] a' b' Ia Ib; cbn [zip_index]; try constructor.
      - split; [apply Ia|apply Ib]; left; reflexivity.
      - apply IH; intros q Hq; [apply Ia|apply Ib]; right; exact Hq. }
    apply X; apply incl_refl. }
  clearbody z. revert l E. induction Hz as [|[[[mn mx] nl] ct] z [Hmn Hmx] _ IH]; intros [|x l] E; cbn [map] in E; try discriminate E; [constructor|].
  injection E as E1 E2. constructor; [|apply IH; exact E2].
  destruct nl.
  - apply Ok_inj in E1. subst x. split; exact I.
  - destruct (value mn) as [v| |] eqn:V; try discriminate E1. cbn [bind] in E1.
    destruct (value mx) as [w| |] eqn:W; try discriminate E1. cbn [bind] in E1.
    apply Ok_inj in E1. subst x. cbn [pi_min pi_max all_opt]. split; [apply (H mn)|apply (H mx)]; auto.
Qed.
Lemma index_read_values : forall i p x, Forall bytes_ok (ci_min_values i) -> Forall bytes_ok (ci_max_values i) ->
  index_from_thrift i p = Ok x -> index_values_ok x /\ ~ mislabelled_index x.
Proof.
  intros i p x Hmn Hmx. unfold index_from_thrift.
  assert (N : forall t, (let* pages := index_pages (native_bound t) i in let* order := boundary_order_of_thrift (ci_boundary_order i) in
                         Ok (INative t p pages order)) = Ok x -> index_values_ok x /\ ~ mislabelled_index x).
  { intros t E. destruct (index_pages (native_bound t) i) as [l| |] eqn:P; try discriminate E. cbn [bind] in E.
    destruct (boundary_order_of_thrift _) as [o| |]; try discriminate E. cbn [bind] in E. apply Ok_inj in E. subst x.
    split; [|exact (fun f => f)]. cbn [index_values_ok]. apply (index_pages_values _ _ (native_ok t)) in P; [exact P|].
    intros b v Hb V. unfold native_bound in V. destruct (Nat.eqb_spec (length b) (native_size t)) as [L|]; [|discriminate V].
    apply Ok_inj in V. subst v. apply native_to_from; [|exact L].
    destruct Hb as [Hb|Hb]; [rewrite Forall_forall in Hmn; auto|rewrite Forall_forall in Hmx; auto]. }
  destruct (pt_physical p) eqn:E; try apply N; intro H.
  - destruct (index_pages bool_bound i) as [l| |] eqn:P; try discriminate H. cbn [bind] in H.
    destruct (boundary_order_of_thrift _) as [o| |]; try discriminate H. cbn [bind] in H. apply Ok_inj in H. subst x. cbn. tauto.
  - destruct (index_pages Ok i) as [l| |] eqn:P; try discriminate H. cbn [bind] in H.
    destruct (boundary_order_of_thrift _) as [o| |]; try discriminate H. cbn [bind] in H. apply Ok_inj in H. subst x. cbn. tauto.
  - destruct (index_pages Ok i) as [l| |] eqn:P; try discriminate H. cbn [bind] in H.
    destruct (boundary_order_of_thrift _) as [o| |]; try discriminate H. cbn [bind] in H. apply Ok_inj in H. subst x. cbn. split; [exact I|].
    intro F. apply F. exists size. exact E.
Qed.
Lemma typed_values : forall p s, stats_of_type p s -> stats_values_ok s /\ ~ mislabelled_statistics s.
Proof.
  intros p [s|t q s|q s|q s]; cbn [stats_of_type stats_values_ok mislabelled_statistics]; try tauto.
  intros (-> & n & H & _). split; [exact I|]. intro F. apply F. exists n. exact H.
Qed.

(** ** Merging. *)
Open Scope Z_scope.
Lemma overflow_cons : forall c, (forall z, c = Some z -> in_s 64 z = true) -> forall l,
  count_overflows (c :: l) <-> exists k, in_s 64 (sum_Z (known (c :: firstn k l))) = false.
Proof.
  intros c Hc l. split.
  - intros [[|k] H].
    + cbn in H. discriminate H.
    + exists k. exact H.
  - intros [k H]. exists (S k). exact H.
Qed.
Lemma sum_known_cons : forall c l, sum_Z (known (c :: l)) = match c with Some z => z + sum_Z (known l) | None => sum_Z (known l) end.
Proof. intros [z|] l; reflexivity. Qed.
Lemma fold_outcome : forall A m opmin opmax (l : list (stats_of A)) acc,
  (forall z, st_null_count acc = Some z -> in_s 64 z = true) ->
  Forall (fun s => forall z, st_null_count s = Some z -> in_s 64 z = true) l ->
  (m = Checked -> count_overflows (st_null_count acc :: map st_null_count l) -> reduce_fold m opmin opmax acc l = Panic) /\
  ((m = Checked -> ~ count_overflows (st_null_count acc :: map st_null_count l)) -> exists r, reduce_fold m opmin opmax acc l = Ok r).
Proof.
  intros A m opmin opmax l. induction l as [|s l IH]; intros acc Ha Hl.
  - split.
    + intros _ [k H]. exfalso. destruct k as [|k]; cbn [map firstn] in H; [discriminate H|].
      destruct (st_null_count acc) as [z|]; [|destruct k; discriminate H].
      specialize (Ha z eq_refl). rewrite sum_known_cons in H. destruct k; cbn in H; rewrite Z.add_0_r in H; congruence.
    + intros _. eexists. reflexivity.
  - inversion Hl as [|? ? Hs Hl']; subst. cbn [reduce_fold]. unfold reduce_step.
    set (rest := map st_null_count l).
    assert (K : forall c, (forall z, c = Some z -> in_s 64 z = true) -> 
      (forall k, sum_Z (known (st_null_count acc :: st_null_count s :: firstn k rest)) = sum_Z (known (c :: firstn k rest))) ->
      count_overflows (st_null_count acc :: map st_null_count (s :: l)) <-> count_overflows (c :: rest)).
    { intros c Hc E. cbn [map]. fold rest. rewrite (overflow_cons _ Ha), (overflow_cons _ Hc). split.
      - intros [[|k] H].
        + cbn [firstn] in H. exfalso. destruct (st_null_count acc) as [z|] eqn:Z0; [|discriminate H].
          rewrite sum_known_cons in H. cbn [known flat_map sum_Z fold_right] in H. rewrite Z.add_0_r, (Ha z eq_refl) in H. discriminate H.
        + exists k. cbn [firstn] in H. rewrite <- E. exact H.
      - intros [k H]. exists (S k). cbn [firstn]. rewrite E. exact H. }
    destruct (st_null_count acc) as [x|] eqn:Ex, (st_null_count s) as [y|] eqn:Ey; cbn [reduce_count reduce_single].
    + unfold sadd. destruct (in_s 64 (x + y)) eqn:R.
      * cbn [bind]. set (acc' := mk_st _ _ _ _).
        destruct (IH acc') as [P Q].
        { intros z Hz. injection Hz as <-. exact R. }
        { exact Hl'. }
        cbn [st_null_count acc'] in P, Q. rewrite (K (Some (x + y))).
        { split; assumption. }
        { intros z Hz. injection Hz as <-. exact R. }
        { intro k. rewrite !sum_known_cons. lia. }
      * destruct m; cbn [bind].
        -- split; [reflexivity|]. intro H. exfalso. apply (H eq_refl). exists 2%nat. cbn [map firstn]. rewrite Ey.
           cbn [known flat_map app sum_Z fold_right]. rewrite Z.add_0_r. exact R.
        -- split; [discriminate|]. intros _. set (acc' := mk_st _ _ _ _). destruct (IH acc') as [_ Q].
           { intros z Hz. injection Hz as <-. apply wrap_s_in. }
           { exact Hl'. }
           apply Q. discriminate.
    + cbn [bind]. set (acc' := mk_st _ _ _ _). destruct (IH acc') as [P Q]; [intros z Hz; apply Ha; exact Hz|exact Hl'|].
      cbn [st_null_count acc'] in P, Q. rewrite (K (Some x)); [split; assumption|exact Ha|reflexivity].
    + cbn [bind]. set (acc' := mk_st _ _ _ _). destruct (IH acc') as [P Q]; [intros z Hz; apply Hs; exact Hz|exact Hl'|].
      cbn [st_null_count acc'] in P, Q. rewrite (K (Some y)); [split; assumption|exact Hs|reflexivity].
    + cbn [bind]. set (acc' := mk_st _ _ _ _). destruct (IH acc') as [P Q]; [intros z Hz; apply Ha; exact Hz|exact Hl'|].
      cbn [st_null_count acc'] in P, Q. rewrite (K None); [split; assumption|exact Ha|reflexivity].
Qed.

Lemma downcast_outcome : forall A (f : statistics -> option A) l,
  (Exists (fun s => f s = None) l -> downcast_all f l = Panic) /\
  (~ Exists (fun s => f s = None) l -> exists r, downcast_all f l = Ok r /\ map f l = map Some r).
Proof.
  intros A f l. induction l as [|s l [IH1 IH2]].
  - split; [intro H; inversion H|]. intros _. exists []. split; reflexivity.
  - cbn [downcast_all]. rewrite Exists_cons. destruct (f s) as [a|] eqn:E.
    + split.
      * intros [H|H]; [discriminate H|]. rewrite (IH1 H). reflexivity.
      * intro H. destruct IH2 as (r & -> & Hr); [tauto|]. exists (a :: r). split; [reflexivity|]. cbn [map]. rewrite E, Hr. reflexivity.
    + split; [reflexivity|]. intro H. exfalso. apply H. left. reflexivity.
Qed.

Lemma nulls_read : forall A (f : statistics -> option A) (count : A -> option Z),
  (forall s a, f s = Some a -> nulls_told s = count a) ->
  forall l r, map f l = map Some r -> map nulls_told l = map count r.
Proof.
  intros A f count H l. induction l as [|s l IH]; intros [|a r] E; cbn [map] in E; try discriminate E; [reflexivity|].
  injection E as E1 E2. cbn [map]. rewrite (H s a E1), (IH r E2). reflexivity.
Qed.

Definition fits (c : option Z) : Prop := forall z, c = Some z -> in_s 64 z = true.
Definition merges (m : mode) (l : list statistics) (about : physical_type) (r : res (option statistics)) : Prop :=
  (Exists mislabelled_statistics l \/ (m = Checked /\ count_overflows (map nulls_told l)) -> r = Panic) /\
  (~ Exists mislabelled_statistics l -> ~ (m = Checked /\ count_overflows (map nulls_told l)) ->
   exists x, r = Ok (Some x) /\ statistics_about x = about /\ ~ mislabelled_statistics x).
Lemma merge_outcome : forall A B m opmin opmax (f : statistics -> option B) (get : B -> stats_of A) (wrap : B -> stats_of A -> statistics) about l,
  (forall s b, f s = Some b -> nulls_told s = st_null_count (get b)) ->
  (forall s b, f s = Some b -> forall x, statistics_about (wrap b x) = statistics_about s /\ ~ mislabelled_statistics (wrap b x)) ->
  l <> [] -> Forall (fun s => statistics_about s = about) l ->
  (forall s, In s l -> f s = None <-> mislabelled_statistics s) ->
  Forall (fun s => fits (nulls_told s)) l ->
  merges m l about (let* bs := downcast_all f l in
                    match bs with
                    | [] => Panic
                    | b :: r => let* s := reduce_fold m opmin opmax (get b) (map get r) in Ok (Some (wrap b s))
                    end).
Proof.
  intros A B m opmin opmax f get wrap about l Hn Hw Hl Ha Hf Hfit.
  destruct (downcast_outcome _ f l) as [D1 D2].
  assert (EX : Exists (fun s => f s = None) l <-> Exists mislabelled_statistics l).
  { rewrite !Exists_exists. split; intros (s & Hs & H); exists s; (split; [exact Hs|apply (Hf s Hs); exact H]). }
  assert (F : ~ Exists mislabelled_statistics l -> exists b r, downcast_all f l = Ok (b :: r) /\
    map nulls_told l = st_null_count (get b) :: map st_null_count (map get r) /\
    (forall x, statistics_about (wrap b x) = about /\ ~ mislabelled_statistics (wrap b x))).
  { intro H. destruct D2 as (bs & E & M); [tauto|]. destruct bs as [|b r].
    - destruct l; [congruence|discriminate M].
    - exists b, r. split; [exact E|]. split.
      + rewrite (nulls_read _ f (fun b => st_null_count (get b)) Hn l (b :: r) M). cbn [map]. rewrite map_map. reflexivity.
      + destruct l as [|s l]; [discriminate M|]. cbn [map] in M. injection M as M _. intro x.
        inversion Ha; subst. apply Hw. exact M. }
  assert (Dec : Exists mislabelled_statistics l \/ ~ Exists mislabelled_statistics l).
  { rewrite <- EX. clear. induction l as [|s l [IH|IH]].
    - right. intro H. inversion H.
    - left. right. exact IH.
    - destruct (f s) eqn:E; [right|left; left; exact E]. rewrite Exists_cons, E. intros [H|H]; [discriminate H|contradiction]. }
  assert (G : ~ Exists mislabelled_statistics l -> 
    (m = Checked -> count_overflows (map nulls_told l) -> (let* bs := downcast_all f l in
                    match bs with
                    | [] => Panic
                    | b :: r => let* s := reduce_fold m opmin opmax (get b) (map get r) in Ok (Some (wrap b s))
                    end) = Panic) /\
    ((m = Checked -> ~ count_overflows (map nulls_told l)) -> exists b s, (let* bs := downcast_all f l in
                    match bs with
                    | [] => Panic
                    | b :: r => let* s := reduce_fold m opmin opmax (get b) (map get r) in Ok (Some (wrap b s))
                    end) = Ok (Some (wrap b s)) /\ (forall x, statistics_about (wrap b x) = about /\ ~ mislabelled_statistics (wrap b x)))).
  { intro H. destruct (F H) as (b & r & E & N & W). rewrite E, N. cbn [bind].
    assert (Hall : Forall fits (st_null_count (get b) :: map st_null_count (map get r))).
    { rewrite <- N. apply Forall_map. exact Hfit. }
    inversion Hall as [|? ? H1 H2]; subst. rewrite Forall_map in H2.
    destruct (fold_outcome A m opmin opmax (map get r) (get b) H1 H2) as [P Q]. split.
    - intros Hm Ho. rewrite (P Hm Ho). reflexivity.
    - intro Ho. destruct (Q Ho) as [s Es]. exists b, s. rewrite Es. split; [reflexivity|exact W]. }
  split.
  - intros [H|[Hm Ho]].
    + rewrite D1 by (apply EX; exact H). reflexivity.
    + destruct Dec as [H|H].
      * rewrite D1 by (apply EX; exact H). reflexivity.
      * apply (G H); assumption.
  - intros H Ho. destruct (G H) as [_ Q]. destruct Q as (b & s & E & W).
    + intros Hm Hc. apply Ho. auto.
    + exists (wrap b s). split; [exact E|apply W].
Qed.

Lemma reduce_typed_as : forall A m opmin opmax (wrap : primitive_type -> stats_of A -> statistics) (bs : res (list (primitive_type * stats_of A))),
  (let* l := bs in let* (p, s) := reduce_typed m opmin opmax l in Ok (Some (wrap p s))) =
  (let* bs := bs in match bs with
                    | [] => Panic
                    | b :: r => let* s := reduce_fold m opmin opmax (snd b) (map snd r) in Ok (Some (wrap (fst b) s))
                    end).
Proof.
  intros. destruct bs as [[|[p s] r]| |]; try reflexivity. cbn [bind reduce_typed fst snd].
  destruct (reduce_fold m opmin opmax s (map snd r)); reflexivity.
Qed.

Lemma by_type_outcome : forall m l about, l <> [] -> Forall (fun s => statistics_about s = about) l -> about <> Int96 ->
  Forall (fun s => fits (nulls_told s)) l -> merges m l about (reduce_by_type m about l).
Proof.
  intros m l about Hl Ha Hi Hf.
  assert (T : forall A opmin opmax (f : statistics -> option (primitive_type * stats_of A)) wrap,
    (forall s b, f s = Some b -> s = wrap (fst b) (snd b)) ->
    (forall p s, nulls_told (wrap p s) = st_null_count s) ->
    (forall p s x, statistics_about (wrap p s) = about -> statistics_about (wrap p x) = about /\ ~ mislabelled_statistics (wrap p x)) ->
    (forall s, statistics_about s = about -> f s = None <-> mislabelled_statistics s) ->
    merges m l about (let* l := downcast_all f l in let* (p, s) := reduce_typed m opmin opmax l in Ok (Some (wrap p s)))).
  { intros A opmin opmax f wrap F1 F2 F3 F4. rewrite (reduce_typed_as _ _ _ _ wrap).
    (* restrict the reader to statistics about [about] so that the lemma's hypotheses hold for all of them *)
    assert (X : forall g, (forall s, In s l -> g s = f s) -> downcast_all g l = downcast_all f l).
    { intros g Hg. clear - Hg. induction l as [|s l IH]; [reflexivity|]. cbn [downcast_all].
      rewrite (Hg s (or_introl eq_refl)), IH by (intros x Hx; apply Hg; right; exact Hx). reflexivity. }
    set (g := fun s => if physical_eqb (statistics_about s) about then f s else None).
    assert (Hg : forall s, statistics_about s = about -> g s = f s).
    { intros s Hs. unfold g. rewrite (proj2 (physical_eqb_spec _ _) Hs). reflexivity. }
    rewrite <- (X g). 2:{ intros s Hs. apply Hg. rewrite Forall_forall in Ha. auto. }
    apply (merge_outcome A _ m opmin opmax g snd (fun b => wrap (fst b))); try assumption.
    - intros s b E. unfold g in E. destruct (physical_eqb _ _); [|discriminate E]. apply F1 in E. rewrite E. apply F2.
    - intros s b E x. unfold g in E. destruct (physical_eqb _ _) eqn:P; [|discriminate E]. apply physical_eqb_spec in P.
      pose proof (F1 _ _ E) as Es. rewrite Es in P. rewrite Es. rewrite P. apply (F3 (fst b) (snd b) x P).
    - intros s Hs. rewrite Forall_forall in Ha. rewrite (Hg s (Ha s Hs)). apply F4. auto. }
  destruct about; cbn [reduce_by_type]; try (exfalso; apply Hi; reflexivity).
  - match goal with |- merges _ _ _ ?goal => replace goal with (let* bs := downcast_all as_bool l in
                    match bs with
                    | [] => Panic
                    | b :: r => let* s := reduce_fold m bool_min bool_max b (map (fun s => s) r) in Ok (Some (SBool s))
                    end) by (destruct (downcast_all as_bool l) as [[|b r]| |]; cbn [bind]; rewrite ?map_id; reflexivity) end.
    apply (merge_outcome bool (stats_of bool) m bool_min bool_max as_bool (fun s => s) (fun _ => SBool) Boolean l); try assumption.
    + intros [s| | |] b E; try discriminate E. injection E as <-. reflexivity.
    + intros [s| | |] b E; try discriminate E. intro x. cbn. auto.
    + intros s Hs. rewrite Forall_forall in Ha. specialize (Ha s Hs). destruct s as [s|t p s|p s|p s]; cbn in *; split; try tauto; try discriminate.
      * destruct t; discriminate Ha.
      * intros _ [n Hn]. congruence.
  - apply (T _ _ _ (as_native NI32) (SNative NI32)); try reflexivity.
    + intros [s|[] p s|p s|p s] b E; try discriminate E. injection E as <-. reflexivity.
    + intros p s x H. cbn in *. auto.
    + intros [s|[] p s|p s|p s] Hs; cbn in *; try discriminate Hs; split; try tauto; try discriminate. intros _ [n Hn]. congruence.
  - apply (T _ _ _ (as_native NI64) (SNative NI64)); try reflexivity.
    + intros [s|[] p s|p s|p s] b E; try discriminate E. injection E as <-. reflexivity.
    + intros p s x H. cbn in *. auto.
    + intros [s|[] p s|p s|p s] Hs; cbn in *; try discriminate Hs; split; try tauto; try discriminate. intros _ [n Hn]. congruence.
  - apply (T _ _ _ (as_native NF32) (SNative NF32)); try reflexivity.
    + intros [s|[] p s|p s|p s] b E; try discriminate E. injection E as <-. reflexivity.
    + intros p s x H. cbn in *. auto.
    + intros [s|[] p s|p s|p s] Hs; cbn in *; try discriminate Hs; split; try tauto; try discriminate. intros _ [n Hn]. congruence.
  - apply (T _ _ _ (as_native NF64) (SNative NF64)); try reflexivity.
    + intros [s|[] p s|p s|p s] b E; try discriminate E. injection E as <-. reflexivity.
    + intros p s x H. cbn in *. auto.
    + intros [s|[] p s|p s|p s] Hs; cbn in *; try discriminate Hs; split; try tauto; try discriminate. intros _ [n Hn]. congruence.
  - apply (T _ _ _ as_binary SBinary); try reflexivity.
    + intros [s|t p s|p s|p s] b E; try discriminate E. injection E as <-. reflexivity.
    + intros p s x H. cbn in *. auto.
    + intros [s|[] p s|p s|p s] Hs; cbn in *; try discriminate Hs; split; try tauto; try discriminate. intros _ [n Hn]. congruence.
  - apply (T _ _ _ as_fixed SFixed); try reflexivity.
    + intros [s|t p s|p s|p s] b E; try discriminate E. injection E as <-. reflexivity.
    + intros p s x H. cbn in *. split; [exact H|]. intro F. apply F. exists size. exact H.
    + intros [s|[] p s|p s|p s] Hs; cbn in *; try discriminate Hs; split; try tauto; try discriminate.
      intro F. exfalso. apply F. exists size. exact Hs.
Qed.
