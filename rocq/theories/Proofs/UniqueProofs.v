(** A page is read in one way only: lemmas for C85 and C122. *)
From Verif Require Import Base.Prelude Base.Iter Model.Types Model.Native Model.Thrift Model.Intervals Model.HybridRle Model.Plain Model.Page Model.Deserialize
  Spec.Bits Spec.PlainSpec Spec.PageSpec Spec.ValuesSpec Spec.SelectedSpec Proofs.NestedProofs.
Open Scope N_scope.

Lemma map_inj {A B} (f : A -> B) : (forall x y, f x = f y -> x = y) -> forall a b, map f a = map f b -> a = b.
Proof. intros Hf. induction a as [|x a IH]; intros [|y b] E; try discriminate; [reflexivity|]. cbn [map] in E. injection E as E1 E2. f_equal; auto. Qed.
Lemma option_map_inj {A B} (f : A -> B) : (forall x y, f x = f y -> x = y) -> forall a b, option_map f a = option_map f b -> a = b.
Proof. intros Hf [x|] [y|] E; try discriminate; [|reflexivity]. injection E as E. f_equal. auto. Qed.
Lemma inl_inj {A B} (x y : A) : @inl A B x = inl y -> x = y.
Proof. congruence. Qed.
Lemma inl_option_inj {A B E} (f : A -> B) : (forall x y, f x = f y -> x = y) -> forall a b, @inl _ E (option_map f a) = inl (option_map f b) -> a = b.
Proof. intros Hf a b H. apply inl_inj in H. eapply option_map_inj; eassumption. Qed.
Lemma looked_up_fun {A} (dict : list A) : forall positions c1 c2,
  Forall2 (fun c p => match p with None => c = None | Some i => c = nth_error dict (N.to_nat i) /\ c <> None end) c1 positions ->
  Forall2 (fun c p => match p with None => c = None | Some i => c = nth_error dict (N.to_nat i) /\ c <> None end) c2 positions -> c1 = c2.
Proof.
  induction positions as [|p positions IH]; intros c1 c2 H1 H2; inversion H1 as [|x p1 l1 ps1 Hx Hl1]; subst; inversion H2 as [|y p2 l2 ps2 Hy Hl2]; subst; [reflexivity|].
  f_equal; [|apply IH; assumption]. destruct p as [i|]; [destruct Hx as [-> _], Hy as [-> _]; reflexivity|congruence].
Qed.
Lemma followed_fun {V A I} m (next : V -> res (option I * V)) (item : A -> I) st c1 c2 : (forall x y, item x = item y -> x = y) ->
  followed m next item st c1 -> followed m next item st c2 -> c1 = c2.
Proof.
  intros Hi. destruct st as [[levels|] it|it|dy|[levels|] dy]; cbn [followed]; try contradiction.
  - intros H1 H2. eapply map_inj; [|eapply yields_fun; eassumption]. apply inl_option_inj, Hi.
  - intros (v1 & -> & H1) (v2 & -> & H2). f_equal. eapply map_inj; [exact Hi|]. eapply yields_fun; eassumption.
  - intros (p1 & -> & _ & H1) (p2 & -> & _ & H2). f_equal. eapply yields_fun; eassumption.
  - intros (p1 & H1 & L1) (p2 & H2 & L2). assert (p1 = p2) as -> by (eapply (map_inj (@inl _ error)); [apply inl_inj|eapply yields_fun; eassumption]). eapply looked_up_fun; eassumption.
Qed.
Lemma followed_boolean_fun m st c1 c2 : followed_boolean m st c1 -> followed_boolean m st c2 -> c1 = c2.
Proof.
  destruct st as [[levels|] it|bytes n]; cbn [followed_boolean]; try contradiction.
  - intros H1 H2. eapply (map_inj (@inl _ error)); [apply inl_inj|eapply yields_fun; eassumption].
  - intros [-> _] [-> _]. reflexivity.
Qed.
Lemma sliced_fun {S A} m (next : S -> res (option A * S)) rows s a b : sliced m next rows s a -> sliced m next rows s b -> a = b.
Proof. intros (x & E1 & H1) (y & E2 & H2). rewrite E1 in E2. apply Ok_inj in E2. subst y. eapply yields_fun; eassumption. Qed.
Lemma followed_selected_fun {V A I} m rows (next : V -> res (option I * V)) (item : A -> I) st c1 c2 : (forall x y, item x = item y -> x = y) ->
  followed_selected m rows next item st c1 -> followed_selected m rows next item st c2 -> c1 = c2.
Proof.
  intros Hi. destruct st as [[levels|] it|it|dy|[levels|] dy]; cbn [followed_selected]; try contradiction.
  - intros H1 H2. eapply map_inj; [|eapply sliced_fun; eassumption]. apply inl_option_inj, Hi.
  - intros (v1 & -> & H1) (v2 & -> & H2). f_equal. eapply map_inj; [exact Hi|]. eapply sliced_fun; eassumption.
  - intros (p1 & -> & _ & H1) (p2 & -> & _ & H2). f_equal. eapply sliced_fun; eassumption.
  - intros (p1 & H1 & L1) (p2 & H2 & L2). assert (p1 = p2) as -> by (eapply (map_inj (@inl _ error)); [apply inl_inj|eapply sliced_fun; eassumption]). eapply looked_up_fun; eassumption.
Qed.
Lemma followed_boolean_selected_fun m rows st c1 c2 : followed_boolean_selected m rows st c1 -> followed_boolean_selected m rows st c2 -> c1 = c2.
Proof.
  destruct st as [[levels|] it|bytes n]; cbn [followed_boolean_selected]; try contradiction.
  - intros H1 H2. eapply (map_inj (@inl _ error)); [apply inl_inj|eapply sliced_fun; eassumption].
  - intros (b1 & v1 & E1 & -> & H1) (b2 & v2 & E2 & -> & H2). rewrite E1 in E2. apply Ok_inj in E2. subst b2. f_equal. eapply sliced_fun; eassumption.
Qed.
