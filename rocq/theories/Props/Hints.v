(** C101. The number of items that reading a page announces. *)
From Verif Require Import Base.Prelude Base.Iter Model.Types Model.Thrift Model.Intervals Model.Uleb128 Model.Bitpacked Model.HybridRle Model.Plain Model.Page Model.Deserialize
  Spec.RleSpec Spec.LevelsSpec Spec.PlainSpec Spec.HintsSpec Proofs.SliceProofs Proofs.HintsProofs Proofs.HybridAnyProofs Proofs.SchemaProofs Props.Deserialize.
Open Scope N_scope.

(** C101 (full statement, refuted): at every moment the announced number bounds what is still to come. Reading three defined
    levels announces 3, and after the first of them 0 although two are to come. *)
Theorem level_hints_refuted :
  ~ (forall m data n items, n < 2 ^ 64 -> yields (bl_next (ri_next m)) (fun _ _ => True) (bl_new (ri_new (mk_rle data 1) n)) items ->
     yields (bl_next (ri_next m)) (fun s left => hint_holds (exactly (bl_size_hint s)) (length left)) (bl_new (ri_new (mk_rle data 1) n)) items).
Proof.
  intro H. assert (Hy : yields (bl_next (ri_next Checked)) (fun _ _ => True) (bl_new (ri_new (mk_rle [6; 1] 1) 3)) [inl true; inl true; inl true]).
  { repeat (eapply yields_cons; [ exact I | vm_compute; reflexivity | ]). eapply yields_nil; [ exact I | vm_compute; reflexivity ]. }
  assert (Hn : 3 < 2 ^ 64) by reflexivity.
  apply (level_contract Checked [6; 1] 3 _ _ Hn Hy) in H; [ | exact Hn | exact Hy ]. destruct H as [_ H]. lia.
Qed.
Print Assumptions level_hints_refuted.

(** C101. Whatever bytes hold the definition levels: while nothing was taken the announced number is that declared by the page, and
    from then on it is that number less all the levels ever to come, so that it is right throughout only for pages of at most one level. *)
Theorem level_hints_exact : forall m data n items P,
  n < 2 ^ 64 -> yields (bl_next (ri_next m)) P (bl_new (ri_new (mk_rle data 1) n)) items ->
  nlen items <= n /\
  yields (bl_next (ri_next m)) (fun s left => bl_size_hint s = if (length left =? length items)%nat then n else n - nlen items)
    (bl_new (ri_new (mk_rle data 1) n)) items /\
  (yields (bl_next (ri_next m)) (fun s left => hint_holds (exactly (bl_size_hint s)) (length left)) (bl_new (ri_new (mk_rle data 1) n)) items <->
   nlen items = n /\ n <= 1).
Proof. intros m data n items P Hn Hy. destruct (level_hints m data n items P Hn Hy) as [A B]. split; [ exact A | ]. split; [ exact B | exact (level_contract m data n items P Hn Hy) ]. Qed.
Print Assumptions level_hints_exact.

(** C101. Optional values announce what their levels announce. *)
Theorem optional_hints_exact : forall T A m data n levels P (next : T -> res (option A * T)) Q t values,
  n < 2 ^ 64 -> yields (bl_next (ri_next m)) P (bl_new (ri_new (mk_rle data 1) n)) (map inl levels) ->
  yields next Q t values -> (count_true levels <= length values)%nat ->
  yields (ov_next (bl_next (ri_next m)) next)
    (fun s left => ov_size_hint s = if (length left =? length levels)%nat then n else n - nlen levels)
    (bl_new (ri_new (mk_rle data 1) n), t) (map inl (pair_values levels values)).
Proof. exact @optional_hints. Qed.
Print Assumptions optional_hints_exact.

(** C101. Plain byte arrays announce the number they were given less the strings taken so far: right throughout exactly if it was the
    number of strings. *)
Theorem string_hints_exact : forall l n,
  Forall (fun s => nlen s < 2 ^ 32) l ->
  yields bi_next (fun s left => bi_size_hint s = exactly (n - (nlen l - nlen left))) (mk_bi (plain_strings l) (Some n)) (map inl l) /\
  (yields bi_next (fun s left => hint_holds (bi_size_hint s) (length left)) (mk_bi (plain_strings l) (Some n)) (map inl l) <-> n = nlen l).
Proof. intros l n H. split; [ exact (bi_hints l n H) | exact (bi_contract l n H) ]. Qed.
Print Assumptions string_hints_exact.

(** A dictionary page that was opened announces the number of values of its header, whatever its bytes are; that is the number of
    indices it gives out unless reading one fails, and it takes nulls for indices. *)
Theorem dictionary_len_exact : forall P m p (dict : P) d, dy_try_new m p dict = Ok d ->
  dy_len d = dp_num_values p /\ dy_dict d = dict /\
  forall k l s, drain_st (hr_next m) k (dy_indexes d) = Ok (l, s) -> nlen l = N.min (N.of_nat k) (dp_num_values p) /\ hr_size_hint s = dp_num_values p - nlen l.
Proof.
  intros P m p dict d H. unfold dy_try_new in H. apply bind_ok in H as (i & Hi & H). apply Ok_inj in H. subst d. cbn [dy_indexes dy_dict].
  assert (Hn : hr_remaining i = dp_num_values p).
  { unfold dict_indices_decoder in Hi. apply bind_ok in Hi as ([[r df] v] & _ & Hi). destruct v as [|w rest]; [ discriminate Hi | ].
    destruct (32 <? w); [ discriminate Hi | ]. unfold hr_try_new in Hi. apply bind_ok in Hi as ([st dd] & _ & Hi). apply Ok_inj in Hi. subst i. reflexivity. }
  split; [ exact Hn | ]. split; [ reflexivity | ]. intros k l s Hd.
  destruct (hr_drain_any m k i) as [_ Ha]. rewrite <- Hn. exact (Ha _ _ Hd).
Qed.
Print Assumptions dictionary_len_exact.
(** Full statement, refuted for optional pages: the announced number is the number of indices of the page. *)
Theorem dictionary_len_refuted : exists p levels w data runs,
  optional_page p levels (N.of_nat w :: data) /\ conforming w runs data /\ nlen (flat_map run_values runs) = 2 /\ count_true levels = 2%nat /\
  (let* d := dy_try_new Checked p tt in Ok (dy_len d)) = Ok 3.
Proof.
  exists (dp_new (HV1 (mk_tdh 3 8 3 3 None)) [2; 0; 0; 0; 3; 5; 1; 4; 1] (mk_descr (mk_prim (mk_fi [97] Optional None) None None Int32) 1 0) None),
    [true; false; true], 1%nat, [4; 1], [RleRun 2 1].
  split; [ | split; [ | split; [ reflexivity | split; [ reflexivity | vm_compute; reflexivity ] ] ] ].
  - exists [], [3; 5]. vm_compute. repeat split.
  - change [4; 1] with ([4] ++ [1] ++ []). apply (conf_rle 1 2 1 [4] [1] [] []).
    + refine (conj eq_refl (conj _ (conj eq_refl _))); [ cbn; lia | ]. exists [], 4. repeat split; constructor.
    + vm_compute; reflexivity.
    + repeat constructor.
    + reflexivity.
    + reflexivity.
    + constructor.
Qed.
Print Assumptions dictionary_len_refuted.


(** Four levels of which the first run holds three; a page of one level. *)
Example level_hints_case :
  let s0 := bl_new (ri_new (mk_rle [6; 1; 2; 0] 1) 4) in
  bl_size_hint s0 = 4 /\ drain (bl_next (ri_next Checked)) 9 s0 = Ok [inl true; inl true; inl true] /\
  match bl_next (ri_next Checked) s0 with Ok (_, s) => bl_size_hint s = 1 | _ => False end /\
  let s1 := bl_new (ri_new (mk_rle [2; 1] 1) 1) in
  bl_size_hint s1 = 1 /\ match bl_next (ri_next Checked) s1 with Ok (Some (inl true), s) => bl_size_hint s = 0 | _ => False end.
Proof. vm_compute. repeat split; reflexivity. Qed.
Example optional_hints_case :
  let s0 := (bl_new (ri_new (mk_rle [3; 5] 1) 3), mk_bi (plain_strings [[97]; [98]]) None) in
  ov_size_hint s0 = 3 /\
  match ov_next (bl_next (ri_next Checked)) bi_next s0 with Ok (Some (inl (Some (inl [97]))), s) => ov_size_hint s = 0 | _ => False end.
Proof. vm_compute. split; reflexivity. Qed.
Example string_hints_case :
  bi_size_hint (mk_bi (plain_strings [[97]; [98; 99]]) (Some 5)) = exactly 5 /\ ~ hint_holds (exactly 5) 2.
Proof. split; [ reflexivity | ]. unfold hint_holds. cbn. lia. Qed.
