(** Proofs about schemas. *)
From Verif Require Import Base.Prelude Model.Types Model.Thrift Model.Schema Spec.SchemaSpec Proofs.TypesFacts Props.Bridge.
Open Scope N_scope.

Lemma parquet_ind (P : parquet_type -> Prop) :
  (forall p, P (Primitive p)) ->
  (forall i l c fields, Forall P fields -> P (Group i l c fields)) ->
  forall t, P t.
Proof.
  intros HP HG. fix IH 1. intros [p|i l c fields]; [ apply HP | ].
  apply HG. induction fields as [|f fields IHf]; [ constructor | ]. constructor; [ apply IH | exact IHf ].
Qed.

(** * Decimal precisions *)

Lemma ilog10_fuel_spec : forall fuel n, 1 <= n -> n < 10 ^ N.of_nat fuel \/ n < 2 ^ N.of_nat fuel ->
  10 ^ ilog10_fuel fuel n <= n < 10 ^ (ilog10_fuel fuel n + 1).
Proof.
  induction fuel as [|f IH]; intros n Hn Hf.
  - cbn in Hf. lia.
  - cbn [ilog10_fuel]. destruct (N.ltb_spec n 10) as [H|H].
    + change (10 ^ 0) with 1. change (10 ^ (0 + 1)) with 10. lia.
    + assert (Hd : 1 <= n / 10) by (apply N.div_le_lower_bound; lia).
      assert (Hf' : n / 10 < 10 ^ N.of_nat f \/ n / 10 < 2 ^ N.of_nat f).
      { rewrite Nnat.Nat2N.inj_succ in Hf. destruct Hf as [Hf|Hf].
        - left. apply N.div_lt_upper_bound; [ lia | ]. rewrite N.pow_succ_r' in Hf. exact Hf.
        - right. apply N.div_lt_upper_bound; [ lia | ]. rewrite N.pow_succ_r' in Hf.
          pose proof (N.pow_nonzero 2 (N.of_nat f)). lia. }
      specialize (IH (n / 10) Hd Hf'). set (k := ilog10_fuel f (n / 10)) in *. clearbody k.
      replace (1 + k) with (N.succ k) by lia. replace (N.succ k + 1) with (N.succ (k + 1)) by lia.
      rewrite !N.pow_succ_r'. pose proof (N.div_mod' n 10). pose proof (N.mod_lt n 10). lia.
Qed.
Lemma ilog10_spec n : 1 <= n -> 10 ^ ilog10 n <= n < 10 ^ (ilog10 n + 1).
Proof.
  intros Hn. apply ilog10_fuel_spec; [ exact Hn | ]. right.
  destruct n as [|p]; [ lia | ]. cbn [N.size_nat].
  pose proof (Pos.size_gt p) as H.
  assert (E : N.of_nat (Pos.size_nat p) = N.pos (Pos.size p)).
  { clear. induction p as [p IH|p IH|]; cbn [Pos.size_nat Pos.size]; [ | | reflexivity ];
      rewrite Nnat.Nat2N.inj_succ, IH; reflexivity. }
  rewrite E. exact H.
Qed.
Lemma ilog10_le n p : 1 <= n -> (p <= ilog10 n <-> 10 ^ p <= n).
Proof.
  intros Hn. pose proof (ilog10_spec n Hn) as [H1 H2]. split; intros H.
  - etransitivity; [ apply N.pow_le_mono_r; [ lia | exact H ] | exact H1 ].
  - destruct (N.le_gt_cases p (ilog10 n)) as [|Hgt]; [ assumption | ].
    assert (10 ^ (ilog10 n + 1) <= 10 ^ p) by (apply N.pow_le_mono_r; lia). lia.
Qed.
Lemma pow2_mod5 k : 2 ^ k mod 5 <> 0.
Proof.
  induction k as [|k IH] using N.peano_ind; [ cbv; discriminate | ].
  rewrite N.pow_succ_r'. rewrite N.mul_mod by lia. change (2 mod 5) with 2.
  pose proof (N.mod_lt (2 ^ k) 5). assert (E : 2 ^ k mod 5 = 1 \/ 2 ^ k mod 5 = 2 \/ 2 ^ k mod 5 = 3 \/ 2 ^ k mod 5 = 4) by lia.
  destruct E as [-> |[-> |[-> | ->]]]; cbv; discriminate.
Qed.
Lemma pow10_mod5 p : 1 <= p -> 10 ^ p mod 5 = 0.
Proof.
  intros Hp. replace p with (N.succ (p - 1)) by lia. rewrite N.pow_succ_r'.
  replace (10 * 10 ^ (p - 1)) with ((2 * 10 ^ (p - 1)) * 5) by lia. apply N.mod_mul. lia.
Qed.
Lemma pow10_lt_pow2 p k : 1 <= p -> (10 ^ p < 2 ^ k <-> 10 ^ p <= 2 ^ k).
Proof.
  intros Hp. split; [ lia | ]. intros H. destruct (N.eq_dec (10 ^ p) (2 ^ k)) as [E|]; [ | lia ].
  exfalso. apply (pow2_mod5 k). rewrite <- E. apply pow10_mod5. exact Hp.
Qed.
Lemma pow10_le p k b : 10 ^ k <= b -> b < 10 ^ (k + 1) -> (p <= k <-> 10 ^ p <= b).
Proof.
  intros H1 H2. split; intros H.
  - etransitivity; [ apply N.pow_le_mono_r; [ lia | exact H ] | exact H1 ].
  - destruct (N.le_gt_cases p k) as [|Hgt]; [ assumption | ].
    assert (10 ^ (k + 1) <= 10 ^ p) by (apply N.pow_le_mono_r; lia). lia.
Qed.

(** What the check of a fixed length accepts. *)
Lemma max_precision_spec n p : 1 <= p -> p <= u64max ->
  (exists max, max_precision n = Ok max /\ p <= max) <->
  ((1 <= as_i32 n < 2 ^ 28)%Z /\ ((129 <= as_i32 n)%Z \/ 10 ^ p <= 2 ^ (8 * Z.to_N (as_i32 n) - 1))).
Proof.
  intros Hp Hmax. unfold max_precision. cbv zeta. set (l := as_i32 n). clearbody l. unfold in_s. 
  change (Z.of_N 32 - 1)%Z with 31%Z. change (2 ^ 31)%Z with 2147483648%Z. change (2 ^ 28)%Z with 268435456%Z.
  destruct ((- (2147483648) <=? l * 8) && (l * 8 <? 2147483648))%Z eqn:E1; cbn [negb].
  2: { split; [ intros (x & H & _); discriminate H | lia ]. }
  destruct ((- (2147483648) <=? l * 8 - 1) && (l * 8 - 1 <? 2147483648))%Z eqn:E2; cbn [negb].
  2: { split; [ intros (x & H & _); discriminate H | lia ]. }
  destruct (Z.ltb_spec (l * 8 - 1) 0) as [Hneg|Hpos].
  { split; [ intros (x & H & Hx); apply Ok_inj in H; lia | lia ]. }
  destruct (Z.leb_spec 1024 (l * 8 - 1)) as [Hbig|Hsmall].
  { split; [ intros _ | intros _; exists u64max; split; [ reflexivity | exact Hmax ] ]. split; [ lia | ]. left. lia. }
  replace (Z.to_N (l * 8 - 1)) with (8 * Z.to_N l - 1) by lia. set (k := 8 * Z.to_N l - 1).
  assert (Hk : 7 <= k) by lia. assert (H2 : 2 ^ 7 <= 2 ^ k) by (apply N.pow_le_mono_r; lia). change (2 ^ 7) with 128 in H2.
  assert (Hiff : p <= ilog10 (2 ^ k - 1) <-> 10 ^ p <= 2 ^ k).
  { rewrite ilog10_le by lia. rewrite <- (pow10_lt_pow2 p k Hp). lia. }
  split.
  - intros (x & H & Hx). apply Ok_inj in H. subst x. split; [ lia | ]. right. apply Hiff. exact Hx.
  - intros [Hl [H|H]]; [ lia | ]. eexists. split; [ reflexivity | ]. apply Hiff. exact H.
Qed.

Lemma check_decimal_fixed n p s : p <= u64max ->
  (check_decimal (FixedLenByteArray n) p s = Ok tt <->
   1 <= p /\ s <= p /\ (1 <= as_i32 n < 2 ^ 28)%Z /\ ((129 <= as_i32 n)%Z \/ 10 ^ p <= 2 ^ (8 * Z.to_N (as_i32 n) - 1))).
Proof.
  intros Hmax. unfold check_decimal.
  destruct (N.ltb_spec p 1); [ split; [ discriminate | lia ] | ].
  destruct (N.ltb_spec p s); [ split; [ discriminate | lia ] | ].
  pose proof (max_precision_spec n p ltac:(lia) Hmax) as Hs.
  destruct (max_precision n) as [x|e|]; cbn [bind].
  - destruct (N.ltb_spec x p).
    + split; [ discriminate | ]. intros (_ & _ & H2). apply Hs in H2 as (y & Hy & Hle). apply Ok_inj in Hy. lia.
    + split; [ intros _ | reflexivity ]. split; [ lia | ]. split; [ lia | ]. apply Hs. exists x. auto.
  - split; [ discriminate | ]. intros (_ & _ & H2). apply Hs in H2 as (y & Hy & Hle). discriminate Hy.
  - split; [ discriminate | ]. intros (_ & _ & H2). apply Hs in H2 as (y & Hy & Hle). discriminate Hy.
Qed.

Lemma check_decimal_ok t p s : p <= u64max -> moderate t -> (check_decimal t p s = Ok tt <-> decimal_on p s t).
Proof.
  intros Hmax Hm. destruct t as [| | | | | | |n].
  8: { cbn [moderate] in Hm. rewrite (check_decimal_fixed n p s Hmax). rewrite as_i32_small by lia.
    unfold decimal_on. cbn [decimal_fits]. rewrite N2Z.id. change (2 ^ 28)%Z with 268435456%Z.
    split; [ intros (A & B & C & [D|D]); [ lia | ] | intros (A & B & C & D) ]; [ repeat split; try lia; exact D | ].
    split; [ exact A | ]. split; [ exact B | ]. split; [ lia | ]. right. exact D. }
  all: unfold check_decimal, decimal_on; cbn [decimal_fits];
    destruct (N.ltb_spec p 1); [ split; [ discriminate | lia ] | ];
    destruct (N.ltb_spec p s); [ split; [ discriminate | lia ] | ].
  all: try (split; [ discriminate | intros (_ & _ & []) ]).
  - pose proof (pow10_le p 9 (2 ^ 31) ltac:(cbv; discriminate) ltac:(cbv; reflexivity)) as Hp.
    destruct (N.leb_spec 1 p); [ | lia ]. cbn [andb]. destruct (N.leb_spec p 9) as [Hle|Hgt].
    + split; [ intros _ | reflexivity ]. split; [ lia | ]. split; [ lia | ]. apply Hp. exact Hle.
    + split; [ discriminate | ]. intros (_ & _ & H3). apply Hp in H3. lia.
  - pose proof (pow10_le p 18 (2 ^ 63) ltac:(cbv; discriminate) ltac:(cbv; reflexivity)) as Hp.
    destruct (N.leb_spec 1 p); [ | lia ]. cbn [andb]. destruct (N.leb_spec p 18) as [Hle|Hgt].
    + split; [ intros _ | reflexivity ]. split; [ lia | ]. split; [ lia | ]. apply Hp. exact Hle.
    + split; [ discriminate | ]. intros (_ & _ & H3). apply Hp in H3. lia.
  - split; [ intros _ | reflexivity ]. split; [ lia | ]. split; [ lia | exact I ].
Qed.


Lemma require_ok t u : require (physical_eqb t u) = Ok tt <-> t = u.
Proof.
  unfold require. pose proof (physical_eqb_spec t u) as H. destruct (physical_eqb t u).
  - split; [ intros _; apply H | ]; reflexivity.
  - split; [ discriminate | ]. intros E. apply H in E. discriminate E.
Qed.
Lemma check_converted_ok t c : on_some precise_converted c -> moderate t ->
  (check_converted t c = Ok tt <-> on_some (fun c => converted_on c t) c).
Proof.
  intros Hp Hm. destruct c as [c|]; [ | split; reflexivity ].
  destruct c; cbn [check_converted on_some converted_on]; try (apply require_ok).
  apply check_decimal_ok; assumption.
Qed.
Lemma check_logical_ok t l : on_some precise_logical l -> moderate t ->
  (check_logical t l = Ok tt <-> on_some (fun l => logical_on l t) l).
Proof.
  intros Hp Hm. destruct l as [l|]; [ | split; reflexivity ].
  destruct l as [| |p s| |u utc|u utc|k| | | |]; cbn [check_logical on_some logical_on];
    try (apply check_decimal_ok; assumption);
    try destruct u; try destruct k; destruct t; try (split; [ discriminate | congruence ]); try (split; reflexivity).
  destruct (N.eqb_spec size 16) as [->|]; split; try reflexivity; try discriminate. congruence.
Qed.

Lemma bind_unit {A} (x : res unit) (y : res A) a : bind x (fun _ => y) = Ok a <-> x = Ok tt /\ y = Ok a.
Proof.
  destruct x as [[]|e|]; cbn [bind]; split; intros H; try discriminate H; try (destruct H as [H _]; discriminate H).
  - auto.
  - apply H.
Qed.
Lemma try_from_primitive_ok name t r c l id u : on_some precise_converted c -> on_some precise_logical l -> moderate t ->
  (try_from_primitive name t r c l id = Ok u <-> annotated t c l /\ u = Primitive (mk_prim (mk_fi name r id) l c t)).
Proof.
  intros Hc Hl Hm. unfold try_from_primitive. rewrite !bind_unit.
  rewrite (check_converted_ok t c Hc Hm), (check_logical_ok t l Hl Hm). unfold annotated.
  split; [ intros (A & B & C); apply Ok_inj in C; auto | intros [[A B] ->]; auto ].
Qed.
Lemma check_no_panic t c l : check_converted t c <> Panic /\ check_logical t l <> Panic.
Proof.
  assert (Hd : forall t p s, check_decimal t p s <> Panic).
  { clear. intros t p s. unfold check_decimal, max_precision.
    repeat match goal with |- context [if ?b then _ else _] => destruct b; cbn [bind] end; destruct t; cbn [bind]; try discriminate;
    repeat match goal with |- context [if ?b then _ else _] => destruct b; cbn [bind] end; discriminate. }
  split.
  - destruct c as [c|]; [ | discriminate ]. destruct c; cbn [check_converted]; unfold require; try apply Hd;
      destruct (physical_eqb _ _); discriminate.
  - destruct l as [l|]; [ | discriminate ]. destruct l as [| |p s| |u utc|u utc|k| | | |]; cbn [check_logical]; try apply Hd;
      try destruct u; try destruct k; destruct t; try discriminate.
    destruct (size =? 16); discriminate.
Qed.

(** * Flattening and parsing *)

Definition is_nil {A} (l : list A) : bool := match l with [] => true | _ => false end.
Fixpoint full (t : parquet_type) : bool :=
  match t with
  | Primitive _ => true
  | Group _ _ _ fields => negb (is_nil fields) && forallb full fields
  end.
Lemma full_spec t : full t = true <-> forall i l c fields, within t (Group i l c fields) -> fields <> [].
Proof.
  induction t as [p|i l c fields IH] using parquet_ind; cbn [full].
  - split; [ | reflexivity ]. intros _ i l c fields H. inversion H.
  - rewrite andb_true_iff, forallb_forall, negb_true_iff. rewrite Forall_forall in IH. split.
    + intros [H1 H2] i' l' c' fields' H. inversion H as [|? ? ? ? f ? Hin Hw]; subst.
      * destruct fields'; [ discriminate H1 | discriminate ].
      * apply (proj1 (IH f Hin) (H2 f Hin)) in Hw. exact Hw.
    + intros H. split.
      * destruct fields; [ | reflexivity ]. exfalso. exact (H _ _ _ _ (within_self _) eq_refl).
      * intros f Hf. apply IH; [ exact Hf | ]. intros i' l' c' fields' Hw. apply (H i' l' c' fields'). econstructor; eassumption.
Qed.

Lemma primitive_round_trip p : accepted p -> sized p ->
  exists e, to_thrift_helper (Primitive p) false = [e] /\ se_num_children e = None /\ primitive_from_thrift e = Ok (Primitive p).
Proof.
  intros Ha (Hphy & Hconv & Hlog). cbn [to_thrift_helper].
  pose proof (physical_roundtrip _ Hphy) as Hp. destruct (physical_to_thrift (pt_physical p)) as [ty tl]. cbn [fst snd] in Hp.
  assert (Hl : transpose (option_map logical_of_thrift (option_map logical_to_thrift (pt_logical p))) = Ok (pt_logical p)).
  { destruct (pt_logical p) as [l|]; [ | reflexivity ]. cbn [option_map transpose]. rewrite (logical_roundtrip l Hlog). reflexivity. }
  destruct (pt_converted p) as [c|] eqn:Ec.
  - cbn [on_some] in Hconv. pose proof (converted_roundtrip c Hconv) as Hc. destruct (converted_to_thrift c) as [ct dec]. cbn [fst snd] in Hc.
    eexists. split; [ reflexivity | ]. split; [ reflexivity | ]. unfold primitive_from_thrift.
    cbn [se_repetition se_type se_type_length se_converted se_precision se_scale se_logical se_name se_field_id].
    rewrite (proj2 (repetition_bridge _ _) eq_refl). cbn [bind].
    assert (Ed : match option_map fst dec, option_map snd dec with
                 | Some p, Some s => Ok (Some (p, s)) | None, None => Ok None | _, _ => Err OutOfSpec end = Ok dec)
      by (destruct dec as [[a b]|]; reflexivity).
    rewrite Ed. cbn [bind]. rewrite Hc. cbn [bind]. rewrite Hl. cbn [bind]. rewrite Hp. cbn [bind].
    unfold accepted in Ha. rewrite Ec in Ha. exact Ha.
  - eexists. split; [ reflexivity | ]. split; [ reflexivity | ]. unfold primitive_from_thrift.
    cbn [se_repetition se_type se_type_length se_converted se_precision se_scale se_logical se_name se_field_id].
    rewrite (proj2 (repetition_bridge _ _) eq_refl). cbn [bind]. rewrite Hl. cbn [bind]. rewrite Hp. cbn [bind].
    unfold accepted in Ha. rewrite Ec in Ha. exact Ha.
Qed.

Definition flat (t : parquet_type) : list t_schema_element := to_thrift_helper t false.
Lemma flat_pos t : (1 <= length (flat t))%nat.
Proof.
  unfold flat. destruct t as [p|]; cbn [to_thrift_helper].
  - destruct (physical_to_thrift _). destruct (pt_converted p) as [c|]; [ destruct (converted_to_thrift c) | ]; cbn [length]; lia.
  - cbn [length]. lia.
Qed.

Lemma as_i32_zero n : i32_size n -> (as_i32 n =? 0)%Z = (n =? 0).
Proof. intros H. unfold i32_size in H. rewrite as_i32_small by exact H. destruct (N.eqb_spec n 0) as [->|]; [ reflexivity | ]. apply Z.eqb_neq. lia. Qed.

Lemma read_children_flat elements f : forall fields pre post,
  (forall t, In t fields -> forall pre post, elements = pre ++ flat t ++ post -> (0 < length pre)%nat ->
     from_thrift_helper f elements (length pre) =
       if full t then Ok ((length pre + length (flat t))%nat, t) else Err OutOfSpec) ->
  elements = pre ++ flat_map flat fields ++ post -> (0 < length pre)%nat ->
  read_children (from_thrift_helper f elements) (length fields) (length pre) =
    if forallb full fields then Ok ((length pre + length (flat_map flat fields))%nat, fields) else Err OutOfSpec.
Proof.
  induction fields as [|t fields IH]; intros pre post Hall He Hpre.
  - cbn [length read_children forallb flat_map]. rewrite Nat.add_0_r. reflexivity.
  - cbn [length read_children forallb flat_map] in *. rewrite <- app_assoc in He.
    rewrite (Hall t (or_introl eq_refl) pre _ He Hpre). destruct (full t); cbn [andb bind]; [ | reflexivity ].
    specialize (IH (pre ++ flat t) post). rewrite app_length in IH. rewrite IH.
    + rewrite app_length. destruct (forallb full fields); cbn [bind]; [ | reflexivity ]. rewrite Nat.add_assoc. reflexivity.
    + intros t' Ht'. apply Hall. right. exact Ht'.
    + rewrite <- app_assoc. exact He.
    + lia.
Qed.

Lemma nth_error_mid {A} (pre : list A) a post : nth_error (pre ++ a :: post) (length pre) = Some a.
Proof. rewrite nth_error_app2 by lia. rewrite Nat.sub_diag. reflexivity. Qed.

Lemma helper_flat elements : forall t, (forall u, within t u -> storable u) ->
  forall fuel pre post, (length (flat t) <= fuel)%nat -> elements = pre ++ flat t ++ post -> (0 < length pre)%nat ->
  from_thrift_helper fuel elements (length pre) =
    if full t then Ok ((length pre + length (flat t))%nat, t) else Err OutOfSpec.
Proof.
  induction t as [p|i l c fields IH] using parquet_ind; intros Hok fuel pre post Hfuel He Hpre.
  - destruct fuel as [|fuel]; [ pose proof (flat_pos (Primitive p)); lia | ].
    destruct (Hok _ (within_self _)) as [Ha Hs]. destruct (primitive_round_trip p Ha Hs) as (e & Ee & Hn & Hp).
    unfold flat in *. rewrite Ee in *. cbn [from_thrift_helper full length].
    rewrite He. cbn [app]. rewrite nth_error_mid, Hn, Hp. cbn [bind]. rewrite Nat.add_1_r. reflexivity.
  - destruct fuel as [|fuel]; [ pose proof (flat_pos (Group i l c fields)); lia | ].
    pose proof (Hok _ (within_self _)) as Hlen. cbn [storable] in Hlen.
    unfold flat in He, Hfuel |- *. cbn [to_thrift_helper] in He, Hfuel |- *. cbn [app] in He.
    cbn [from_thrift_helper]. rewrite He at 1. rewrite nth_error_mid. cbn [se_num_children].
    rewrite (as_i32_zero _ Hlen). cbn [full].
    destruct fields as [|f0 fields0].
    + cbn [length nlen]. change (nlen (@nil parquet_type) =? 0) with true. cbn [is_nil negb andb]. unfold primitive_from_thrift. cbn [se_repetition se_type].
      rewrite (proj2 (repetition_bridge _ _) eq_refl). reflexivity.
    + set (fields := f0 :: fields0) in *. replace (nlen fields =? 0) with false by (unfold nlen, fields; cbn [length]; lia).
      replace (is_nil fields) with false by reflexivity. cbn [negb andb].
      rewrite as_i32_small by exact Hlen. replace (Z.to_nat (Z.of_N (nlen fields))) with (length fields) by (unfold nlen; lia).
      match type of He with elements = pre ++ ?e :: _ => set (el := e) in * end.
      change (flat_map (fun f => to_thrift_helper f false) fields) with (flat_map flat fields) in *. clearbody fields.
      rewrite app_comm_cons in He || idtac.
      assert (He' : elements = (pre ++ [el]) ++ flat_map flat fields ++ post) by (rewrite <- app_assoc; exact He).
      replace (S (length pre)) with (length (pre ++ [el])) by (rewrite app_length; cbn; lia).
      rewrite (read_children_flat elements fuel fields (pre ++ [el]) post); [ | | exact He' | rewrite app_length; cbn; lia ].
      * destruct (forallb full fields); cbn [bind]; [ | reflexivity ].
        replace (length pre =? 0)%nat with false by (symmetry; apply Nat.eqb_neq; lia).
        unfold group_from_thrift, el. cbn [se_repetition se_converted se_logical se_name se_field_id].
        rewrite (proj2 (repetition_bridge _ _) eq_refl). cbn [bind].
        assert (Hc : transpose (option_map group_converted_of_thrift (option_map group_converted_to_thrift c)) = Ok c).
        { destruct c as [c|]; [ | reflexivity ]. cbn [option_map transpose]. rewrite (proj2 (group_converted_bridge _ _) eq_refl). reflexivity. }
        assert (Hl : transpose (option_map group_logical_of_thrift (option_map group_logical_to_thrift l)) = Ok l).
        { destruct l as [l|]; [ | reflexivity ]. cbn [option_map transpose]. rewrite (proj2 (group_logical_bridge _ _) eq_refl). reflexivity. }
        rewrite Hc. cbn [bind]. rewrite Hl. cbn [bind]. rewrite app_length. cbn [length].
        destruct i as [name r id]. cbn [fi_name fi_repetition fi_id]. f_equal. f_equal. lia.
      * intros t Ht pre' post' Ee Hp. rewrite Forall_forall in IH. apply (IH t Ht) with (post := post'); [ | | exact Ee | exact Hp ].
        -- intros u Hu. apply Hok. econstructor; eassumption.
        -- assert (Hin : forall l : list parquet_type, In t l -> (length (flat t) <= length (flat_map flat l))%nat).
           { clear. induction l as [|a l IH]; [ intros [] | ]. cbn [flat_map]. rewrite app_length. intros [->|H]; [ lia | specialize (IH H); lia ]. }
           specialize (Hin fields Ht). cbn [length] in Hfuel. lia.
Qed.

(** The whole schema: the root is read back exactly when every group has fields. *)
Lemma type_round_trip name fields :
  i32_size (nlen fields) -> (forall f u, In f fields -> within f u -> storable u) ->
  type_from_thrift (to_thrift (new_root name fields)) =
    if negb (is_nil fields) && forallb full fields then Ok (new_root name fields) else Err OutOfSpec.
Proof.
  intros Hlen Hok. unfold type_from_thrift, to_thrift, new_root. cbn [to_thrift_helper fi_name fi_repetition fi_id option_map].
  change (flat_map (fun f => to_thrift_helper f false) fields) with (flat_map flat fields).
  match goal with |- context [?e :: flat_map flat fields] => set (el := e) in * end.
  set (elements := el :: flat_map flat fields).
  assert (H0 : from_thrift_helper (S (length elements)) elements 0 =
     if negb (is_nil fields) && forallb full fields then Ok (length elements, new_root name fields) else Err OutOfSpec).
  { assert (Hfuel : (length elements <= length elements)%nat) by lia. revert Hfuel. generalize (length elements) at 2 3. intros fuel Hfuel.
    cbn [from_thrift_helper]. unfold elements at 1. cbn [nth_error]. unfold el. cbn [se_num_children].
    rewrite (as_i32_zero _ Hlen). destruct (N.eqb_spec (nlen fields) 0) as [E|E].
    - assert (fields = []) as -> by (destruct fields; [ reflexivity | unfold nlen in E; cbn [length] in E; lia ]). reflexivity.
    - assert (is_nil fields = false) as -> by (destruct fields; [ exfalso; apply E; reflexivity | reflexivity ]). cbn [negb andb].
      rewrite as_i32_small by exact Hlen. replace (Z.to_nat (Z.of_N (nlen fields))) with (length fields) by (unfold nlen; lia).
      change 1%nat with (length [el]).
      rewrite (read_children_flat elements _ fields [el] []); [ | | unfold elements; rewrite app_nil_r; reflexivity | cbn; lia ].
      + destruct (forallb full fields); reflexivity.
      + intros t Ht pre post Ee Hp. apply helper_flat with (post := post); [ | | exact Ee | exact Hp ].
        * intros u. apply Hok. exact Ht.
        * apply (f_equal (@length _)) in Ee. rewrite !app_length in Ee. lia. }
  set (n := length elements) in *.
  assert (Hn : (0 < n)%nat) by (unfold n, elements; cbn [length]; lia).
  cbn [read_roots]. fold n. replace (0 <? n)%nat with true by (symmetry; apply Nat.ltb_lt; exact Hn).
  rewrite H0. destruct (negb (is_nil fields) && forallb full fields); [ | reflexivity ]. cbn [bind].
  assert (E : read_roots n elements n = Ok []).
  { destruct n as [|k] eqn:En; [ lia | ]. cbn [read_roots]. fold n. rewrite En, Nat.ltb_irrefl. reflexivity. }
  rewrite E. reflexivity.
Qed.

(** * Parsing any elements *)

Lemma bind_ok {A B} (x : res A) (f : A -> res B) b : bind x f = Ok b -> exists a, x = Ok a /\ f a = Ok b.
Proof. destruct x; cbn [bind]; try discriminate. eauto. Qed.
Lemma primitive_from_thrift_ok e t : primitive_from_thrift e = Ok t -> exists p, t = Primitive p /\ accepted p.
Proof.
  unfold primitive_from_thrift. destruct (se_repetition e); [ | discriminate ]. intros H. apply bind_ok in H as (r & _ & H).
  destruct (se_type e); [ | discriminate ]. apply bind_ok in H as (c & _ & H). apply bind_ok in H as (l & _ & H).
  apply bind_ok in H as (ph & _ & H). pose proof H as H'. unfold try_from_primitive in H. apply bind_ok in H as (? & _ & H).
  apply bind_ok in H as (? & _ & H). apply Ok_inj in H. subst t. eexists. split; [ reflexivity | ]. exact H'.
Qed.
Definition all_accepted (t : parquet_type) : Prop := forall p, within t (Primitive p) -> accepted p.
Lemma all_accepted_group i l c fields : Forall all_accepted fields -> all_accepted (Group i l c fields).
Proof.
  intros H p Hw. inversion Hw as [|? ? ? ? f ? Hin Hw']; subst. rewrite Forall_forall in H. exact (H f Hin p Hw').
Qed.
Lemma read_children_accepted step : (forall i j t, step i = Ok (j, t) -> all_accepted t) ->
  forall n i j l, read_children step n i = Ok (j, l) -> Forall all_accepted l.
Proof.
  intros Hs. induction n as [|n IH]; intros i j l H; cbn [read_children] in H.
  - apply Ok_inj in H. injection H as _ <-. constructor.
  - apply bind_ok in H as ([k t] & H1 & H). apply bind_ok in H as ([k' r] & H2 & H). apply Ok_inj in H. injection H as _ <-.
    constructor; eauto.
Qed.
Lemma helper_accepted elements : forall fuel i j t, from_thrift_helper fuel elements i = Ok (j, t) -> all_accepted t.
Proof.
  induction fuel as [|fuel IH]; intros i j t H; cbn [from_thrift_helper] in H; [ discriminate | ].
  destruct (nth_error elements i) as [e|]; [ | discriminate ].
  assert (Hprim : forall r, (let* t := primitive_from_thrift e in Ok (S i, t)) = Ok r -> all_accepted (snd r)).
  { intros r Hr. apply bind_ok in Hr as (u & Hu & Hr). apply Ok_inj in Hr. subst r. apply primitive_from_thrift_ok in Hu as (p & -> & Hp).
    intros q Hw. inversion Hw; subst. exact Hp. }
  destruct (se_num_children e) as [n|]; [ | exact (Hprim _ H) ].
  destruct (n =? 0)%Z; [ exact (Hprim _ H) | ].
  apply bind_ok in H as ([k fields] & H1 & H). apply bind_ok in H as (u & H2 & H). apply Ok_inj in H. injection H as _ <-.
  apply read_children_accepted in H1; [ | exact IH ]. unfold group_from_thrift in H2.
  destruct (i =? 0)%nat; [ apply Ok_inj in H2; subst u; apply all_accepted_group; exact H1 | ].
  destruct (se_repetition e); [ | discriminate ]. apply bind_ok in H2 as (? & _ & H2). apply bind_ok in H2 as (? & _ & H2).
  apply bind_ok in H2 as (? & _ & H2). apply Ok_inj in H2. subst u. apply all_accepted_group. exact H1.
Qed.
Lemma type_from_thrift_accepted elements t : type_from_thrift elements = Ok t -> all_accepted t.
Proof.
  unfold type_from_thrift. intros H. apply bind_ok in H as (nodes & H1 & H). destruct nodes as [|x [|]]; try discriminate H.
  apply Ok_inj in H. subst x. cbn [read_roots] in H1. destruct (0 <? length elements)%nat; [ | discriminate H1 ].
  apply bind_ok in H1 as ([k u] & H1 & H2). apply bind_ok in H2 as (r & _ & H2). apply Ok_inj in H2. injection H2 as -> _.
  exact (helper_accepted _ _ _ _ _ H1).
Qed.

(** Parsing never panics. *)
Lemma bind_no_panic {A B} (x : res A) (f : A -> res B) : x <> Panic -> (forall a, x = Ok a -> f a <> Panic) -> bind x f <> Panic.
Proof. destruct x; cbn [bind]; intros H1 H2; try congruence; try discriminate. exact (H2 _ eq_refl). Qed.
Lemma try_usize_no_panic z : try_usize z <> Panic.
Proof. unfold try_usize. destruct (z <? 0)%Z; discriminate. Qed.
Lemma converted_no_panic t d : converted_of_thrift t d <> Panic.
Proof.
  destruct t as [|q|q]; try (cbn; discriminate).
  do 5 (try destruct q as [q|q|]; try (cbn; discriminate)).
  cbn. destruct d as [[a b]|]; [ | discriminate ].
  apply bind_no_panic; [ apply try_usize_no_panic | ]. intros. apply bind_no_panic; [ apply try_usize_no_panic | ]. discriminate.
Qed.
Lemma logical_no_panic t : logical_of_thrift t <> Panic.
Proof.
  destruct t; try (cbn; discriminate). cbn.
  apply bind_no_panic; [ apply try_usize_no_panic | ]. intros. apply bind_no_panic; [ apply try_usize_no_panic | ]. discriminate.
Qed.
Lemma physical_no_panic t d : physical_of_thrift t d <> Panic.
Proof.
  destruct t as [|q|q]; try (cbn; discriminate).
  do 3 (try destruct q as [q|q|]; try (cbn; discriminate)).
  cbn. destruct d as [a|]; [ | discriminate ]. apply bind_no_panic; [ apply try_usize_no_panic | ]. discriminate.
Qed.
Lemma transpose_no_panic {A} (x : option (res A)) : (forall r, x = Some r -> r <> Panic) -> transpose x <> Panic.
Proof.
  destruct x as [r|]; cbn [transpose]; [ | discriminate ]. intros H. apply bind_no_panic; [ exact (H r eq_refl) | discriminate ].
Qed.
Lemma option_map_some {A B} (f : A -> B) x y : option_map f x = Some y -> exists a, y = f a.
Proof. destruct x; cbn; [ | discriminate ]. intros H. injection H as <-. eauto. Qed.
Lemma primitive_from_thrift_no_panic e : primitive_from_thrift e <> Panic.
Proof.
  unfold primitive_from_thrift. destruct (se_repetition e) as [r|]; [ | discriminate ].
  apply bind_no_panic; [ apply enums_total | ]. intros rep _. destruct (se_type e); [ | discriminate ].
  apply bind_no_panic.
  { destruct (se_converted e); [ | discriminate ]. apply bind_no_panic.
    - destruct (se_precision e), (se_scale e); discriminate.
    - intros. apply bind_no_panic; [ apply converted_no_panic | discriminate ]. }
  intros. apply bind_no_panic.
  { apply transpose_no_panic. intros x Hx. apply option_map_some in Hx as (y & ->). apply logical_no_panic. }
  intros. apply bind_no_panic; [ apply physical_no_panic | ]. intros. unfold try_from_primitive.
  apply bind_no_panic; [ apply (check_no_panic _ _ None) | ]. intros. apply bind_no_panic; [ apply (check_no_panic _ None _) | discriminate ].
Qed.
Lemma group_from_thrift_no_panic e r fields : group_from_thrift e r fields <> Panic.
Proof.
  unfold group_from_thrift. destruct r; [ discriminate | ]. destruct (se_repetition e); [ | discriminate ].
  apply bind_no_panic; [ apply enums_total | ]. intros. apply bind_no_panic.
  { apply transpose_no_panic. intros x Hx. apply option_map_some in Hx as (y & ->). apply enums_total. }
  intros. apply bind_no_panic; [ | discriminate ].
  apply transpose_no_panic. intros x Hx. apply option_map_some in Hx as (y & ->). destruct y; discriminate.
Qed.
Lemma read_children_forward step lo : (forall i, (lo <= i)%nat -> step i <> Panic /\ forall j t, step i = Ok (j, t) -> (i < j)%nat) ->
  forall n i, (lo <= i)%nat -> read_children step n i <> Panic /\ forall j l, read_children step n i = Ok (j, l) -> (i <= j)%nat.
Proof.
  intros Hs. induction n as [|n IH]; intros i Hi; cbn [read_children].
  - split; [ discriminate | ]. intros j l H. apply Ok_inj in H. injection H as <- _. lia.
  - destruct (Hs i Hi) as [Hp Hf]. split.
    + apply bind_no_panic; [ exact Hp | ]. intros [j t] Hj. apply Hf in Hj.
      apply bind_no_panic; [ apply IH; lia | ]. intros [k r] _. discriminate.
    + intros j l H. apply bind_ok in H as ([k t] & H1 & H). apply bind_ok in H as ([k' r] & H2 & H). apply Ok_inj in H. injection H as <- _.
      apply Hf in H1. apply IH in H2; lia.
Qed.
Lemma helper_forward elements : forall fuel i, (length elements < fuel + i)%nat -> (1 <= fuel)%nat ->
  from_thrift_helper fuel elements i <> Panic /\ forall j t, from_thrift_helper fuel elements i = Ok (j, t) -> (i < j)%nat.
Proof.
  induction fuel as [|fuel IH]; intros i Hfuel H1; [ lia | ]. cbn [from_thrift_helper].
  destruct (nth_error elements i) as [e|] eqn:Ee; [ | split; discriminate ].
  assert (Hi : (i < length elements)%nat) by (apply nth_error_Some; congruence).
  assert (Hprim : (let* t := primitive_from_thrift e in Ok (S i, t)) <> Panic /\
     forall j t, (let* t := primitive_from_thrift e in Ok (S i, t)) = Ok (j, t) -> (i < j)%nat).
  { split; [ apply bind_no_panic; [ apply primitive_from_thrift_no_panic | discriminate ] | ].
    intros j t H. apply bind_ok in H as (u & _ & H). apply Ok_inj in H. injection H as <- _. lia. }
  destruct (se_num_children e) as [n|]; [ | exact Hprim ]. destruct (n =? 0)%Z; [ exact Hprim | ]. clear Hprim.
  destruct (read_children_forward (from_thrift_helper fuel elements) (S i)) with (n := Z.to_nat n) (i := S i) as [Hp Hf];
    [ intros k Hk; apply IH; lia | lia | ].
  split.
  - apply bind_no_panic; [ exact Hp | ]. intros [k fields] _. apply bind_no_panic; [ apply group_from_thrift_no_panic | discriminate ].
  - intros j t H. apply bind_ok in H as ([k fields] & H2 & H). apply bind_ok in H as (u & _ & H). apply Ok_inj in H. injection H as <- _.
    apply Hf in H2. lia.
Qed.
Lemma read_roots_no_panic elements : forall fuel i, (length elements < fuel + i)%nat -> (1 <= fuel)%nat -> read_roots fuel elements i <> Panic.
Proof.
  induction fuel as [|fuel IH]; intros i Hfuel H1; [ lia | ]. cbn [read_roots].
  destruct (Nat.ltb_spec i (length elements)) as [Hi|Hi]; [ | discriminate ].
  destruct (helper_forward elements (S (length elements)) i) as [Hp Hf]; [ lia | lia | ].
  apply bind_no_panic; [ exact Hp | ]. intros [j t] Hj. apply Hf in Hj.
  apply bind_no_panic; [ apply IH; lia | discriminate ].
Qed.
Lemma type_from_thrift_no_panic elements : type_from_thrift elements <> Panic.
Proof.
  unfold type_from_thrift. apply bind_no_panic; [ apply read_roots_no_panic; lia | ]. intros [|t [|]] _; discriminate.
Qed.

(** * Leaves *)

Definition own_levels (i : field_info) : nat := if optional_or_repeated i then 1 else 0.
Definition leaf_from (base : parquet_type) (rep def : Z) (path : list (list N)) (x : list field_info * primitive_type) : column_descriptor :=
  mk_cdescr (mk_descr (snd x) (def + Z.of_nat (length (filter optional_or_repeated (fst x))))
     (rep + Z.of_nat (length (filter repeated (fst x))))) (path ++ map fi_name (fst x)) base.

Lemma sadd16 m a : (0 <= a < 32767)%Z -> sadd m 16 a 1 = Ok (a + 1)%Z.
Proof.
  intros H. unfold sadd, in_s. change (Z.of_N 16 - 1)%Z with 15%Z. change (2 ^ 15)%Z with 32768%Z.
  replace ((- (32768) <=? a + 1) && (a + 1 <? 32768))%Z with true by (symmetry; lia). reflexivity.
Qed.
Lemma build_tree_ok m base : forall t rep def leaves path,
  (0 <= rep)%Z -> (rep <= def)%Z -> (def + Z.of_nat (nesting t) < 32768)%Z ->
  build_tree m t base rep def leaves path =
    Ok (leaves ++ map (leaf_from base rep def path) (leaves_of t), path ++ [type_name t]).
Proof.
  induction t as [p|i l c fields IH] using parquet_ind; intros rep def leaves path H0 H1 H2.
  - cbn [build_tree get_field_info type_name nesting leaves_of map] in *.
    unfold optional_or_repeated in *. unfold leaf_from. cbn [fst snd filter].
    unfold optional_or_repeated, repeated.
    destruct (fi_repetition (pt_info p)); cbn [bind]; try rewrite (sadd16 m def) by lia; cbn [bind];
      try rewrite (sadd16 m rep) by lia; cbn [bind length map]; rewrite ?Z.add_0_r; reflexivity.
  - cbn [build_tree get_field_info nesting leaves_of] in *. unfold type_name. cbn [get_field_info].
    set (path' := path ++ [fi_name i]).
    set (def' := (def + Z.of_nat (own_levels i))%Z). set (rep' := (rep + (if repeated i then 1 else 0))%Z).
    assert (Hd : match fi_repetition i with Required => Ok def | _ => sadd m 16 def 1 end = Ok def').
    { unfold def', own_levels. unfold optional_or_repeated in *.
      destruct (fi_repetition i); [ rewrite Z.add_0_r; reflexivity | apply sadd16; lia | apply sadd16; lia ]. }
    assert (Hr : match fi_repetition i with Repeated => sadd m 16 rep 1 | _ => Ok rep end = Ok rep').
    { unfold rep', repeated. unfold optional_or_repeated in *.
      destruct (fi_repetition i); [ rewrite Z.add_0_r; reflexivity | rewrite Z.add_0_r; reflexivity | apply sadd16; lia ]. }
    rewrite Hd. cbn [bind]. rewrite Hr. cbn [bind].
    assert (Hb : (0 <= rep')%Z /\ (rep' <= def')%Z /\ (def' + Z.of_nat (list_max (map nesting fields)) < 32768)%Z).
    { unfold rep', def', own_levels, repeated. unfold optional_or_repeated in *. destruct (fi_repetition i); lia. }
    destruct Hb as (Hb0 & Hb1 & Hb2).
    assert (Hgo : forall fs lv, (forall f, In f fs -> In f fields) ->
      (fix go (fields : list parquet_type) (leaves : list column_descriptor) (path : list (list N)) :=
         match fields with
         | [] => Ok (leaves, path)
         | f :: r => let* (leaves, path) := build_tree m f base rep' def' leaves path in go r leaves (removelast path)
         end) fs lv path' = Ok (lv ++ map (leaf_from base rep' def' path') (flat_map leaves_of fs), path')).
    { induction fs as [|f fs IHfs]; intros lv Hsub.
      - cbn [flat_map map]. rewrite app_nil_r. reflexivity.
      - rewrite Forall_forall in IH. assert (Hf : In f fields) by (apply Hsub; left; reflexivity).
        rewrite (IH f Hf) by (first [ lia | pose proof (list_max_le (map nesting fields) (list_max (map nesting fields))) as [Hm _];
          specialize (Hm (le_n _)); rewrite Forall_forall in Hm; specialize (Hm (nesting f) (in_map _ _ _ Hf)); lia ]).
        cbn [bind]. rewrite removelast_last. rewrite IHfs by (intros g Hg; apply Hsub; right; exact Hg).
        cbn [flat_map]. rewrite map_app, app_assoc. reflexivity. }
    rewrite Hgo by auto. f_equal. f_equal. f_equal. rewrite map_map. apply map_ext. intros [q p]. cbn [fst snd].
    unfold leaf_from. cbn [fst snd filter map]. unfold def', rep', own_levels, path'.
    destruct (optional_or_repeated i), (repeated i); cbn [length]; rewrite <- app_assoc; cbn [app]; f_equal; f_equal; lia.
Qed.

Lemma build_all_ok m : forall fields leaves, Forall shallow fields ->
  build_all m fields leaves = Ok (leaves ++ columns_of fields).
Proof.
  induction fields as [|f fields IH]; intros leaves H; cbn [build_all].
  - unfold columns_of. cbn. rewrite app_nil_r. reflexivity.
  - pose proof (Forall_inv H) as Hf. unfold shallow in Hf. change (2 ^ 15)%Z with 32768%Z in Hf. rewrite build_tree_ok by lia. cbn [bind].
    rewrite IH by exact (Forall_inv_tail H). unfold columns_of. cbn [flat_map]. rewrite app_assoc. f_equal. f_equal. f_equal.
    apply map_ext. intros [q p]. reflexivity.
Qed.
Lemma sd_new_ok m name fields : Forall shallow fields ->
  sd_new m name fields = Ok (mk_sd name fields (columns_of fields)).
Proof. intros H. unfold sd_new. rewrite build_all_ok by exact H. reflexivity. Qed.

(** * Containment *)

Lemma bytes_eqb_ok a : forall b, bytes_eqb a b = true <-> a = b.
Proof.
  induction a as [|x a IH]; intros [|y b]; cbn [bytes_eqb]; split; intros H; try reflexivity; try discriminate H.
  - apply andb_true_iff in H as [H1 H2]. apply N.eqb_eq in H1. apply IH in H2. congruence.
  - injection H as -> ->. apply andb_true_iff. split; [ apply N.eqb_refl | apply IH; reflexivity ].
Qed.
Lemma field_info_eqb_ok a b : field_info_eqb a b = true <-> a = b.
Proof.
  destruct a as [n r i], b as [n' r' i']. unfold field_info_eqb. cbn [fi_name fi_repetition fi_id].
  rewrite !andb_true_iff, bytes_eqb_ok. unfold repetition_eqb, option_z_eqb. split.
  - intros [[-> Hr] Hi]. assert (r = r') as -> by (destruct r, r'; try reflexivity; vm_compute in Hr; discriminate Hr).
    destruct i as [i|], i' as [i'|]; try discriminate Hi; [ apply Z.eqb_eq in Hi as -> | ]; reflexivity.
  - intros H. injection H as -> -> ->. split; [ split; [ reflexivity | apply Z.eqb_refl ] | ]. destruct i'; [ apply Z.eqb_refl | reflexivity ].
Qed.
Lemma last_named_ok name fields t : NoDup (map type_name fields) ->
  (last_named name fields = Some t <-> In t fields /\ type_name t = name).
Proof.
  intros Hnd. unfold last_named. split.
  - intros H. apply find_some in H as [H1 H2]. apply in_rev in H1. apply bytes_eqb_ok in H2. auto.
  - intros [Hin Hname]. destruct (find (fun f => bytes_eqb (type_name f) name) (rev fields)) as [u|] eqn:E.
    + apply find_some in E as [H1 H2]. apply in_rev in H1. apply bytes_eqb_ok in H2. f_equal.
      clear - Hnd Hin H1 H2 Hname. induction fields as [|f fields IH]; [ destruct Hin | ]. cbn [map] in Hnd.
      apply NoDup_cons_iff in Hnd as [Hn Hnd]. destruct Hin as [->|Hin], H1 as [->|H1]; auto.
      * exfalso. apply Hn. rewrite Hname, <- H2. apply in_map. exact H1.
      * exfalso. apply Hn. rewrite H2, <- Hname. apply in_map. exact Hin.
    + exfalso. apply (find_none _ _ E) in Hin || (apply in_rev in Hin; apply (find_none _ _ E) in Hin).
      assert (bytes_eqb (type_name t) name = true) by (apply bytes_eqb_ok; exact Hname). congruence.
Qed.
Lemma check_contains_ok : forall sub self,
  (forall i l c fields, within self (Group i l c fields) -> NoDup (map type_name fields)) ->
  (check_contains sub self = true <-> contained sub self).
Proof.
  induction sub as [q|i l c others IH] using parquet_ind; intros [p|i' l' c' fields] Hnd; cbn [check_contains].
  - rewrite andb_true_iff, field_info_eqb_ok, physical_eqb_spec. split; [ intros [H1 H2]; constructor; assumption | ].
    intros H. inversion H; subst. auto.
  - split; [ discriminate | ]. intros H. inversion H.
  - split; [ discriminate | ]. intros H. inversion H.
  - rewrite forallb_forall. rewrite Forall_forall in IH.
    assert (Hf : forall f g, In f others -> In g fields -> (check_contains f g = true <-> contained f g)).
    { intros f g Hf Hg. apply IH; [ exact Hf | ]. intros a b d fs Hw. eapply Hnd. econstructor; eassumption. }
    pose proof (Hnd _ _ _ _ (within_self _)) as Hn. split.
    + intros H. constructor. intros f Hin. specialize (H f Hin). destruct (last_named (type_name f) fields) as [g|] eqn:E; [ | discriminate ].
      apply last_named_ok in E as [Hg Hname]; [ | exact Hn ]. exists g. split; [ exact Hg | ]. split; [ exact Hname | ]. apply Hf; assumption.
    + intros H. inversion H as [|? ? ? ? ? ? ? ? HH]; subst. intros f Hin. destruct (HH f Hin) as (g & Hg & Hname & Hc).
      rewrite (proj2 (last_named_ok _ _ g Hn) (conj Hg Hname)). apply Hf; assumption.
Qed.
Lemma contained_refl t : contained t t.
Proof.
  induction t as [p|i l c fields IH] using parquet_ind; constructor; try reflexivity.
  rewrite Forall_forall in IH. intros f Hf. exists f. auto.
Qed.
