(** Lemmas about the parser of textual schemas: tokens, and texts of the language. *)
From Coq Require Import String.
From Verif Require Import Base.Prelude Model.Types Model.Schema Model.Message Spec.SchemaSpec Spec.MessageSpec.
Open Scope N_scope.

Lemma token_eqb_spec a b : token_eqb a b = true <-> a = b.
Proof.
  unfold token_eqb. revert b. induction a as [|x a IH]; intros [|y b]; cbn [bytes_eqb]; try (split; [ discriminate | discriminate ]); [ tauto | ].
  rewrite andb_true_iff, N.eqb_eq, IH. split; [ intros [-> ->]; reflexivity | intros E; injection E; auto ].
Qed.
Lemma token_eqb_refl a : token_eqb a a = true.
Proof. apply token_eqb_spec. reflexivity. Qed.
Lemma token_eqb_neq a b : a <> b -> token_eqb a b = false.
Proof. intros H. destruct (token_eqb a b) eqn:E; [ apply token_eqb_spec in E; contradiction | reflexivity ]. Qed.

(** ** The tokenizer *)

Lemma is_delim_spec c : is_schema_delim c = true <-> delim c.
Proof.
  unfold is_schema_delim, delim. change (chars ";{}()=,") with [59; 123; 125; 40; 41; 61; 44]. cbn [In].
  rewrite !orb_true_iff, !N.eqb_eq. intuition auto.
Qed.
Lemma not_delim c : ~ delim c -> is_schema_delim c = false.
Proof. intros H. destruct (is_schema_delim c) eqn:E; [ apply is_delim_spec in E; contradiction | reflexivity ]. Qed.
Lemma delim_ascii c : delim c -> c < 128 /\ ~ (9 <= c <= 13 \/ c = 32).
Proof. unfold delim. change (chars ";{}()=,") with [59; 123; 125; 40; 41; 61; 44]. cbn [In]. lia. Qed.
Lemma delim_not_space U c : unicode_ok U -> delim c -> u_space U c = false.
Proof. intros (Hs & _) Hc. destruct (delim_ascii _ Hc) as [Hl Hn]. destruct (u_space U c) eqn:E; [ apply Hs in E; [ contradiction | exact Hl ] | reflexivity ]. Qed.

(** The tokens of [s] when [cur] has been collected before it. *)
Definition tokens_from (U : unicode) (s cur : list N) : list token := flat_map (fun w => split_token w []) (split_whitespace U s cur).
Lemma piece_split cur : flat_map (fun w => split_token w []) (piece cur) = split_token cur [].
Proof. destruct cur; [ reflexivity | ]. unfold piece. cbn [flat_map]. apply app_nil_r. Qed.
Lemma tokens_nil U cur : tokens_from U [] cur = split_token cur [].
Proof. unfold tokens_from. cbn [split_whitespace]. apply piece_split. Qed.
Lemma tokens_cons U c r cur : tokens_from U (c :: r) cur = if u_space U c then split_token cur [] ++ tokens_from U r [] else tokens_from U r (cur ++ [c]).
Proof. unfold tokens_from. cbn [split_whitespace]. destruct (u_space U c); [ | reflexivity ]. rewrite flat_map_app, piece_split. reflexivity. Qed.
Lemma split_token_delim d : is_schema_delim d = true -> forall u v cur, split_token (u ++ d :: v) cur = split_token u cur ++ [d] :: split_token v [].
Proof.
  intros Hd. induction u as [|c u IH]; intros v cur; cbn [app split_token]; [ rewrite Hd; reflexivity | ].
  destruct (is_schema_delim c); rewrite IH; [ rewrite <- app_assoc; reflexivity | reflexivity ].
Qed.
Lemma split_token_word : forall w cur, Forall (fun c => is_schema_delim c = false) w -> split_token w cur = piece (cur ++ w).
Proof.
  induction w as [|c w IH]; intros cur H; cbn [split_token]; [ rewrite app_nil_r; reflexivity | ].
  rewrite (Forall_inv H), IH by exact (Forall_inv_tail H). rewrite <- app_assoc. reflexivity.
Qed.
Lemma tokens_delim U d : is_schema_delim d = true -> forall s u v, tokens_from U s (u ++ d :: v) = split_token u [] ++ [d] :: tokens_from U s v.
Proof.
  intros Hd. induction s as [|c s IH]; intros u v.
  - rewrite !tokens_nil. apply split_token_delim. exact Hd.
  - rewrite !tokens_cons. destruct (u_space U c).
    + rewrite split_token_delim by exact Hd. rewrite <- app_assoc. reflexivity.
    + rewrite <- app_assoc. cbn [app]. apply IH.
Qed.
Lemma tokens_word U : forall w s cur, Forall (fun c => u_space U c = false) w -> tokens_from U (w ++ s) cur = tokens_from U s (cur ++ w).
Proof.
  induction w as [|c w IH]; intros s cur H; cbn [app]; [ rewrite app_nil_r; reflexivity | ].
  rewrite tokens_cons, (Forall_inv H), IH by exact (Forall_inv_tail H). rewrite <- app_assoc. reflexivity.
Qed.
Lemma tokens_blank U : forall b s, blank U b -> tokens_from U (b ++ s) [] = tokens_from U s [].
Proof. induction b as [|c b IH]; intros s H; [ reflexivity | ]. cbn [app]. rewrite tokens_cons, (Forall_inv H). cbn [split_token piece app]. apply IH. exact (Forall_inv_tail H). Qed.
Lemma word_split U w : word U w -> split_token w [] = [w].
Proof.
  intros [Hn H]. rewrite split_token_word; [ cbn [app]; destruct w; [ contradiction | reflexivity ] | ].
  eapply Forall_impl; [ | exact H ]. intros c [_ Hc]. apply not_delim. exact Hc.
Qed.

Lemma layout_tokens U T text : unicode_ok U -> layout U T text -> tokens_of U text = T.
Proof.
  intros HU H. change (tokens_of U text) with (tokens_from U text []). induction H as [b Hb|b c T text Hb Hc _ IH|b w T text Hb Hw _ IH Hnext].
  - rewrite <- (app_nil_r b), tokens_blank by exact Hb. reflexivity.
  - rewrite tokens_blank by exact Hb. rewrite tokens_cons, (delim_not_space _ _ HU Hc). cbn [app].
    pose proof (tokens_delim U c (proj2 (is_delim_spec c) Hc) text [] []) as E. cbn [app split_token piece] in E. rewrite E, IH. reflexivity.
  - rewrite tokens_blank by exact Hb. rewrite tokens_word by (eapply Forall_impl; [ | exact (proj2 Hw) ]; intros c [Hc _]; exact Hc). cbn [app].
    destruct text as [|c text].
    + rewrite tokens_nil in *. rewrite (word_split _ _ Hw), <- IH. reflexivity.
    + rewrite tokens_cons in *. destruct (u_space U c) eqn:Es.
      * rewrite (word_split _ _ Hw), <- IH. reflexivity.
      * destruct Hnext as [Hs|Hd]; [ congruence | ]. apply is_delim_spec in Hd. cbn [app] in IH.
        pose proof (tokens_delim U c Hd text [] []) as E. cbn [app split_token piece] in E. rewrite E in IH.
        rewrite (tokens_delim U c Hd text w []), (word_split _ _ Hw), <- IH. reflexivity.
Qed.

Lemma layout_space U c T text : u_space U c = true -> layout U T text -> layout U T (c :: text).
Proof.
  intros Hc H. destruct H as [b Hb|b d T text Hb Hd H|b w T text Hb Hw H Hn].
  - apply layout_end. constructor; assumption.
  - apply (layout_delim U (c :: b)); try assumption. constructor; assumption.
  - apply (layout_word U (c :: b)); try assumption. constructor; assumption.
Qed.
Lemma layout_char U c T text : unicode_ok U -> u_space U c = false -> ~ delim c -> layout U T text -> exists T', layout U T' (c :: text).
Proof.
  intros HU Hs Hd H.
  assert (Hone : match text with [] => True | c :: _ => u_space U c = true \/ delim c end -> exists T', layout U T' (c :: text)).
  { intros Hn. exists ([c] :: T). apply (layout_word U [] [c] T text); [ constructor | | exact H | exact Hn ]. split; [ discriminate | ]. constructor; [ auto | constructor ]. }
  destruct H as [b Hb|b d T text Hb Hd' H|b w T text Hb Hw H Hn].
  - apply Hone. destruct b; [ exact I | left; exact (Forall_inv Hb) ].
  - apply Hone. destruct b; cbn [app]; [ right; exact Hd' | left; exact (Forall_inv Hb) ].
  - destruct b as [|x b]; cbn [app] in *; [ | apply Hone; left; exact (Forall_inv Hb) ].
    exists ((c :: w) :: T). apply (layout_word U [] (c :: w) T text); [ constructor | | exact H | exact Hn ].
    destruct Hw as [_ Hw]. split; [ discriminate | constructor; auto ].
Qed.
Lemma layout_total U text : unicode_ok U -> layout U (tokens_of U text) text.
Proof.
  intros HU. assert (exists T, layout U T text) as [T H].
  { induction text as [|c text [T IH]]; [ exists []; apply layout_end; constructor | ].
    destruct (u_space U c) eqn:Es; [ exists T; apply layout_space; assumption | ].
    destruct (is_schema_delim c) eqn:Ed.
    - exists ([c] :: T). apply (layout_delim U [] c T text); [ constructor | apply is_delim_spec; exact Ed | exact IH ].
    - apply layout_char with T; [ exact HU | exact Es | intros Hd; apply is_delim_spec in Hd; congruence | exact IH ]. }
  rewrite (layout_tokens _ _ _ HU H). exact H.
Qed.

(** ** Words and numbers *)

Lemma spells_upper U k w : unicode_ok U -> Forall (fun c => c < 97) (chars k) -> spells k w -> u_upper U w = chars k.
Proof.
  intros (_ & Hu & _) Hk H. unfold spells in H. rewrite Hu.
  - induction H as [|a b l w Hab _ IH]; [ reflexivity | ]. cbn [map]. rewrite IH by exact (Forall_inv_tail Hk). f_equal.
    pose proof (Forall_inv Hk) as Ha. cbn beta in Ha. unfold ascii_upper. destruct Hab as [-> |[Hr ->]].
    + replace ((97 <=? a) && (a <=? 122)) with false by lia. reflexivity.
    + replace ((97 <=? a + 32) && (a + 32 <=? 122)) with true by lia. lia.
  - induction H as [|a b l w Hab _ IH]; constructor; [ pose proof (Forall_inv Hk) as Ha; cbn beta in Ha; destruct Hab as [-> |[Hr ->]]; lia | ].
    apply IH. exact (Forall_inv_tail Hk).
Qed.
Lemma spells_lower U k w : unicode_ok U -> Forall (fun c => c < 97) (chars k) -> spells k w -> u_lower U w = map ascii_lower (chars k).
Proof.
  intros (_ & _ & Hu) Hk H. unfold spells in H. rewrite Hu.
  - induction H as [|a b l w Hab _ IH]; [ reflexivity | ]. cbn [map]. rewrite IH by exact (Forall_inv_tail Hk). f_equal.
    pose proof (Forall_inv Hk) as Ha. cbn beta in Ha. unfold ascii_lower. destruct Hab as [-> |[Hr ->]]; [ reflexivity | ].
    replace ((65 <=? a) && (a <=? 90)) with true by lia. replace ((65 <=? a + 32) && (a + 32 <=? 90)) with false by lia. reflexivity.
  - induction H as [|a b l w Hab _ IH]; constructor; [ pose proof (Forall_inv Hk) as Ha; cbn beta in Ha; destruct Hab as [-> |[Hr ->]]; lia | ].
    apply IH. exact (Forall_inv_tail Hk).
Qed.

Lemma digits_from_value : forall digits acc, Forall (fun d => (0 <= d < 10)%Z) digits ->
  digits_from acc (map (fun d => Z.to_N d + 48) digits) = Some (fold_left (fun a d => (10 * a + d)%Z) digits acc).
Proof.
  induction digits as [|d l IH]; intros acc H; [ reflexivity | ]. cbn [map digits_from fold_left]. pose proof (Forall_inv H) as Hd. cbn beta in Hd.
  replace ((48 <=? Z.to_N d + 48) && (Z.to_N d + 48 <=? 57)) with true by lia. rewrite IH by exact (Forall_inv_tail H). do 2 f_equal. lia.
Qed.
Lemma number_parses w z : number w z -> i32_from_str w = Some z.
Proof.
  intros (sign & digits & Hn & Hd & -> & Hs & Hr). unfold i32_from_str.
  assert (Hm : map (fun d => Z.to_N d + 48) digits <> []) by (destruct digits; [ contradiction | discriminate ]).
  assert (Hin : in_s 32 z = true) by (unfold in_s; change (2 ^ 31)%Z with 2147483648%Z in Hr; change (2 ^ (Z.of_N 32 - 1))%Z with 2147483648%Z; lia).
  pose proof (digits_from_value digits 0%Z Hd) as Hv. fold (digits_value digits) in Hv.
  set (s := map (fun d => Z.to_N d + 48) digits) in *.
  assert (Hfirst : split_sign s = (1%Z, s)).
  { destruct digits as [|d l]; [ contradiction | ]. unfold s. cbn [map]. pose proof (Forall_inv Hd) as Hd0. cbn beta in Hd0.
    assert (E : Z.to_N d + 48 = 48 \/ Z.to_N d + 48 = 49 \/ Z.to_N d + 48 = 50 \/ Z.to_N d + 48 = 51 \/ Z.to_N d + 48 = 52 \/ Z.to_N d + 48 = 53 \/
      Z.to_N d + 48 = 54 \/ Z.to_N d + 48 = 55 \/ Z.to_N d + 48 = 56 \/ Z.to_N d + 48 = 57) by lia.
    destruct E as [E|[E|[E|[E|[E|[E|[E|[E|[E|E]]]]]]]]]; rewrite E; reflexivity. }
  destruct Hs as [[-> Hz]|[[-> Hz]|[-> Hz]]].
  - cbn [app]. rewrite Hfirst. destruct s; [ contradiction | ]. rewrite Hv, Z.mul_1_l, <- Hz, Hin. reflexivity.
  - change (split_sign (sym "+" ++ s)) with (1%Z, s). destruct s; [ contradiction | ]. rewrite Hv, Z.mul_1_l, <- Hz, Hin. reflexivity.
  - change (split_sign (sym "-" ++ s)) with ((-1)%Z, s). destruct s; [ contradiction | ]. rewrite Hv. replace (-1 * digits_value digits)%Z with z by lia. rewrite Hin. reflexivity.
Qed.

(** ** Texts of the language are parsed *)

Lemma next_here (T : list token) i t r : skipn i T = t :: r -> next T i = (Some t, S i) /\ skipn (S i) T = r.
Proof.
  intros H. assert (E : T = firstn i T ++ t :: r) by (rewrite <- H, firstn_skipn; reflexivity).
  assert (Hl : length (firstn i T) = i).
  { rewrite firstn_length. assert (length (skipn i T) = S (length r)) by (rewrite H; reflexivity). rewrite skipn_length in *. lia. }
  unfold next. rewrite E, nth_error_app2 by lia. rewrite Hl, Nat.sub_diag. cbn [nth_error]. split; [ reflexivity | ].
  rewrite skipn_app, Hl, skipn_all2 by lia. replace (S i - i)%nat with 1%nat by lia. reflexivity.
Qed.
Lemma skipn_past {A} (T : list A) i a b : skipn i T = a ++ b -> skipn (i + length a) T = b.
Proof.
  intros H. assert (E : forall n (l : list A), skipn (i + n) l = skipn n (skipn i l)).
  { clear. induction i as [|i IH]; intros n l; [ reflexivity | ]. destruct l; cbn [Nat.add skipn]; [ rewrite skipn_nil; reflexivity | apply IH ]. }
  rewrite E, H, skipn_app, skipn_all, Nat.sub_diag. reflexivity.
Qed.
Ltac here := match goal with H : skipn ?i ?T = _ |- context [next ?T ?i] => let E := fresh "E" in let K := fresh "K" in
  destruct (next_here _ _ _ _ H) as [E K]; rewrite E; clear E end.
Ltac tok := match goal with |- context [is_token (Some (sym ?a)) ?b] => let v := eval vm_compute in (is_token (Some (sym a)) b) in change (is_token (Some (sym a)) b) with v end;
  cbn [bind backtrack].
Ltac eqs := repeat match goal with |- context [token_eqb (chars ?a) (chars ?b)] =>
  let E := fresh "E" in let v := eval vm_compute in (token_eqb (chars a) (chars b)) in assert (E : token_eqb (chars a) (chars b) = v) by reflexivity; rewrite E; clear E; cbv iota end.
Ltac tables := repeat match goal with
  | |- context [is_logical_type (chars ?a)] => let E := fresh "E" in let v := eval vm_compute in (is_logical_type (chars a)) in assert (E : is_logical_type (chars a) = v) by reflexivity; rewrite E; clear E; cbv iota
  | |- context [is_converted_type (chars ?a)] => let E := fresh "E" in let v := eval vm_compute in (is_converted_type (chars a)) in assert (E : is_converted_type (chars a) = v) by reflexivity; rewrite E; clear E; cbv iota
  | |- context [converted_primitive_from_str (chars ?a)] =>
      let E := fresh "E" in let v := eval vm_compute in (converted_primitive_from_str (chars a)) in assert (E : converted_primitive_from_str (chars a) = v) by reflexivity; rewrite E; clear E; cbv iota
  end.
Ltac asrt := match goal with |- context [assert_token (Some (sym ?a)) ?a] => change (assert_token (Some (sym a)) a) with (Ok tt) end; cbn [bind].
Ltac upper U := match goal with HU : unicode_ok U, H : spells ?k ?w |- context [u_upper U ?w] =>
  rewrite (spells_upper U k w HU) by (first [ exact H | vm_compute; repeat constructor ]) end.
Ltac at_end := do 2 f_equal; cbn [length]; lia.

Lemma parse_id_ok T i id ts x r : id_tokens id ts -> skipn i T = ts ++ x :: r -> x <> sym "=" -> parse_id T i = Ok (id, (i + length ts)%nat).
Proof.
  intros H Hs Hx. unfold parse_id. destruct H as [|z w Hw]; cbn [app] in Hs.
  - here. unfold is_token. rewrite (token_eqb_neq x (chars "=") Hx). cbn [backtrack bind]. at_end.
  - here. tok. here. rewrite (number_parses _ _ Hw). at_end.
Qed.

Lemma parse_i32_ok w z : number w z -> parse_i32 (Some w) = Ok z.
Proof. intros H. unfold parse_i32. rewrite (number_parses _ _ H). reflexivity. Qed.
Lemma try_usize_N n : try_usize (Z.of_N n) = Ok n.
Proof. unfold try_usize. replace (Z.of_N n <? 0)%Z with false by lia. rewrite N2Z.id. reflexivity. Qed.

Lemma parse_timeunit_ok U : unicode_ok U -> forall u w, spells (unit_word u) w -> parse_timeunit U (Some w) = Ok u.
Proof. intros HU u w Hw. unfold parse_timeunit. destruct u; cbn [unit_word] in Hw; upper U; reflexivity. Qed.
Lemma parse_bool_ok U : unicode_ok U -> forall b w, spells (bool_word b) w -> parse_bool U (Some w) = Ok b.
Proof.
  intros HU b w Hw. unfold parse_bool.
  destruct b; cbn [bool_word] in Hw; [ rewrite (spells_lower U "TRUE" w HU) | rewrite (spells_lower U "FALSE" w HU) ];
    first [ reflexivity | exact Hw | vm_compute; repeat constructor ].
Qed.
Lemma parse_unit_ok U T i u b ts x r : unicode_ok U -> unit_tokens u b ts -> skipn i T = ts ++ x :: r -> x = sym ")" -> parse_unit U T i = Ok (u, b, (i + length ts)%nat).
Proof.
  intros HU H Hs ->. unfold parse_unit, parse_utc.
  pose proof (parse_timeunit_ok U HU) as Hunit. pose proof (parse_bool_ok U HU) as Hbool.
  destruct H as [|u w Hw|u b w v Hw Hv]; cbn [app] in Hs.
  - here. tok. at_end.
  - here. tok. here. rewrite (Hunit _ _ Hw). cbn [bind]. here. tok. here. asrt. at_end.
  - here. tok. here. rewrite (Hunit _ _ Hw). cbn [bind]. here. tok. here. rewrite (Hbool _ _ Hv). cbn [bind]. here. asrt. at_end.
Qed.

Lemma parse_logical_ok U T i l w ts r : unicode_ok U -> logical_tokens l (w :: ts) -> skipn i T = ts ++ sym ")" :: r ->
  is_logical_type (u_upper U w) = true /\ parse_logical_type U T (u_upper U w) i = Ok (l, (i + length ts)%nat).
Proof.
  intros HU H Hs. pose proof (parse_bool_ok U HU) as Hbool.
  inversion H as [l' k w' Hk Hw|p s w' v u Hw Hv Hu|p w' v Hw Hv|u b w' ts' Hw Ht|u b w' ts' Hw Ht|t w' v u Hw Hv Hu]; subst; cbn [app] in Hs.
  - destruct l; try discriminate Hk; cbn [plain_logical] in Hk; injection Hk as <-; upper U; (split; [ reflexivity | ]); unfold parse_logical_type; eqs; at_end.
  - upper U. split; [ reflexivity | ]. unfold parse_logical_type. eqs. unfold parse_decimal. here. tok. here. rewrite (parse_i32_ok _ _ Hv). cbn [bind].
    unfold parse_scale. here. tok. here. rewrite (parse_i32_ok _ _ Hu). cbn [bind]. here. asrt. rewrite !try_usize_N. cbn [bind]. at_end.
  - upper U. split; [ reflexivity | ]. unfold parse_logical_type. eqs. unfold parse_decimal. here. tok. here. rewrite (parse_i32_ok _ _ Hv). cbn [bind].
    unfold parse_scale. here. tok. here. asrt. rewrite !try_usize_N. change (try_usize 0) with (@Ok N 0). cbn [bind]. at_end.
  - upper U. split; [ reflexivity | ]. unfold parse_logical_type. eqs. rewrite (parse_unit_ok U T i u b ts _ r HU Ht Hs eq_refl). reflexivity.
  - upper U. split; [ reflexivity | ]. unfold parse_logical_type. eqs. rewrite (parse_unit_ok U T i u b ts _ r HU Ht Hs eq_refl). reflexivity.
  - upper U. split; [ reflexivity | ]. unfold parse_logical_type. eqs. here. tok. here. rewrite (parse_i32_ok _ _ Hv). cbn [bind].
    here. tok. here. rewrite (Hbool _ _ Hu). cbn [bind]. here. asrt. destruct t; at_end.
Qed.
Lemma logical_tokens_cons l ts : logical_tokens l ts -> exists w ts', ts = w :: ts'.
Proof. destruct 1; eauto. Qed.

Lemma parse_annotation_ok U T i c l ts x r : unicode_ok U -> annotation_tokens c l ts -> skipn i T = ts ++ x :: r -> x <> sym "(" ->
  parse_annotation U T i = Ok (c, l, (i + length ts)%nat).
Proof.
  intros HU H Hs Hx. unfold parse_annotation. destruct H as [|c k w Hk Hw|l ts Hl]; cbn [app] in Hs.
  - here. unfold is_token. rewrite (token_eqb_neq x (chars "(") Hx). cbn [backtrack bind]. at_end.
  - here. tok. here. destruct c; try discriminate Hk; cbn [converted_word] in Hk; injection Hk as <-; upper U;
      tables; cbn [bind]; here; asrt; at_end.
  - destruct (logical_tokens_cons _ _ Hl) as (w & ts' & ->). cbn [app] in Hs. here. tok. here.
    rewrite <- app_assoc in *. cbn [app] in *.
    destruct (parse_logical_ok U T (S (S i)) l w ts' (x :: r) HU Hl K0) as [H1 H2].
    rewrite H1. cbn [bind]. rewrite H2. cbn [bind]. apply skipn_past in K0. here. asrt. do 2 f_equal. cbn [length app]. rewrite app_length. cbn [length]. lia.
Qed.

Lemma repetition_ok U r w : unicode_ok U -> spells (repetition_word r) w -> repetition_from_str (u_upper U w) = Ok r /\ w <> sym "}".
Proof.
  intros HU H. split.
  - destruct r; cbn [repetition_word] in H; upper U; reflexivity.
  - intros ->. destruct r; unfold spells in H; inversion H as [|? ? ? ? [Hb|[_ Hb]]]; subst; vm_compute in Hb; discriminate Hb.
Qed.
Lemma type_tokens_ok U T i t w ts r : unicode_ok U -> type_tokens t (w :: ts) -> skipn i T = ts ++ r ->
  token_eqb (u_upper U w) (chars "GROUP") = false /\ exists physical length, type_from_str (u_upper U w) = Ok physical /\ physical_of_thrift physical length = Ok t /\
    parse_length T physical i = Ok (length, (i + List.length ts)%nat).
Proof.
  intros HU H Hs. inversion H as [t' k w' Hk Hw|n w' l Hw Hl]; subst.
  - destruct t; cbn [type_words In] in Hk; repeat (destruct Hk as [Hk|Hk]; [ subst k; upper U; split; [ reflexivity | ]; match goal with |- exists p l, ?x = _ /\ _ =>
      let v := eval vm_compute in x in match v with Ok ?n => exists n, None end end; refine (conj eq_refl (conj eq_refl _)); unfold parse_length; vm_compute (_ =? 7)%Z; cbv iota; at_end | ]); destruct Hk.
  - cbn [app] in Hs. upper U. split; [ reflexivity | ]. exists 7%Z, (Some (Z.of_N n)). refine (conj eq_refl (conj _ _)).
    + cbn [physical_of_thrift]. rewrite try_usize_N. reflexivity.
    + unfold parse_length. change (7 =? 7)%Z with true. cbv iota. here. asrt. here. rewrite (parse_i32_ok _ _ Hl). cbn [bind]. here. asrt. at_end.
Qed.
Lemma type_tokens_cons t ts : type_tokens t ts -> exists w ts', ts = w :: ts'.
Proof. destruct 1; eauto. Qed.
Lemma annotation_first c l ts x : annotation_tokens c l ts -> x <> sym "=" -> exists y r, ts ++ [x] = y :: r /\ (ts = [] -> y = x) /\ y <> sym "=".
Proof. destruct 1; intros Hx; cbn [app]; do 2 eexists; (split; [ reflexivity | ]); split; auto; discriminate. Qed.
Lemma id_first id ts x r : id_tokens id ts -> x <> sym "(" -> exists y q, ts ++ x :: r = y :: q /\ y <> sym "(".
Proof. destruct 1; intros Hx; cbn [app]; do 2 eexists; (split; [ reflexivity | ]); auto; discriminate. Qed.

Lemma group_tokens_ok U T i c ts x r : unicode_ok U -> group_tokens c ts -> skipn i T = ts ++ x :: r -> x <> sym "(" ->
  parse_group_converted U T i = Ok (c, (i + length ts)%nat).
Proof.
  intros HU H Hs Hx. unfold parse_group_converted. destruct H as [|c k w Hk Hw]; cbn [app] in Hs.
  - here. unfold is_token. rewrite (token_eqb_neq x (chars "(") Hx). cbn [backtrack bind]. at_end.
  - here. tok. here. assert (E : converted_group_from_str (u_upper U w) = Ok c) by (destruct c; subst k; upper U; reflexivity). rewrite E. cbn [bind].
    here. asrt. at_end.
Qed.

Ltac lens := repeat (progress cbn [length app] || rewrite app_length); lia.

Scheme field_tokens_ind2 := Induction for field_tokens Sort Prop
  with fields_tokens_ind2 := Induction for fields_tokens Sort Prop.
Combined Scheme tokens_ind from field_tokens_ind2, fields_tokens_ind2.
Lemma field_tokens_cons U t ts : field_tokens U t ts -> exists r w ts', ts = w :: ts' /\ spells (repetition_word r) w.
Proof. destruct 1; eauto 6. Qed.

Lemma fields_parse U T : unicode_ok U ->
  (forall t ts, field_tokens U t ts -> forall f i r, skipn i T = ts ++ r -> (length ts <= f)%nat -> add_type f U T i = Ok (t, (i + length ts)%nat)) /\
  (forall l ts, fields_tokens U l ts -> forall f n i r, skipn i T = ts ++ sym "}" :: r -> (length ts <= f)%nat -> (length l < n)%nat ->
     child_types n (add_type f U T) T i = Ok (l, (i + length ts + 1)%nat)).
Proof.
  intros HU. apply (tokens_ind U (fun t ts _ => forall f i r, skipn i T = ts ++ r -> (length ts <= f)%nat -> add_type f U T i = Ok (t, (i + length ts)%nat))
    (fun l ts _ => forall f n i r, skipn i T = ts ++ sym "}" :: r -> (length ts <= f)%nat -> (length l < n)%nat ->
     child_types n (add_type f U T) T i = Ok (l, (i + length ts + 1)%nat))).
  - intros name r id l c t w ts1 ts2 ts3 Hw H1 Hn H2 H3 Hacc f i rest Hs Hf. destruct f as [|f]; [ cbn [length] in Hf; lia | ]. cbn [add_type].
    rewrite <- !app_comm_cons in Hs. here. destruct (repetition_ok U r w HU Hw) as [-> _]. cbn [bind].
    destruct (type_tokens_cons _ _ H1) as (v & ts1' & ->). rewrite <- !app_assoc in *. cbn [app] in *. rewrite <- !app_assoc in *. here.
    destruct (type_tokens_ok U T (S (S i)) t v ts1' _ HU H1 K0) as (-> & physical & len & -> & Hp & Hlen). cbn [bind]. unfold add_primitive_type. rewrite Hlen. cbn [bind].
    apply skipn_past in K0. cbn [app] in K0. here. repeat rewrite <- app_assoc in K1. cbn [app] in K1.
    destruct (id_first id ts3 (sym ";") rest H3 ltac:(discriminate)) as (y & q & Ey & Hy). rewrite Ey in K1.
    rewrite (parse_annotation_ok U T _ c l ts2 y q HU H2 K1 Hy). cbn [bind]. apply skipn_past in K1. rewrite <- Ey in K1.
    rewrite (parse_id_ok T _ id ts3 (sym ";") rest H3 K1 ltac:(discriminate)). cbn [bind]. apply skipn_past in K1. here. asrt. rewrite Hp. cbn [bind].
    unfold accepted in Hacc. cbn [pt_info fi_name fi_repetition fi_id pt_physical pt_converted pt_logical] in Hacc. rewrite Hacc. cbn [bind].
    do 2 f_equal. lens.
  - intros name r id c fields w v ts1 ts2 ts3 Hw Hv Hn H1 H2 H3 IH f i rest Hs Hf. destruct f as [|f]; [ cbn [length] in Hf; lia | ]. cbn [add_type].
    rewrite <- !app_comm_cons in Hs. here. destruct (repetition_ok U r w HU Hw) as [-> _]. cbn [bind]. here. upper U. eqs. unfold add_group_type. here.
    rewrite <- !app_assoc in K1. cbn [app] in K1. rewrite <- !app_assoc in K1. cbn [app] in K1.
    destruct (id_first id ts2 (sym "{") (ts3 ++ sym "}" :: rest) H2 ltac:(discriminate)) as (y & q & Ey & Hy). rewrite Ey in K1.
    rewrite (group_tokens_ok U T _ c ts1 y q HU H1 K1 Hy). cbn [bind]. apply skipn_past in K1. rewrite <- Ey in K1.
    rewrite (parse_id_ok T _ id ts2 (sym "{") _ H2 K1 ltac:(discriminate)). cbn [bind]. apply skipn_past in K1. unfold parse_child_types. here. asrt.
    assert (Hlen : (length fields <= length ts3)%nat).
    { clear - H3. induction H3 as [|t l ts1 ts2 Ht _ IH]; [ apply Nat.le_refl | ]. destruct (field_tokens_cons _ _ _ Ht) as (_ & w & ts' & -> & _). cbn [length app]. rewrite app_length. lia. }
    assert (HT : (length ts3 <= length T)%nat).
    { apply (f_equal (@length token)) in K2. rewrite skipn_length, app_length in K2. lia. }
    rewrite (IH f (S (length T)) _ rest K2); [ | revert Hf; lens | lia ]. cbn [bind].
    do 2 f_equal. lens.
  - intros f n i r Hs _ Hn. destruct n as [|n]; [ lia | ]. cbn [app] in Hs. cbn [child_types]. here. change (token_eqb (sym "}") (chars "}")) with true. cbv iota. at_end.
  - intros t l ts1 ts2 Ht IH1 _ IH2 f n i r Hs Hf Hn. destruct n as [|n]; [ lia | ]. rewrite <- app_assoc in Hs. rewrite app_length in Hf. cbn [length] in Hn.
    destruct (field_tokens_cons _ _ _ Ht) as (rep & w & ts1' & -> & Hw). cbn [child_types]. assert (Hs' := Hs). cbn [app] in Hs'. here.
    rewrite (token_eqb_neq w (chars "}")) by apply (repetition_ok U rep w HU Hw). cbn [backtrack bind].
    rewrite (IH1 f i _ Hs) by lia. cbn [bind]. rewrite (IH2 f n _ r (skipn_past _ _ _ _ Hs)) by lia. cbn [bind]. do 2 f_equal. rewrite app_length. lia.
Qed.

Lemma message_parse U t T extra : unicode_ok U -> message_tokens U t T -> parse_message_type U (T ++ extra) = Ok (t, length T).
Proof.
  intros HU (name & fields & ts & Hn & Hf & -> & ->). set (T := sym "message" :: name :: sym "{" :: ts ++ [sym "}"]).
  assert (Hs : skipn 0 (T ++ extra) = sym "message" :: name :: sym "{" :: ts ++ sym "}" :: extra) by (unfold T; cbn [skipn app]; rewrite <- app_assoc; reflexivity).
  assert (HT : length (T ++ extra) = (4 + length ts + length extra)%nat) by (unfold T; cbn [length app]; rewrite !app_length; cbn [length]; lia).
  assert (HT' : length T = (4 + length ts)%nat) by (unfold T; cbn [length app]; rewrite !app_length; cbn [length]; lia).
  unfold parse_message_type. set (TT := T ++ extra) in *. clearbody TT. here. tok. here. unfold parse_child_types. here. asrt.
  assert (Hlen : (length fields <= length ts)%nat).
  { clear - Hf. induction Hf as [|t l ts1 ts2 Ht _ IH]; [ apply Nat.le_refl | ]. destruct (field_tokens_cons _ _ _ Ht) as (_ & w & ts' & -> & _). cbn [length app]. rewrite app_length. lia. }
  rewrite (proj2 (fields_parse U TT HU) fields ts Hf (length TT) (S (length TT)) 3%nat extra K1) by lia. cbn [bind]. unfold new_root. do 2 f_equal. rewrite HT'. lia.
Qed.
