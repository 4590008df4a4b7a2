(** Lemmas about textual schemas: the schemas that have a text. *)
From Coq Require Import String.
From Verif Require Import Base.Prelude Model.Types Model.Schema Model.Message Spec.SchemaSpec Spec.MessageSpec Proofs.SchemaProofs Proofs.MessageProofs.
Open Scope N_scope.

Lemma digits_exist : forall n v, (0 <= v < Z.of_nat n)%Z -> exists digits, digits <> [] /\ Forall (fun d => (0 <= d < 10)%Z) digits /\ digits_value digits = v.
Proof.
  induction n as [|n IH]; intros v Hv; [ lia | ]. destruct (Z.lt_ge_cases v 10) as [Hs|Hs].
  - exists [v]. split; [ discriminate | ]. split; [ constructor; [ lia | constructor ] | unfold digits_value; cbn [fold_left]; lia ].
  - pose proof (Z.div_mod v 10 ltac:(lia)) as E. pose proof (Z.mod_pos_bound v 10 ltac:(lia)) as Hm. destruct (IH (v / 10)%Z) as (l & Hl & Hd & Hval); [ lia | ].
    exists (l ++ [(v mod 10)%Z]). split; [ destruct l; discriminate | ]. split; [ apply Forall_app; split; [ exact Hd | constructor; [ exact Hm | constructor ] ] | ].
    unfold digits_value in *. rewrite fold_left_app, Hval. cbn [fold_left]. lia.
Qed.
Lemma number_exists z : (- 2 ^ 31 <= z < 2 ^ 31)%Z -> exists w, number w z.
Proof.
  intros Hz. destruct (digits_exist (S (Z.to_nat (Z.abs z))) (Z.abs z)) as (l & Hl & Hd & Hv); [ lia | ]. destruct (Z.lt_ge_cases z 0) as [Hn|Hn].
  - exists (sym "-" ++ map (fun d => Z.to_N d + 48) l), (sym "-"), l. repeat (split; [ assumption || reflexivity | ]). split; [ | exact Hz ]. right. right. split; [ reflexivity | lia ].
  - exists ([] ++ map (fun d => Z.to_N d + 48) l), [], l. repeat (split; [ assumption || reflexivity | ]). split; [ | exact Hz ]. left. split; [ reflexivity | lia ].
Qed.
Lemma size_exists n : i32_size n -> exists w, number w (Z.of_N n).
Proof. intros H. apply number_exists. unfold i32_size in H. lia. Qed.
Lemma spells_self k : spells k (chars k).
Proof. unfold spells. induction (chars k); constructor; auto. Qed.

Lemma type_exists t : physical_sized t -> exists ts, type_tokens t ts.
Proof.
  intros H. destruct t; try (eexists; eapply type_plain; [ left; reflexivity | apply spells_self ]).
  destruct (size_exists _ H) as (w & Hw). eexists. apply type_fixed; [ apply spells_self | exact Hw ].
Qed.
Lemma annotation_exists c l : c = None \/ l = None -> on_some (fun c => converted_word c <> None) c -> on_some logical_sized l -> exists ts, annotation_tokens c l ts.
Proof.
  intros H Hc Hl. destruct c as [c|].
  - destruct H as [H| ->]; [ discriminate | ]. cbn [on_some] in Hc. destruct (converted_word c) as [k|] eqn:E; [ | contradiction ]. eexists. eapply annotation_converted; [ exact E | apply spells_self ].
  - destruct l as [l|]; [ | exists []; apply annotation_none ]. assert (exists ts, logical_tokens l ts) as (ts & Hts); [ | eexists; apply annotation_logical; exact Hts ].
    destruct l; try (eexists; eapply logical_plain; [ reflexivity | apply spells_self ]).
    + destruct Hl as [H1 H2]. destruct (size_exists _ H1) as (v & Hv), (size_exists _ H2) as (u & Hu). eexists. apply logical_decimal; [ apply spells_self | exact Hv | exact Hu ].
    + eexists. apply logical_time; [ apply spells_self | apply unit_both; apply spells_self ].
    + eexists. apply logical_timestamp; [ apply spells_self | apply unit_both; apply spells_self ].
    + match goal with |- context [LInteger ?x] => rename x into i end. destruct (number_exists (Z.of_N (fst (integer_parts i)))) as (v & Hv); [ destruct i; cbn; lia | ]. eexists. apply logical_integer; [ apply spells_self | exact Hv | apply spells_self ].
Qed.
Lemma id_exists id : on_some (fun z => (- 2 ^ 31 <= z < 2 ^ 31)%Z) id -> exists ts, id_tokens id ts.
Proof. destruct id as [z|]; cbn [on_some]; intros H; [ destruct (number_exists _ H) as (w & Hw); eexists; apply id_some; exact Hw | exists []; apply id_none ]. Qed.

Lemma fields_exist U fields : (forall f, In f fields -> exists ts, field_tokens U f ts) -> exists ts, fields_tokens U fields ts.
Proof.
  induction fields as [|f l IH]; intros H; [ exists []; apply fields_nil | ]. destruct (H f (or_introl eq_refl)) as (ts1 & H1). destruct IH as (ts2 & H2); [ intros g Hg; apply H; right; exact Hg | ].
  exists (ts1 ++ ts2). apply fields_cons; assumption.
Qed.
Lemma field_exists U : forall t, (forall u, within t u -> expressible U u) -> exists ts, field_tokens U t ts.
Proof.
  fix IH 1. intros t H. destruct t as [p|i l c fields].
  - destruct (H _ (within_self _)) as (Hn & Hid & Hacc & (Hs & _ & Hl) & Hone & Hc). destruct p as [[name r id] l c t]. cbn in *.
    destruct (type_exists t Hs) as (ts1 & H1), (annotation_exists c l Hone Hc Hl) as (ts2 & H2), (id_exists _ Hid) as (ts3 & H3).
    eexists. apply field_primitive; [ apply spells_self | exact H1 | exact Hn | exact H2 | exact H3 | exact Hacc ].
  - destruct (H _ (within_self _)) as (Hn & Hid & ->). destruct i as [name r id]. cbn in Hn, Hid.
    assert (Hg : exists ts, group_tokens c ts) by (destruct c as [c|]; eexists; [ eapply group_some; [ reflexivity | apply spells_self ] | apply group_none ]). destruct Hg as (ts1 & H1).
    destruct (id_exists _ Hid) as (ts2 & H2).
    assert (Hf : forall f, In f fields -> exists ts, field_tokens U f ts).
    { assert (Hall : forall f, In f fields -> forall u, within f u -> expressible U u) by (intros f Hf u Hu; apply H; eapply within_field; eassumption).
      clear H. induction fields as [|f fields IHl]; [ intros f [] | ]. intros g [<-|Hg]; [ apply (IH f); intros u Hu; exact (Hall f (or_introl eq_refl) u Hu) | ].
      apply IHl; [ intros g' Hg' u Hu; exact (Hall g' (or_intror Hg') u Hu) | exact Hg ]. }
    destruct (fields_exist U fields Hf) as (ts3 & H3). eexists. apply field_group; [ apply spells_self | apply spells_self | exact Hn | exact H1 | exact H2 | exact H3 ].
Qed.

(** ** Tokens are words and delimiters *)

Definition lexeme (U : unicode) (t : token) : Prop := word U t \/ exists c, delim c /\ t = [c].
Definition plain_char (c : N) : Prop := 64 < c < 91 \/ 96 < c < 123 \/ 47 < c < 58 \/ c = 95 \/ c = 43 \/ c = 45.
Lemma plain_word U w : unicode_ok U -> w <> [] -> Forall plain_char w -> word U w.
Proof.
  intros (Hs & _) Hn H. split; [ exact Hn | ]. eapply Forall_impl; [ | exact H ]. intros c Hc. unfold plain_char in Hc. split.
  - destruct (u_space U c) eqn:E; [ | reflexivity ]. apply Hs in E; lia.
  - unfold delim. change (chars ";{}()=,") with [59; 123; 125; 40; 41; 61; 44]. cbn [In]. lia.
Qed.
Lemma spells_lexeme U k w : unicode_ok U -> chars k <> [] -> Forall (fun a => 64 < a < 91 \/ 47 < a < 58 \/ a = 95) (chars k) -> spells k w -> lexeme U w.
Proof.
  intros HU Hn Hk H. left. unfold spells in H. apply plain_word; [ exact HU | destruct H; [ contradiction | discriminate ] | ]. clear Hn.
  induction H as [|a b l w Hab _ IH]; constructor; [ | apply IH; exact (Forall_inv_tail Hk) ]. pose proof (Forall_inv Hk) as Ha. cbn beta in Ha. unfold plain_char. lia.
Qed.
Lemma number_lexeme U w z : unicode_ok U -> number w z -> lexeme U w.
Proof.
  intros HU (sign & digits & Hn & Hd & -> & Hs & _). left. apply plain_word; [ exact HU | destruct sign, digits; try contradiction; discriminate | ]. apply Forall_app. split.
  - destruct Hs as [[-> _]|[[-> _]|[-> _]]]; repeat constructor; unfold plain_char; cbn; lia.
  - clear - Hd. induction Hd as [|d l Hd _ IH]; constructor; [ unfold plain_char; lia | exact IH ].
Qed.
Ltac letters := match goal with |- Forall ?p (chars ?k) => let l := eval vm_compute in (chars k) in change (Forall p l) end; repeat (constructor; [ lia | ]); constructor.
Ltac spelled H := refine (spells_lexeme _ _ _ _ _ _ H); [ assumption | discriminate | letters ].
Ltac lex := first [ match goal with H : spells _ _ |- _ => spelled H end | eapply number_lexeme; eassumption | left; assumption
  | right; eexists; (split; [ | reflexivity ]); vm_compute; tauto ].
Ltac lexs := repeat (apply Forall_cons; [ | ]); try apply Forall_nil; try lex.
Lemma fields_lexemes U : unicode_ok U -> (forall t ts, field_tokens U t ts -> Forall (lexeme U) ts) /\ (forall l ts, fields_tokens U l ts -> Forall (lexeme U) ts).
Proof.
  intros HU.
  assert (Htype : forall t ts, type_tokens t ts -> Forall (lexeme U) ts).
  { intros t ts [t' k w Hk Hw|n w l Hw Hl]; lexs. destruct t'; cbn [type_words In] in Hk; repeat (destruct Hk as [<-|Hk]); try destruct Hk; spelled Hw. }
  assert (Hunit : forall u b ts, unit_tokens u b ts -> Forall (lexeme U) ts).
  { intros u b ts' [|u' w Hw|u' b' w v Hw Hv]; lexs; try (destruct u'; spelled Hw). destruct b'; spelled Hv. }
  assert (Hann : forall c l ts, annotation_tokens c l ts -> Forall (lexeme U) ts).
  { intros c l ts [|c' k w Hk Hw|l' ts' Hl]; [ apply Forall_nil | lexs; destruct c'; try discriminate Hk; injection Hk as <-; spelled Hw | ].
    apply Forall_cons; [ lex | ]. apply Forall_app. split; [ | lexs ].
    destruct Hl as [l'' k w Hk Hw|p s w v u Hw Hv Hu|p w v Hw Hv|u b w ts' Hw Ht|u b w ts' Hw Ht|t w v u Hw Hv Hu];
      try (apply Forall_cons; [ lex | exact (Hunit _ _ _ Ht) ]); lexs.
    - destruct l''; try discriminate Hk; injection Hk as <-; spelled Hw.
    - destruct (snd (integer_parts t)); spelled Hu. }
  assert (Hgroup : forall c ts, group_tokens c ts -> Forall (lexeme U) ts) by (intros c ts [|c' k w Hk Hw]; lexs; subst k; destruct c'; spelled Hw).
  assert (Hid : forall id ts, id_tokens id ts -> Forall (lexeme U) ts) by (intros id ts [|z w Hw]; lexs).
  assert (Hrep : forall r w, spells (repetition_word r) w -> lexeme U w) by (intros r w Hw; destruct r; spelled Hw).
  apply (tokens_ind U (fun t ts _ => Forall (lexeme U) ts) (fun l ts _ => Forall (lexeme U) ts)).
  - intros. apply Forall_cons; [ eapply Hrep; eassumption | ]. apply Forall_app. split; [ eapply Htype; eassumption | ]. apply Forall_cons; [ left; assumption | ].
    apply Forall_app. split; [ eapply Hann; eassumption | ]. apply Forall_app. split; [ eapply Hid; eassumption | lexs ].
  - intros name r id c fields w v ts1 ts2 ts3 Hw Hv Hn H1 H2 H3 IH. apply Forall_cons; [ eapply Hrep; eassumption | ]. apply Forall_cons; [ spelled Hv | ]. apply Forall_cons; [ left; assumption | ].
    apply Forall_app. split; [ eapply Hgroup; eassumption | ]. apply Forall_app. split; [ eapply Hid; eassumption | ]. apply Forall_cons; [ lex | ]. apply Forall_app. split; [ exact IH | lexs ].
  - apply Forall_nil.
  - intros. apply Forall_app. auto.
Qed.
Lemma layout_exists U T : unicode_ok U -> Forall (lexeme U) T -> exists text, layout U T text /\ match text with [] => True | c :: _ => u_space U c = true end.
Proof.
  intros HU. assert (Hsp : u_space U 32 = true) by (apply (proj1 HU); lia).
  assert (Hb : blank U [32]) by (constructor; [ exact Hsp | constructor ]).
  induction 1 as [|t T Ht _ (text & IH & Hsep)]; [ exists []; split; [ apply layout_end; constructor | exact I ] | ].
  destruct Ht as [Ht|(c & Hc & ->)].
  - exists ([32] ++ t ++ text). split; [ | exact Hsp ]. apply layout_word; try assumption. destruct text; [ exact I | left; exact Hsep ].
  - exists ([32] ++ c :: text). split; [ | exact Hsp ]. apply layout_delim; assumption.
Qed.

(** ** Only expressible schemas have texts *)

Lemma number_size w n : number w (Z.of_N n) -> i32_size n.
Proof. intros (sign & digits & _ & _ & _ & _ & Hr). unfold i32_size. lia. Qed.
Lemma fields_expressible U : (forall t ts, field_tokens U t ts -> forall u, within t u -> expressible U u) /\
  (forall l ts, fields_tokens U l ts -> forall f u, In f l -> within f u -> expressible U u).
Proof.
  assert (Hid : forall id ts, id_tokens id ts -> on_some (fun z => (- 2 ^ 31 <= z < 2 ^ 31)%Z) id).
  { intros id ts [|z w (sign & digits & _ & _ & _ & _ & Hr)]; [ exact I | exact Hr ]. }
  apply (tokens_ind U (fun t ts _ => forall u, within t u -> expressible U u) (fun l ts _ => forall f u, In f l -> within f u -> expressible U u)).
  - intros name r id l c t w ts1 ts2 ts3 Hw H1 Hn H2 H3 Hacc u Hu. inversion Hu; subst. split; [ exact Hn | ]. split; [ exact (Hid _ _ H3) | ].
    split; [ exact Hacc | ]. cbn. split; [ | split ].
    + unfold sized. cbn. split; [ destruct H1 as [t k w1 Hk _|n w1 l1 _ Hl]; [ destruct t; cbn in *; try exact I; contradiction | exact (number_size _ _ Hl) ] | ].
      destruct H2 as [|c k w1 Hk _|l ts Hl]; cbn; split; try exact I.
      * destruct c; try exact I. discriminate Hk.
      * destruct Hl as [l k w1 Hk _|p s w1 v x _ Hv Hx|p w1 v _ Hv| | | ]; cbn; try exact I.
        -- destruct l; try exact I. discriminate Hk.
        -- split; eapply number_size; eassumption.
        -- split; [ eapply number_size; eassumption | unfold i32_size; lia ].
    + destruct H2; auto.
    + destruct H2 as [|c k w1 Hk _| ]; cbn; try exact I. congruence.
  - intros name r id c fields w v ts1 ts2 ts3 Hw Hv Hn H1 H2 H3 IH u Hu. inversion Hu; subst; [ | eapply IH; eassumption ].
    split; [ exact Hn | ]. split; [ exact (Hid _ _ H2) | reflexivity ].
  - intros f u [].
  - intros t l ts1 ts2 _ IH1 _ IH2 f u [<-|Hf] Hu; [ apply IH1; exact Hu | eapply IH2; eassumption ].
Qed.
