(** Lemmas about texts that make the parser of textual schemas panic. *)
From Coq Require Import String.
From Verif Require Import Base.Prelude Model.Types Model.Schema Model.Message Spec.SchemaSpec Spec.MessageSpec Proofs.MessageProofs.
Open Scope N_scope.

Lemma annotation_panics U T i k v r : unicode_ok U -> (k = "MAP" \/ k = "LIST")%string -> spells k v -> skipn i T = sym "(" :: v :: r ->
  parse_annotation U T i = Panic.
Proof.
  intros HU Hk Hv Hs. unfold parse_annotation. here. tok. here.
  assert (E : u_upper U v = chars k) by (apply (spells_upper U k v HU); [ destruct Hk as [-> | ->]; cbn; repeat constructor | exact Hv ]).
  rewrite E. destruct Hk as [-> | ->]; reflexivity.
Qed.

Lemma misannotated_cons U ts : misannotated U ts -> exists r w ts', ts = w :: ts' /\ spells (repetition_word r) w.
Proof.
  induction 1 as [r t k w ts name v Hw|t ts1 ts2 Ht _ _|r id c w v name ts1 ts2 ts3 Hw]; [ eauto 6 | | eauto 6 ].
  destruct (field_tokens_cons _ _ _ Ht) as (r & w & ts' & -> & Hw). eexists r, w, _. split; [ reflexivity | exact Hw ].
Qed.

Lemma misannotated_panics U T ts : unicode_ok U -> misannotated U ts ->
  forall f n i r, skipn i T = ts ++ r -> (length ts <= f)%nat -> (length ts < n)%nat -> child_types n (add_type f U T) T i = Panic.
Proof.
  intros HU H. induction H as [rep t k w ts name v Hw Ht Hn Hk Hv|t ts1 ts2 Ht H IH|rep id c w v name ts1 ts2 ts3 Hw Hv Hn H1 H2 H IH]; intros f n i r Hs Hf Hlt.
  - destruct n as [|n]; [ lia | ]. destruct f as [|f]; [ cbn [length] in Hf; lia | ]. cbn [child_types]. rewrite <- !app_comm_cons in Hs. assert (Hs' := Hs). here.
    rewrite (token_eqb_neq w (chars "}")) by apply (repetition_ok U rep w HU Hw). cbn [backtrack bind add_type]. clear K.
    here. destruct (repetition_ok U rep w HU Hw) as [-> _]. cbn [bind].
    destruct (type_tokens_cons _ _ Ht) as (u & ts' & ->). rewrite <- !app_assoc in *. cbn [app] in *. here.
    match goal with K : skipn (S (S i)) T = _ |- _ => destruct (type_tokens_ok U T (S (S i)) t u ts' _ HU Ht K) as (-> & physical & len & -> & Hp & Hlen); apply skipn_past in K; rename K into K' end.
    cbn [bind]. unfold add_primitive_type. rewrite Hlen. cbn [bind]. here.
    match goal with K : skipn _ T = sym "(" :: _ |- _ => rewrite (annotation_panics U T _ k v _ HU Hk Hv K) end. reflexivity.
  - rewrite <- app_assoc in Hs. rewrite app_length in Hf, Hlt.
    destruct n as [|n]; [ lia | ]. destruct (field_tokens_cons _ _ _ Ht) as (rep & w & ts1' & -> & Hw). cbn [child_types]. assert (Hs' := Hs). cbn [app] in Hs'. cbn [length] in Hf, Hlt. here.
    rewrite (token_eqb_neq w (chars "}")) by apply (repetition_ok U rep w HU Hw). cbn [backtrack bind].
    rewrite (proj1 (fields_parse U T HU) _ _ Ht f i _ Hs) by (cbn [length]; lia). cbn [bind].
    rewrite (IH f n _ r (skipn_past _ _ _ _ Hs)) by lia. reflexivity.
  - destruct n as [|n]; [ lia | ]. destruct f as [|f]; [ cbn [length] in Hf; lia | ]. cbn [child_types]. rewrite <- !app_comm_cons in Hs. assert (Hs' := Hs). here.
    rewrite (token_eqb_neq w (chars "}")) by apply (repetition_ok U rep w HU Hw). cbn [backtrack bind add_type]. clear K.
    here. destruct (repetition_ok U rep w HU Hw) as [-> _]. cbn [bind]. here. upper U. eqs. unfold add_group_type. here.
    match goal with K : skipn (S (S (S i))) T = _ |- _ => rename K into K1 end.
    rewrite <- !app_assoc in K1. cbn [app] in K1.
    destruct (id_first id ts2 (sym "{") (ts3 ++ r) H2 ltac:(discriminate)) as (y & q & Ey & Hy). rewrite Ey in K1.
    rewrite (group_tokens_ok U T _ c ts1 y q HU H1 K1 Hy). cbn [bind]. apply skipn_past in K1. rewrite <- Ey in K1.
    rewrite (parse_id_ok T _ id ts2 (sym "{") _ H2 K1 ltac:(discriminate)). cbn [bind]. apply skipn_past in K1. unfold parse_child_types. here. asrt.
    match goal with K : skipn _ T = ts3 ++ r |- _ => rename K into K2 end.
    assert (HT : (length ts3 <= length T)%nat) by (apply (f_equal (@length token)) in K2; rewrite skipn_length, app_length in K2; lia).
    rewrite (IH f (S (length T)) _ r K2); [ reflexivity | revert Hf; cbn [length]; rewrite !app_length; cbn [length]; lia | lia ].
Qed.

Lemma misannotated_message U name ts extra : unicode_ok U -> misannotated U ts ->
  parse_message_type U (sym "message" :: name :: sym "{" :: ts ++ extra) = Panic.
Proof.
  intros HU H. set (T := sym "message" :: name :: sym "{" :: ts ++ extra).
  assert (Hs : skipn 0 T = sym "message" :: name :: sym "{" :: ts ++ extra) by reflexivity.
  assert (HT : length T = (3 + length ts + length extra)%nat) by (unfold T; cbn [length]; rewrite app_length; lia). clearbody T.
  unfold parse_message_type. here. tok. here. unfold parse_child_types. here. asrt.
  match goal with K : skipn _ T = ts ++ extra |- _ => rewrite (misannotated_panics U T ts HU H (length T) (S (length T)) _ extra K) by lia end. reflexivity.
Qed.
