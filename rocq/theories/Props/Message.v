(** Textual schemas (C61, C62, C83). *)
From Coq Require Import String.
From Verif Require Import Base.Prelude Model.Types Model.Schema Model.Message Spec.SchemaSpec Spec.MessageSpec
  Proofs.MessageProofs Proofs.MessageTrapProofs Proofs.MessageCutProofs Proofs.MessageTextProofs.
Open Scope N_scope.

(** The text is its tokens and what stands between them. *)
Theorem text_has_one_reading U T text : unicode_ok U -> layout U T text <-> tokens_of U text = T.
Proof. intros HU. split; [ apply layout_tokens; exact HU | intros <-; apply layout_total; exact HU ]. Qed.
Print Assumptions text_has_one_reading.

(** C61: a text parses to the schema it denotes, whatever the case of the keywords and the blanks between the tokens. *)
Theorem message_parses U text t : unicode_ok U -> denotes U text t -> from_message U text = Ok t.
Proof.
  intros HU (T & HT & Ht). unfold from_message. rewrite (layout_tokens U T text HU HT). pose proof (message_parse U t T [] HU Ht) as E. rewrite app_nil_r in E. rewrite E. reflexivity.
Qed.
Print Assumptions message_parses.

Lemma message_plain : Forall plain_char (sym "message").
Proof. change (Forall plain_char [109; 101; 115; 115; 97; 103; 101]). repeat (apply Forall_cons; [ unfold plain_char; lia | ]). apply Forall_nil. Qed.
(** The schemas that have a text are the roots whose fields are expressible. *)
Theorem message_expressible U t : unicode_ok U ->
  (exists text, denotes U text t) <->
  exists name fields, t = Group (mk_fi name Optional None) None None fields /\ word U name /\ forall f u, In f fields -> within f u -> expressible U u.
Proof.
  intros HU. split.
  - intros (text & T & _ & name & fields & ts & Hn & Hf & _ & ->). exists name, fields. split; [ reflexivity | ]. split; [ exact Hn | ].
    exact (proj2 (fields_expressible U) fields ts Hf).
  - intros (name & fields & -> & Hn & Hf). destruct (fields_exist U fields) as (ts & Hts); [ intros f Hin; apply field_exists; intros u Hu; exact (Hf f u Hin Hu) | ].
    set (T := sym "message" :: name :: sym "{" :: ts ++ [sym "}"]).
    destruct (layout_exists U T HU) as (text & Ht & _).
    { unfold T. apply Forall_cons; [ left; apply plain_word; [ exact HU | discriminate | exact message_plain ] | ]. apply Forall_cons; [ left; exact Hn | ].
      apply Forall_cons; [ right; exists 123; split; [ vm_compute; tauto | reflexivity ] | ]. apply Forall_app. split; [ exact (proj2 (fields_lexemes U HU) _ _ Hts) | ].
      apply Forall_cons; [ right; exists 125; split; [ vm_compute; tauto | reflexivity ] | apply Forall_nil ]. }
    exists text, T. split; [ exact Ht | ]. exists name, fields, ts. auto.
Qed.
Print Assumptions message_expressible.

(** ** A case: the ASCII part of Unicode *)

Definition ascii : unicode := mk_unicode (fun c => (9 <=? c) && (c <=? 13) || (c =? 32)) (map ascii_upper) (map ascii_lower).
Lemma ascii_ok : unicode_ok ascii.
Proof. split; [ | split; reflexivity ]. intros c _. cbn [u_space ascii]. lia. Qed.
Definition sample : list N := chars "message spark_schema {
  optional group a (LIST) = 1 { REPEATED Group bag { required BINARY e (STRING); } }
  REQUIRED fixed_len_byte_array(5) f (DECIMAL(10,2)) = -7; optional INT32 g(INTEGER(16,true)) ; }".
Definition sample_fields : list parquet_type :=
  [Group (mk_fi (chars "a") Optional (Some 1%Z)) None (Some GList)
     [Group (mk_fi (chars "bag") Repeated None) None None [Primitive (mk_prim (mk_fi (chars "e") Required None) (Some LString) None ByteArray)]];
   Primitive (mk_prim (mk_fi (chars "f") Required (Some (-7)%Z)) (Some (LDecimal 10 2)) None (FixedLenByteArray 5));
   Primitive (mk_prim (mk_fi (chars "g") Optional None) (Some (LInteger IInt16)) None Int32)].
Definition sample_schema : parquet_type := Group (mk_fi (chars "spark_schema") Optional None) None None sample_fields.
Ltac spell := unfold spells; vm_compute; repeat (apply Forall2_cons; [ first [ left; reflexivity | right; split; [ split; discriminate | reflexivity ] ] | ]); apply Forall2_nil.
Ltac is_word := split; [ discriminate | vm_compute; repeat (apply Forall_cons; [ split; [ reflexivity | intros [E|[E|[E|[E|[E|[E|[E|[]]]]]]]]; discriminate E ] | ]); apply Forall_nil ].
Ltac is_number s d := exists (sym s), d; split; [ discriminate | split; [ repeat (apply Forall_cons; [ lia | ]); apply Forall_nil | split; [ reflexivity | split; [ tauto || (vm_compute; tauto) | first [ lia | vm_compute; split; [ discriminate | reflexivity ] ] ] ] ] ].
Example sample_denotes : denotes ascii sample sample_schema.
Proof.
  exists (tokens_of ascii sample). split; [ apply layout_total, ascii_ok | ]. exists (chars "spark_schema"), sample_fields.
  exists (([sym "optional"; sym "group"; sym "a"; sym "("; sym "LIST"; sym ")"; sym "="; sym "1"; sym "{"] ++
     ([sym "REPEATED"; sym "Group"; sym "bag"; sym "{"] ++ [sym "required"; sym "BINARY"; sym "e"; sym "("; sym "STRING"; sym ")"; sym ";"] ++ [sym "}"]) ++ [sym "}"]) ++
    [sym "REQUIRED"; sym "fixed_len_byte_array"; sym "("; sym "5"; sym ")"; sym "f"; sym "("; sym "DECIMAL"; sym "("; sym "10"; sym ","; sym "2"; sym ")"; sym ")"; sym "="; sym "-7"; sym ";"] ++
    [sym "optional"; sym "INT32"; sym "g"; sym "("; sym "INTEGER"; sym "("; sym "16"; sym ","; sym "true"; sym ")"; sym ")"; sym ";"]).
  split; [ is_word | ]. split; [ | split; [ vm_compute; reflexivity | reflexivity ] ].
  unfold sample_fields. apply fields_cons; [ | apply fields_cons; [ | rewrite <- (app_nil_r (sym "optional" :: _)); apply fields_cons; [ | apply fields_nil ] ] ].
  - refine (field_group ascii (chars "a") Optional (Some 1%Z) (Some GList) _ (sym "optional") (sym "group") [sym "("; sym "LIST"; sym ")"] [sym "="; sym "1"] _ _ _ _ _ _ _).
    + spell.
    + spell.
    + is_word.
    + eapply group_some; [ reflexivity | spell ].
    + apply id_some. is_number ""%string [1%Z].
    + rewrite <- (app_nil_r (_ ++ _ ++ [sym "}"])). apply fields_cons; [ | apply fields_nil ].
      refine (field_group ascii (chars "bag") Repeated None None _ (sym "REPEATED") (sym "Group") [] [] [sym "required"; sym "BINARY"; sym "e"; sym "("; sym "STRING"; sym ")"; sym ";"] _ _ _ _ _ _).
      * spell.
      * spell.
      * is_word.
      * apply group_none.
      * apply id_none.
      * rewrite <- (app_nil_r [sym "required"; _; _; _; _; _; _]). apply fields_cons; [ | apply fields_nil ].
        refine (field_primitive ascii (chars "e") Required None (Some LString) None ByteArray (sym "required") [sym "BINARY"] [sym "("; sym "STRING"; sym ")"] [] _ _ _ _ _ _).
        -- spell.
        -- eapply type_plain; [ right; left; reflexivity | spell ].
        -- is_word.
        -- apply (annotation_logical LString [sym "STRING"]). eapply logical_plain; [ reflexivity | spell ].
        -- apply id_none.
        -- reflexivity.
  - refine (field_primitive ascii (chars "f") Required (Some (-7)%Z) (Some (LDecimal 10 2)) None (FixedLenByteArray 5) (sym "REQUIRED")
      [sym "fixed_len_byte_array"; sym "("; sym "5"; sym ")"] [sym "("; sym "DECIMAL"; sym "("; sym "10"; sym ","; sym "2"; sym ")"; sym ")"] [sym "="; sym "-7"] _ _ _ _ _ _).
    + spell.
    + apply (type_fixed 5); [ spell | is_number ""%string [5%Z] ].
    + is_word.
    + apply (annotation_logical (LDecimal 10 2) [sym "DECIMAL"; sym "("; sym "10"; sym ","; sym "2"; sym ")"]). apply (logical_decimal 10 2); [ spell | is_number ""%string [1%Z; 0%Z] | is_number ""%string [2%Z] ].
    + apply id_some. is_number "-"%string [7%Z].
    + vm_compute. reflexivity.
  - refine (field_primitive ascii (chars "g") Optional None (Some (LInteger IInt16)) None Int32 (sym "optional")
      [sym "INT32"] [sym "("; sym "INTEGER"; sym "("; sym "16"; sym ","; sym "true"; sym ")"; sym ")"] [] _ _ _ _ _ _).
    + spell.
    + eapply type_plain; [ left; reflexivity | spell ].
    + is_word.
    + apply (annotation_logical (LInteger IInt16) [sym "INTEGER"; sym "("; sym "16"; sym ","; sym "true"; sym ")"]).
      apply (logical_integer IInt16); [ spell | is_number ""%string [1%Z; 6%Z] | spell ].
    + apply id_none.
    + reflexivity.
Qed.
Example message_parses_case : from_message ascii sample = Ok sample_schema.
Proof. apply message_parses; [ apply ascii_ok | apply sample_denotes ]. Qed.
Example message_parses_runs : from_message ascii sample = Ok sample_schema.
Proof. vm_compute. reflexivity. Qed.

(** ** Texts that stop early or go on *)

(** C62: a text that is cut off (what follows is not blank) is accepted exactly if its last token is one of [{], [}] and [;]. *)
Theorem cut_message_exactly U a b t T : unicode_ok U -> denotes U (a ++ b) t -> ~ blank U b -> layout U T a ->
  (exists t', from_message U a = Ok t') <-> ends_field T.
Proof.
  intros HU (TT & HTT & Ht) Hb HT. unfold from_message. rewrite (layout_tokens U T a HU HT).
  pose proof (layout_total U b HU) as HB. set (B := tokens_of U b) in *. assert (HBne : B <> []) by (intros E; rewrite E in HB; apply Hb, layout_nil, HB). clearbody B.
  pose proof (message_parse U t TT [] HU Ht) as HP. rewrite app_nil_r in HP. split.
  - intros (t' & H). destruct (parse_message_type U T) as [[v i]| |] eqn:E; cbn [bind] in H; try discriminate.
    apply (cut_rejected U T TT t v i); [ | | exact HP | exact E ].
    + destruct (layout_app U HU T a B b HT HB) as [H1|(Q & w & w' & R & -> & -> & _ & H1)]; rewrite (layout_unique U _ _ _ HU HTT H1); rewrite ?app_length; cbn [length]; lia.
    + intros j Hj. destruct (layout_app U HU T a B b HT HB) as [H1|(Q & w & w' & R & -> & -> & _ & H1)]; rewrite (layout_unique U _ _ _ HU HTT H1).
      * rewrite nth_error_app1 by lia. reflexivity.
      * rewrite app_length in Hj. cbn [length] in Hj. rewrite !nth_error_app1 by lia. reflexivity.
  - intros He. destruct (layout_app U HU T a B b HT HB) as [H1|(Q & w & w' & R & -> & -> & Hw & H1)].
    + pose proof (layout_unique U _ _ _ HU HTT H1) as E. assert (ET : firstn (length T) TT = T) by (rewrite E, firstn_app, firstn_all, Nat.sub_diag, firstn_O, app_nil_r; reflexivity).
      destruct (message_cut U t TT (length T) HU Ht) as (name & fields & fields' & _ & _ & Hr).
      * rewrite E, app_length. destruct B; [ contradiction | cbn [length]; lia ].
      * rewrite ET. exact He.
      * rewrite ET in Hr. rewrite Hr. cbn [bind]. eexists. reflexivity.
    + exfalso. apply (ends_app Q) in He; [ | discriminate ]. revert He. apply quiet_no_end. apply Forall_cons; [ exact (word_quiet U w Hw) | apply Forall_nil ].
Qed.
Print Assumptions cut_message_exactly.
(** The schema is then the one the whole text denotes, without the fields that are missing. *)
Theorem cut_message_schema U a b t t' : unicode_ok U -> denotes U (a ++ b) t -> ~ blank U b -> from_message U a = Ok t' ->
  exists i fields fields', t = Group i None None fields /\ t' = Group i None None fields' /\ cut fields' fields.
Proof.
  intros HU HD Hb H. pose proof (layout_total U a HU) as HT. pose proof (proj1 (cut_message_exactly U a b t _ HU HD Hb HT) (ex_intro _ t' H)) as He.
  unfold from_message in H. set (T := tokens_of U a) in *. clearbody T.
  pose proof (layout_total U b HU) as HB. set (B := tokens_of U b) in *. assert (HBne : B <> []) by (intros E; rewrite E in HB; apply Hb, layout_nil, HB). clearbody B.
  destruct HD as (TT & HTT & Ht). destruct (layout_app U HU T a B b HT HB) as [H1|(Q & w & w' & R & -> & -> & Hw & H1)].
  - pose proof (layout_unique U _ _ _ HU HTT H1) as E. assert (ET : firstn (length T) TT = T) by (rewrite E, firstn_app, firstn_all, Nat.sub_diag, firstn_O, app_nil_r; reflexivity).
    destruct (message_cut U t TT (length T) HU Ht) as (name & fields & fields' & Et & Hcut & Hr).
    + rewrite E, app_length. destruct B; [ contradiction | cbn [length]; lia ].
    + rewrite ET. exact He.
    + rewrite ET in Hr. rewrite Hr in H. cbn [bind] in H. apply Ok_inj in H. subst t'. exists (mk_fi name Optional None), fields, fields'. auto.
  - exfalso. apply (ends_app Q) in He; [ | discriminate ]. revert He. apply quiet_no_end. apply Forall_cons; [ exact (word_quiet U w Hw) | apply Forall_nil ].
Qed.
Print Assumptions cut_message_schema.
(** Whatever follows the closing brace is not looked at. *)
Theorem continued_message_accepted U text more t : unicode_ok U -> denotes U text t -> from_message U (text ++ more) = Ok t.
Proof.
  intros HU (T & HT & Ht). pose proof (layout_total U more HU) as HM. set (M := tokens_of U more) in *. clearbody M.
  destruct (layout_app U HU T text M more HT HM) as [H1|(Q & w & w' & R & E & -> & Hw & _)].
  - unfold from_message. rewrite (layout_tokens U _ _ HU H1), (message_parse U t T M HU Ht). reflexivity.
  - exfalso. destruct Ht as (name & fields & ts & _ & _ & E' & _). rewrite E in E'. change (sym "message" :: name :: sym "{" :: ts ++ [sym "}"]) with ((sym "message" :: name :: sym "{" :: ts) ++ [sym "}"]) in E'.
    apply app_inj_tail in E' as [_ ->]. apply (word_quiet U _ Hw). right. left. reflexivity.
Qed.
Print Assumptions continued_message_accepted.

(** The property as stated is false both ways: this text stops before the closing brace, that one goes on. Neither denotes a schema, both parse. *)
Definition stopping : list N := chars "message m { REQUIRED INT32 a;".
Definition going_on : list N := chars "message m { REQUIRED INT32 a; } ) {".
Definition one_field : parquet_type :=
  Group (mk_fi (chars "m") Optional None) None None [Primitive (mk_prim (mk_fi (chars "a") Required None) None None Int32)].
Lemma message_ends U t T : message_tokens U t T -> exists T', T = T' ++ [sym "}"].
Proof. intros (name & fields & ts & _ & _ & -> & _). exists (sym "message" :: name :: sym "{" :: ts). reflexivity. Qed.
Lemma denotes_ends U text t T x : unicode_ok U -> tokens_of U text = T ++ [x] -> denotes U text t -> x = sym "}".
Proof.
  intros HU Hx (T' & HT & Ht). rewrite <- (layout_tokens U T' text HU HT), Hx in Ht. destruct (message_ends _ _ _ Ht) as (T0 & E). apply app_inj_tail in E. apply E.
Qed.
Theorem malformed_rejected_refuted :
  unicode_ok ascii /\
  (from_message ascii stopping = Ok one_field /\ forall t, ~ denotes ascii stopping t) /\
  (from_message ascii going_on = Ok one_field /\ forall t, ~ denotes ascii going_on t).
Proof.
  split; [ apply ascii_ok | ]. split; (split; [ vm_compute; reflexivity | ]); intros t Ht.
  - refine (_ (denotes_ends ascii stopping t [sym "message"; sym "m"; sym "{"; sym "REQUIRED"; sym "INT32"; sym "a"] (sym ";") ascii_ok _ Ht)); [ discriminate | vm_compute; reflexivity ].
  - refine (_ (denotes_ends ascii going_on t [sym "message"; sym "m"; sym "{"; sym "REQUIRED"; sym "INT32"; sym "a"; sym ";"; sym "}"; sym ")"] (sym "{") ascii_ok _ Ht)); [ discriminate | vm_compute; reflexivity ].
Qed.
Print Assumptions malformed_rejected_refuted.
(** The hypotheses are met: the sample cut off inside the list, where it is accepted, and inside a word, where it is rejected. *)
Definition cut_at (n : nat) : list N * list N := (firstn n sample, skipn n sample).
Lemma sample_not_blank n : existsb (fun c => negb (u_space ascii c)) (skipn n sample) = true -> ~ blank ascii (skipn n sample).
Proof. intros H Hb. apply existsb_exists in H as (c & Hc & Hn). unfold blank in Hb. rewrite Forall_forall in Hb. rewrite (Hb c Hc) in Hn. discriminate Hn. Qed.
Example cut_message_case :
  (exists t', from_message ascii (firstn 103 sample) = Ok t') /\ ~ (exists t', from_message ascii (firstn 58 sample) = Ok t') /\
  from_message ascii (sample ++ chars "anything (at) all") = Ok sample_schema.
Proof.
  pose proof sample_denotes as HD. split; [ | split ].
  - pose proof HD as H. rewrite <- (firstn_skipn 103 sample) in H. apply (cut_message_exactly ascii _ _ _ (tokens_of ascii (firstn 103 sample)) ascii_ok H); [ apply sample_not_blank; vm_compute; reflexivity | apply layout_total, ascii_ok | ].
    exists (removelast (tokens_of ascii (firstn 103 sample))), (sym ";"). split; [ vm_compute; reflexivity | tauto ].
  - pose proof HD as H. rewrite <- (firstn_skipn 58 sample) in H. intros H'. apply (cut_message_exactly ascii _ _ _ (tokens_of ascii (firstn 58 sample)) ascii_ok H) in H'; [ | apply sample_not_blank; vm_compute; reflexivity | apply layout_total, ascii_ok ].
    revert H'. assert (E : tokens_of ascii (firstn 58 sample) = removelast (tokens_of ascii (firstn 58 sample)) ++ [sym "REP"]) by (vm_compute; reflexivity). rewrite E.
    intros H'. apply ends_app in H'; [ | discriminate ]. destruct H' as (T' & x & Ex & Hx). destruct T' as [|? [|]]; try discriminate Ex. injection Ex as <-. destruct Hx as [Hx|[Hx|Hx]]; discriminate Hx.
  - apply continued_message_accepted; [ apply ascii_ok | exact HD ].
Qed.

(** ** Panics *)

(** C83: parsing a text panics only if a primitive field is annotated with MAP or LIST. *)
Theorem message_no_panic_partial U text : from_message U text = Panic -> primitive_map_or_list U (tokens_of U text).
Proof.
  intros H. unfold from_message in H. set (T := tokens_of U text) in *. clearbody T.
  assert (HP : parse_message_type U T = Panic) by (destruct (parse_message_type U T) as [[v i]| |]; cbn [bind] in H; try discriminate; reflexivity).
  destruct (traps_b U T) eqn:E; [ exact (traps_spec U T E) | exfalso; exact (message_no_panic U T E HP) ].
Qed.
Print Assumptions message_no_panic_partial.
(** It does happen. *)
Theorem message_no_panic_refuted : exists text, unicode_ok ascii /\ from_message ascii text = Panic.
Proof. exists (chars "message m { REQUIRED INT32 a (LIST); }"). split; [ apply ascii_ok | vm_compute; reflexivity ]. Qed.
Print Assumptions message_no_panic_refuted.
(** And it always happens: a text that is well formed up to a primitive field annotated with MAP or LIST, at any depth, panics whatever follows. *)
Theorem misannotated_message_panics U text name ts extra : unicode_ok U -> misannotated U ts ->
  layout U (sym "message" :: name :: sym "{" :: ts ++ extra) text -> from_message U text = Panic.
Proof.
  intros HU H HT. unfold from_message. rewrite (layout_tokens U _ _ HU HT), (misannotated_message U name ts extra HU H). reflexivity.
Qed.
Print Assumptions misannotated_message_panics.
(** The hypotheses are met: behind a field, inside a group that is rightly a list, and followed by nonsense. *)
Definition mistaken : list N := chars "message m { REQUIRED INT32 a; optional group g (LIST) = 4 { repeated binary b (Map) ; } } ((".
Example misannotated_message_case : from_message ascii mistaken = Panic.
Proof.
  assert (W : forall s, s <> [] -> forallb (fun c => negb (u_space ascii c) && negb (existsb (N.eqb c) (chars ";{}()=,"))) s = true -> word ascii s).
  { intros s H1 H2. split; [ exact H1 | ]. rewrite forallb_forall in H2. apply Forall_forall. intros c Hc. specialize (H2 c Hc). apply andb_true_iff in H2 as [A B].
    apply negb_true_iff in A, B. split; [ exact A | ]. intros Hd. assert (X : existsb (N.eqb c) (chars ";{}()=,") = true) by (apply existsb_exists; exists c; split; [ exact Hd | apply N.eqb_refl ]). congruence. }
  assert (SP : forall k w, forallb (fun p => (snd p =? fst p) || ((65 <=? fst p) && (fst p <=? 90) && (snd p =? fst p + 32)))%N (combine (chars k) w) = true -> length (chars k) = length w -> spells k w).
  { intros k w. unfold spells. generalize (chars k). intros l. revert w. induction l as [|a l IH]; intros [|b w] H1 H2; try discriminate H2; [ constructor | ].
    cbn [combine forallb fst snd] in H1. apply andb_true_iff in H1 as [A B]. constructor; [ | apply IH; [ exact B | injection H2 as H2; exact H2 ] ].
    apply orb_true_iff in A as [A|A]; [ left; apply N.eqb_eq; exact A | right ]. apply andb_true_iff in A as [A C]. apply andb_true_iff in A as [A D].
    apply N.leb_le in A, D. apply N.eqb_eq in C. tauto. }
  apply (misannotated_message_panics ascii mistaken (sym "m")
    ([sym "REQUIRED"; sym "INT32"; sym "a"; sym ";"] ++ (sym "optional" :: sym "group" :: sym "g" :: [sym "("; sym "LIST"; sym ")"] ++ [sym "="; sym "4"] ++ sym "{" ::
      (sym "repeated" :: [sym "binary"] ++ [sym "b"; sym "("; sym "Map"])))
    [sym ")"; sym ";"; sym "}"; sym "}"; sym "("; sym "("] ascii_ok).
  - apply (misannotated_after ascii (Primitive (mk_prim (mk_fi (sym "a") Required None) None None Int32))).
    + apply (field_primitive ascii (sym "a") Required None None None Int32 (sym "REQUIRED") [sym "INT32"] [] []);
        [ apply SP; reflexivity | apply (type_plain Int32 "INT32"); [ left; reflexivity | apply SP; reflexivity ] | apply W; [ discriminate | reflexivity ] | constructor | constructor | reflexivity ].
    + apply (misannotated_inside ascii Optional (Some 4%Z) (Some GList));
        [ apply SP; reflexivity | apply SP; reflexivity | apply W; [ discriminate | reflexivity ] | apply (group_some GList "LIST"); [ reflexivity | apply SP; reflexivity ] | | ].
      * constructor. exists [], [4%Z]. split; [ discriminate | ]. split; [ repeat constructor; lia | ]. split; [ reflexivity | ]. split; [ left; split; reflexivity | split; reflexivity || lia ].
      * apply (misannotated_here ascii Repeated ByteArray "MAP"); [ apply SP; reflexivity | apply (type_plain ByteArray "BINARY"); [ right; left; reflexivity | apply SP; reflexivity ] | apply W; [ discriminate | reflexivity ] | left; reflexivity | apply SP; reflexivity ].
  - pose proof (layout_total ascii mistaken ascii_ok) as H.
    match goal with |- layout _ ?T _ => replace T with (tokens_of ascii mistaken) by (vm_compute; reflexivity) end. exact H.
Qed.
Example message_no_panic_case : primitive_map_or_list ascii (tokens_of ascii mistaken).
Proof. apply message_no_panic_partial, misannotated_message_case. Qed.
