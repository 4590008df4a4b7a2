(** Lemmas about the parser of textual schemas on texts that stop early: what the parser has not looked at does not matter, and where it stops. *)
From Coq Require Import String.
From Verif Require Import Base.Prelude Model.Types Model.Schema Model.Message Spec.SchemaSpec Spec.MessageSpec Proofs.SchemaProofs Proofs.MessageProofs.
Open Scope N_scope.

(** ** The parser only depends on the tokens before its index *)

(** Two token lists that agree before [m]; the first is longer than [m]. *)
Section Track.
Context (U : unicode) (T T' : list token) (m : nat).
Context (Hlen : (m < length T)%nat) (Hagree : forall j, (j < m)%nat -> nth_error T j = nth_error T' j).

(** From the index [s] the run on [T] (result [x]) and the run on [T'] (result [y]): the same, [a] further at least, or the run on [T] went past [m] by [d]. *)
Definition tr {A} (a d s : nat) (x y : res (A * nat)) : Prop :=
  forall v i, x = Ok (v, i) -> (y = Ok (v, i) /\ (a + s <= i)%nat) \/ (d + m <= i)%nat.

Lemma tr_weak {A} a d a' d' s (x y : res (A * nat)) : (a' <= a)%nat -> (d' <= d)%nat -> tr a d s x y -> tr a' d' s x y.
Proof. intros H1 H2 H v i Hx. destruct (H v i Hx) as [[Hy Hi]|Hi]; [ left; split; [ exact Hy | lia ] | right; lia ]. Qed.
Lemma tr_ok {A} d s (v : A) : tr 0 d s (Ok (v, s)) (Ok (v, s)).
Proof. intros v' i H. left. apply Ok_inj in H. injection H as <- <-. split; [ reflexivity | lia ]. Qed.
Lemma tr_err {A} a d s e (y : res (A * nat)) : tr a d s (Err e) y.
Proof. intros v i H. discriminate H. Qed.
Lemma tr_panic {A} a d s (y : res (A * nat)) : tr a d s Panic y.
Proof. intros v i H. discriminate H. Qed.
Lemma tr_pure {A B} a d s (r : res B) (k k' : B -> res (A * nat)) : (forall b, tr a d s (k b) (k' b)) -> tr a d s (bind r k) (bind r k').
Proof. intros H v i Hx. destruct r; cbn [bind] in *; try discriminate. exact (H _ v i Hx). Qed.
Lemma tr_bind {A B} a d a1 d1 a2 d2 s (x y : res (A * nat)) (k k' : A * nat -> res (B * nat)) :
  tr a1 d1 s x y -> (forall v i, tr a2 d2 i (k (v, i)) (k' (v, i))) -> (a <= a1 + a2)%nat -> (d <= d1 + a2)%nat -> (d <= d2)%nat ->
  tr a d s (bind x k) (bind y k').
Proof.
  intros H1 H2 Ha Hd Hd2 w j Hx. destruct x as [[v i]| |]; cbn [bind] in Hx; try discriminate.
  destruct (H1 v i eq_refl) as [[-> Hi]|Hi]; cbn [bind]; destruct (H2 v i w j Hx) as [[Hy Hj]|Hj]; try (right; lia). left. split; [ exact Hy | lia ].
Qed.
Lemma tr_next {A} d s (K K' : option token -> nat -> res (A * nat)) :
  (forall w, tr 0 d (S s) (K (Some w) (S s)) (K' (Some w) (S s))) -> (forall v i, (m < s)%nat -> K None s = Ok (v, i) -> (d + m <= i)%nat) -> (d <= 1)%nat ->
  tr d d s (let (t, i) := next T s in K t i) (let (t, i) := next T' s in K' t i).
Proof.
  intros H1 H2 Hd v i Hx. unfold next in *. destruct (Nat.lt_ge_cases s m) as [Hs|Hs].
  - rewrite <- (Hagree s Hs). destruct (nth_error T s) as [w|] eqn:E; [ | apply nth_error_None in E; lia ].
    destruct (H1 w v i Hx) as [[Hy Hi]|Hi]; [ left; split; [ exact Hy | lia ] | right; lia ].
  - right. destruct (nth_error T s) as [w|] eqn:E.
    + destruct (H1 w v i Hx) as [[Hy Hi]|Hi]; lia.
    + apply nth_error_None in E. apply (H2 v i); [ lia | exact Hx ].
Qed.
(** A token that may be there. *)
Lemma tr_peek {A} s k (e : A) (K K' : nat -> res (A * nat)) : tr 0 0 (S s) (K (S s)) (K' (S s)) ->
  tr 0 0 s (let (t, i) := next T s in if is_token t k then K i else let* i := backtrack i in Ok (e, i))
    (let (t, i) := next T' s in if is_token t k then K' i else let* i := backtrack i in Ok (e, i)).
Proof.
  intros H v i Hx. unfold next in *. destruct (nth_error T s) as [w|] eqn:E.
  - destruct (Nat.lt_ge_cases s m) as [Hs|Hs].
    + rewrite <- (Hagree s Hs), E. destruct (is_token (Some w) k).
      * destruct (H v i Hx) as [[Hy Hi]|Hi]; [ left; split; [ exact Hy | lia ] | right; lia ].
      * cbn [backtrack bind] in *. apply Ok_inj in Hx. injection Hx as <- <-. left. split; [ reflexivity | lia ].
    + right. destruct (is_token (Some w) k).
      * destruct (H v i Hx) as [[Hy Hi]|Hi]; lia.
      * cbn [backtrack bind] in *. apply Ok_inj in Hx. injection Hx as <- <-. exact Hs.
  - right. apply nth_error_None in E. cbn [is_token] in Hx. destruct s as [|s]; cbn [backtrack bind] in Hx; [ discriminate | ]. apply Ok_inj in Hx. injection Hx as <- <-. lia.
Qed.

Ltac nxt := apply tr_next; [ intros ? | intros ? ? _ Hnone; cbn [assert_token is_token parse_i32 parse_bool parse_timeunit bind backtrack] in Hnone; try discriminate Hnone | lia ].
(** [next] then a check, as part of something that may end with a look ahead. *)
Ltac nxt0 := apply (tr_weak 1 1); [ lia | lia | nxt ].
Ltac pure := apply tr_pure; intros ?.
Ltac seq H := apply (tr_bind 1 1 0 0 1 1); [ apply H | intros ? ? | lia | lia | lia ].

Lemma tr_scale s : tr 0 0 s (parse_scale T s) (parse_scale T' s).
Proof. unfold parse_scale. apply tr_peek. nxt0. pure. apply tr_ok. Qed.
Lemma tr_converted_decimal s : tr 1 1 s (parse_converted_decimal T s) (parse_converted_decimal T' s).
Proof. unfold parse_converted_decimal. nxt. pure. nxt0. pure. apply (tr_weak 1 1); [ lia | lia | ]. seq tr_scale. nxt. do 3 pure. apply tr_ok. Qed.
Lemma tr_utc s : tr 0 0 s (parse_utc U T s) (parse_utc U T' s).
Proof. unfold parse_utc. apply tr_peek. nxt0. pure. apply tr_ok. Qed.
Lemma tr_unit s : tr 0 0 s (parse_unit U T s) (parse_unit U T' s).
Proof. unfold parse_unit. apply tr_peek. nxt0. pure. apply (tr_weak 1 1); [ lia | lia | ]. seq tr_utc. nxt. pure. apply tr_ok. Qed.
Lemma tr_decimal s : tr 0 0 s (parse_decimal T s) (parse_decimal T' s).
Proof. unfold parse_decimal. apply tr_peek. nxt0. pure. apply (tr_weak 1 1); [ lia | lia | ]. seq tr_scale. nxt. pure. apply tr_ok. Qed.
Lemma tr_logical tpe s : tr 0 0 s (parse_logical_type U T tpe s) (parse_logical_type U T' tpe s).
Proof.
  unfold parse_logical_type. repeat lazymatch goal with |- context[token_eqb tpe ?k] => destruct (token_eqb tpe k) end;
    try apply tr_err; try apply tr_panic; try (apply (tr_ok 0)).
  - apply (tr_bind 0 0 0 0 0 0); try lia; [ apply tr_decimal | ]. intros [p c] i. pure. pure. apply tr_ok.
  - apply (tr_bind 0 0 0 0 0 0); try lia; [ apply tr_unit | ]. intros [p c] i. apply tr_ok.
  - apply (tr_bind 0 0 0 0 0 0); try lia; [ apply tr_unit | ]. intros [p c] i. apply tr_ok.
  - nxt0; [ | destruct s; discriminate Hnone ]. destruct (is_token (Some w) "("); [ | cbn [backtrack bind]; apply tr_err ]. nxt0. pure.
    nxt0. destruct (is_token (Some w1) ","); [ | cbn [backtrack bind]; apply tr_err ]. nxt0. pure. nxt0. pure. apply tr_ok.
Qed.
Lemma tr_id s : tr 0 0 s (parse_id T s) (parse_id T' s).
Proof.
  unfold parse_id. apply tr_peek. apply (tr_next 0); [ intros w; apply tr_ok | | lia ].
  intros v i Hs Hx. apply Ok_inj in Hx. injection Hx as <- <-. lia.
Qed.
Lemma tr_annotation s : tr 0 0 s (parse_annotation U T s) (parse_annotation U T' s).
Proof.
  unfold parse_annotation. apply tr_peek. nxt0. pure. destruct b as [l c]. apply (tr_weak 1 1); [ lia | lia | ].
  apply (tr_bind 1 1 0 0 1 1); try lia.
  - destruct l; [ | apply tr_ok ]. apply (tr_bind 0 0 0 0 0 0); try lia; [ apply tr_logical | ]. intros v i. apply tr_ok.
  - intros v i. apply (tr_bind 1 1 0 0 1 1); try lia.
    + destruct c as [[]|]; try apply tr_ok. apply (tr_bind 0 0 1 1 0 0); try lia; [ apply tr_converted_decimal | ]. intros c i'. apply tr_ok.
    + intros c' i'. nxt. pure. apply tr_ok.
Qed.
Lemma tr_length physical s : tr 0 0 s (parse_length T physical s) (parse_length T' physical s).
Proof. unfold parse_length. destruct (physical =? 7)%Z; [ | apply tr_ok ]. nxt0. pure. nxt0. pure. nxt0. pure. apply tr_ok. Qed.
Lemma tr_primitive r physical s : tr 1 1 s (add_primitive_type U T r physical s) (add_primitive_type U T' r physical s).
Proof.
  unfold add_primitive_type. seq tr_length. nxt. apply (tr_weak 1 1); [ lia | lia | ]. apply (tr_bind 1 1 0 0 1 1); try lia; [ apply tr_annotation | ]. intros [c l] i1.
  seq tr_id. nxt. do 3 pure. apply tr_ok.
Qed.
Lemma tr_children step step' : (forall s, tr 1 1 s (step s) (step' s)) -> forall n n' s, (n <= n')%nat -> tr 1 1 s (child_types n step T s) (child_types n' step' T' s).
Proof.
  intros Hstep. induction n as [|n IH]; intros n' s Hn; [ apply tr_panic | ]. destruct n' as [|n']; [ lia | ]. cbn [child_types].
  apply tr_next; [ intros w | intros v i Hs Hx; apply Ok_inj in Hx; injection Hx as <- <-; lia | lia ].
  destruct (token_eqb w (chars "}")); [ apply tr_ok | ].
  cbn [backtrack bind]. apply (tr_bind 0 1 0 1 1 1); try lia.
  - intros v i Hx. destruct (Hstep s v i Hx) as [[Hy Hi]|Hi]; [ left; split; [ exact Hy | lia ] | right; exact Hi ].
  - intros t i. apply (tr_bind 1 1 1 1 0 1); try lia; [ apply IH; lia | ]. intros l i'. apply tr_ok.
Qed.
Lemma tr_child_types step step' s : (length T <= length T')%nat -> (forall s, tr 1 1 s (step s) (step' s)) -> tr 1 1 s (parse_child_types step T s) (parse_child_types step' T' s).
Proof. intros Hl Hstep. unfold parse_child_types. nxt. pure. apply (tr_weak 1 1); [ lia | lia | ]. apply tr_children; [ exact Hstep | lia ]. Qed.
Lemma tr_group_converted s : tr 0 0 s (parse_group_converted U T s) (parse_group_converted U T' s).
Proof. unfold parse_group_converted. apply tr_peek. nxt0. pure. nxt0. pure. apply tr_ok. Qed.
Lemma tr_type : (length T <= length T')%nat -> forall f f' s, (f <= f')%nat -> tr 1 1 s (add_type f U T s) (add_type f' U T' s).
Proof.
  intros Hl. induction f as [|f IH]; intros f' s Hf; [ apply tr_panic | ]. destruct f' as [|f']; [ lia | ]. cbn [add_type].
  nxt. pure. nxt0. destruct (token_eqb (u_upper U w0) (chars "GROUP")).
  - unfold add_group_type. nxt0. apply (tr_weak 1 1); [ lia | lia | ]. seq tr_group_converted. seq tr_id.
    apply (tr_bind 1 1 1 1 0 1); try lia; [ apply tr_child_types; [ exact Hl | intros; apply IH; lia ] | ]. intros l i1. apply tr_ok.
  - pure. apply (tr_weak 1 1); [ lia | lia | ]. apply tr_primitive.
Qed.
Lemma tr_message : (length T <= length T')%nat -> tr 1 1 0 (parse_message_type U T) (parse_message_type U T').
Proof.
  intros Hl. unfold parse_message_type. nxt. destruct (is_token (Some w) "message"); [ | apply tr_err ]. nxt0. apply (tr_weak 1 1); [ lia | lia | ].
  apply (tr_bind 1 1 1 1 0 1); try lia; [ apply tr_child_types; [ exact Hl | intros; apply tr_type; [ exact Hl | exact Hl ] ] | ]. intros l i1. apply tr_ok.
Qed.
End Track.

(** ** Where the parser stops *)

(** One of the tokens that end a field or open a group. *)
Definition ender (t : token) : Prop := t = sym "{" \/ t = sym "}" \/ t = sym ";".
Definition stops (T : list token) (i : nat) : Prop := exists j t, i = S j /\ nth_error T j = Some t /\ ender t.

Lemma assert_next {A} T s k (K : nat -> res A) v : (let (t, i) := next T s in let* _ := assert_token t k in K i) = Ok v -> nth_error T s = Some (chars k) /\ K (S s) = Ok v.
Proof.
  unfold next. destruct (nth_error T s) as [w|]; [ | discriminate ]. cbn [assert_token]. destruct (token_eqb w (chars k)) eqn:E; [ | discriminate ].
  apply token_eqb_spec in E. subst w. cbn [bind]. auto.
Qed.
Lemma primitive_stops U T r p s v i : add_primitive_type U T r p s = Ok (v, i) -> stops T i.
Proof.
  unfold add_primitive_type. intros H. apply bind_ok in H as ([len i0] & _ & H). destruct (next T i0) as [[name|] i1]; [ | discriminate ].
  apply bind_ok in H as ([[c l] i2] & _ & H). apply bind_ok in H as ([id i3] & _ & H). apply assert_next in H as [E H].
  apply bind_ok in H as (ph & _ & H). apply bind_ok in H as (t & _ & H). apply Ok_inj in H. injection H as _ <-.
  exists i3, (sym ";"). split; [ reflexivity | ]. split; [ exact E | ]. right. right. reflexivity.
Qed.
Lemma children_stop step T : (forall s v i, step s = Ok (v, i) -> stops T i) -> forall n s v i, stops T s -> child_types n step T s = Ok (v, i) -> stops T i.
Proof.
  intros Hstep. induction n as [|n IH]; intros s v i Hs H; [ discriminate | ]. cbn [child_types] in H. unfold next in H.
  destruct (nth_error T s) as [w|] eqn:E; [ | apply Ok_inj in H; injection H as _ <-; exact Hs ].
  destruct (token_eqb w (chars "}")) eqn:Ew.
  - apply token_eqb_spec in Ew. subst w. apply Ok_inj in H. injection H as _ <-. exists s, (sym "}"). split; [ reflexivity | ]. split; [ exact E | right; left; reflexivity ].
  - cbn [backtrack bind] in H. apply bind_ok in H as ([t i1] & H1 & H). apply bind_ok in H as ([l i2] & H2 & H). apply Ok_inj in H. injection H as _ <-.
    apply (IH _ _ _ (Hstep _ _ _ H1) H2).
Qed.
Lemma child_types_stop step T s v i : (forall s v i, step s = Ok (v, i) -> stops T i) -> parse_child_types step T s = Ok (v, i) -> stops T i.
Proof.
  intros Hstep H. unfold parse_child_types in H. apply assert_next in H as [E H]. apply (children_stop step T Hstep _ _ _ _) in H; [ exact H | ].
  exists s, (sym "{"). split; [ reflexivity | ]. split; [ exact E | left; reflexivity ].
Qed.
Lemma type_stops U T : forall f s v i, add_type f U T s = Ok (v, i) -> stops T i.
Proof.
  induction f as [|f IH]; intros s v i H; [ discriminate | ]. cbn [add_type] in H. destruct (next T s) as [t i0]. apply bind_ok in H as (r & _ & H).
  destruct (next T i0) as [[w|] i1]; [ | discriminate ]. destruct (token_eqb (u_upper U w) (chars "GROUP")).
  - unfold add_group_type in H. destruct (next T i1) as [[name|] i2]; [ | discriminate ]. apply bind_ok in H as ([c i3] & _ & H). apply bind_ok in H as ([id i4] & _ & H).
    apply bind_ok in H as ([l i5] & H1 & H). apply Ok_inj in H. injection H as _ <-. exact (child_types_stop _ _ _ _ _ IH H1).
  - apply bind_ok in H as (p & _ & H). exact (primitive_stops _ _ _ _ _ _ _ H).
Qed.
Lemma message_stops U T v i : parse_message_type U T = Ok (v, i) -> stops T i.
Proof.
  unfold parse_message_type. intros H. destruct (next T 0) as [t i0]. destruct (is_token t "message"); [ | discriminate ].
  destruct (next T i0) as [[name|] i1]; [ | discriminate ]. apply bind_ok in H as ([l i5] & H1 & H). apply Ok_inj in H. injection H as _ <-.
  exact (child_types_stop _ _ _ _ _ (type_stops U T _) H1).
Qed.

(** A text cut off is only accepted if its last token is one of these. *)
Lemma cut_rejected U P T t v i : (length P <= length T)%nat -> (forall j, (S j < length P)%nat -> nth_error P j = nth_error T j) ->
  parse_message_type U T = Ok (t, length T) -> parse_message_type U P = Ok (v, i) -> ends_field P.
Proof.
  intros Hl Ha HT HP. pose proof (message_stops _ _ _ _ HP) as (j & w & -> & Hj & Hw).
  assert (Hj' : (j < length P)%nat) by (apply nth_error_Some; congruence).
  destruct (tr_message U P T (length P - 1) ltac:(lia) ltac:(intros; apply Ha; lia) Hl v (S j) HP) as [[HT' _]|Hi].
  - rewrite HT in HT'. apply Ok_inj in HT'. injection HT' as _ E. exists (firstn j P), w. split; [ | exact Hw ].
    rewrite <- (firstn_skipn j P) at 1. f_equal. apply nth_error_split in Hj as (l1 & l2 & -> & <-). rewrite app_length in *. cbn [length] in *.
    destruct l2; [ | cbn [length] in *; lia ]. rewrite skipn_app, skipn_all, Nat.sub_diag. reflexivity.
  - exists (firstn j P), w. split; [ | exact Hw ].
    rewrite <- (firstn_skipn j P) at 1. f_equal. apply nth_error_split in Hj as (l1 & l2 & -> & <-). rewrite app_length in *. cbn [length] in *.
    destruct l2; [ | cbn [length] in *; lia ]. rewrite skipn_app, skipn_all, Nat.sub_diag. reflexivity.
Qed.

(** ** Texts cut off between fields *)

Definition quiet (ts : list token) : Prop := Forall (fun t => ~ ender t) ts.
Lemma spells_quiet k w : Forall (fun a => 64 < a < 91 \/ 47 < a < 58 \/ a = 95) (chars k) -> spells k w -> ~ ender w.
Proof.
  intros Hk H He. unfold spells in H. destruct He as [-> |[-> | ->]]; inversion H as [|a b l l' Hab Hl E1 E2]; subst; rewrite <- E1 in Hk; pose proof (Forall_inv Hk) as Ha; cbn beta in Ha; lia.
Qed.
Lemma number_quiet w z : number w z -> ~ ender w.
Proof.
  intros (sign & digits & Hn & Hd & -> & Hs & _) He. destruct digits as [|d digits]; [ contradiction | ]. pose proof (Forall_inv Hd) as Hr. cbn beta in Hr. cbn [map] in He.
  assert (Hcase : forall x r, sign ++ (Z.to_N d + 48) :: r = [x] -> x = Z.to_N d + 48).
  { intros x r E. destruct sign as [|a [|b sign]]; cbn [app] in E; try discriminate. injection E; auto. }
  destruct He as [He|[He|He]]; [ apply (Hcase 123) in He | apply (Hcase 125) in He | apply (Hcase 59) in He ]; lia.
Qed.
Lemma word_quiet U w : word U w -> ~ ender w.
Proof. intros [_ H] [-> |[-> | ->]]; pose proof (Forall_inv H) as [_ Hd]; apply Hd; vm_compute; tauto. Qed.
Ltac letters := let E := fresh in match goal with |- Forall ?p (chars ?k) => let l := eval vm_compute in (chars k) in change (Forall p l) end; repeat (constructor; [ lia | ]); constructor.
Ltac quiet_one := first [ eapply spells_quiet; [ | eassumption ]; letters | eapply number_quiet; eassumption | eapply word_quiet; eassumption
  | intros [He|[He|He]]; discriminate He ].
Lemma type_quiet t ts : type_tokens t ts -> quiet ts.
Proof.
  intros [t' k w Hk Hw|n w l Hw Hl]; repeat (apply Forall_cons; [ | ]); try apply Forall_nil; try quiet_one.
  eapply spells_quiet; [ | exact Hw ]. destruct t'; cbn [type_words In] in Hk; repeat (destruct Hk as [<-|Hk]); try destruct Hk; letters.
Qed.
Lemma annotation_quiet c l ts : annotation_tokens c l ts -> quiet ts.
Proof.
  assert (Hunit : forall u b ts, unit_tokens u b ts -> quiet ts).
  { intros u b ts' [|u' w Hw|u' b' w v Hw Hv]; repeat (apply Forall_cons; [ | ]); try apply Forall_nil; try quiet_one.
    - eapply spells_quiet; [ | exact Hw ]. destruct u'; letters.
    - eapply spells_quiet; [ | exact Hw ]. destruct u'; letters.
    - eapply spells_quiet; [ | exact Hv ]. destruct b'; letters. }
  intros [|c' k w Hk Hw|l' ts' Hl].
  - apply Forall_nil.
  - repeat (apply Forall_cons; [ | ]); try apply Forall_nil; try quiet_one. eapply spells_quiet; [ | exact Hw ].
    destruct c'; try discriminate Hk; injection Hk as <-; letters.
  - apply Forall_cons; [ quiet_one | ]. apply Forall_app. split; [ | apply Forall_cons; [ quiet_one | apply Forall_nil ] ].
    destruct Hl as [l'' k w Hk Hw|p s w v u Hw Hv Hu|p w v Hw Hv|u b w ts' Hw Ht|u b w ts' Hw Ht|t w v u Hw Hv Hu];
      try (apply Forall_cons; [ quiet_one | exact (Hunit _ _ _ Ht) ]);
      repeat (apply Forall_cons; [ | ]); try apply Forall_nil; try quiet_one.
    + eapply spells_quiet; [ | exact Hw ]. destruct l''; try discriminate Hk; injection Hk as <-; letters.
    + eapply spells_quiet; [ | exact Hu ]. destruct (snd (integer_parts t)); letters.
Qed.
Lemma group_quiet c ts : group_tokens c ts -> quiet ts.
Proof.
  intros [|c' k w Hk Hw]; repeat (apply Forall_cons; [ | ]); try apply Forall_nil; try quiet_one. eapply spells_quiet; [ | exact Hw ]. subst k. destruct c'; letters.
Qed.
Lemma id_quiet id ts : id_tokens id ts -> quiet ts.
Proof. intros [|z w Hw]; repeat (apply Forall_cons; [ | ]); try apply Forall_nil; quiet_one. Qed.
Lemma repetition_quiet r w : spells (repetition_word r) w -> ~ ender w.
Proof. intros H. eapply spells_quiet; [ | exact H ]. destruct r; letters. Qed.

Lemma quiet_no_end ts : quiet ts -> ~ ends_field ts.
Proof. intros H (ts' & t & -> & Ht). apply Forall_app in H as [_ H]. exact (Forall_inv H Ht). Qed.
Lemma quiet_firstn k ts : quiet ts -> quiet (firstn k ts).
Proof. intros H. unfold quiet in *. rewrite <- (firstn_skipn k ts) in H. apply Forall_app in H. apply H. Qed.
Lemma ends_app a b : b <> [] -> ends_field (a ++ b) -> ends_field b.
Proof.
  intros Hb (ts & t & E & Ht). destruct (exists_last Hb) as (b' & x & ->). rewrite app_assoc in E. apply app_inj_tail in E as [_ ->]. exists b', t. auto.
Qed.
Lemma next_none (T : list token) i : skipn i T = [] -> (i <= length T)%nat -> next T i = (None, i) /\ i = length T.
Proof.
  intros H Hi. apply (f_equal (@length token)) in H. rewrite skipn_length in H. cbn [length] in H. assert (E : i = length T) by lia. split; [ | exact E ].
  unfold next. rewrite (proj2 (nth_error_None T i)) by lia. reflexivity.
Qed.

Lemma fields_cut U P : unicode_ok U ->
  (forall t ts, field_tokens U t ts -> forall f i k, skipn i P = firstn k ts -> (0 < k < length ts)%nat -> ends_field (firstn k ts) -> (k <= f)%nat ->
     exists info lt c fields fields', t = Group info lt c fields /\ cut fields' fields /\ add_type f U P i = Ok (Group info lt c fields', length P)) /\
  (forall l ts, fields_tokens U l ts -> forall f n i k, skipn i P = firstn k ts -> (i <= length P)%nat -> (k <= length ts)%nat -> k = 0%nat \/ ends_field (firstn k ts) ->
     (k <= f)%nat -> (k < n)%nat -> exists l', cut l' l /\ child_types n (add_type f U P) P i = Ok (l', length P)).
Proof.
  intros HU. apply (tokens_ind U (fun t ts _ => forall f i k, skipn i P = firstn k ts -> (0 < k < length ts)%nat -> ends_field (firstn k ts) -> (k <= f)%nat ->
     exists info lt c fields fields', t = Group info lt c fields /\ cut fields' fields /\ add_type f U P i = Ok (Group info lt c fields', length P))
    (fun l ts _ => forall f n i k, skipn i P = firstn k ts -> (i <= length P)%nat -> (k <= length ts)%nat -> k = 0%nat \/ ends_field (firstn k ts) ->
     (k <= f)%nat -> (k < n)%nat -> exists l', cut l' l /\ child_types n (add_type f U P) P i = Ok (l', length P))).
  - intros name r id l c t w ts1 ts2 ts3 Hw H1 Hn H2 H3 Hacc f i k Hs Hk He Hf. exfalso.
    assert (E : w :: ts1 ++ name :: ts2 ++ ts3 ++ [sym ";"] = (w :: ts1 ++ name :: ts2 ++ ts3) ++ [sym ";"]) by (cbn [app]; rewrite <- !app_assoc; cbn [app]; rewrite <- !app_assoc; reflexivity).
    rewrite E in Hk, He. rewrite app_length in Hk. cbn [length] in Hk. rewrite firstn_app in He. replace (k - _)%nat with 0%nat in He by (cbn [length] in *; lia).
    cbn [firstn] in He. rewrite app_nil_r in He. revert He. apply quiet_no_end, quiet_firstn. apply Forall_cons; [ exact (repetition_quiet _ _ Hw) | ].
    apply Forall_app. split; [ exact (type_quiet _ _ H1) | ]. apply Forall_cons; [ exact (word_quiet _ _ Hn) | ]. apply Forall_app.
    split; [ exact (annotation_quiet _ _ _ H2) | exact (id_quiet _ _ H3) ].
  - intros name r id c fields w v ts1 ts2 ts3 Hw Hv Hn H1 H2 H3 IH f i k Hs Hk He Hf.
    set (head := w :: v :: name :: ts1 ++ ts2).
    assert (E : w :: v :: name :: ts1 ++ ts2 ++ sym "{" :: ts3 ++ [sym "}"] = head ++ sym "{" :: ts3 ++ [sym "}"]) by (unfold head; cbn [app]; rewrite <- !app_assoc; reflexivity).
    assert (Hq : quiet head).
    { unfold head. apply Forall_cons; [ exact (repetition_quiet _ _ Hw) | ]. apply Forall_cons; [ quiet_one | ]. apply Forall_cons; [ quiet_one | ]. apply Forall_app.
      split; [ exact (group_quiet _ _ H1) | exact (id_quiet _ _ H2) ]. }
    rewrite E in Hs, Hk, He. rewrite firstn_app in Hs, He. rewrite !app_length in Hk. cbn [length] in Hk. rewrite app_length in Hk. cbn [length] in Hk.
    destruct (k - length head)%nat as [|k'] eqn:Ek; [ exfalso; cbn [firstn] in He; rewrite app_nil_r in He; revert He; apply quiet_no_end, quiet_firstn, Hq | ].
    rewrite (firstn_all2 head) in Hs, He by lia. cbn [firstn] in Hs, He. rewrite firstn_app in Hs, He. replace (k' - length ts3)%nat with 0%nat in Hs, He by lia.
    cbn [firstn] in Hs, He. rewrite app_nil_r in Hs, He. change (head ++ ?x) with (w :: v :: name :: (ts1 ++ ts2) ++ x) in Hs. rewrite <- app_assoc in Hs.
    destruct f as [|f]; [ cbn [length] in Hf; lia | ]. cbn [add_type].
    here. destruct (repetition_ok U r w HU Hw) as [-> _]. cbn [bind]. here. assert (Eg : token_eqb (u_upper U v) (chars "GROUP") = true) by (upper U; reflexivity). rewrite Eg. clear Eg.
    unfold add_group_type. here.
    destruct (id_first id ts2 (sym "{") (firstn k' ts3) H2 ltac:(discriminate)) as (y & q & Ey & Hy). rewrite Ey in K1.
    rewrite (group_tokens_ok U P _ c ts1 y q HU H1 K1 Hy). cbn [bind]. apply skipn_past in K1. rewrite <- Ey in K1.
    rewrite (parse_id_ok P _ id ts2 (sym "{") _ H2 K1 ltac:(discriminate)). cbn [bind]. apply skipn_past in K1. unfold parse_child_types.
    assert (Hlt : (i + 3 + length ts1 + length ts2 < length P)%nat).
    { apply (f_equal (@length token)) in K1. rewrite skipn_length in K1. cbn [length] in K1. lia. }
    here. asrt.
    assert (Hhead : (length head = 3 + length ts1 + length ts2)%nat) by (unfold head; lens).
    destruct (IH f (S (length P)) _ k' K2) as (fields' & Hcut & Hrun); try lia.
    + destruct k' as [|k']; [ left; reflexivity | right ]. destruct ts3 as [|x ts3]; [ cbn [length] in Hk; lia | ]. cbn [firstn] in He |- *.
      apply (ends_app (head ++ [sym "{"])); [ discriminate | ]. rewrite <- app_assoc. exact He.
    + apply (f_equal (@length token)) in K2. rewrite skipn_length, firstn_length in K2. lia.
    + rewrite Hrun. cbn [bind]. do 5 eexists. split; [ reflexivity | ]. split; [ exact Hcut | reflexivity ].
  - intros f n i k Hs Hi Hk _ _ Hn. rewrite firstn_nil in Hs. destruct n as [|n]; [ lia | ]. cbn [child_types]. destruct (next_none _ _ Hs Hi) as [-> ->].
    exists []. split; [ apply cut_here | reflexivity ].
  - intros t l ts1 ts2 Ht IH1 Hts IH2 f n i k Hs Hi Hk He Hf Hn. destruct n as [|n]; [ lia | ]. destruct k as [|k].
    { cbn [firstn] in Hs. cbn [child_types]. destruct (next_none _ _ Hs Hi) as [-> ->]. exists []. split; [ apply cut_here | reflexivity ]. }
    destruct He as [He|He]; [ discriminate | ].
    destruct (field_tokens_cons _ _ _ Ht) as (rep & w & ts1' & E1 & Hw). cbn [child_types].
    assert (Hs' : skipn i P = w :: firstn k (ts1' ++ ts2)) by (rewrite Hs, E1; reflexivity). here.
    rewrite (token_eqb_neq w (chars "}")) by apply (repetition_ok U rep w HU Hw). cbn [backtrack bind]. clear K Hs'.
    rewrite app_length in Hk. rewrite firstn_app in Hs, He. destruct (Nat.lt_ge_cases (S k) (length ts1)) as [Hlt|Hge].
    + replace (S k - length ts1)%nat with 0%nat in Hs, He by lia. rewrite firstn_O, app_nil_r in Hs, He.
      destruct (IH1 f i (S k) Hs ltac:(lia) He Hf) as (info & lt & c & fields & fields' & -> & Hcut & ->). cbn [bind].
      destruct n as [|n]; [ lia | ]. cbn [child_types]. destruct (next_none P (length P) (skipn_all P) (Nat.le_refl _)) as [-> _]. cbn [bind].
      exists [Group info lt c fields']. split; [ apply cut_inside; exact Hcut | reflexivity ].
    + rewrite (firstn_all2 ts1) in Hs, He by lia. rewrite (proj1 (fields_parse U P HU) t ts1 Ht f i _ Hs) by lia. cbn [bind].
      assert (Hpos : (0 < length ts1)%nat) by (rewrite E1; cbn [length]; lia).
      assert (Hi2 : (i + length ts1 <= length P)%nat) by (apply (f_equal (@length token)) in Hs; rewrite skipn_length, app_length in Hs; lia).
      destruct (IH2 f n _ _ (skipn_past _ _ _ _ Hs) Hi2) as (l' & Hcut & ->); try lia.
      * destruct (firstn (S k - length ts1) ts2) as [|x q] eqn:Eq; [ left | right; apply (ends_app ts1); [ discriminate | exact He ] ].
        apply (f_equal (@length token)) in Eq. rewrite firstn_length in Eq. cbn [length] in Eq. lia.
      * cbn [bind]. exists (t :: l'). split; [ apply cut_after; exact Hcut | reflexivity ].
Qed.

Lemma message_cut U t T k : unicode_ok U -> message_tokens U t T -> (k < length T)%nat -> ends_field (firstn k T) ->
  exists name fields fields', t = Group (mk_fi name Optional None) None None fields /\ cut fields' fields /\
    parse_message_type U (firstn k T) = Ok (Group (mk_fi name Optional None) None None fields', k).
Proof.
  intros HU (name & fields & ts & Hn & Hf & -> & ->) Hk He. set (P := firstn k _) in *.
  assert (HP : length P = k) by (unfold P; rewrite firstn_length; lia).
  destruct k as [|[|[|k]]].
  - exfalso. destruct He as (T' & x & E & _). destruct T'; discriminate E.
  - exfalso. revert He. apply quiet_no_end. unfold P. cbn [firstn]. apply Forall_cons; [ quiet_one | apply Forall_nil ].
  - exfalso. revert He. apply quiet_no_end. unfold P. cbn [firstn]. apply Forall_cons; [ quiet_one | ]. apply Forall_cons; [ quiet_one | apply Forall_nil ].
  - assert (EP : P = sym "message" :: name :: sym "{" :: firstn k ts).
    { unfold P. cbn [firstn]. rewrite firstn_app. cbn [length] in Hk. rewrite app_length in Hk. cbn [length] in Hk. replace (k - length ts)%nat with 0%nat by lia.
      rewrite firstn_O, app_nil_r. reflexivity. }
    cbn [length] in Hk. rewrite app_length in Hk. cbn [length] in Hk.
    assert (Hs : skipn 0 P = sym "message" :: name :: sym "{" :: firstn k ts) by (rewrite EP; reflexivity).
    assert (He' : k = 0%nat \/ ends_field (firstn k ts)).
    { rewrite EP in He. destruct k as [|k]; [ left; reflexivity | right ]. destruct ts as [|x ts]; [ cbn [length] in Hk; lia | ]. cbn [firstn] in He |- *.
      apply (ends_app [sym "message"; name; sym "{"]); [ discriminate | exact He ]. }
    clearbody P. unfold parse_message_type. here. tok. here. unfold parse_child_types. here. asrt.
    destruct (proj2 (fields_cut U P HU) fields ts Hf (length P) (S (length P)) 3%nat k K1) as (fields' & Hcut & ->); try lia; try exact He'.
    cbn [bind]. rewrite HP. exists name, fields, fields'. auto.
Qed.

(** ** Texts put together *)

Lemma layout_blank U T b text : blank U b -> layout U T text -> layout U T (b ++ text).
Proof. intros Hb H. induction Hb as [|c b Hc _ IH]; [ exact H | ]. cbn [app]. apply layout_space; assumption. Qed.
Lemma layout_nil U text : layout U [] text -> blank U text.
Proof. intros H. inversion H. assumption. Qed.
Lemma layout_app U : unicode_ok U -> forall T a T' b, layout U T a -> layout U T' b ->
  layout U (T ++ T') (a ++ b) \/ exists Q w w' R, T = Q ++ [w] /\ T' = w' :: R /\ word U w /\ layout U (Q ++ (w ++ w') :: R) (a ++ b).
Proof.
  intros HU T a T' b H Hb. induction H as [c Hc|c d T a Hc Hd H IH|c w T a Hc Hw H IH Hnext].
  - left. apply layout_blank; assumption.
  - destruct IH as [IH|(Q & w & w' & R & -> & E & Hw & IH)].
    + left. rewrite <- app_assoc. cbn [app]. apply layout_delim; assumption.
    + right. exists ([d] :: Q), w, w', R. split; [ reflexivity | ]. split; [ exact E | ]. split; [ exact Hw | ]. rewrite <- app_assoc. cbn [app]. apply layout_delim; assumption.
  - destruct a as [|x a].
    + assert (ET : T = []) by (rewrite <- (layout_tokens U T [] HU H); reflexivity).
      subst T. rewrite app_nil_r. cbn [app]. rewrite <- !app_assoc. assert (Hdec : (match b with [] => True | c :: _ => u_space U c = true \/ delim c end) \/ exists y b', b = y :: b' /\ u_space U y = false /\ ~ delim y).
      { destruct b as [|y b']; [ left; exact I | ]. destruct (u_space U y) eqn:Es; [ left; left; reflexivity | ]. destruct (is_schema_delim y) eqn:Ed.
        - left. right. apply is_delim_spec. exact Ed.
        - right. exists y, b'. split; [ reflexivity | ]. split; [ exact Es | ]. intros Hy. apply is_delim_spec in Hy. congruence. }
      destruct Hdec as [Hdec|(y & b' & Eb & Hs & Hd)]; [ left; apply layout_word; assumption | ]. right.
      destruct Hb as [b0 Hb0|b0 d0 T0 a0 Hb0 Hd0 _|b0 w0 T0 a0 Hb0 Hw0 H0 Hn0].
      * subst b0. pose proof (Forall_inv Hb0). cbn beta in *. congruence.
      * destruct b0 as [|z b0]; cbn [app] in Eb; injection Eb as Ey _; subst y; [ contradiction | ]. pose proof (Forall_inv Hb0). cbn beta in *. congruence.
      * destruct b0 as [|z b0]; [ | cbn [app] in Eb; injection Eb as Ey _; subst y; pose proof (Forall_inv Hb0); cbn beta in *; congruence ].
        exists [], w, w0, T0. split; [ reflexivity | ]. split; [ reflexivity | ]. split; [ exact Hw | ]. cbn [app]. rewrite (app_assoc w w0 a0). apply layout_word; try assumption.
        destruct Hw as [Hne Hw], Hw0 as [_ Hw0]. split; [ destruct w; [ contradiction | discriminate ] | ]. apply Forall_app. auto.
    + destruct IH as [IH|(Q & v & w' & R & -> & E & Hv & IH)].
      * left. rewrite <- !app_assoc. cbn [app]. apply layout_word; try assumption.
      * right. exists (w :: Q), v, w', R. split; [ reflexivity | ]. split; [ exact E | ]. split; [ exact Hv | ]. rewrite <- !app_assoc. cbn [app]. apply layout_word; assumption.
Qed.
Lemma layout_unique U T T' text : unicode_ok U -> layout U T text -> layout U T' text -> T = T'.
Proof. intros HU H1 H2. rewrite <- (layout_tokens _ _ _ HU H1). apply layout_tokens; assumption. Qed.

(** ** Panics *)

(** Whether the tokens begin with a primitive field annotated with MAP or LIST, and whether they contain one. *)
Definition annotated_b (U : unicode) (T : list token) : bool :=
  match T with _ :: o :: v :: _ => token_eqb o (sym "(") && is_one_of ["MAP"; "LIST"]%string (u_upper U v) | _ => false end.
Definition trap_b (U : unicode) (T : list token) : bool :=
  match T with
  | r :: p :: rest =>
      is_one_of ["REQUIRED"; "OPTIONAL"; "REPEATED"]%string (u_upper U r) &&
      (is_one_of ["BOOLEAN"; "INT32"; "INT64"; "INT96"; "FLOAT"; "DOUBLE"; "BYTE_ARRAY"; "BINARY"]%string (u_upper U p) && annotated_b U rest ||
       is_one_of ["FIXED_LEN_BYTE_ARRAY"]%string (u_upper U p) &&
         match rest with a :: _ :: b :: rest => token_eqb a (sym "(") && token_eqb b (sym ")") && annotated_b U rest | _ => false end)
  | _ => false
  end.
Fixpoint traps_b (U : unicode) (T : list token) : bool := match T with [] => false | _ :: T' => trap_b U T || traps_b U T' end.
Lemma one_of_upper U l w : is_one_of l (u_upper U w) = true <-> upper_in U l w.
Proof.
  unfold is_one_of, upper_in. rewrite existsb_exists. split; intros (k & Hk & E); exists k; (split; [ exact Hk | apply token_eqb_spec; exact E ]).
Qed.
Lemma annotated_spec U T : annotated_b U T = true -> exists name v T2, T = name :: sym "(" :: v :: T2 /\ upper_in U ["MAP"; "LIST"]%string v.
Proof.
  destruct T as [|name [|o [|v T2]]]; try discriminate. cbn [annotated_b]. intros H. apply andb_true_iff in H as [H1 H2]. apply token_eqb_spec in H1. subst o.
  exists name, v, T2. split; [ reflexivity | apply one_of_upper; exact H2 ].
Qed.
Lemma traps_spec U : forall T, traps_b U T = true -> primitive_map_or_list U T.
Proof.
  induction T as [|r T IH]; [ discriminate | ]. cbn [traps_b]. intros H. apply orb_true_iff in H as [H|H].
  - destruct T as [|p T]; [ discriminate | ]. cbn [trap_b] in H. apply andb_true_iff in H as [H1 H]. apply one_of_upper in H1. apply orb_true_iff in H as [H|H]; apply andb_true_iff in H as [H2 H]; apply one_of_upper in H2.
    + apply annotated_spec in H as (name & v & T2 & -> & Hv). exists [], r, p, [], name, v, T2. split; [ reflexivity | ]. split; [ exact H1 | ]. split; [ left; split; [ exact H2 | reflexivity ] | exact Hv ].
    + destruct T as [|a [|n [|b T]]]; try discriminate. apply andb_true_iff in H as [H H3]. apply andb_true_iff in H as [Ha Hb]. apply token_eqb_spec in Ha, Hb. subst a b.
      apply annotated_spec in H3 as (name & v & T2 & -> & Hv). exists [], r, p, [sym "("; n; sym ")"], name, v, T2. split; [ reflexivity | ]. split; [ exact H1 | ]. split; [ right; split; [ exact H2 | exists n; reflexivity ] | exact Hv ].
  - destruct (IH H) as (T1 & r' & p & len & name & v & T2 & -> & Hr). exists (r :: T1), r', p, len, name, v, T2. split; [ reflexivity | exact Hr ].
Qed.
Lemma traps_none U : forall T, traps_b U T = false -> forall s, trap_b U (skipn s T) = false.
Proof.
  induction T as [|r T IH]; intros H s; [ destruct s; reflexivity | ]. cbn [traps_b] in H. apply orb_false_iff in H as [H1 H2]. destruct s; [ exact H1 | apply IH; exact H2 ].
Qed.
Lemma skipn_here {A} (T : list A) s w : nth_error T s = Some w -> skipn s T = w :: skipn (S s) T.
Proof. revert s. induction T as [|a T IH]; intros [|s] H; try discriminate H; [ injection H as ->; reflexivity | apply (IH s H) ]. Qed.
Lemma lookup_one_of {A} (table : list (string * A)) s a : lookup table s = Some a -> is_one_of (map fst table) s = true.
Proof.
  unfold is_one_of. induction table as [|[k x] r IH]; cbn [lookup map fst existsb]; [ discriminate | ]. destruct (token_eqb s (chars k)); [ reflexivity | exact IH ].
Qed.

Section NoPanic.
Context (U : unicode) (T : list token).
Context (Hlen : (2 <= length T)%nat) (Hbad : forall s, trap_b U (skipn s T) = false).

Lemma grows {A} a d s (x : res (A * nat)) v i : tr (length T - 1) a d s x x -> x = Ok (v, i) -> ((a + s <= i) \/ d + (length T - 1) <= i)%nat.
Proof. intros H Hx. destruct (H v i Hx) as [[_ Hi]|Hi]; auto. Qed.
Let Hm : (length T - 1 < length T)%nat. Proof. lia. Qed.
Let Hsame : forall j, (j < length T - 1)%nat -> nth_error T j = nth_error T j. Proof. reflexivity. Qed.

Lemma np_next {A} s (K : option token -> nat -> res A) :
  (forall w, nth_error T s = Some w -> K (Some w) (S s) <> Panic) -> K None s <> Panic -> (let (t, i) := next T s in K t i) <> Panic.
Proof. intros H1 H2. unfold next. destruct (nth_error T s) as [w|]; [ apply H1; reflexivity | exact H2 ]. Qed.
Lemma np_peek {A} s k (e : A) (K : nat -> res (A * nat)) : (1 <= s)%nat -> (nth_error T s = Some (chars k) -> K (S s) <> Panic) ->
  (let (t, i) := next T s in if is_token t k then K i else let* i := backtrack i in Ok (e, i)) <> Panic.
Proof.
  intros Hs H. unfold next. destruct (nth_error T s) as [w|] eqn:E.
  - cbn [is_token]. destruct (token_eqb w (chars k)) eqn:Ew; [ | discriminate ]. apply token_eqb_spec in Ew. subst w. exact (H eq_refl).
  - cbn [is_token]. destruct s; [ lia | discriminate ].
Qed.
Lemma np_assert t k : assert_token t k <> Panic.
Proof. unfold assert_token. destruct t as [w|]; [ | discriminate ]. destruct (token_eqb w (chars k)); discriminate. Qed.
Lemma np_i32 t : parse_i32 t <> Panic.
Proof. unfold parse_i32. destruct t as [w|]; [ | discriminate ]. destruct (i32_from_str w); discriminate. Qed.
Lemma np_bool t : parse_bool U t <> Panic.
Proof. unfold parse_bool. destruct t as [w|]; [ | discriminate ]. destruct (lookup _ _); discriminate. Qed.
Lemma np_timeunit t : parse_timeunit U t <> Panic.
Proof. unfold parse_timeunit. destruct t as [w|]; [ | discriminate ]. destruct (lookup _ _); discriminate. Qed.
Ltac nb := apply bind_no_panic; [ first [ apply np_assert | apply np_i32 | apply np_bool | apply np_timeunit | apply try_usize_no_panic ] | intros ? _ ].
Ltac nn := apply np_next; [ intros ? _ | cbn; try discriminate ].

Lemma np_scale s : (1 <= s)%nat -> parse_scale T s <> Panic.
Proof. intros Hs. unfold parse_scale. apply np_peek; [ exact Hs | ]. intros _. nn. nb. discriminate. Qed.
Lemma np_converted_decimal s : parse_converted_decimal T s <> Panic.
Proof. unfold parse_converted_decimal. nn. nb. nn. nb. apply bind_no_panic; [ apply np_scale; lia | ]. intros [z i] _. nn. repeat nb. discriminate. Qed.
Lemma np_unit s : (1 <= s)%nat -> parse_unit U T s <> Panic.
Proof.
  intros Hs. unfold parse_unit. apply np_peek; [ exact Hs | ]. intros _. nn. nb. apply bind_no_panic.
  - unfold parse_utc. apply np_peek; [ lia | ]. intros _. nn. nb. discriminate.
  - intros [b i] _. nn. nb. discriminate.
Qed.
Lemma np_decimal s : (1 <= s)%nat -> parse_decimal T s <> Panic.
Proof. intros Hs. unfold parse_decimal. apply np_peek; [ exact Hs | ]. intros _. nn. nb. apply bind_no_panic; [ apply np_scale; lia | ]. intros [z i] _. nn. nb. discriminate. Qed.
Lemma np_logical tpe s : (1 <= s)%nat -> is_logical_type tpe = true -> tpe <> sym "MAP" -> tpe <> sym "LIST" -> parse_logical_type U T tpe s <> Panic.
Proof.
  intros Hs Ht H1 H2. unfold is_logical_type, is_one_of in Ht. cbn [existsb] in Ht. rewrite (token_eqb_neq tpe (chars "MAP") H1), (token_eqb_neq tpe (chars "LIST") H2) in Ht. unfold parse_logical_type.
  repeat lazymatch goal with |- context[token_eqb tpe ?k] => destruct (token_eqb tpe k) end; try discriminate.
  - apply bind_no_panic; [ apply np_decimal; exact Hs | ]. intros [[p c] i] _. nb. nb. discriminate.
  - apply bind_no_panic; [ apply np_unit; exact Hs | ]. intros [[p c] i] _. discriminate.
  - apply bind_no_panic; [ apply np_unit; exact Hs | ]. intros [[p c] i] _. discriminate.
  - apply np_next; [ intros w _ | destruct s; [ lia | discriminate ] ]. destruct (is_token (Some w) "("); [ | discriminate ]. nn. nb. nn. destruct (is_token _ ","); [ | discriminate ]. nn. nb. nn. nb. discriminate.
Qed.
Lemma np_id s : (1 <= s)%nat -> parse_id T s <> Panic.
Proof. intros Hs. unfold parse_id. apply np_peek; [ exact Hs | ]. intros _. nn. discriminate. Qed.
Lemma np_annotation s : annotated_b U (skipn s T) = false -> parse_annotation U T (S s) <> Panic.
Proof.
  intros Hs. unfold parse_annotation. apply np_peek; [ lia | ]. intros Hopen. apply np_next; [ intros w Hw | discriminate ].
  assert (Hno : is_one_of ["MAP"; "LIST"]%string (u_upper U w) = false).
  { destruct (nth_error T s) as [name|] eqn:En.
    - rewrite (skipn_here _ _ _ En), (skipn_here _ _ _ Hopen), (skipn_here _ _ _ Hw) in Hs. cbn [annotated_b] in Hs. rewrite token_eqb_refl in Hs. exact Hs.
    - apply nth_error_None in En. assert (S s < length T)%nat by (apply nth_error_Some; congruence). lia. }
  unfold is_one_of in Hno. cbn [existsb] in Hno. apply orb_false_iff in Hno as [Hno1 Hno2]. apply orb_false_iff in Hno2 as [Hno2 _]. cbv zeta. apply bind_no_panic.
  { destruct (is_logical_type _); [ discriminate | ]. destruct (is_converted_type _); discriminate. }
  intros [l c] Hlc. apply bind_no_panic.
  - destruct l; [ | discriminate ]. assert (Hl : is_logical_type (u_upper U w) = true) by (destruct (is_logical_type (u_upper U w)); [ reflexivity | destruct (is_converted_type _); discriminate ]).
    apply bind_no_panic; [ apply np_logical; [ lia | exact Hl | | ] | intros [? ?] _; discriminate ].
    + intros E. rewrite E in Hno1. discriminate Hno1.
    + intros E. rewrite E in Hno2. discriminate Hno2.
  - intros [l' i] _. apply bind_no_panic.
    + destruct c as [[]|]; try discriminate. apply bind_no_panic; [ apply np_converted_decimal | intros [? ?] _; discriminate ].
    + intros [c' i'] _. nn. nb. discriminate.
Qed.
Lemma np_primitive r physical s w v : nth_error T s = Some w -> nth_error T (S s) = Some v ->
  repetition_from_str (u_upper U w) = Ok r -> type_from_str (u_upper U v) = Ok physical -> add_primitive_type U T r physical (S (S s)) <> Panic.
Proof.
  intros Hw Hv Hr Hp. assert (Hb := Hbad s). rewrite (skipn_here _ _ _ Hw), (skipn_here _ _ _ Hv) in Hb. cbn [trap_b] in Hb.
  assert (Hr' : is_one_of ["REQUIRED"; "OPTIONAL"; "REPEATED"]%string (u_upper U w) = true).
  { unfold repetition_from_str in Hr. destruct (lookup _ _) eqn:E in Hr; [ | discriminate Hr ]. exact (lookup_one_of _ _ _ E). }
  rewrite Hr' in Hb. cbn [andb] in Hb. apply orb_false_iff in Hb as [Hb1 Hb2]. clear Hr Hr'.
  assert (Hp' : if (physical =? 7)%Z then is_one_of ["FIXED_LEN_BYTE_ARRAY"]%string (u_upper U v) = true
                else is_one_of ["BOOLEAN"; "INT32"; "INT64"; "INT96"; "FLOAT"; "DOUBLE"; "BYTE_ARRAY"; "BINARY"]%string (u_upper U v) = true).
  { clear - Hp. unfold type_from_str in Hp. cbn [lookup] in Hp. unfold is_one_of. cbn [existsb].
    repeat match type of Hp with context [token_eqb ?a ?b] => destruct (token_eqb a b) end; try discriminate Hp; apply Ok_inj in Hp; subst physical; reflexivity. }
  unfold add_primitive_type. apply bind_no_panic.
  { unfold parse_length. destruct (physical =? 7)%Z; [ | discriminate ]. nn. nb. nn. nb. nn. nb. discriminate. }
  intros [len i] Hi.
  assert (Hann : annotated_b U (skipn i T) = false).
  { unfold parse_length in Hi. destruct (physical =? 7)%Z.
    - rewrite Hp' in Hb2. cbn [andb] in Hb2. clear - Hi Hb2. unfold next in Hi.
      destruct (nth_error T (S (S s))) as [a|] eqn:Ea; [ | discriminate Hi ]. cbn [assert_token] in Hi. destruct (token_eqb a (chars "(")) eqn:E1; [ | discriminate Hi ]. cbn [bind] in Hi.
      destruct (nth_error T (S (S (S s)))) as [n|] eqn:En; [ | discriminate Hi ]. cbn [parse_i32] in Hi. destruct (i32_from_str n); [ | discriminate Hi ]. cbn [bind] in Hi.
      destruct (nth_error T (S (S (S (S s))))) as [b|] eqn:Eb; [ | discriminate Hi ]. cbn [assert_token] in Hi. destruct (token_eqb b (chars ")")) eqn:E2; [ | discriminate Hi ]. cbn [bind] in Hi.
      apply Ok_inj in Hi. injection Hi as _ <-. rewrite (skipn_here _ _ _ Ea), (skipn_here _ _ _ En), (skipn_here _ _ _ Eb) in Hb2.
      change (sym "(") with (chars "(") in Hb2. change (sym ")") with (chars ")") in Hb2. rewrite E1, E2 in Hb2. exact Hb2.
    - rewrite Hp' in Hb1. cbn [andb] in Hb1. apply Ok_inj in Hi. injection Hi as _ <-. exact Hb1. }
  apply np_next; [ intros name _ | discriminate ]. apply bind_no_panic; [ apply np_annotation; exact Hann | ]. intros [[c l] i1] Hi1.
  apply (grows 0 0 (S i)) in Hi1; [ | apply tr_annotation; assumption ].
  apply bind_no_panic; [ apply np_id; lia | ]. intros [id i2] _. nn. nb. apply bind_no_panic; [ apply physical_no_panic | ]. intros ph _.
  apply bind_no_panic; [ | discriminate ]. unfold try_from_primitive.
  apply bind_no_panic; [ apply (check_no_panic _ _ None) | ]. intros. apply bind_no_panic; [ apply (check_no_panic _ None _) | discriminate ].
Qed.
Lemma np_children step lo : (forall s, (lo <= s < length T)%nat -> step s <> Panic /\ forall v i, step s = Ok (v, i) -> (s < i)%nat) ->
  forall n s, (lo <= s)%nat -> (length T - s < n)%nat -> child_types n step T s <> Panic.
Proof.
  intros Hstep. induction n as [|n IH]; intros s Hs Hn; [ lia | ]. cbn [child_types]. apply np_next; [ intros w Hw | discriminate ].
  assert (Hlt : (s < length T)%nat) by (apply nth_error_Some; congruence). destruct (token_eqb w (chars "}")); [ discriminate | ]. cbn [backtrack bind].
  destruct (Hstep s ltac:(lia)) as [H1 H2]. apply bind_no_panic; [ exact H1 | ]. intros [v i] Hi. apply H2 in Hi.
  apply bind_no_panic; [ apply IH; lia | intros [? ?] _; discriminate ].
Qed.
Lemma np_type : forall f s, (s < length T)%nat -> (length T - s <= f)%nat -> add_type f U T s <> Panic.
Proof.
  induction f as [|f IH]; intros s Hs Hf; [ lia | ]. cbn [add_type]. apply np_next; [ intros w Hw | discriminate ]. apply bind_no_panic.
  { unfold repetition_from_str. destruct (lookup _ _); discriminate. }
  intros r Hr. apply np_next; [ intros v Hv | discriminate ]. destruct (token_eqb (u_upper U v) (chars "GROUP")).
  - unfold add_group_type. apply np_next; [ intros name Hn | discriminate ]. assert (Hlt : (S (S s) < length T)%nat) by (apply nth_error_Some; congruence).
    apply bind_no_panic.
    { unfold parse_group_converted. apply np_peek; [ lia | ]. intros _. nn. apply bind_no_panic; [ unfold converted_group_from_str; destruct (lookup _ _); discriminate | intros ? _ ]. nn. nb. discriminate. }
    intros [c i1] Hi1. apply (grows 0 0 (S (S (S s)))) in Hi1; [ | apply tr_group_converted; assumption ].
    apply bind_no_panic; [ apply np_id; lia | ]. intros [id i2] Hi2. apply (grows 0 0 i1) in Hi2; [ | apply tr_id; assumption ].
    apply bind_no_panic; [ | intros [? ?] _; discriminate ]. unfold parse_child_types. nn. nb.
    apply (np_children _ (S i2)); [ | lia | lia ]. intros s' Hs'. split; [ apply IH; lia | ]. intros t i Hi.
    apply (grows 1 1 s') in Hi; [ lia | apply tr_type; auto ].
  - apply bind_no_panic; [ unfold type_from_str; destruct (lookup _ _); discriminate | ]. intros p Hp. apply (np_primitive r p s w v); assumption.
Qed.
End NoPanic.

Lemma message_no_panic U T : traps_b U T = false -> parse_message_type U T <> Panic.
Proof.
  intros Hb. pose proof (traps_none U T Hb) as Hbad. unfold parse_message_type. apply np_next; [ intros w Hw | discriminate ]. destruct (is_token (Some w) "message"); [ | discriminate ].
  apply np_next; [ intros name Hn | discriminate ]. assert (Hlen : (1 < length T)%nat) by (apply nth_error_Some; congruence).
  apply bind_no_panic; [ | intros [? ?] _; discriminate ]. unfold parse_child_types. apply np_next; [ intros v Hv | discriminate ]. apply bind_no_panic; [ apply np_assert | intros ? _ ].
  apply (np_children U T Hlen Hbad _ 3%nat); [ | lia | lia ]. intros s Hs. split; [ apply np_type; try assumption; lia | ]. intros t i Hi.
  apply (grows T 1 1 s) in Hi; [ lia | apply tr_type; try lia; auto ].
Qed.
