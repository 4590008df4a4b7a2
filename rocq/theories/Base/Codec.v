(** Self-delimiting encodings of structs, only to show that the laws asked of the thrift protocol can be met for every
    value: nothing here is the compact protocol itself. *)
From Verif Require Import Base.Prelude.
Open Scope N_scope.

Record codec (A : Type) := mk_codec {
  cenc : A -> list N;
  cdec : list N -> option (A * list N);
  cok : A -> Prop;
  claw : forall a rest, cok a -> cdec (cenc a ++ rest) = Some (a, rest);
  csound : forall l a rest, cdec l = Some (a, rest) -> cok a;
  cshrink : forall l a rest, cdec l = Some (a, rest) -> (length rest <= length l)%nat
}.
Arguments cenc {A}. Arguments cdec {A}. Arguments cok {A}. Arguments claw {A}. Arguments csound {A}. Arguments cshrink {A}.

Fixpoint pos_enc (p : positive) : list N :=
  match p with xH => [2] | xO p => 0 :: pos_enc p | xI p => 1 :: pos_enc p end.
Fixpoint pos_dec (l : list N) : option (positive * list N) :=
  match l with
  | 2 :: r => Some (xH, r)
  | 0 :: r => match pos_dec r with Some (p, r) => Some (xO p, r) | None => None end
  | 1 :: r => match pos_dec r with Some (p, r) => Some (xI p, r) | None => None end
  | _ => None
  end.
Lemma pos_law p rest : pos_dec (pos_enc p ++ rest) = Some (p, rest).
Proof. induction p; cbn [pos_enc pos_dec app]; rewrite ?IHp; reflexivity. Qed.
Lemma pos_shrink l : forall p rest, pos_dec l = Some (p, rest) -> (length rest <= length l)%nat.
Proof.
  induction l as [|b l IH]; intros p rest H; [ discriminate H | ]. cbn [pos_dec length] in *.
  destruct b as [|[q|q|]]; try discriminate H.
  - destruct (pos_dec l) as [[p' r']|] eqn:E; [ | discriminate H ]. specialize (IH _ _ eq_refl). assert (rest = r') by congruence. subst. lia.
  - destruct q; try discriminate H. assert (rest = l) by congruence. subst. lia.
  - destruct (pos_dec l) as [[p' r']|] eqn:E; [ | discriminate H ]. specialize (IH _ _ eq_refl). assert (rest = r') by congruence. subst. lia.
Qed.

Definition z_enc (z : Z) : list N := match z with Z0 => [0] | Zpos p => 1 :: pos_enc p | Zneg p => 2 :: pos_enc p end.
Definition z_dec (l : list N) : option (Z * list N) :=
  match l with
  | 0 :: r => Some (0%Z, r)
  | 1 :: r => match pos_dec r with Some (p, r) => Some (Zpos p, r) | None => None end
  | 2 :: r => match pos_dec r with Some (p, r) => Some (Zneg p, r) | None => None end
  | _ => None
  end.
Lemma z_law z rest : z_dec (z_enc z ++ rest) = Some (z, rest).
Proof. destruct z; cbn [z_enc z_dec app]; rewrite ?pos_law; reflexivity. Qed.
Lemma z_shrink l z rest : z_dec l = Some (z, rest) -> (length rest <= length l)%nat.
Proof.
  destruct l as [|b l]; intros H; [ discriminate H | ]. cbn [z_dec length] in *.
  destruct b as [|[q|q|]]; try discriminate H.
  - assert (rest = l) by congruence. subst. lia.
  - destruct q; try discriminate H. destruct (pos_dec l) as [[p' r']|] eqn:E; [ | discriminate H ]. apply pos_shrink in E. assert (rest = r') by congruence. subst. lia.
  - destruct (pos_dec l) as [[p' r']|] eqn:E; [ | discriminate H ]. apply pos_shrink in E. assert (rest = r') by congruence. subst. lia.
Qed.

(** Signed integers of [w] bits. *)
Definition c_int (w : N) : codec Z.
Proof.
  refine (mk_codec Z z_enc (fun l => match z_dec l with Some (z, r) => if in_s w z then Some (z, r) else None | None => None end)
    (fun z => in_s w z = true) _ _ _).
  - intros a rest H. rewrite z_law, H. reflexivity.
  - intros l a rest H. destruct (z_dec l) as [[z r]|]; [ | discriminate H ]. destruct (in_s w z) eqn:E; [ congruence | discriminate H ].
  - intros l a rest H. destruct (z_dec l) as [[z r]|] eqn:Ez; [ | discriminate H ]. destruct (in_s w z) eqn:E; [ | discriminate H ].
    apply z_shrink in Ez. assert (rest = r) by congruence. subst. exact Ez.
Defined.

Definition c_map {A B} (f : B -> A) (g : A -> B) (Hgf : forall b, g (f b) = b) (Hfg : forall a, f (g a) = a) (c : codec A) : codec B.
Proof.
  refine (mk_codec B (fun b => cenc c (f b)) (fun l => match cdec c l with Some (a, r) => Some (g a, r) | None => None end)
    (fun b => cok c (f b)) _ _ _).
  - intros b rest H. rewrite (claw c _ _ H), Hgf. reflexivity.
  - intros l b rest H. destruct (cdec c l) as [[a r]|] eqn:E; [ | discriminate H ]. assert (b = g a) by congruence. subst. rewrite Hfg.
    exact (csound c _ _ _ E).
  - intros l b rest H. destruct (cdec c l) as [[a r]|] eqn:E; [ | discriminate H ]. assert (rest = r) by congruence. subst. exact (cshrink c _ _ _ E).
Defined.

Definition c_pair {A B} (ca : codec A) (cb : codec B) : codec (A * B).
Proof.
  refine (mk_codec (A * B) (fun x => cenc ca (fst x) ++ cenc cb (snd x))
    (fun l => match cdec ca l with
              | Some (a, r) => match cdec cb r with Some (b, r) => Some ((a, b), r) | None => None end
              | None => None
              end)
    (fun x => cok ca (fst x) /\ cok cb (snd x)) _ _ _).
  - intros [a b] rest [Ha Hb]. cbn [fst snd] in *. rewrite <- app_assoc, (claw ca _ _ Ha), (claw cb _ _ Hb). reflexivity.
  - intros l [a b] rest H. destruct (cdec ca l) as [[a' r]|] eqn:Ea; [ | discriminate H ].
    destruct (cdec cb r) as [[b' r']|] eqn:Eb; [ | discriminate H ]. cbn [fst snd].
    assert (a = a') by congruence. assert (b = b') by congruence. subst. split; [ exact (csound ca _ _ _ Ea) | exact (csound cb _ _ _ Eb) ].
  - intros l [a b] rest H. destruct (cdec ca l) as [[a' r]|] eqn:Ea; [ | discriminate H ].
    destruct (cdec cb r) as [[b' r']|] eqn:Eb; [ | discriminate H ]. assert (rest = r') by congruence. subst.
    apply (cshrink ca) in Ea. apply (cshrink cb) in Eb. lia.
Defined.

Definition c_option {A} (c : codec A) : codec (option A).
Proof.
  refine (mk_codec (option A) (fun x => match x with None => [0] | Some a => 1 :: cenc c a end)
    (fun l => match l with
              | 0 :: r => Some (None, r)
              | 1 :: r => match cdec c r with Some (a, r) => Some (Some a, r) | None => None end
              | _ => None
              end)
    (fun x => match x with None => True | Some a => cok c a end) _ _ _).
  - intros [a|] rest H; cbn [app]; [ rewrite (claw c _ _ H) | ]; reflexivity.
  - intros [|b l] a rest H; [ discriminate H | ]. destruct b as [|[q|q|]]; try discriminate H.
    + assert (a = None) by congruence. subst. exact I.
    + destruct (cdec c l) as [[x r]|] eqn:E; [ | discriminate H ]. assert (a = Some x) by congruence. subst. exact (csound c _ _ _ E).
  - intros [|b l] a rest H; [ discriminate H | ]. cbn [length]. destruct b as [|[q|q|]]; try discriminate H.
    + assert (rest = l) by congruence. subst. lia.
    + destruct (cdec c l) as [[x r]|] eqn:E; [ | discriminate H ]. assert (rest = r) by congruence. subst. apply (cshrink c) in E. lia.
Defined.

Fixpoint list_enc {A} (c : codec A) (l : list A) : list N :=
  match l with [] => [0] | a :: l => 1 :: cenc c a ++ list_enc c l end.
Fixpoint list_dec {A} (c : codec A) (fuel : nat) (l : list N) : option (list A * list N) :=
  match fuel with
  | O => None
  | S f =>
      match l with
      | 0 :: r => Some ([], r)
      | 1 :: r =>
          match cdec c r with
          | Some (a, r) => match list_dec c f r with Some (x, r) => Some (a :: x, r) | None => None end
          | None => None
          end
      | _ => None
      end
  end.
Lemma list_law {A} (c : codec A) x : Forall (cok c) x -> forall fuel rest, (length (list_enc c x) <= fuel)%nat ->
  list_dec c fuel (list_enc c x ++ rest) = Some (x, rest).
Proof.
  induction 1 as [|a x Ha Hx IH]; intros [|f] rest Hf; cbn [list_enc list_dec app length] in *; try reflexivity; try lia.
  rewrite <- app_assoc, (claw c _ _ Ha), IH; [ reflexivity | ]. rewrite app_length in Hf. lia.
Qed.
Lemma list_sound {A} (c : codec A) fuel : forall l x rest, list_dec c fuel l = Some (x, rest) ->
  Forall (cok c) x /\ (length rest <= length l)%nat.
Proof.
  induction fuel as [|f IH]; intros l x rest H; [ discriminate H | ]. cbn [list_dec] in H.
  destruct l as [|b l]; [ discriminate H | ]. cbn [length]. destruct b as [|[q|q|]]; try discriminate H.
  - assert (x = []) by congruence. assert (rest = l) by congruence. subst. split; [ constructor | lia ].
  - destruct (cdec c l) as [[a r]|] eqn:E; [ | discriminate H ]. destruct (list_dec c f r) as [[y r']|] eqn:El; [ | discriminate H ].
    assert (x = a :: y) by congruence. assert (rest = r') by congruence. subst. apply IH in El as [H1 H2].
    split; [ constructor; [ exact (csound c _ _ _ E) | exact H1 ] | apply (cshrink c) in E; lia ].
Qed.
Definition c_list {A} (c : codec A) : codec (list A).
Proof.
  refine (mk_codec (list A) (list_enc c) (fun l => list_dec c (length l) l) (Forall (cok c)) _ _ _).
  - intros a rest H. apply list_law; [ exact H | rewrite app_length; lia ].
  - intros l a rest H. apply list_sound in H. apply H.
  - intros l a rest H. apply list_sound in H. apply H.
Defined.

Definition c_bool : codec bool.
Proof.
  refine (mk_codec bool (fun b => [if b then 1 else 0])
    (fun l => match l with 0 :: r => Some (false, r) | 1 :: r => Some (true, r) | _ => None end) (fun _ => True) _ _ _).
  - intros [] rest _; reflexivity.
  - intros; exact I.
  - intros [|b l] a rest H; [ discriminate H | ]. cbn [length]. destruct b as [|[q|q|]]; try discriminate H; assert (rest = l) by congruence; subst; lia.
Defined.
Definition c_unit : codec unit.
Proof.
  refine (mk_codec unit (fun _ => []) (fun l => Some (tt, l)) (fun _ => True) _ _ _).
  - intros [] rest _; reflexivity.
  - intros; exact I.
  - intros l a rest H. assert (rest = l) by congruence. subst. lia.
Defined.
(** Bytes. *)
Definition c_byte : codec N.
Proof.
  refine (mk_codec N (fun b => [b]) (fun l => match l with b :: r => if b <? 256 then Some (b, r) else None | [] => None end)
    (fun b => b < 256) _ _ _).
  - intros b rest H. cbn [app]. replace (b <? 256) with true by lia. reflexivity.
  - intros [|b l] a rest H; [ discriminate H | ]. destruct (b <? 256) eqn:E; [ | discriminate H ]. assert (a = b) by congruence. subst. lia.
  - intros [|b l] a rest H; [ discriminate H | ]. destruct (b <? 256) eqn:E; [ | discriminate H ]. assert (rest = l) by congruence. subst. cbn; lia.
Defined.
