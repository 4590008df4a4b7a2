(** Reading columns at the same time. *)
From Verif Require Import Base.Prelude Base.LeFacts Model.Types Model.Thrift Model.Intervals Model.Io Model.Metadata Model.JoinRead Spec.JoinReadSpec.
Open Scope N_scope.

(** What a future has got is a first part of what it reads. *)
Definition task_ok (file : list N) (c : column_md) (failures : list error) (t : task) : Prop :=
  match t with
  | Opening => True
  | Seeking => exists x, byte_range c = Ok x
  | Reading got rest => exists start length, byte_range c = Ok (start, length) /\ got ++ read_at file (start + nlen got) rest = read_at file start length
  | Ready (Ok b) => read_column file c = Ok b
  | Ready (Err e) => In e failures \/ byte_range c = Err e
  | Ready Panic => byte_range c = Panic
  end.

Lemma read_at_split file start got rest n : got ++ read_at file (start + nlen got) rest = got ++ read_at file (start + nlen got) rest ->
  n <= nlen (read_at file (start + nlen got) rest) ->
  let there := read_at file (start + nlen got) rest in
  (got ++ firstn (N.to_nat n) there) ++ read_at file (start + nlen (got ++ firstn (N.to_nat n) there)) (rest - n) = got ++ there.
Proof.
  intros _ Hn there. rewrite <- app_assoc. f_equal.
  assert (Hf : nlen (firstn (N.to_nat n) there) = n) by (unfold nlen in *; rewrite firstn_length; fold there in Hn; lia).
  rewrite nlen_app, Hf. rewrite <- (firstn_skipn (N.to_nat n) there) at 2. f_equal. unfold there, read_at.
  replace (N.to_nat (start + (nlen got + n))) with (N.to_nat (start + nlen got) + N.to_nat n)%nat by lia.
  rewrite skipn_firstn_comm. f_equal; [ lia | ].
  generalize (N.to_nat (start + nlen got)) as a, (N.to_nat n) as b. clear. intros a b. revert file. induction a as [|a IH]; intros file; [ reflexivity | ].
  destruct file as [|x file]; [ rewrite !skipn_nil; reflexivity | ]. cbn [Nat.add skipn]. apply IH.
Qed.
Lemma task_step_ok file c fs t a t' : task_ok file c fs t -> task_step file c t a = Some t' ->
  task_ok file c (match a with Failed e => e :: fs | _ => fs end) t'.
Proof.
  intros H E. destruct t as [| |got rest|r]; cbn [task_step] in E.
  - destruct a as [|e|n]; try discriminate E; injection E as <-; cbn [task_ok In]; auto.
    destruct (byte_range c) as [x|e|] eqn:Eb; cbn [task_ok]; auto. exists x. exact Eb.
  - destruct a as [|e|n]; try discriminate E; injection E as <-; cbn [task_ok In]; auto.
    destruct (byte_range c) as [[start length]|e|] eqn:Eb; cbn [task_ok]; auto. exists start, length. split; [ exact Eb | ].
    cbn [app]. change (nlen (@nil N)) with 0. rewrite N.add_0_r. reflexivity.
  - cbn [task_ok] in H. destruct H as (start & length & Eb & H). destruct a as [|e|n]; try discriminate E.
    + destruct (rest =? 0); [ discriminate E | ]. injection E as <-. cbn [task_ok In]. auto.
    + rewrite Eb in E. cbv zeta in E. destruct (N.eqb_spec (nlen (read_at file (start + nlen got) rest)) 0) as [E0|E0].
      * destruct (n =? 0); [ | discriminate E ]. injection E as <-. cbn [task_ok]. unfold read_column. rewrite Eb. cbn [bind].
        rewrite <- H. destruct (read_at file (start + nlen got) rest) as [|x l]; [ | unfold nlen in E0; cbn in E0; lia ]. rewrite app_nil_r. reflexivity.
      * destruct ((1 <=? n) && (n <=? nlen (read_at file (start + nlen got) rest))) eqn:En; [ | discriminate E ]. injection E as <-. apply andb_prop in En as [_ En].
        cbn [task_ok]. exists start, length. split; [ exact Eb | ]. rewrite <- H. apply read_at_split; [ reflexivity | lia ].
  - destruct a; discriminate E.
Qed.
Definition failures (schedule : list (nat * answer)) : list error := flat_map (fun x => match snd x with Failed e => [e] | _ => [] end) schedule.
Lemma failures_in schedule e : In e (failures schedule) -> exists i, In (i, Failed e) schedule.
Proof.
  unfold failures. intros H. apply in_flat_map in H as ([i [|e'|n]] & H1 & H2); cbn [snd] in H2; [ destruct H2 | | destruct H2 ]. destruct H2 as [->|[]]. exists i. exact H1.
Qed.
Lemma task_ok_more file c fs fs' t : incl fs fs' -> task_ok file c fs t -> task_ok file c fs' t.
Proof. intros H. destruct t as [| |got rest|[b|e|]]; cbn [task_ok]; auto. intros [H1|H1]; [ left; apply H; exact H1 | auto ]. Qed.
Lemma join_step_ok file fs a : forall ts i ts', Forall (fun x => task_ok file (fst x) fs (snd x)) ts -> join_step file ts i a = Some ts' ->
  Forall (fun x => task_ok file (fst x) (match a with Failed e => e :: fs | _ => fs end) (snd x)) ts' /\ map fst ts' = map fst ts.
Proof.
  assert (I : incl fs (match a with Failed e => e :: fs | _ => fs end)) by (destruct a; [ apply incl_refl | apply incl_tl, incl_refl | apply incl_refl ]).
  induction ts as [|[c t] ts IH]; intros i ts' H E; [ destruct i; discriminate E | ]. inversion H as [|? ? H1 H2]; subst. cbn [fst snd] in H1. destruct i as [|i]; cbn [join_step] in E.
  - destruct (task_step file c t a) as [t'|] eqn:Et; [ | discriminate E ]. injection E as <-. split; [ | reflexivity ]. constructor; [ eapply task_step_ok; eassumption | ].
    eapply Forall_impl; [ | exact H2 ]. intros [c' t''] Hx. eapply task_ok_more; [ exact I | exact Hx ].
  - destruct (join_step file ts i a) as [r|] eqn:Er; [ | discriminate E ]. injection E as <-. destruct (IH _ _ H2 Er) as [A B]. cbn [map fst]. rewrite B. split; [ | reflexivity ].
    constructor; [ | exact A ]. eapply task_ok_more; [ exact I | exact H1 ].
Qed.
Lemma join_run_ok file : forall schedule fs ts ts', Forall (fun x => task_ok file (fst x) fs (snd x)) ts -> join_run file ts schedule = Some ts' ->
  Forall (fun x => task_ok file (fst x) (failures schedule ++ fs) (snd x)) ts' /\ map fst ts' = map fst ts.
Proof.
  induction schedule as [|[i a] schedule IH]; intros fs ts ts' H E; cbn [join_run] in E.
  - injection E as <-. split; [ exact H | reflexivity ].
  - destruct (join_step file ts i a) as [ts1|] eqn:Es; [ | discriminate E ]. destruct (join_step_ok _ _ _ _ _ _ H Es) as [A B]. destruct (IH _ _ _ A E) as [C D].
    split; [ | congruence ]. eapply Forall_impl; [ | exact C ]. intros x. apply task_ok_more. cbn [failures flat_map snd]. fold (failures schedule). intros e He.
    apply in_app_or in He as [He|He]; apply in_or_app; [ left; apply in_or_app; auto | ]. destruct a as [|e'|n]; auto. destruct He as [->|He]; [ left; apply in_or_app; left; left; reflexivity | auto ].
Qed.
Lemma reached_ok file columns name schedule ts : reached file columns name schedule ts ->
  exists fields, get_field_columns columns name = Ok fields /\ map fst ts = fields /\ Forall (fun x => task_ok file (fst x) (failures schedule) (snd x)) ts.
Proof.
  intros (fields & Ef & Er). exists fields. split; [ exact Ef | ].
  assert (S : Forall (fun x => task_ok file (fst x) [] (snd x)) (join_start fields)).
  { unfold join_start. rewrite Forall_map. apply Forall_forall. intros c _. exact I. }
  destruct (join_run_ok _ _ _ _ _ S Er) as [A B]. rewrite app_nil_r in A. split; [ | exact A ]. rewrite B. unfold join_start. rewrite map_map. apply map_id.
Qed.
Lemma byte_range_cases c : (exists x, byte_range c = Ok x) \/ byte_range c = Panic.
Proof. unfold byte_range, cmd_meta. destruct (cc_meta (cmd_chunk c)); cbn [bind]; eauto. Qed.

Lemma joined_agree file columns name schedule ts r : reached file columns name schedule ts -> no_failure schedule -> join_returns ts r -> r = read_columns file columns name.
Proof.
  intros Hr Hn Hj. apply reached_ok in Hr as (fields & Ef & Em & H). unfold read_columns. rewrite Ef. cbn [bind]. clear Ef. subst fields.
  assert (Hf : failures schedule = []).
  { destruct (failures schedule) as [|e l] eqn:E; [ reflexivity | ]. destruct (failures_in schedule e) as [i Hi]; [ rewrite E; left; reflexivity | ]. destruct (Hn i e Hi). }
  rewrite Hf in H. destruct Hj as [l <-|c e Hc|c Hc].
  - induction l as [|[c b] l IH]; [ reflexivity | ]. cbn [map] in *. inversion H as [|? ? H1 H2]; subst. cbn [fst snd task_ok] in *. cbn [collect_res]. rewrite H1. cbn [bind].
    rewrite <- (IH H2). reflexivity.
  - exfalso. rewrite Forall_forall in H. specialize (H _ Hc). cbn [fst snd task_ok] in H. destruct H as [[]|H]. destruct (byte_range_cases c) as [[x E]|E]; congruence.
  - induction ts as [|[c' t] ts IH]; [ destruct Hc | ]. inversion H as [|? ? H1 H2]; subst. cbn [map fst collect_res]. unfold read_column at 1.
    destruct (byte_range_cases c') as [[[start len] E]|E]; rewrite E; cbn [bind]; [ | reflexivity ].
    destruct Hc as [Hc|Hc]; [ | rewrite <- (IH H2 Hc); reflexivity ]. injection Hc as -> ->. cbn [fst snd task_ok] in H1. congruence.
Qed.
Lemma joined_error file columns name schedule ts e : reached file columns name schedule ts -> join_returns ts (Err e) -> exists i, In (i, Failed e) schedule.
Proof.
  intros Hr Hj. apply reached_ok in Hr as (fields & _ & _ & H). inversion Hj as [|c e' Hc|]; subst. rewrite Forall_forall in H. specialize (H _ Hc). cbn [fst snd task_ok] in H.
  destruct H as [H|H]; [ apply failures_in; exact H | ]. destruct (byte_range_cases c) as [[x E]|E]; congruence.
Qed.
Lemma joined_bytes file columns name schedule ts c b : reached file columns name schedule ts -> In (c, Ready (Ok b)) ts -> read_column file c = Ok b.
Proof. intros Hr Hc. apply reached_ok in Hr as (fields & _ & _ & H). rewrite Forall_forall in H. exact (H _ Hc). Qed.

(** ** How many steps *)

Definition task_left (c : column_md) (t : task) : N :=
  match t with
  | Opening => match byte_range c with Ok (_, length) => length + 3 | _ => 1 end
  | Seeking => match byte_range c with Ok (_, length) => length + 2 | _ => 1 end
  | Reading got rest => rest + 1
  | Ready _ => 0
  end.
Lemma read_at_length file start n : nlen (read_at file start n) <= n.
Proof. unfold nlen, read_at. rewrite firstn_length. lia. Qed.
Lemma task_step_left file c t a t' : task_step file c t a = Some t' -> task_left c t' + 1 <= task_left c t.
Proof.
  intros E. destruct t as [| |got rest|r]; cbn [task_step] in E.
  - destruct a as [|e|n]; try discriminate E; injection E as <-; cbn [task_left]; destruct (byte_range c) as [[start length]|e'|] eqn:Eb; cbn [task_left]; rewrite ?Eb; lia.
  - destruct a as [|e|n]; try discriminate E; injection E as <-; cbn [task_left]; destruct (byte_range c) as [[start length]|e'|] eqn:Eb; cbn [task_left]; rewrite ?Eb; lia.
  - destruct a as [|e|n]; try discriminate E; [ destruct (rest =? 0); [ discriminate E | ]; injection E as <-; cbn [task_left]; lia | ].
    destruct (byte_range c) as [[start length]|e'|]; try discriminate E. cbv zeta in E.
    destruct (nlen (read_at file (start + nlen got) rest) =? 0).
    + destruct (n =? 0); [ | discriminate E ]. injection E as <-. cbn [task_left]. lia.
    + destruct ((1 <=? n) && (n <=? nlen (read_at file (start + nlen got) rest))) eqn:En; [ | discriminate E ]. injection E as <-. apply andb_prop in En as [E1 E2].
      cbn [task_left]. pose proof (read_at_length file (start + nlen got) rest). lia.
  - destruct a; discriminate E.
Qed.
Definition joined_left (ts : joined) : N := fold_right (fun x n => task_left (fst x) (snd x) + n) 0 ts.
Lemma join_step_left file a : forall ts i ts', join_step file ts i a = Some ts' -> joined_left ts' + 1 <= joined_left ts.
Proof.
  induction ts as [|[c t] ts IH]; intros i ts' E; [ destruct i; discriminate E | ]. destruct i as [|i]; cbn [join_step] in E.
  - destruct (task_step file c t a) as [t'|] eqn:Et; [ | discriminate E ]. injection E as <-. apply task_step_left in Et. cbn [joined_left fold_right fst snd]. lia.
  - destruct (join_step file ts i a) as [r|] eqn:Er; [ | discriminate E ]. injection E as <-. apply IH in Er. cbn [joined_left fold_right fst snd] in *. fold (joined_left r) (joined_left ts). lia.
Qed.
Lemma join_run_left file : forall schedule ts ts', join_run file ts schedule = Some ts' -> joined_left ts' + nlen schedule <= joined_left ts.
Proof.
  induction schedule as [|[i a] schedule IH]; intros ts ts' E; cbn [join_run] in E.
  - injection E as <-. change (nlen (@nil (nat * answer))) with 0. lia.
  - destruct (join_step file ts i a) as [ts1|] eqn:Es; [ | discriminate E ]. apply join_step_left in Es. apply IH in E. unfold nlen in *. cbn [length]. lia.
Qed.
Lemma most_steps_start fields : joined_left (join_start fields) = most_steps fields.
Proof. unfold joined_left, join_start, most_steps. induction fields as [|c l IH]; [ reflexivity | ]. cbn [map fold_right fst snd task_left]. rewrite IH. reflexivity. Qed.

(** A future that is not ready can go on. *)
Lemma task_goes_on file c fs t : task_ok file c fs t -> (forall r, t <> Ready r) -> exists a t', (forall e, a <> Failed e) /\ task_step file c t a = Some t'.
Proof.
  intros H Hr. destruct t as [| |got rest|r]; [ | | | destruct (Hr r eq_refl) ].
  - exists Done. eexists. split; [ discriminate | reflexivity ].
  - exists Done. eexists. split; [ discriminate | reflexivity ].
  - destruct H as (start & length & Eb & _). cbn [task_step]. destruct (N.eqb_spec (nlen (read_at file (start + nlen got) rest)) 0) as [E|E].
    + exists (Bytes 0). eexists. split; [ discriminate | ]. rewrite Eb. cbv zeta. rewrite E. reflexivity.
    + exists (Bytes 1). eexists. split; [ discriminate | ]. rewrite Eb. cbv zeta. replace (nlen (read_at file (start + nlen got) rest) =? 0) with false by lia.
      replace ((1 <=? 1) && (1 <=? nlen (read_at file (start + nlen got) rest))) with true by lia. reflexivity.
Qed.
Lemma join_goes_on file fs : forall ts, Forall (fun x => task_ok file (fst x) fs (snd x)) ts ->
  (exists r, join_returns ts r) \/ exists i a ts', (forall e, a <> Failed e) /\ join_step file ts i a = Some ts'.
Proof.
  induction ts as [|[c t] ts IH]; intros H; [ left; exists (Ok []); apply returns_all; reflexivity | ]. inversion H as [|? ? H1 H2]; subst. cbn [fst snd] in H1.
  assert (D : (exists r, t = Ready r) \/ (forall r, t <> Ready r)) by (destruct t; [ right | right | right | left ]; try discriminate; eauto).
  destruct D as [[r ->]|D].
  - destruct r as [b|e|].
    + destruct (IH H2) as [[r Hr]|(i & a & ts' & Ha & Hs)].
      * left. destruct Hr as [l <-|c' e Hc|c' Hc].
        -- exists (Ok ((c, b) :: l)). apply returns_all. reflexivity.
        -- exists (Err e). apply returns_error with (c := c'). right. exact Hc.
        -- exists Panic. apply returns_panic with (c := c'). right. exact Hc.
      * right. exists (S i), a. eexists. split; [ exact Ha | ]. cbn [join_step]. rewrite Hs. reflexivity.
    + left. exists (Err e). apply returns_error with (c := c). left. reflexivity.
    + left. exists Panic. apply returns_panic with (c := c). left. reflexivity.
  - right. destruct (task_goes_on _ _ _ _ H1 D) as (a & t' & Ha & Hs). exists O, a. eexists. split; [ exact Ha | ]. cbn [join_step]. rewrite Hs. reflexivity.
Qed.
