(** C119: the columns of a field read at the same time, for every schedule. *)
From Verif Require Import Base.Prelude Base.LeFacts Model.Types Model.Thrift Model.Intervals Model.Io Model.Schema Model.Metadata Model.JoinRead Spec.JoinReadSpec
  Proofs.JoinReadProofs Props.Schema Props.Metadata.
Open Scope N_scope.

(** Whichever future is polled when, and however many bytes each read gives: if nothing fails and the join returns, it returns what reading the
    columns one after the other returns. *)
Theorem joined_reads_agree file columns name schedule ts r :
  reached file columns name schedule ts -> no_failure schedule -> join_returns ts r -> r = read_columns file columns name.
Proof. apply joined_agree. Qed.
Print Assumptions joined_reads_agree.

(** Two columns of one field, read in turns in pieces of different sizes, the second one ready before the first. *)
Definition jx_descr : column_descriptor := cmd_descr (hd (mk_cmd (mx_chunk 0 None) (mk_cdescr (mk_descr (mk_prim (mk_fi [] Required None) None None Int32) 0 0) [] sx_int)) mx_columns).
Definition jx_columns := [mk_cmd (mx_chunk 4 None) jx_descr; mk_cmd (mx_chunk 40 None) jx_descr].
Definition jx_file := repeat 7 4 ++ repeat 1 30 ++ repeat 7 6 ++ repeat 2 29.
Definition jx_schedule := [(1, Done); (0, Done); (1, Done); (0, Done); (0, Bytes 12); (1, Bytes 20); (0, Bytes 1); (1, Bytes 9); (1, Bytes 0); (0, Bytes 17); (0, Bytes 0)]%nat.
Definition jx_end := match join_run jx_file (join_start jx_columns) jx_schedule with Some ts => ts | None => [] end.
Example joined_reads_agree_witness :
  reached jx_file jx_columns [97] jx_schedule jx_end /\ no_failure jx_schedule /\
  join_returns jx_end (Ok [(mk_cmd (mx_chunk 4 None) jx_descr, repeat 1 30); (mk_cmd (mx_chunk 40 None) jx_descr, repeat 2 29)]).
Proof.
  split; [ exists jx_columns; split; vm_compute; reflexivity | ]. split.
  - intros i e H. repeat (destruct H as [H|H]; [ discriminate H | ]). destruct H.
  - apply returns_all. vm_compute. reflexivity.
Qed.

(** If the join returns an error then the outside world has failed with it while one of the columns was read; and whatever fails, what has been
    read of a column are its own bytes. *)
Theorem joined_reads_errors file columns name schedule ts :
  reached file columns name schedule ts ->
  (forall e, join_returns ts (Err e) -> exists i, In (i, Failed e) schedule) /\
  (forall c b, In (c, Ready (Ok b)) ts -> In c columns /\ read_column file c = Ok b).
Proof.
  intros H. split; [ intros e; eapply joined_error; exact H | ]. intros c b Hc. split; [ | eapply joined_bytes; [ exact H | exact Hc ] ].
  destruct (reached_ok _ _ _ _ _ H) as (fields & Ef & Em & _). assert (Hf : In c fields) by (rewrite <- Em; change c with (fst (c, Ready (Ok b))); apply in_map; exact Hc).
  clear - Ef Hf. revert fields Ef Hf. induction columns as [|x l IH]; intros fields Ef Hf; cbn [get_field_columns] in Ef; [ apply Ok_inj in Ef; subst; destruct Hf | ].
  destruct (cd_path (cmd_descr x)) as [|n p]; [ discriminate Ef | ]. destruct (get_field_columns l name) as [fs|e|]; cbn [bind] in Ef; try discriminate Ef. apply Ok_inj in Ef. subst fields.
  destruct (bytes_eqb n name); [ destruct Hf as [->|Hf]; [ left; reflexivity | ] | ]; right; eapply IH; eauto.
Qed.
Print Assumptions joined_reads_errors.
Definition jx_failing := [(0, Done); (1, Done); (1, Done); (0, Failed Io); (1, Bytes 29); (1, Bytes 0)]%nat.
Definition jx_failed := match join_run jx_file (join_start jx_columns) jx_failing with Some ts => ts | None => [] end.
Example joined_reads_errors_witness : reached jx_file jx_columns [97] jx_failing jx_failed /\ join_returns jx_failed (Err Io) /\
  In (mk_cmd (mx_chunk 40 None) jx_descr, Ready (Ok (repeat 2 29))) jx_failed.
Proof.
  split; [ exists jx_columns; split; vm_compute; reflexivity | ]. split.
  - apply returns_error with (c := mk_cmd (mx_chunk 4 None) jx_descr). left. vm_compute. reflexivity.
  - right. left. vm_compute. reflexivity.
Qed.

(** No schedule goes on for ever: there are at most as many steps as bytes and three for each column. And no schedule gets stuck: as long as the join
    cannot return, one of the futures can go on without a failure. *)
Theorem joined_reads_end file columns name schedule ts :
  reached file columns name schedule ts ->
  (forall fields, get_field_columns columns name = Ok fields -> nlen schedule <= most_steps fields) /\
  ((exists r, join_returns ts r) \/ exists i a ts', (forall e, a <> Failed e) /\ reached file columns name (schedule ++ [(i, a)]) ts').
Proof.
  intros H. pose proof H as (fields & Ef & Er). split.
  - intros fields' Ef'. assert (fields' = fields) as -> by congruence. apply join_run_left in Er. rewrite most_steps_start in Er. lia.
  - destruct (reached_ok _ _ _ _ _ H) as (_ & _ & _ & Hok). destruct (join_goes_on _ _ _ Hok) as [Hr|(i & a & ts' & Ha & Hs)]; [ left; exact Hr | ].
    right. exists i, a, ts'. split; [ exact Ha | ]. exists fields. split; [ exact Ef | ]. clear - Er Hs. revert Er. generalize (join_start fields) as s. intros s. revert s.
    induction schedule as [|[j b] l IH]; intros s Er; cbn [join_run app] in *.
    + injection Er as ->. rewrite Hs. reflexivity.
    + destruct (join_step file s j b) as [s'|]; [ | discriminate Er ]. apply IH. exact Er.
Qed.
Print Assumptions joined_reads_end.
Example joined_reads_end_witness : reached jx_file jx_columns [97] (firstn 6 jx_schedule) (match join_run jx_file (join_start jx_columns) (firstn 6 jx_schedule) with Some ts => ts | None => [] end) /\
  most_steps jx_columns = 66.
Proof. split; [ exists jx_columns; split; vm_compute; reflexivity | vm_compute; reflexivity ]. Qed.
