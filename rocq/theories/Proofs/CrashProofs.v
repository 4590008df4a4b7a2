(** Writing to a sink that fails after some number of bytes, compared with one that does not fail. *)
From Verif Require Import Base.Prelude Base.LeFacts Model.Types Model.Native Model.Thrift Model.Intervals Model.Page Model.Io Model.Statistics Model.PageWrite
  Model.ColumnWrite Model.Schema Model.PageRead Model.Metadata Model.Indexes Model.FileWrite Spec.MetadataSpec Spec.FileSpec
  Proofs.PageIoProofs Proofs.MetadataProofs Proofs.FileWriteProofs.
Open Scope N_scope.

(** [x] writes [out] and returns [r]; when there is no room for all of it, it writes what fits and fails. *)
Definition steady {A} (x : writer A) : Prop := exists out r,
  (forall d, x (mk_sink d None) = (mk_sink (d ++ out) None, r)) /\
  (forall d n, x (mk_sink d (Some n)) =
     if nlen out <=? n then (mk_sink (d ++ out) (Some (n - nlen out)), r)
     else (mk_sink (d ++ firstn (N.to_nat n) out) (Some 0), Err OutOfSpec)).

Lemma steady_write_all b : steady (write_all b).
Proof. exists b, (Ok tt). split; reflexivity. Qed.
Lemma steady_wres {A} (x : res A) : steady (wres x).
Proof.
  exists [], x. unfold wres. split; [ intros; rewrite app_nil_r; reflexivity | ]. intros d n. change (nlen (@nil N)) with 0.
  replace (0 <=? n) with true by lia. rewrite app_nil_r, N.sub_0_r. reflexivity.
Qed.
Lemma steady_wret {A} (x : A) : steady (wret x).
Proof. exact (steady_wres (Ok x)). Qed.

Lemma firstn_room {A} (a b : list A) n : nlen a <= n -> firstn (N.to_nat n) (a ++ b) = a ++ firstn (N.to_nat (n - nlen a)) b.
Proof.
  intros H. unfold nlen in *. rewrite firstn_app, firstn_all2 by lia. do 2 f_equal. lia.
Qed.
Lemma firstn_noroom {A} (a b : list A) n : n < nlen a -> firstn (N.to_nat n) (a ++ b) = firstn (N.to_nat n) a.
Proof.
  intros H. unfold nlen in *. rewrite firstn_app. replace (N.to_nat n - length a)%nat with 0%nat by lia. apply app_nil_r.
Qed.

Lemma steady_wbind {A B} (x : writer A) (f : A -> writer B) : steady x -> (forall a, steady (f a)) -> steady (wbind x f).
Proof.
  intros (o1 & r1 & H1 & L1) Hf. destruct r1 as [a|e|].
  - destruct (Hf a) as (o2 & r2 & H2 & L2). exists (o1 ++ o2), r2. unfold wbind. split.
    + intro d. rewrite H1, H2, app_assoc. reflexivity.
    + intros d n. rewrite L1, nlen_app. destruct (nlen o1 <=? n) eqn:E1.
      * rewrite L2. destruct (nlen o2 <=? n - nlen o1) eqn:E2.
        -- replace (nlen o1 + nlen o2 <=? n) with true by lia. rewrite <- app_assoc. do 3 f_equal. lia.
        -- replace (nlen o1 + nlen o2 <=? n) with false by lia. rewrite firstn_room by lia. rewrite app_assoc. reflexivity.
      * replace (nlen o1 + nlen o2 <=? n) with false by lia. rewrite firstn_noroom by lia. reflexivity.
  - exists o1, (Err e). unfold wbind. split; [ intro d; rewrite H1; reflexivity | ]. intros d n. rewrite L1. destruct (nlen o1 <=? n); reflexivity.
  - exists o1, Panic. unfold wbind. split; [ intro d; rewrite H1; reflexivity | ]. intros d n. rewrite L1. destruct (nlen o1 <=? n); reflexivity.
Qed.

Lemma steady_write_struct {X} (T : thrift X) x : steady (write_struct T x).
Proof. apply steady_wbind; [ apply steady_write_all | intros; apply steady_wret ]. Qed.
Lemma steady_write_page T off p : steady (write_page T off p).
Proof.
  repeat (apply steady_wbind; [ first [ apply steady_wres | apply steady_write_struct | apply steady_write_all ] | intros ]). apply steady_wret.
Qed.
Lemma steady_write_pages T : forall pages off, steady (write_pages T off pages).
Proof.
  induction pages as [|[p|e] pages IH]; intro off; cbn [write_pages]; [ apply steady_wret | | apply steady_wres ].
  apply steady_wbind; [ apply steady_write_page | intros ]. apply steady_wbind; [ apply IH | intros; apply steady_wret ].
Qed.
Lemma steady_write_column_chunk T TM m off d pages : steady (write_column_chunk T TM m off d pages).
Proof.
  apply steady_wbind; [ apply steady_write_pages | intros specs ]. apply steady_wbind; [ apply steady_wres | intros chunk ].
  destruct (cc_meta chunk); [ | apply steady_wres ]. apply steady_wbind; [ apply steady_write_struct | intros; apply steady_wret ].
Qed.
Lemma steady_write_columns F m : forall ds cols off, steady (write_columns F m off ds cols).
Proof.
  induction ds as [|d ds IH]; intros [|[c|e] cols] off; cbn [write_columns]; try apply steady_wret; [ | apply steady_wres ].
  apply steady_wbind; [ apply steady_write_column_chunk | intros [[chunk specs] size] ].
  apply steady_wbind; [ apply IH | intros [l o]; apply steady_wret ].
Qed.
Lemma steady_write_row_group F m off ds cols ord : steady (write_row_group F m off ds cols ord).
Proof.
  apply steady_wbind; [ apply steady_write_columns | intros [l last] ].
  apply steady_wbind; [ apply steady_wres | intros ]. cbv zeta. apply steady_wbind; [ apply steady_wres | intros; apply steady_wret ].
Qed.
Lemma steady_end_file T m meta : steady (end_file T m meta).
Proof.
  apply steady_wbind; [ apply steady_write_struct | intros n ]. cbv zeta. apply steady_wbind; [ apply steady_write_all | intros; apply steady_wres ].
Qed.

(** ** Functions of a file writer *)

(** The same of a function of the whole file writer: what it writes and returns does not depend on what the sink holds. *)
Definition steady_fw {A} (G : file_writer -> file_writer * res A) : Prop := forall w, exists out w' r,
  (forall d, G (set_sink w (mk_sink d None)) = (set_sink w' (mk_sink (d ++ out) None), r)) /\
  (forall d n, if nlen out <=? n then G (set_sink w (mk_sink d (Some n))) = (set_sink w' (mk_sink (d ++ out) (Some (n - nlen out))), r)
     else exists w'', G (set_sink w (mk_sink d (Some n))) = (set_sink w'' (mk_sink (d ++ firstn (N.to_nat n) out) (Some 0)), Err OutOfSpec)).

Lemma steady_fw_ret {A} (f : file_writer -> res A) : (forall w s, f (set_sink w s) = f w) -> steady_fw (fun w => (w, f w)).
Proof.
  intros Hf w. exists [], w, (f w). split.
  - intro d. rewrite Hf, app_nil_r. reflexivity.
  - intros d n. change (nlen (@nil N)) with 0. replace (0 <=? n) with true by lia. rewrite Hf, app_nil_r, N.sub_0_r. reflexivity.
Qed.

Definition bind_fw {A B} (G : file_writer -> file_writer * res A) (H : A -> file_writer -> file_writer * res B) (w : file_writer) : file_writer * res B :=
  match G w with
  | (w, Ok a) => H a w
  | (w, Err e) => (w, Err e)
  | (w, Panic) => (w, Panic)
  end.
Lemma steady_fw_bind {A B} (G : file_writer -> file_writer * res A) (H : A -> file_writer -> file_writer * res B) :
  steady_fw G -> (forall a, steady_fw (H a)) -> steady_fw (bind_fw G H).
Proof.
  intros HG HH w. destruct (HG w) as (o1 & w1 & r1 & H1 & L1). destruct r1 as [a|e|].
  - destruct (HH a w1) as (o2 & w2 & r2 & H2 & L2). exists (o1 ++ o2), w2, r2. unfold bind_fw. split.
    + intro d. rewrite H1, H2, app_assoc. reflexivity.
    + intros d n. specialize (L1 d n). rewrite nlen_app. destruct (nlen o1 <=? n) eqn:E1.
      * rewrite L1. specialize (L2 (d ++ o1) (n - nlen o1)). destruct (nlen o2 <=? n - nlen o1) eqn:E2.
        -- replace (nlen o1 + nlen o2 <=? n) with true by lia. rewrite L2, <- app_assoc. do 4 f_equal. lia.
        -- replace (nlen o1 + nlen o2 <=? n) with false by lia. destruct L2 as [w3 L2]. exists w3.
           rewrite L2, firstn_room by lia. rewrite app_assoc. reflexivity.
      * replace (nlen o1 + nlen o2 <=? n) with false by lia. destruct L1 as [w3 L1]. exists w3. rewrite L1, firstn_noroom by lia. reflexivity.
  - exists o1, w1, (Err e). unfold bind_fw. split; [ intro d; rewrite H1; reflexivity | ]. intros d n. specialize (L1 d n).
    destruct (nlen o1 <=? n); [ rewrite L1; reflexivity | destruct L1 as [w3 ->]; exists w3; reflexivity ].
  - exists o1, w1, Panic. unfold bind_fw. split; [ intro d; rewrite H1; reflexivity | ]. intros d n. specialize (L1 d n).
    destruct (nlen o1 <=? n); [ rewrite L1; reflexivity | destruct L1 as [w3 ->]; exists w3; reflexivity ].
Qed.

Lemma steady_fw_ext {A} (G H : file_writer -> file_writer * res A) : (forall w, G w = H w) -> steady_fw H -> steady_fw G.
Proof.
  intros E HH w. destruct (HH w) as (o & w' & r & H1 & L1). exists o, w', r. split; [ intro d; rewrite E; apply H1 | ].
  intros d n. specialize (L1 d n). destruct (nlen o <=? n); [ rewrite E; exact L1 | destruct L1 as [w3 L1]; exists w3; rewrite E; exact L1 ].
Qed.

(** Running a writer on the sink of a file writer, and updating the file writer if it succeeds. *)
Definition lift_fw {A B} (x : file_writer -> writer A) (upd : file_writer -> A -> file_writer) (res' : file_writer -> A -> res B) (w : file_writer) : file_writer * res B :=
  match x w (fw_sink w) with
  | (s, Ok a) => (set_sink (upd w a) s, res' w a)
  | (s, Err e) => (set_sink w s, Err e)
  | (s, Panic) => (set_sink w s, Panic)
  end.
Lemma set_set w s s' : set_sink (set_sink w s) s' = set_sink w s'.
Proof. reflexivity. Qed.
Lemma steady_fw_lift {A B} (x : file_writer -> writer A) upd (res' : file_writer -> A -> res B) : (forall w, steady (x w)) ->
  (forall w s, x (set_sink w s) = x w) -> (forall w s a s', set_sink (upd (set_sink w s) a) s' = set_sink (upd w a) s') ->
  (forall w s a, res' (set_sink w s) a = res' w a) -> steady_fw (lift_fw x upd res').
Proof.
  intros Hx Ex Eu Er w. destruct (Hx w) as (o & r & H1 & L1).
  exists o, (match r with Ok a => upd w a | _ => w end), (match r with Ok a => res' w a | Err e => Err e | Panic => Panic end).
  unfold lift_fw. split.
  - intro d. rewrite Ex. cbn [set_sink fw_sink]. rewrite H1. destruct r; rewrite ?Eu, ?Er; reflexivity.
  - intros d n. rewrite Ex. cbn [set_sink fw_sink]. rewrite L1. destruct (nlen o <=? n).
    + destruct r; rewrite ?Eu, ?Er; reflexivity.
    + exists w. reflexivity.
Qed.

Lemma set_same w : set_sink w (fw_sink w) = w.
Proof. destruct w; reflexivity. Qed.

Lemma steady_fw_if {A} (b : file_writer -> bool) (G H : file_writer -> file_writer * res A) : (forall w s, b (set_sink w s) = b w) ->
  steady_fw G -> steady_fw H -> steady_fw (fun w => if b w then G w else H w).
Proof.
  intros Eb HG HH w. destruct (b w) eqn:E; [ destruct (HG w) as (o & w' & r & H1 & L1) | destruct (HH w) as (o & w' & r & H1 & L1) ];
    exists o, w', r; (split; [ intro d; rewrite Eb, E; apply H1 | ]); intros d n; specialize (L1 d n); rewrite Eb, E; exact L1.
Qed.

Lemma steady_start : steady_fw fw_start.
Proof.
  eapply steady_fw_ext; [ | apply (steady_fw_if (fun w => fw_offset w =? 0)
    (lift_fw (fun _ => write_all magic)
       (fun w _ => mk_fw (fw_sink w) (fw_schema w) (fw_statistics w) (fw_version w) (fw_created_by w) 4 (fw_groups w) (fw_specs w) WStarted (fw_metadata w))
       (fun _ _ => Ok tt)) (fun w => (w, Err InvalidParameter))) ].
  - intro w. unfold fw_start, lift_fw. destruct (fw_offset w =? 0); [ | reflexivity ]. destruct (write_all magic (fw_sink w)) as [s [a|e|]]; reflexivity.
  - reflexivity.
  - apply steady_fw_lift; try reflexivity. intros; apply steady_write_all.
  - apply steady_fw_ret. reflexivity.
Qed.
Lemma steady_maybe_start : steady_fw fw_maybe_start.
Proof.
  eapply steady_fw_ext; [ | apply (steady_fw_if (fun w => fw_offset w =? 0) fw_start (fun w => (w, Ok tt))) ]; try reflexivity.
  - apply steady_start.
  - apply steady_fw_ret. reflexivity.
Qed.
Lemma steady_fw_write F m columns : steady_fw (fun w => fw_write F m w columns).
Proof.
  eapply steady_fw_ext; [ | apply (steady_fw_bind fw_maybe_start (fun _ =>
    lift_fw (fun w => write_row_group F m (fw_offset w) (sd_leaves (fw_schema w)) columns (length (fw_groups w)))
      (fun w a => mk_fw (fw_sink w) (fw_schema w) (fw_statistics w) (fw_version w) (fw_created_by w) (fw_offset w + snd a) (fw_groups w ++ [fst (fst a)])
             (fw_specs w ++ [snd (fst a)]) (fw_state w) (fw_metadata w))
      (fun _ _ => Ok tt))) ].
  - intro w. unfold fw_write, bind_fw, lift_fw. destruct (fw_maybe_start w) as [w1 [u|e|]]; try reflexivity.
    destruct (write_row_group F m (fw_offset w1) (sd_leaves (fw_schema w1)) columns (length (fw_groups w1)) (fw_sink w1)) as [s [[[g sp] n]|e|]]; reflexivity.
  - apply steady_maybe_start.
  - intros _. apply steady_fw_lift; try reflexivity. intros; apply steady_write_row_group.
Qed.

(** The loops that write indexes. *)
Definition steady_loop (G : sink -> sink * N * list t_row_group * res unit) : Prop := exists out last l r,
  (forall d, G (mk_sink d None) = (mk_sink (d ++ out) None, last, l, r)) /\
  (forall d n, if nlen out <=? n then G (mk_sink d (Some n)) = (mk_sink (d ++ out) (Some (n - nlen out)), last, l, r)
     else exists last' l', G (mk_sink d (Some n)) = (mk_sink (d ++ firstn (N.to_nat n) out) (Some 0), last', l', Err OutOfSpec)).

Lemma steady_index_columns write set old : (forall p, steady (write p)) -> forall columns pages offset, exists out last l r,
  (forall d, index_columns write set old (mk_sink d None) offset columns pages = (mk_sink (d ++ out) None, last, l, r)) /\
  (forall d n, if nlen out <=? n then index_columns write set old (mk_sink d (Some n)) offset columns pages = (mk_sink (d ++ out) (Some (n - nlen out)), last, l, r)
     else exists last' l', index_columns write set old (mk_sink d (Some n)) offset columns pages = (mk_sink (d ++ firstn (N.to_nat n) out) (Some 0), last', l', Err OutOfSpec)).
Proof.
  intros Hw. induction columns as [|c columns IH]; intros pages offset.
  { exists [], offset, [], (Ok tt). cbn [index_columns]. split; [ intros; rewrite app_nil_r; reflexivity | ].
    intros d n. change (nlen (@nil N)) with 0. replace (0 <=? n) with true by lia. rewrite app_nil_r, N.sub_0_r. reflexivity. }
  destruct pages as [|p pages].
  { exists [], offset, (c :: columns), (Ok tt). cbn [index_columns]. split; [ intros; rewrite app_nil_r; reflexivity | ].
    intros d n. change (nlen (@nil N)) with 0. replace (0 <=? n) with true by lia. rewrite app_nil_r, N.sub_0_r. reflexivity. }
  destruct (Hw p) as (o1 & r1 & H1 & L1). cbn [index_columns].
  destruct r1 as [k|e|].
  - destruct (IH pages (offset + k)) as (o2 & last & l & r & H2 & L2).
    exists (o1 ++ o2), last, (set c (Some (as_i64 offset)) (Some (as_i32 k)) :: l), r. split.
    + intro d. rewrite H1, H2, app_assoc. reflexivity.
    + intros d n. rewrite L1, nlen_app. destruct (nlen o1 <=? n) eqn:E1.
      * specialize (L2 (d ++ o1) (n - nlen o1)). destruct (nlen o2 <=? n - nlen o1) eqn:E2.
        -- replace (nlen o1 + nlen o2 <=? n) with true by lia. rewrite L2, <- app_assoc. do 5 f_equal. lia.
        -- replace (nlen o1 + nlen o2 <=? n) with false by lia. destruct L2 as (last' & l' & L2).
           do 2 eexists. rewrite L2, firstn_room by lia. rewrite app_assoc. reflexivity.
      * replace (nlen o1 + nlen o2 <=? n) with false by lia. do 2 eexists. rewrite firstn_noroom by lia. reflexivity.
  - exists o1, offset. do 2 eexists. split; [ intro d; rewrite H1; reflexivity | ]. intros d n. rewrite L1.
    destruct (nlen o1 <=? n); [ reflexivity | do 2 eexists; reflexivity ].
  - exists o1, offset. do 2 eexists. split; [ intro d; rewrite H1; reflexivity | ]. intros d n. rewrite L1.
    destruct (nlen o1 <=? n); [ reflexivity | do 2 eexists; reflexivity ].
Qed.

Lemma steady_loop_end offset groups : steady_loop (fun s => (s, offset, groups, Ok tt)).
Proof.
  exists [], offset, groups, (Ok tt). split; [ intros; rewrite app_nil_r; reflexivity | ].
  intros d n. change (nlen (@nil N)) with 0. replace (0 <=? n) with true by lia. rewrite app_nil_r, N.sub_0_r. reflexivity.
Qed.
Lemma steady_index_groups write set old : (forall p, steady (write p)) -> forall groups pages offset,
  steady_loop (fun s => index_groups write set old s offset groups pages).
Proof.
  intros Hw. induction groups as [|g groups IH]; intros pages offset; [ apply steady_loop_end | ].
  destruct pages as [|p pages]; [ apply steady_loop_end | ].
  destruct (steady_index_columns write set old Hw (rg_columns g) p offset) as (o1 & off1 & cols & r1 & H1 & L1). unfold steady_loop. cbn [index_groups].
  destruct r1 as [u|e|].
  - destruct (IH pages off1) as (o2 & last & l & r & H2 & L2).
    exists (o1 ++ o2), last, (set_columns g cols :: l), r. split.
    + intro d. rewrite H1, H2, app_assoc. reflexivity.
    + intros d n. specialize (L1 d n). rewrite nlen_app. destruct (nlen o1 <=? n) eqn:E1.
      * specialize (L2 (d ++ o1) (n - nlen o1)). destruct (nlen o2 <=? n - nlen o1) eqn:E2.
        -- replace (nlen o1 + nlen o2 <=? n) with true by lia. rewrite L1, L2, <- app_assoc. do 5 f_equal. lia.
        -- replace (nlen o1 + nlen o2 <=? n) with false by lia. destruct L2 as (last' & l' & L2).
           do 2 eexists. rewrite L1, L2, firstn_room by lia. rewrite app_assoc. reflexivity.
      * replace (nlen o1 + nlen o2 <=? n) with false by lia. destruct L1 as (last' & l' & L1). do 2 eexists.
        rewrite L1, firstn_noroom by lia. reflexivity.
  - exists o1, off1. do 2 eexists. split; [ intro d; rewrite H1; reflexivity | ]. intros d n. specialize (L1 d n).
    destruct (nlen o1 <=? n); [ rewrite L1; reflexivity | destruct L1 as (last' & l' & L1); do 2 eexists; rewrite L1; reflexivity ].
  - exists o1, off1. do 2 eexists. split; [ intro d; rewrite H1; reflexivity | ]. intros d n. specialize (L1 d n).
    destruct (nlen o1 <=? n); [ rewrite L1; reflexivity | destruct L1 as (last' & l' & L1); do 2 eexists; rewrite L1; reflexivity ].
Qed.

(** A loop run on the sink of a file writer. *)
Definition loop_fw (G : file_writer -> sink -> sink * N * list t_row_group * res unit) (w : file_writer) : file_writer * res unit :=
  let '(s, offset, groups, r) := G w (fw_sink w) in (set_progress w s offset groups, r).
Lemma steady_fw_loop G : (forall w, steady_loop (G w)) -> (forall w s, G (set_sink w s) = G w) -> steady_fw (loop_fw G).
Proof.
  intros HG EG w. destruct (HG w) as (o & last & l & r & H1 & L1). exists o, (set_progress w (fw_sink w) last l), r. unfold loop_fw. split.
  - intro d. rewrite EG. cbn [set_sink fw_sink]. rewrite H1. reflexivity.
  - intros d n. specialize (L1 d n). rewrite EG. cbn [set_sink fw_sink]. destruct (nlen o <=? n).
    + rewrite L1. reflexivity.
    + destruct L1 as (last' & l' & L1). exists (set_progress w (fw_sink w) last' l'). rewrite L1. reflexivity.
Qed.

Lemma steady_indexes F m : steady_fw (fw_indexes F m).
Proof.
  eapply steady_fw_ext; [ | apply (steady_fw_bind
    (loop_fw (fun w s => if fw_statistics w then column_indexes F s (fw_offset w) (fw_groups w) (fw_specs w) else (s, fw_offset w, fw_groups w, Ok tt)))
    (fun _ => loop_fw (fun w s => offset_indexes F m s (fw_offset w) (fw_groups w) (fw_specs w)))) ].
  - intro w. unfold fw_indexes, bind_fw, loop_fw.
    destruct (if fw_statistics w then column_indexes F (fw_sink w) (fw_offset w) (fw_groups w) (fw_specs w) else (fw_sink w, fw_offset w, fw_groups w, Ok tt))
      as [[[s off] groups] [u|e|]]; try reflexivity.
  - apply steady_fw_loop; [ | reflexivity ]. intro w. destruct (fw_statistics w); [ | apply steady_loop_end ].
    apply (steady_index_groups (write_column_index (f_index F))). intro p. apply steady_wbind; [ apply steady_wres | intros; apply steady_write_struct ].
  - intros _. apply steady_fw_loop; [ | reflexivity ]. intro w.
    apply (steady_index_groups (write_offset_index (f_offsets F) m)). intro p. apply steady_wbind; [ apply steady_wres | intros; apply steady_write_struct ].
Qed.

Definition started (w : file_writer) : bool := match fw_state w with WStarted => true | _ => false end.
Definition end_with {B} (F : formats) (m : mode) (kv : option (list t_key_value)) (upd : Z -> file_writer -> N -> file_writer) (res' : file_writer -> N -> res B) (w : file_writer) : file_writer * res B :=
  bind_fw fw_maybe_start (fun _ w => if started w then
    bind_fw (fun w => (w, total_rows m 0 (fw_groups w))) (fun rows =>
    bind_fw (fw_indexes F m) (fun _ => lift_fw (fun w => end_file (f_file F) m (fw_thrift w rows kv)) (upd rows) res')) w
    else (w, Err InvalidParameter)) w.
Lemma steady_end_with {B} F m kv upd (res' : file_writer -> N -> res B) :
  (forall rows w s a s', set_sink (upd rows (set_sink w s) a) s' = set_sink (upd rows w a) s') ->
  (forall w s a, res' (set_sink w s) a = res' w a) -> steady_fw (end_with F m kv upd res').
Proof.
  intros Eu Er. apply steady_fw_bind; [ apply steady_maybe_start | intros _ ].
  apply (steady_fw_if started); [ reflexivity | | apply steady_fw_ret; reflexivity ].
  apply steady_fw_bind; [ apply steady_fw_ret; reflexivity | intro rows ]. apply steady_fw_bind; [ apply steady_indexes | intros _ ].
  apply steady_fw_lift; try assumption; [ | reflexivity | ].
  - intro w. apply steady_end_file.
  - intros. apply Eu.
Qed.
Lemma steady_fw_end F m kv : steady_fw (fun w => fw_end F m w kv).
Proof.
  eapply steady_fw_ext; [ | apply (steady_end_with F m kv
     (fun rows w _ => mk_fw (fw_sink w) (fw_schema w) (fw_statistics w) (fw_version w) (fw_created_by w) (fw_offset w) (fw_groups w) (fw_specs w)
                         WFinished (Some (fw_thrift w rows kv))) (fun w len => uadd m 64 (fw_offset w) len)) ]; try reflexivity.
  intro w. unfold fw_end, end_with, bind_fw. destruct (fw_maybe_start w) as [w1 [u|e|]]; try reflexivity. unfold started.
  destruct (fw_state w1); reflexivity.
Qed.
Lemma steady_fs_end F m kv : steady_fw (fun w => fs_end F m w kv).
Proof.
  eapply steady_fw_ext; [ | apply (steady_end_with F m kv (fun rows w _ => w) (fun w len => uadd m 64 (fw_offset w) len)) ]; try reflexivity.
  intro w. unfold fs_end, end_with, bind_fw. destruct (fw_maybe_start w) as [w1 [u|e|]]; try reflexivity. unfold started.
  destruct (fw_state w1); reflexivity.
Qed.

Lemma steady_discard (G : file_writer -> file_writer * res unit) : steady_fw G -> steady_fw (fun w => let (w, r) := G w in (w, let* _ := r in Ok 0)).
Proof.
  intros HG. eapply steady_fw_ext; [ | exact (steady_fw_bind G (fun _ w => (w, Ok 0)) HG (fun _ => steady_fw_ret (fun _ => Ok 0) (fun _ _ => eq_refl))) ].
  intro w. unfold bind_fw. destruct (G w) as [w1 [u|e|]]; reflexivity.
Qed.
Lemma steady_call F m c : steady_fw (fun w => fw_call F m w c).
Proof. destruct c as [columns|kv]; cbn [fw_call]; [ apply steady_discard, steady_fw_write | apply steady_fw_end ]. Qed.
Lemma steady_async_call F m c : steady_fw (fun w => fs_call F m w c).
Proof. destruct c as [columns|kv]; cbn [fs_call]; [ apply steady_discard, steady_fw_write | apply steady_fs_end ]. Qed.

(** ** Calls *)

(** On a reliable sink the data only grows, and on a full one nothing is written. *)
Lemma reliable_calls step : (forall c, steady_fw (fun w => step w c)) -> forall l w d w' rs,
  calls step (set_sink w (mk_sink d None)) l = (w', rs) -> exists out, fw_sink w' = mk_sink (d ++ out) None.
Proof.
  intros Hs. induction l as [|c l IH]; intros w d w' rs H; cbn [calls] in H.
  - apply pair_inj in H as [<- _]. exists []. rewrite app_nil_r. reflexivity.
  - destruct (Hs c w) as (o & w1 & r & H1 & _). rewrite H1 in H.
    destruct (calls step (set_sink w1 (mk_sink (d ++ o) None)) l) as [w2 xs] eqn:E. apply pair_inj in H as [<- _].
    destruct (IH _ _ _ _ E) as [out Ho]. exists (o ++ out). rewrite Ho, app_assoc. reflexivity.
Qed.
Lemma full_calls step : (forall c, steady_fw (fun w => step w c)) -> forall l w d w' rs,
  calls step (set_sink w (mk_sink d (Some 0))) l = (w', rs) -> fw_sink w' = mk_sink d (Some 0).
Proof.
  intros Hs. induction l as [|c l IH]; intros w d w' rs H; cbn [calls] in H.
  - apply pair_inj in H as [<- _]. reflexivity.
  - destruct (Hs c w) as (o & w1 & r & _ & L1). specialize (L1 d 0). destruct (nlen o <=? 0) eqn:E0.
    + assert (o = []) as -> by (destruct o; [ reflexivity | unfold nlen in E0; cbn [length] in E0; lia ]). rewrite L1 in H. rewrite app_nil_r in H.
      change (0 - nlen (@nil N)) with 0 in H.
      destruct (calls step (set_sink w1 (mk_sink d (Some 0))) l) as [w2 xs] eqn:E. apply pair_inj in H as [<- _]. exact (IH _ _ _ _ E).
    + destruct L1 as [w3 L1]. rewrite L1 in H. cbn [N.to_nat firstn] in H. rewrite app_nil_r in H.
      destruct (calls step (set_sink w3 (mk_sink d (Some 0))) l) as [w2 xs] eqn:E. apply pair_inj in H as [<- _]. exact (IH _ _ _ _ E).
Qed.

Lemma limited_calls step : (forall c, steady_fw (fun w => step w c)) -> forall l w d n w0 rs0 w1 rs1,
  calls step (set_sink w (mk_sink d None)) l = (w0, rs0) ->
  calls step (set_sink w (mk_sink d (Some n))) l = (w1, rs1) ->
  exists out, sk_data (fw_sink w0) = d ++ out /\ sk_data (fw_sink w1) = d ++ firstn (N.to_nat n) out /\
    (nlen out <= n -> rs1 = rs0) /\
    (n < nlen out -> exists k rest, (k < length l)%nat /\ rs1 = firstn k rs0 ++ Err OutOfSpec :: rest).
Proof.
  intros Hs. induction l as [|c l IH]; intros w d n w0 rs0 w1 rs1 H0 H1; cbn [calls] in *.
  - apply pair_inj in H0 as [<- <-]. apply pair_inj in H1 as [<- <-]. exists []. rewrite firstn_nil, app_nil_r.
    split; [ reflexivity | ]. split; [ reflexivity | ]. split; [ reflexivity | ]. change (nlen (@nil N)) with 0. lia.
  - destruct (Hs c w) as (o & w' & r & E0 & E1). rewrite E0 in H0. specialize (E1 d n).
    destruct (calls step (set_sink w' (mk_sink (d ++ o) None)) l) as [w2 xs] eqn:Ec. apply pair_inj in H0 as [<- <-].
    destruct (nlen o <=? n) eqn:En.
    + rewrite E1 in H1. destruct (calls step (set_sink w' (mk_sink (d ++ o) (Some (n - nlen o)))) l) as [w3 ys] eqn:Ed. apply pair_inj in H1 as [<- <-].
      destruct (IH _ _ _ _ _ _ _ Ec Ed) as (out & A & B & C & D). exists (o ++ out).
      rewrite A, B, nlen_app. rewrite firstn_room by lia. rewrite !app_assoc. split; [ reflexivity | ]. split; [ reflexivity | ]. split.
      * intro Hle. f_equal. apply C. lia.
      * intro Hlt. destruct (D ltac:(lia)) as (k & rest & Hk & ->). exists (S k), rest. cbn [length firstn app]. split; [ lia | reflexivity ].
    + destruct E1 as [w4 E1]. rewrite E1 in H1.
      destruct (calls step (set_sink w4 (mk_sink (d ++ firstn (N.to_nat n) o) (Some 0))) l) as [w3 ys] eqn:Ed. apply pair_inj in H1 as [<- <-].
      destruct (reliable_calls step Hs _ _ _ _ _ Ec) as [out Ho]. rewrite Ho, (full_calls step Hs _ _ _ _ _ Ed). cbn [sk_data].
      exists (o ++ out). rewrite nlen_app, firstn_noroom by lia. split; [ rewrite app_assoc; reflexivity | ]. split; [ reflexivity | ]. split; [ lia | ].
      intros _. exists 0%nat, ys. cbn [length firstn app]. split; [ lia | reflexivity ].
Qed.

(** ** Truncated files *)

Lemma truncated_rejected T m file n : n < nlen file ->
  magic_only_at_ends file \/ (forall pre post, file = pre ++ [80; 65; 82; 49] ++ post -> nlen pre + 4 <> n) ->
  read_metadata T m (firstn (N.to_nat n) file) = Err OutOfSpec.
Proof.
  intros Hn Hm. apply not_framed. intros (H12 & Hlast & _). set (cut := firstn (N.to_nat n) file) in *.
  unfold last_bytes in Hlast. set (k := N.to_nat (nlen cut - 4)) in *.
  assert (E : file = firstn k cut ++ [80; 65; 82; 49] ++ skipn (N.to_nat n) file).
  { rewrite <- Hlast, app_assoc, firstn_skipn. unfold cut. rewrite firstn_skipn. reflexivity. }
  assert (Hc : length cut = N.to_nat n) by (unfold cut; rewrite firstn_length; unfold nlen in *; lia).
  destruct Hm as [Hm|Hm].
  - destruct (Hm _ _ E) as [H|H].
    + apply (f_equal (@length N)) in H. rewrite firstn_length in H. cbn [length] in H. unfold k, nlen in *. lia.
    + apply (f_equal (@length N)) in H. rewrite skipn_length in H. cbn [length] in H. unfold nlen in *. lia.
  - apply (Hm _ _ E). unfold nlen in *. rewrite firstn_length. unfold k. lia.
Qed.

Lemma skipn_twice {A} a b (l : list A) : skipn a (skipn b l) = skipn (b + a) l.
Proof. revert l. induction b as [|b IH]; intros [|x l]; cbn [skipn Nat.add]; try reflexivity; [apply skipn_nil|apply IH]. Qed.
Lemma framed_dec file : framed file \/ ~ framed file.
Proof.
  unfold framed. destruct (N.le_gt_cases 12 (nlen file)); [|right; intros (A & _); lia]. destruct (list_eq_dec N.eq_dec (last_bytes 4 file) [80; 65; 82; 49]); [|right; tauto].
  destruct (Z.le_gt_cases 0 (declared_length file)); [|right; intros (_ & _ & A & _); lia]. destruct (Z.le_gt_cases (declared_length file + 8) (Z.of_N (nlen file))); [left; auto|right; intros (_ & _ & _ & A); lia].
Qed.
Lemma framed_decomposed file : framed file <-> exists before meta len, file = before ++ meta ++ len ++ [80; 65; 82; 49] /\ 12 <= nlen file /\ length len = 4%nat /\ to_signed 32 (le len) = Z.of_N (nlen meta).
Proof.
  split.
  - intros (H12 & Hlast & Hd & Hle). set (n := declared_length file) in *.
    assert (Hn : (Z.to_N n + 8 <= nlen file)) by lia.
    set (a := N.to_nat (nlen file - (Z.to_N n + 8))). set (k := Z.to_nat n).
    assert (La : (a + k + 8 = length file)%nat) by (unfold a, k, nlen in *; lia).
    exists (firstn a file), (firstn k (skipn a file)), (firstn 4 (last_bytes 8 file)).
    assert (E8 : last_bytes 8 file = skipn k (skipn a file)).
    { unfold last_bytes. rewrite skipn_twice. f_equal. unfold nlen in *. lia. }
    assert (E4 : skipn 4 (last_bytes 8 file) = [80; 65; 82; 49]).
    { rewrite <- Hlast. unfold last_bytes. rewrite skipn_twice. f_equal. unfold nlen in *. lia. }
    split; [|split; [exact H12|split]].
    + rewrite <- E4, (firstn_skipn 4 (last_bytes 8 file)), E8, firstn_skipn, firstn_skipn. reflexivity.
    + rewrite firstn_length. unfold last_bytes. rewrite skipn_length. unfold nlen in *. lia.
    + fold (declared_length file). fold n. unfold nlen. rewrite firstn_length, skipn_length. unfold k in *. lia.
  - intros (before & meta & len & -> & H12 & Hl & Hd).
    assert (L8 : last_bytes 8 (before ++ meta ++ len ++ [80; 65; 82; 49]) = len ++ [80; 65; 82; 49]).
    { unfold last_bytes, nlen. rewrite app_assoc, !app_length, Hl. cbn [length].
      replace (N.to_nat _) with (length (before ++ meta)) by (rewrite app_length; lia). rewrite skipn_app, Nat.sub_diag, skipn_all. reflexivity. }
    assert (Ed : declared_length (before ++ meta ++ len ++ [80; 65; 82; 49]) = Z.of_N (nlen meta)).
    { unfold declared_length. rewrite L8, <- Hl, firstn_app, Nat.sub_diag, firstn_all, firstn_O, app_nil_r. exact Hd. }
    split; [exact H12|]. split; [|split; rewrite Ed; [lia|]].
    + unfold last_bytes, nlen. rewrite 2 app_assoc, app_length. cbn [length]. replace (N.to_nat _) with (length ((before ++ meta) ++ len)) by lia.
      rewrite skipn_app, Nat.sub_diag, skipn_all. reflexivity.
    + unfold nlen. rewrite !app_length, Hl. cbn [length]. lia.
Qed.
Lemma footer_decomposed before meta len : length len = 4%nat -> to_signed 32 (le len) = Z.of_N (nlen meta) -> footer (before ++ meta ++ len ++ [80; 65; 82; 49]) = meta ++ len ++ [80; 65; 82; 49].
Proof.
  intros Hl Hd. unfold footer.
  assert (L8 : last_bytes 8 (before ++ meta ++ len ++ [80; 65; 82; 49]) = len ++ [80; 65; 82; 49]).
  { unfold last_bytes, nlen. rewrite app_assoc, !app_length, Hl. cbn [length].
    replace (N.to_nat _) with (length (before ++ meta)) by (rewrite app_length; lia). rewrite skipn_app, Nat.sub_diag, skipn_all. reflexivity. }
  assert (Ed : declared_length (before ++ meta ++ len ++ [80; 65; 82; 49]) = Z.of_N (nlen meta)).
  { unfold declared_length. rewrite L8, <- Hl, firstn_app, Nat.sub_diag, firstn_all, firstn_O, app_nil_r. exact Hd. }
  rewrite Ed, N2Z.id. unfold last_bytes, nlen. rewrite !app_length, Hl. cbn [length].
  replace (N.to_nat _) with (length before) by lia. rewrite skipn_app, Nat.sub_diag, skipn_all. reflexivity.
Qed.
Lemma truncated_opened T m file n md : n < nlen file ->
  read_metadata T m (firstn (N.to_nat n) file) = Ok md <->
  exists before meta len post t rest,
    file = before ++ (meta ++ len ++ [80; 65; 82; 49]) ++ post /\ n = nlen before + nlen meta + 8 /\ 12 <= n /\
    length len = 4%nat /\ to_signed 32 (le len) = Z.of_N (nlen meta) /\
    t_dec T (2 * (nlen meta + 8) + 1024) (meta ++ len ++ [80; 65; 82; 49]) = Ok (t, rest) /\ file_from_thrift m t = Ok md.
Proof.
  intros Hn. set (cut := firstn (N.to_nat n) file). assert (Hc : nlen cut = n) by (unfold cut, nlen in *; rewrite firstn_length; lia).
  assert (Hfoot : forall before meta len, cut = before ++ meta ++ len ++ [80; 65; 82; 49] -> 12 <= n -> length len = 4%nat -> to_signed 32 (le len) = Z.of_N (nlen meta) ->
    read_metadata T m cut = let* (t, _) := t_dec T (2 * (nlen meta + 8) + 1024) (meta ++ len ++ [80; 65; 82; 49]) in file_from_thrift m t).
  { intros before meta len E H12 Hl Hd. assert (Hf : framed cut) by (apply framed_decomposed; exists before, meta, len; rewrite Hc; auto).
    rewrite (with_size_exact _ _ _ Hf). rewrite E, footer_decomposed by assumption. unfold deserialize_metadata.
    replace (nlen (meta ++ len ++ [80; 65; 82; 49])) with (nlen meta + 8) by (unfold nlen; rewrite !app_length, Hl; cbn [length]; lia). reflexivity. }
  split.
  - intros H. assert (Hf : framed cut). { destruct (framed_dec cut) as [Hf|Hf]; [exact Hf|]. rewrite (not_framed T m cut Hf) in H. discriminate H. }
    apply framed_decomposed in Hf as (before & meta & len & E & H12 & Hl & Hd). rewrite Hc in H12. rewrite (Hfoot _ _ _ E H12 Hl Hd) in H.
    destruct (t_dec T _ _) as [[t rest]|e|] eqn:Et; try discriminate H. cbn [bind] in H. exists before, meta, len, (skipn (N.to_nat n) file), t, rest.
    split; [|split; [|split; [exact H12|split; [exact Hl|split; [exact Hd|split; [exact Et|exact H]]]]]].
    + rewrite app_assoc, <- E. unfold cut. rewrite firstn_skipn. reflexivity.
    + rewrite <- Hc, E. unfold nlen. rewrite !app_length, Hl. cbn [length]. lia.
  - intros (before & meta & len & post & t & rest & E & En & H12 & Hl & Hd & Et & H).
    assert (Ec : cut = before ++ meta ++ len ++ [80; 65; 82; 49]).
    { unfold cut. rewrite E, app_assoc. replace (N.to_nat n) with (length (before ++ meta ++ len ++ [80; 65; 82; 49])) by (rewrite !app_length, Hl; cbn [length]; unfold nlen in *; lia).
      rewrite firstn_app, Nat.sub_diag, firstn_all, firstn_O, app_nil_r. reflexivity. }
    rewrite (Hfoot _ _ _ Ec H12 Hl Hd), Et. exact H.
Qed.

Lemma calls_length step : forall l w w' rs, calls step w l = (w', rs) -> length rs = length l.
Proof.
  induction l as [|c l IH]; intros w w' rs H; cbn [calls] in H; [ apply pair_inj in H as [_ <-]; reflexivity | ].
  destruct (step w c) as [w1 x]. destruct (calls step w1 l) as [w2 xs] eqn:E. apply pair_inj in H as [_ <-]. cbn [length]. f_equal. exact (IH _ _ _ E).
Qed.
