(** Vocabulary for the statements about reading the indexes of any columns (C80, C82). *)
From Verif Require Import Base.Prelude Model.Types Model.Thrift Model.Statistics Model.Schema Model.Metadata Model.Indexes.
Open Scope N_scope.

(** What the metadata says of the columns asked for: the place of the first one's index, and the size of each one's. *)
Definition first_index_at (chunks : list column_md) (o : N) : Prop :=
  exists c r, chunks = c :: r /\ cc_column_index_offset (cmd_chunk c) = Some (Z.of_N o).
Definition index_sizes (chunks : list column_md) (sizes : list N) : Prop :=
  Forall2 (fun c n => cc_column_index_length (cmd_chunk c) = Some (Z.of_N n)) chunks sizes.

(** The places behind each other that start at [o] and have these sizes. *)
Fixpoint one_behind_the_other (o : N) (sizes : list N) : list (N * N) :=
  match sizes with [] => [] | n :: r => (o, n) :: one_behind_the_other (o + n) r end.

(** The column [c] with its index at another place, [o], [n] bytes long. *)
Definition moved_to (place : N * N) (c : column_md) : column_md :=
  let k := cmd_chunk c in
  mk_cmd (mk_tcc (cc_file_path k) (cc_file_offset k) (cc_meta k) (cc_offset_index_offset k) (cc_offset_index_length k)
                 (Some (Z.of_N (fst place))) (Some (Z.of_N (snd place))) (cc_crypto k) (cc_encrypted k)) (cmd_descr c).

(** A stored index with a page that is not marked as null and has an empty bound. Pages after the shortest of the lists do not count. *)
Definition empty_bound (i : t_column_index) : Prop :=
  exists k mn mx, nth_error (ci_min_values i) k = Some mn /\ nth_error (ci_max_values i) k = Some mx /\ nth_error (ci_null_pages i) k = Some false /\
    (forall l, ci_null_counts i = Some l -> (k < length l)%nat) /\ (mn = [] \/ mx = []).

(** The bytes of the place are not all in the file. *)
Definition cut_off (file : list N) (place : N * N) : Prop := nlen file < fst place + snd place /\ 0 < snd place.
