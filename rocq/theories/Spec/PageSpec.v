(** Layout of data page buffers, from the Parquet format. *)
From Verif Require Import Base.Prelude Model.Types Model.Thrift Model.Page.
Open Scope N_scope.

(** v1: each level buffer present is preceded by its length in four little-endian bytes. *)
Definition v1_levels (has : bool) (levels : list N) : list N := if has then to_le 4 (nlen levels) ++ levels else [].
Definition v1_layout (has_rep has_def : bool) (rep def values : list N) : list N :=
  v1_levels has_rep rep ++ v1_levels has_def def ++ values.
(** An absent level buffer is empty; a present one has a length that fits its four bytes. *)
Definition v1_part (has : bool) (levels : list N) : Prop :=
  if has then nlen levels < 2 ^ 32 else levels = [].

(** [page_parts p rep def values]: the page's buffer is made of these three parts. In a v2 page the lengths
    of the levels are in the header; in a v1 page they precede the levels, and a level buffer is there
    exactly when the column's maximum level is positive. *)
Definition page_parts (p : data_page) (rep def values : list N) : Prop :=
  nlen (dp_buffer p) < 2 ^ 64 /\
  match dp_header p with
  | HV1 _ =>
      let has_rep := (0 <? d_max_rep (dp_descriptor p))%Z in
      let has_def := (0 <? d_max_def (dp_descriptor p))%Z in
      dp_buffer p = v1_layout has_rep has_def rep def values /\ v1_part has_rep rep /\ v1_part has_def def
  | HV2 h =>
      dp_buffer p = rep ++ def ++ values /\
      dh2_rep_length h = Z.of_N (nlen rep) /\ dh2_def_length h = Z.of_N (nlen def) /\
      nlen rep < 2 ^ 31 /\ nlen def < 2 ^ 31
  end.
