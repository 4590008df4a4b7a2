(** What going on with a half-read column chunk means. *)
From Verif Require Import Base.Prelude Base.Iter Model.Types Model.Thrift Model.Page Model.Io.
Open Scope N_scope.

(** The number of values in a page header is a 32-bit integer. *)
Definition counts_fit (T : thrift t_page_header) : Prop :=
  forall max s h rest, t_dec T max s = Ok (h, rest) ->
    (forall d, ph_data h = Some d -> (- 2 ^ 31 <= dh_num_values d < 2 ^ 31)%Z) /\
    (forall d, ph_data_v2 h = Some d -> (- 2 ^ 31 <= dh2_num_values d < 2 ^ 31)%Z).

(** The iterator in state [s] returns the items [l], and is then in state [s']; it need not be at its end. *)
Inductive steps {S A} (next : S -> res (option A * S)) : S -> list A -> S -> Prop :=
| steps_nil s : steps next s [] s
| steps_cons s s1 a l s' : next s = Ok (Some a, s1) -> steps next s1 l s' -> steps next s (a :: l) s'.
