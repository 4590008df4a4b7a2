(** What a use of a file writer has done, seen from its calls and their results only. *)
From Verif Require Import Base.Prelude Model.Types Model.Thrift Model.FileWrite.
Open Scope N_scope.

(** The file ends with a footer for [encoded]: its bytes, their number in four bytes, least significant first, and "PAR1". *)
Definition ends_with_footer (file encoded : list N) : Prop :=
  exists before a b c d, file = before ++ encoded ++ [a; b; c; d] ++ [80; 65; 82; 49] /\
    a < 256 /\ b < 256 /\ c < 256 /\ d < 256 /\ a + 256 * b + 256 ^ 2 * c + 256 ^ 3 * d = nlen encoded mod 256 ^ 4.

(** A call that ended the file. *)
Definition an_end (c : call) (r : res N) : Prop := exists kv size, c = CEnd kv /\ r = Ok size.
(** None of the calls ended the file. *)
Definition no_end (l : list call) (results : list (res N)) : Prop := forall c r, In (c, r) (combine l results) -> ~ an_end c r.
(** Every attempt to end the file is refused. *)
Definition ends_refused (l : list call) (results : list (res N)) : Prop := forall kv r, In (CEnd kv, r) (combine l results) -> r = Err InvalidParameter.

(** How many row groups were written. *)
Inductive groups_written : list call -> list (res N) -> nat -> Prop :=
| gw_nil : groups_written [] [] 0
| gw_ok g x l rs n : groups_written l rs n -> groups_written (CWrite g :: l) (Ok x :: rs) (S n)
| gw_failed g r l rs n : (forall x, r <> Ok x) -> groups_written l rs n -> groups_written (CWrite g :: l) (r :: rs) n
| gw_end kv r l rs n : groups_written l rs n -> groups_written (CEnd kv :: l) (r :: rs) n.
