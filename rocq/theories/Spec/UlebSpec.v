(** What a ULEB128 byte string denotes, independent of the decoder's loop. *)
From Verif Require Import Base.Prelude.
Open Scope N_scope.

(** The leading group: everything up to and including the first byte below 128
    (the whole string if there is none). *)
Fixpoint uleb_lead (l : list N) : list N :=
  match l with
  | [] => []
  | b :: r => if b <? 128 then [b] else b :: uleb_lead r
  end.

(** Little-endian base-128 value of the low seven bits of the bytes. *)
Fixpoint base128 (l : list N) : N :=
  match l with
  | [] => 0
  | b :: r => b mod 128 + 128 * base128 r
  end.
