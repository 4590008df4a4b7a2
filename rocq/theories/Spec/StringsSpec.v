(** Cutting and rebuilding lists of byte strings, independently of the code. *)
From Verif Require Import Base.Prelude.

(** The strings of the given lengths, one after the other. *)
Fixpoint cut (lengths : list nat) (bytes : list N) : list (list N) :=
  match lengths with
  | [] => []
  | n :: r => firstn n bytes :: cut r (skipn n bytes)
  end.

(** Incremental encoding: each string is a prefix of the one before and a suffix. *)
Fixpoint rebuild (previous : list N) (prefixes : list nat) (suffixes : list (list N)) : list (list N) :=
  match prefixes, suffixes with
  | p :: ps, s :: ss => let x := firstn p previous ++ s in x :: rebuild x ps ss
  | _, _ => []
  end.

Definition strict_prefix (a b : list N) : Prop := exists c, c <> [] /\ b = a ++ c.

(** Some string is a strict prefix of the one before it. *)
Definition has_strict_prefix (strings : list (list N)) : Prop :=
  exists pre a b post, strings = pre ++ a :: b :: post /\ strict_prefix b a.
