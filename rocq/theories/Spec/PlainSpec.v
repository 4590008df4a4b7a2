(** Specifications for PLAIN values, from the Parquet format (Encodings.md, "Plain"), and the
    lexicographic order on byte strings. *)
From Verif Require Import Base.Prelude.
Open Scope N_scope.

(** BYTE_ARRAY: a four-byte little-endian length, then the bytes. *)
Definition plain_string (s : list N) : list N := to_le 4 (nlen s) ++ s.
Definition plain_strings (l : list (list N)) : list N := concat (map plain_string l).

(** What reading strings off arbitrary bytes may return: at every point either fewer than four bytes are
    left and nothing more comes; or the next string, with its four length bytes, is the next piece of the
    buffer; or the next four bytes declare more bytes than are left: an error, and reading goes on behind
    those four bytes. *)
Inductive plain_pieces : list N -> list (list N + error) -> Prop :=
| pp_end rest : (length rest < 4)%nat -> plain_pieces rest []
| pp_string s rest items :
    nlen s < 2 ^ 32 -> plain_pieces rest items ->
    plain_pieces (plain_string s ++ rest) (inl s :: items)
| pp_bad head rest items :
    length head = 4%nat -> nlen rest < le head -> plain_pieces rest items ->
    plain_pieces (head ++ rest) (inr OutOfSpec :: items).

(** Unsigned lexicographic order of byte strings. *)
Inductive lex_lt : list N -> list N -> Prop :=
| lex_nil b l : lex_lt [] (b :: l)
| lex_head a b l l' : a < b -> lex_lt (a :: l) (b :: l')
| lex_tail a l l' : lex_lt l l' -> lex_lt (a :: l) (a :: l').
Definition lex_le (a b : list N) : Prop := a = b \/ lex_lt a b.
