(** What is stored when values do not fit in the bits they are packed into. *)
From Verif Require Import Base.Prelude.
Open Scope N_scope.

(** Values of [w] bits, one behind the other, cut into words of [bits] bits. Between value [i - 1] and value [i] the current word has this many
    bits used. *)
Definition word_used (bits w i : nat) : nat := (i * w) mod bits.

(** What the value before value [i] adds to it: the bits of that value above its own [w], as far as the word reaches that they start in: nothing
    unless that value lies in two words, in which case it has [w - word_used] bits to spare. *)
Definition spilled (bits w i : nat) (before : N) : N :=
  let used := word_used bits w i in
  if (0 <? used)%nat && (used <? w)%nat then (before / 2 ^ N.of_nat w) mod 2 ^ N.of_nat (w - used) else 0.

(** What is stored as value [i] of [l]: its low bits, mixed with what the one before it spills. *)
Definition stored (bits w : nat) (l : list N) (i : nat) : N :=
  N.lor (nth i l 0 mod 2 ^ N.of_nat w) (match i with O => 0 | S j => spilled bits w i (nth j l 0) end).
