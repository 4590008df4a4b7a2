(** What may come of reading from a source that fails. *)
From Verif Require Import Base.Prelude Model.Types Model.Page Model.Io Model.Faults.
Open Scope N_scope.

(** A source of the bytes [file], wherever it stands and whatever it does when it is asked, makes [read] return what [expected] says of the bytes, or
    an error; a source that does not fail makes it return what [expected] says. *)
Definition honest {A} (expected : list N -> res A) (read : reader A) : Prop :=
  forall file pos fs,
    let out := snd (read (mk_drive file pos fs)) in
    (out = expected file \/ out = Err OutOfSpec) /\
    (Forall (fun f => f = None) fs -> out = expected file).

(** An item is the one that was to come, or an error in its place. *)
Definition same_or_error (x y : compressed_page + error) : Prop := x = y \/ x = inr OutOfSpec.

(** The protocol reads its bytes in order: what it leaves is the end of what it was given. *)
Definition reads_in_order {X} (T : thrift X) : Prop :=
  forall max s x rest, t_dec T max s = Ok (x, rest) -> exists used, s = used ++ rest.
