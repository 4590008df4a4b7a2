(** Asynchronous calls whose future is dropped before it is ready. *)
From Verif Require Import Base.Prelude Model.Types Model.Io Model.Metadata Model.FileWrite.
Open Scope N_scope.

(** write/stream.rs:46: the same writer on the same destination, which accepts [room] more bytes ([None]: any number). *)
Definition with_room (w : file_writer) (room : option N) : file_writer := set_sink w (mk_sink (sk_data (fw_sink w)) room).

(** write/stream.rs:112-134 [write] and 138-190 [end], of which the future is dropped when the destination has accepted [n] bytes since the call.
    The future is suspended only where it waits for the destination, so dropping it is the end of the call at the byte at which it waits: what
    was assigned to the fields before stays, and nothing after it is done. A write that fails there ends the call at the same place and with
    the same fields, by the operator [?]; so the call is run on a destination that takes [n] bytes, and the result is thrown away. The
    destination itself is as good as before. Simplified: a future that is dropped while it flushes, when every byte was accepted
    (write/stream.rs:39-40), has done everything but to return, and is the same as a call that is done. *)
Definition fs_dropped (F : formats) (m : mode) (w : file_writer) (c : call) (n : N) : file_writer :=
  with_room (fst (fs_call F m (with_room w (Some n)) c)) None.
