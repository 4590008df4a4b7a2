(** What may happen to an asynchronous writer of files, and where that leaves the row groups. *)
From Verif Require Import Base.Prelude Model.Types Model.Native Model.Thrift Model.Intervals Model.Page Model.Io Model.Statistics Model.PageWrite Model.Schema Model.PageRead
  Model.Metadata Model.Indexes Model.FileWrite Model.Cancel Spec.PagesSpec Spec.ChunkSpec Spec.MetadataSpec Spec.FileSpec.
Open Scope N_scope.

(** The bytes that the destination holds. *)
Definition file_of (w : file_writer) : list N := sk_data (fw_sink w).
(** The bytes that a call adds if it is not dropped. *)
Definition adds (F : formats) (m : mode) (w : file_writer) (c : call) : list N :=
  skipn (length (file_of w)) (file_of (fst (fs_call F m w c))).
(** The bytes that the destination holds and that the writer has not counted. *)
Definition uncounted (w : file_writer) : N := nlen (file_of w) - fw_offset w.

(** From [w] to [w'] by any calls: row groups that were written, each listed with the uncounted bytes at the time; and calls that were dropped
    before they had written everything, at any byte, that failed, or that ended the file. *)
Inductive streamed (F : formats) (m : mode) : file_writer -> list (row_group_iter * N) -> file_writer -> Prop :=
| streamed_nil w : streamed F m w [] w
| streamed_written w g w1 r l w' : fs_call F m w (CWrite g) = (w1, Ok r) -> streamed F m w1 l w' -> streamed F m w ((g, uncounted w) :: l) w'
| streamed_failed w g w1 e l w' : fs_call F m w (CWrite g) = (w1, Err e) -> streamed F m w1 l w' -> streamed F m w l w'
| streamed_ended w kv w1 r l w' : fs_call F m w (CEnd kv) = (w1, r) -> r <> Panic -> streamed F m w1 l w' -> streamed F m w l w'
| streamed_dropped w c n l w' : n < nlen (adds F m w c) -> streamed F m (fs_dropped F m w c n) l w' -> streamed F m w l w'.

(** A chunk [k] bytes behind the place that the metadata has for it, and its offset index [k'] bytes behind its place; the index has the places
    of the pages that the metadata has, not those where the pages are. *)
Definition chunk_and_index_behind (F : formats) (file : list N) (k k' : N) (x : column_descriptor * (pages_iter + error)) (c : t_column_chunk) : Prop :=
  chunk_behind F file k x c /\
  (chunk_rows (pages_of_column (snd x)) < 2 ^ 63 ->
   exists place, cc_offset_index_offset c = Some (Z.of_N place) /\
     let bytes := t_enc (f_offsets F) (chunk_locations F (snd x) c) in
     cc_offset_index_length c = Some (as_i32 (nlen bytes)) /\ holds file (place + k') bytes).

(** Row groups that were written, with attempts between them that were dropped before the destination had accepted a byte. *)
Inductive undisturbed (F : formats) (m : mode) : file_writer -> list row_group_iter -> file_writer -> Prop :=
| undisturbed_nil w : undisturbed F m w [] w
| undisturbed_written w g w1 r gs w' : fs_call F m w (CWrite g) = (w1, Ok r) -> undisturbed F m w1 gs w' -> undisturbed F m w (g :: gs) w'
| undisturbed_dropped w g gs w' : 0 < nlen (adds F m w (CWrite g)) -> undisturbed F m (fs_dropped F m w (CWrite g) 0) gs w' -> undisturbed F m w gs w'.
