(** Model of /repo/src/write/page.rs. *)
From Verif Require Import Base.Prelude Model.Types Model.Thrift Model.Intervals Model.Page Model.Io Model.Native Model.Statistics.
Open Scope N_scope.

(** write/page.rs:25-30, 32-37 and 177-182. [usize::try_into::<i32>] with the error mapped to out of spec. *)
Definition try_i32 (n : N) : res Z := if n <? 2147483648 then Ok (Z.of_N n) else Err OutOfSpec.

(** write/page.rs:24-40 [maybe_bytes]. *)
Definition maybe_bytes (uncompressed compressed : N) : res (Z * Z) :=
  let* u := try_i32 uncompressed in
  let* c := try_i32 compressed in
  Ok (u, c).

(** write/page.rs:43-52 [PageWriteSpec]. *)
Record page_spec := mk_ps {
  ps_header : t_page_header;
  ps_num_values : N;
  ps_num_rows : option N;
  ps_header_size : N;
  ps_offset : N;
  ps_bytes_written : N;
  ps_compression : compression;
  ps_statistics : option statistics
}.

(** write/page.rs:20-22 [is_data_page]. *)
Definition is_data_page (s : page_spec) : bool := ((ph_type (ps_header s) =? 0) || (ph_type (ps_header s) =? 3))%Z.

(** write/page.rs:144-171 [assemble_data_page_header]. *)
Definition assemble_data_page_header (p : compressed_data_page) : res t_page_header :=
  let* (u, c) := maybe_bytes (cdp_uncompressed_size p) (nlen (cdp_buffer p)) in
  Ok match cdp_header p with
     | HV1 h => mk_tph (page_type_to_thrift PtData) u c None (Some h) None None None
     | HV2 h => mk_tph (page_type_to_thrift PtDataV2) u c None None None None (Some h)
     end.

(** write/page.rs:173-198 [assemble_dict_page_header]. *)
Definition assemble_dict_page_header (p : compressed_dict_page) : res t_page_header :=
  let* (u, c) := maybe_bytes (cdi_uncompressed_size p) (nlen (cdi_buffer p)) in
  let* n := try_i32 (cdi_num_values p) in
  Ok (mk_tph (page_type_to_thrift PtDictionary) u c None None None
        (Some (mk_tdict n (encoding_to_thrift EPlain) None)) None).

(** write/page.rs:62-65. *)
Definition assemble_header (p : compressed_page) : res t_page_header :=
  match p with CData p => assemble_data_page_header p | CDict p => assemble_dict_page_header p end.

(** page/mod.rs:100-111 [CompressedDataPage::statistics], then [transpose]. *)
Definition cdp_statistics (p : compressed_data_page) : res (option statistics) :=
  match header_statistics (cdp_header p) with
  | None => Ok None
  | Some s => let* s := deserialize_statistics s (d_primitive (cdp_descriptor p)) in Ok (Some s)
  end.

(** write/page.rs:93: the length of the last selected interval; an empty selection panics. *)
Definition page_num_rows (p : compressed_page) : res (option N) :=
  match cp_selected p with
  | None => Ok None
  | Some ivs => match rev ivs with [] => Panic | iv :: _ => Ok (Some (iv_length iv)) end
  end.

(** write/page.rs:54-96 [write_page]. The asynchronous [write_page_async] (98-142) is the same sequence of steps on an
    asynchronous sink, and write_page_header (200-204, 206-215) is [write_struct]. *)
Definition write_page (T : thrift t_page_header) (offset : N) (p : compressed_page) : writer page_spec :=
  do* header := wres (assemble_header p) in
  do* header_size := write_struct T header in
  do* _ := write_all (cp_buffer p) in
  do* statistics := wres match p with CData p => cdp_statistics p | CDict _ => Ok None end in
  do* num_rows := wres (page_num_rows p) in
  wret (mk_ps header (cp_num_values p) num_rows header_size offset (header_size + nlen (cp_buffer p)) (cp_compression p)
          statistics).
