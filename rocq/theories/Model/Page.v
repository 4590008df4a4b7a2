(** Model of /repo/src/page/mod.rs. *)
From Verif Require Import Base.Prelude Model.Types Model.Thrift Model.Intervals Model.Plain.
Open Scope N_scope.

(** page/mod.rs:120-123 [DataPageHeader]. *)
Inductive page_header := HV1 (h : t_data_header) | HV2 (h : t_data_header_v2).
(** page/mod.rs:126-131. *)
Definition header_num_values (h : page_header) : N :=
  match h with HV1 d => as_usize (dh_num_values d) | HV2 d => as_usize (dh2_num_values d) end.
(** page/mod.rs:198-201: the field converted by [encoding]. *)
Definition header_encoding (h : page_header) : Z :=
  match h with HV1 d => dh_encoding d | HV2 d => dh2_encoding d end.
(** page/mod.rs:101-110 and 220-229: the field converted by [statistics]. *)
Definition header_statistics (h : page_header) : option t_statistics :=
  match h with HV1 d => dh_statistics d | HV2 d => dh2_statistics d end.

(** page/mod.rs:20-29 [CompressedDataPage]. *)
Record compressed_data_page := mk_cdp {
  cdp_header : page_header;
  cdp_buffer : list N;
  cdp_compression : compression;
  cdp_uncompressed_size : N;
  cdp_descriptor : descriptor;
  cdp_selected : option (list interval)
}.
(** page/mod.rs:33-49 [new]. *)
Definition cdp_new (h : page_header) (buffer : list N) (c : compression) (size : N) (d : descriptor) (rows : option N) :=
  mk_cdp h buffer c size d (option_map (fun x => [mk_iv 0 x]) rows).

(** page/mod.rs:137-142 [DataPage]. *)
Record data_page := mk_dp {
  dp_header : page_header;
  dp_buffer : list N;
  dp_descriptor : descriptor;
  dp_selected : option (list interval)
}.
(** page/mod.rs:145-157 [new]. *)
Definition dp_new (h : page_header) (buffer : list N) (d : descriptor) (rows : option N) :=
  mk_dp h buffer d (option_map (fun x => [mk_iv 0 x]) rows).

(** page/mod.rs:197-202 [DataPage::encoding], which unwraps the conversion of the thrift number
    (parquet_bridge.rs:411-437). *)
Definition dp_encoding (p : data_page) : res encoding :=
  match encoding_of_thrift (header_encoding (dp_header p)) with Ok e => Ok e | _ => Panic end.
(** page/mod.rs:193-195 [num_values]. *)
Definition dp_num_values (p : data_page) : N := header_num_values (dp_header p).

(** page/mod.rs:301-305 [DictPage]. *)
Record dict_page := mk_dict { di_buffer : list N; di_num_values : N; di_is_sorted : bool }.
(** page/mod.rs:319-325. *)
Record compressed_dict_page := mk_cdict {
  cdi_buffer : list N;
  cdi_compression : compression;
  cdi_num_values : N;
  cdi_uncompressed_size : N;
  cdi_is_sorted : bool
}.

(** page/mod.rs:237-242 [Page]. *)
Inductive page := PData (p : data_page) | PDict (p : dict_page).
(** page/mod.rs:257-260. *)
Inductive compressed_page := CData (p : compressed_data_page) | CDict (p : compressed_dict_page).
(** page/mod.rs:245-250 [buffer]. *)
Definition page_buffer (p : page) : list N :=
  match p with PData p => dp_buffer p | PDict p => di_buffer p end.
(** page/mod.rs:263-268 [buffer]. *)
Definition cp_buffer (p : compressed_page) : list N :=
  match p with CData p => cdp_buffer p | CDict p => cdi_buffer p end.
(** page/mod.rs:270-275 [compression]. *)
Definition cp_compression (p : compressed_page) : compression :=
  match p with CData p => cdp_compression p | CDict p => cdi_compression p end.
(** page/mod.rs:277-282 [num_values]. *)
Definition cp_num_values (p : compressed_page) : N :=
  match p with CData p => header_num_values (cdp_header p) | CDict _ => 0 end.
(** page/mod.rs:284-289 [selected_rows]. *)
Definition cp_selected (p : compressed_page) : option (list interval) :=
  match p with CData p => cdp_selected p | CDict _ => None end.
(** page/mod.rs:291-296 [uncompressed_size]. *)
Definition cp_uncompressed_size (p : compressed_page) : N :=
  match p with CData p => cdp_uncompressed_size p | CDict p => cdi_uncompressed_size p end.

(** page/mod.rs:357-375 and 377-395: one length-prefixed level buffer; [slice::get] gives [None] out of range.
    The sum [4 + length] is of a [u32] and 4, in [usize]. *)
Definition split_level (has : bool) (buffer : list N) : res (list N * list N) :=
  if has then
    match get_length buffer with
    | None => Err OutOfSpec
    | Some len =>
        let end_ := (4 + N.to_nat len)%nat in
        if (end_ <=? length buffer)%nat then Ok (firstn (N.to_nat len) (skipn 4 buffer), skipn end_ buffer)
        else Err OutOfSpec
    end
  else Ok ([], buffer).

(** page/mod.rs:352-398 [split_buffer_v1]. *)
Definition split_buffer_v1 (buffer : list N) (has_rep has_def : bool) : res (list N * list N * list N) :=
  let* (rep, buffer) := split_level has_rep buffer in
  let* (def, buffer) := split_level has_def buffer in
  Ok (rep, def, buffer).

(** page/mod.rs:407-409. [&buffer[a..b]] panics when [b < a] or [b] exceeds the length. *)
Definition slice_range (a b : N) (l : list N) : res (list N) :=
  if (a <=? b) && (b <=? nlen l) then Ok (firstn (N.to_nat (b - a)) (skipn (N.to_nat a) l)) else Panic.

(** page/mod.rs:401-411 [split_buffer_v2]. *)
Definition split_buffer_v2 (m : mode) (buffer : list N) (rep_length def_length : N) : res (list N * list N * list N) :=
  let* rep := slice_range 0 rep_length buffer in
  let* sum := uadd m 64 rep_length def_length in
  let* def := slice_range rep_length sum buffer in
  let* values := slice_range sum (nlen buffer) buffer in
  Ok (rep, def, values).

(** page/mod.rs:414-431 [split_buffer]. *)
Definition split_buffer (m : mode) (p : data_page) : res (list N * list N * list N) :=
  match dp_header p with
  | HV1 _ => split_buffer_v1 (dp_buffer p) (0 <? d_max_rep (dp_descriptor p))%Z (0 <? d_max_def (dp_descriptor p))%Z
  | HV2 h =>
      let* def_length := try_usize (dh2_def_length h) in
      let* rep_length := try_usize (dh2_rep_length h) in
      split_buffer_v2 m (dp_buffer p) rep_length def_length
  end.
