(** Model of what pages answer about themselves: /repo/src/page/mod.rs:75-115 and 177-230, with
    parquet_bridge.rs:405-437. The encoding of the values and the number of values are in Model/Page.v. *)
From Verif Require Import Base.Prelude Model.Types Model.Thrift Model.Intervals Model.Page Model.Statistics.
Open Scope N_scope.

(** parquet_bridge.rs:413, 417, 421, 427: [try_into().unwrap()]. *)
Definition unwrap_encoding (z : Z) : res encoding := match encoding_of_thrift z with Ok e => Ok e | _ => Panic end.
(** page/mod.rs:204-209 [DataPage::definition_level_encoding]. *)
Definition dp_definition_level_encoding (p : data_page) : res encoding :=
  match dp_header p with HV1 h => unwrap_encoding (dh_def_encoding h) | HV2 _ => Ok ERle end.
(** page/mod.rs:211-216 [DataPage::repetition_level_encoding]. *)
Definition dp_repetition_level_encoding (p : data_page) : res encoding :=
  match dp_header p with HV1 h => unwrap_encoding (dh_rep_encoding h) | HV2 _ => Ok ERle end.
(** page/mod.rs:219-230 [DataPage::statistics]; the outer option is the caller's, the result is in it. *)
Definition dp_statistics (p : data_page) : option (res statistics) :=
  match dp_header p with
  | HV1 h => option_map (fun x => deserialize_statistics x (d_primitive (dp_descriptor p))) (dh_statistics h)
  | HV2 h => option_map (fun x => deserialize_statistics x (d_primitive (dp_descriptor p))) (dh2_statistics h)
  end.
(** page/mod.rs:100-111 [CompressedDataPage::statistics]. *)
Definition cdp_statistics (p : compressed_data_page) : option (res statistics) :=
  match cdp_header p with
  | HV1 h => option_map (fun x => deserialize_statistics x (d_primitive (cdp_descriptor p))) (dh_statistics h)
  | HV2 h => option_map (fun x => deserialize_statistics x (d_primitive (cdp_descriptor p))) (dh2_statistics h)
  end.
(** page/mod.rs:95-97 [CompressedDataPage::num_values]. *)
Definition cdp_num_values (p : compressed_data_page) : N := header_num_values (cdp_header p).
(** page/mod.rs:78-80 [compressed_size]. *)
Definition cdp_compressed_size (p : compressed_data_page) : N := nlen (cdp_buffer p).
(** page/mod.rs:113-116 [select_rows]. *)
Definition cdp_select_rows (p : compressed_data_page) (rows : list interval) : compressed_data_page :=
  mk_cdp (cdp_header p) (cdp_buffer p) (cdp_compression p) (cdp_uncompressed_size p) (cdp_descriptor p) (Some rows).
