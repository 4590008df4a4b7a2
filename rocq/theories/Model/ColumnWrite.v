(** Model of /repo/src/write/column_chunk.rs.

    A streaming iterator of pages is the list of what its [next] returns: a page, or the error it fails with. Offsets and
    sizes of bytes written and the counts summed over pages are not wrapped: they stay far below [2^63] in any execution.
    The asynchronous [write_column_chunk_async] (65-100) is the same sequence of steps on an asynchronous sink. *)
From Verif Require Import Base.Prelude Model.Types Model.Thrift Model.Intervals Model.Page Model.Io Model.Statistics Model.PageWrite.
Open Scope N_scope.

(** write/column_chunk.rs:45-49: the loop over the pages. *)
Fixpoint write_pages (T : thrift t_page_header) (offset : N) (pages : list (compressed_page + error)) : writer (list page_spec) :=
  match pages with
  | [] => wret []
  | inr e :: _ => wres (Err e)
  | inl p :: pages =>
      do* spec := write_page T offset p in
      do* specs := write_pages T (offset + ps_bytes_written spec) pages in
      wret (spec :: specs)
  end.
(** write/column_chunk.rs:50, the sum of what line 47 added. *)
Definition specs_size (specs : list page_spec) : N := fold_right (fun s n => ps_bytes_written s + n) 0 specs.

(** write/column_chunk.rs:108-111: the codecs of the pages as a set. *)
Fixpoint distinct_codecs (l : list compression) : list compression :=
  match l with
  | [] => []
  | c :: l => let r := distinct_codecs l in if existsb (compression_eqb c) r then r else c :: r
  end.

(** write/column_chunk.rs:135-146: what one page contributes; the unwraps become panics. *)
Definition spec_num_values (s : page_spec) : res Z :=
  let h := ps_header s in
  match page_type_of_thrift (ph_type h) with
  | Ok PtData => match ph_data h with Some d => Ok (dh_num_values d) | None => Panic end
  | Ok PtDataV2 => match ph_data_v2 h with Some d => Ok (dh2_num_values d) | None => Panic end
  | Ok PtDictionary => Ok 0%Z
  | _ => Panic
  end.
(** write/column_chunk.rs:150-171. *)
Definition spec_encodings (s : page_spec) : res (list Z) :=
  let h := ps_header s in
  match page_type_of_thrift (ph_type h) with
  | Ok PtData => match ph_data h with Some d => Ok [dh_encoding d; encoding_to_thrift ERle] | None => Panic end
  | Ok PtDataV2 => match ph_data_v2 h with Some d => Ok [dh2_encoding d; encoding_to_thrift ERle] | None => Panic end
  | Ok PtDictionary => match ph_dict h with Some d => Ok [dict_encoding d] | None => Panic end
  | _ => Panic
  end.

(** write/column_chunk.rs:172-177. Collecting into a set and sorting it. *)
Fixpoint insert_sorted (x : Z) (l : list Z) : list Z :=
  match l with
  | [] => [x]
  | y :: r => if (x <? y)%Z then x :: l else if (x =? y)%Z then l else y :: insert_sorted x r
  end.
(** write/column_chunk.rs:172-177. *)
Definition sorted_set (l : list Z) : list Z := fold_right insert_sorted [] l.

(** write/column_chunk.rs:126, 131 and 147 [sum]. *)
Definition zsum (l : list Z) : Z := fold_right Z.add 0%Z l.

(** write/column_chunk.rs:102-213 [build_column_chunk]. [header_size as i64] is exact. *)
Definition build_column_chunk (m : mode) (specs : list page_spec) (d : column_descriptor) : res t_column_chunk :=
  let codecs := distinct_codecs (map ps_compression specs) in
  if 1 <? nlen codecs then Err OutOfSpec
  else
    let codec := match codecs with c :: _ => c | [] => Uncompressed end in
    let compressed := zsum (map (fun s => Z.of_N (ps_header_size s) + ph_compressed_size (ps_header s))%Z specs) in
    let uncompressed := zsum (map (fun s => Z.of_N (ps_header_size s) + ph_uncompressed_size (ps_header s))%Z specs) in
    let offset := match specs with s :: _ => as_i64 (ps_offset s) | [] => 0%Z end in
    let* values := collect_res (map spec_num_values specs) in
    let* encodings := collect_res (map spec_encodings specs) in
    let* reduced := reduce_statistics m (map ps_statistics specs) in
    let* statistics := match reduced with
                       | None => Ok None
                       | Some s => let* s := serialize_statistics s in Ok (Some s)
                       end in
    let meta :=
      mk_tcm (fst (physical_to_thrift (pt_physical (d_primitive (cd_descriptor d))))) (sorted_set (concat encodings))
        (cd_path d) (compression_to_thrift codec) (zsum values) uncompressed compressed None offset None None
        statistics None None in
    Ok (mk_tcc None (offset + compressed) (Some meta) None None None None None None).

(** write/column_chunk.rs:29-63 [write_column_chunk]. *)
Definition write_column_chunk (T : thrift t_page_header) (TM : thrift t_column_meta) (m : mode) (offset : N)
  (d : column_descriptor) (pages : list (compressed_page + error)) : writer (t_column_chunk * list page_spec * N) :=
  do* specs := write_pages T offset pages in
  do* chunk := wres (build_column_chunk m specs d) in
  match cc_meta chunk with
  | None => wres Panic
  | Some meta => do* n := write_struct TM meta in wret (chunk, specs, specs_size specs + n)
  end.
