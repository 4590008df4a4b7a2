(** Column chunks of arbitrary bytes. *)
From Verif Require Import Base.Prelude Model.Types Model.Thrift Model.Intervals Model.Page Model.Io Spec.PagesSpec Spec.ForeignSpec Spec.DeltaAnySpec.
Open Scope N_scope.

(** A page at the front of [bytes]: a header that can be read within the limit [max], describes the page and names known encodings; then the
    page's bytes, as many as the header says and not more than [max]; then [rest]. *)
Definition page_in_front (T : thrift t_page_header) (max : N) (bytes : list N) (p : compressed_page) (rest : list N) : Prop :=
  exists h more, t_dec T max bytes = Ok (h, more) /\ describes h p /\ known_encodings p /\ nlen (cp_buffer p) <= max /\ more = cp_buffer p ++ rest.

(** The page belongs to a column with this codec and descriptor, and has no selected rows. *)
Definition of_column (c : compression) (d : descriptor) (p : compressed_page) : Prop := as_stored c d p = p.

(** The header has what is needed to count the values of the page. *)
Definition countable (h : t_page_header) : Prop :=
  match ph_type h with
  | 0 => exists x, ph_data h = Some x /\ known_encoding (dh_encoding x) /\ known_encoding (dh_def_encoding x) /\ known_encoding (dh_rep_encoding x)
  | 2 => True
  | 3 => exists x, ph_data_v2 h = Some x /\ known_encoding (dh2_encoding x)
  | _ => False
  end%Z.

(** Why there is no page at the front: the header cannot be read; or the page would be larger than the limit; or anything else. *)
Definition complaint (T : thrift t_page_header) (max : N) (bytes : list N) (e : error) : Prop :=
  t_dec T max bytes = Err e \/
  exists h more, t_dec T max bytes = Ok (h, more) /\
    ((countable h /\ (Z.of_N max < ph_compressed_size h)%Z /\ e = WouldOverAllocate) \/
     (~ (countable h /\ Z.of_N max < ph_compressed_size h)%Z /\ e = OutOfSpec)).

(** Reading a chunk that has [total] values, of which [seen] have been seen: the pages that pass the filter, and how it ends. Pages are taken from
    the front until the values they announce add up to [total] or there is no page at the front. *)
Inductive chunk_pages (T : thrift t_page_header) (max : N) (c : compression) (d : descriptor) (keep : page_header -> bool) (total : Z) :
  Z -> list N -> list compressed_page -> option error -> Prop :=
| chunk_done seen bytes : (total <= seen)%Z -> chunk_pages T max c d keep total seen bytes [] None
| chunk_broken seen bytes e : (seen < total)%Z -> (forall p rest, ~ page_in_front T max bytes p rest) -> complaint T max bytes e ->
    chunk_pages T max c d keep total seen bytes [] (Some e)
| chunk_page seen bytes p rest l e : (seen < total)%Z -> page_in_front T max bytes p rest -> of_column c d p ->
    chunk_pages T max c d keep total (seen + values p) rest l e ->
    chunk_pages T max c d keep total seen bytes (if wanted keep p then p :: l else l) e.

(** The counts in the headers that a decoder can return are 32-bit integers. *)
Definition counts_32 (T : thrift t_page_header) : Prop :=
  forall max bytes h rest, t_dec T max bytes = Ok (h, rest) ->
    (forall x, ph_data h = Some x -> (- 2 ^ 31 <= dh_num_values x < 2 ^ 31)%Z) /\
    (forall x, ph_data_v2 h = Some x -> (- 2 ^ 31 <= dh2_num_values x < 2 ^ 31)%Z).

(** A place in a file that the page index gives for a page: what is there is decoded as a header, and everything that is left is the page's. *)
Definition located_page (T : thrift t_page_header) (c : compression) (d : descriptor) (located : list N) (rows : option (list interval)) (p : compressed_page) : Prop :=
  exists h data, t_dec T 1048576 located = Ok (h, data) /\ cp_buffer p = data /\
    ph_uncompressed_size h = Z.of_N (cp_uncompressed_size p) /\
    match p with
    | CData x =>
        cdp_compression x = c /\ cdp_descriptor x = d /\ cdp_selected x = rows /\
        match cdp_header x with
        | HV1 y => ph_type h = 0%Z /\ ph_data h = Some y
        | HV2 y => ph_type h = 3%Z /\ ph_data_v2 h = Some y
        end
    | CDict x =>
        cdi_compression x = c /\
        ph_type h = 2%Z /\ exists y, ph_dict h = Some y /\ dict_num_values y = Z.of_N (cdi_num_values x) /\
          (cdi_is_sorted x = true <-> dict_is_sorted y = Some true)
    end.

(** What a caller sees of an iterator until it ends or first reports an error: the items [l], then the end or the error [e]. *)
Definition outcome {S A} (next : S -> res (option (A + error) * S)) (s : S) (l : list A) (e : option error) : Prop :=
  match e with
  | None => exists s', runs next s (map inl l) s'
  | Some x => exists s', returns next s (map inl l ++ [inr x]) s'
  end.

(** The item for a place: the page that is there, or an error if there is none. *)
Definition located_item (T : thrift t_page_header) (c : compression) (d : descriptor) (located : list N) (rows : option (list interval)) (i : compressed_page + error) : Prop :=
  match i with
  | inl p => located_page T c d located rows p
  | inr e => (forall p, ~ located_page T c d located rows p) /\
             (t_dec T 1048576 located = Err e \/ (exists h data, t_dec T 1048576 located = Ok (h, data)) /\ e = OutOfSpec)
  end.
(** The same for a place where only a dictionary can be. *)
Definition located_dictionary (T : thrift t_page_header) (c : compression) (d : descriptor) (located : list N) (i : compressed_page + error) : Prop :=
  match i with
  | inl p => located_page T c d located None p /\ exists x, p = CDict x
  | inr e => (forall x, ~ located_page T c d located None (CDict x)) /\
             (t_dec T 1048576 located = Err e \/ (exists h data, t_dec T 1048576 located = Ok (h, data)) /\ e = OutOfSpec)
  end.
(** [length] bytes of the file from [start] on, or fewer at its end. *)
Definition bytes_at (file : list N) (start length : N) : list N := firstn (N.to_nat length) (skipn (N.to_nat start) file).
(** The pages of which rows are selected. *)
Definition with_rows (pages : list filtered_page) : list filtered_page := filter (fun p => match fp_selected p with [] => false | _ => true end) pages.
