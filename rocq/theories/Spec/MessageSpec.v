(** The language of textual schemas, apart from how the crate parses it: how characters make tokens, and which tokens denote which schema. *)
From Coq Require Import String.
From Verif Require Import Base.Prelude Model.Types Model.Schema Model.Message Spec.SchemaSpec.
Open Scope N_scope.

(** ** Characters *)

(** The tables of Unicode agree with ASCII on ASCII. *)
Definition ascii_upper (c : N) : N := if (97 <=? c) && (c <=? 122) then c - 32 else c.
Definition ascii_lower (c : N) : N := if (65 <=? c) && (c <=? 90) then c + 32 else c.
Definition unicode_ok (U : unicode) : Prop :=
  (forall c, c < 128 -> u_space U c = true <-> 9 <= c <= 13 \/ c = 32) /\
  (forall s, Forall (fun c => c < 128) s -> u_upper U s = map ascii_upper s) /\
  (forall s, Forall (fun c => c < 128) s -> u_lower U s = map ascii_lower s).

(** The delimiters, the words, and blank text. *)
Definition delim (c : N) : Prop := In c (chars ";{}()=,").
Definition word (U : unicode) (w : token) : Prop := w <> [] /\ Forall (fun c => u_space U c = false /\ ~ delim c) w.
Definition blank (U : unicode) (s : list N) : Prop := Forall (fun c => u_space U c = true) s.
(** A text and its tokens: delimiters and words, with any blank text before, between and after them. Between two words there must be some. *)
Inductive layout (U : unicode) : list token -> list N -> Prop :=
| layout_end b : blank U b -> layout U [] b
| layout_delim b c T text : blank U b -> delim c -> layout U T text -> layout U ([c] :: T) (b ++ c :: text)
| layout_word b w T text : blank U b -> word U w -> layout U T text ->
    match text with [] => True | c :: _ => u_space U c = true \/ delim c end ->
    layout U (w :: T) (b ++ w ++ text).

(** ** Tokens *)

Definition sym (s : string) : token := chars s.
Arguments sym s%string.
(** The word is the keyword, given in upper case, in any mix of upper and lower case. *)
Definition spells (k : string) (w : token) : Prop :=
  Forall2 (fun a b => b = a \/ 65 <= a <= 90 /\ b = a + 32) (chars k) w.
Arguments spells k%string w.
(** A decimal number that fits 32 bits: sign and digits. *)
Definition digits_value (l : list Z) : Z := fold_left (fun a d => (10 * a + d)%Z) l 0%Z.
Definition number (w : token) (z : Z) : Prop :=
  exists sign digits, digits <> [] /\ Forall (fun d => (0 <= d < 10)%Z) digits /\ w = sign ++ map (fun d => Z.to_N d + 48) digits /\
    (sign = [] /\ z = digits_value digits \/ sign = sym "+" /\ z = digits_value digits \/ sign = sym "-" /\ z = (- digits_value digits)%Z) /\
    (- 2 ^ 31 <= z < 2 ^ 31)%Z.

(** ** Schemas *)

Definition repetition_word (r : repetition) : string :=
  match r with Required => "REQUIRED" | Optional => "OPTIONAL" | Repeated => "REPEATED" end.
Definition type_words (t : physical_type) : list string :=
  (match t with
   | Boolean => ["BOOLEAN"] | Int32 => ["INT32"] | Int64 => ["INT64"] | Int96 => ["INT96"] | Float => ["FLOAT"] | Double => ["DOUBLE"]
   | ByteArray => ["BYTE_ARRAY"; "BINARY"] | FixedLenByteArray _ => []
   end)%string.
Inductive type_tokens : physical_type -> list token -> Prop :=
| type_plain t k w : In k (type_words t) -> spells k w -> type_tokens t [w]
| type_fixed n w l : spells "FIXED_LEN_BYTE_ARRAY" w -> number l (Z.of_N n) -> type_tokens (FixedLenByteArray n) [w; sym "("; l; sym ")"].

(** The old annotations that have a word of their own; the others can only be written as the new ones of the same name. *)
Definition converted_word (c : primitive_converted) : option string :=
  (match c with
   | CUtf8 => Some "UTF8" | CTimeMillis => Some "TIME_MILLIS" | CTimeMicros => Some "TIME_MICROS" | CTimestampMillis => Some "TIMESTAMP_MILLIS"
   | CTimestampMicros => Some "TIMESTAMP_MICROS" | CUint8 => Some "UINT_8" | CUint16 => Some "UINT_16" | CUint32 => Some "UINT_32" | CUint64 => Some "UINT_64"
   | CInt8 => Some "INT_8" | CInt16 => Some "INT_16" | CInt32 => Some "INT_32" | CInt64 => Some "INT_64"
   | CEnum | CDecimal _ _ | CDate | CJson | CBson | CInterval => None
   end)%string.
Definition unit_word (u : time_unit) : string := match u with Milliseconds => "MILLIS" | Microseconds => "MICROS" | Nanoseconds => "NANOS" end.
Definition bool_word (b : bool) : string := if b then "TRUE" else "FALSE".
(** Unit and time zone flag, which may be left out from the right. *)
Inductive unit_tokens : time_unit -> bool -> list token -> Prop :=
| unit_default : unit_tokens Milliseconds false []
| unit_only u w : spells (unit_word u) w -> unit_tokens u false [sym "("; w; sym ")"]
| unit_both u b w v : spells (unit_word u) w -> spells (bool_word b) v -> unit_tokens u b [sym "("; w; sym ","; v; sym ")"].
Definition plain_logical (l : primitive_logical) : option string :=
  (match l with
   | LString => Some "STRING" | LEnum => Some "ENUM" | LDate => Some "DATE" | LUnknown => Some "UNKNOWN" | LJson => Some "JSON" | LBson => Some "BSON"
   | LUuid => Some "UUID" | LDecimal _ _ | LTime _ _ | LTimestamp _ _ | LInteger _ => None
   end)%string.
Inductive logical_tokens : primitive_logical -> list token -> Prop :=
| logical_plain l k w : plain_logical l = Some k -> spells k w -> logical_tokens l [w]
| logical_decimal p s w v u : spells "DECIMAL" w -> number v (Z.of_N p) -> number u (Z.of_N s) ->
    logical_tokens (LDecimal p s) [w; sym "("; v; sym ","; u; sym ")"]
| logical_decimal_0 p w v : spells "DECIMAL" w -> number v (Z.of_N p) -> logical_tokens (LDecimal p 0) [w; sym "("; v; sym ")"]
| logical_time u b w ts : spells "TIME" w -> unit_tokens u b ts -> logical_tokens (LTime u b) (w :: ts)
| logical_timestamp u b w ts : spells "TIMESTAMP" w -> unit_tokens u b ts -> logical_tokens (LTimestamp u b) (w :: ts)
| logical_integer t w v u : spells "INTEGER" w -> number v (Z.of_N (fst (integer_parts t))) -> spells (bool_word (snd (integer_parts t))) u ->
    logical_tokens (LInteger t) [w; sym "("; v; sym ","; u; sym ")"].
Inductive annotation_tokens : option primitive_converted -> option primitive_logical -> list token -> Prop :=
| annotation_none : annotation_tokens None None []
| annotation_converted c k w : converted_word c = Some k -> spells k w -> annotation_tokens (Some c) None [sym "("; w; sym ")"]
| annotation_logical l ts : logical_tokens l ts -> annotation_tokens None (Some l) (sym "(" :: ts ++ [sym ")"]).
Inductive group_tokens : option group_converted -> list token -> Prop :=
| group_none : group_tokens None []
| group_some c k w : k = (match c with GMap => "MAP" | GMapKeyValue => "MAP_KEY_VALUE" | GList => "LIST" end)%string -> spells k w ->
    group_tokens (Some c) [sym "("; w; sym ")"].
Inductive id_tokens : option Z -> list token -> Prop :=
| id_none : id_tokens None []
| id_some z w : number w z -> id_tokens (Some z) [sym "="; w].

(** A primitive field ends with a semicolon; the fields of a group stand in braces. *)
Inductive field_tokens (U : unicode) : parquet_type -> list token -> Prop :=
| field_primitive name r id l c t w ts1 ts2 ts3 :
    spells (repetition_word r) w -> type_tokens t ts1 -> word U name -> annotation_tokens c l ts2 -> id_tokens id ts3 ->
    accepted (mk_prim (mk_fi name r id) l c t) ->
    field_tokens U (Primitive (mk_prim (mk_fi name r id) l c t)) (w :: ts1 ++ name :: ts2 ++ ts3 ++ [sym ";"])
| field_group name r id c fields w v ts1 ts2 ts3 :
    spells (repetition_word r) w -> spells "GROUP" v -> word U name -> group_tokens c ts1 -> id_tokens id ts2 -> fields_tokens U fields ts3 ->
    field_tokens U (Group (mk_fi name r id) None c fields) (w :: v :: name :: ts1 ++ ts2 ++ sym "{" :: ts3 ++ [sym "}"])
with fields_tokens (U : unicode) : list parquet_type -> list token -> Prop :=
| fields_nil : fields_tokens U [] []
| fields_cons t l ts1 ts2 : field_tokens U t ts1 -> fields_tokens U l ts2 -> fields_tokens U (t :: l) (ts1 ++ ts2).
(** A message: the root of a schema. *)
Definition message_tokens (U : unicode) (t : parquet_type) (T : list token) : Prop :=
  exists name fields ts, word U name /\ fields_tokens U fields ts /\ T = sym "message" :: name :: sym "{" :: ts ++ [sym "}"] /\
    t = Group (mk_fi name Optional None) None None fields.
(** The text denotes the schema. *)
Definition denotes (U : unicode) (text : list N) (t : parquet_type) : Prop := exists T, layout U T text /\ message_tokens U t T.

(** ** Schemas that have a text *)

(** Names are words; primitive fields are acceptable ones with at most one annotation, which has a word, and numbers of 32 bits; groups have no
    annotation of the new kind. *)
Definition i32_id (i : field_info) : Prop := on_some (fun z => (- 2 ^ 31 <= z < 2 ^ 31)%Z) (fi_id i).
Definition expressible (U : unicode) (u : parquet_type) : Prop :=
  word U (fi_name (get_field_info u)) /\ i32_id (get_field_info u) /\
  match u with
  | Primitive p => accepted p /\ sized p /\ (pt_converted p = None \/ pt_logical p = None) /\ on_some (fun c => converted_word c <> None) (pt_converted p)
  | Group _ l _ _ => l = None
  end.

(** ** Texts that are cut off *)

(** What remains of a list of fields when the text stops between two fields, at any depth. *)
Inductive cut : list parquet_type -> list parquet_type -> Prop :=
| cut_here l : cut [] l
| cut_after t l' l : cut l' l -> cut (t :: l') (t :: l)
| cut_inside i lt c fields' fields l : cut fields' fields -> cut [Group i lt c fields'] (Group i lt c fields :: l).
(** The last token is one of [{], [}] and [;]. *)
Definition ends_field (T : list token) : Prop := exists T' t, T = T' ++ [t] /\ (t = sym "{" \/ t = sym "}" \/ t = sym ";").

(** ** Texts that make the parser panic *)

(** Fields that are well formed up to a primitive field annotated with MAP or LIST, at any depth; the tokens end with that word. *)
Inductive misannotated (U : unicode) : list token -> Prop :=
| misannotated_here r t k w ts name v : spells (repetition_word r) w -> type_tokens t ts -> word U name -> (k = "MAP" \/ k = "LIST")%string -> spells k v ->
    misannotated U (w :: ts ++ [name; sym "("; v])
| misannotated_after t ts1 ts2 : field_tokens U t ts1 -> misannotated U ts2 -> misannotated U (ts1 ++ ts2)
| misannotated_inside r id c w v name ts1 ts2 ts3 : spells (repetition_word r) w -> spells "GROUP" v -> word U name -> group_tokens c ts1 -> id_tokens id ts2 ->
    misannotated U ts3 -> misannotated U (w :: v :: name :: ts1 ++ ts2 ++ sym "{" :: ts3).
(** Somewhere in the tokens a repetition, a physical type with its length if it has one, any token in the place of the name, and an annotation that
    begins with MAP or LIST follow each other. *)
Definition upper_in (U : unicode) (l : list string) (w : token) : Prop := exists k, In k l /\ u_upper U w = chars k.
Definition primitive_map_or_list (U : unicode) (T : list token) : Prop :=
  exists T1 r p len name v T2, T = T1 ++ r :: p :: len ++ name :: sym "(" :: v :: T2 /\
    upper_in U ["REQUIRED"; "OPTIONAL"; "REPEATED"]%string r /\
    (upper_in U ["BOOLEAN"; "INT32"; "INT64"; "INT96"; "FLOAT"; "DOUBLE"; "BYTE_ARRAY"; "BINARY"]%string p /\ len = [] \/
     upper_in U ["FIXED_LEN_BYTE_ARRAY"]%string p /\ exists n, len = [sym "("; n; sym ")"]) /\
    upper_in U ["MAP"; "LIST"]%string v.
