(** Model of /repo/src/schema/io_message/from_message.rs: the parser of textual schemas. A text is the list of its characters (code
    points); so are the names in the schema it yields (their UTF-8 encoding is not modelled here). Error messages are not modelled. *)
From Coq Require Import String Ascii.
From Verif Require Import Base.Prelude Model.Types Model.Thrift Model.Schema.
Open Scope N_scope.

(** schema/io_message/from_message.rs:53-154. The characters of a literal of the source. *)
Definition chars (s : string) : list N := map N_of_ascii (list_ascii_of_string s).
Arguments chars s%string.

(** schema/io_message/from_message.rs:181, 269, 283, 330, 333, 335, 355 and 414. What the parser uses of Rust's tables of Unicode: [char::is_whitespace], [str::to_uppercase] and [str::to_lowercase]. *)
Record unicode := mk_unicode { u_space : N -> bool; u_upper : list N -> list N; u_lower : list N -> list N }.

(** schema/io_message/from_message.rs:172: a piece of the text. *)
Definition token := list N.
(** schema/io_message/from_message.rs:244: equality of [&str]. *)
Definition token_eqb : token -> token -> bool := bytes_eqb.
(** schema/io_message/from_message.rs:99-104, 109-130, 134-139, 143-153, 270 and 283-288. A Rust [match] on string literals. *)
Fixpoint lookup {A} (table : list (string * A)) (s : token) : option A :=
  match table with
  | [] => None
  | (k, a) :: r => if token_eqb s (chars k) then Some a else lookup r s
  end.
(** schema/io_message/from_message.rs:54-70 and 74-95. *)
Definition is_one_of (l : list string) (s : token) : bool := existsb (fun k => token_eqb s (chars k)) l.

(** schema/io_message/from_message.rs:53-71 [is_logical_type] *)
Definition is_logical_type (s : token) : bool :=
  is_one_of ["INTEGER"; "MAP"; "LIST"; "ENUM"; "DECIMAL"; "DATE"; "TIME"; "TIMESTAMP"; "STRING"; "JSON"; "BSON"; "UUID"; "UNKNOWN"; "INTERVAL"]%string s.
(** schema/io_message/from_message.rs:73-96 [is_converted_type] *)
Definition is_converted_type (s : token) : bool :=
  is_one_of ["UTF8"; "ENUM"; "DECIMAL"; "DATE"; "TIME_MILLIS"; "TIME_MICROS"; "TIMESTAMP_MILLIS"; "TIMESTAMP_MICROS"; "UINT_8"; "UINT_16"; "UINT_32";
    "UINT_64"; "INT_8"; "INT_16"; "INT_32"; "INT_64"; "JSON"; "BSON"; "INTERVAL"]%string s.
(** schema/io_message/from_message.rs:98-105 [converted_group_from_str] *)
Definition converted_group_from_str (s : token) : res group_converted :=
  match lookup [("MAP", GMap); ("MAP_KEY_VALUE", GMapKeyValue); ("LIST", GList)]%string s with Some c => Ok c | None => Err OutOfSpec end.
(** schema/io_message/from_message.rs:107-131 [converted_primitive_from_str] *)
Definition converted_primitive_from_str (s : token) : option primitive_converted :=
  lookup [("UTF8", CUtf8); ("ENUM", CEnum); ("DECIMAL", CDecimal 0 0); ("DATE", CDate); ("TIME_MILLIS", CTimeMillis); ("TIME_MICROS", CTimeMicros);
    ("TIMESTAMP_MILLIS", CTimestampMillis); ("TIMESTAMP_MICROS", CTimestampMicros); ("UINT_8", CUint8); ("UINT_16", CUint16); ("UINT_32", CUint32);
    ("UINT_64", CUint64); ("INT_8", CInt8); ("INT_16", CInt16); ("INT_32", CInt32); ("INT_64", CInt64); ("JSON", CJson); ("BSON", CBson);
    ("INTERVAL", CInterval)]%string s.
(** schema/io_message/from_message.rs:133-140 [repetition_from_str] *)
Definition repetition_from_str (s : token) : res repetition :=
  match lookup [("REQUIRED", Required); ("OPTIONAL", Optional); ("REPEATED", Repeated)]%string s with Some r => Ok r | None => Err OutOfSpec end.
(** schema/io_message/from_message.rs:142-154 [type_from_str]; the thrift type as its number. *)
Definition type_from_str (s : token) : res Z :=
  match lookup [("BOOLEAN", 0%Z); ("INT32", 1%Z); ("INT64", 2%Z); ("INT96", 3%Z); ("FLOAT", 4%Z); ("DOUBLE", 5%Z); ("BYTE_ARRAY", 6%Z);
    ("BINARY", 6%Z); ("FIXED_LEN_BYTE_ARRAY", 7%Z)]%string s with Some t => Ok t | None => Err OutOfSpec end.

(** schema/io_message/from_message.rs:191-193 [is_schema_delim] *)
Definition is_schema_delim (c : N) : bool :=
  (c =? 59) || (c =? 123) || (c =? 125) || (c =? 40) || (c =? 41) || (c =? 61) || (c =? 44).
(** schema/io_message/from_message.rs:203-205 and 209-211. The piece collected so far, if it is not empty. *)
Definition piece (cur : token) : list token := match cur with [] => [] | _ => [cur] end.
(** schema/io_message/from_message.rs:198-213 [split_token]: the search for the next delimiter and the splits at it, in one pass over the characters; [cur] is what lies
    between the last delimiter and here. *)
Fixpoint split_token (s : list N) (cur : token) : list token :=
  match s with
  | [] => piece cur
  | c :: r => if is_schema_delim c then piece cur ++ [c] :: split_token r [] else split_token r (cur ++ [c])
  end.
(** schema/io_message/from_message.rs:181. [str::split_whitespace] *)
Fixpoint split_whitespace (U : unicode) (s : list N) (cur : token) : list token :=
  match s with
  | [] => piece cur
  | c :: r => if u_space U c then piece cur ++ split_whitespace U r [] else split_whitespace U r (cur ++ [c])
  end.
(** schema/io_message/from_message.rs:179-188 [Tokenizer::from_str]: the tokens. *)
Definition tokens_of (U : unicode) (s : list N) : list token :=
  flat_map (fun w => split_token w []) (split_whitespace U s []).

(** schema/io_message/from_message.rs:224-231 [Tokenizer::next]: the token at the index, if any; the index moves only then. *)
Definition next (T : list token) (i : nat) : option token * nat :=
  match nth_error T i with Some t => (Some t, S i) | None => (None, i) end.
(** schema/io_message/from_message.rs:216-218 [backtrack]; it takes one off the index also when [next] had returned none. *)
Definition backtrack (i : nat) : res nat := match i with O => Panic | S k => Ok k end.

(** schema/io_message/from_message.rs:242-254 [assert_token] *)
Definition assert_token (t : option token) (expected : string) : res unit :=
  match t with Some v => if token_eqb v (chars expected) then Ok tt else Err OutOfSpec | None => Err OutOfSpec end.
Arguments assert_token t expected%string.
(** schema/io_message/from_message.rs:350, 364, 408, 449, 477, 501, 507, 526, 532, 554, 560, 583, 589. [if let Some("(") = token] *)
Definition is_token (t : option token) (expected : string) : bool :=
  match t with Some v => token_eqb v (chars expected) | None => false end.
Arguments is_token t expected%string.

(** schema/io_message/from_message.rs:260: the digits of [parse::<i32>]. [str::parse::<i32>]: an optional sign and at least one digit. Overflow is checked at the end and not at each digit. *)
Fixpoint digits_from (acc : Z) (s : token) : option Z :=
  match s with
  | [] => Some acc
  | c :: r => if (48 <=? c) && (c <=? 57) then digits_from (acc * 10 + (Z.of_N c - 48)) r else None
  end.
(** schema/io_message/from_message.rs:260: the sign. *)
Definition split_sign (s : token) : Z * token :=
  match s with 43 :: r => (1%Z, r) | 45 :: r => ((-1)%Z, r) | _ => (1%Z, s) end.
(** schema/io_message/from_message.rs:260, 365 and 450. *)
Definition i32_from_str (s : token) : option Z :=
  let (sign, digits) := split_sign s in
  match digits with
  | [] => None
  | _ => match digits_from 0 digits with
         | Some v => if in_s 32 (sign * v) then Some (sign * v)%Z else None
         | None => None
         end
  end.
(** schema/io_message/from_message.rs:257-261 [parse_i32] *)
Definition parse_i32 (t : option token) : res Z :=
  match t with
  | Some v => match i32_from_str v with Some z => Ok z | None => Err OutOfSpec end
  | None => Err OutOfSpec
  end.
(** schema/io_message/from_message.rs:265-273 [parse_bool] *)
Definition parse_bool (U : unicode) (t : option token) : res bool :=
  match t with
  | Some v => match lookup [("true", true); ("false", false)]%string (u_lower U v) with Some b => Ok b | None => Err OutOfSpec end
  | None => Err OutOfSpec
  end.
(** schema/io_message/from_message.rs:276-289 [parse_timeunit] *)
Definition parse_timeunit (U : unicode) (t : option token) : res time_unit :=
  match t with
  | Some v =>
      match lookup [("MILLIS", Milliseconds); ("MICROS", Microseconds); ("NANOS", Nanoseconds)]%string (u_upper U v) with
      | Some u => Ok u
      | None => Err OutOfSpec
      end
  | None => Err OutOfSpec
  end.

(** schema/io_message/from_message.rs:477-487 and 507-516: a comma and a second number, else zero. *)
Definition parse_scale (T : list token) (i : nat) : res (Z * nat) :=
  let (t, i) := next T i in
  if is_token t "," then
    let (t, i) := next T i in
    let* z := parse_i32 t in Ok (z, i)
  else let* i := backtrack i in Ok (0%Z, i).
(** schema/io_message/from_message.rs:467-494 [parse_converted_decimal] *)
Definition parse_converted_decimal (T : list token) (i : nat) : res (primitive_converted * nat) :=
  let (t, i) := next T i in
  let* _ := assert_token t "(" in
  let (t, i) := next T i in
  let* precision := parse_i32 t in
  let* (scale, i) := parse_scale T i in
  let (t, i) := next T i in
  let* _ := assert_token t ")" in
  let* p := try_usize precision in
  let* s := try_usize scale in
  Ok (CDecimal p s, i).
(** schema/io_message/from_message.rs:532-541 and 560-570: a comma and the flag, else false. *)
Definition parse_utc (U : unicode) (T : list token) (i : nat) : res (bool * nat) :=
  let (t, i) := next T i in
  if is_token t "," then
    let (t, i) := next T i in
    let* b := parse_bool U t in Ok (b, i)
  else let* i := backtrack i in Ok (false, i).
(** schema/io_message/from_message.rs:526-547 and 554-576: unit and flag of TIME and TIMESTAMP, which have the same code. *)
Definition parse_unit (U : unicode) (T : list token) (i : nat) : res (time_unit * bool * nat) :=
  let (t, i) := next T i in
  if is_token t "(" then
    let (t, i) := next T i in
    let* unit := parse_timeunit U t in
    let* (utc, i) := parse_utc U T i in
    let (t, i) := next T i in
    let* _ := assert_token t ")" in
    Ok (unit, utc, i)
  else let* i := backtrack i in Ok (Milliseconds, false, i).
(** schema/io_message/from_message.rs:501-522: precision and scale of DECIMAL. *)
Definition parse_decimal (T : list token) (i : nat) : res (Z * Z * nat) :=
  let (t, i) := next T i in
  if is_token t "(" then
    let (t, i) := next T i in
    let* precision := parse_i32 t in
    let* (scale, i) := parse_scale T i in
    let (t, i) := next T i in
    let* _ := assert_token t ")" in
    Ok (precision, scale, i)
  else let* i := backtrack i in Ok (0%Z, 0%Z, i).
(** schema/io_message/from_message.rs:496-617 [parse_logical_type] *)
Definition parse_logical_type (U : unicode) (T : list token) (tpe : token) (i : nat) : res (primitive_logical * nat) :=
  if token_eqb tpe (chars "ENUM") then Ok (LEnum, i)
  else if token_eqb tpe (chars "DATE") then Ok (LDate, i)
  else if token_eqb tpe (chars "DECIMAL") then
    let* (precision, scale, i) := parse_decimal T i in
    let* p := try_usize precision in
    let* s := try_usize scale in
    Ok (LDecimal p s, i)
  else if token_eqb tpe (chars "TIME") then
    let* (unit, utc, i) := parse_unit U T i in Ok (LTime unit utc, i)
  else if token_eqb tpe (chars "TIMESTAMP") then
    let* (unit, utc, i) := parse_unit U T i in Ok (LTimestamp unit utc, i)
  else if token_eqb tpe (chars "INTEGER") then
    let (t, i) := next T i in
    if is_token t "(" then
      let (t, i) := next T i in
      let* bit_width := parse_i32 t in
      let (t, i) := next T i in
      if is_token t "," then
        let (t, i) := next T i in
        let* is_signed := parse_bool U t in
        let (t, i) := next T i in
        let* _ := assert_token t ")" in
        Ok (LInteger (integer_of bit_width is_signed), i)
      else let* _ := backtrack i in Err OutOfSpec
    else let* _ := backtrack i in Err OutOfSpec
  else if token_eqb tpe (chars "STRING") then Ok (LString, i)
  else if token_eqb tpe (chars "JSON") then Ok (LJson, i)
  else if token_eqb tpe (chars "BSON") then Ok (LBson, i)
  else if token_eqb tpe (chars "UUID") then Ok (LUuid, i)
  else if token_eqb tpe (chars "UNKNOWN") then Ok (LUnknown, i)
  else if token_eqb tpe (chars "INTERVAL") then Err OutOfSpec
  else Panic.

(** schema/io_message/from_message.rs:364-369 and 449-454: the optional id. What follows the equals sign is taken even if it is no number. *)
Definition parse_id (T : list token) (i : nat) : res (option Z * nat) :=
  let (t, i) := next T i in
  if is_token t "=" then
    let (t, i) := next T i in
    Ok (match t with Some v => i32_from_str v | None => None end, i)
  else let* i := backtrack i in Ok (None, i).

(** schema/io_message/from_message.rs:408-446: converted and logical type of a primitive. *)
Definition parse_annotation (U : unicode) (T : list token) (i : nat) : res (option primitive_converted * option primitive_logical * nat) :=
  let (t, i) := next T i in
  if is_token t "(" then
    let (t, i) := next T i in
    match t with
    | None => Err OutOfSpec
    | Some v =>
        let string := u_upper U v in
        let* (is_logical, converted) :=
          (if is_logical_type string then Ok (true, None)
           else if is_converted_type string then Ok (false, converted_primitive_from_str string)
           else Err OutOfSpec) in
        let* (logical, i) :=
          (if is_logical : bool then let* (l, i) := parse_logical_type U T string i in Ok (Some l, i) else Ok (None, i)) in
        let* (converted, i) :=
          match converted with
          | Some (CDecimal _ _) => let* (c, i) := parse_converted_decimal T i in Ok (Some c, i)
          | other => Ok (other, i)
          end in
        let (t, i) := next T i in
        let* _ := assert_token t ")" in
        Ok (converted, logical, i)
    end
  else let* i := backtrack i in Ok (None, None, i).

(** schema/io_message/from_message.rs:388-399: the length of a fixed-length array. *)
Definition parse_length (T : list token) (physical : Z) (i : nat) : res (option Z * nat) :=
  if (physical =? 7)%Z then
    let (t, i) := next T i in
    let* _ := assert_token t "(" in
    let (t, i) := next T i in
    let* length := parse_i32 t in
    let (t, i) := next T i in
    let* _ := assert_token t ")" in
    Ok (Some length, i)
  else Ok (None, i).

(** schema/io_message/from_message.rs:382-465 [add_primitive_type] *)
Definition add_primitive_type (U : unicode) (T : list token) (repetition : repetition) (physical : Z) (i : nat) : res (parquet_type * nat) :=
  let* (length, i) := parse_length T physical i in
  let (name, i) := next T i in
  match name with
  | None => Err OutOfSpec
  | Some name =>
      let* (converted, logical, i) := parse_annotation U T i in
      let* (id, i) := parse_id T i in
      let (t, i) := next T i in
      let* _ := assert_token t ";" in
      let* physical := physical_of_thrift physical length in
      let* t := try_from_primitive name physical repetition converted logical id in
      Ok (t, i)
  end.

(** schema/io_message/from_message.rs:312-321: the loop; [step] is [add_type]. Running out of [fuel] is a panic. *)
Fixpoint child_types (fuel : nat) (step : nat -> res (parquet_type * nat)) (T : list token) (i : nat) : res (list parquet_type * nat) :=
  match fuel with
  | O => Panic
  | S f =>
      let (t, i) := next T i in
      match t with
      | None => Ok ([], i)
      | Some v =>
          if token_eqb v (chars "}") then Ok ([], i)
          else
            let* i := backtrack i in
            let* (t, i) := step i in
            let* (l, i) := child_types f step T i in
            Ok (t :: l, i)
      end
  end.
(** schema/io_message/from_message.rs:310-322 [parse_child_types]. *)
Definition parse_child_types (step : nat -> res (parquet_type * nat)) (T : list token) (i : nat) : res (list parquet_type * nat) :=
  let (t, i) := next T i in
  let* _ := assert_token t "{" in
  child_types (S (length T)) step T i.

(** schema/io_message/from_message.rs:350-361: converted type of a group. *)
Definition parse_group_converted (U : unicode) (T : list token) (i : nat) : res (option group_converted * nat) :=
  let (t, i) := next T i in
  if is_token t "(" then
    let (t, i) := next T i in
    let* converted := match t with Some v => converted_group_from_str (u_upper U v) | None => Err OutOfSpec end in
    let (t, i) := next T i in
    let* _ := assert_token t ")" in
    Ok (Some converted, i)
  else let* i := backtrack i in Ok (None, i).
(** schema/io_message/from_message.rs:342-380 [add_group_type]; schema/types/parquet_type.rs:131-150 [from_converted]. *)
Definition add_group_type (U : unicode) (step : nat -> res (parquet_type * nat)) (T : list token) (repetition : repetition) (i : nat)
  : res (parquet_type * nat) :=
  let (name, i) := next T i in
  match name with
  | None => Err OutOfSpec
  | Some name =>
      let* (converted, i) := parse_group_converted U T i in
      let* (id, i) := parse_id T i in
      let* (fields, i) := parse_child_types step T i in
      Ok (Group (mk_fi name repetition id) None converted fields, i)
  end.

(** schema/io_message/from_message.rs:324-340 [add_type]; [fuel] bounds the depth of the groups, running out of it is a panic. *)
Fixpoint add_type (fuel : nat) (U : unicode) (T : list token) (i : nat) : res (parquet_type * nat) :=
  match fuel with
  | O => Panic
  | S f =>
      let (t, i) := next T i in
      let* repetition := match t with Some v => repetition_from_str (u_upper U v) | None => Err OutOfSpec end in
      let (t, i) := next T i in
      match t with
      | None => Err OutOfSpec
      | Some v =>
          if token_eqb (u_upper U v) (chars "GROUP") then add_group_type U (add_type f U T) T repetition i
          else
            let* physical := type_from_str (u_upper U v) in
            add_primitive_type U T repetition physical i
      end
  end.

(** schema/io_message/from_message.rs:293-306 [parse_message_type] *)
Definition parse_message_type (U : unicode) (T : list token) : res (parquet_type * nat) :=
  let (t, i) := next T 0 in
  if is_token t "message" then
    let (name, i) := next T i in
    match name with
    | None => Err OutOfSpec
    | Some name =>
        let* (fields, i) := parse_child_types (add_type (length T) U T) T i in
        Ok (new_root name fields, i)
    end
  else Err OutOfSpec.
(** schema/io_message/from_message.rs:159-164 [from_message] *)
Definition from_message (U : unicode) (text : list N) : res parquet_type :=
  let* (t, _) := parse_message_type U (tokens_of U text) in Ok t.
