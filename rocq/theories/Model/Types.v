(** Model of /repo/src/parquet_bridge.rs and /repo/src/schema/types/: the crate's enums, their thrift
    counterparts and the conversions. Thrift enums are 32-bit integers ([Z]); their numbers are those of
    parquet.thrift (the crate parquet-format-safe is not part of /repo). Names are byte strings. *)
From Verif Require Import Base.Prelude.
Open Scope Z_scope.

(** [x.try_into()?] from a signed integer to [usize]/[u64]: an error when negative (error.rs:109-113). *)
Definition try_usize (z : Z) : res N := if z <? 0 then Err OutOfSpec else Ok (Z.to_N z).
(** parquet_bridge.rs:603-604 and schema/types/physical_type.rs:54. [x as i32], [x as i64] from [usize]. *)
Definition as_i32 (n : N) : Z := wrap_s 32 (Z.of_N n).
(** write/file.rs:186. *)
Definition as_i64 (n : N) : Z := wrap_s 64 (Z.of_N n).
(** read/page/reader.rs:206. [x as usize] / [x as u64] from [i64] or [i32] (sign-extending). *)
Definition as_usize (z : Z) : N := of_signed 64 z.

(** parquet_bridge.rs:18-25 [Repetition], 27-38 [try_from], 40-48 [from]. *)
Inductive repetition := Required | Optional | Repeated.
(** parquet_bridge.rs:27-38. *)
Definition repetition_of_thrift (z : Z) : res repetition :=
  match z with
  | 0 => Ok Required | 1 => Ok Optional | 2 => Ok Repeated
  | _ => Err OutOfSpec
  end.
(** parquet_bridge.rs:40-48. *)
Definition repetition_to_thrift (r : repetition) : Z :=
  match r with Required => 0 | Optional => 1 | Repeated => 2 end.

(** parquet_bridge.rs:52-61 [Compression], 63-79 [try_from], 81-94 [from]. *)
Inductive compression :=
| Uncompressed | Snappy | Gzip | Lzo | Brotli | Lz4 | Zstd | Lz4Raw.
(** parquet_bridge.rs:63-79. *)
Definition compression_of_thrift (z : Z) : res compression :=
  match z with
  | 0 => Ok Uncompressed | 1 => Ok Snappy | 2 => Ok Gzip | 3 => Ok Lzo | 4 => Ok Brotli
  | 5 => Ok Lz4 | 6 => Ok Zstd | 7 => Ok Lz4Raw
  | _ => Err OutOfSpec
  end.
(** parquet_bridge.rs:81-94. *)
Definition compression_to_thrift (c : compression) : Z :=
  match c with
  | Uncompressed => 0 | Snappy => 1 | Gzip => 2 | Lzo => 3 | Brotli => 4
  | Lz4 => 5 | Zstd => 6 | Lz4Raw => 7
  end.
(** parquet_bridge.rs:50: derived [PartialEq]. *)
Definition compression_eqb (a b : compression) : bool :=
  compression_to_thrift a =? compression_to_thrift b.

(** parquet_bridge.rs:147-158 [is_valid_level] with the bounds of 171-174, 202-205, 232-237, and the three
    [try_new] (180-182, 211-213, 243-245), which return the level itself. *)
Definition valid_level (lo hi z : Z) : res Z :=
  if (lo <=? z) && (z <=? hi) then Ok z else Err InvalidParameter.
(** parquet_bridge.rs:171-182. *)
Definition brotli_level (z : Z) : res Z := valid_level 0 11 z.
(** parquet_bridge.rs:202-213. *)
Definition gzip_level (z : Z) : res Z := valid_level 0 10 z.
(** parquet_bridge.rs:232-245. *)
Definition zstd_level (z : Z) : res Z := valid_level 1 22 z.

(** parquet_bridge.rs:100-109 [CompressionOptions], 111-124 and 126-139 [from]. *)
Inductive compression_options :=
| OUncompressed | OSnappy | OGzip (l : option Z) | OLzo | OBrotli (l : option Z) | OLz4 | OZstd (l : option Z)
| OLz4Raw.
(** parquet_bridge.rs:111-124. *)
Definition options_compression (o : compression_options) : compression :=
  match o with
  | OUncompressed => Uncompressed | OSnappy => Snappy | OGzip _ => Gzip | OLzo => Lzo
  | OBrotli _ => Brotli | OLz4 => Lz4 | OZstd _ => Zstd | OLz4Raw => Lz4Raw
  end.
(** parquet_bridge.rs:126-139. *)
Definition options_to_thrift (o : compression_options) : Z :=
  match o with
  | OUncompressed => 0 | OSnappy => 1 | OGzip _ => 2 | OLzo => 3
  | OBrotli _ => 4 | OLz4 => 5 | OZstd _ => 6 | OLz4Raw => 7
  end.

(** parquet_bridge.rs:261-265 [PageType], 267-278 [try_from], 280-288 [from] (INDEX_PAGE is 1). *)
Inductive page_type := PtData | PtDataV2 | PtDictionary.
(** parquet_bridge.rs:267-278. *)
Definition page_type_of_thrift (z : Z) : res page_type :=
  match z with
  | 0 => Ok PtData | 3 => Ok PtDataV2 | 2 => Ok PtDictionary
  | _ => Err OutOfSpec
  end.
(** parquet_bridge.rs:280-288. *)
Definition page_type_to_thrift (p : page_type) : Z :=
  match p with PtData => 0 | PtDataV2 => 3 | PtDictionary => 2 end.

(** parquet_bridge.rs:291-330 [Encoding], 332-349 [try_from], 351-365 [from]. *)
Inductive encoding :=
| EPlain | EPlainDictionary | ERle | EBitPacked | EDeltaBinaryPacked | EDeltaLengthByteArray
| EDeltaByteArray | ERleDictionary | EByteStreamSplit.
(** parquet_bridge.rs:332-349. *)
Definition encoding_of_thrift (z : Z) : res encoding :=
  match z with
  | 0 => Ok EPlain | 2 => Ok EPlainDictionary | 3 => Ok ERle | 4 => Ok EBitPacked
  | 5 => Ok EDeltaBinaryPacked | 6 => Ok EDeltaLengthByteArray | 7 => Ok EDeltaByteArray
  | 8 => Ok ERleDictionary | 9 => Ok EByteStreamSplit
  | _ => Err OutOfSpec
  end.
(** parquet_bridge.rs:351-365. *)
Definition encoding_to_thrift (e : encoding) : Z :=
  match e with
  | EPlain => 0 | EPlainDictionary => 2 | ERle => 3 | EBitPacked => 4
  | EDeltaBinaryPacked => 5 | EDeltaLengthByteArray => 6 | EDeltaByteArray => 7
  | ERleDictionary => 8 | EByteStreamSplit => 9
  end.

(** parquet_bridge.rs:370-374 [BoundaryOrder], 382-393 [try_from], 395-403 [from]. *)
Inductive boundary_order := Unordered | Ascending | Descending.
(** parquet_bridge.rs:382-393. *)
Definition boundary_order_of_thrift (z : Z) : res boundary_order :=
  match z with
  | 0 => Ok Unordered | 1 => Ok Ascending | 2 => Ok Descending
  | _ => Err OutOfSpec
  end.
(** parquet_bridge.rs:395-403. *)
Definition boundary_order_to_thrift (b : boundary_order) : Z :=
  match b with Unordered => 0 | Ascending => 1 | Descending => 2 end.

(** parquet_bridge.rs:441-445 [TimeUnit]; the thrift [TimeUnit] is the union of the same three units,
    so the conversions of 447-465 are the identity. *)
Inductive time_unit := Milliseconds | Microseconds | Nanoseconds.

(** parquet_bridge.rs:470-479 [IntegerType], 519-535 and 537-550 (the conversions). *)
Inductive integer_type := IInt8 | IInt16 | IInt32 | IInt64 | IUInt8 | IUInt16 | IUInt32 | IUInt64.
(** parquet_bridge.rs:519-535. *)
Definition integer_of (bit_width : Z) (is_signed : bool) : integer_type :=
  match bit_width, is_signed with
  | 8, true => IInt8 | 16, true => IInt16 | 32, true => IInt32 | 64, true => IInt64
  | 8, false => IUInt8 | 16, false => IUInt16 | 32, false => IUInt32 | 64, false => IUInt64
  | _, _ => IInt32
  end.
(** parquet_bridge.rs:537-550. *)
Definition integer_parts (t : integer_type) : N * bool :=
  match t with
  | IInt8 => (8%N, true) | IInt16 => (16%N, true) | IInt32 => (32%N, true) | IInt64 => (64%N, true)
  | IUInt8 => (8%N, false) | IUInt16 => (16%N, false) | IUInt32 => (32%N, false) | IUInt64 => (64%N, false)
  end.

(** parquet_bridge.rs:483-501 [PrimitiveLogicalType], 505-508 [GroupLogicalType]. *)
Inductive primitive_logical :=
| LString | LEnum | LDecimal (precision scale : N) | LDate
| LTime (unit : time_unit) (is_adjusted_to_utc : bool)
| LTimestamp (unit : time_unit) (is_adjusted_to_utc : bool)
| LInteger (t : integer_type) | LUnknown | LJson | LBson | LUuid.
(** parquet_bridge.rs:505-508. *)
Inductive group_logical := LMap | LList.

(** parquet_bridge.rs:555-581 (the variants matched). The thrift union [LogicalType] of parquet.thrift ([i32] precision and scale, [i8] bit width). *)
Inductive t_logical :=
| TString | TMap | TList | TEnum | TDecimal (scale precision : Z) | TDate
| TTime (is_adjusted_to_utc : bool) (unit : time_unit)
| TTimestamp (is_adjusted_to_utc : bool) (unit : time_unit)
| TInteger (bit_width : Z) (is_signed : bool) | TUnknown | TJson | TBson | TUuid.

(** parquet_bridge.rs:552-582 [PrimitiveLogicalType::try_from]. *)
Definition logical_of_thrift (t : t_logical) : res primitive_logical :=
  match t with
  | TString => Ok LString
  | TEnum => Ok LEnum
  | TDecimal scale precision =>
      let* p := try_usize precision in
      let* s := try_usize scale in
      Ok (LDecimal p s)
  | TDate => Ok LDate
  | TTime utc unit => Ok (LTime unit utc)
  | TTimestamp utc unit => Ok (LTimestamp unit utc)
  | TInteger w s => Ok (LInteger (integer_of w s))
  | TUnknown => Ok LUnknown
  | TJson => Ok LJson
  | TBson => Ok LBson
  | TUuid => Ok LUuid
  | TMap | TList => Err OutOfSpec
  end.

(** parquet_bridge.rs:584-594 [GroupLogicalType::try_from] and 510-517 [from]. *)
Definition group_logical_of_thrift (t : t_logical) : res group_logical :=
  match t with TList => Ok LList | TMap => Ok LMap | _ => Err OutOfSpec end.
(** parquet_bridge.rs:510-517. *)
Definition group_logical_to_thrift (g : group_logical) : t_logical :=
  match g with LMap => TMap | LList => TList end.

(** parquet_bridge.rs:596-635 [from]; [bit_width as i8] of 8, 16, 32 or 64 is exact. *)
Definition logical_to_thrift (l : primitive_logical) : t_logical :=
  match l with
  | LString => TString
  | LEnum => TEnum
  | LDecimal p s => TDecimal (as_i32 s) (as_i32 p)
  | LDate => TDate
  | LTime unit utc => TTime utc unit
  | LTimestamp unit utc => TTimestamp utc unit
  | LInteger t => let (w, s) := integer_parts t in TInteger (Z.of_N w) s
  | LUnknown => TUnknown
  | LJson => TJson
  | LBson => TBson
  | LUuid => TUuid
  end.

(** schema/types/physical_type.rs:10-19 [PhysicalType], 21-41 [try_from], 43-58 [from]. *)
Inductive physical_type :=
| Boolean | Int32 | Int64 | Int96 | Float | Double | ByteArray | FixedLenByteArray (size : N).
(** schema/types/physical_type.rs:21-41. *)
Definition physical_of_thrift (t : Z) (length : option Z) : res physical_type :=
  match t with
  | 0 => Ok Boolean | 1 => Ok Int32 | 2 => Ok Int64 | 3 => Ok Int96 | 4 => Ok Float | 5 => Ok Double
  | 6 => Ok ByteArray
  | 7 => match length with
         | None => Err OutOfSpec
         | Some l => let* n := try_usize l in Ok (FixedLenByteArray n)
         end
  | _ => Err OutOfSpec
  end.
(** schema/types/physical_type.rs:43-58. *)
Definition physical_to_thrift (p : physical_type) : Z * option Z :=
  match p with
  | Boolean => (0, None) | Int32 => (1, None) | Int64 => (2, None) | Int96 => (3, None)
  | Float => (4, None) | Double => (5, None) | ByteArray => (6, None)
  | FixedLenByteArray n => (7, Some (as_i32 n))
  end.
(** schema/types/physical_type.rs:8: derived [PartialEq]. *)
Definition physical_eqb (a b : physical_type) : bool :=
  match a, b with
  | Boolean, Boolean | Int32, Int32 | Int64, Int64 | Int96, Int96 | Float, Float | Double, Double
  | ByteArray, ByteArray => true
  | FixedLenByteArray n, FixedLenByteArray k => (n =? k)%N
  | _, _ => false
  end.

(** schema/types/converted_type.rs:8-92 [PrimitiveConvertedType], 96-104 [GroupConvertedType]. *)
Inductive primitive_converted :=
| CUtf8 | CEnum | CDecimal (precision scale : N) | CDate | CTimeMillis | CTimeMicros | CTimestampMillis
| CTimestampMicros | CUint8 | CUint16 | CUint32 | CUint64 | CInt8 | CInt16 | CInt32 | CInt64 | CJson | CBson
| CInterval.
(** schema/types/converted_type.rs:96-104. *)
Inductive group_converted := GMap | GMapKeyValue | GList.

(** schema/types/converted_type.rs:106-147 [try_from]. *)
Definition converted_of_thrift (t : Z) (maybe_decimal : option (Z * Z)) : res primitive_converted :=
  match t with
  | 0 => Ok CUtf8 | 4 => Ok CEnum
  | 5 => match maybe_decimal with
         | Some (precision, scale) =>
             let* p := try_usize precision in
             let* s := try_usize scale in
             Ok (CDecimal p s)
         | None => Err OutOfSpec
         end
  | 6 => Ok CDate | 7 => Ok CTimeMillis | 8 => Ok CTimeMicros | 9 => Ok CTimestampMillis
  | 10 => Ok CTimestampMicros | 11 => Ok CUint8 | 12 => Ok CUint16 | 13 => Ok CUint32 | 14 => Ok CUint64
  | 15 => Ok CInt8 | 16 => Ok CInt16 | 17 => Ok CInt32 | 18 => Ok CInt64 | 19 => Ok CJson | 20 => Ok CBson
  | 21 => Ok CInterval
  | _ => Err OutOfSpec
  end.
(** schema/types/converted_type.rs:172-200 [from]. *)
Definition converted_to_thrift (c : primitive_converted) : Z * option (Z * Z) :=
  match c with
  | CUtf8 => (0, None) | CEnum => (4, None)
  | CDecimal p s => (5, Some (as_i32 p, as_i32 s))
  | CDate => (6, None) | CTimeMillis => (7, None) | CTimeMicros => (8, None) | CTimestampMillis => (9, None)
  | CTimestampMicros => (10, None) | CUint8 => (11, None) | CUint16 => (12, None) | CUint32 => (13, None)
  | CUint64 => (14, None) | CInt8 => (15, None) | CInt16 => (16, None) | CInt32 => (17, None)
  | CInt64 => (18, None) | CJson => (19, None) | CBson => (20, None) | CInterval => (21, None)
  end.
(** schema/types/converted_type.rs:149-160 [try_from], 162-170 [from]. *)
Definition group_converted_of_thrift (t : Z) : res group_converted :=
  match t with 3 => Ok GList | 1 => Ok GMap | 2 => Ok GMapKeyValue | _ => Err OutOfSpec end.
(** schema/types/converted_type.rs:162-170. *)
Definition group_converted_to_thrift (g : group_converted) : Z :=
  match g with GMap => 1 | GList => 3 | GMapKeyValue => 2 end.

(** schema/types/basic_type.rs:9-16 [FieldInfo]. *)
Record field_info := mk_fi { fi_name : list N; fi_repetition : repetition; fi_id : option Z }.

(** schema/types/parquet_type.rs:16-25 [PrimitiveType]. *)
Record primitive_type := mk_prim {
  pt_info : field_info;
  pt_logical : option primitive_logical;
  pt_converted : option primitive_converted;
  pt_physical : physical_type
}.

(** schema/types/parquet_type.rs:48-56 [ParquetType]. *)
Inductive parquet_type :=
| Primitive (p : primitive_type)
| Group (info : field_info) (logical : option group_logical) (converted : option group_converted)
    (fields : list parquet_type).

(** schema/types/parquet_type.rs:61-66 [get_field_info] and 69-71 [name]. *)
Definition get_field_info (t : parquet_type) : field_info :=
  match t with Primitive p => pt_info p | Group i _ _ _ => i end.
(** schema/types/parquet_type.rs:69-71. *)
Definition type_name (t : parquet_type) : list N := fi_name (get_field_info t).

(** metadata/column_descriptor.rs:9-18 [Descriptor]; levels are [i16]. *)
Record descriptor := mk_descr {
  d_primitive : primitive_type;
  d_max_def : Z;
  d_max_rep : Z
}.

(** metadata/column_descriptor.rs:25-34 [ColumnDescriptor]. *)
Record column_descriptor := mk_cdescr {
  cd_descriptor : descriptor;
  cd_path : list (list N);
  cd_base : parquet_type
}.
