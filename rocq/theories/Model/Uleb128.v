(** Model of /repo/src/encoding/uleb128.rs and /repo/src/encoding/zigzag_leb128.rs *)
From Verif Require Import Base.Prelude.
Open Scope N_scope.

(** encoding/uleb128.rs:8-21, the loop of [decode]; [u64::from(..) << shift] drops the bits above 64. *)
Fixpoint uleb_decode_go (values : list N) (result shift : N) (consumed : nat) : res (N * nat) :=
  match values with
  | [] => Ok (result, consumed)
  | byte :: rest =>
      let consumed := S consumed in
      if (shift =? 63) && (1 <? byte) then Panic
      else
        let result := N.lor result (N.shiftl (N.land byte 127) shift mod two64) in
        if N.land byte 128 =? 0 then Ok (result, consumed)
        else uleb_decode_go rest result (shift + 7) consumed
  end.

(** encoding/uleb128.rs:3-23 [decode]. *)
Definition uleb_decode (values : list N) : res (N * nat) := uleb_decode_go values 0 0 0.

(** encoding/uleb128.rs:30-46 [encode]: writes into [container], returns it with the number of bytes
    used; [iter.next().unwrap()] panics when the container is full. *)
Fixpoint uleb_encode (value : N) (container : list N) : res (list N * nat) :=
  match container with
  | [] => Panic
  | _ :: rest =>
      let byte := N.land (value mod 256) 127 in
      let value := N.shiftr value 7 in
      let byte := if value =? 0 then byte else N.lor byte 128 in
      if value =? 0 then Ok (byte :: rest, 1%nat)
      else
        let* (c, n) := uleb_encode value rest in
        Ok (byte :: c, S n)
  end.

(** The idiom of every caller (e.g. encoding/delta_bitpacked/encoder.rs:15-17, encoding/hybrid_rle/encoder.rs:22-24):
    encode into a ten byte array and keep the used part. *)
Definition uleb_bytes (value : N) : res (list N) :=
  let* (c, n) := uleb_encode value (repeat 0 10) in
  Ok (firstn n c).

(** encoding/zigzag_leb128.rs:5-8 [decode]; [(u >> 1) as i64 ^ -((u & 1) as i64)]. *)
Definition zigzag_decode (values : list N) : res (Z * nat) :=
  let* (u, consumed) := uleb_decode values in
  Ok (Z.lxor (to_signed 64 (N.shiftr u 1)) (- Z.of_N (N.land u 1)), consumed).

(** encoding/zigzag_leb128.rs:11, [((value << 1) ^ (value >> 63)) as u64] on an [i64]. *)
Definition zigzag (value : Z) : N :=
  of_signed 64 (Z.lxor (wrap_s 64 (Z.shiftl value 1)) (Z.shiftr value 63)).

(** encoding/zigzag_leb128.rs:10-15 [encode]: the array and the number of bytes used. *)
Definition zigzag_encode (value : Z) : res (list N * nat) :=
  uleb_encode (zigzag value) (repeat 0 10).

(** Callers keep [&container[..encoded_len]] (encoding/delta_bitpacked/encoder.rs:33-34). *)
Definition zigzag_bytes (value : Z) : res (list N) :=
  let* (c, n) := zigzag_encode value in
  Ok (firstn n c).
