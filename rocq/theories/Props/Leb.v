(** C01, C02, C03: ULEB128 and zigzag integers. *)
From Verif Require Import Base.Prelude Model.Uleb128 Spec.UlebSpec Proofs.UlebProofs.
Open Scope N_scope.

(** C01. For every 64-bit value: the bytes written decode, whatever follows them, to the value and
    their own length; there are one to ten of them; and any other non-empty byte string that decodes
    to the value is at least as long. *)
Theorem uleb128_roundtrip : forall v, v < 2 ^ 64 ->
  exists bs, uleb_bytes v = Ok bs /\ bytes_ok bs /\ (1 <= length bs <= 10)%nat /\
    (forall rest, bytes_ok rest -> uleb_decode (bs ++ rest) = Ok (v, length bs)) /\
    (forall other n, bytes_ok other -> other <> [] -> uleb_decode other = Ok (v, n) ->
       (length bs <= n)%nat).
Proof. exact uleb_roundtrip. Qed.
Print Assumptions uleb128_roundtrip.

Example uleb128_roundtrip_case :
  uleb_bytes 18446744073709551615 = Ok [255;255;255;255;255;255;255;255;255;1] /\
  uleb_decode ([255;255;255;255;255;255;255;255;255;1] ++ [7; 200]) = Ok (18446744073709551615, 10%nat).
Proof. vm_compute. split; reflexivity. Qed.

(** C01. Encoding into a buffer of any length: it holds the bytes of the value followed by what it held before, and it is a panic exactly if it is too short. *)
Theorem uleb128_container_exact : forall v container, v < 2 ^ 64 ->
  (container = [] \/ 2 ^ (7 * nlen container) <= v -> uleb_encode v container = Panic) /\
  (container <> [] -> v < 2 ^ (7 * nlen container) -> exists bs, uleb_bytes v = Ok bs /\ (length bs <= length container)%nat /\
     uleb_encode v container = Ok (bs ++ skipn (length bs) container, length bs)).
Proof. exact uleb_container. Qed.
Print Assumptions uleb128_container_exact.

Example uleb128_container_case :
  uleb_encode 300 [9; 9; 9] = Ok ([172; 2; 9], 2%nat) /\ uleb_encode 300 [9] = Panic /\ 2 ^ (7 * nlen [9]) <= 300.
Proof. split; [| split]; vm_compute; first [reflexivity | discriminate]. Qed.

(** C02. *)
Theorem zigzag_leb128_roundtrip : forall z, (- 2 ^ 63 <= z < 2 ^ 63)%Z ->
  exists bs, zigzag_bytes z = Ok bs /\ bytes_ok bs /\ (1 <= length bs <= 10)%nat /\
    forall rest, bytes_ok rest -> zigzag_decode (bs ++ rest) = Ok (z, length bs).
Proof. exact zigzag_roundtrip. Qed.
Print Assumptions zigzag_leb128_roundtrip.

Example zigzag_leb128_roundtrip_case :
  zigzag_bytes (- 2 ^ 63) = Ok [255;255;255;255;255;255;255;255;255;1] /\
  zigzag_decode ([255;255;255;255;255;255;255;255;255;1] ++ [9]) = Ok ((- 2 ^ 63)%Z, 10%nat).
Proof. vm_compute. split; reflexivity. Qed.

(** C03. Arbitrary bytes: the panic condition is exact, and every other input yields the value and
    length of the leading group, within the input and within 64 bits. *)
Theorem uleb128_decode_any : forall l, bytes_ok l ->
  (uleb_decode l = Panic <-> (10 <= length (uleb_lead l))%nat /\ 1 < nth 9 l 0) /\
  (uleb_decode l <> Panic ->
     uleb_decode l = Ok (base128 (uleb_lead l), length (uleb_lead l)) /\
     (length (uleb_lead l) <= length l)%nat /\ (length (uleb_lead l) <= 10)%nat /\
     base128 (uleb_lead l) < 2 ^ 64).
Proof. exact uleb_decode_total. Qed.
Print Assumptions uleb128_decode_any.

Example uleb128_decode_any_case :
  bytes_okb (repeat 255 9 ++ [2]) = true /\ uleb_decode (repeat 255 9 ++ [2]) = Panic /\
  uleb_decode [229; 142] = Ok (1893, 2%nat).
Proof. vm_compute. repeat split. Qed.
