(** C15: integers and text. *)
From Coq Require Import String.
From Verif Require Import Common Value TextModel TextSpec TextProofs.
Local Open Scope string_scope.
Local Open Scope list_scope.
Local Open Scope Z_scope.

(** Every integer and boolean of every type, and every string, survives
    conversion to text and back. *)
Theorem C15_text_roundtrip : forall v, textual v = true ->
  exists s, to_string v = Some s /\ set_from_string (vtype v) s = Some v.
Proof. exact text_roundtrip. Qed.
Print Assumptions C15_text_roundtrip.
Example C15_text_roundtrip_ex : textual (VInt64 (- 2 ^ 63)) = true /\
  to_string (VInt64 (- 2 ^ 63)) = Some (bs "-9223372036854775808") /\ textual (VUInt8 200) = true.
Proof. vm_compute. repeat split. Qed.

(** Signed types of 16 bits and more: exactly the texts that denote a number in
    range are accepted, with that number. *)
Theorem C15_signed_exact : forall t C lo hi s v, signed_type t C lo hi ->
  (set_from_string t s = Some v <-> exists n, denotes s n /\ lo <= n <= hi /\ v = C n).
Proof. exact signed_exact. Qed.
Print Assumptions C15_signed_exact.
Example C15_signed_exact_ex : set_from_string RBUS_INT16 (bs "-32768") = Some (VInt16 (-32768)) /\
  set_from_string RBUS_INT16 (bs "-32769") = None /\
  set_from_string RBUS_INT64 (bs "99999999999999999999") = None.
Proof. vm_compute. repeat split. Qed.

(** Unsigned types of 16 bits and more: the same for texts that do not start with
    white space ... *)
Theorem C15_unsigned_exact_partial : forall t C hi s v, unsigned_type t C hi -> ~ starts_with_space s ->
  (set_from_string t s = Some v <-> exists n, denotes s n /\ 0 <= n <= hi /\ v = C n).
Proof. exact unsigned_exact. Qed.
Print Assumptions C15_unsigned_exact_partial.
Example C15_unsigned_exact_ex : set_from_string RBUS_UINT16 (bs "65535") = Some (VUInt16 65535) /\
  set_from_string RBUS_UINT16 (bs "65536") = None /\ set_from_string RBUS_UINT32 (bs "-1") = None.
Proof. vm_compute. repeat split. Qed.
(** ... otherwise a negative number far out of range is accepted. *)
Theorem C15_unsigned_refuted :
  denotes (bs " -18446744073709551615") (-18446744073709551615) /\
  set_from_string RBUS_UINT16 (bs " -18446744073709551615") = Some (VUInt16 1) /\
  set_from_string RBUS_UINT32 (bs " -18446744073709551615") = Some (VUInt32 1) /\
  set_from_string RBUS_UINT64 (bs " -1") = Some (VUInt64 (2 ^ 64 - 1)).
Proof.
  split; [|vm_compute; repeat split].
  exists [32], [45], (bs "18446744073709551615"). split; [reflexivity|].
  split; [repeat constructor|]. split; [cbn; repeat constructor; vm_compute; discriminate|].
  split; [discriminate|]. right. split; reflexivity.
Qed.
Print Assumptions C15_unsigned_refuted.
(** What is accepted is always within the type's range, white space or not. *)
Theorem C15_unsigned_in_range : forall t C hi s v, unsigned_type t C hi -> set_from_string t s = Some v ->
  exists n, v = C n /\ 0 <= n <= hi.
Proof. exact unsigned_in_range. Qed.
Print Assumptions C15_unsigned_in_range.

(** 8-bit types read a leading zero as octal, the wider types do not. *)
Theorem C15_leading_zero_refuted :
  denotes (bs "010") 10 /\
  set_from_string RBUS_INT8 (bs "010") = Some (VInt8 8) /\ set_from_string RBUS_UINT8 (bs "010") = Some (VUInt8 8) /\
  set_from_string RBUS_INT16 (bs "010") = Some (VInt16 10) /\ set_from_string RBUS_INT8 (bs "09") = None.
Proof.
  split; [|vm_compute; repeat split].
  exists [], [], (bs "010"). split; [reflexivity|]. split; [constructor|].
  split; [cbn; repeat constructor; vm_compute; discriminate|]. split; [discriminate|]. left. split; [now left|reflexivity].
Qed.
Print Assumptions C15_leading_zero_refuted.
(** Byte arrays do not survive: printed as hexadecimal, read back raw. *)
Theorem C15_bytes_refuted : forall s b, 0 <= b < 256 -> exists t,
  to_string (VBytes (Some (b :: s))) = Some t /\ set_from_string RBUS_BYTES t <> Some (VBytes (Some (b :: s))).
Proof. exact bytes_text. Qed.
Print Assumptions C15_bytes_refuted.
