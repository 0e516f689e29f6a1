(** C11, C12, C13: the binary buffer and the codecs on it. *)
From Coq Require Import String.
From Verif Require Import Common Bytes Value BufferModel BufferSpec BufferProofs.
Local Open Scope string_scope.
Local Open Scope list_scope.
Local Open Scope Z_scope.

(** One value in a fresh buffer: every type, every content below 64 KB. *)
Theorem C11_value_roundtrip_partial : forall v, encodable v = true ->
  exists b b', value_encode v buffer_create = Ok b /\ value_decode b = Ok (v, b') /\ b_read b' = b_write_pos b.
Proof. exact value_roundtrip. Qed.
Print Assumptions C11_value_roundtrip_partial.

Example C11_witness : forallb encodable [VString (Some (bs "hello")); VInt64 (-5); VBytes (Some []);
   VDateTime (mkDT 1 2 3 4 5 126 0 0 (-1) 5 30 true); VDouble 4614253070214989087; VChar (-128)] = true.
Proof. reflexivity. Qed.

(** Any number of values in one buffer, if their total size is not a multiple of 64. *)
Theorem C11_values_roundtrip_partial : forall vs, forallb encodable vs = true -> total_size vs mod 64 <> 0 ->
  exists b b', encode_all vs buffer_create = Ok b /\ decode_all (length vs) b = Ok (vs, b').
Proof. exact values_roundtrip. Qed.
Print Assumptions C11_values_roundtrip_partial.

Example C11_values_witness : let vs := repeat (VUInt32 7) 9 in forallb encodable vs = true /\ total_size vs mod 64 <> 0.
Proof. vm_compute. split; [reflexivity|discriminate]. Qed.

(** Eight 32-bit integers fill the 64 byte block exactly: the last one cannot be read back. *)
Theorem C11_exact_fill_refuted : exists vs b, forallb encodable vs = true /\
  encode_all vs buffer_create = Ok b /\ decode_all (length vs) b = Err tt.
Proof. exact exact_fill_refuted. Qed.
Print Assumptions C11_exact_fill_refuted.

(** A byte array of 65536 bytes comes back empty. *)
Theorem C11_long_bytes_refuted : forall s, Z.of_nat (length s) = 65536 -> bytes_ok s = true ->
  exists b b', value_encode (VBytes (Some s)) buffer_create = Ok b /\ value_decode b = Ok (VBytes (Some []), b').
Proof. exact long_bytes_refuted. Qed.
Print Assumptions C11_long_bytes_refuted.

Example C11_long_bytes_witness : let s := repeat 1 (Z.to_nat 65536) in Z.of_nat (length s) = 65536 /\ bytes_ok s = true.
Proof. vm_compute. split; reflexivity. Qed.

(** Every filter without missing operands comes back, if its encoded size is not a multiple of 64. *)
Theorem C12_filter_roundtrip_partial : forall f, filter_ok f = true -> filter_size f mod 64 <> 0 ->
  exists b b', filter_encode f buffer_create = Ok b /\
    (forall fuel, (filter_depth f <= fuel)%nat -> filter_decode fuel b = Ok (f, b')) /\ b_read b' = b_write_pos b.
Proof. exact filter_roundtrip. Qed.
Print Assumptions C12_filter_roundtrip_partial.

Example C12_witness : let f := FLogic OP_OR (FRel OP_EQUAL (VString (Some (bs "up"))))
                                 (FLogic OP_AND (FRel OP_GREATER_THAN (VInt32 (-3))) (FRel OP_LESS_THAN (VInt32 9))) in
  filter_ok f = true /\ filter_size f mod 64 <> 0.
Proof. vm_compute. split; [reflexivity|discriminate]. Qed.

(** (v > 10) AND (v < 20) on 32-bit integers encodes to exactly 64 bytes and cannot be decoded. *)
Theorem C12_range_filter_refuted : exists b,
  filter_encode (FLogic OP_AND (FRel OP_GREATER_THAN (VUInt32 10)) (FRel OP_LESS_THAN (VUInt32 20))) buffer_create = Ok b /\
  forall fuel, (2 <= fuel)%nat -> filter_decode fuel b = Err tt.
Proof. exact filter_exact_fill. Qed.
Print Assumptions C12_range_filter_refuted.

(** No NOT filter can be decoded: its missing right operand is not encoded, but expected by the decoder. *)
Theorem C12_not_filter_refuted : forall op v, encodable v = true -> in_u 32 op = true ->
  exists b, filter_encode (FLogic OP_NOT (FRel op v) FNull) buffer_create = Ok b /\
  forall fuel r, filter_decode fuel b <> Ok r.
Proof. exact filter_not_lost. Qed.
Print Assumptions C12_not_filter_refuted.

Example C12_not_witness : encodable (VString (Some (bs "x"))) = true /\ in_u 32 OP_EQUAL = true.
Proof. split; reflexivity. Qed.

(** Histories whose reads stay inside the written bytes and never end on a
    64-byte boundary behave like a byte queue. *)
Theorem C13_buffer_is_queue_partial : forall ops, no_overread 0 ops = true -> read_ends_ok 0 ops = true ->
  buffer_run buffer_create ops = Ok (queue_run [] ops).
Proof. exact queue_agrees0. Qed.
Print Assumptions C13_buffer_is_queue_partial.

Example C13_witness : let ops := [BWrite (repeat 5 100); BRead 60; BWrite [1;2;3]; BRead 43] in
  no_overread 0 ops = true /\ read_ends_ok 0 ops = true.
Proof. split; reflexivity. Qed.

(** Reading more than was written succeeds and delivers indeterminate bytes. *)
Theorem C13_overread_refuted : buffer_run buffer_create [BWrite [1]; BRead 2] = UB.
Proof. exact read_past_end. Qed.
Print Assumptions C13_overread_refuted.

(** Reading exactly what was written fails when it fills the block. *)
Theorem C13_exact_fill_refuted : forall d, Z.of_nat (length d) = 64 ->
  buffer_run buffer_create [BWrite d; BRead 64] = Ok [RWrote; RFailed] /\
  queue_run [] [BWrite d; BRead 64] = [RWrote; RGot d].
Proof. exact read_exact_fails. Qed.
Print Assumptions C13_exact_fill_refuted.

Example C13_exact_fill_witness : Z.of_nat (length (repeat 7 64)) = 64.
Proof. reflexivity. Qed.
