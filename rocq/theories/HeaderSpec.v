(** What a message header means to its users, independent of buffers. *)
From Verif Require Import Common HeaderModel.
Local Open Scope Z_scope.

Definition u32 (n : Z) : bool := (0 <=? n) && (n <? 4294967296).

(** The user-visible content: sequence number, flags, control data, payload
    length, topic and reply topic (as C strings). *)
Definition header_content (h : header) : Z * Z * Z * Z * option (list Z) * option (list Z) :=
  (h_sequence_number h, h_flags h, h_control_data h, h_payload_length h,
   cstring (h_topic h), cstring (h_reply_topic h)).

(** A header a C program can hold: 32-bit fields, 256-byte arrays containing a
    NUL-terminated string each. *)
Definition header_wf (h : header) : bool :=
  u32 (h_sequence_number h) && u32 (h_flags h) && u32 (h_control_data h) && u32 (h_payload_length h)
  && (Z.of_nat (length (h_topic h)) =? 256) && (Z.of_nat (length (h_reply_topic h)) =? 256)
  && bytes_ok (h_topic h) && bytes_ok (h_reply_topic h)
  && is_some (cstring (h_topic h)) && is_some (cstring (h_reply_topic h)).
