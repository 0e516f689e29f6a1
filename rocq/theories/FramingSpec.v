(** What a client means by writing a message: header bytes followed by the payload. *)
From Verif Require Import Common Bytes HeaderModel HeaderSpec FramingModel.
Local Open Scope Z_scope.

(** The bytes a client puts on the socket for one message. *)
Definition wire_bytes (m : message) : list Z :=
  match header_encode (fst m) with Ok (_, b) => b ++ snd m | _ => [] end.

(** A message a client can send: a well-formed header announcing the payload's
    length, a payload of bytes smaller than 1 GB. *)
Definition sendable (m : message) : bool :=
  header_wf (fst m) && bytes_ok (snd m)
  && (h_payload_length (fst m) =? Z.of_nat (length (snd m)))
  && (Z.of_nat (length (snd m)) <? 1073741824).
Definition nonempty (m : message) : bool := 0 <? h_payload_length (fst m).

(** What the receiver sees of a message. *)
Definition content (m : message) := (header_content (fst m), snd m).

(** A byte stream that never contains the four magic bytes followed by a header
    length below 22 (too short to hold the payload length), or the magic bytes
    and a payload length of (nearly) 2 GB or more at its place in the header. *)
Definition tame (stream : list Z) : Prop :=
  forall pre hl rest, stream = pre ++ be16 RTMSG_HEADER_MARKER ++ be16 RTMSG_HEADER_VERSION ++ be16 hl ++ rest ->
    (0 <= hl < 65536) ->
    22 <= hl /\
    forall mid pl rest', rest = mid ++ be32 pl ++ rest' -> length mid = 12%nat -> 0 <= pl < 4294967296 -> pl < 2147352576.
