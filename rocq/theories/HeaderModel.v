(** Model of src/rtmessage/rtMessageHeader.c and the parts of rtEncoder.c it
    uses, in the default build (MSG_ROUNDTRIP_TIME is OFF in /repo/CMakeLists.txt:98). *)
From Verif Require Import Common Bytes.
Local Open Scope Z_scope.

(** rtMessageHeader.h:42-44 *)
Definition RTMSG_HEADER_MAX_TOPIC_LENGTH : Z := 256.
(** rtMessageHeader.h:42-44, continued *)
Definition RTMSG_HEADER_VERSION : Z := 2.
Definition RTMSG_HEADER_MARKER : Z := 43690. (* 0xAAAA *)
(** rtMessageHeader.h:46-54 *)
Definition rtMessageFlags_Request : Z := 1.
(** rtMessageHeader.h:46-54, continued *)
Definition rtMessageFlags_Response : Z := 2.
(** rtMessageHeader.h:46-54, continued *)
Definition rtMessageFlags_Undeliverable : Z := 4.
(** rtMessageHeader.h:46-54, continued *)
Definition rtMessageFlags_RawBinary : Z := 16.

(** rtMessageHeader.h:56-76: the struct; topic and reply_topic are char arrays
    of 256 bytes, modelled by their full contents. *)
Record header := mkHeader {
  h_version : Z; h_header_length : Z; h_sequence_number : Z; h_flags : Z;
  h_control_data : Z; h_payload_length : Z;
  h_topic_length : Z; h_topic : list Z;
  h_reply_topic_length : Z; h_reply_topic : list Z }.

(** rtMessageHeader.c:27-48 rtMessageHeader_Init *)
Definition header_init : header :=
  mkHeader RTMSG_HEADER_VERSION 0 0 0 0 0 0 (repeat 0 256) 0 (repeat 0 256).

(** strlen / the C string held by a char array: bytes before the first NUL;
    [None] if there is no NUL in the array (strlen would run past its end). libc strlen *)
Fixpoint cstring (a : list Z) : option (list Z) :=
  match a with
  | [] => None
  | c :: a' => if c =? 0 then Some []
               else match cstring a' with Some s => Some (c :: s) | None => None end
  end.

(** rtMessageHeader.c:50-84 rtMessageHeader_Encode (and rtEncoder.c:26-38,
    59-66, 79-86).  Returns the header with header_length updated, and the bytes
    written.  The topic_length fields are not used: strlen is. *)
Definition header_encode (h : header) : outcome unit (header * list Z) :=
  match cstring (h_topic h), cstring (h_reply_topic h) with
  | Some t, Some r =>
      let len := (32 + Z.of_nat (length t) + Z.of_nat (length r)) mod 65536 in
      let h' := mkHeader (h_version h) len (h_sequence_number h) (h_flags h) (h_control_data h)
                  (h_payload_length h) (h_topic_length h) (h_topic h)
                  (h_reply_topic_length h) (h_reply_topic h) in
      Ok (h', be16 RTMSG_HEADER_MARKER ++ be16 RTMSG_HEADER_VERSION ++ be16 len ++
              be32 (h_sequence_number h) ++ be32 (h_flags h) ++ be32 (h_control_data h) ++
              be32 (h_payload_length h) ++
              be32 (Z.of_nat (length t)) ++ t ++
              be32 (Z.of_nat (length r)) ++ r ++
              be16 RTMSG_HEADER_MARKER)
  | _, _ => UB
  end.

(** memcpy of [s] over the beginning of the array [a] (rtEncoder.c:40-46). *)
Definition array_overwrite (a s : list Z) : list Z := s ++ skipn (length s) a.

(** Reading past the end of the input buffer is [UB]. helper, no code of its own *)
Definition need {A} (o : option A) (f : A -> outcome unit header) : outcome unit header :=
  match o with Some a => f a | None => UB end.

(** rtMessageHeader.c:86-134 rtMessageHeader_Decode, applied to a header [h]
    (its previous contents matter: the topic arrays are only overwritten up to
    the decoded length, and no NUL is written). *)
Definition header_decode (h : header) (buff : list Z) : outcome unit header :=
  need (get_be16 buff) (fun '(marker, p) =>
  if negb (marker =? RTMSG_HEADER_MARKER) then Err tt else
  need (get_be16 p) (fun '(version, p) =>
  need (get_be16 p) (fun '(hlen, p) =>
  need (get_be32 p) (fun '(seqn, p) =>
  need (get_be32 p) (fun '(flags, p) =>
  need (get_be32 p) (fun '(ctl, p) =>
  need (get_be32 p) (fun '(plen, p) =>
  need (get_be32 p) (fun '(tlen, p) =>
  if RTMSG_HEADER_MAX_TOPIC_LENGTH <=? tlen then Err tt else
  need (get_bytes (Z.to_nat tlen) p) (fun '(t, p) =>
  need (get_be32 p) (fun '(rlen, p) =>
  if RTMSG_HEADER_MAX_TOPIC_LENGTH <=? rlen then Err tt else
  need (get_bytes (Z.to_nat rlen) p) (fun '(r, p) =>
  need (get_be16 p) (fun '(marker2, _) =>
  if negb (marker2 =? RTMSG_HEADER_MARKER) then Err tt else
  Ok (mkHeader version hlen seqn flags ctl plen tlen (array_overwrite (h_topic h) t)
               rlen (array_overwrite (h_reply_topic h) r)))))))))))))).

(** rtMessageHeader.c:143-147 *)
Definition header_is_request (h : header) : bool :=
  Z.land (h_flags h) rtMessageFlags_Request =? rtMessageFlags_Request.
(** rtMessageHeader.c:136-141 *)
Definition header_set_request (h : header) : header :=
  mkHeader (h_version h) (h_header_length h) (h_sequence_number h)
    (Z.lor (h_flags h) rtMessageFlags_Request) (h_control_data h) (h_payload_length h)
    (h_topic_length h) (h_topic h) (h_reply_topic_length h) (h_reply_topic h).
