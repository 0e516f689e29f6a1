(** Model of the stream reader of the broker: rtConnectedClient_Read in
    src/rtmessage/rtrouted.c:1513-1643.  src/rtmessage/rtrouteBase.c:335-464 is
    the same code for direct connections.
    The socket is a list of bytes not yet received; every recv returns a prefix
    whose length is chosen by the environment ([k], clamped to what recv may
    return).  Simplifications: default build (no MSG_ROUNDTRIP_TIME, no
    benchmarking); memory allocation succeeds; bytes of the buffer that were
    never received (malloc/realloc contents) are zero. *)
From Verif Require Import Common Bytes HeaderModel.
Local Open Scope Z_scope.

(** rtrouteBase.h rtConnectionState; rtrouteBase.h:31-51 *)
Inductive rstage := ReadPreamble | ReadHeader | ReadPayload.

(** rtrouteBase.h:31-51 rtConnectedClient: the fields used by the reader.
    read_buffer_capacity is the length of [r_buf]. *)
Record rstate := mkR { r_stage : rstage; r_to_read : Z; r_read : nat; r_buf : list Z; r_hdr : header }.

Definition PREAMBLE : Z := 6. (* rtMessageHeader.h:44 RTMESSAGEHEADER_PREAMBLE_LENGTH *)

(** rtrouted.c:1386-1405 rtConnectedClient_Init; [cap0] is
    RTMSG_CLIENT_READ_BUFFER_SIZE (rtrouteBase.h:19,21: 8192 or 65536) *)
Definition reader_init (cap0 : nat) : rstate :=
  mkR ReadPreamble PREAMBLE 0 (repeat 0 cap0) header_init.

(** rtrouted.c:1483-1490 rtConnectedClient_Reset *)
Definition reader_reset (buf : list Z) : rstate := mkR ReadPreamble PREAMBLE 0 buf header_init.

(** a header and its payload, as handed to rtrouted.c:1620-1627 *)
Definition message := (header * list Z)%type.
(** the outcome of one call: more to read, a message, or a dropped client *)
Inductive rres :=
| RStep (s : rstate) (rest : list Z) (out : option message)
| RBlocked            (* nothing to receive: the router waits in poll *)
| RClosed.            (* recv returned 0: the client is dropped *)

(** rtrouted.c:1589-1608: the payload length is added to an int with the usual
    conversions; the buffer is enlarged to bytes_to_read + bytes_read *)
Definition begin_payload (s : rstate) (h : header) (buf : list Z) : outcome unit rstate :=
  let to_read := to_signed 32 (to_unsigned 32 (r_to_read s + h_payload_length h)) in
  let incoming := to_read + Z.of_nat (r_read s) in
  if 2147483648 <=? incoming then UB          (* signed overflow *)
  else
    let buf' := buf ++ repeat 0 (Z.to_nat (incoming - Z.of_nat (length buf))) in
    Ok (mkR ReadPayload to_read (r_read s) buf' h).

(** rtrouted.c:1628-1636: back to the normal buffer size *)
Definition shrink (cap0 : nat) (buf : list Z) : list Z :=
  if (length buf =? cap0)%nat then buf else repeat 0 cap0.

(** rtrouted.c:1551-1640: what happens once the chunk is in the buffer *)
Definition process (cap0 : nat) (s : rstate) : outcome unit (rstate * option message) :=
  if negb (Z.of_nat (r_read s) =? r_to_read s) then Ok (s, None) else
  match r_stage s with
  | ReadPreamble =>
      match get_be16 (r_buf s) with
      | None => UB
      | Some (start, p) =>
        match get_be16 p with
        | None => UB
        | Some (version, p) =>
          if negb (start =? RTMSG_HEADER_MARKER) || negb (version =? RTMSG_HEADER_VERSION)
          then Ok (reader_reset (r_buf s), None)
          else match get_be16 p with
               | None => UB
               | Some (hlen, _) =>
                   Ok (mkR ReadHeader (r_to_read s + (hlen - PREAMBLE)) (r_read s) (r_buf s) (r_hdr s), None)
               end
        end
      end
  | ReadHeader =>
      match header_decode (r_hdr s) (r_buf s) with
      | UB => UB
      | Err _ => Ok (reader_reset (r_buf s), None)
      | Ok h => do s' <- begin_payload s h (r_buf s); Ok (s', None)
      end
  | ReadPayload =>
      (* rtRouter_DispatchMessageFromClient(clnt): the payload starts at read_buffer + header_length *)
      if Z.of_nat (length (r_buf s)) <? h_header_length (r_hdr s) + h_payload_length (r_hdr s)
      then UB                                  (* the payload handed on would end outside read_buffer *)
      else
      let payload := firstn (Z.to_nat (h_payload_length (r_hdr s)))
                            (skipn (Z.to_nat (h_header_length (r_hdr s))) (r_buf s)) in
      Ok (reader_reset (shrink cap0 (r_buf s)), Some (r_hdr s, payload))
  end.

(** rtrouted.c:1513-1549: one call; [k] is the size recv chooses.  The router
    only calls it when the socket has something to read (rtrouted.c:1957-1973). *)
Definition reader_step (cap0 : nat) (s : rstate) (stream : list Z) (k : nat) : outcome unit rres :=
  let remaining := r_to_read s - Z.of_nat (r_read s) in
  match stream with
  | [] => Ok RBlocked
  | _ =>
    if remaining <? 0 then UB                  (* recv with a huge size_t length: overruns the buffer *)
    else if remaining =? 0 then Ok RClosed     (* recv of 0 bytes returns 0 *)
    else
      let n := Nat.max 1 (Nat.min k (Nat.min (Z.to_nat remaining) (length stream))) in
      if (r_read s + n <=? length (r_buf s))%nat then
        let buf := firstn (r_read s) (r_buf s) ++ firstn n stream ++ skipn (r_read s + n) (r_buf s) in
        do (s', out) <- process cap0 (mkR (r_stage s) (r_to_read s) (r_read s + n) buf (r_hdr s));
        Ok (RStep s' (skipn n stream) out)
      else UB                                  (* recv writes past the end of read_buffer *)
  end.

(** A run for a finite list of chunk sizes: dispatched messages, bytes left,
    final state, and whether the client was dropped. rtrouted.c:1513-1643 called again and again *)
Fixpoint reader_run (cap0 : nat) (s : rstate) (stream : list Z) (ks : list nat)
  : outcome unit (list message * list Z * rstate * bool) :=
  match ks with
  | [] => Ok ([], stream, s, false)
  | k :: ks' =>
      do r <- reader_step cap0 s stream k;
      match r with
      | RBlocked => Ok ([], stream, s, false)
      | RClosed => Ok ([], stream, s, true)
      | RStep s' rest out =>
          do (ms, rest', s'', closed) <- reader_run cap0 s' rest ks';
          Ok (match out with Some m => m :: ms | None => ms end, rest', s'', closed)
      end
  end.
