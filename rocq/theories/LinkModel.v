(** Model of a client's end of the connection to the broker: how rtConnection_SendInternal puts
    messages on the socket (src/rtmessage/rtConnection.c:1112-1232), how the reader thread takes them
    off it (470-515, 1478-1600, 1863-1905), and how the broker passes a message on
    (src/rtmessage/rtrouted.c:612-718).  The socket is a list of bytes; what recv and sendmsg return
    is chosen by the environment.  Simplifications: default build (no encryption, no
    MSG_ROUNDTRIP_TIME); memory allocation succeeds; the reader thread reads without a timeout (1872)
    and is not told to stop. *)
From Verif Require Import Common Bytes HeaderModel FramingModel RouteModel RouterModel.
Local Open Scope Z_scope.

(** what recv returns: some bytes (at most [k], at least one); EINTR; ENOTCONN or EPIPE; another error *)
Inductive recv_ans := Data (k : nat) | Intr | Broken | Failing.
(** rtConnection.c:470-515: the bytes that have been read; an error, of which [gone] says whether it is
    one that rtConnection_ShouldReregister (272-278) takes for a lost connection; or the thread is blocked
    in recv *)
Inductive rres := Read (b stream : list Z) (rs : list recv_ans) | Fail (gone : bool) (stream : list Z) (rs : list recv_ans) | Blocked.
(** rtConnection.c:470-515 rtConnection_ReadUntil; [closed]: the other end has closed the connection *)
Fixpoint read_until (count : nat) (closed : bool) (stream : list Z) (rs : list recv_ans) (acc : list Z) : rres :=
  match count with
  | O => Read acc stream rs
  | _ =>
    match rs with
    | [] => Blocked
    | Intr :: rs => read_until count closed stream rs acc
    | Broken :: rs => Fail true stream rs
    | Failing :: rs => Fail false stream rs
    | Data k :: rs =>
      match stream with
      | [] => if closed then Fail true [] rs else Blocked
      | _ => let n := Nat.max 1 (Nat.min k (Nat.min count (length stream))) in
             read_until (count - n) closed (skipn n stream) rs (acc ++ firstn n stream)
      end
    end
  end.
(** rtConnection.c:1503-1599, one turn of the loop in rtConnection_Read *)
Inductive turn :=
| Got (m : message) (buf stream : list Z) (rs : list recv_ans)       (* err == RT_OK *)
| Lost                                                               (* 1592-1597: RT_NO_CONNECTION *)
| Again (h : header) (buf stream : list Z) (rs : list recv_ans)      (* another error *)
| Stuck.                                                             (* blocked in recv *)
(** msginfo->header.header_length = n, rtConnection.c:1521 *)
Definition with_length (n : Z) (h : header) : header :=
  mkHeader (h_version h) n (h_sequence_number h) (h_flags h) (h_control_data h) (h_payload_length h)
    (h_topic_length h) (h_topic h) (h_reply_topic_length h) (h_reply_topic h).
(** rtConnection.c:1503-1599; [buf] is con->recv_buffer and [h] msginfo->header.  A payload of 2^31
    bytes or more is a negative count for rtConnection_ReadUntil, so nothing is read: what is handed on
    was never written ([UB]; for 2^32-1 even the terminating NUL is outside the block). *)
Definition read_turn (closed : bool) (h : header) (buf stream : list Z) (rs : list recv_ans) : outcome unit turn :=
  match read_until 6 closed stream rs [] with
  | Blocked => Ok Stuck
  | Fail true _ _ => Ok Lost
  | Fail false stream rs => Ok (Again h buf stream rs)
  | Read pre stream rs =>
    if (length buf <? 6)%nat then UB else
    let buf := pre ++ skipn 6 buf in
    match get_be16 (skipn 4 buf) with
    | None => UB
    | Some (hlen, _) =>
      let h := with_length hlen h in
      let count := Z.to_nat (hlen - 6) in
      if (length buf <? 6 + count)%nat then UB else
      match read_until count closed stream rs [] with
      | Blocked => Ok Stuck
      | Fail true _ _ => Ok Lost
      | Fail false stream rs => Ok (Again h buf stream rs)
      | Read more stream rs =>
        let buf := firstn 6 buf ++ more ++ skipn (6 + count) buf in
        match header_decode h buf with
        | UB => UB
        | Err _ => Ok (Again h buf stream rs)
        | Ok h =>
          if 2147483648 <=? h_payload_length h then UB else
          match read_until (Z.to_nat (h_payload_length h)) closed stream rs [] with
          | Blocked => Ok Stuck
          | Fail true _ _ => Ok Lost
          | Fail false stream rs => Ok (Again h buf stream rs)
          | Read payload stream rs => Ok (Got (h, payload) buf stream rs)
          end
        end
      end
    end
  end.
(** how a run of the reader thread ends: it waits for more, or the connection is lost (and made anew) *)
Inductive ending := Waits | NoConnection.
(** rtConnection.c:1478-1503, 1599, 1863-1875: the loops of rtConnection_Read (five turns with one
    msginfo) and of rtConnection_ReaderThread.  Simplification: a failed header leaves its topics in
    msginfo for the next turn in the code; here only its length stays (the topics are those of
    rtMessageHeader_Init). *)
Fixpoint reader (fuel : nat) (closed : bool) (tries : nat) (h : header) (buf stream : list Z) (rs : list recv_ans) : outcome unit (list message * ending) :=
  match fuel with
  | O => UB
  | S fuel =>
    do t <- read_turn closed h buf stream rs ;
    match t with
    | Stuck => Ok ([], Waits)
    | Lost => Ok ([], NoConnection)
    | Again h buf stream rs =>
      if (tries <? 4)%nat then reader fuel closed (S tries) h buf stream rs
      else reader fuel closed 0 header_init buf stream rs
    | Got m buf stream rs => do (l, e) <- reader fuel closed 0 header_init buf stream rs ; Ok (m :: l, e)
    end
  end.
(** rtConnection.c:551-557, 1863-1875: a reader thread with a fresh buffer of [cap] bytes
    (RTMSG_SEND_BUFFER_SIZE, 65: 65536) *)
Definition read_all (cap : nat) (closed : bool) (stream : list Z) (rs : list recv_ans) : outcome unit (list message * ending) :=
  reader (S (length rs)) closed 0 header_init (repeat 0 cap) stream rs.

(** ** sending *)
(** what sendmsg returns: the number of bytes it has taken; ENOTCONN or EPIPE; another error *)
Inductive send_ans := Sent (n : nat) | SBroken | SFailing.
(** strncpy(array, s, 255) into a zeroed array of 256 bytes: rtConnection.c:1163-1172 *)
Definition topic_array (s : list Z) : list Z := let t := firstn 255 s in t ++ repeat 0 (256 - length t).
(** rtConnection.c:1156-1180: the header *)
Definition make_header (topic reply : list Z) (flags sequence n : Z) : header :=
  mkHeader RTMSG_HEADER_VERSION 0 sequence flags 0 n (Z.of_nat (length (firstn 255 topic))) (topic_array topic)
    (Z.of_nat (length reply)) (topic_array reply).
(** result codes, rtError.h *)
Inductive sent := SOk | SNoConnection | SFail.
(** rtConnection.c:1208-1230: at most four attempts, each with the whole message; the result and the
    bytes that have got into the stream *)
Fixpoint send_loop (attempts : nat) (bytes : list Z) (ss : list send_ans) : sent * list Z :=
  match ss with
  | [] => (SFail, [])
  | SBroken :: _ => (SNoConnection, [])
  | a :: ss =>
    let now := match a with Sent n => firstn n bytes | _ => [] end in
    if match a with Sent n => (length bytes <=? n)%nat | _ => false end then (SOk, now)
    else match attempts with
         | O => (SFail, now)
         | S k => let (r, b) := send_loop k bytes ss in (r, now ++ b)
         end
  end.
(** rtConnection.c:1112-1232 rtConnection_SendInternal *)
Definition send_internal (topic reply : list Z) (flags sequence : Z) (payload : list Z) (ss : list send_ans) : outcome unit (sent * list Z) :=
  do (h, b) <- header_encode (make_header topic reply flags sequence (Z.of_nat (length payload))) ;
  Ok (send_loop 3 (b ++ payload) ss).

(** a program's calls of rtConnection_SendMessage, SendRequest, SendResponse or SendBinary, one after the
    other (rtConnection.c:767-972): for each its message and what sendmsg will answer *)
Fixpoint send_all (l : list (msg * list send_ans)) : outcome unit (list sent * list Z) :=
  match l with
  | [] => Ok ([], [])
  | (m, ss) :: l =>
    do (r, b) <- send_internal (m_topic m) (m_reply m) (m_flags m) (m_seq m) (m_payload m) ss ;
    do (rs, bs) <- send_all l ; Ok (r :: rs, b ++ bs)
  end.

(** ** passing on *)
(** rtrouted.c:1406-1428: what the broker looks at in a message it has read *)
Definition received (m : message) : outcome unit msg :=
  match cstring (h_topic (fst m)), cstring (h_reply_topic (fst m)) with
  | Some t, Some r => Ok (mkMsg (h_sequence_number (fst m)) (h_flags (fst m)) t r (snd m) (h_control_data (fst m)))
  | _, _ => UB
  end.
(** rtrouted.c:620-642: the new header (rtString_Copy keeps 255 bytes) *)
Definition pass_on (m : msg) : message :=
  (mkHeader RTMSG_HEADER_VERSION 0 (m_seq m) (m_flags m) (m_control m) (Z.of_nat (length (m_payload m)))
     (Z.of_nat (length (m_topic m))) (topic_array (m_topic m)) (Z.of_nat (length (m_reply m))) (topic_array (m_reply m)), m_payload m).
(** is the message for the broker itself (rtrouted.c:1440-1450, rtRouted_OnMessage)? *)
Definition for_broker (d : delivery) : bool := match d with ToBroker _ => true | ToClient _ _ => false end.
(** rtrouted.c:1620-1627, 1406-1481: the messages of one client one after the other.  Simplification:
    messages for the broker itself, which may change its routes, are outside of this function ([UB]). *)
Fixpoint broker_all (b : broker) (ms : list message) : outcome unit (list delivery) :=
  match ms with
  | [] => Ok []
  | m :: ms => do x <- received m ; do ds <- dispatch b x ; if existsb for_broker ds then UB else do es <- broker_all b ms ; Ok (ds ++ es)
  end.
(** rtrouted.c:696-700: the bytes that are sent to client [c]; simplification: sendmsg takes them all *)
Fixpoint bytes_to (c : Z) (ds : list delivery) : outcome unit (list Z) :=
  match ds with
  | [] => Ok []
  | ToClient x m :: ds =>
    if x =? c then do (h, b) <- header_encode (fst (pass_on m)) ; do r <- bytes_to c ds ; Ok (b ++ snd (pass_on m) ++ r)
    else bytes_to c ds
  | _ :: ds => bytes_to c ds
  end.
