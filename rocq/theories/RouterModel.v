(** Model of the broker's clients and messages, src/rtmessage/rtrouted.c, on top of the routing
    tree.  Clients are numbered; a route entry is named by the number of its allocation (memory
    reuse is not modelled, as in RouteModel).  Sending to a socket always succeeds; advisory
    messages (rtrouted.c:782-788, 1233-1253), tracing and encryption are left out. *)
From Coq Require Import String.
From Verif Require Import Common RouteModel.
Local Open Scope string_scope.
Local Open Scope list_scope.
Local Open Scope Z_scope.

Definition RT_ERROR_INVALID_ARG : Z := 3.          (* rtError.h:46 *)
Definition RTMSG_MAX_EXPRESSION_LEN : nat := 128.  (* rtrouteBase.h:27 *)
Definition FLAG_REQUEST : Z := 1.                  (* rtMessageHeader.h:46-54 *)
Definition FLAG_RESPONSE : Z := 2.
(** rtMessageHeader.h:46-54, continued *)
Definition FLAG_UNDELIVERABLE : Z := 4.

(** rtrouteBase.h:60-76 rtSubscription (client and id) and rtRouteEntry; the broker's own entry
    has no subscription *)
Record entry := mkEntry { e_id : Z; e_owner : option (Z * Z); e_expr : list Z }.
(** rtrouteBase.h:60-76, continued *)
Record broker := mkBroker { tree_of : state; entries : list entry; fresh : Z }.

(** rtrouted.c:1776-1796 (default build) *)
Definition builtin : list (list Z) :=
  [bs "_RTROUTED.INBOX.SUBSCRIBE"; bs "_RTROUTED.INBOX.QUERY"; bs "_registered_components"; bs "_enumerate_elements"; bs "_trace_origin_object"; bs "_RTROUTED.INBOX.DIAG"].
(** rtrouted.c:1776-1796, continued *)
Definition start : outcome unit broker :=
  do (s, _) <- run init (map (fun n => Add n 0 false) builtin) ; Ok (mkBroker s [mkEntry 0 None (bs "_RTROUTED.>")] 1).

(** rtrouted.c:147-165 validate_string *)
Fixpoint printable (s : list Z) (limit : nat) : bool :=
  match limit, s with
  | O, _ => false
  | S _, [] => true
  | S k, c :: s => (32 <=? c) && (c <=? 126) && printable s k
  end.
(** rtrouted.c:147-165, continued *)
Definition owned_by (c id : Z) (e : entry) : bool := match e_owner e with Some (x, y) => (x =? c) && (y =? id) | None => false end.
(** rtrouted.c:147-165, continued *)
Definition client_is (c : Z) (e : entry) : bool := match e_owner e with Some (x, _) => x =? c | None => false end.

(** rtrouted.c:740-790 rtRouted_OnMessageSubscribe with add=1: rtRouted_AddAlias (409-421) or
    rtRouted_AddRoute (366-379) *)
Definition subscribe (b : broker) (c : Z) (e : list Z) (id : Z) : outcome unit (broker * Z) :=
  if negb (printable e RTMSG_MAX_EXPRESSION_LEN) then Ok (b, RT_ERROR_INVALID_ARG) else
  match find (owned_by c id) (entries b) with
  | Some r => do (t, rc) <- add (tree_of b) e (e_id r) true ; Ok (mkBroker t (entries b) (fresh b), rc)
  | None =>
    do (t, _) <- add (tree_of b) e (fresh b) false ;
    Ok (mkBroker t (entries b ++ [mkEntry (fresh b) (Some (c, id)) e]) (fresh b + 1), RT_OK)
  end.
(** rtrouted.c:423-432 rtRouted_ClearRoute *)
Definition clear_route (b : broker) (r : entry) : broker :=
  mkBroker (remove_route (tree_of b) (e_id r)) (filter (fun x => negb (e_id x =? e_id r)) (entries b)) (fresh b).
(** rtrouted.c:791-811 *)
Definition unsubscribe (b : broker) (c : Z) (e : list Z) : outcome unit (broker * Z) :=
  if negb (printable e RTMSG_MAX_EXPRESSION_LEN) then Ok (b, RT_ERROR_INVALID_ARG) else
  match find (fun r => bytes_eqb (e_expr r) e && client_is c r) (entries b) with
  | Some r => Ok (clear_route b r, RT_OK)
  | None => do t <- remove_topic (tree_of b) e ; Ok (mkBroker t (entries b) (fresh b), RT_OK)
  end.
(** rtrouted.c:434-448 rtRouted_ClearClientRoutes *)
Definition leave (b : broker) (c : Z) : broker := fold_left clear_route (filter (client_is c) (entries b)) b.

(** the requests of rtrouted.c that change the routes; each is cited at [serve] *)
Inductive req := Sub (c : Z) (e : list Z) (id : Z) | Unsub (c : Z) (e : list Z) | Leave (c : Z).
(** one request: calls the functions modelled above *)
Definition serve (b : broker) (r : req) : outcome unit (broker * Z) :=
  match r with
  | Sub c e id => subscribe b c e id
  | Unsub c e => unsubscribe b c e
  | Leave c => Ok (leave b c, RT_OK)
  end.
(** a history of requests; no code of its own *)
Fixpoint serve_all (b : broker) (l : list req) : outcome unit (broker * list (req * Z)) :=
  match l with
  | [] => Ok (b, [])
  | r :: l => do (b, e) <- serve b r ; do (b, h) <- serve_all b l ; Ok (b, (r, e) :: h)
  end.

(** ** messages; the fields of rtMessageHeader.h:56-76 the broker looks at, and the payload *)
Record msg := mkMsg { m_seq : Z; m_flags : Z; m_topic : list Z; m_reply : list Z; m_payload : list Z; m_control : Z }.
(** a message sent to a client, or handled by the broker itself *)
Inductive delivery := ToClient (c : Z) (m : msg) | ToBroker (m : msg).
(** header.control_data = id *)
Definition with_control (id : Z) (m : msg) : msg := mkMsg (m_seq m) (m_flags m) (m_topic m) (m_reply m) (m_payload m) id.
(** rtrouted.c:610-718 rtRouted_ForwardMessage, or rtRouted_OnMessage for the broker's entry *)
Definition forward (es : list entry) (m : msg) (d : Z) : outcome unit delivery :=
  match find (fun x => e_id x =? d) es with
  | None => UB
  | Some r => match e_owner r with Some (c, id) => Ok (ToClient c (with_control id m)) | None => Ok (ToBroker m) end
  end.
(** rtrouted.c:610-718, continued *)
Fixpoint forward_all (es : list entry) (m : msg) (ds : list Z) : outcome unit (list delivery) :=
  match ds with [] => Ok [] | d :: ds => do x <- forward es m d ; do xs <- forward_all es m ds ; Ok (x :: xs) end.
(** rtrouted.c:1459-1469: the message turned around *)
Definition bounce (m : msg) : msg :=
  mkMsg (m_seq m) (Z.lor (Z.land (m_flags m) (Z.lnot FLAG_REQUEST)) (Z.lor FLAG_RESPONSE FLAG_UNDELIVERABLE)) (m_reply m) (m_reply m) [] (m_control m).
(** rtrouted.c:1406-1481 rtRouter_DispatchMessageFromClient *)
Definition dispatch (b : broker) (m : msg) : outcome unit (list delivery) :=
  do ds <- get (tree_of b) (m_topic m) ;
  match ds with
  | [] =>
    if negb (Z.land (m_flags m) FLAG_REQUEST =? 0) then
      do ds <- get (tree_of b) (m_reply m) ; forward_all (entries b) (bounce m) ds
    else Ok []
  | _ => forward_all (entries b) m ds
  end.
(** rtrouted.c:476-547 rtRouted_SendMessage of the answer to a request (814-825): the entry's
    subscription is read without a check *)
Definition answer_route (es : list entry) (m : msg) (d : Z) : outcome unit delivery :=
  match find (fun x => e_id x =? d) es with
  | None => UB
  | Some r => match e_owner r with Some (c, id) => Ok (ToClient c (with_control id m)) | None => UB end
  end.
(** rtrouted.c:476-547, continued *)
Fixpoint answer_routes (es : list entry) (m : msg) (ds : list Z) : outcome unit (list delivery) :=
  match ds with [] => Ok [] | d :: ds => do x <- answer_route es m d ; do xs <- answer_routes es m ds ; Ok (x :: xs) end.
(** [result] stands for the encoded answer; rtrouted.c:477 rtRouted_SendMessage with the request's reply topic, as in 827, 918, 976, 1049, 1143, 1315 *)
Definition answer (b : broker) (rq : msg) (result : list Z) : outcome unit (list delivery) :=
  if Z.land (m_flags rq) FLAG_REQUEST =? 0 then Ok [] else
  do ds <- get (tree_of b) (m_reply rq) ; answer_routes (entries b) (mkMsg (m_seq rq) FLAG_RESPONSE (m_reply rq) (m_topic rq) result 0) ds.
