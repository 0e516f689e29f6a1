(** Model of direct connections end to end: the provider's list of them and its threads
    (src/core/rbuscore.c:2437-2847, 1818-1876), its handling of the requests to open and close one
    (src/rbus/rbus.c:2741-2842), the server loop of one connection
    (src/rtmessage/rtrouteBase.c:150-257, 512-664), and the calls of the consumers
    (rbuscore.c:1111-1189, 2948-3099; rbus.c:3079-3161).
    Simplifications: one provider; its addresses are unix sockets (the default) and binding one
    succeeds; a consumer's calls are made by one thread and not interrupted, except that its
    connecting takes time ([Open] and [Attach]); one publisher; how bytes travel on a connection is
    the subject of LinkModel; the cache file of the list is not modelled (reading it has no effect).
    A consumer is known by its inbox name, which is the same for all connections of a process
    (rtConnection.c:585 with rbuscore.c:646, 2965). *)
From Coq Require Import String.
From Verif Require Import Common Bytes HeaderModel MsgModel VecList LinkModel.
Local Open Scope string_scope.
Local Open Scope list_scope.
Local Open Scope Z_scope.
Notation name := (list Z).

(** rbuscore_types.h:27-46 *)
Definition CORE_SUCCESS : Z := 0.
(** rbuscore_types.h:35 *)
Definition CORE_MALFORMED : Z := 8.
(** rbuscore_types.h:36 *)
Definition CORE_UNSUPPORTED : Z := 9.
(** rbuscore_types.h:74 *)
Definition METHOD_RESPONSE : name := bs "METHOD_RESPONSE".

(** ** calls *)
(** what a request handler leaves: a response, nothing, or nothing now (RBUSCORE_SUCCESS_ASYNC);
    _callback_handler, rbus.c:2844-2910 *)
Inductive reply := Answer (r : msg) | Unset | Later.
(** a request handler, given destination, method and request; rbus_callback_t, rbuscore.h *)
Notation handler := (name -> option name -> msg -> reply).
(** a call of a handler: its number and what it is given; no code of its own *)
Record call := mkCall { c_handler : Z; c_topic : name; c_method : option name; c_request : msg }.
(** rbuscore.c:1138: the bytes of a request; [tp] and [ts] are the caller's trace context *)
Definition request_bytes (method tp ts : name) (out : msg) : list Z := m_data (set_meta_info out (Some method) (Some tp) (Some ts)).
(** rbuscore.c:2342, 2758: the bytes of a response *)
Definition response_bytes (r : msg) : list Z := m_data (set_meta_info r (Some METHOD_RESPONSE) None None).
(** rbuscore.c:2338-2339, 2755: the response for a request nobody answers *)
Definition unsupported : msg := set_int32 msg_init CORE_UNSUPPORTED.
(** rbuscore.c:1157-1180: what the caller makes of a response: the message, or an error *)
Definition read_response (bytes : list Z) : outcome unit (msg + Z) :=
  match get_string (begin_meta_read (msg_from_bytes bytes)) with
  | UB => UB
  | Err _ => Ok (inr CORE_MALFORMED)
  | Ok (method, m) => if strneq 64 METHOD_RESPONSE method then Ok (inl (end_meta_read m)) else Ok (inr CORE_MALFORMED)
  end.
(** rbuscore.c:478-510 dispatch_method_call with 2328-2354 rbus_sendResponse, for a request that came
    from the broker to the component with handler number [k]; [None]: nothing is sent now.
    Objects have no methods of their own (rbus_registerMethodTable is not used by rbus.c) *)
Definition serve_broker (hs : Z -> handler) (k : Z) (topic : name) (bytes : list Z) : outcome unit (option (list Z) * list call) :=
  match get_meta_info (msg_from_bytes bytes) with
  | UB | Err _ => UB
  | Ok (method, _, _, m) =>
    let c := [mkCall k topic method m] in
    match hs k topic method m with
    | Answer r => Ok (Some (response_bytes r), c)
    | Unset => Ok (Some (response_bytes unsupported), c)
    | Later => Ok (None, c)
    end
  end.

(** ** the provider's list *)
(** rtrouteBase.h:57-62 rtPrivateClientInfo; descriptor 0 is that of zeroed memory *)
Record info := mkInfo { i_fd : nat; i_id : Z; i_topic : name }.
(** rbuscore.c:2807 *)
Definition no_info : info := mkInfo 0 0 [].
(** rbuscore.c:2432-2443 rbusServerDMLList_t; handler and user data are one number *)
Record entry := mkEntry { n_addr : name; n_consumer : name; n_dml : name; n_handler : Z; n_info : info }.
(** a thread of the provider that serves one address: it waits for its client, serves it, or has
    ended; rbuscore.c:2704-2725, rtrouteBase.c:566-664 *)
Inductive phase := Waiting | Serving (fd : nat) | Ended.
(** rbuscore.c:2704-2725, continued *)
Record thread := mkThread { t_addr : name; t_phase : phase }.
(** a consumer: the parameters it has a direct connection for and the connection; rbuscore.c:2452-2458 *)
Record peer := mkPeer { p_open : list name; p_conn : option nat }.
(** [heap]: the list items, [None] once freed; [vec]: gListOfServerDirectDMLs; [alive]: whether the
    consumer's end of a connection is open; [conns]: the number of connections made; [found]: the item
    a publisher has found and is about to use; rbuscore.c:2434-2458, 2637-2676 *)
Record state := mkState {
  heap : list (option entry); vec : list nat; threads : list thread; peers : name -> peer;
  alive : nat -> bool; conns : nat; found : option nat }.
(** rbuscore.c:633-640 *)
Definition init : state := mkState [] [] [] (fun _ => mkPeer [] None) (fun _ => false) 0 None.
(** use of an item; freed memory is undefined behaviour, C11 6.2.4 *)
Definition deref (h : list (option entry)) (p : nat) : outcome unit entry := match nth_error h p with Some (Some e) => Ok e | _ => UB end.
(** assignment through a pointer, and free; libc *)
Definition store (h : list (option entry)) (p : nat) (e : option entry) : list (option entry) := upd h p e.
(** rtVector.c:184-201 rtVector_Find, rbuscore.c:2649-2659 *)
Fixpoint first_item (h : list (option entry)) (q : entry -> bool) (v : list nat) : outcome unit (option nat) :=
  match v with
  | [] => Ok None
  | p :: v => do e <- deref h p ; if q e then Ok (Some p) else first_item h q v
  end.
(** rtVector.c:100-124 rtVector_RemoveItem with free *)
Fixpoint drop_item (p : nat) (v : list nat) : list nat :=
  match v with [] => [] | x :: v => if Nat.eqb x p then v else x :: drop_item p v end.
(** rbuscore.c:2461-2464 _findPrivateServer *)
Definition at_addr (a : name) (e : entry) : bool := strneq 256 (n_addr e) a.
(** rbuscore.c:2466-2469 _findPrivateServerDML *)
Definition for_dml (d : name) (e : entry) : bool := strneq 256 (n_dml e) d.
(** rbuscore.c:2653-2654 *)
Definition for_both (d c : name) (e : entry) : bool := strneq 256 (n_dml e) d && strneq 256 (n_consumer e) c.
(** rbuscore.c:2713-2719: the loop that removes the items of an address *)
Fixpoint drop_addr (h : list (option entry)) (a : name) (v : list nat) : outcome unit (list (option entry) * list nat) :=
  match v with
  | [] => Ok (h, [])
  | p :: v =>
    do e <- deref h p ;
    do (h, v) <- drop_addr h a v ;
    if at_addr a e then Ok (store h p None, v) else Ok (h, p :: v)
  end.
(** rbuscore.c:2778-2794: the items of a consumer are told its connection *)
Fixpoint tell_info (h : list (option entry)) (i : info) (v : list nat) : outcome unit (list (option entry)) :=
  match v with
  | [] => Ok h
  | p :: v =>
    do e <- deref h p ;
    tell_info (if strneq 256 (n_consumer e) (i_topic i) then store h p (Some (mkEntry (n_addr e) (n_consumer e) (n_dml e) (n_handler e) i)) else h) i v
  end.

(** the provider: its program name, the elements it has and the component each belongs to, and the
    request handlers of its components; no code of its own *)
Record env := mkEnv { prog : name; has : name -> bool; owner : name -> Z; hs : Z -> handler }.
(** rtString_Copy into an array of 256 bytes; rtString.c:4-18 *)
Definition copied (s : name) : name := firstn 255 s.
(** rbus.c:2768: snprintf into 256 bytes *)
Definition address (E : env) (c : name) : name := firstn 255 (bs "unix:///tmp/.direct_" ++ prog E ++ bs "_" ++ c).
(** helper, no code of its own *)
Definition set_peer (P : name -> peer) (c : name) (x : peer) : name -> peer := fun d => if bytes_eqb d c then x else P d.

(** rbuscore.c:2801-2851 rbuscore_startPrivateListener *)
Definition start_listener (s : state) (a c d : name) (k : Z) : outcome unit state :=
  do o <- first_item (heap s) (at_addr a) (vec s) ;
  do i <- match o with None => Ok no_info | Some p => do e <- deref (heap s) p ; Ok (n_info e) end ;
  let ts := match o with None => threads s ++ [mkThread (copied a) Waiting] | Some _ => threads s end in
  Ok (mkState (heap s ++ [Some (mkEntry (copied a) (copied c) (copied d) k i)]) (vec s ++ [length (heap s)]) ts (peers s) (alive s) (conns s) (found s)).
(** rbuscore.c:2678-2702 rbuscore_updatePrivateListener; its code is not looked at (rbus.c:2837) *)
Definition update_listener (s : state) (c d : name) : outcome unit state :=
  do o <- first_item (heap s) (for_both d c) (vec s) ;
  match o with
  | None => Ok s
  | Some p => Ok (mkState (store (heap s) p None) (drop_item p (vec s)) (threads s) (peers s) (alive s) (conns s) (found s))
  end.

(** ** a request over a direct connection *)
(** rbuscore.c:2728-2776 _onDirectMessage; a response that the handler leaves unset is an
    uninitialised pointer *)
Definition serve_direct (E : env) (s : state) (topic : name) (bytes : list Z) : outcome unit (list Z * list call) :=
  match get_meta_info (msg_from_bytes bytes) with
  | UB | Err _ => UB
  | Ok (method, _, _, m) =>
    do o <- first_item (heap s) (for_dml topic) (vec s) ;
    match o with
    | None => Ok (response_bytes unsupported, [])
    | Some p =>
      do e <- deref (heap s) p ;
      match hs E (n_handler e) topic method m with
      | Answer r => Ok (response_bytes r, [mkCall (n_handler e) topic method m])
      | Unset | Later => UB
      end
    end
  end.
(** strncpy(array, a, 255) from another array; rtrouteBase.c:190-193 *)
Definition copy_array (a : list Z) : list Z := topic_array (match cstring a with Some s => s | None => a end).
(** rtrouteBase.c:179-197 _rtdirect_prepare_reply_from_request, 155 *)
Definition reply_header (h : header) (n : Z) : header :=
  mkHeader (h_version h) (h_header_length h) (h_sequence_number h) rtMessageFlags_Response 0 n
    (h_reply_topic_length h) (copy_array (h_reply_topic h)) (h_topic_length h) (copy_array (h_topic h)).
(** rtrouteBase.c:512-562 rtRouteDirect_SendMessage: the header *)
Definition event_header (i : info) (n : Z) (control : Z) : header :=
  let t := firstn 255 (i_topic i) in
  mkHeader RTMSG_HEADER_VERSION 0 1 rtMessageFlags_RawBinary control n (Z.of_nat (length t)) (topic_array t) 0 (repeat 0 256).

(** what a step does that others see: a code; a handler is run; a response or an event goes out on a
    connection, on descriptor 0, on a connection that is closed at the other end, or by the broker *)
Inductive effect := Code (ok : bool) | Ran (c : call) | Replied (fd : nat) (h : header) (bytes : list Z)
  | EventOn (fd : nat) (h : header) (bytes : list Z) | EventLost | ByBroker.
(** the calls and what happens; rbus.c:3079-3161, rbuscore.c:1111-1189, 1818-1876, 2704-2725 *)
Inductive op :=
  | Open (c d : name) | Attach (c : name) (t : nat) | GiveUp (c d : name) | Close (c d : name)
  | Exit (c : name) | EndThread (t : nat)
  | Request (c d method tp ts : name) (sequence : Z) (out : msg)
  | PubFind (d c : name) | PubSend (raw : option Z) (bytes : list Z).
(** helper, no code of its own *)
Definition set_phase (ts : list thread) (t : nat) (x : phase) : list thread :=
  match nth_error ts t with Some y => upd ts t (mkThread (t_addr y) x) | None => ts end.
(** helper, no code of its own *)
Definition hang_up (f : nat -> bool) (o : option nat) : nat -> bool := match o with Some k => fun n => if Nat.eqb n k then false else f n | None => f end.
(** one step; [Err]: it cannot happen in this state; the lines are cited at each case, rbuscore.c,
    rbus.c:2741-2842, 3079-3161, rtrouteBase.c:150-257, 512-664 *)
Definition step (E : env) (s : state) (o : op) : outcome unit (state * list effect) :=
  match o with
  (* rbus.c:3079-3129, rbuscore.c:3012-3040 with rbus.c:2741-2819: up to the connecting *)
  | Open c d =>
    let x := peers s c in
    if existsb (bytes_eqb d) (p_open x) then Ok (s, [Code false]) else
    if negb (has E d) then Ok (s, [Code false]) else
    do s <- start_listener s (address E c) c d (owner E d) ;
    Ok (mkState (heap s) (vec s) (threads s) (set_peer (peers s) c (mkPeer (p_open x ++ [d]) (p_conn x))) (alive s) (conns s) (found s), [Code true])
  (* rbuscore.c:2963-2983, rtConnection.c:613; rtrouteBase.c:484-506, 204-229: the connection is made
     and the consumer has told its inbox *)
  | Attach c t =>
    match nth_error (threads s) t, p_conn (peers s c), p_open (peers s c) with
    | Some (mkThread a Waiting), None, _ :: _ =>
      if bytes_eqb a (address E c) then
        let fd := S (conns s) in
        do h <- tell_info (heap s) (mkInfo fd 1 (copied c)) (vec s) ;
        Ok (mkState h (vec s) (set_phase (threads s) t (Serving fd)) (set_peer (peers s) c (mkPeer (p_open (peers s c)) (Some fd)))
              (fun n => if Nat.eqb n fd then true else alive s n) fd (found s), [])
      else Err tt
    | _, _, _ => Err tt
    end
  (* rbuscore.c:2971-2977: connecting has failed; the provider is not told *)
  | GiveUp c d =>
    match p_conn (peers s c), p_open (peers s c) with
    | None, [x] => if bytes_eqb x d then Ok (mkState (heap s) (vec s) (threads s) (set_peer (peers s) c (mkPeer [] None)) (alive s) (conns s) (found s), []) else Err tt
    | _, _ => Err tt
    end
  (* rbus.c:3131-3161, rbuscore.c:3042-3099 with rbus.c:2821-2842: the connection goes with its last parameter *)
  | Close c d =>
    let x := peers s c in
    match p_conn x with
    | None => Err tt
    | Some fd =>
      if negb (existsb (bytes_eqb d) (p_open x)) then Err tt else
      do s <- update_listener s c d ;
      let l := List.filter (fun n => negb (bytes_eqb n d)) (p_open x) in
      let last := match l with [] => true | _ => false end in
      Ok (mkState (heap s) (vec s) (threads s) (set_peer (peers s) c (mkPeer l (if last then None else Some fd)))
            (if last then hang_up (alive s) (Some fd) else alive s) (conns s) (found s), [Code true])
    end
  (* the process of a consumer ends *)
  | Exit c =>
    Ok (mkState (heap s) (vec s) (threads s) (set_peer (peers s) c (mkPeer [] None)) (hang_up (alive s) (p_conn (peers s c))) (conns s) (found s), [])
  (* rtrouteBase.c:639-663, rbuscore.c:2711-2724: the client is gone *)
  | EndThread t =>
    match nth_error (threads s) t with
    | Some (mkThread a (Serving fd)) =>
      if alive s fd then Err tt else
      do (h, v) <- drop_addr (heap s) a (vec s) ;
      Ok (mkState h v (set_phase (threads s) t Ended) (peers s) (alive s) (conns s) (found s), [])
    | _ => Err tt
    end
  (* rbuscore.c:1111-1156 on the consumer's connection; rtrouteBase.c:230-256, 150-176 *)
  | Request c d method tp ts sequence out =>
    match p_conn (peers s c) with
    | None => Err tt
    | Some fd =>
      let bytes := request_bytes method tp ts out in
      do (r, cs) <- serve_direct E s (copied d) bytes ;
      Ok (s, map Ran cs ++ [Replied fd (reply_header (make_header d c (Z.lor rtMessageFlags_Request rtMessageFlags_RawBinary) sequence (Z.of_nat (length bytes))) (Z.of_nat (length r))) r])
    end
  (* rbuscore.c:1850-1851 with 2637-2676, which gives the mutex back: the item is used without it *)
  | PubFind d c =>
    do o <- first_item (heap s) (for_both d c) (vec s) ;
    match o with
    | None => Ok (mkState (heap s) (vec s) (threads s) (peers s) (alive s) (conns s) None, [ByBroker])
    | Some p => Ok (mkState (heap s) (vec s) (threads s) (peers s) (alive s) (conns s) (Some p), [])
    end
  (* rbuscore.c:1852-1859; rtrouteBase.c:512-562; [raw]: the subscription number of a raw event *)
  | PubSend raw bytes =>
    match found s with
    | None => Err tt
    | Some p =>
      do e <- deref (heap s) p ;
      let i := n_info e in
      let h := event_header i (Z.of_nat (length bytes)) (match raw with Some k => k | None => i_id i end) in
      Ok (mkState (heap s) (vec s) (threads s) (peers s) (alive s) (conns s) None,
          [if negb (Nat.eqb (i_fd i) 0) && alive s (i_fd i) && Nat.ltb 0 (length bytes) then EventOn (i_fd i) h bytes else EventLost])
    end
  end.
(** A history: one step after the other; no code of its own. *)
Fixpoint run (E : env) (s : state) (l : list op) : outcome unit (state * list (list effect)) :=
  match l with
  | [] => Ok (s, [])
  | o :: l => do (s, r) <- step E s o ; do (s, rs) <- run E s l ; Ok (s, r :: rs)
  end.
