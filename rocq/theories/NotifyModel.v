(** Model of events from a provider to its subscribers, through the messages between them:
    subscribing with and without an initial value, unsubscribing, publishing and the delivery to
    the handlers.  src/rbus/rbus.c:888-951, 1426-1494, 2565-2735, 4925-5219, 5913-6034,
    src/core/rbuscore.c:702-770, 1452-1529, 1832-1878.  The provider's registry is that of
    SubsModel, the subscriptions of each component that of ConsumeModel.
    Simplifications: one provider, which stays reachable; its elements do not change; a component
    is known by its number within its process, a process by its inbox; requests are served and
    events delivered one at a time, in the order they are made; no raw data, no private
    connections; what a program receives of a request or an answer is the content the other one
    wrote (see LinkModel for the transport), events are received with their metadata; sending an
    event either works or the event is lost; initial values of tables and of names with wildcards
    are left out. *)
From Coq Require Import String.
From Verif Require Import Common Bytes Errors Value MsgModel WireModel.
From Verif Require SubsModel RetryModel.
From Verif Require Import ConsumeModel.
Local Open Scope string_scope.
Local Open Scope list_scope.
Local Open Scope Z_scope.

Definition VALUE_CHANGED : Z := 2.        (* include/rbus.h:212-222 *)
Definition INITIAL_VALUE : Z := 4.        (* include/rbus.h:212-222 *)
Definition DURATION_COMPLETE : Z := 6.    (* include/rbus.h:212-222 *)

(** ** requests *)
(** rbus.c:4925-4946 rbusEvent_CreateSubscribePayload *)
Definition payload (k : req) (comp : Z) : outcome unit msg :=
  let m := set_int32 (set_int32 (set_int32 msg_init comp) (to_signed 32 (q_interval k))) (to_signed 32 (q_duration k)) in
  match q_filter k with FNull => Ok (set_int32 m 0) | f => append_filter f (set_int32 m 1) end.
(** rbuscore.c:702-731 send_subscription_request: the request *)
Definition request_of (k : req) (who : list Z) (comp : Z) (initial : bool) : outcome unit msg :=
  do p <- payload k comp ;
  Ok (set_int32 (set_int32 (set_message (set_int32 (set_string (set_string msg_init (Some (q_event k))) (Some who)) 1) p) (if initial then 1 else 0)) 0).
(** rbus.c:2585-2632: what the provider reads; only requests with a payload occur *)
Definition read_request (m : msg) : outcome unit (SubsModel.key * bool) :=
  do (event, m) <- need (get_string m) ;
  do (who, m) <- need (get_string m) ;
  do (_, m) <- need (get_int32 m) ;
  do (p, m) <- need (get_message m) ;
  do (comp, p) <- need (get_int32 p) ;
  do (interval, p) <- need (get_int32 p) ;
  do (duration, p) <- need (get_int32 p) ;
  do (has_filter, p) <- need (get_int32 p) ;
  do (f, _) <- (if has_filter =? 0 then Ok (FNull, p) else init_filter (read_fuel p) (Ok FNull) p) ;
  do (initial, m) <- need (get_int32 m) ;
  do (raw, _) <- need (get_int32 m) ;
  Ok (SubsModel.mkKey who comp event f interval duration (negb (raw =? 0)), negb (initial =? 0)).

(** ** the provider *)
(** what the handlers of the provider answer, the element a name leads to (ElemModel) and the
    name the provider is known by; no code of its own *)
Record env := mkEnv { handlers : SubsModel.answers; look : list Z -> option nat; me : list Z }.
(** the number of the subscription just added; rbus.c:1156-1157 *)
Definition new_id (p : SubsModel.state) : Z := match rev (SubsModel.subs p) with x :: _ => SubsModel.s_id x | [] => 0 end.
(** rbus.c:2715-2716: the event of an initial value *)
Definition initial_event (name : list Z) (v : value) : event :=
  mkEvent (Some name) INITIAL_VALUE (Obj None 0 (PCons (Some (bs "initialValue")) v PNil) ONull ONull).
(** rbus.c:2634, 2636-2735: the answer; [got]: what the get handler of the element returns, if it has
    one.  After an error of the handler nothing is written in place of the flag *)
Definition response (rc : Z) (initial : bool) (got : option (Z * value)) (k : SubsModel.key) (id : Z) : outcome unit msg :=
  let m := set_int32 msg_init rc in
  do m <- (if initial && (rc =? E_SUCCESS) then
             match got with
             | None => Ok (set_int32 m 0)
             | Some (err, v) =>
                 if err =? E_SUCCESS
                 then append_event (initial_event (SubsModel.k_event k) v) (SubsModel.k_filter k)
                        (to_unsigned 32 (SubsModel.k_interval k)) (to_unsigned 32 (SubsModel.k_duration k)) (SubsModel.k_comp k) (set_int32 m 1)
                 else Ok m
             end
           else Ok m) ;
  Ok (set_int32 m (to_signed 32 (to_unsigned 32 id))).
(** rbus.c:2565-2735 _subscribe_callback_handler *)
Definition subscribe_handler (E : env) (p : SubsModel.state) (added : bool) (got : option (Z * value)) (m : msg) : outcome unit (SubsModel.state * msg) :=
  do (k, initial) <- read_request m ;
  do (p, rc) <- SubsModel.request (handlers E) p added (look E (SubsModel.k_event k)) k ;
  do r <- response rc initial got k (if added && (rc =? E_SUCCESS) then new_id p else 0) ;
  Ok (p, r).

(** ** the consumers *)
(** a process: the components opened in it and what each of them has subscribed to; rbus_handle.c:99-129 *)
Notation process := (list (Z * ConsumeModel.state)).
(** rbus_handle.c:131-149 rbusHandleList_GetByComponentID: the last one if there is none with that number *)
Fixpoint by_id (c : Z) (l : process) : option (Z * ConsumeModel.state) :=
  match l with [] => None | (d, s) :: l => if d =? c then Some (d, s) else match l with [] => Some (d, s) | _ => by_id c l end end.
(** the handle an application uses; no code of its own *)
Definition handle_of (c : Z) (l : process) : option ConsumeModel.state := option_map snd (find (fun x => fst x =? c) l).
(** helper, no code of its own *)
Definition put (c : Z) (s : ConsumeModel.state) (l : process) : process := map (fun x => if fst x =? c then (c, s) else x) l.
(** the call of a handler: process, component, handler and event; rbus.c:1475-1487 *)
Record call := mkCall { c_who : list Z; c_comp : Z; c_handler : Z; c_event : event }.
(** what an event message says; rbus.c:888-917 *)
Notation news := (event * filter * Z * Z * Z)%type.
(** rbus.c:1441-1494, after the message has been read *)
Definition dispatch (who : list Z) (l : process) (name : list Z) (x : news) : outcome unit (process * list call) :=
  let '(ev, f, interval, duration, comp) := x in
  match by_id comp l with
  | None => Ok (l, [])
  | Some (c, s) =>
      do (s, ran) <- deliver s (mkReq name f interval duration) (ev_type ev =? DURATION_COMPLETE) RetryModel.Accepted ;
      Ok (put c s l, map (fun h => mkCall who c h ev) ran)
  end.
(** rbus.c:1426-1439 and 888-917 *)
Definition read_news (m : msg) : outcome unit (news * msg) :=
  do r <- event_from_message m ; let '(ev, f, i, d, c, m) := r in Ok ((ev, f, i, d, c), m).
(** a field that stays 0 when it is not there; rbus.c:5137-5161 *)
Definition int_or_zero (m : msg) : outcome unit (Z * msg) := match get_int32 m with Ok x => Ok x | Err _ => Ok (0, m) | UB => UB end.

(** ** the system *)
(** the provider and the processes of its subscribers; no code of its own *)
Record sys := mkSys { prov : SubsModel.state; procs : list Z -> process }.
(** helper, no code of its own *)
Definition set_proc (P : list Z -> process) (who : list Z) (l : process) : list Z -> process := fun w => if bytes_eqb w who then l else P w.
(** rbus.c:5021-5219 with rbuscore.c:732-755.  Simplification: the number is read before the handler of
    the initial event runs, not after it *)
Definition subscribe_call (E : env) (S : sys) (who : list Z) (comp : Z) (k : req) (h : Z) (initial : bool) (got : option (Z * value)) : outcome unit (sys * (Z * list call)) :=
  match handle_of comp (procs S who) with
  | None => Err tt
  | Some s =>
    do b <- begin_sub s k false ;
    match b with
    | None => Ok (S, (E_SUBSCRIPTION_ALREADY_EXIST, []))
    | Some _ =>
      do q <- request_of k who comp initial ;
      do (p, r) <- subscribe_handler E (prov S) true got (msg_from_bytes (m_data q)) ;
      do (rc, m) <- need (get_int32 (msg_from_bytes (m_data r))) ;
      if rc =? E_SUCCESS then
        do (flag, m) <- (if initial then int_or_zero m else Ok (0, m)) ;
        do (x, m) <- (if flag =? 0 then Ok (None, m) else do (x, m) <- read_news m ; Ok (Some x, m)) ;
        do (id, _) <- int_or_zero m ;
        do (s, c) <- subscribe s k false h RetryModel.Accepted id ;
        do (l, cs) <- match x with None => Ok (put comp s (procs S who), []) | Some x => dispatch who (put comp s (procs S who)) (q_event k) x end ;
        Ok (mkSys p (set_proc (procs S) who l), (c, cs))
      else
        do (s, c) <- subscribe s k false h (RetryModel.Refused rc) 0 ;
        Ok (mkSys p (set_proc (procs S) who (put comp s (procs S who))), (c, []))
    end
  end.
(** rbus.c:4950-5019, 5750-5805; the request is made from what the subscription was asked for with *)
Definition unsubscribe_call (E : env) (S : sys) (who : list Z) (comp : Z) (k : req) : outcome unit (sys * (Z * list call)) :=
  match handle_of comp (procs S who) with
  | None => Err tt
  | Some s =>
    do f <- find_sub (entries s) k false ;
    do (p, a) <- match f with
                 | None => Ok (prov S, RetryModel.Accepted)
                 | Some (_, x, _) =>
                   do q <- request_of (e_req x) who comp false ;
                   do (p, r) <- subscribe_handler E (prov S) false None (msg_from_bytes (m_data q)) ;
                   do (rc, _) <- need (get_int32 (msg_from_bytes (m_data r))) ;
                   Ok (p, if rc =? E_SUCCESS then RetryModel.Accepted else RetryModel.Refused rc)
                 end ;
    do (s, c) <- unsubscribe1 s k a ;
    Ok (mkSys p (set_proc (procs S) who (put comp s (procs S who))), (c, []))
  end.
(** the properties of the data, as SubsModel has them; a missing name is taken for an empty one; no code of its own *)
Fixpoint prop_list (p : property) : list (list Z * value) :=
  match p with PNil => [] | PCons n v p => (match n with Some n => n | None => [] end, v) :: prop_list p end.
(** helper, no code of its own *)
Fixpoint props_of (l : list (list Z * value)) : property := match l with [] => PNil | (n, v) :: l => PCons (Some n) v (props_of l) end.
(** the event as SubsModel has it; include/rbus.h:227-232 *)
Definition plain_event (ev : event) : SubsModel.event :=
  SubsModel.mkEvent (match ev_name ev with Some n => n | None => [] end) (ev_type ev =? VALUE_CHANGED)
    (match ev_data ev with Obj _ _ p _ _ => prop_list p | ONull => [] end).
(** only a change of value is given a property of its own; rbus.c:5981-6006 *)
Definition event_for (ev : event) (x : SubsModel.message) : event :=
  if ev_type ev =? VALUE_CHANGED then
    mkEvent (ev_name ev) (ev_type ev) (match ev_data ev with Obj n t _ k s => Obj n t (props_of (SubsModel.m_data x)) k s | ONull => ONull end)
  else ev.
(** rbus.c:6008-6024, rbuscore.c:1838-1850: the message to one subscriber; [me]: the object it comes from *)
Definition event_message (me : list Z) (ev : event) (k : SubsModel.key) : outcome unit msg :=
  do m <- append_event ev (SubsModel.k_filter k) (to_unsigned 32 (SubsModel.k_interval k)) (to_unsigned 32 (SubsModel.k_duration k)) (SubsModel.k_comp k) msg_init ;
  Ok (end_meta_write (set_int32 (set_string (set_string (begin_meta_write m) (Some (SubsModel.k_event k))) (Some me)) 1)).
(** rbuscore.c:1452-1496 master_event_callback; a name that cannot be read would be used unset *)
Definition on_event (who : list Z) (l : process) (bytes : list Z) : outcome unit (process * list call) :=
  do (name, m) <- need (get_string (begin_meta_read (msg_from_bytes bytes))) ;
  do (_, m) <- need (get_string m) ;
  match get_int32 m with
  | Ok (flag, m) => if flag =? 0 then Ok (l, []) else do (x, _) <- read_news (end_meta_read m) ; dispatch who l name x
  | Err _ => Ok (l, [])
  | UB => UB
  end.
(** rbus.c:5967-6031: the messages in order; those for which [lost] holds do not arrive *)
Fixpoint spread (E : env) (P : list Z -> process) (ev : event) (lost : SubsModel.key -> bool) (ms : list SubsModel.message) : outcome unit ((list Z -> process) * list call) :=
  match ms with
  | [] => Ok (P, [])
  | x :: ms =>
    let k := SubsModel.m_to x in
    do m <- event_message (me E) (event_for ev x) k ;
    if lost k then spread E P ev lost ms else
    do (l, cs) <- on_event (SubsModel.k_listener k) (P (SubsModel.k_listener k)) (m_data m) ;
    do (P, cs') <- spread E (set_proc P (SubsModel.k_listener k) l) ev lost ms ;
    Ok (P, cs ++ cs')
  end.
(** rbus.c:5913-6034 rbusEvent_Publish for the element [n].  rbuscore.c:1865-1876: an error of the send
    is not reported *)
Definition publish_call (E : env) (S : sys) (n : nat) (ev : event) (lost : SubsModel.key -> bool) : outcome unit (sys * (Z * list call)) :=
  do (ms, rc) <- SubsModel.publish (prov S) (fun _ => 0) (Some n) (plain_event ev) ;
  do (P, cs) <- spread E (procs S) ev lost ms ;
  Ok (mkSys (prov S) P, (rc, cs)).

(** The operations a history consists of: those above, and the end of a process, of which the
    provider is told (rbus_subscriptions.c:832-862); no code of its own. *)
Inductive op :=
| Sub (who : list Z) (comp : Z) (k : req) (h : Z) (initial : bool) (got : option (Z * value))
| Unsub (who : list Z) (comp : Z) (k : req)
| Gone (who : list Z)
| Publish (n : nat) (ev : event) (lost : SubsModel.key -> bool).
(** One operation; no code of its own. *)
Definition step (E : env) (S : sys) (o : op) : outcome unit (sys * (Z * list call)) :=
  match o with
  | Sub who comp k h initial got => subscribe_call E S who comp k h initial got
  | Unsub who comp k => unsubscribe_call E S who comp k
  | Gone who =>
      do p <- SubsModel.disconnect (handlers E) (fun e => is_some (look E e)) (prov S) who ;
      Ok (mkSys p (set_proc (procs S) who []), (0, []))
  | Publish n ev lost => publish_call E S n ev lost
  end.
(** the provider's elements; the components of each process, without subscriptions; no code of its own *)
Definition start (shapes : list SubsModel.shape) (comps : list Z -> list Z) : sys :=
  mkSys (SubsModel.init shapes []) (fun who => map (fun c => (c, ConsumeModel.init)) (comps who)).
