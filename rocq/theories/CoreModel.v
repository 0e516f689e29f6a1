(** Model of the provider side of src/core/rbuscore.c: server objects, their methods,
    events and listeners.  Vectors are lists (VecList); all calls happen under the
    module's lock (single threaded); log messages are not modelled. *)
From Coq Require Import String.
From Verif Require Import Common VecList.
Local Open Scope Z_scope.

(** helper, no code of its own *)
Definition name := list Z.
(** libc *)
Definition strlen (s : name) : Z := Z.of_nat (length s).

(** rbuscore.h:28-31, rtMessageHeader.h:31, rbuscore.c:43 *)
Definition MAX_OBJECT_NAME_LENGTH : Z := 256.
(** rbuscore.h:28-31, continued *)
Definition MAX_METHOD_NAME_LENGTH : Z := 64.
(** rbuscore.h:28-31, continued *)
Definition MAX_EVENT_NAME_LENGTH : Z := MAX_OBJECT_NAME_LENGTH.
(** rbuscore.h:28-31, continued *)
Definition MAX_SUBSCRIBER_NAME_LENGTH : Z := MAX_OBJECT_NAME_LENGTH.
(** rbuscore.h:28-31, continued *)
Definition MAX_SUPPORTED_METHODS : Z := 32.

(** rbuscore_types.h:25-46 *)
Definition CORE_SUCCESS : Z := 0.
(** rbuscore_types.h:25-46, continued *)
Definition CORE_ERROR_GENERAL : Z := 1.
(** rbuscore_types.h:25-46, continued *)
Definition CORE_ERROR_INVALID_PARAM : Z := 2.
(** rbuscore_types.h:25-46, continued *)
Definition CORE_ERROR_UNSUPPORTED_EVENT : Z := 10.
(** rbuscore_types.h:25-46, continued *)
Definition CORE_ERROR_OUT_OF_RESOURCES : Z := 11.
(** rbuscore_types.h:25-46, continued *)
Definition CORE_ERROR_SUBSCRIBE_NOT_HANDLED : Z := 14.

(** rbuscore_types.h:75-76 *)
Definition METHOD_SUBSCRIBE : name := bs "METHOD_SUBSCRIBE"%string.
(** rbuscore_types.h:75-76, continued *)
Definition METHOD_UNSUBSCRIBE : name := bs "METHOD_UNSUBSCRIBE"%string.

(** rbuscore.c:77-84 struct _server_event; [ev_cb]: sub_callback is not NULL *)
Record event := mkEvent { ev_name : name; ev_cb : bool; ev_listeners : list name }.
(** rbuscore.c:70-75 struct _server_method; [mt_builtin]: its callback is subscription_handler *)
Record method := mkMethod { mt_name : name; mt_builtin : bool }.
(** rbuscore.c:86-96 struct _server_object; [ob_override]: subscribe_handler_override is not NULL *)
Record object := mkObject {
  ob_name : name; ob_methods : list method; ob_events : list event;
  ob_process : bool; ob_override : bool }.
(** g_server_objects; rbuscore.c:324 *)
Definition server := list object.

(** What the provider's code and the bus see. the callbacks and sends of rbuscore.c:141-251, 1686-1746 *)
Inductive action :=
| SubCallback (obj ev listener : name) (added : bool)       (* event->sub_callback(...) *)
| OverrideCallback (obj ev listener : name) (added : bool)  (* subscribe_handler_override(...) *)
| SendEvent (obj ev listener : name)                        (* rbus_sendMessage(out, listener, object) *)
| ObjCallback (obj meth : name)                             (* obj->callback(...) *)
| MethodCallback (obj meth : name).                         (* method->callback(...) other than subscription_handler *)

(** return code, objects and actions; no code of its own *)
Definition result := (Z * server * list action)%type.

(** rbuscore.c:187-190 server_object_compare, 462-465 get_object *)
Definition obj_is (n : name) (o : object) : bool := strneq MAX_OBJECT_NAME_LENGTH (ob_name o) n.
(** rbuscore.c:187-190, continued *)
Definition get_object (s : server) (n : name) : option object := vfind (obj_is n) s.
(** rbuscore.c:115-118 server_method_compare *)
Definition meth_is (n : name) (m : method) : bool := strneq MAX_METHOD_NAME_LENGTH (mt_name m) n.
(** rbuscore.c:120-123 server_event_compare *)
Definition ev_is (n : name) (e : event) : bool := strneq MAX_EVENT_NAME_LENGTH (ev_name e) n.

(** rtVector.c rtVector_Compare_String: strcmp; rtVector.c:213-217 *)
Definition has_listener (e : event) (l : name) : bool := vhas (bytes_eqb l) (ev_listeners e).

(** rbuscore.c:141-162 server_event_addListener (listener not NULL) *)
Definition add_listener (obj : name) (e : event) (l : name) : event * list action :=
  if has_listener e l then (e, [])
  else (mkEvent (ev_name e) (ev_cb e) (ev_listeners e ++ [l]),
        if ev_cb e then [SubCallback obj (ev_name e) l true] else []).
(** rbuscore.c:164-185 server_event_removeListener (listener not NULL) *)
Definition remove_listener (obj : name) (e : event) (l : name) : event * list action :=
  if has_listener e l
  then (mkEvent (ev_name e) (ev_cb e) (vremove (bytes_eqb l) (ev_listeners e)),
        if ev_cb e then [SubCallback obj (ev_name e) l false] else [])
  else (e, []).

(** helper, no code of its own *)
Definition with_events (o : object) (es : list event) : object :=
  mkObject (ob_name o) (ob_methods o) es (ob_process o) (ob_override o).
(** helper, no code of its own *)
Definition with_methods (o : object) (ms : list method) : object :=
  mkObject (ob_name o) ms (ob_events o) (ob_process o) (ob_override o).

(** rbuscore.c:213-251 server_object_subscription_handler on the object named [obj];
    [answer] is what the provider's override handler returns when it is called. *)
Definition subscription_request (s : server) (obj ev l : name) (added : bool) (answer : Z) : result :=
  match get_object s obj with
  | None => (CORE_ERROR_GENERAL, s, []) (* no such object: the request is not delivered to it *)
  | Some o =>
    if (MAX_SUBSCRIBER_NAME_LENGTH <=? strlen l) || (MAX_EVENT_NAME_LENGTH <=? strlen ev)
    then (CORE_ERROR_INVALID_PARAM, s, [])
    else
    let pre := if ob_override o then [OverrideCallback obj ev l added] else [] in
    if ob_override o && negb (answer =? CORE_ERROR_SUBSCRIBE_NOT_HANDLED) then (answer, s, pre)
    else match vfind (ev_is ev) (ob_events o) with
         | Some e =>
           let '(e', acts) := if added then add_listener (ob_name o) e l else remove_listener (ob_name o) e l in
           (CORE_SUCCESS, vupdate (obj_is obj) (fun o => with_events o (vupdate (ev_is ev) (fun _ => e') (ob_events o))) s,
            pre ++ acts)
         | None => (CORE_ERROR_UNSUPPORTED_EVENT, s, pre)
         end
  end.

(** rbuscore.c:780-842 rbus_registerObj; [listen_ok]: rtConnection_AddListener succeeds *)
Definition register_obj (s : server) (n : name) (listen_ok : bool) : result :=
  if (MAX_OBJECT_NAME_LENGTH <=? strlen n) || (strlen n =? 0) then (CORE_ERROR_INVALID_PARAM, s, [])
  else if is_some (get_object s n) then (CORE_ERROR_INVALID_PARAM, s, [])
  else if listen_ok then (CORE_SUCCESS, s ++ [mkObject n [] [] false false], [])
  else (CORE_ERROR_GENERAL, s, []).
(** rbuscore.c:954-986 rbus_unregisterObj; [listen_ok]: rtConnection_RemoveListener succeeds *)
Definition unregister_obj (s : server) (n : name) (listen_ok : bool) : result :=
  if (MAX_OBJECT_NAME_LENGTH <=? strlen n) || (strlen n =? 0) then (CORE_ERROR_INVALID_PARAM, s, [])
  else if negb listen_ok then (CORE_ERROR_GENERAL, s, [])
  else if is_some (get_object s n) then (CORE_SUCCESS, vremove (obj_is n) s, [])
  else (CORE_ERROR_GENERAL, s, []).

(** rbuscore.c:844-886 rbus_registerMethod *)
Definition register_method (s : server) (obj m : name) (builtin : bool) : result :=
  if MAX_METHOD_NAME_LENGTH <=? strlen m then (CORE_ERROR_INVALID_PARAM, s, [])
  else match get_object s obj with
       | None => (CORE_ERROR_INVALID_PARAM, s, [])
       | Some o =>
         if MAX_SUPPORTED_METHODS <=? Z.of_nat (length (ob_methods o)) then (CORE_ERROR_OUT_OF_RESOURCES, s, [])
         else if is_some (vfind (meth_is m) (ob_methods o)) then (CORE_ERROR_INVALID_PARAM, s, [])
         else (CORE_SUCCESS, vupdate (obj_is obj) (fun o => with_methods o (ob_methods o ++ [mkMethod m builtin])) s, [])
       end.
(** rbuscore.c:889-917 rbus_unregisterMethod *)
Definition unregister_method (s : server) (obj m : name) : result :=
  match get_object s obj with
  | None => (CORE_ERROR_INVALID_PARAM, s, [])
  | Some o =>
    if is_some (vfind (meth_is m) (ob_methods o))
    then (CORE_SUCCESS, vupdate (obj_is obj) (fun o => with_methods o (vremove (meth_is m) (ob_methods o))) s, [])
    else (CORE_ERROR_GENERAL, s, [])
  end.

(** rbuscore.c:1333-1361 install_subscription_handlers *)
Definition install_handlers (s : server) (obj : name) : result :=
  match get_object s obj with
  | None => (CORE_ERROR_INVALID_PARAM, s, [])
  | Some o =>
    if is_some (vfind (meth_is METHOD_SUBSCRIBE) (ob_methods o)) then (CORE_SUCCESS, s, [])
    else
    let '(r1, s1, _) := register_method s obj METHOD_SUBSCRIBE true in
    if negb (r1 =? CORE_SUCCESS) then (r1, s1, [])
    else
    let '(r2, s2, _) := register_method s1 obj METHOD_UNSUBSCRIBE true in
    if negb (r2 =? CORE_SUCCESS) then (r2, s2, [])
    else (r2, vupdate (obj_is obj) (fun o => mkObject (ob_name o) (ob_methods o) (ob_events o) true (ob_override o)) s2, [])
  end.

(** rbuscore.c:1363-1414 rbus_registerEvent (event_name not NULL; a NULL name stands for DEFAULT_EVENT) *)
Definition register_event (s : server) (obj ev : name) (cb : bool) : result :=
  if MAX_EVENT_NAME_LENGTH <=? strlen ev then (CORE_ERROR_INVALID_PARAM, s, [])
  else match get_object s obj with
       | None => (CORE_ERROR_INVALID_PARAM, s, [])
       | Some o =>
         let s1 := if is_some (vfind (ev_is ev) (ob_events o)) then s
                   else vupdate (obj_is obj) (fun o => with_events o (ob_events o ++ [mkEvent ev cb []])) s in
         if ob_process o then (CORE_SUCCESS, s1, []) else install_handlers s1 obj
       end.
(** rbuscore.c:1416-1450 rbus_unregisterEvent: the listeners go with the event *)
Definition unregister_event (s : server) (obj ev : name) : result :=
  match get_object s obj with
  | None => (CORE_ERROR_INVALID_PARAM, s, [])
  | Some o =>
    if is_some (vfind (ev_is ev) (ob_events o))
    then (CORE_SUCCESS, vupdate (obj_is obj) (fun o => with_events o (vremove (ev_is ev) (ob_events o))) s, [])
    else (CORE_ERROR_INVALID_PARAM, s, [])
  end.
(** rbuscore.c:1748-1775 rbus_registerSubscribeHandler *)
Definition register_override (s : server) (obj : name) : result :=
  match get_object s obj with
  | None => (CORE_ERROR_INVALID_PARAM, s, [])
  | Some o =>
    let s1 := vupdate (obj_is obj) (fun o => mkObject (ob_name o) (ob_methods o) (ob_events o) (ob_process o) true) s in
    if ob_process o then (CORE_SUCCESS, s1, []) else install_handlers s1 obj
  end.

(** rbuscore.c:1686-1746 rbus_publishEvent: one send per stored listener *)
Definition publish (s : server) (obj ev : name) : result :=
  if MAX_OBJECT_NAME_LENGTH <=? strlen obj then (CORE_ERROR_INVALID_PARAM, s, [])
  else match get_object s obj with
       | None => (CORE_ERROR_INVALID_PARAM, s, [])
       | Some o =>
         match vfind (ev_is ev) (ob_events o) with
         | Some e => (CORE_SUCCESS, s, map (SendEvent obj ev) (ev_listeners e))
         | None => (CORE_ERROR_INVALID_PARAM, s, [])
         end
       end.

(** rbuscore.c:475-510 dispatch_method_call: who handles a call of [m] on the object *)
Inductive target := TSubscription | TMethod | TObject.
(** rbuscore.c:475-510, continued *)
Definition dispatch (o : object) (m : name) : target :=
  match vfind (meth_is m) (ob_methods o) with
  | Some mt => if mt_builtin mt then TSubscription else TMethod
  | None => TObject
  end.

(** The operations a history consists of, one for each function modelled above; no code of its own. *)
Inductive op :=
| RegObj (obj : name) (listen_ok : bool)
| UnregObj (obj : name) (listen_ok : bool)
| RegMethod (obj m : name)
| UnregMethod (obj m : name)
| RegEvent (obj ev : name) (cb : bool)
| UnregEvent (obj ev : name)
| RegOverride (obj : name)
| Request (obj ev listener : name) (added : bool) (answer : Z)
| Publish (obj ev : name).
(** One operation of a history: calls the functions modelled above; no code of its own. *)
Definition step (s : server) (o : op) : result :=
  match o with
  | RegObj n ok => register_obj s n ok
  | UnregObj n ok => unregister_obj s n ok
  | RegMethod obj m => register_method s obj m false
  | UnregMethod obj m => unregister_method s obj m
  | RegEvent obj ev cb => register_event s obj ev cb
  | UnregEvent obj ev => unregister_event s obj ev
  | RegOverride obj => register_override s obj
  | Request obj ev l added ans => subscription_request s obj ev l added ans
  | Publish obj ev => publish s obj ev
  end.
