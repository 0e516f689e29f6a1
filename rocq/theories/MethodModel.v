(** Model of method calls: the provider's handler src/rbus/rbus.c:2457-2564
    (_method_callback_handler) and rbusMethod_SendAsyncResponse (6201-6238), the callers
    rbusMethod_Invoke (6036-6137) and rbusMethod_InvokeAsync (6139-6199), with the messages
    between them.
    Simplifications: the program's handler is a function of the name and the in parameters;
    table sync handlers are absent; allocation does not fail; what a program receives is the
    content the other one wrote (see LinkModel for the transport). *)
From Coq Require Import String.
From Verif Require Import Common TextModel Errors ElemModel MsgModel WireModel NamesModel Value.
From Verif Require TransModel.
Local Open Scope string_scope.
Local Open Scope list_scope.
Local Open Scope Z_scope.

(** rbus_object.c:44-55 rbusObject_Init without a name *)
Definition new_object : object := Obj None 0 PNil ONull ONull.
(** rbus_object.c:262-270 rbusObject_GetProperty, 341-356 rbusObject_GetPropertyValue: strcmp with
    a missing name is undefined *)
Fixpoint prop_value (nm : name) (p : property) : outcome unit (option value) :=
  match p with
  | PNil => Ok None
  | PCons None _ _ => UB
  | PCons (Some n) v next => if bytes_eqb n nm then Ok (Some v) else prop_value nm next
  end.
(** rbus_object.c:336-339 rbusObject_GetValue, of NULL too *)
Definition get_value (o : object) (nm : name) : outcome unit (option value) :=
  match o with ONull => Ok None | Obj _ _ p _ _ => prop_value nm p end.
(** rbus_object.c:363-386 rbusObject_SetPropertyValue, the loop: replaced or appended *)
Fixpoint set_prop (nm : name) (v : value) (p : property) : outcome unit property :=
  match p with
  | PNil => Ok (PCons (Some nm) v PNil)
  | PCons None _ _ => UB
  | PCons (Some n) w next =>
    if bytes_eqb n nm then Ok (PCons (Some n) v next) else do next <- set_prop nm v next ; Ok (PCons (Some n) w next)
  end.
(** rbus_object.c:358-361 rbusObject_SetValue *)
Definition set_value (nm : name) (v : value) (o : object) : outcome unit object :=
  match o with
  | ONull => Ok ONull
  | Obj n t p c x => do p <- set_prop nm v p ; Ok (Obj n t p c x)
  end.
(** rbus.c:6422-6457 rbusError_ToString *)
Definition error_text (e : Z) : name :=
  if e =? E_SUCCESS then bs "ok" else if e =? E_BUS_ERROR then bs "generic error" else if e =? E_INVALID_INPUT then bs "invalid input"
  else if e =? E_NOT_INITIALIZED then bs "not initialized" else if e =? E_OUT_OF_RESOURCES then bs "out of resources"
  else if e =? E_DESTINATION_NOT_FOUND then bs "destination not found" else if e =? E_DESTINATION_NOT_REACHABLE then bs "destination not reachable"
  else if e =? E_DESTINATION_RESPONSE_FAILURE then bs "destination response failure"
  else if e =? E_INVALID_RESPONSE_FROM_DESTINATION then bs "invalid response from destination"
  else if e =? E_INVALID_OPERATION then bs "invalid operation" else if e =? E_INVALID_EVENT then bs "invalid event"
  else if e =? E_INVALID_HANDLE then bs "invalid handle" else if e =? E_SESSION_ALREADY_EXIST then bs "session already exists"
  else if e =? E_COMPONENT_NAME_DUPLICATE then bs "duplicate component name" else if e =? E_ELEMENT_NAME_DUPLICATE then bs "duplicate element name"
  else if e =? E_ELEMENT_NAME_MISSING then bs "name missing" else if e =? E_COMPONENT_DOES_NOT_EXIST then bs "component does not exist"
  else if e =? E_ELEMENT_DOES_NOT_EXIST then bs "element name does not exist" else if e =? E_ACCESS_NOT_ALLOWED then bs "access denied"
  else if e =? E_INVALID_CONTEXT then bs "invalid context" else if e =? E_TIMEOUT then bs "timeout"
  else if e =? E_ASYNC_RESPONSE then bs "async operation in progress" else bs "unknown error".
(** rbus.c:2515-2518, 2529-2532, 2539-2542, 6090-6093, 6227-6230: the two properties about an error *)
Definition tell_error (e : Z) (text : name) (o : object) : outcome unit object :=
  do o <- set_value (bs "error_code") (VInt32 e) o ; set_value (bs "error_string") (VString (Some text)) o.

(** a method handler: what it returns and how it leaves the out parameters; include/rbus.h:460-487 *)
Definition handler := name -> object -> Z * object.
(** a call of a handler: its number, the name and the in parameters it is given; no code of its own *)
Definition call := (Z * name * object)%type.
(** rbus.c:2501-2518: the out parameters after the handler *)
Definition finish (rc : Z) (out : object) : outcome unit object :=
  if rc =? E_SUCCESS then Ok out else
  do v <- get_value out (bs "error_code") ;
  match v with Some _ => Ok out | None => tell_error rc (error_text rc) out end.
(** rbus.c:2555-2560, 6222-6231: a response *)
Definition response (rc : Z) (out : object) : outcome unit msg := append_object false out (set_int32 msg_init rc).
(** rbus.c:2457-2564 _method_callback_handler; [None]: nothing is sent now *)
Definition method_handler (t : tree) (ms : Z -> option handler) (req : msg) : outcome unit (option msg * list call) :=
  do (_, m) <- need (get_int32 req) ;
  do (nm, m) <- need (get_string m) ;
  do (has, m) <- match get_int32 m with Ok x => Ok x | Err _ => Ok (0, m) | UB => UB end ;
  do inp <- (if negb (has =? 0) then do (o, _) <- object_from_message m ; Ok o else Ok new_object) ;
  match retrieve t nm, retrieve_instance t nm with
  | Some el, Some _ =>
    match ms (hid (inf el)) with
    | Some h =>
      let (rc, out) := h nm inp in
      let calls := [(hid (inf el), nm, inp)] in
      if rc =? E_ASYNC_RESPONSE then Ok (None, calls) else
      do out <- finish rc out ; do r <- response rc out ; Ok (Some r, calls)
    | None => do o <- tell_error E_INVALID_OPERATION (bs "RBUS_ERROR_INVALID_OPERATION") new_object ; do r <- response E_INVALID_OPERATION o ; Ok (Some r, [])
    end
  | _, _ => do o <- tell_error E_ELEMENT_DOES_NOT_EXIST (bs "RBUS_ERROR_ELEMENT_DOES_NOT_EXIST") new_object ; do r <- response E_ELEMENT_DOES_NOT_EXIST o ; Ok (Some r, [])
  end.
(** rbus.c:6201-6238 rbusMethod_SendAsyncResponse; [ONull] is NULL *)
Definition async_response (e : Z) (out : object) : outcome unit msg :=
  do out <- match out with ONull => if e =? E_SUCCESS then Ok ONull else tell_error e (error_text e) new_object | _ => Ok out end ;
  response e out.

(** where a request ends up: an error of rbus_invokeRemoteMethod2, or at a provider; [later] is
    what it passes to rbusMethod_SendAsyncResponse within the caller's timeout, if it does; no
    code of its own *)
Inductive service := Broken (err : Z) | Provides (t : tree) (ms : Z -> option handler) (later : option (Z * object)).
(** rbuscore_types.h:33 RBUSCORE_ERROR_REMOTE_TIMED_OUT *)
Definition TIMED_OUT : Z := 7.
(** rbus.c:6056-6069: the request *)
Definition method_request (nm : name) (inp : object) : outcome unit msg :=
  let m := set_string (set_int32 msg_init 0) (Some nm) in
  match inp with ONull => Ok (set_int32 m 0) | _ => append_object false inp (set_int32 m 1) end.
(** rbuscore.c:478-510: the response, now or later, or a timeout *)
Definition remote (s : service) (req : msg) : outcome unit (msg + Z) * list call :=
  match s with
  | Broken err => (Ok (inr err), [])
  | Provides t ms later =>
    match method_handler t ms (msg_from_bytes (m_data req)) with
    | Ok (Some r, calls) => (Ok (inl (msg_from_bytes (m_data r))), calls)
    | Ok (None, calls) =>
      (match later with
       | Some (e, out) => do r <- async_response e out ; Ok (inl (msg_from_bytes (m_data r)))
       | None => Ok (inr TIMED_OUT)
       end, calls)
    | Err _ | UB => (UB, [])
    end
  end.
(** rbus.c:6103-6114: what the caller makes of the response *)
Definition method_answer (m : msg) : outcome unit (Z * object) :=
  do (rc, m) <- match get_int32 m with Ok x => Ok x | Err _ => Ok (E_INVALID_INPUT, m) | UB => UB end ;
  do (o, _) <- object_from_message m ; Ok (TransModel.code_of rc, o).
(** rbus.c:6036-6119 rbusMethod_InvokeInternal, with the calls of handlers it causes *)
Definition invoke (s : service) (nm : name) (inp : object) : outcome unit (Z * object) * list call :=
  match method_request nm inp with
  | Ok req =>
    let (r, calls) := remote s req in
    (do r <- r ;
     match r with
     | inl m => method_answer m
     | inr err => do o <- tell_error (bus_error err) (error_text (bus_error err)) new_object ; Ok (bus_error err, o)
     end, calls)
  | Err _ | UB => (UB, [])
  end.
(** rbus.c:6189: seconds to milliseconds, in int; [dflt] is the timeout of the handle *)
Definition async_timeout (timeout dflt : Z) : outcome unit Z :=
  if 0 <? timeout then if timeout * 1000 <? 2 ^ 31 then Ok (timeout * 1000) else UB else Ok dflt.
(** rbus.c:6147-6199 rbusMethod_InvokeAsync and its thread; [created] says whether
    pthread_create succeeds: the code, and the codes and out parameters the callback is given *)
Definition invoke_async (created : bool) (timeout dflt : Z) (s : service) (nm : name) (inp : object) : outcome unit (Z * list (Z * object)) * list call :=
  match async_timeout timeout dflt with
  | Ok _ =>
    if created then
      let (r, calls) := invoke s nm inp in (do x <- r ; Ok (E_SUCCESS, [x]), calls)
    else (Ok (E_BUS_ERROR, []), [])
  | Err _ | UB => (UB, [])
  end.
