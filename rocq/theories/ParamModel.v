(** Model of reading and setting one parameter: the provider's handlers src/rbus/rbus.c:1496-1672
    (_set_callback_handler), 1956-2116 (_get_single_dml_handler, _get_callback_handler) over the
    element tree of ElemModel, and the callers rbus_get (3465-3560), _getExt_response_parser
    (3562-3616), the typed getters (3904-3966), rbus_set (3969-4061) and the typed setters
    (4398-4453), with the messages between them.
    Simplifications: a handler is a function of the caller's name, the parameter's name and the
    value; get handlers that rename the property do so only when asked for that property alone;
    set requests that ask for a rollback (only rbus_setMulti sends them, see TransModel) are
    [Err]; table sync handlers are absent; allocation does not fail; which component a change is
    attributed to is left to WatchModel; what a program receives is the content the other one
    wrote (see LinkModel for the transport). *)
From Coq Require Import String.
From Verif Require Import Common Bytes TextModel Errors ElemModel MsgModel WireModel WalkModel NamesModel Value.
From Verif Require TransModel.
Local Open Scope string_scope.
Local Open Scope list_scope.
Local Open Scope Z_scope.

(** a call of a set handler: its number, the property, the options; include/rbus.h:177-192 *)
Record set_call := mkSet { s_hid : Z; s_name : name; s_value : value; s_session : Z; s_who : name; s_commit : bool }.
(** a call of a get handler; include/rbus.h:167-171 *)
Record get_call := mkGet { g_hid : Z; g_name : name; g_who : name }.
(** the handlers of a program: what a get handler returns and how it leaves the property, what a
    set handler returns, if there is one; include/rbus.h:371-418 *)
Record program := mkProgram {
  on_get : get_call -> Z * option name * value;
  on_table : name -> Z -> name -> option (list (name * value));
  on_set : Z -> option (set_call -> Z) }.
(** the get handlers as the wildcard walk calls them; rbus.c:1829, 1935-1945 *)
Definition for_walk (P : program) (who : name) : handlers value :=
  mkHandlers (fun h nm => let '(rc, _, v) := on_get P (mkGet h nm who) in (rc, v)) (on_table P who).

(** ** the provider *)
(** rbus.c:1956-1996 _get_single_dml_handler: the code, the property afterwards, the calls *)
Definition get_single (P : program) (t : tree) (who nm : name) : Z * (option name * value) * list get_call :=
  match retrieve_instance t nm with
  | Some (_, el) =>
    if getter (inf el) then
      let c := mkGet (hid (inf el)) nm who in
      let '(rc, nm', v) := on_get P c in (rc, (nm', v), [c])
    else (E_INVALID_OPERATION, (Some nm, VNull), [])
  | None => (E_ELEMENT_DOES_NOT_EXIST, (Some nm, VNull), [])
  end.
(** rbus.c:2046-2055, 2090-2093: properties one after the other *)
Fixpoint append_all (l : list (option name * value)) (m : msg) : outcome unit msg :=
  match l with [] => Ok m | (n, v) :: l => do m <- append_value n v m ; append_all l m end.
(** rbus.c:2030-2056, 2084-2095: an answer with properties *)
Definition values_response (rc : Z) (l : list (option name * value)) : outcome unit msg :=
  let m := set_int32 msg_init rc in
  if rc =? E_SUCCESS then append_all l (set_int32 m (Z.of_nat (length l))) else Ok m.
(** rbus.c:2022-2079: the loop over the names; a wildcard name ends it with the answer of the walk
    (whose calls of handlers are not listed); the empty name is read at index -1 *)
Fixpoint get_loop (P : program) (t : tree) (who : name) (n : nat) (m : msg) (ps : list (option name * value)) (cs : list get_call)
  : outcome unit (Z * list (option name * value) * list get_call) :=
  match n with
  | O => Ok (E_SUCCESS, ps, cs)
  | S n =>
    do (nm, m) <- need (get_string m) ;
    match nm with
    | [] => UB
    | _ =>
      if TransModel.wild nm then
        do (rc, l) <- query t (for_walk P who) nm ; Ok (rc, map (fun nv => (Some (fst nv), snd nv)) l, cs)
      else
        let '(rc, p, c) := get_single P t who nm in
        if rc =? E_SUCCESS then get_loop P t who n m (ps ++ [p]) (cs ++ c) else Ok (rc, [], cs ++ c)
    end
  end.
(** rbus.c:1998-2116 _get_callback_handler *)
Definition get_handler (P : program) (t : tree) (req : msg) : outcome unit (msg * list get_call) :=
  do (who, m) <- need (get_string req) ;
  do (n, m) <- need (get_int32 m) ;
  if n >? 0 then
    do (rp, cs) <- get_loop P t who (Z.to_nat n) m [] [] ;
    do r <- values_response (fst rp) (snd rp) ; Ok (r, cs)
  else Ok (set_int32 msg_init E_INVALID_INPUT, []).
(** libc strncasecmp("TRUE", s, 4) == 0 *)
Definition is_true (s : list Z) : bool :=
  bytes_eqb (map (fun c => if (97 <=? c) && (c <=? 122) then c - 32 else c) (firstn 4 s)) (bs "TRUE").
(** rbus.c:1531-1534: the properties of a set request *)
Fixpoint read_props (n : nat) (m : msg) : outcome unit (list (name * value) * msg) :=
  match n with
  | O => Ok ([], m)
  | S n =>
    do (p, m) <- property_from_message m ;
    match p with
    | PCons (Some nm) v PNil => do (l, m) <- read_props n m ; Ok ((nm, v) :: l, m)
    | _ => UB
    end
  end.
(** rbus.c:1546-1633: the loop over the properties: the code, the name of the failed element, the
    calls; the options say commit only for the last one *)
Fixpoint set_loop (P : program) (t : tree) (session : Z) (who : name) (commit : bool) (l : list (name * value)) : Z * option name * list set_call :=
  match l with
  | [] => (E_SUCCESS, None, [])
  | (nm, v) :: l =>
    match retrieve_instance t nm with
    | Some (_, el) =>
      match on_set P (hid (inf el)) with
      | Some f =>
        let c := mkSet (hid (inf el)) nm v session who (commit && match l with [] => true | _ => false end) in
        let rc := f c in
        if rc =? E_SUCCESS then let '(rc, failed, cs) := set_loop P t session who commit l in (rc, failed, c :: cs)
        else (rc, Some nm, [c])
      | None => (E_NOT_WRITABLE, Some nm, [])
      end
    | None => (E_ELEMENT_DOES_NOT_EXIST, Some nm, [])
    end
  end.
(** rbus.c:1653-1661: the answer; nothing is cached without a rollback *)
Definition set_response (rc : Z) (failed : option name) : msg :=
  let m := set_int32 msg_init rc in
  if rc =? E_SUCCESS then set_int32 m 0 else match failed with Some nm => set_string m (Some nm) | None => m end.
(** rbus.c:1496-1672 _set_callback_handler *)
Definition set_handler (P : program) (t : tree) (req : msg) : outcome unit (msg * list set_call) :=
  do (session, m) <- need (get_int32 req) ;
  do (who, m) <- need (get_string m) ;
  do (roll, m) <- need (get_int32 m) ;
  do (n, m) <- need (get_int32 m) ;
  if roll =? 1 then Err tt else
  if n >? 0 then
    do (l, m) <- read_props (Z.to_nat n) m ;
    do (commit, _) <- need (get_string m) ;
    let '(rc, failed, cs) := set_loop P t (to_unsigned 32 session) who (is_true commit) l in
    Ok (set_response rc failed, cs)
  else Ok (set_response E_INVALID_INPUT (Some who), []).

(** ** the callers *)
(** where a request ends up: an error of rbus_invokeRemoteMethod2, or at a provider; no code of its own *)
Inductive service := Broken (err : Z) | Provides (P : program) (t : tree).
(** rbus.c:953-978 _is_valid_get_query, of a name that is not empty *)
Definition valid_query (nm : name) : bool := negb ((last nm 0 =? 33) || (last nm 0 =? 41) || existsb (Z.eqb 40) nm).
(** rbus.c:3490-3495, 3660-3665: the request for one name *)
Definition get_request (me nm : name) : msg := set_string (set_int32 (set_string msg_init (Some me)) 1) (Some nm).
(** rbuscore.c:478-510 *)
Definition ask_get (s : service) (req : msg) : outcome unit (msg + Z) * list get_call :=
  match s with
  | Broken err => (Ok (inr err), [])
  | Provides P t => match get_handler P t (msg_from_bytes (m_data req)) with Ok (r, cs) => (Ok (inl (msg_from_bytes (m_data r))), cs) | Err _ | UB => (UB, []) end
  end.
(** rbus.c:3509-3558: what rbus_get makes of the answer; without a value the caller's pointer is not set *)
Definition get_answer (nm : name) (r : msg + Z) : outcome unit (Z * option value) :=
  match r with
  | inr err => Ok (bus_error err, None)
  | inl m =>
    do (rc, m) <- match get_int32 m with Ok x => Ok x | Err _ => Ok (-1, m) | UB => UB end ;
    if TransModel.good rc then
      do (_, m) <- need (get_int32 m) ;
      do (nm', m) <- need (get_string m) ;
      if bytes_eqb nm nm' then do (v, _) <- value_from_message m ; Ok (E_SUCCESS, Some v) else Ok (E_INVALID_RESPONSE_FROM_DESTINATION, None)
    else Ok (TransModel.code_of rc, None)
  end.
(** rbus.c:3465-3560 rbus_get, with the calls of handlers it causes; the empty name is read at index -1 *)
Definition rbus_get (s : service) (me nm : name) : outcome unit (Z * option value) * list get_call :=
  match nm with
  | [] => (UB, [])
  | _ =>
    if negb (valid_query nm) then (Ok (E_INVALID_INPUT, None), []) else
    if TransModel.wild nm then (Ok (E_ACCESS_NOT_ALLOWED, None), []) else
    let (r, cs) := ask_get s (get_request me nm) in (do r <- r ; get_answer nm r, cs)
  end.
(** rbus.c:3586-3606: the values of an answer *)
Fixpoint read_values (n : nat) (m : msg) : outcome unit (list (name * value)) :=
  match n with
  | O => Ok []
  | S n =>
    do (p, m) <- property_from_message m ;
    match p with PCons (Some nm) v PNil => do l <- read_values n m ; Ok ((nm, v) :: l) | _ => UB end
  end.
(** rbus.c:3562-3616 _getExt_response_parser, 3668-3690 *)
Definition values_answer (r : msg + Z) : outcome unit (Z * list (name * value)) :=
  match r with
  | inr err => Ok (bus_error err, [])
  | inl m =>
    do (rc, m) <- match get_int32 m with Ok x => Ok x | Err _ => Ok (-1, m) | UB => UB end ;
    if TransModel.good rc then
      do (n, m) <- match get_int32 m with Ok x => Ok x | Err _ => Ok (0, m) | UB => UB end ;
      do l <- read_values (Z.to_nat n) m ; Ok (E_SUCCESS, l)
    else Ok (TransModel.code_of rc, [])
  end.
(** rbus.c:3636-3748 rbus_getExt of one wildcard name when one component has such elements *)
Definition get_wild (s : service) (me nm : name) : outcome unit (Z * list (name * value)) * list get_call :=
  let (r, cs) := ask_get s (get_request me nm) in (do r <- r ; values_answer r, cs).
(** rbus.c:3904-3947 rbus_getByType *)
Definition get_typed (type : Z) (s : service) (me nm : name) : outcome unit (Z * option value) * list get_call :=
  let (r, cs) := rbus_get s me nm in
  (do (rc, v) <- r ;
   if rc =? E_SUCCESS then
     match v with
     | Some v => if vtype v =? type then match v with VString None => UB | _ => Ok (E_SUCCESS, Some v) end else Ok (E_BUS_ERROR, None)
     | None => UB
     end
   else Ok (rc, None), cs).

(** the options of a set: session and commit; include/rbus.h:146-161 *)
Record set_opts := mkOpts { o_session : Z; o_commit : bool }.
(** rbus.c:3994-4012: the request *)
Definition set_request (me nm : name) (v : value) (opts : option set_opts) : outcome unit msg :=
  let session := match opts with Some o => to_signed 32 (o_session o) | None => 0 end in
  let m := set_int32 (set_int32 (set_string (set_int32 msg_init session) (Some me)) 0) 1 in
  do m <- append_value (Some nm) v m ;
  Ok (set_string m (Some (if match opts with Some o => o_commit o | None => true end then bs "TRUE" else bs "FALSE"))).
(** rbuscore.c:478-510 *)
Definition ask_set (s : service) (req : msg) : outcome unit (msg + Z) * list set_call :=
  match s with
  | Broken err => (Ok (inr err), [])
  | Provides P t => match set_handler P t (msg_from_bytes (m_data req)) with Ok (r, cs) => (Ok (inl (msg_from_bytes (m_data r))), cs) | Err _ | UB => (UB, []) end
  end.
(** rbus.c:4021-4055: what rbus_set makes of the answer *)
Definition set_answer (r : msg + Z) : outcome unit Z :=
  match r with
  | inr err => Ok (bus_error err)
  | inl m =>
    do (rc, m) <- match get_int32 m with Ok x => Ok x | Err _ => Ok (-1, m) | UB => UB end ;
    Ok (if TransModel.good rc then E_SUCCESS else TransModel.code_of rc)
  end.
(** rbus.c:3969-4061 rbus_set; the empty name is read at index -1 *)
Definition rbus_set (s : service) (me nm : name) (v : value) (opts : option set_opts) : outcome unit Z * list set_call :=
  match nm with
  | [] => (UB, [])
  | _ =>
    match v with VNull => (Ok E_INVALID_INPUT, []) | _ =>
    if TransModel.wild nm then (Ok E_INVALID_INPUT, []) else
    if vtype v =? RBUS_NONE then (Ok E_INVALID_INPUT, []) else
    match set_request me nm v opts with
    | Ok req => let (r, cs) := ask_set s req in (do r <- r ; set_answer r, cs)
    | Err _ | UB => (UB, [])
    end end
  end.
(** rbus.c:4398-4453: rbus_setInt and its like *)
Definition set_typed (v : value) (s : service) (me nm : name) : outcome unit Z * list set_call := rbus_set s me nm v None.
