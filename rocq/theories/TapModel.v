(** Model of the message listeners of a handle: src/rbus/rbus_message.c.  The listeners of a
    connection are those of ListenModel; a context is freed memory after free.
    Simplifications: one handle; arguments are not NULL; allocation succeeds; the reader calls a
    listener in the step in which it finds it (ListenModel separates the two); which names have a
    private connection is decided by the environment (see PrivModel). *)
From Coq Require Import String.
From Verif Require Import Common Bytes TextModel Errors ListenModel.
Local Open Scope string_scope.
Local Open Scope list_scope.
Local Open Scope Z_scope.
Notation name := (list Z).

(** rbus_message.c:49-57 rbusMessageHandlerContext_t; the handler and its data are one number, a
    connection is a number, 0 is that of the handle *)
Record context := mkContext { c_expr : name; c_handler : Z; c_conn : nat; c_id : Z }.
(** [heap]: the contexts, in the order of their creation, [None] once freed; [callbacks]:
    handle->messageCallbacks; [table c]: the listeners of connection [c], rtConnection.c:87-94;
    [private]: the private connection of a name, rbuscore.c:2892-2909 *)
Record state := mkState { heap : list (option context); callbacks : list nat; table : nat -> list (option listener); private : list (name * nat) }.
(** rtConnection.c:538-544, rbus_handle.h:68-86 *)
Definition init : state := mkState [] [] (fun _ => repeat None RTMSG_LISTENERS_MAX) [].
(** the listeners of one connection *)
Definition set_table (t : nat -> list (option listener)) (c : nat) (l : list (option listener)) : nat -> list (option listener) :=
  fun k => if Nat.eqb k c then l else t k.
(** rbuscore.c:2892-2909 rbuscore_FindClientPrivateConnection *)
Definition connection_of (s : state) (e : name) : option nat := option_map snd (find (fun p => bytes_eqb (fst p) e) (private s)).
(** rbuscore.c:3079: the first item of the name *)
Fixpoint drop_name (e : name) (l : list (name * nat)) : list (name * nat) :=
  match l with [] => [] | p :: l => if bytes_eqb (fst p) e then l else p :: drop_name e l end.
(** use of a context: freed memory is undefined behaviour; C11 6.2.4 *)
Definition deref (h : list (option context)) (p : nat) : outcome unit context := match nth_error h p with Some (Some c) => Ok c | _ => UB end.
(** libc free *)
Definition release (h : list (option context)) (p : nat) : outcome unit (list (option context)) :=
  do _ <- deref h p ; Ok (firstn p h ++ None :: skipn (S p) h).
(** rbus_message.c:147, 209: the topic of a private listener, snprintf into 256 bytes *)
Definition raw_topic (e : name) (id : Z) : name := firstn 255 (print_dec (to_signed 32 id) ++ bs "." ++ e).

(** rtVector.c:127-155 with rbus_message.c:113-118, 103-111: the first context with the expression
    is taken out and freed *)
Fixpoint drop_context (h : list (option context)) (l : list nat) (e : name) : outcome unit (list (option context) * list nat) :=
  match l with
  | [] => Ok (h, [])
  | p :: l =>
    do c <- deref h p ;
    if bytes_eqb (c_expr c) e then do h <- release h p ; Ok (h, l)
    else do (h, l) <- drop_context h l e ; Ok (h, p :: l)
  end.
(** rtConnection.c:1241-1280 rtConnection_AddListenerWithId, 1321-1357 rtConnection_RemoveListenerWithId *)
Definition listen (t : nat -> list (option listener)) (c : nat) (e : name) (id : Z) (p : nat) : (nat -> list (option listener)) * bool :=
  match put (mkListener id e (Z.of_nat p)) (t c) with Some l => (set_table t c l, true) | None => (t, false) end.
(** rtConnection.c:1321-1357 *)
Definition unlisten (t : nat -> list (option listener)) (c : nat) (id : Z) : (nat -> list (option listener)) * bool :=
  match take (fun x => id =? l_id x) (t c) with Some (_, l) => (set_table t c l, true) | None => (t, false) end.
(** rbus_message.c:136-156, 172-189: a new context and its listener; the topic differs *)
Definition add (s : state) (c : nat) (e topic : name) (id h : Z) : state * Z :=
  let p := length (heap s) in
  let (t, ok) := listen (table s) c topic id p in
  (mkState (heap s ++ [Some (mkContext e h c id)]) (callbacks s ++ [p]) t (private s), if ok then E_SUCCESS else E_BUS_ERROR).
(** rbus_message.c:209-221, 231-242: the context found by its expression, the listener by its id *)
Definition remove (s : state) (c : nat) (topic : name) (id : Z) : outcome unit (state * Z) :=
  do (h, l) <- drop_context (heap s) (callbacks s) topic ;
  let (t, ok) := unlisten (table s) c id in
  Ok (mkState h l t (private s), if ok then E_SUCCESS else E_BUS_ERROR).
(** rbus_message.c:253-266: every context is freed; the vector keeps its items *)
Fixpoint remove_all (h : list (option context)) (t : nat -> list (option listener)) (l : list nat) : outcome unit (list (option context) * (nat -> list (option listener))) :=
  match l with
  | [] => Ok (h, t)
  | p :: l => do c <- deref h p ; let (t, _) := unlisten t 0 (c_id c) in do h <- release h p ; remove_all h t l
  end.
(** rbus_message.c:280-294 *)
Fixpoint has (h : list (option context)) (l : list nat) (e : name) : outcome unit bool :=
  match l with [] => Ok false | p :: l => do c <- deref h p ; if bytes_eqb (c_expr c) e then Ok true else has h l e end.

(** what a step does that others see: a code, an answer, a receipt sent on a connection, a handler called *)
Inductive effect := Code (rc : Z) | Answer (b : bool) | Receipt (c : nat) | Called (h : Z).
(** the calls and the messages; cited at [step] *)
Inductive op :=
  | AddListener (e : name) (id h : Z) | RemoveListener (e : name) (id : Z)
  | AddPrivate (e : name) (id h : Z) | RemovePrivate (e : name) (id : Z)
  | RemoveAll | HasListener (e : name)
  | Message (c : nat) (id : Z) (request : bool)
  | Open (e : name) (c : nat) | Close (e : name) | Drop (c : nat).
(** one step; each case cites its lines *)
Definition step (s : state) (o : op) : outcome unit (state * list effect) :=
  match o with
  (* rbus_message.c:161-190 *)
  | AddListener e id h => let (s, rc) := add s 0 e e id h in Ok (s, [Code rc])
  (* rbus_message.c:223-243 *)
  | RemoveListener e id => do (s, rc) <- remove s 0 e id ; Ok (s, [Code rc])
  (* rbus_message.c:120-159 *)
  | AddPrivate e id h =>
    match connection_of s e with
    | Some c => let (s, rc) := add s c e (raw_topic e id) id h in Ok (s, [Code rc])
    | None => Ok (s, [Code E_DIRECT_CON_NOT_EXIST])
    end
  (* rbus_message.c:192-221 *)
  | RemovePrivate e id =>
    match connection_of s e with
    | Some c => do (s, rc) <- remove s c (raw_topic e id) id ; Ok (s, [Code rc])
    | None => Ok (s, [Code E_DIRECT_CON_NOT_EXIST])
    end
  (* rbus_message.c:245-268 *)
  | RemoveAll => do (h, t) <- remove_all (heap s) (table s) (callbacks s) ; Ok (mkState h (callbacks s) t (private s), [Code E_SUCCESS])
  (* rbus_message.c:270-297 *)
  | HasListener e => do b <- has (heap s) (callbacks s) e ; Ok (s, [Answer b])
  (* rtConnection.c:1792-1841, rbus_message.c:75-101 *)
  | Message c id request =>
    match first (fun x => l_id x =? id) (table s c) with
    | None => Ok (s, [])
    | Some x => do k <- deref (heap s) (Z.to_nat (l_closure x)) ; Ok (s, (if request then [Receipt (c_conn k)] else []) ++ [Called (c_handler k)])
    end
  (* rbuscore.c:2948-3009: a private connection for a name, perhaps one that is there already *)
  | Open e c => Ok (mkState (heap s) (callbacks s) (table s) (private s ++ [(e, S c)]), [])
  (* rbuscore.c:3042-3099: the connection goes with its last name *)
  | Close e =>
    match connection_of s e with
    | Some c => let l := drop_name e (private s) in
      Ok (mkState (heap s) (callbacks s) (if existsb (fun p => Nat.eqb (snd p) c) l then table s else set_table (table s) c (repeat None RTMSG_LISTENERS_MAX)) l, [])
    | None => Ok (s, [])
    end
  (* rbuscore.c:3101-3120: all names of a provider *)
  | Drop c => Ok (mkState (heap s) (callbacks s) (set_table (table s) (S c) (repeat None RTMSG_LISTENERS_MAX)) (filter (fun p => negb (Nat.eqb (snd p) (S c))) (private s)), [])
  end.
(** A history: one step after the other; no code of its own. *)
Fixpoint run (s : state) (l : list op) : outcome unit (state * list (list effect)) :=
  match l with
  | [] => Ok (s, [])
  | o :: l => do (s, r) <- step s o ; do (s, rs) <- run s l ; Ok (s, r :: rs)
  end.
