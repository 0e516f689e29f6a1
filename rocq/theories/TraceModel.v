(** Model of the trace context that travels with requests: src/core/rbuscore.c 48-63, 424-460, 475-511,
    1130-1138, 2354-2436 and src/rbus/rbus.c 1356-1424, 6142-6205, 6461-6520.
    Simplifications: a program is a tree of requests, each answered before the next action of its
    caller, so that no two threads run at once (a context belongs to one thread); memory does not run out. *)
From Verif Require Import Common Bytes MsgModel.
Local Open Scope list_scope.
Local Open Scope Z_scope.

(** rbuscore.c 48-52: two arrays of 512 bytes; rbuscore.h:33 *)
Record context := mkContext { c_parent : list Z; c_state : list Z }.
(** the context of each thread; rbuscore.c 2354-2372 *)
Definition store := nat -> option context.
(** rbuscore.c 2362-2367: two arrays of zeros *)
Definition fresh : context := mkContext (repeat 0 512) (repeat 0 512).
(** rbuscore.c 2354-2372 rbus_getOpenTelemetryContextFromThreadLocal *)
Definition local (st : store) (t : nat) : context := match st t with Some c => c | None => fresh end.
(** pthread_setspecific; rbuscore.c 2368 *)
Definition put (st : store) (t : nat) (c : context) : store := fun q => if Nat.eqb q t then Some c else st q.
(** the string that starts an array; libc *)
Fixpoint string_of (b : list Z) : outcome unit (list Z) :=
  match b with [] => UB | c :: b => if c =? 0 then Ok [] else do s <- string_of b ; Ok (c :: s) end.
(** element 0 := 0; rbuscore.c 2412, 2415, 2385 *)
Definition cut (b : list Z) : list Z := match b with [] => [] | _ :: b => 0 :: b end.
(** rbuscore.c 2403-2415, 2418-2430: zeros, the text, and a zero at the element after the next *)
Definition set_one (b : list Z) (s : option (list Z)) : outcome unit (list Z) :=
  match s with
  | Some s =>
    let n := length s in
    if (Nat.ltb 0 n && Nat.ltb n 511)%bool then
      let z := repeat 0 (length b) in
      if Nat.ltb (S n) (length b) then Ok (upd (s ++ skipn n z) (S n) 0) else UB
    else Ok (cut b)
  | None => Ok (cut b)
  end.
(** rbuscore.c 2399-2436 rbus_setOpenTelemetryContext *)
Definition set_context (st : store) (t : nat) (p s : option (list Z)) : outcome unit store :=
  let c := local st t in
  do p <- set_one (c_parent c) p ; do s <- set_one (c_state c) s ; Ok (put st t (mkContext p s)).
(** rbuscore.c 2382-2387 rbus_clearOpenTelemetryContext *)
Definition clear_context (st : store) (t : nat) : store := let c := local st t in put st t (mkContext (cut (c_parent c)) (cut (c_state c))).
(** rbus.c 6499-6507, 6510-6518: into an array of [n] bytes; the smaller of two ints becomes a size *)
Definition get_one (b : list Z) (n : option Z) : outcome unit (option (list Z)) :=
  match n with
  | None => Ok None
  | Some n => do s <- string_of b ; if n - 1 <? 0 then UB else Ok (Some (firstn (Z.to_nat (Z.min (Z.of_nat (length s)) (n - 1))) s))
  end.

(** what a thread does: the calls of the API, requests and events with what their handlers do;
    rbus.c 6142-6205, 6459-6520, rbuscore.c 1111-1170 *)
Inductive prog :=
| Done
| Set_ (p s : option (list Z)) (k : prog)                       (* rbusHandle_SetTraceContextFromString *)
| Clear (k : prog)                                              (* rbusHandle_ClearTraceContext *)
| Get (n m : option Z) (k : prog)                               (* rbusHandle_GetTraceContextAsString *)
| Call (q : nat) (method payload : list Z) (h : prog) (later : bool) (k : prog)  (* a request to thread [q]; [later]: its handler answers later *)
| Start (q : nat) (method payload : list Z) (h : prog) (k : prog)                (* rbusMethod_InvokeAsync *)
| Event (q : nat) (h : prog) (k : prog).                        (* an event whose handler runs on thread [q] *)
(** what a thread reads with rbusHandle_GetTraceContextAsString; rbus.c 6483-6520 *)
Record note := mkNote { by_ : nat; saw_parent : option (list Z); saw_state : option (list Z) }.

(** the bytes of a request; rbuscore.c 1130-1138 *)
Definition request (c : context) (method payload : list Z) : outcome unit (list Z) :=
  do p <- string_of (c_parent c) ; do s <- string_of (c_state c) ;
  Ok (m_data (set_meta_info (msg_from_bytes payload) (Some method) (Some p) (Some s))).
(** rbuscore.c 483-511 dispatch_method_call on thread [q]; [run]: the handler *)
Definition dispatch (st : store) (q : nat) (bytes : list Z) (later : bool) (run : store -> outcome unit (store * list note)) : outcome unit (store * list note) :=
  do (r, _) <- get_meta_info (msg_from_bytes bytes) ;
  let '(_, p, s) := r in
  do st <- set_context st q p s ;
  do (st, l) <- run st ;
  Ok (if later then st else clear_context st q, l).
(** A program on thread [t]; rbus.c 6142-6205, 6459-6520, rbuscore.c 475-511, 1111-1170: the lines are at each case. *)
Fixpoint exec (st : store) (t : nat) (a : prog) : outcome unit (store * list note) :=
  match a with
  | Done => Ok (st, [])
  (* rbus.c 6470-6481 *)
  | Set_ p s k => do st <- set_context st t p s ; exec st t k
  (* rbus.c 6459-6468 *)
  | Clear k => exec (clear_context st t) t k
  (* rbus.c 6483-6520 *)
  | Get n m k =>
    let c := local st t in
    do p <- get_one (c_parent c) n ; do s <- get_one (c_state c) m ;
    do (st, l) <- exec (put st t c) t k ; Ok (st, mkNote t p s :: l)
  (* rbuscore.c 1111-1170, 475-511 *)
  | Call q method payload h later k =>
    do b <- request (local st t) method payload ;
    do (st, l) <- dispatch (put st t (local st t)) q b later (fun st => exec st q h) ;
    do (st, l2) <- exec st t k ; Ok (st, l ++ l2)
  (* rbus.c 6142-6205: the request is sent by a new thread *)
  | Start q method payload h k =>
    do b <- request fresh method payload ;
    do (st, l) <- dispatch st q b false (fun st => exec st q h) ;
    do (st, l2) <- exec st t k ; Ok (st, l ++ l2)
  (* rbus.c 1394-1424, rbuscore.c 1706-1776: nothing is set or cleared *)
  | Event q h k => do (st, l) <- exec st q h ; do (st, l2) <- exec st t k ; Ok (st, l ++ l2)
  end.
(** no thread has a context; rbuscore.c 54-56 *)
Definition init : store := fun _ => None.
