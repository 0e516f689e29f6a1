(** Model of reconnecting to the broker: rtConnection_ConnectAndRegister of
    src/rtmessage/rtConnection.c, which the reader thread and every sending
    thread of a connection call when they find the connection broken.  The
    listeners are those of ListenModel.  A socket is named by the number of
    its creation.  A step is what a thread does under a lock or in one system
    call; the clock only goes forward (CLOCK_MONOTONIC, rtTime.c 29).
    Simplifications: the second, unlocked look at reconnect_in_progress (337)
    is part of the locked step before it; sending one listener again (427-437)
    is one step, though the code does not hold the lock of the listeners; the
    key exchange (444-466) is left out. *)
From Verif Require Import Common ListenModel.
From Coq Require Import List ZArith Bool.
Import ListNotations.
Local Open Scope Z_scope.

(** where a thread is: not in the function; waiting for another one (339-342); in it, as the first
    connection or not, before socket (353), before connect number [n] (378), before slot [n] (425);
    waiting inside the sending of slot [n] for the reconnection it is itself doing (435, 802, 340) *)
Inductive place := Out | Waits | AtSocket (first : bool) | AtConnect (first : bool) (n : Z) | AtSlot (n : nat) | Caught (n : nat).

(** rtConnection.c 95-140: the fields that are used *)
Record conn := mkConn {
  fd : option nat; sockets : nat; reconnect_time : Z; in_progress : bool;
  lists : list (option listener); clock : Z; threads : nat -> place; sent : list (nat * wire_msg); results : list (nat * Z) }.

(** rtConnection.c 598: a connection made by thread 0, its first connect done *)
Definition opened (l : list (option listener)) (sent : list (nat * wire_msg)) (t : Z) : conn :=
  mkConn (Some 0%nat) 1 t false l t (fun _ => Out) sent [].

(** what happens; rtConnection.c 280-468, each cited at [step] *)
Inductive act :=
| Tick
| Enter (k : nat) (stamp : Z)
| SocketOk (k : nat) | SocketFails (k : nat) | FcntlFails (k : nat)
| Connected (k : nat) | Refused (k : nat)
| Resend (k : nat) (alive : bool)
| Wake (k : nat)
| Listens (x : listener) | Unlistens (id : Z) | Alias (name : list Z) (id : Z).

(** rtError.h 53 RT_NO_CONNECTION *)
Definition RT_NO_CONNECTION : Z := 9.
(** rtError.c 172-176: an errno as result; the errno itself is left out *)
Definition RT_ERRNO : Z := 2147483648.

(** a thread's place changed; no code of its own *)
Definition at_place (s : conn) (k : nat) (p : place) : conn :=
  mkConn (fd s) (sockets s) (reconnect_time s) (in_progress s) (lists s) (clock s)
    (fun j => if Nat.eqb j k then p else threads s j) (sent s) (results s).
(** return from the function; rtConnection.c 348, 408, 421, 468 *)
Definition return_ (s : conn) (k : nat) (r : Z) : conn :=
  let s := at_place s k Out in
  mkConn (fd s) (sockets s) (reconnect_time s) (in_progress s) (lists s) (clock s) (threads s) (sent s) (results s ++ [(k, r)]).
(** con->reconnect_in_progress = ...; rtConnection.c 323, 407, 420, 467 *)
Definition progress (s : conn) (b : bool) : conn :=
  mkConn (fd s) (sockets s) (reconnect_time s) b (lists s) (clock s) (threads s) (sent s) (results s).
(** rtTime_Now(&con->reconnect_time); rtConnection.c 310, 324 *)
Definition stamp_now (s : conn) : conn :=
  mkConn (fd s) (sockets s) (clock s) (in_progress s) (lists s) (clock s) (threads s) (sent s) (results s).
(** con->fd = ...; rtConnection.c 356 *)
Definition with_fd (s : conn) (f : option nat) : conn :=
  mkConn f (match f with Some _ => S (sockets s) | None => sockets s end) (reconnect_time s) (in_progress s) (lists s) (clock s) (threads s) (sent s) (results s).
(** a message written to the present socket; rtConnection.c 435, 1276, 1346, 1381 *)
Definition tell (s : conn) (w : wire_msg) : conn :=
  mkConn (fd s) (sockets s) (reconnect_time s) (in_progress s) (lists s) (clock s) (threads s)
    (sent s ++ match fd s with Some f => [(f, w)] | None => [] end) (results s).
(** con->listeners; rtConnection.c 1264-1268, 1335-1341 *)
Definition with_lists (s : conn) (l : list (option listener)) : conn :=
  mkConn (fd s) (sockets s) (reconnect_time s) (in_progress s) l (clock s) (threads s) (sent s) (results s).

(** One step; [Err]: it cannot be taken now.  [retries]: con->max_retries, never 0 (rtConnection.c 563-566). *)
Definition step (retries : Z) (s : conn) (a : act) : outcome unit conn :=
  match a with
  | Tick => Ok (mkConn (fd s) (sockets s) (reconnect_time s) (in_progress s) (lists s) (clock s + 1) (threads s) (sent s) (results s))
  (* rtConnection.c 302-350; the stamp was taken before (781, 841, 885, 979, 1871, 1899) *)
  | Enter k stamp =>
    match threads s k with
    | Out =>
      if clock s <? stamp then Err tt else
      match fd s with
      | None => Ok (stamp_now (at_place s k (AtSocket true)))
      | Some _ =>
        if negb (in_progress s) && (reconnect_time s <? stamp)
        then Ok (stamp_now (progress (at_place s k (AtSocket false)) true))
        else if in_progress s then Ok (at_place s k Waits)
        else Ok (return_ s k RT_OK)
      end
    | _ => Err tt
    end
  (* rtConnection.c 339-342, 348 *)
  | Wake k => match threads s k with Waits => if in_progress s then Err tt else Ok (return_ s k RT_OK) | _ => Err tt end
  (* rtConnection.c 353-372 *)
  | SocketOk k => match threads s k with AtSocket b => Ok (with_fd (at_place s k (AtConnect b 0)) (Some (sockets s))) | _ => Err tt end
  (* rtConnection.c 357-358: the flag stays up *)
  | SocketFails k => match threads s k with AtSocket _ => Ok (with_fd (return_ s k RT_ERRNO) None) | _ => Err tt end
  (* rtConnection.c 361-367: the flag stays up *)
  | FcntlFails k => match threads s k with AtSocket _ => Ok (with_fd (return_ s k RT_ERRNO) (Some (sockets s))) | _ => Err tt end
  (* rtConnection.c 399-403, 411-422 *)
  | Connected k =>
    match threads s k with
    | AtConnect true _ => Ok (progress (return_ s k RT_OK) false)
    | AtConnect false _ => Ok (at_place s k (AtSlot 0))
    | _ => Err tt
    end
  (* rtConnection.c 378-397, 405-409 *)
  | Refused k =>
    match threads s k with
    | AtConnect b n =>
      if (n + 1 <? retries) || (retries <? 0) then Ok (at_place s k (AtConnect b (n + 1)))
      else Ok (progress (return_ s k RT_NO_CONNECTION) false)
    | _ => Err tt
    end
  (* rtConnection.c 425-441, 467-468; a failing send calls this function again (799-802) *)
  | Resend k alive =>
    match threads s k with
    | AtSlot n =>
      match nth_error (lists s) n with
      | None => Ok (progress (return_ s k RT_OK) false)
      | Some None => Ok (at_place s k (AtSlot (S n)))
      | Some (Some x) => if alive then Ok (tell (at_place s k (AtSlot (S n))) (mkWire true (l_expr x) (l_id x)))
                         else Ok (at_place s k (Caught n))
      end
    | Caught n => if in_progress s then Err tt else Ok (at_place s k (AtSlot n))
    | _ => Err tt
    end
  (* rtConnection.c 1241-1280 *)
  | Listens x => match put x (lists s) with Some l => Ok (tell (with_lists s l) (mkWire true (l_expr x) (l_id x))) | None => Err tt end
  (* rtConnection.c 1321-1357 *)
  | Unlistens id => match take (fun x => id =? l_id x) (lists s) with
               | Some (x, l) => Ok (tell (with_lists s l) (mkWire false (l_expr x) (l_id x))) | None => Err tt end
  (* rtConnection.c 1360-1402 *)
  | Alias e id => Ok (tell s (mkWire true e id))
  end.
(** steps one after the other; no code of its own *)
Fixpoint steps (retries : Z) (s : conn) (l : list act) : outcome unit conn :=
  match l with [] => Ok s | a :: l => do s <- step retries s a; steps retries s l end.
