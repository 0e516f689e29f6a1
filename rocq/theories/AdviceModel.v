(** Model of the notices of connecting and disconnecting clients: the broker's side,
    src/rtmessage/rtrouted.c, and that of the programs, src/core/rbuscore.c and src/rbus/rbus.c.
    The broker's routes are those of RouterModel, the notice is the text message of JsonModel.
    A client is named by the number of its connection; a program by a number, and it has one
    handle and hence at most one connection.  Simplifications: what is sent arrives, at once and
    in order; printing and parsing of the notice are not modelled (as in JsonModel); answers of
    the broker to its clients are left out (they are in RouterModel); a direct handle cannot be
    closed once the program's handle is (that uses freed memory and is UB here). *)
From Coq Require Import String.
From Verif Require Import Common RouteModel RouterModel JsonModel.
Local Open Scope string_scope.
Local Open Scope list_scope.
Local Open Scope Z_scope.

(** rtAdvisory.h:30-34 *)
Definition ADVISE_CONNECT : Z := 0.
(** rtAdvisory.h:30-34 *)
Definition ADVISE_DISCONNECT : Z := 1.
(** rtConnection.c:65 *)
Definition INBOX_ID : Z := 1.
(** rbuscore.h:34 *)
Definition ADVISORY_ID : Z := 2.
(** rtMessageHeader.h:31 RTMSG_HEADER_MAX_TOPIC_LENGTH *)
Definition TOPIC_MAX : nat := 256.

(** a program: its connection (g_connection, rbuscore.c:323) and inbox (rtConnection.c:585), whether
    the connection has the listener for notices (rtConnection.c:1241-1280), the statics
    g_advisory_listener_installed, g_client_disconnect_callback (rbuscore.c:334-335) and
    sDisConnHandler (rbus.c:3077), the number of direct handles that can be used, and what its
    disconnect handler (rbus.c:1355-1359) has been called with *)
Record prog := mkProg { conn : option Z; inbox : list Z; listens : bool; installed : bool; callback : bool; count : Z; direct : Z; told : list (list Z) }.
(** the statics of a program that has just started; rbuscore.c:323-335, rbus.c:3077 *)
Definition fresh_prog (l : list (list Z)) : prog := mkProg None [] false false false 0 0 l.
(** the broker with the inbox of each client (rtrouteBase.h:32-50, inbox), the programs, the program
    of each client and the number of the next client *)
Record world := mkWorld { brk : broker; box : Z -> list Z; progs : Z -> prog; who : Z -> Z; next : Z }.

(** a table with one entry changed; no code of its own *)
Definition put {A} (f : Z -> A) (k : Z) (x : A) : Z -> A := fun y => if y =? k then x else f y.
(** one part of the world changed; no code of its own *)
Definition with_prog (w : world) (p : Z) (x : prog) : world := mkWorld (brk w) (box w) (put (progs w) p x) (who w) (next w).
(** one part of the world changed; no code of its own *)
Definition with_brk (w : world) (b : broker) : world := mkWorld b (box w) (progs w) (who w) (next w).
(** one part of the world changed; no code of its own *)
Definition with_box (w : world) (c : Z) (s : list Z) : world := mkWorld (brk w) (put (box w) c s) (progs w) (who w) (next w).

(** strstr(s, t) is not null; libc *)
Fixpoint has (t s : list Z) : bool :=
  bytes_eqb (firstn (List.length t) s) t || match s with [] => false | _ :: r => has t r end.

(** rtrouted.c:1233-1241 rtRouted_SendAdvisoryMessage: the notice *)
Definition notice (event : Z) (i : list Z) : json := set_string (set_int32 create (bs "event") event) (bs "inbox") (Some i).
(** rbuscore.c:1293-1328 rtrouted_advisory_callback *)
Definition on_notice (x : prog) (m : json) : prog :=
  if negb (callback x) then x else
  match get_int32 m (bs "event") with
  | Ok e =>
    if e =? ADVISE_DISCONNECT then
      match get_string m (bs "inbox") with
      | Ok (Some l) => mkProg (conn x) (inbox x) (listens x) (installed x) (callback x) (count x) (direct x) (told x ++ [l])
      | _ => x
      end
    else x
  | _ => x
  end.
(** a message that reaches client [c] for its listener [id] (rtConnection.c:1784-1830; with other
    listeners' callbacks left out) *)
Definition hear (m : json) (w : world) (d : Z * Z) : world :=
  let (c, id) := d in
  let x := progs w (who w c) in
  match conn x with
  | Some c' => if (c' =? c) && (id =? ADVISORY_ID) && listens x then with_prog w (who w c) (on_notice x m) else w
  | None => w
  end.
(** rtrouted.c:476-547 rtRouted_SendMessage: whom the notice is sent to, [skip] left out *)
Fixpoint send_routes (es : list entry) (skip : Z) (ds : list Z) : outcome unit (list (Z * Z)) :=
  match ds with
  | [] => Ok []
  | d :: ds =>
    match find (fun x => e_id x =? d) es with
    | None => UB
    | Some r =>
      match e_owner r with
      | None => UB
      | Some (c, id) => do l <- send_routes es skip ds ; Ok (if c =? skip then l else (c, id) :: l)
      end
    end
  end.
(** rtrouted.c:1233-1253 rtRouted_SendAdvisoryMessage *)
Definition advise (w : world) (c : Z) (event : Z) : outcome unit world :=
  do ds <- get (tree_of (brk w)) ADVISORY ;
  do l <- send_routes (entries (brk w)) c ds ;
  Ok (fold_left (hear (notice event (box w c))) l w).
(** rtrouted.c:740-790 rtRouted_OnMessageSubscribe with add=1; only a new route can set the inbox *)
Definition sub (w : world) (c : Z) (e : list Z) (id : Z) : outcome unit world :=
  let new := printable e RTMSG_MAX_EXPRESSION_LEN && negb (is_some (find (owned_by c id) (entries (brk w)))) in
  do (b, _) <- subscribe (brk w) c e id ;
  let w := with_brk w b in
  match box w c with
  | [] => if new && has (bs ".INBOX.") e then advise (with_box w c (firstn (TOPIC_MAX - 1) e)) c ADVISE_CONNECT else Ok w
  | _ => Ok w
  end.
(** rtrouted.c:791-811 *)
Definition unsub (w : world) (c : Z) (e : list Z) : outcome unit world :=
  do (b, _) <- unsubscribe (brk w) c e ; Ok (with_brk w b).
(** rtrouted.c:1958-1970: reading from the client failed *)
Definition drop (w : world) (c : Z) : outcome unit world :=
  do w <- advise w c ADVISE_DISCONNECT ; Ok (with_brk w (leave (brk w) c)).

(** rbuscore.c:1784-1804 rbus_registerClientDisconnectHandler; [room]: rtConnection_AddListenerWithId
    has a free slot (rtConnection.c:1251-1262) *)
Definition register (w : world) (p c : Z) (room : bool) : outcome unit world :=
  let x := progs w p in
  if installed x then Ok w else
  if room then
    do w <- sub (with_prog w p (mkProg (conn x) (inbox x) true (installed x) (callback x) (count x) (direct x) (told x))) c ADVISORY ADVISORY_ID ;
    let x := progs w p in
    Ok (with_prog w p (mkProg (conn x) (inbox x) (listens x) true true (count x) (direct x) (told x)))
  else Ok w.
(** rbuscore.c:1807-1816 rbus_unregisterClientDisconnectHandler with rtConnection.c:1322-1357 *)
Definition unregister (w : world) (p c : Z) : outcome unit world :=
  let x := progs w p in
  if installed x then
    do w <- (if listens x then unsub w c ADVISORY else Ok w) ;
    Ok (with_prog w p (mkProg (conn x) (inbox x) false false (callback x) (count x) (direct x) (told x)))
  else Ok w.

(** what happens; the programs' calls and their ends, each cited at [step] *)
Inductive op :=
| Connect (p : Z) (i : list Z) | Listen (p : Z) (e : list Z) (id : Z) | Unlisten (p : Z) (e : list Z)
| OpenDirect (p : Z) (room : bool) | CloseDirect (p : Z) | Close (p : Z) | Die (p : Z).
(** Connect: rbus_open, rbuscore.c:603-660 with rtConnection.c:585, 613 and rtrouted.c:1657-1675;
    Listen and Unlisten: rtConnection.c:1241-1357 and rtConnection_AddAlias, rtConnection_RemoveAlias
    (1359-1436) for a component's and its elements' names;
    OpenDirect, CloseDirect: rbus.c:3079-3162 as far as the handler goes;
    Close: rbus_close of the only handle, rbus.c:3238-3262 with rbuscore.c:662-695;
    Die: the process ends, and may be started again *)
Definition step (w : world) (o : op) : outcome unit world :=
  match o with
  | Connect p i =>
    let x := progs w p in
    match conn x with
    | Some _ => Ok w
    | None =>
      let c := next w in
      let x := mkProg (Some c) i false (installed x) (callback x) (count x) 0 (told x) in
      sub (mkWorld (brk w) (put (box w) c []) (put (progs w) p x) (put (who w) c p) (c + 1)) c i INBOX_ID
    end
  | Listen p e id => match conn (progs w p) with Some c => sub w c e id | None => Ok w end
  | Unlisten p e => match conn (progs w p) with Some c => unsub w c e | None => Ok w end
  | OpenDirect p room =>
    match conn (progs w p) with
    | None => Ok w
    | Some c =>
      do w <- (if count (progs w p) =? 0 then register w p c room else Ok w) ;
      let x := progs w p in
      Ok (with_prog w p (mkProg (conn x) (inbox x) (listens x) (installed x) (callback x) ((count x + 1) mod 2 ^ 32) (direct x + 1) (told x)))
    end
  | CloseDirect p =>
    match conn (progs w p) with
    | None => UB
    | Some c =>
      if direct (progs w p) =? 0 then UB else
      do w <- (if count (progs w p) =? 1 then unregister w p c else Ok w) ;
      let x := progs w p in
      Ok (with_prog w p (mkProg (conn x) (inbox x) (listens x) (installed x) (callback x) ((count x - 1) mod 2 ^ 32) (direct x - 1) (told x)))
    end
  | Close p =>
    let x := progs w p in
    match conn x with
    | None => Ok w
    | Some c => drop (with_prog w p (mkProg None [] false (installed x) (callback x) (count x) 0 (told x))) c
    end
  | Die p =>
    let x := progs w p in
    let w := with_prog w p (fresh_prog (told x)) in
    match conn x with None => Ok w | Some c => drop w c end
  end.
(** a history; no code of its own *)
Fixpoint run (w : world) (l : list op) : outcome unit world :=
  match l with [] => Ok w | o :: l => do w <- step w o ; run w l end.
(** the broker just started, no program running; rtrouted.c:1720-1930 *)
Definition init (b : broker) : world := mkWorld b (fun _ => []) (fun _ => fresh_prog []) (fun _ => 0) 1.
