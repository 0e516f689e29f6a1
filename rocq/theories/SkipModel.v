(** Model of dropping a message there is no memory for (src/rtmessage/rtConnection.c, rtrouted.c).
    Simplifications: a socket is the list of bytes sent on it and not yet read, and whether the sender
    has closed it; sockets block (no O_NONBLOCK and no timeout is set in src/rtmessage). *)
From Verif Require Import Common.
Local Open Scope Z_scope.

(** rtConnection.c:1458: what recv does each time it is called: it returns at most [k + 1] bytes, or is
    interrupted, or fails with an error *)
Inductive rx := Gives (k : nat) | Interrupts | Fails (e : Z).
(** errno.h ENOTCONN, used at rtConnection.c:1462 *)
Definition ENOTCONN : Z := 107.
(** rtConnection.c:1447-1476 _rtConnection_ReadAndDropBytes: the code and what is left on the socket;
    [None]: it still waits *)
Fixpoint skip (ev : list rx) (closed : bool) (need : Z) (s : list Z) : option (Z * list Z) :=
  if 0 <? need then
    match ev with
    | [] => None
    | Interrupts :: ev => skip ev closed need s
    | Fails e :: _ => Some (e, s)
    | Gives k :: ev =>
      match s with
      | [] => if closed then Some (ENOTCONN, []) else None
      | _ =>
        let asked := if need <? 512 then need else 512 in
        let n := Z.min (Z.min (Z.of_nat k + 1) asked) (Z.of_nat (length s)) in
        skip ev closed (need - n) (skipn (Z.to_nat n) s)
      end
    end
  else Some (0, s).
(** rtrouted.c:1593-1608, rtrouteBase.c:414-429: a message of which the header is read; with memory for
    it the payload is read, else dropped, the code not looked at; then the next header is read from what
    is left. Reading the payload is the subject of LinkModel; this is the other case. *)
Definition after_drop (ev : list rx) (closed : bool) (payload_length : Z) (s : list Z) : option (list Z) :=
  match skip ev closed payload_length s with None => None | Some (_, r) => Some r end.
