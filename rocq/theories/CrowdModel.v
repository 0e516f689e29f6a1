(** Model of the broker's main loop with several clients that send at the same time:
    src/rtmessage/rtrouted.c:1892-1973, over the stream reader of FramingModel and the routing of
    RouterModel.  Simplifications: the bytes a client sends are given at the beginning and each turn
    takes the next part of some client's (a client that has not yet written them is not chosen);
    select reports clients in any order; registrations are requests as in RouterModel, served at any
    moment, and not bytes of the streams; sendmsg takes what it is given. *)
From Verif Require Import Common Bytes HeaderModel FramingModel RouteModel RouterModel LinkModel.
Local Open Scope Z_scope.

(** one turn: a client's socket is readable (1957-1965) and recv will give at most [k] bytes, or a
    request that changes the routes is served *)
Inductive moment := Reads (c : Z) (k : nat) | Serves (r : req).
(** what a turn did; no code of its own *)
Inductive happened := Forwarded (c : Z) (ds : list delivery) | Registered (r : req) (rc : Z).
(** the state of a client's connection: its reader and what it has sent; rtrouteBase.h:31-51 *)
Notation conn := (rstate * list Z)%type.
(** helper, no code of its own *)
Definition put (st : Z -> conn) (c : Z) (x : conn) : Z -> conn := fun d => if d =? c then x else st d.
(** rtrouted.c:1957-1973, 1406-1481; a client that leaves, or from which nothing can be read, is not
    read from again (1966-1969).  Simplification: messages for the broker itself are outside of this
    function ([UB]). *)
Fixpoint live (cap : nat) (b : broker) (st : Z -> conn) (l : list moment) : outcome unit (list happened * broker * (Z -> conn)) :=
  match l with
  | [] => Ok ([], b, st)
  | Serves r :: l =>
    do (b, rc) <- serve b r ;
    let st := match r with Leave c => put st c (fst (st c), []) | _ => st end in
    do x <- live cap b st l ; let '(hs, b, st) := x in Ok (Registered r rc :: hs, b, st)
  | Reads c k :: l =>
    do r <- reader_step cap (fst (st c)) (snd (st c)) k ;
    match r with
    | RBlocked => live cap b st l
    | RClosed =>
      do x <- live cap (leave b c) (put st c (fst (st c), [])) l ; let '(hs, b, st) := x in Ok (Registered (Leave c) RT_OK :: hs, b, st)
    | RStep s rest None => live cap b (put st c (s, rest)) l
    | RStep s rest (Some m) =>
      do m <- received m ;
      do ds <- dispatch b m ;
      if existsb for_broker ds then UB else
      do x <- live cap b (put st c (s, rest)) l ; let '(hs, b, st) := x in Ok (Forwarded c ds :: hs, b, st)
    end
  end.
(** all that is forwarded, in order; no code of its own *)
Definition forwarded (hs : list happened) : list delivery := flat_map (fun h => match h with Forwarded _ ds => ds | Registered _ _ => [] end) hs.
(** the answers given to requests, in order; no code of its own *)
Definition answered (hs : list happened) : list (req * Z) := flat_map (fun h => match h with Registered r rc => [(r, rc)] | Forwarded _ _ => [] end) hs.
