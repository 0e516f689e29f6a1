(** Model of a connection's listeners and of the queue between its reader and callback threads,
    src/rtmessage/rtConnection.c.  A listener's callback and closure are one number; a message is
    named by the number of its arrival.  Steps are what each thread does under one lock; sending
    to the broker always succeeds.  Aliases (1359-1436), reconnecting and shutting down are left
    out. *)
From Verif Require Import Common.
From Coq Require Import List ZArith Bool.
Import ListNotations.
Local Open Scope Z_scope.

Definition RTMSG_LISTENERS_MAX : nat := 128.     (* rtConnection.c:63-64 *)
Definition MAX_ALLOWED_MESSAGES : nat := 25.
(** rtConnection.c:63-64, continued *)
Definition RT_OK : Z := 0.
(** rtConnection.c:63-64, continued *)
Definition RT_ERROR_INVALID_ARG : Z := 3.
Definition RT_ENOMEM : Z := 2147483660.          (* rtError.c:172-176 *)

(** rtConnection.c:87-94 *)
Record listener := mkListener { l_id : Z; l_expr : list Z; l_closure : Z }.
(** what is sent to the broker's subscribe topic; rtConnection.c:1242-1345 *)
Record wire_msg := mkWire { w_add : bool; w_topic : list Z; w_id : Z }.
(** rtConnection.c:87-94, continued *)
Inductive worker := Idle | Found (n : nat) (c : option Z) | Called (n : nat).
(** rtConnection.c:87-94, continued *)
Record state := mkState {
  slots : list (option listener); next_id : Z; queue : list (nat * Z); arrived : nat; busy : worker;
  calls : list (nat * Z); wire : list wire_msg }.
(** rtConnection.c:538-544, 248-253 *)
Definition init : state := mkState (repeat None RTMSG_LISTENERS_MAX) 10000 [] 0 Idle [] [].

(** the steps of the callers, the reader and the callback thread, each cited at [step] *)
Inductive event :=
  | AddNew (e : list Z) (cl : Z) | AddWithId (e : list Z) (id cl : Z) | Remove (e : list Z) | RemoveWithId (e : list Z) (id : Z)
  | Arrive (control : Z) | Look | Call | Done.

(** the first free slot: the search loop of rtConnection_AddListener *)
Fixpoint put (x : listener) (l : list (option listener)) : option (list (option listener)) :=
  match l with
  | [] => None
  | None :: l => Some (Some x :: l)
  | Some y :: l => match put x l with Some l => Some (Some y :: l) | None => None end
  end.
(** the first slot in use that fits is freed: the loop of rtConnection_RemoveListener *)
Fixpoint take (f : listener -> bool) (l : list (option listener)) : option (listener * list (option listener)) :=
  match l with
  | [] => None
  | Some y :: l => if f y then Some (y, None :: l) else match take f l with Some (x, l) => Some (x, Some y :: l) | None => None end
  | None :: l => match take f l with Some (x, l) => Some (x, None :: l) | None => None end
  end.
(** the first slot in use that fits: the dispatch loop *)
Fixpoint first (f : listener -> bool) (l : list (option listener)) : option listener :=
  match l with
  | [] => None
  | Some y :: l => if f y then Some y else first f l
  | None :: l => first f l
  end.
(** rtConnection.c:1241-1280 rtConnection_AddListenerWithId *)
Definition add_with_id (s : state) (e : list Z) (id cl : Z) : state * Z :=
  match put (mkListener id e cl) (slots s) with
  | None => (s, RT_ENOMEM)
  | Some l => (mkState l (next_id s) (queue s) (arrived s) (busy s) (calls s) (wire s ++ [mkWire true e id]), RT_OK)
  end.
(** rtConnection.c:1282-1319, 1321-1357 *)
Definition remove_listener (s : state) (f : listener -> bool) (e : list Z) : state * Z :=
  match take f (slots s) with
  | None => (s, RT_ERROR_INVALID_ARG)
  | Some (x, l) => (mkState l (next_id s) (queue s) (arrived s) (busy s) (calls s) (wire s ++ [mkWire false e (l_id x)]), RT_OK)
  end.

(** [Err tt]: the step cannot be taken now; each case cites its lines *)
Definition step (s : state) (ev : event) : outcome unit (state * Z) :=
  match ev with
  (* rtConnection.c:1235-1239 *)
  | AddNew e cl =>
    let s' := mkState (slots s) ((next_id s + 1) mod 4294967296) (queue s) (arrived s) (busy s) (calls s) (wire s) in
    Ok (add_with_id s' e (next_id s) cl)
  | AddWithId e id cl => Ok (add_with_id s e id cl)
  | Remove e => Ok (remove_listener s (fun x => bytes_eqb e (l_expr x)) e)
  | RemoveWithId e id => Ok (remove_listener s (fun x => id =? l_id x) e)
  (* rtConnection.c:1635-1696, a message that is not a response *)
  | Arrive c =>
    let q := if Nat.ltb MAX_ALLOWED_MESSAGES (length (queue s)) then queue s else queue s ++ [(arrived s, c)] in
    Ok (mkState (slots s) (next_id s) q (S (arrived s)) (busy s) (calls s) (wire s), RT_OK)
  (* rtConnection.c:1792-1828: the front of the queue and its listener *)
  | Look =>
    match busy s, queue s with
    | Idle, (n, c) :: _ =>
      Ok (mkState (slots s) (next_id s) (queue s) (arrived s) (Found n (option_map l_closure (first (fun x => l_id x =? c) (slots s)))) (calls s) (wire s), RT_OK)
    | _, _ => Err tt
    end
  (* rtConnection.c:1830-1841: without any lock *)
  | Call =>
    match busy s with
    | Found n o => Ok (mkState (slots s) (next_id s) (queue s) (arrived s) (Called n) (calls s ++ match o with Some cl => [(n, cl)] | None => [] end) (wire s), RT_OK)
    | _ => Err tt
    end
  (* rtConnection.c:1843-1856: this item is taken out *)
  | Done =>
    match busy s with
    | Called n => Ok (mkState (slots s) (next_id s) (filter (fun x => negb (Nat.eqb (fst x) n)) (queue s)) (arrived s) Idle (calls s) (wire s), RT_OK)
    | _ => Err tt
    end
  end.
(** A history: one operation after the other; no code of its own. *)
Fixpoint run (s : state) (l : list event) : outcome unit (state * list Z) :=
  match l with
  | [] => Ok (s, [])
  | e :: l => do (s, r) <- step s e ; do (s, rs) <- run s l ; Ok (s, r :: rs)
  end.
