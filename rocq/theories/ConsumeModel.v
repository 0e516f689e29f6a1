(** Model of the subscriptions a consumer holds (handle->eventSubs and the pending asynchronous ones):
    src/rbus/rbus.c:308-324, 1362-1391, 1426-1494, 4950-5219, 5386-5840.
    Simplifications: calls on one handle do not overlap; what the retries of a synchronous subscribe
    end with is an input here (it is the subject of RetryModel); the private listeners of raw data
    subscriptions and the initial event of publishOnSubscribe are left out. *)
From Verif Require Import Common Value Errors.
From Verif Require SubsModel.
From Verif Require Import RetryModel.
Local Open Scope list_scope.
Local Open Scope Z_scope.

(** what a subscription is asked for with: event name, filter, interval, duration; include/rbus.h rbusEventSubscription_t, rbus.c:308-324 *)
Record req := mkReq { q_event : list Z; q_filter : filter; q_interval : Z; q_duration : Z }.
(** rbusEventSubscriptionInternal_t; [None] for fields that have not been set; rbus.c:112-118 *)
Record entry := mkEntry { e_req : req; e_handler : Z; e_raw : option bool; e_dirty : bool; e_id : option Z }.
(** requests on the wire with their answers, newest first: what the provider sees; rbus.c:5056-5140, 4950-5019 *)
Inductive wire := WSub (k : req) (raw : bool) (a : answer) | WUnsub (k : req) (raw : bool) (a : answer).
(** rbus_handle.h:114 eventSubs, rbus_asyncsubscribe.c:49-56 items *)
Record state := mkState { entries : list entry; waiting : list req; log : list wire }.
(** an opened handle: rbus.c:2942-3075 *)
Definition init : state := mkState [] [] [].

(** 308-324: the tests in the order of the code; an unset flag is read only by the last *)
Definition same_sub (x : entry) (k : req) (raw : bool) : outcome unit bool :=
  if negb (bytes_eqb (q_event (e_req x)) (q_event k)) then Ok false else
  do c <- SubsModel.filter_compare (q_filter (e_req x)) (q_filter k) ;
  if negb (c =? 0) then Ok false
  else if negb ((q_interval (e_req x) =? q_interval k) && (q_duration (e_req x) =? q_duration k)) then Ok false
  else match e_raw x with Some r => Ok (eqb r raw) | None => UB end.
(** the first entry, with those before and after it; rbus.c:308-324 with rtVector_Find *)
Fixpoint find_sub (l : list entry) (k : req) (raw : bool) : outcome unit (option (list entry * entry * list entry)) :=
  match l with
  | [] => Ok None
  | x :: l =>
      do m <- same_sub x k raw ;
      if (m : bool) then Ok (Some ([], x, l))
      else do r <- find_sub l k raw ; Ok (match r with Some (a, y, b) => Some (x :: a, y, b) | None => None end)
  end.
(** rbus_asyncsubscribe.c:91-104, 412-433: pending ones are known by event and filter only *)
Fixpoint find_waiting (l : list req) (k : req) : outcome unit (option (list req * list req)) :=
  match l with
  | [] => Ok None
  | x :: l =>
      do m <- (if bytes_eqb (q_event x) (q_event k) then do c <- SubsModel.filter_compare (q_filter x) (q_filter k) ; Ok (c =? 0) else Ok false) ;
      if (m : bool) then Ok (Some ([], l))
      else do r <- find_waiting l k ; Ok (match r with Some (a, b) => Some (x :: a, b) | None => None end)
  end.
(** rbus_asyncsubscribe.c:91-104, 412-433, continued *)
Definition set_dirty (x : entry) (d : bool) : entry := mkEntry (e_req x) (e_handler x) (e_raw x) d (e_id x).

(** 5040-5056: what is found before anything is sent; a dirty entry is made clean *)
Definition begin_sub (s : state) (k : req) (raw : bool) : outcome unit (option state) :=
  do f <- find_sub (entries s) k raw ;
  match f with
  | Some (a, x, b) => if e_dirty x then Ok (Some (mkState (a ++ set_dirty x false :: b) (waiting s) (log s))) else Ok None
  | None => do w <- find_waiting (waiting s) k ; match w with Some _ => Ok None | None => Ok (Some s) end
  end.
(** 5142-5151, 5188-5199: an entry for the request takes the place of one that is there *)
Definition replace (s : state) (k : req) (raw : bool) (x : entry) : outcome unit state :=
  do f <- find_sub (entries s) k raw ;
  Ok (mkState ((match f with Some (a, _, b) => a ++ b | None => entries s end) ++ [x]) (waiting s) (log s)).
(** 5021-5219 for a synchronous call: [a] is what the retries end with, [id] the provider's number *)
Definition subscribe (s : state) (k : req) (raw : bool) (h : Z) (a : answer) (id : Z) : outcome unit (state * Z) :=
  do s1 <- begin_sub s k raw ;
  match s1 with
  | None => Ok (s, E_SUBSCRIPTION_ALREADY_EXIST)
  | Some s1 =>
    let s1 := mkState (entries s1) (waiting s1) (WSub k raw a :: log s1) in
    match a with
    | Accepted => do s2 <- replace s1 k raw (mkEntry k h (Some raw) false (Some id)) ; Ok (s2, E_SUCCESS)
    | NotFound =>
        do f <- find_sub (entries s1) k raw ;
        Ok (match f with Some (l, x, r) => mkState (l ++ set_dirty x true :: r) (waiting s1) (log s1) | None => s1 end, E_TIMEOUT)
    | Refused c =>
        if c =? E_SUBSCRIPTION_ALREADY_EXIST
        then do s2 <- replace s1 k raw (mkEntry k h None false None) ; Ok (s2, E_SUCCESS)
        else Ok (s1, if c =? E_SUCCESS then E_BUS_ERROR else c)
    | Lost => Ok (s1, E_BUS_ERROR)
    end
  end.
(** 5084-5091: an asynchronous call only puts the request among the pending ones *)
Definition subscribe_async (s : state) (k : req) : outcome unit (state * Z) :=
  do s1 <- begin_sub s k false ;
  match s1 with
  | None => Ok (s, E_SUBSCRIPTION_ALREADY_EXIST)
  | Some s1 => Ok (mkState (entries s1) (waiting s1 ++ [k]) (log s1), E_SUCCESS)
  end.
(** 1362-1391 and rbus_asyncsubscribe.c:224-262: a pending request is answered for good *)
Definition async_done (s : state) (n : nat) (h : Z) (a : answer) (id : Z) : outcome unit (state * (req * Z)) :=
  match nth_error (waiting s) n with
  | None => Err tt
  | Some k =>
      let s1 := mkState (entries s) (firstn n (waiting s) ++ skipn (S n) (waiting s)) (WSub k false a :: log s) in
      do c <- verdict a ;
      match a with
      | Accepted => do s2 <- replace s1 k false (mkEntry k h (Some false) false (Some id)) ; Ok (s2, (k, c))
      | _ => Ok (s1, (k, c))
      end
  end.
(** 4950-5019: [u] is the answer to the unsubscribe request.  Only a missing provider leaves the entry,
    as dirty; true if so. *)
Definition unsubscribe_found (s : state) (l : list entry) (x : entry) (r : list entry) (u : answer) : outcome unit (state * bool) :=
  match e_raw x with
  | None => UB
  | Some raw =>
      let log' := WUnsub (e_req x) raw u :: log s in
      match u with
      | NotFound => Ok (mkState (l ++ set_dirty x true :: r) (waiting s) log', true)
      | _ => Ok (mkState (l ++ r) (waiting s) log', false)
      end
  end.
(** 5750-5805, one turn *)
Definition unsubscribe1 (s : state) (k : req) (u : answer) : outcome unit (state * Z) :=
  do f <- find_sub (entries s) k false ;
  match f with
  | Some (l, x, r) => match e_id x with None => UB | Some _ => do (s1, _) <- unsubscribe_found s l x r u ; Ok (s1, E_SUCCESS) end
  | None =>
      do w <- find_waiting (waiting s) k ;
      Ok (match w with Some (a, b) => (mkState (entries s) (a ++ b) (log s), E_SUCCESS) | None => (s, E_INVALID_OPERATION) end)
  end.
(** 5750-5805 rbusEvent_UnsubscribeEx: all of them; the code of the last *)
Fixpoint unsubscribe_ex (s : state) (ks : list req) (us : list answer) (rc : Z) : outcome unit (state * Z) :=
  match ks, us with
  | [], _ => Ok (s, rc)
  | k :: ks, u :: us => do (s1, c) <- unsubscribe1 s k u ; unsubscribe_ex s1 ks us c
  | _ :: _, [] => Err tt
  end.
(** 5386-5449 rbusEvent_Unsubscribe *)
Definition unsubscribe (s : state) (event : list Z) (u : answer) : outcome unit (state * Z) :=
  do f <- find_sub (entries s) (mkReq event FNull 0 0) false ;
  match f with
  | Some (l, x, r) =>
      do (s1, _) <- unsubscribe_found s l x r u ;
      Ok (s1, match u with Accepted | NotFound => E_SUCCESS | _ => E_BUS_ERROR end)
  | None => Ok (s, E_INVALID_OPERATION)
  end.
(** One element of the array given to SubscribeEx: the request, its handler, what its retries end with
    and the provider's number. rbus.c:5495-5537 *)
Record elt := mkElt { x_req : req; x_handler : Z; x_ans : answer; x_id : Z }.
(** 5495-5537 rbusEvent_SubscribeEx ([raw] false); [us] answers the undoing requests.  5539-5625
    rbusEvent_SubscribeExRawData ([raw] true) undoes with the same function. *)
Fixpoint subscribe_ex (raw : bool) (s : state) (done : list req) (xs : list elt) (us : list answer) : outcome unit (state * Z) :=
  match xs with
  | [] => Ok (s, E_SUCCESS)
  | x :: xs =>
      do (s1, rc) <- subscribe s (x_req x) raw (x_handler x) (x_ans x) (x_id x) ;
      if rc =? E_SUCCESS then subscribe_ex raw s1 (done ++ [x_req x]) xs us
      else do (s2, _) <- unsubscribe_ex s1 done us E_SUCCESS ; Ok (s2, rc)
  end.
(** 5627-5668 rbusEvent_SubscribeExAsync *)
Fixpoint subscribe_ex_async (s : state) (done : list req) (ks : list req) (us : list answer) : outcome unit (state * Z) :=
  match ks with
  | [] => Ok (s, E_SUCCESS)
  | k :: ks =>
      do (s1, rc) <- subscribe_async s k ;
      if rc =? E_SUCCESS then subscribe_ex_async s1 (done ++ [k]) ks us
      else do (s2, _) <- unsubscribe_ex s1 done us E_SUCCESS ; Ok (s2, rc)
  end.
(** 1426-1494 _master_event_callback_handler for a message that carries [k]; [u] answers the
    unsubscribe request for a dirty entry.  Result: the handlers run. *)
Definition deliver (s : state) (k : req) (complete : bool) (u : answer) : outcome unit (state * list Z) :=
  do f <- find_sub (entries s) k false ;
  match f with
  | None => Ok (s, [])
  | Some (l, x, r) =>
      do (s1, stays) <- (if e_dirty x then unsubscribe_found s l x r u else Ok (s, true)) ;
      if negb stays then Ok (s1, []) else
      Ok (if complete then mkState (l ++ r) (waiting s1) (log s1) else s1, [e_handler x])
  end.
(** 5807-5846 rbusEvent_IsSubscriptionExist *)
Definition exists_sub (s : state) (k : req) : outcome unit bool :=
  do f <- find_sub (entries s) k false ; Ok (is_some f).

(** The operations a history consists of, one for each function modelled above; no code of its own. *)
Inductive op :=
| Subscribe (k : req) (raw : bool) (h : Z) (a : answer) (id : Z)
| SubscribeEx (raw : bool) (xs : list elt) (us : list answer)
| SubscribeAsync (k : req)
| SubscribeExAsync (ks : list req) (us : list answer)
| Done (n : nat) (h : Z) (a : answer) (id : Z)
| Unsubscribe (event : list Z) (u : answer)
| UnsubscribeEx (ks : list req) (us : list answer)
| Deliver (k : req) (complete : bool) (u : answer).
(** the code returned; the subscription and the code given to a completion callback; the handlers run; helper, no code of its own *)
Inductive result := Code (c : Z) | Called (k : req) (c : Z) | Ran (l : list Z).
(** helper, no code of its own *)
Definition coded (x : outcome unit (state * Z)) : outcome unit (state * result) := do (s, c) <- x ; Ok (s, Code c).
(** One operation of a history: calls the functions modelled above; no code of its own. *)
Definition step (s : state) (o : op) : outcome unit (state * result) :=
  match o with
  | Subscribe k raw h a id => coded (subscribe s k raw h a id)
  | SubscribeEx raw xs us => coded (subscribe_ex raw s [] xs us)
  | SubscribeAsync k => coded (subscribe_async s k)
  | SubscribeExAsync ks us => coded (subscribe_ex_async s [] ks us)
  | Done n h a id => do (s1, kc) <- async_done s n h a id ; Ok (s1, Called (fst kc) (snd kc))
  | Unsubscribe e u => coded (unsubscribe s e u)
  | UnsubscribeEx ks us => coded (unsubscribe_ex s ks us E_SUCCESS)
  | Deliver k c u => do (s1, l) <- deliver s k c u ; Ok (s1, Ran l)
  end.
(** A history: one operation after the other; no code of its own. *)
Fixpoint run (s : state) (ops : list op) : outcome unit (state * list result) :=
  match ops with
  | [] => Ok (s, [])
  | o :: ops => do (s1, r) <- step s o ; do (s2, rs) <- run s1 ops ; Ok (s2, r :: rs)
  end.
