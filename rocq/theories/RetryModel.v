(** Model of the retries of a subscription: the loop of the synchronous call,
    src/rbus/rbus.c:5056-5219, and the thread that works off the asynchronous ones,
    src/rbus/rbus_asyncsubscribe.c.  Times are milliseconds. *)
From Verif Require Import Common Errors.
Local Open Scope list_scope.
Local Open Scope Z_scope.

(** What one subscription request ends with (src/core/rbuscore.c:702-778 send_subscription_request,
    1563-1647): no provider, a subscription, the provider's error, or any other failure, which leaves
    the provider's error untouched. *)
Inductive answer := NotFound | Accepted | Refused (code : Z) | Lost.
(** src/rbus/rbus_handle.h:33 RBUS_SUBSCRIBE_MAXWAIT *)
Definition MAXWAIT : Z := 60000.
(** src/rbus/rbus_handle.h:33, continued *)
Definition INT_MAX : Z := 2147483647.
(** src/rbus/rbus_handle.h:33, continued *)
Definition INT_MIN : Z := -2147483648.

(** rbus.c:5093-5130.  [left] is destNotFoundTimeout, [wait] destNotFoundSleep, [k] the number of
    requests made.  Result: the arguments of sleep(), in seconds, and the last answer.  The time the
    requests take is not modelled; [fuel] running out is [UB], which is proved not to happen. *)
Fixpoint retry_loop (fuel : nat) (ans : nat -> answer) (k : nat) (left wait : Z) : outcome unit (list Z * answer) :=
  match fuel with
  | O => UB
  | S fuel =>
    match ans k with
    | NotFound =>
      if 0 <? left then
        let sleep := (if left <? wait then left else wait) / 1000 in
        let wait2 := wait * 2 in
        do (l, a) <- retry_loop fuel ans (S k) (left - wait) (if MAXWAIT <? wait2 then MAXWAIT else wait2) ;
        Ok (sleep :: l, a)
      else Ok ([], NotFound)
    | a => Ok ([], a)
    end
  end.
(** rbus.c:5058-5065: the timeout in seconds, -1 for the handle's own (milliseconds, kept in an int) *)
Definition retry_time (timeout own : Z) : outcome unit Z :=
  if timeout =? -1 then Ok own
  else if (timeout * 1000 <? INT_MIN) || (INT_MAX <? timeout * 1000) then UB else Ok (timeout * 1000).
(** rbus.c:5058-5065, continued *)
Definition attempts (ans : nat -> answer) (left : Z) := retry_loop (S (S (Z.to_nat (left / 1000)))) ans 0 left 1000.
(** rbus.c:5137-5218: what the call returns *)
Definition returned (a : answer) : Z :=
  match a with
  | Accepted => E_SUCCESS
  | NotFound => E_TIMEOUT
  | Refused c => if c =? E_SUBSCRIPTION_ALREADY_EXIST then E_SUCCESS else c
  | Lost => E_BUS_ERROR
  end.
(** rbus.c:5137-5218, continued *)
Definition subscribe_sync (ans : nat -> answer) (timeout own : Z) : outcome unit (list Z * Z) :=
  do ms <- retry_time timeout own ;
  do (l, a) <- attempts ans ms ;
  Ok (l, returned a).

(** ** The asynchronous retrier *)
(** rbus_asyncsubscribe.c:35-42 AsyncSubscription_t.  [i_sub] stands for event name and filter. *)
Record item := mkItem { i_id : nat; i_handle : Z; i_sub : Z; i_wait : Z; i_start : Z; i_next : Z }.
(** what the thread is doing: waiting or choosing (280-312); in the loop of 169-271 with the item at
    hand; or between the callback for that item and its removal (254-262) *)
Inductive phase := Waiting | Visiting | Finishing.
(** The list of items is [seen s ++ rest s]; in the loop the item at hand is the head of [rest s].
    [now] is the variable of SendSubscriptionRequests, [clock] the time. rbus_asyncsubscribe.c:49-65 *)
Record state := mkState { seen : list item; rest : list item; ph : phase; now : Z; clock : Z; next_id : nat; closed : list Z }.
(** The operations a history consists of, one for each function modelled above; no code of its own. *)
Inductive op :=
| Add (h s timeout : Z) (* rbusEvent_SubscribeAsync *)
| Tick (d : Z)         (* time passes *)
| Wake                 (* the thread starts to go through the list *)
| Skip                 (* the item at hand is not due *)
| Send (a : answer)    (* it is due; the request for it is answered *)
| Finish
| Remove (h s : Z)     (* rbusEvent_UnsubscribeEx of a pending subscription *)
| Close (h : Z).       (* rbus_close *)
(** what can be seen from outside; no code of its own *)
Inductive event :=
| Added (id : nat) (h t : Z)
| Sent (id : nat) (t : Z) (a : answer)
| Callback (id : nat) (code t : Z)
| Dropped (id : nat).

(** to the next item, or out of the loop (264-271) *)
Definition advance (s0 : list item) (l : list item) (n c : Z) (i : nat) (cl : list Z) : state :=
  match l with [] => mkState [] s0 Waiting n c i cl | _ => mkState s0 l Visiting n c i cl end.
(** 195-217: the item after a request that found no provider *)
Definition again (tmo : Z) (x : item) (t : Z) : item :=
  let w := if i_wait x =? 0 then 1000 else i_wait x * 2 in
  let w := if MAXWAIT <? w then MAXWAIT else w in
  let next := if t - i_start x + w <? tmo then t + w else i_start x + tmo in
  mkItem (i_id x) (i_handle x) (i_sub x) w (i_start x) next.
(** 224-252: the code for the callback *)
Definition verdict (a : answer) : outcome unit Z :=
  match a with
  | Accepted => Ok E_SUCCESS
  | NotFound => Ok E_TIMEOUT
  | Refused c => Ok c
  | Lost => UB (* 243 reads providerError (177), which nothing has set *)
  end.
(** rtList.c:262-281 rtList_RemoveItemByCompare: the first item that matches *)
Fixpoint take (f : item -> bool) (l : list item) : option (item * list item) :=
  match l with
  | [] => None
  | x :: l => if f x then Some (x, l) else match take f l with Some (y, l') => Some (y, x :: l') | None => None end
  end.
(** The thread uses the item at hand without the lock, so freeing it is a use after free. rbus_asyncsubscribe.c:264, 404, 449 *)
Definition drop (f : item -> bool) (s : state) : outcome unit (option item * state) :=
  match take f (seen s) with
  | Some (x, l) => Ok (Some x, mkState l (rest s) (ph s) (now s) (clock s) (next_id s) (closed s))
  | None =>
    match rest s, ph s with
    | x :: l, (Visiting | Finishing) =>
        if f x then UB else
        match take f l with
        | Some (y, l') => Ok (Some y, mkState (seen s) (x :: l') (ph s) (now s) (clock s) (next_id s) (closed s))
        | None => Ok (None, s)
        end
    | l, _ =>
        match take f l with
        | Some (y, l') => Ok (Some y, mkState (seen s) l' (ph s) (now s) (clock s) (next_id s) (closed s))
        | None => Ok (None, s)
        end
    end
  end.
(** rtList.c:262-281, continued *)
Definition due_at (c : Z) (x : item) : bool := i_next x <=? c.

(** rbus_asyncsubscribe.c:51 items *)
Definition pending (s : state) : list item := seen s ++ rest s.
(** 106-156 DetermineNextSendTime: when the thread wakes by itself *)
Definition next_send (s : state) : Z :=
  fold_left (fun t x => if i_next x <? t then i_next x else t) (pending s) (clock s + (MAXWAIT + 1000)).

(** [tmo] gives the subscribe timeout of a handle (rbus_handle.c:327-331), taken not to change.
    [Err] means that the step cannot be taken now. *)
Definition step (tmo : Z -> Z) (s : state) (o : op) : outcome unit (state * list event) :=
  match o with
  | Add h v timeout => (* 364-395; rbus.c:5058-5065, 5084-5091: the timeout given is converted and not used *)
      if existsb (Z.eqb h) (closed s) then Err tt else
      do _ <- retry_time timeout (tmo h) ;
      Ok (mkState (seen s) (rest s ++ [mkItem (next_id s) h v 0 (clock s) (clock s)]) (ph s) (now s) (clock s) (S (next_id s)) (closed s),
          [Added (next_id s) h (clock s)])
  | Tick d => if d <? 0 then Err tt else Ok (mkState (seen s) (rest s) (ph s) (now s) (clock s + d) (next_id s) (closed s), [])
  | Wake => (* 286-290, 158-168: DetermineNextSendTime has found an item past due *)
      match ph s with
      | Waiting => if next_send s <=? clock s then Ok (mkState [] (rest s) Visiting (clock s) (clock s) (next_id s) (closed s), []) else Err tt
      | _ => Err tt
      end
  | Skip => (* 173, 269 *)
      match ph s, rest s with
      | Visiting, x :: l => if due_at (now s) x then Err tt else Ok (advance (seen s ++ [x]) l (now s) (clock s) (next_id s) (closed s), [])
      | _, _ => Err tt
      end
  | Send a => (* 173-256; the answer arrives at [clock s], which [now] becomes (187) *)
      match ph s, rest s with
      | Visiting, x :: l =>
          if negb (due_at (now s) x) then Err tt else
          if existsb (Z.eqb (i_handle x)) (closed s) then UB (* the handle has been freed *) else
          let ev := Sent (i_id x) (clock s) a in
          match a with
          | NotFound =>
              if clock s - i_start x <? tmo (i_handle x)
              then Ok (advance (seen s ++ [again (tmo (i_handle x)) x (clock s)]) l (clock s) (clock s) (next_id s) (closed s), [ev])
              else Ok (mkState (seen s) (rest s) Finishing (clock s) (clock s) (next_id s) (closed s), [Callback (i_id x) E_TIMEOUT (clock s); ev])
          | _ =>
              do c <- verdict a ;
              Ok (mkState (seen s) (rest s) Finishing (clock s) (clock s) (next_id s) (closed s), [Callback (i_id x) c (clock s); ev])
          end
      | _, _ => Err tt
      end
  | Finish => (* 257-264 *)
      match ph s, rest s with
      | Finishing, x :: l => Ok (advance (seen s) l (now s) (clock s) (next_id s) (closed s), [])
      | _, _ => Err tt
      end
  | Remove h v => (* 397-410 *)
      do (y, s') <- drop (fun x => (i_handle x =? h) && (i_sub x =? v)) s ;
      Ok (s', match y with Some x => [Dropped (i_id x)] | None => [] end)
  | Close h => (* 435-464; one item of the handle is removed, not all of them *)
      if existsb (Z.eqb h) (closed s) then Err tt else
      do (y, s') <- drop (fun x => i_handle x =? h) s ;
      Ok (mkState (seen s') (rest s') (ph s') (now s') (clock s') (next_id s') (h :: closed s'), match y with Some x => [Dropped (i_id x)] | None => [] end)
  end.
(** the events newest first; no code of its own *)
Fixpoint run (tmo : Z -> Z) (s : state) (tr : list event) (ops : list op) : outcome unit (state * list event) :=
  match ops with
  | [] => Ok (s, tr)
  | o :: ops => do (s', ev) <- step tmo s o ; run tmo s' (ev ++ tr) ops
  end.
(** rbus_handle.c:327-331, continued *)
Definition start (c : Z) : state := mkState [] [] Waiting c c 0 [].
