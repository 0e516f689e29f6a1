(** Model of raw data subscriptions and the direct connections beside them: src/rbus/rbus.c 338-406,
    3079-3161, 4950-5019, 5021-5333, 5454-5492, 5848-5905 on top of the message listeners of TapModel.
    Simplifications: one consumer with one handle that stays open, and only its raw data subscriptions
    without filter; calls and messages do not overlap; an entry of eventSubs is freed together with its
    subscription, so the name is kept in the entry; a provider is a counter of subscription numbers and
    the list of what it holds; the broker delivers to the listeners of the connection. *)
From Coq Require Import String.
From Verif Require Import Common Bytes TextModel Errors ListenModel.
From Verif Require TapModel.
From Coq Require Import List ZArith Bool.
Import ListNotations.
Local Open Scope string_scope.
Local Open Scope list_scope.
Local Open Scope Z_scope.
Notation name := (list Z).

(** rbus.c 112-119 rbusEventSubscriptionInternal_t; [e_sub]: the subscription it points to *)
Record entry := mkEntry { e_name : name; e_sub : nat; e_id : Z; e_dirty : bool }.
(** [closures]: handle and subscription of each listener, in the order of their making; no handle is the
    consumer's own; [subs]: the subscriptions, [None] once freed; [ents]: handle->eventSubs; [handles]:
    whether a direct handle is not freed yet; [opened]: the direct handle of a name; [next], [held]: the
    providers' number for the next subscription and what they hold; rbus.c 100-119, rbus_subscriptions.c 126, 158-165 *)
Record state := mkState { tap : TapModel.state; closures : list (option nat * nat); subs : list (option (name * Z)); ents : list entry;
  handles : list bool; opened : list (name * nat); next : nat -> Z; held : list (name * Z) }.
(** a consumer without subscriptions; rbus.c 3001-3028, rbus_subscriptions.c 126 *)
Definition init : state := mkState TapModel.init [] [] [] [] [] (fun _ => 3) [].
(** helper, no code of its own *)
Definition set_tap (s : state) (t : TapModel.state) : state := mkState t (closures s) (subs s) (ents s) (handles s) (opened s) (next s) (held s).
(** helper, no code of its own *)
Definition set_ents (s : state) (l : list entry) : state := mkState (tap s) (closures s) (subs s) l (handles s) (opened s) (next s) (held s).
(** helper, no code of its own *)
Definition set_held (s : state) (l : list (name * Z)) : state := mkState (tap s) (closures s) (subs s) (ents s) (handles s) (opened s) (next s) l.

(** rbus.c 5302, 5323: snprintf into RBUS_MAX_NAME_LENGTH bytes *)
Definition raw (e : name) : name := firstn 255 (bs "rawdata." ++ e).
(** a call of rbus_message.c; its result *)
Definition call (s : state) (o : TapModel.op) : outcome unit (state * Z) :=
  do (t, r) <- TapModel.step (tap s) o ;
  Ok (set_tap s t, match r with [TapModel.Code c] => c | [TapModel.Answer b] => if b then 1 else 0 | _ => 0 end).
(** a new listener: its handle and subscription; rbus_message.c 136-142, 173-179 *)
Definition closure (s : state) (h : option nat) (p : nat) : state * Z :=
  (mkState (tap s) (closures s ++ [(h, p)]) (subs s) (ents s) (handles s) (opened s) (next s) (held s), Z.of_nat (length (closures s))).
(** rbusMessage_HasListener and then rbusMessage_RemoveListener; rbus.c 354-361, 4979-4986, 5304-5311 *)
Definition unlisten (s : state) (e : name) (id : Z) : outcome unit state :=
  do (s, b) <- call s (TapModel.HasListener (raw e)) ;
  if b =? 1 then do (s, _) <- call s (TapModel.RemoveListener (raw e) id) ; Ok s else Ok s.
(** rbus.c 5312-5314, 363-366 *)
Definition listen_direct (s : state) (e : name) (p : nat) (id : Z) : outcome unit (state * Z) :=
  let (s, k) := closure s None p in call s (TapModel.AddPrivate e id k).
(** rbus.c 5323-5325, 397-398: [h] is the handle it is added with *)
Definition listen_broker (s : state) (h : option nat) (e : name) (p : nat) (id : Z) : outcome unit (state * Z) :=
  let (s, k) := closure s h p in call s (TapModel.AddListener (raw e) id k).
(** libc free, of a subscription *)
Definition free_sub (s : state) (p : nat) : outcome unit state :=
  match nth_error (subs s) p with
  | Some (Some _) => Ok (mkState (tap s) (closures s) (firstn p (subs s) ++ None :: skipn (S p) (subs s)) (ents s) (handles s) (opened s) (next s) (held s))
  | _ => UB
  end.
(** rbus.c 308-324 rbusEventSubscription_find *)
Definition find_ent (s : state) (e : name) : option entry := find (fun x => bytes_eqb (e_name x) e) (ents s).
(** rtVector_RemoveItem: the entry, known by its subscription; rtVector.c 100-125 *)
Definition drop_ent (s : state) (x : entry) : state := set_ents s (filter (fun y => negb (Nat.eqb (e_sub y) (e_sub x))) (ents s)).
(** the dirty flag of an entry; rbus.c 5049, 5006, 5185 *)
Definition mark (s : state) (x : entry) (d : bool) : state :=
  set_ents s (map (fun y => if Nat.eqb (e_sub y) (e_sub x) then mkEntry (e_name y) (e_sub y) (e_id y) d else y) (ents s)).

(** what the provider answers: it accepts, it is not there, it refuses with a code, it has the subscription already *)
Inductive answer := Accept | NoProvider | Refuse (c : Z) | Exists_.
(** what others see: a result code, a handler run for a published event *)
Inductive effect := Code (c : Z) | Ran (h : Z) (e : name).

(** rbus.c 4950-5019 _rbus_event_unsubscribe; [Refuse], [Exists_]: any failure but a missing provider *)
Definition withdraw (s : state) (x : entry) (a : answer) : outcome unit (state * Z) :=
  do (s, c) <- match TapModel.connection_of (tap s) (e_name x) with
               | Some _ => call s (TapModel.RemovePrivate (e_name x) (e_id x))
               | None => do s <- unlisten s (e_name x) (e_id x) ; Ok (s, E_SUCCESS)
               end ;
  match a with
  | NoProvider => Ok (mark s x true, E_DESTINATION_NOT_FOUND)
  | Accept => Ok (drop_ent (set_held s (filter (fun p => negb (bytes_eqb (fst p) (e_name x))) (held s))) x, c)
  | _ => Ok (drop_ent s x, c)
  end.

(** rbus.c 5222-5269 _subscribe_rawdata_handler for the listener with closure [k]; [u]: the answer to its request *)
Definition handler (s : state) (k : Z) (e : name) (u : answer) : outcome unit (state * list effect) :=
  match nth_error (closures s) (Z.to_nat k) with
  | None => UB
  | Some (h, p) =>
    if match h with Some d => negb (nth d (handles s) false) | None => false end then UB else
    match nth_error (subs s) p with
    | Some (Some (n, f)) =>
      match find_ent s n with
      | Some x =>
        if e_dirty x then
          do (s, c) <- withdraw s x u ;
          if c =? E_DESTINATION_NOT_FOUND then Ok (s, [Ran f e]) else
          do (s, b) <- call s (TapModel.HasListener (raw n)) ;
          if b =? 1 then do (s, _) <- call s (TapModel.RemoveListener (raw n) (e_id x)) ; do s <- free_sub s (e_sub x) ; Ok (s, []) else Ok (s, [])
        else Ok (s, [Ran f e])
      | None => Ok (s, [Ran f e])
      end
    | _ => UB
    end
  end.
(** messages, one after the other, each to the listener with its number; rtConnection.c 1792-1841 *)
Fixpoint deliver (s : state) (l : list (nat * Z)) (e : name) (u : answer) : outcome unit (state * list effect) :=
  match l with
  | [] => Ok (s, [])
  | (c, id) :: l =>
    do (t, r) <- TapModel.step (tap s) (TapModel.Message c id false) ;
    do (s, r) <- match r with [TapModel.Called k] => handler (set_tap s t) k e u | _ => Ok (set_tap s t, []) end ;
    do (s, rs) <- deliver s l e u ; Ok (s, r ++ rs)
  end.

(** rbus.c 345-373 rbusOpenDirect_SubAdd; raw data entries *)
Fixpoint move_in (s : state) (l : list entry) (e : name) : outcome unit state :=
  match l with
  | [] => Ok s
  | x :: l => if bytes_eqb (e_name x) e then do s <- unlisten s e (e_id x) ; do (s, _) <- listen_direct s e (e_sub x) (e_id x) ; move_in s l e else move_in s l e
  end.
(** rbus.c 385-404 rbusCloseDirect_SubRemove with the direct handle [d] *)
Fixpoint move_out (s : state) (d : nat) (l : list entry) (e : name) : outcome unit state :=
  match l with
  | [] => Ok s
  | x :: l => if bytes_eqb (e_name x) e then do (s, _) <- call s (TapModel.RemovePrivate e (e_id x)) ; do (s, _) <- listen_broker s (Some d) e (e_sub x) (e_id x) ; move_out s d l e else move_out s d l e
  end.

(** the calls and the publishing of raw data; each is cited at [step] *)
Inductive op := Subscribe (e : name) (h : Z) (a : answer) | Unsubscribe (e : name) (a : answer) | OpenDirect (e : name) | CloseDirect (e : name) | Publish (e : name) (u : answer).
(** one step; [home e]: the provider of [e]; [Err]: the program does not do this; rbus.c, the lines are at each case *)
Definition step (home : name -> nat) (s : state) (o : op) : outcome unit (state * list effect) :=
  match o with
  (* 5271-5333 with 5040-5060, 5136-5219; the number comes from rbus_subscriptions.c 126, 158-165 *)
  | Subscribe e h a =>
    let old := find_ent s e in
    match old with
    | Some (mkEntry _ _ _ false) => Ok (s, [Code E_SUBSCRIPTION_ALREADY_EXIST])
    | _ =>
      let s := match old with Some x => mark s x false | None => s end in
      match a with
      | Accept =>
        do s <- match old with Some x => free_sub (drop_ent s x) (e_sub x) | None => Ok s end ;
        let p := length (subs s) in
        let id := next s (home e) in
        let s := mkState (tap s) (closures s) (subs s ++ [Some (e, h)]) (ents s ++ [mkEntry e p id false]) (handles s) (opened s)
                   (fun n => if Nat.eqb n (home e) then (id + 1) mod 2 ^ 32 else next s n) (held s ++ [(e, id)]) in
        do (s, c) <- match TapModel.connection_of (tap s) e with
                     | Some _ => do s <- unlisten s e id ; listen_direct s e p id
                     | None => listen_broker s None e p id
                     end ;
        Ok (s, [Code c])
      | NoProvider => Ok (match old with Some x => mark s x true | None => s end, [Code E_TIMEOUT])
      | Refuse c => Ok (s, [Code c])
      | Exists_ => UB (* 5195-5206, 5320: the new entry's rawData is compared without having been set *)
      end
    end
  (* 5454-5492 *)
  | Unsubscribe e a =>
    match find_ent s e with
    | None => Ok (s, [Code E_INVALID_OPERATION])
    | Some x =>
      do (s, c) <- withdraw s x a ;
      if c =? E_DESTINATION_NOT_FOUND then Ok (s, [Code E_SUCCESS]) else do s <- free_sub s (e_sub x) ; Ok (s, [Code c])
    end
  (* 3079-3129 *)
  | OpenDirect e =>
    match TapModel.connection_of (tap s) e with
    | Some _ => Ok (s, [Code E_ELEMENT_NAME_DUPLICATE])
    | None =>
      do (s, _) <- call s (TapModel.Open e (home e)) ;
      let s := mkState (tap s) (closures s) (subs s) (ents s) (handles s ++ [true]) (opened s ++ [(e, length (handles s))]) (next s) (held s) in
      do s <- move_in s (ents s) e ;
      Ok (s, [Code E_SUCCESS])
    end
  (* 3131-3161 *)
  | CloseDirect e =>
    match find (fun p => bytes_eqb (fst p) e) (opened s) with
    | None => Err tt
    | Some (_, d) =>
      do s <- move_out s d (ents s) e ;
      do (s, _) <- call s (TapModel.Close e) ;
      Ok (mkState (tap s) (closures s) (subs s) (ents s) (firstn d (handles s) ++ false :: skipn (S d) (handles s))
            (filter (fun p => negb (bytes_eqb (fst p) e)) (opened s)) (next s) (held s), [Code E_SUCCESS])
    end
  (* 5848-5905, rbuscore.c 1818-1830: to the consumer's direct connection, and to the topic of the event *)
  | Publish e u =>
    let direct := match TapModel.connection_of (tap s) e with Some c => map (fun p => (c, snd p)) (filter (fun p => bytes_eqb (fst p) e) (held s)) | None => [] end in
    let broker := flat_map (fun o => match o with Some l => if bytes_eqb (l_expr l) (raw e) then [(0%nat, l_id l)] else [] | None => [] end) (TapModel.table (tap s) 0%nat) in
    deliver s (direct ++ broker) e u
  end.
(** A history: one step after the other; no code of its own. *)
Fixpoint run (home : name -> nat) (s : state) (l : list op) : outcome unit (state * list (list effect)) :=
  match l with
  | [] => Ok (s, [])
  | o :: l => do (s, r) <- step home s o ; do (s, rs) <- run home s l ; Ok (s, r :: rs)
  end.
