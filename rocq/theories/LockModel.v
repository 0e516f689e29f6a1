(** Model of the locking in the provider side of rbus: which mutexes the threads take and release, in
    which order, and which threads they join.  A thread is the list of its remaining lock operations;
    loops appear with every number of iterations.  What is computed between the operations, and the
    mutexes of the message layer below, are left out. *)
From Verif Require Import Common.
Local Open Scope list_scope.

(** [LSubs h]: handle_subsMutex of handle [h] (rbus_handle.h:68-86); [LVc]: gVC->mutex
    (rbus_valuechange.c:57-58); [LG]: gMutex (rbus_intervalsubscription.c:47); [LRec t]: mutex of the record of
    publishing thread [t] (rbus_intervalsubscription.c:48-58); [LElm n]: elmMutex (rbus_element.h:35-54).
    [LDone t] is held by thread [t] until it ends; pthread_join is taking and releasing it. *)
Inductive lock := LSubs (h : nat) | LVc | LG | LRec (t : nat) | LElm (n : nat) | LDone (t : nat).
(** rbus_handle.h:68-86, continued *)
Definition lock_eq_dec : forall a b : lock, {a = b} + {a <> b}.
Proof. decide equality; apply Nat.eq_dec. Defined.
(** rbus_handle.h:68-86, continued *)
Inductive act := Acq (m : lock) | Rel (m : lock).
(** rbus_handle.h:68-86, continued *)
Definition with_lock (m : lock) (p : list act) : list act := Acq m :: p ++ [Rel m].
(** rbus_handle.h:68-86, continued *)
Definition join (t : nat) : list act := with_lock (LDone t) [].

(** Requests handled by a thread that executes API calls or callbacks for a handle. each case cites its function in [prog] *)
Inductive request :=
  | GetValue (n : nat)                       (** a get handler is called, e.g. rbus.c:1752-1850 *)
  | SetValue (n : nat) (publishes : bool)    (** rbus.c:1574-1576; the set handler may publish an event *)
  | Publish                                  (** rbus.c:5956-6031 rbusEvent_Publish *)
  | SubValue (n : nat)                       (** rbus.c:1091-1236 subscribeHandlerImpl for a property without interval *)
  | UnsubValue (n : nat) (last : option nat) (** [Some t]: nothing is left to poll, thread [t] is joined *)
  | SubInterval (n : nat)                    (** subscribeHandlerImpl with an interval *)
  | UnsubInterval (n t : nat)
  | AddRow (ns : list nat)                   (** rbus.c:1239-1300 registerTableRow; [ns] are the watched properties of the row *)
  | RemoveRow (ns : list nat).               (** rbus.c:1302-1330 unregisterTableRow, while others stay watched *)
(** rbus_valuechange.c:247-328 AddPropertyNode *)
Definition watch (n : nat) : list act := with_lock LVc [] ++ with_lock (LElm n) [] ++ with_lock LVc [].
(** rbus_valuechange.c:330-370 RemovePropertyNode *)
Definition unwatch (last : option nat) : list act := with_lock LVc [] ++ match last with Some t => join t | None => [] end.
(** rbus_intervalsubscription.c:217-263 AddSubscriptionRecord (the push at line 260 is not locked) *)
Definition add_record : list act := with_lock LG [].
(** rbus_intervalsubscription.c:266-301 RemoveSubscriptionRecord *)
Definition remove_record (t : nat) : list act := with_lock LG [] ++ join t ++ with_lock LG [].
(** rbus_intervalsubscription.c:266-301, continued *)
Definition request_prog (h : nat) (r : request) : list act :=
  match r with
  | GetValue n => with_lock (LElm n) []
  | SetValue n p => with_lock (LElm n) (if p then with_lock (LSubs h) [] else [])
  | Publish => with_lock (LSubs h) []
  | SubValue n => with_lock (LElm n) [] ++ with_lock (LSubs h) (watch n)
  | UnsubValue n last => with_lock (LElm n) [] ++ with_lock (LSubs h) (unwatch last)
  | SubInterval n => with_lock (LElm n) [] ++ with_lock (LSubs h) add_record
  | UnsubInterval n t => with_lock (LElm n) [] ++ with_lock (LSubs h) (remove_record t)
  | AddRow ns => with_lock (LSubs h) [] ++ flat_map watch ns ++ with_lock (LSubs h) []
  | RemoveRow ns => flat_map (fun _ => unwatch None) ns ++ with_lock (LSubs h) [] ++ with_lock (LSubs h) []
  end.
(** rbus_valuechange.c:158-239: one record of a poll; [change] is the handle of a record whose value
    changed, for which the event is published *)
Definition poll_record (p : nat * option nat) : list act :=
  with_lock (LElm (fst p)) [] ++ match snd p with Some h => with_lock (LSubs h) [] | None => [] end.
(** rbus_valuechange.c:132-244: the mutex is released only in the timed waits between the polls *)
Definition poll_prog (t : nat) (polls : list (list (nat * option nat))) : list act :=
  Acq LVc :: flat_map (fun l => [Rel LVc; Acq LVc] ++ flat_map poll_record l) polls ++ [Rel LVc; Rel (LDone t)].
(** rbus_intervalsubscription.c:105-214 PublishingThreadFunc: [reads] are the elements read in each
    round; [completes]: it ends because the duration is over *)
Definition publisher_prog (t h : nat) (reads : list (list nat)) (completes : bool) : list act :=
  Acq (LRec t) :: flat_map (fun l => [Rel (LRec t); Acq (LRec t)] ++ flat_map (fun n => with_lock (LElm n) []) l) reads ++ [Rel (LRec t)] ++
  (if completes then with_lock LG (with_lock (LSubs h) []) else []) ++ [Rel (LDone t)].

(** the threads of a process: those that execute rbus.c for a handle, rbus_valuechange.c:127-240, rbus_intervalsubscription.c:105-214 *)
Inductive thread := Api (h : nat) (l : list request) | Poller (t : nat) (polls : list (list (nat * option nat))) | Publisher (t h : nat) (reads : list (list nat)) (completes : bool).
(** helper, no code of its own *)
Definition thread_prog (x : thread) : list act :=
  match x with Api h l => flat_map (request_prog h) l | Poller t l => poll_prog t l | Publisher t h l c => publisher_prog t h l c end.
(** helper, no code of its own *)
Definition token (x : thread) : option nat := match x with Api _ _ => None | Poller t _ | Publisher t _ _ _ => Some t end.

(** Who holds a lock, and what the threads still have to do. pthread mutexes and threads *)
Record sys := mkSys { owner : lock -> option nat; progs : list (list act) }.
(** helper, no code of its own *)
Definition own (f : lock -> option nat) (m : lock) (v : option nat) : lock -> option nat := fun k => if lock_eq_dec k m then v else f k.
(** helper, no code of its own *)
Fixpoint set_prog (i : nat) (p : list act) (l : list (list act)) : list (list act) :=
  match l, i with [], _ => [] | _ :: l, O => p :: l | x :: l, S i => x :: set_prog i p l end.
(** Thread [i] does its next operation, if it can. pthread_mutex_lock, pthread_mutex_unlock, pthread_join *)
Definition go (s : sys) (i : nat) : option sys :=
  match nth_error (progs s) i with
  | Some (Acq m :: p) => match owner s m with None => Some (mkSys (own (owner s) m (Some i)) (set_prog i p (progs s))) | Some _ => None end
  | Some (Rel m :: p) => Some (mkSys (own (owner s) m None) (set_prog i p (progs s)))
  | _ => None
  end.
(** a schedule; no code of its own *)
Fixpoint gos (s : sys) (l : list nat) : option sys :=
  match l with [] => Some s | i :: l => match go s i with Some s' => gos s' l | None => None end end.
(** At the start the threads hold nothing but their own [LDone]. a thread is joined by waiting for its token *)
Fixpoint done_owner (i : nat) (l : list thread) (t : nat) : option nat :=
  match l with [] => None | x :: l => if match token x with Some u => Nat.eqb u t | None => false end then Some i else done_owner (S i) l t end.
(** helper, no code of its own *)
Definition start (l : list thread) : sys := mkSys (fun m => match m with LDone t => done_owner 0 l t | _ => None end) (map thread_prog l).
