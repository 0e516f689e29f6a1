(** C104, C105: no call leaves a mutex locked; shared tables are only touched under their mutex. *)
From Verif Require Import Common GuardModel GuardSpec GuardProofs.
Local Open Scope list_scope.

Lemma all_released l : forallb is_released l = true -> forall s, In s l -> released s.
Proof. intros H s I. rewrite forallb_forall in H. apply is_released_ok, H, I. Qed.
Lemma core_released : forall s, In s core_api -> released s.
Proof. apply all_released. vm_compute. reflexivity. Qed.
Lemma rbus_released : forall s, In s (rbus_api busy) -> released s.
Proof. apply all_released. vm_compute. reflexivity. Qed.
Lemma threads_released : forall s, In s (threads busy) -> released s.
Proof. apply all_released. vm_compute. reflexivity. Qed.

(** Every call of the API and every function that rbus's threads run, on every path through it, ends, when
    it ends, with exactly the mutexes locked that were locked before, and never waits for a mutex of its own
    thread.  This holds whatever calls the handlers run within make, and however many. *)
Theorem C104_released_partial : forall s, In s (core_api ++ rbus_api busy ++ threads busy) ->
  forall h0 e h' f, fresh_for s h0 -> ex s h0 e h' f -> e <> Cut -> e = Go /\ h' = h0.
Proof.
  intros s I. apply in_app_or in I. destruct I as [I|I]; [exact (core_released _ I)|].
  apply in_app_or in I. destruct I as [I|I]; [exact (rbus_released _ I)|exact (threads_released _ I)].
Qed.
Print Assumptions C104_released_partial.

(** Whatever calls a thread makes one after the other, after each it has no mutex. *)
Theorem C104_calls_released : forall e h', calls (fun s => In s (core_api ++ rbus_api busy ++ threads busy)) [] e h' ->
  e <> Cut -> e = Go /\ h' = [].
Proof.
  intros e h' X NC. eapply calls_released; [|intros s _; apply fresh_nil|exact X|exact NC].
  intros s I h0 e0 h1 f FR Y. exact (C104_released_partial _ I _ _ _ _ FR Y).
Qed.
Print Assumptions C104_calls_released.

(** The same when a client has gone away, if the subscribe handlers run then do not open or close handles or subscribe. *)
Theorem C104_disconnect_released : released (client_disconnect modest).
Proof. apply is_released_ok. vm_compute. reflexivity. Qed.
Print Assumptions C104_disconnect_released.

(** Closing a connection that is not open leaves the mutex of the core locked, and every path does. *)
Theorem C104_close_refuted : (exists f, ex (close_broker false) [] Go [Core] f) /\
  (forall e h f, ex (close_broker false) [] e h f -> e <> Cut -> h = [Core]).
Proof.
  split; [apply has_exit_ok; vm_compute; reflexivity|].
  intros e h f X NC. destruct (ana_covers (close_broker false) [] [] (fresh_nil _) _ _ _ X _ _ eq_refl) as [_ [|(d & D & ->)]]; [contradiction|].
  cbv in D. destruct D as [D|[]]. inversion D; subst. reflexivity.
Qed.
Print Assumptions C104_close_refuted.

(** A subscribe handler that opens a handle, run because a client has gone away, waits for ever for a mutex that
    its own thread has. *)
Theorem C104_handler_refuted : exists h f, ex (client_disconnect open_handle) [] Stuck h f /\ In Rbus h.
Proof.
  destruct (has_exit_ok Stuck [Elm; Subs; Rbus] (client_disconnect open_handle)) as [f F]; [vm_compute; reflexivity|].
  exists [Elm; Subs; Rbus], f. split; [exact F|]. cbn; auto.
Qed.
Print Assumptions C104_handler_refuted.

(** The listed functions, on every path and at every moment, take no mutex that their own thread has, give none
    back that it has not, and touch no guarded data without its mutex. *)
Theorem C105_guarded_partial : forall s, In s careful -> forall h0 e h' f, fresh_for s h0 -> ex s h0 e h' f -> f = [].
Proof.
  assert (H : forallb (is_only []) careful = true) by (vm_compute; reflexivity).
  intros s I. rewrite forallb_forall in H. exact (guarded_ok _ (H _ I)).
Qed.
Print Assumptions C105_guarded_partial.

(** The others do, and these are all the ways in which they do. *)
Theorem C105_confined : forall s l, In (s, l) careless -> only l s.
Proof.
  assert (H : forallb (fun x => is_only (snd x) (fst x)) careless = true) by (vm_compute; reflexivity).
  intros s l I. rewrite forallb_forall in H. exact (is_only_ok _ _ (H _ I)).
Qed.
Print Assumptions C105_confined.

(** Handlers of methods, of events of the core, of raw data and of asynchronous subscriptions are run with no
    mutex locked: whatever mutexes they take and give back, no fault comes of it. *)
Theorem C105_handlers_free : guarded (dispatch_method_call probe) /\ guarded (master_event probe) /\
  guarded (raw_callback probe) /\ guarded (async_callback probe) /\ only [Bare Serv] (on_direct_message probe) /\ only [Bare Queue] (async_thread probe).
Proof.
  repeat match goal with |- _ /\ _ => split end; try (apply guarded_ok; vm_compute; reflexivity); apply is_only_ok; vm_compute; reflexivity.
Qed.
Print Assumptions C105_handlers_free.

(** Each fault of the list can be had. *)
Theorem C105_careless_refuted : forall s l, In (s, l) careless -> forall q, In q l -> exists e h f, ex s [] e h f /\ In q f.
Proof.
  assert (H : forallb (fun x => forallb (fun q => has_fault q (fst x)) (snd x)) careless = true) by (vm_compute; reflexivity).
  intros s l I q Q. rewrite forallb_forall in H. specialize (H _ I). cbn [fst snd] in H. rewrite forallb_forall in H. exact (has_fault_ok _ _ (H _ Q)).
Qed.
Print Assumptions C105_careless_refuted.

(** An event handler that unsubscribes takes the mutex of the list of subscriptions again, and when it returns the
    event's delivery gives back a mutex that is no longer its own; a get handler run by the polling thread has the
    mutex of the watched parameters, and one run for a subscriber has its element's. *)
Theorem C105_handlers_refuted :
  (exists e h f, ex (event_callback unsubscribe) [] e h f /\ In (Again Esubs) f) /\
  (exists e h f, ex (event_callback unsubscribe) [] e h f /\ In (Foreign Esubs) f) /\
  (exists e h f, ex (polling_thread probe) [] e h f /\ In (Again Vc) f) /\
  (exists e h f, ex (subscribe_impl probe) [] e h f /\ In (Again Elm) f).
Proof. repeat split; apply has_fault_ok; vm_compute; reflexivity. Qed.
Print Assumptions C105_handlers_refuted.

(** a subscription is published under its mutexes to the end *)
Example C104_witness : (exists f, ex publish [] Go [] f) /\ (exists f, ex (event_callback busy) [] Go [] f) /\ In publish (rbus_api busy) /\ fresh_for publish [Elm].
Proof.
  split; [apply has_exit_ok; vm_compute; reflexivity|]. split; [apply has_exit_ok; vm_compute; reflexivity|].
  split; [do 9 right; left; reflexivity|]. intros m M [<-|[]]. vm_compute in M. repeat (destruct M as [M|M]; [discriminate|]). destruct M.
Qed.
(** each careful function can be run to its end, and takes a mutex on the way *)
Example C105_witness : forall s, In s careful -> (exists f, ex s [] Go [] f) /\ muts s <> [].
Proof.
  assert (H : forallb (fun s => andb (has_exit Go [] s) (match muts s with [] => false | _ => true end)) careful = true) by (vm_compute; reflexivity).
  intros s I. rewrite forallb_forall in H. specialize (H _ I). apply andb_prop in H. destruct H as [H1 H2].
  split; [exact (has_exit_ok _ _ _ H1)|]. intros E. rewrite E in H2. discriminate.
Qed.
