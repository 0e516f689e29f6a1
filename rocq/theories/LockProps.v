(** Properties of the locking: C40, C64. *)
From Coq Require Import Lia.
From Verif Require Import Common LockModel LockSpec LockProofs.
Local Open Scope list_scope.

(** Any number of threads that serve any requests, of publishing threads that do not complete and of
    polling threads that find no change: whatever the schedule, while something is left to do some
    thread can do it; every schedule ends. *)
Theorem C40_unsubscribe_partial : forall l, NoDup (tokens l) -> forallb calm l = true ->
  never_blocks (start l) /\ (forall sched s', gos (start l) sched = Some s' -> (length sched <= work (start l))%nat) /\
  forall sched s', gos (start l) sched = Some s' -> exists more s'', gos s' more = Some s'' /\ finished s''.
Proof.
  intros l N C. pose proof (good_start l N C) as G. repeat split.
  - intros sched s' E. apply good_progress. eapply good_gos; eauto.
  - intros sched s' E. apply gos_work in E. lia.
  - intros sched s' E. eapply good_finishes; [apply le_n|]. eapply good_gos; eauto.
Qed.
Print Assumptions C40_unsubscribe_partial.
Definition crowd := [Api 1 [SubValue 5; UnsubInterval 6 0; Publish]; Publisher 0 1 [[6]; [6; 7]; [6]] false; Poller 1 [[(5, None); (6, None)]; [(5, None)]];
  Api 1 [UnsubValue 5 (Some 1); SetValue 5 false]; Api 2 [AddRow [8; 9]; RemoveRow [8; 9]; SubInterval 8; GetValue 5]].
Definition stuck (s : sys) (n : nat) : bool := forallb (fun i => match go s i with None => true | Some _ => false end) (List.seq 0 n) && existsb (fun p => match p with [] => false | _ => true end) (progs s).
Example C40_witness : NoDup (tokens crowd) /\ forallb calm crowd = true /\ work (start crowd) = 94%nat /\
  match gos (start crowd) [0; 0; 0; 0; 1] with Some s => match go s 2, go s 0 with None, Some _ => true | _, _ => false end | None => false end = true.
Proof. split; [vm_compute; repeat constructor; cbn; intuition discriminate|]. split; [reflexivity|]. split; vm_compute; reflexivity. Qed.

(** A thread is blocked for good: no schedule lets it go on. *)
Definition blocked_for_ever (s : sys) (i : nat) : Prop := (exists a p, nth_error (progs s) i = Some (a :: p)) /\ forall sched s', gos s sched = Some s' -> nth_error (progs s') i = nth_error (progs s) i.
Lemma stuck_for_ever s i : (exists a p, nth_error (progs s) i = Some (a :: p)) -> stuck s (length (progs s)) = true -> blocked_for_ever s i.
Proof.
  intros U S. split; [exact U|]. apply andb_prop in S as [S _]. intros [|j sched] s' E; [injection E as <-; reflexivity|]. exfalso. cbn in E.
  destruct (go s j) eqn:G; [|discriminate E]. rewrite forallb_forall in S. assert (J : In j (List.seq 0 (length (progs s)))).
  { apply in_seq. split; [lia|]. cbn. unfold go in G. destruct (nth_error (progs s) j) eqn:N; [|discriminate G]. apply nth_error_Some. congruence. }
  apply S in J. rewrite G in J. discriminate J.
Qed.
Definition after (l : list thread) (sched : list nat) : sys := match gos (start l) sched with Some s => s | None => start [] end.
(** Unsubscribing when the duration of the subscription is just over: the publishing thread waits for
    the subscription list, which the unsubscribing thread has while it waits for the thread to end. *)
Theorem C40_complete_refuted : exists sched s, gos (start [Api 1 [UnsubInterval 5 0]; Publisher 0 1 [] true]) sched = Some s /\ blocked_for_ever s 0 /\ blocked_for_ever s 1.
Proof.
  exists [0; 0; 0; 0; 0; 1; 1; 1]. exists (after [Api 1 [UnsubInterval 5 0]; Publisher 0 1 [] true] [0; 0; 0; 0; 0; 1; 1; 1]). split; [reflexivity|].
  split; (apply stuck_for_ever; [do 2 eexists; vm_compute; reflexivity|vm_compute; reflexivity]).
Qed.
Print Assumptions C40_complete_refuted.
(** Another subscriber that subscribes with an interval at that moment is enough. *)
Theorem C40_subscribe_refuted : exists sched s, gos (start [Api 1 [SubInterval 6]; Publisher 0 1 [[5]] true]) sched = Some s /\ blocked_for_ever s 0 /\ blocked_for_ever s 1.
Proof.
  exists [0; 0; 0; 1; 1; 1; 1; 1; 1; 1]. exists (after [Api 1 [SubInterval 6]; Publisher 0 1 [[5]] true] [0; 0; 0; 1; 1; 1; 1; 1; 1; 1]). split; [reflexivity|].
  split; (apply stuck_for_ever; [do 2 eexists; vm_compute; reflexivity|vm_compute; reflexivity]).
Qed.
Print Assumptions C40_subscribe_refuted.

(** C64: without interval subscriptions that complete, set handlers that publish and changed values. *)
Theorem C64_progress_partial : forall l, NoDup (tokens l) -> forallb calm l = true -> never_blocks (start l).
Proof. intros l N C. exact (proj1 (C40_unsubscribe_partial l N C)). Qed.
Print Assumptions C64_progress_partial.
Example C64_witness : NoDup (tokens crowd) /\ forallb calm crowd = true.
Proof. split; [exact (proj1 C40_witness)|reflexivity]. Qed.
(** A poll that finds a changed value, against a thread that subscribes to (or unsubscribes from) any
    property of the handle. *)
Theorem C64_poll_refuted : exists sched s, gos (start [Api 1 [SubValue 6]; Poller 0 [[(5, Some 1)]]]) sched = Some s /\ blocked_for_ever s 0 /\ blocked_for_ever s 1.
Proof.
  exists [1; 1; 1; 1; 1; 0; 0; 0]. exists (after [Api 1 [SubValue 6]; Poller 0 [[(5, Some 1)]]] [1; 1; 1; 1; 1; 0; 0; 0]). split; [reflexivity|].
  split; (apply stuck_for_ever; [do 2 eexists; vm_compute; reflexivity|vm_compute; reflexivity]).
Qed.
Print Assumptions C64_poll_refuted.
(** A set handler that publishes an event, against a thread that subscribes to the same property. *)
Theorem C64_handler_refuted : exists sched s, gos (start [Api 1 [SetValue 5 true]; Api 1 [SubValue 5]]) sched = Some s /\ blocked_for_ever s 0 /\ blocked_for_ever s 1.
Proof.
  exists [1; 1; 1; 1; 1; 0]. exists (after [Api 1 [SetValue 5 true]; Api 1 [SubValue 5]] [1; 1; 1; 1; 1; 0]). split; [reflexivity|].
  split; (apply stuck_for_ever; [do 2 eexists; vm_compute; reflexivity|vm_compute; reflexivity]).
Qed.
Print Assumptions C64_handler_refuted.
