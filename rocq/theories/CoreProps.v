(** C55: core events. *)
From Coq Require Import String.
From Verif Require Import Common CoreModel CoreSpec CoreProofs.
Local Open Scope Z_scope.
Local Open Scope list_scope.

(** Every step of every history: the callback is called exactly when the membership of
    the listener changes; a publish sends exactly one message to each listener and
    nothing else; no other call does anything observable. *)
Theorem C55_history : forall ops, history_ok [] world0 ops.
Proof. exact history_all. Qed.
Print Assumptions C55_history.

(** While the event stays registered, the 'added' calls minus the 'removed' calls for a
    listener say whether a publish would reach it now: so they alternate. *)
Theorem C55_balance : forall pre ops obj ev l z0 z1, let s := fst (run [] pre) in
  w_ev (world_after [] world0 pre) obj ev = Some true ->
  forallb (fun o => negb (destroys obj ev o)) ops = true ->
  flag (reaches s obj ev l) z0 -> flag (reaches (fst (run s ops)) obj ev l) z1 ->
  times obj ev l true (snd (run s ops)) - times obj ev l false (snd (run s ops)) = z1 - z0.
Proof. exact balance. Qed.
Print Assumptions C55_balance.

(** With at most 30 methods registered by the provider, none of them under a reserved
    name, subscribe and unsubscribe requests for an object with an event reach the
    subscription handler. *)
Theorem C55_requests_dispatched_partial : forall ops obj o, existsb touches_reserved ops = false ->
  count_regmethod ops <= 30 ->
  get_object (fst (run [] ops)) obj = Some o -> (ob_events o <> [] \/ ob_override o = true) ->
  dispatch o METHOD_SUBSCRIBE = TSubscription /\ dispatch o METHOD_UNSUBSCRIBE = TSubscription.
Proof. exact requests_dispatched. Qed.
Print Assumptions C55_requests_dispatched_partial.

Local Open Scope string_scope. Local Open Scope list_scope.
Definition O := bs "obj". Definition E1 := bs "ev". Definition L1 := bs "cli". Definition L2 := bs "cli2".
Definition setup := [RegObj O true; RegEvent O E1 true].

(** Dropping an event drops its listeners without telling the provider: it can see a
    listener added twice with no removal between. *)
Theorem C55_unregister_silent_refuted : exists ops,
  callbacks (snd (run [] ops)) = [SubCallback O E1 L1 true; SubCallback O E1 L1 true].
Proof. exists (setup ++ [Request O E1 L1 true 0; UnregEvent O E1; RegEvent O E1 true; Request O E1 L1 true 0]). vm_compute. reflexivity. Qed.
Print Assumptions C55_unregister_silent_refuted.

(** With 31 methods the unsubscribe handler does not fit; the second registration of the
    event nevertheless reports success, and unsubscribe requests go astray. *)
Theorem C55_requests_dispatched_refuted : exists ops s o,
  fst (run [] ops) = s /\ get_object s O = Some o /\
  fst (fst (step s (RegEvent O E1 true))) = CORE_SUCCESS /\
  ob_events o <> [] /\ dispatch o METHOD_UNSUBSCRIBE = TObject.
Proof.
  exists (RegObj O true :: map (fun i => RegMethod O [Z.of_nat i]) (seq 65 31) ++ [RegEvent O E1 true]).
  eexists. eexists. split; [vm_compute; reflexivity|]. split; [vm_compute; reflexivity|].
  split; [vm_compute; reflexivity|]. split; [discriminate|vm_compute; reflexivity].
Qed.
Print Assumptions C55_requests_dispatched_refuted.

Example C55_witness :
  snd (run [] (setup ++ [Request O E1 L1 true 0; Request O E1 L1 true 0; Request O E1 L2 true 0; Publish O E1;
                         Request O E1 L1 false 0; Request O E1 L1 false 0; Publish O E1])) =
  [SubCallback O E1 L1 true; SubCallback O E1 L2 true; SendEvent O E1 L1; SendEvent O E1 L2;
   SubCallback O E1 L1 false; SendEvent O E1 L2]
  /\ w_ev (world_after [] world0 setup) O E1 = Some true
  /\ reaches (fst (run [] (setup ++ [Request O E1 L1 true 0]))) O E1 L1
  /\ (exists o, get_object (fst (run [] (setup ++ [RegMethod O L1]))) O = Some o /\ ob_events o <> []).
Proof.
  split; [vm_compute; reflexivity|]. split; [vm_compute; reflexivity|]. split; [vm_compute; auto|].
  eexists. split; [vm_compute; reflexivity|discriminate].
Qed.
