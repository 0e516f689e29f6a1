(** C54, C60: private connections. *)
From Coq Require Import String.
From Verif Require Import Common CoreModel PrivModel PrivSpec PrivProofs.
Local Open Scope Z_scope.
Local Open Scope list_scope.

(** After any history of opens, closes and provider disconnects (names that fit): exactly
    the expected parameters are open, the parameters of one provider share one living
    connection that no other provider uses, every living connection serves a parameter, and
    no connection is destroyed twice. *)
Theorem C54_connections : forall ops, forallb fits ops = true ->
  exists s, run init ops = Ok s /\ conns_ok s /\ agrees s (spec_run ops).
Proof. exact history. Qed.
Print Assumptions C54_connections.

(** Teardown: with parameters of at most one provider open it ends, with every connection
    destroyed exactly once; with two providers it never ends. *)
Theorem C54_teardown_partial : forall ops s, forallb fits ops = true -> run init ops = Ok s ->
  (one_provider (spec_run ops) ->
    exists fuel s', destroy_all fuel s = Some s' /\ (forall d, find_conn s' d = None) /\
    (forall c, In c (created (notes s')) <-> In c (destroyed (notes s'))) /\ NoDup (destroyed (notes s'))) /\
  (~ one_provider (spec_run ops) -> forall fuel, destroy_all fuel s = None).
Proof. exact teardown_iff. Qed.
Print Assumptions C54_teardown_partial.

Local Open Scope string_scope. Local Open Scope list_scope.
Definition D1 := bs "A.B". Definition D2 := bs "A.C". Definition D3 := bs "X.Y".
Definition P1 := bs "p1". Definition P2 := bs "p2".

(** Closing the last broker connection while direct connections to different providers are open does not end. *)
Theorem C54_teardown_refuted : exists ops s, forallb fits ops = true /\ run init ops = Ok s /\
  forall fuel, destroy_all fuel s = None.
Proof.
  exists [Open D1 (Some P1) true; Open D3 (Some P2) true]. eexists. split; [reflexivity|]. split; [reflexivity|].
  apply (teardown_iff [Open D1 (Some P1) true; Open D3 (Some P2) true]); [reflexivity|reflexivity|].
  intros O. specialize (O D1 P1 D3 P2). cbn in O. discriminate O; auto.
Qed.
Print Assumptions C54_teardown_refuted.

(** A close that the provider does not confirm leaves the parameter open for good: opening
    it again is refused as a duplicate. *)
Theorem C60_reopen_after_close_refuted : exists s s1,
  run init [Open D1 (Some P1) true] = Ok s /\ s1 = close_direct s D1 false /\
  forall p ok, open_direct s1 D1 p ok = Ok (OpenDuplicate, s1).
Proof. eexists. eexists. split; [reflexivity|]. split; [reflexivity|]. reflexivity. Qed.
Print Assumptions C60_reopen_after_close_refuted.
(** A confirmed close does allow it. *)
Theorem C60_reopen_after_close_partial : forall ops s d p, forallb fits ops = true -> run init ops = Ok s ->
  strlen d < 256 -> strlen p < 256 ->
  exists c s2, open_direct (close_direct s d true) d (Some p) true = Ok (OpenOk c, s2).
Proof. exact reopen. Qed.
Print Assumptions C60_reopen_after_close_partial.

Example C54_witness : exists s,
  run init [Open D1 (Some P1) true; Open D2 (Some P1) true; Open D3 (Some P2) true; Open D1 (Some P2) true;
            Close D1 true; Close D2 true; Gone P2; Open D1 (Some P1) true] = Ok s /\
  notes s = [Created 0; Created 1; Destroyed 0; Destroyed 1; Created 2] /\ find_conn s D1 = Some 2%nat.
Proof. eexists. split; [vm_compute; reflexivity|]. split; reflexivity. Qed.
