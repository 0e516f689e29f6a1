(** C97: a broken connection to the broker is renewed by one thread, once, and
    the listeners are known to the broker again afterwards. *)
From Coq Require Import String.
From Coq Require Import List ZArith Bool Lia ZifyBool.
From Verif Require Import Common CommonFacts ListenModel ReconModel ReconSpec ReconProofs.
Import ListNotations.
Local Open Scope string_scope.
Local Open Scope list_scope.
Local Open Scope Z_scope.

(** As long as sockets can be had: never do two threads renew the connection at once, and the flag
    is up exactly while one does. *)
Theorem C97_one_partial : forall retries s, reach retries s ->
  (forall j k, renewing (threads s j) -> renewing (threads s k) -> j = k) /\
  (in_progress s = true <-> exists k, renewing (threads s k)).
Proof. intros r s R. destruct (reach_owned r s R) as (_ & U & P & _). split; assumption. Qed.
Print Assumptions C97_one_partial.

(** One failure, one renewal: once a thread has begun, whatever happens, at most one socket is
    made as long as no thread comes that met its failure after that. *)
Theorem C97_once : forall retries s k t s1 l s', reach retries s ->
  ReconModel.step retries s (Enter k t) = Ok s1 -> renewing (threads s1 k) ->
  Forall calm l -> Forall (stamps (clock s)) l -> steps retries s1 l = Ok s' ->
  (sockets s <= sockets s' <= S (sockets s))%nat.
Proof.
  intros r s k t s1 l s' R E B C St El. pose proof (reach_owned r s R) as O.
  assert (O1 : owned s1) by (apply (owned_step r s (Enter k t)); [exact O|exact Logic.I|exact E]).
  cut (once s (clock s) s').
  { intros (_ & [(A & _)|(A & _)]); lia. }
  eapply once_steps; [exact O1| |exact C|exact St|exact El].
  cbn [ReconModel.step] in E. destruct (threads s k) eqn:T; try discriminate. destruct (clock s <? t); [discriminate|].
  destruct (fd s) as [f|] eqn:Fd; [|destruct O; congruence].
  destruct (in_progress s) eqn:I; cbn [negb andb] in E.
  { injection E as <-. cbn in B. rewrite Nat.eqb_refl in B. destruct B. }
  destruct (reconnect_time s <? t); injection E as <-; cbn in B; rewrite Nat.eqb_refl in B; [|destruct B].
  split; [reflexivity|]. left. cbn. split; [reflexivity|]. exists k. rewrite Nat.eqb_refl. reflexivity.
Qed.
Print Assumptions C97_once.

(** When a thread that renews comes out, every listener there then is, whether it was there before
    or came meanwhile, has been told to the broker on the new socket. *)
Theorem C97_again_partial : forall retries s k f l s', reach retries s ->
  threads s k = AtSlot 0 -> fd s = Some f -> Forall calm l -> (forall t, ~ In (Enter k t) l) ->
  steps retries s l = Ok s' -> threads s' k = Out ->
  exists l1 l2 s1, l = l1 ++ l2 /\ steps retries s l1 = Ok s1 /\ threads s1 k = Out /\ fd s1 = Some f /\ in_progress s1 = false /\
    forall x, In x (listeners s1) -> In (f, mkWire true (l_expr x) (l_id x)) (sent s1).
Proof.
  intros r s k f l s' R T Fd. pose proof (reach_owned r s R) as O.
  assert (P : passed k f s) by (split; [exact Fd|]; exists 0%nat; split; [auto|intros; lia]). clear R T Fd.
  revert s O P. induction l as [|a l IH]; intros s O (Fd & n & T & H) C NE E T'; cbn [steps] in E.
  - injection E as <-. destruct T; congruence.
  - inversion C; subst. destruct (ReconModel.step r s a) as [s1| |] eqn:S; try discriminate. cbn [obind] in E.
    destruct (passed_step r k f s a s1 O (conj Fd (ex_intro _ n (conj T H))) H2 S) as [P|(A & B & D & K)].
    + destruct (IH s1) as (l1 & l2 & s2 & -> & E1 & X); auto; [eapply owned_step; eauto|intros t It; apply (NE t); right; exact It|].
      exists (a :: l1), l2, s2. split; [reflexivity|]. cbn [steps]. rewrite S. cbn [obind]. split; assumption.
    + exists [a], l, s1. split; [reflexivity|]. cbn [steps]. rewrite S. split; [reflexivity|]. auto.
Qed.
Print Assumptions C97_again_partial.

(** If the listeners do not change meanwhile, exactly they are told, once each and in their order, and
    nothing else. *)
Theorem C97_exactly_partial : forall retries s k f l s' b s2, reach retries s ->
  threads s k = AtSlot 0 -> fd s = Some f -> Forall calm l -> Forall still l -> (forall t, ~ In (Enter k t) l) ->
  steps retries s l = Ok s' -> renewing (threads s' k) ->
  ReconModel.step retries s' (Resend k b) = Ok s2 -> threads s2 k = Out ->
  sent s2 = sent s ++ map (pair f) (adding (listeners s)) /\ fd s2 = Some f /\ sockets s2 = sockets s /\ in_progress s2 = false.
Proof.
  intros r s k f l s' b s2 R T Fd C St NE E B E2 T2. pose proof (reach_owned r s R) as O.
  assert (X : exactly k f s s).
  { split; [exact Fd|]. split; [reflexivity|]. split; [reflexivity|]. exists 0%nat. split; [auto|]. cbn. rewrite app_nil_r. reflexivity. }
  destruct (exactly_steps r k f s l s s' O X C St NE E B) as (O' & X').
  destruct (exactly_step r k f s s' (Resend k b) s2 O' X' Logic.I Logic.I E2) as [(_ & _ & _ & n & [A|A] & _)|(A & D & F & G & H & K)]; [congruence|congruence|].
  auto.
Qed.
Print Assumptions C97_exactly_partial.

(** ... which is what a program that connects for the first time writes when it adds these listeners. *)
Theorem C97_fresh : forall l, (Datatypes.length l <= RTMSG_LISTENERS_MAX)%nat ->
  exists s rs, run init (map (fun x => AddWithId (l_expr x) (l_id x) (l_closure x)) l) = Ok (s, rs) /\
    wire s = adding l /\ Forall (eq RT_OK) rs.
Proof. intros l H. exact (fresh_run l [] RTMSG_LISTENERS_MAX 10000 [] 0 Idle [] [] H). Qed.
Print Assumptions C97_fresh.

(** A thread that finds the connection broken gets it renewed: if the broker takes the connection
    before the tries are used up, the call succeeds and the listeners are known again. *)
Theorem C97_renewed : forall retries s k t n, reach retries s ->
  threads s k = Out -> in_progress s = false -> reconnect_time s < t <= clock s ->
  Z.of_nat n < retries \/ retries < 0 ->
  exists s', steps retries s (Enter k t :: SocketOk k :: repeat (Refused k) n ++ Connected k :: repeat (Resend k true) (S (Datatypes.length (lists s)))) = Ok s' /\
    fd s' = Some (sockets s) /\ threads s' k = Out /\ in_progress s' = false /\ lists s' = lists s /\
    sent s' = sent s ++ map (pair (sockets s)) (adding (listeners s)) /\ results s' = results s ++ [(k, RT_OK)].
Proof.
  intros r s k t n R T I Ht Hn. destruct (reach_owned r s R) as (F & _). destruct (fd s) as [g|] eqn:Fd; [|congruence].
  remember (S (Datatypes.length (lists s))) as m eqn:Em. cbn [steps ReconModel.step]. rewrite T. replace (clock s <? t) with false by lia. rewrite Fd, I. cbn [negb andb].
  replace (reconnect_time s <? t) with true by lia. cbn [obind ReconModel.step]. cbn [threads stamp_now progress at_place]. rewrite Nat.eqb_refl. cbn [obind].
  rewrite steps_app.
  match goal with |- context [steps r ?x (repeat (Refused k) n)] => set (s1 := x) end.
  destruct (refusals r k n 0 s1 false) as (s2 & E2 & T2 & F2 & S2 & L2 & W2 & R2 & I2); [unfold s1; cbn; rewrite Nat.eqb_refl; reflexivity|lia|lia|].
  rewrite E2. cbn [obind steps ReconModel.step]. rewrite T2. cbn [obind]. subst m.
  destruct (sends r k (sockets s) (Datatypes.length (lists s)) 0 (at_place s2 k (AtSlot 0)) s2) as (s3 & E3 & T3 & F3 & L3 & W3 & R3 & I3 & S3).
  - cbn. rewrite Nat.eqb_refl. reflexivity.
  - cbn. rewrite F2. reflexivity.
  - reflexivity.
  - cbn. rewrite app_nil_r. reflexivity.
  - rewrite L2. reflexivity.
  - reflexivity.
  - reflexivity.
  - rewrite E3. exists s3. split; [reflexivity|]. rewrite R3, R2, W3, W2. unfold listeners. rewrite L2.
    split; [exact F3|]. split; [exact T3|]. split; [exact I3|]. split; [rewrite L3, L2; reflexivity|]. auto.
Qed.
Print Assumptions C97_renewed.

(** If it never does, the call gives up after the tries, says so, and leaves the way free for the next one. *)
Theorem C97_gives_up : forall retries s k t, reach retries s ->
  threads s k = Out -> in_progress s = false -> reconnect_time s < t <= clock s -> 0 < retries ->
  exists s', steps retries s (Enter k t :: SocketOk k :: repeat (Refused k) (Z.to_nat retries)) = Ok s' /\
    threads s' k = Out /\ in_progress s' = false /\ lists s' = lists s /\ sent s' = sent s /\ results s' = results s ++ [(k, RT_NO_CONNECTION)].
Proof.
  intros r s k t R T I Ht Hn. destruct (reach_owned r s R) as (F & _). destruct (fd s) as [g|] eqn:Fd; [|congruence].
  cbn [steps ReconModel.step]. rewrite T. replace (clock s <? t) with false by lia. rewrite Fd, I. cbn [negb andb].
  replace (reconnect_time s <? t) with true by lia. cbn [obind ReconModel.step]. cbn [threads stamp_now progress at_place]. rewrite Nat.eqb_refl. cbn [obind].
  match goal with |- context [steps r ?x (repeat (Refused k) _)] => set (s1 := x) end.
  replace (Z.to_nat r) with (Z.to_nat (r - 1) + 1)%nat by lia. rewrite repeat_app, steps_app.
  destruct (refusals r k (Z.to_nat (r - 1)) 0 s1 false) as (s2 & E2 & T2 & F2 & S2 & L2 & W2 & R2 & I2); [unfold s1; cbn; rewrite Nat.eqb_refl; reflexivity|lia|lia|].
  rewrite E2. cbn [repeat obind steps ReconModel.step]. rewrite T2. replace ((0 + Z.of_nat (Z.to_nat (r - 1)) + 1 <? r) || (r <? 0)) with false by lia. cbn [obind].
  eexists. split; [reflexivity|]. cbn. rewrite Nat.eqb_refl, R2, W2, L2. auto.
Qed.
Print Assumptions C97_gives_up.

(** Who comes with a failure that has been dealt with already goes on at once, and nothing is done. *)
Theorem C97_stale : forall retries s k t s', reach retries s ->
  t <= reconnect_time s -> ReconModel.step retries s (Enter k t) = Ok s' ->
  fd s' = fd s /\ sent s' = sent s /\ in_progress s' = in_progress s /\
  if in_progress s then threads s' k = Waits else threads s' k = Out /\ results s' = results s ++ [(k, RT_OK)].
Proof.
  intros r s k t s' R Ht E. destruct (reach_owned r s R) as (F & _). destruct (fd s) as [g|] eqn:Fd; [|congruence].
  cbn [ReconModel.step] in E. destruct (threads s k); try discriminate. destruct (clock s <? t); [discriminate|].
  replace (reconnect_time s <? t) with false in E by lia. rewrite andb_false_r, Fd in E.
  destruct (in_progress s) eqn:I; injection E as <-; cbn; rewrite Nat.eqb_refl; auto.
Qed.
Print Assumptions C97_stale.

(** Two listeners, one of them added late; the broker dies twice. *)
Definition x1 : listener := mkListener 10000 (bs "a") 1.
Definition x2 : listener := mkListener 10001 (bs "b") 2.
Definition t0 : conn := opened [Some x1; None; None] [(0%nat, mkWire true (bs "a") 10000)] 5.

Definition twice : list act := [Tick; Enter 1 6; Enter 2 6; SocketOk 1; Refused 1; Connected 1; Resend 1 true; Listens x2;
                                Resend 1 true; Resend 1 true; Resend 1 true; Wake 2; Enter 3 6].
Definition view (o : outcome unit conn) : option (option nat * nat * bool * list wire_msg * list (nat * Z)) :=
  match o with Ok s => Some (fd s, sockets s, in_progress s, told s 1, results s) | _ => None end.

Example C97_witness :
  reach 3 t0 /\ Forall calm twice /\ view (steps 3 t0 twice) = Some (Some 1%nat, 2%nat, false,
    [mkWire true (bs "a") 10000; mkWire true (bs "b") 10001; mkWire true (bs "b") 10001],
    [(1%nat, RT_OK); (2%nat, RT_OK); (3%nat, RT_OK)]) /\ view (steps 3 t0 [Tick; Enter 1 6; SocketOk 1; Refused 1; Refused 1; Refused 1]) =
    Some (Some 1%nat, 2%nat, false, [], [(1%nat, RT_NO_CONNECTION)]).
Proof.
  split; [exists [Some x1; None; None], [(0%nat, mkWire true (bs "a") 10000)], 5, []; split; [constructor|reflexivity]|].
  split; [unfold twice; repeat constructor|]. split; vm_compute; reflexivity.
Qed.

Definition with_alias : conn := match steps 3 t0 [Tick; Alias (bs "Device.A") 10000] with Ok s => s | _ => t0 end.
Definition renews : list act := [Enter 1 6; SocketOk 1; Connected 1; Resend 1 true; Resend 1 true; Resend 1 true; Resend 1 true].
Definition without_alias : conn := match steps 3 with_alias renews with Ok s => s | _ => t0 end.

(** A data element is added to the program's inbox as an alias (rbus_addElement, rtConnection_AddAlias).
    Aliases are not told to the broker again: after a renewal requests for the element find no one. *)
Theorem C97_alias_refuted :
  ~ (forall retries s k f l s' w, reach retries s -> threads s k = Out -> fd s = Some f -> In (f, w) (sent s) -> w_add w = true ->
       ~ In (f, mkWire false (w_topic w) (w_id w)) (sent s) ->
       Forall calm l -> steps retries s l = Ok s' -> in_progress s' = false ->
       forall g, fd s' = Some g -> In (g, w) (sent s')).
Proof.
  intros H.
  assert (R : reach 3 with_alias).
  { exists [Some x1; None; None], [(0%nat, mkWire true (bs "a") 10000)], 5, [Tick; Alias (bs "Device.A") 10000]. split; [repeat constructor|reflexivity]. }
  assert (D : In (1%nat, mkWire true (bs "Device.A") 10000) (sent without_alias)).
  { eapply (H 3 with_alias 1%nat 0%nat renews without_alias (mkWire true (bs "Device.A") 10000) R).
    - vm_compute. reflexivity.
    - vm_compute. reflexivity.
    - vm_compute. right. left. reflexivity.
    - vm_compute. reflexivity.
    - intros X. vm_compute in X. destruct X as [X|[X|[]]]; discriminate.
    - unfold renews. repeat constructor.
    - vm_compute. reflexivity.
    - vm_compute. reflexivity.
    - vm_compute. reflexivity. }
  vm_compute in D. destruct D as [X|[X|[X|[]]]]; discriminate.
Qed.
Print Assumptions C97_alias_refuted.

(** If no socket can be had once (descriptors used up), the connection looks as if it had never been made: the
    next renewal takes itself for the first connection and does not tell the listeners again. *)
Theorem C97_socket_refuted :
  exists s, steps 3 t0 [Tick; Enter 1 6; SocketFails 1; Tick; Enter 1 7; SocketOk 1; Connected 1] = Ok s /\
    fd s = Some 1%nat /\ in_progress s = false /\ results s = [(1%nat, RT_ERRNO); (1%nat, RT_OK)] /\
    (forall k, threads s k = Out) /\ listeners s = [x1] /\ told s 1 = [].
Proof.
  eexists. split; [vm_compute; reflexivity|]. split; [reflexivity|]. split; [reflexivity|]. split; [reflexivity|].
  split; [intros [|[|k]]; reflexivity|]. split; reflexivity.
Qed.
Print Assumptions C97_socket_refuted.

(** If the descriptor flags cannot be set, the flag stays up though nobody is at work: from then on, whatever
    happens, every thread that meets a failure waits for good and the connection is never renewed. *)
Theorem C97_fcntl_refuted :
  exists s, steps 3 t0 [Tick; Enter 1 6; FcntlFails 1] = Ok s /\
    forall l s', steps 3 s l = Ok s' ->
      fd s' = fd s /\ results s' = results s /\ in_progress s' = true /\ (forall k, ~ renewing (threads s' k)).
Proof.
  eexists. split; [vm_compute; reflexivity|]. intros l s' E.
  match type of E with steps _ ?s _ = _ => assert (D : deserted s) end.
  { split; [discriminate|]. split; [reflexivity|]. intros [|[|k]]; cbn; auto. }
  destruct (deserted_steps _ _ _ _ D E) as ((_ & I & T) & A & B). split; [exact A|]. split; [exact B|]. split; [exact I|].
  intros k. destruct (T k) as [-> | ->]; cbn; auto.
Qed.
Print Assumptions C97_fcntl_refuted.

(** If the broker dies again while the listeners are being told, the send calls for a renewal, which waits for the
    one under way: the thread waits for itself, and whatever happens it never comes out and nobody else does. *)
Theorem C97_stuck_refuted :
  ~ (forall retries s k, reach retries s -> renewing (threads s k) -> exists l s', steps retries s l = Ok s' /\ threads s' k = Out).
Proof.
  intros H.
  assert (R : exists s, steps 3 t0 [Tick; Enter 1 6; SocketOk 1; Connected 1; Resend 1 false] = Ok s) by (eexists; vm_compute; reflexivity).
  destruct R as (s & Es).
  assert (R : reach 3 s) by (exists [Some x1; None; None], [(0%nat, mkWire true (bs "a") 10000)], 5, [Tick; Enter 1 6; SocketOk 1; Connected 1; Resend 1 false]; split; [repeat constructor|exact Es]).
  assert (C : caught 1 s).
  { vm_compute in Es. injection Es as <-. split; [exists 0%nat; reflexivity|]. split; [discriminate|]. split; [reflexivity|].
    intros [|[|j]] Hj; cbn; auto. congruence. }
  destruct (H 3 s 1%nat R) as (l & s' & E & T).
  { destruct C as ((n & ->) & _). exact Logic.I. }
  destruct (caught_steps _ _ _ _ _ C E) as ((n & T') & _). congruence.
Qed.
Print Assumptions C97_stuck_refuted.
