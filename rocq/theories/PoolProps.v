(** Theorems about the thread pool (C51, C66). *)
From Verif Require Import Common CommonFacts PoolModel PoolSpec PoolProofs.
From Coq Require Import Permutation.
Local Open Scope list_scope.
Local Open Scope Z_scope.

(** Under every schedule the tasks begun are the first ones submitted, in their order, and each task
    begun is either still being executed by one worker or has ended, once. *)
Theorem C51_once : forall m ops p tr, run (create m) ops = Ok (p, tr) ->
  submitted tr = began tr ++ queue p /\ Permutation (began tr) (ended tr ++ tasks (workers p)).
Proof. intros m ops p tr R. pose proof (run_inv ops _ [] _ _ (inv_create m) R) as I. cbn in I. destruct I as [_ _ O P]. auto. Qed.
Print Assumptions C51_once.

(** As long as no submission falls between the time out of a worker and its taking the mutex, threads
    can be created and the pool is not stopped, the workers come to rest, whatever the order of their
    steps, within a bounded number of steps, and then every task submitted has been executed once. *)
Theorem C51_drained_partial : forall m ops p tr, 0 < m -> all_steps calm (create m) ops = true -> run (create m) ops = Ok (p, tr) ->
  (forall ops' p' tr', forallb worker_step ops' = true -> run p ops' = Ok (p', tr') ->
     (length ops' <= 3 * length (queue p) + 2 * length (workers p))%nat /\ (at_rest p' -> Permutation (submitted tr) (ended (tr ++ tr')))) /\
  (exists ops' p' tr', forallb worker_step ops' = true /\ run p ops' = Ok (p', tr') /\ at_rest p').
Proof.
  intros m ops p tr M C R. pose proof (run_inv ops _ [] _ _ (inv_create m) R) as I. cbn [app] in I. pose proof (run_alive ops _ [] _ _ (inv_create m) (alive_create m M) C R) as A. split.
  - intros ops' p' tr' W R'. split.
    + pose proof (run_work _ _ _ _ W R') as L. unfold work in L at 2. assert (B : (weights (workers p) <= 2 * length (workers p))%nat); [|lia].
      clear. induction (workers p) as [|x l IH]; [cbn; lia|]. unfold weights in *. cbn [map length]. change (list_sum (weight x :: map weight l)) with (weight x + list_sum (map weight l))%nat. destruct x; cbn [weight]; lia.
    + intros AR. pose proof (run_inv _ _ _ _ _ I R') as I'. pose proof (run_alive _ _ _ _ _ I A (worker_calm _ _ W) R') as A'. destruct (drained _ _ I' A' AR) as [Q T]. destruct I' as [_ _ O P]. rewrite T, app_nil_r in P. rewrite Q, app_nil_r in O.
      rewrite <- P, <- O, submitted_app. assert (SN : submitted tr' = []); [|now rewrite SN, app_nil_r]. clear -W R'. revert p p' tr' R'. induction ops' as [|o ops IH]; intros p p' tr' R; cbn [run] in R; [now injection R as <- <-|].
      destruct (step p o) as [[p1 e1]| |] eqn:S; try discriminate. cbn [obind forallb] in *. apply andb_true_iff in W as [W1 W2]. destruct (run p1 ops) as [[p2 e2]| |] eqn:RR; try discriminate. injection R as <- <-. rewrite submitted_app, (IH W2 _ _ _ RR), app_nil_r.
      apply step_act in S as [S _]. assert (T : forall q i q' f, turn q i = (q', f) -> submitted f = []) by (intros q i q' f T; unfold turn in T; destruct (running q); [destruct (queue q)|]; injection T as <- <-; reflexivity).
      destruct o; try discriminate; cbn [act] in S; destruct (nth_error (workers p) i) as [[]|]; try discriminate.
      * injection S as S. eauto.
      * destruct (turn _ _) as [q f] eqn:TT. injection S as <- <-. cbn. eauto.
      * injection S as S. eauto.
      * now injection S as <- <-.
  - eapply to_rest; eauto.
Qed.
Print Assumptions C51_drained_partial.

(** As long as no submission falls between the creation of a worker and its first step, there are never
    more threads than the limit. *)
Theorem C51_limit_partial : forall m ops p tr, 0 <= m -> all_steps settled (create m) ops = true -> run (create m) ops = Ok (p, tr) -> Z.of_nat (length (threads p)) <= m.
Proof. intros m ops p tr M C R. destruct (run_lives ops _ [] _ _ (inv_create m) C R) as [L E]; [cbn; exact M|]. cbn in E. rewrite E in L. exact L. Qed.
Print Assumptions C51_limit_partial.

(** Stopping reports how many tasks it cancels; without any, all that were submitted have begun, and
    have ended if the call waited for that.  No task begins afterwards. *)
Theorem C51_stop : forall m ops p tr al p1 e, run (create m) ops = Ok (p, tr) -> step p (Stop al) = Ok (p1, e) ->
  exists n, e = [Cancelled n] /\ length (submitted tr) = (length (began tr) + n)%nat /\ (n = 0%nat -> submitted tr = began tr /\ (al = true -> Permutation (submitted tr) (ended tr))) /\
  forall ops' p2 tr', run p1 ops' = Ok (p2, tr') -> began tr' = [].
Proof.
  intros m ops p tr al p1 e R S. pose proof (run_inv ops _ [] _ _ (inv_create m) R) as I. cbn [app] in I. destruct I as [_ B O P]. apply step_act in S as [S _]. cbn in S. destruct (al && (0 <? busy p))%bool eqn:G; [discriminate|]. injection S as <- <-.
  exists (length (queue p)). split; [reflexivity|]. split; [rewrite O, app_length; reflexivity|]. split; [|intros ops' p2 tr' R'; now apply run_stopped in R'].
  intros Q. destruct (queue p); [|discriminate]. rewrite app_nil_r in O. split; [exact O|]. intros ->. cbn in G. rewrite O, P. replace (tasks (workers p)) with (@nil Z); [now rewrite app_nil_r|].
  assert (N : num is_busy (workers p) = 0) by (pose proof (num_nonneg is_busy (workers p)); lia). apply num_zero in N. clear -N. induction (workers p) as [|x l IH]; [reflexivity|]. cbn in N. apply orb_false_iff in N as [N1 N2]. destruct x; try discriminate; exact (IH N2).
Qed.
Print Assumptions C51_stop.

(** ** what does not hold *)
(** The limit is not kept: however small it is, submissions that follow each other quickly create as
    many threads. *)
Theorem C51_limit_refuted : forall n m, 0 < m -> exists ops p tr, run (create m) ops = Ok (p, tr) /\ length (threads p) = n /\ (forall t c, In (Submitted t c) tr -> c = RT_OK).
Proof.
  intros n m M. exists (repeat (Submit 7 None true) n). assert (G : forall p, busy p = 0 -> count p = 0 -> most p = m -> freed p = false -> exists p' tr, run p (repeat (Submit 7 None true) n) = Ok (p', tr) /\
    length (threads p') = (length (threads p) + n)%nat /\ (forall t c, In (Submitted t c) tr -> c = RT_OK)).
  { induction n as [|n IH]; intros p B C E F; [exists p, []; cbn; repeat split; auto; easy|]. cbn [repeat run]. unfold step. cbn [act]. rewrite B, C, E, F. cbn [Z.ltb Z.compare]. replace (0 <? m) with true by lia. cbn [obind].
    edestruct IH as (p' & tr & R & L & OK); [..|rewrite R; cbn [obind]; eexists _, _; split; [reflexivity|]; split; [rewrite L; unfold threads; cbn [workers]; rewrite filter_app, app_length; cbn; lia|]]; auto.
    intros t c [Q|Q]; [now injection Q|eauto]. }
  destruct (G (create m)) as (p & tr & R & L & OK); auto. exists p, tr. cbn in L. auto.
Qed.
Print Assumptions C51_limit_refuted.
(** A task whose signal falls between the time out of the only idle worker and its taking the mutex
    is left behind: no worker remains and nothing goes on. *)
Theorem C51_stranded_refuted : exists ops p tr, run (create 1) ops = Ok (p, tr) /\ (forall o, In o ops -> match o with Stop _ | Shut | Submit _ _ false => False | _ => True end) /\
  In (Submitted 8 RT_OK) tr /\ queue p = [8] /\ threads p = [] /\ at_rest p.
Proof.
  exists [Submit 7 None true; Enter 0; Return 0; Expire 0; Submit 8 None true; Wake 0; Check (Some 0%nat)]. eexists _, _. split; [vm_compute; reflexivity|].
  split; [intros o H; repeat destruct H as [<-|H]; try exact Logic.I; destruct H|]. split; [cbn; auto 10|]. split; [reflexivity|]. split; [reflexivity|]. apply rest_movers; reflexivity.
Qed.
Print Assumptions C51_stranded_refuted.
(** When a thread cannot be created the submission says so to nobody. *)
Theorem C51_create_refuted : exists p, run (create 4) [Submit 7 None false] = Ok (p, [Submitted 7 RT_OK]) /\ at_rest p /\ queue p = [7].
Proof. eexists. split; [vm_compute; reflexivity|]. split; [apply rest_movers; reflexivity|reflexivity]. Qed.
Print Assumptions C51_create_refuted.
(** A task submitted after the stop is accepted and never executed. *)
Theorem C51_stopped_refuted : exists p tr, run (create 4) [Stop true; Submit 7 None true] = Ok (p, tr) /\ In (Submitted 7 RT_OK) tr /\ forall ops p' tr', run p ops = Ok (p', tr') -> began tr' = [].
Proof. eexists _, _. split; [vm_compute; reflexivity|]. split; [cbn; auto|]. intros ops p' tr' R. now apply run_stopped in R. Qed.
Print Assumptions C51_stopped_refuted.
(** Stopping with a wait for all tasks does not wait for one whose worker has not started. *)
Theorem C51_stop_refuted : exists p tr, run (create 4) [Submit 7 None true; Stop true] = Ok (p, tr) /\ tr = [Submitted 7 RT_OK; Cancelled 1] /\ forall ops p' tr', run p ops = Ok (p', tr') -> began tr' = [].
Proof. eexists _, _. split; [vm_compute; reflexivity|]. split; [reflexivity|]. intros ops p' tr' R. now apply run_stopped in R. Qed.
Print Assumptions C51_stop_refuted.

(** A pool that has been shut down is freed: when neither a worker nor the destroying thread can go
    on, it is gone. *)
Theorem C66_freed_partial : forall m ops p tr, run (create m) ops = Ok (p, tr) -> shutdown p = true ->
  (forall o, match o with Submit _ _ _ | Stop _ | Expire _ | Spurious _ => True | _ => act p o = Err tt end) -> existsb is_waiting (workers p) = false -> freed p = true.
Proof.
  intros m ops p tr R S N NW. pose proof (run_inv ops _ [] _ _ (inv_create m) R) as I. cbn [app] in I. assert (K : kept p) by (eapply run_kept; [apply inv_create| |exact R]; intros H; discriminate H).
  destruct (freed p) eqn:F; [reflexivity|]. exfalso. assert (MV : forall i x, nth_error (workers p) i = Some x -> x = Gone).
  { intros i x E. destruct x; try reflexivity; exfalso.
    - specialize (N (Enter i)). cbn [act] in N. rewrite E in N. discriminate.
    - specialize (N (Return i)). cbn [act] in N. rewrite E in N. destruct (turn _ _); discriminate.
    - apply nth_error_In in E. assert (existsb is_waiting (workers p) = true) by (apply existsb_exists; eexists; split; [exact E|reflexivity]). congruence.
    - specialize (N (Wake i)). cbn [act] in N. rewrite E in N. discriminate.
    - specialize (N (Wake i)). cbn [act] in N. rewrite E in N. discriminate.
    - specialize (N (Check (Some i))). cbn [act at_] in N. rewrite E in N. discriminate.
    - specialize (N (Free (Some i))). cbn [act at_] in N. rewrite E in N. discriminate. }
  destruct (K S F) as [C|[L|L]].
  - destruct I as [IC _ _ _]. rewrite IC in C. apply num_pos in C. apply existsb_exists in C as (x & X & CX). apply In_nth_error in X as (i & X). apply MV in X. now subst.
  - apply existsb_exists in L as (x & X & CX). apply In_nth_error in X as (i & X). apply MV in X. now subst.
  - destruct (owner p) eqn:O; try discriminate.
    + assert (OW : forall ops p tr, run (create m) ops = Ok (p, tr) -> owner p <> Starting); [|exact (OW _ _ _ R O)]. clear. intros ops p tr R O.
      assert (G : forall ops p p' tr, owner p <> Starting -> run p ops = Ok (p', tr) -> owner p' <> Starting); [|eapply G; [|exact R|exact O]; discriminate]. clear. induction ops as [|o ops IH]; intros p p' tr O R; cbn [run] in R; [now injection R as <- <-|].
      destruct (step p o) as [[p1 e1]| |] eqn:S; try discriminate. cbn [obind] in *. destruct (run p1 ops) as [[p2 e2]| |] eqn:RR; try discriminate. injection R as <- <-. eapply IH; [|exact RR]. apply step_act in S as [S _].
      assert (T : forall q i q' f, turn q i = (q', f) -> owner q' = owner q) by (intros q i q' f T; unfold turn in T; destruct (running q); [destruct (queue q)|]; injection T as <- <-; reflexivity).
      destruct o as [t w made|i|i|i|i|i|al| |i|i]; cbn [act] in S.
      * destruct (busy p <? count p); [destruct w as [i|]; [destruct (nth_error (workers p) i) as [[]|]; try discriminate|destruct (existsb is_waiting (workers p)); [discriminate|]]|destruct (count p <? most p); [destruct made|]]; injection S as <- <-; exact O.
      * destruct (nth_error (workers p) i) as [[]|]; try discriminate. injection S as S. now rewrite (T _ _ _ _ S).
      * destruct (nth_error (workers p) i) as [[]|]; try discriminate. destruct (turn _ _) as [q f] eqn:TT. injection S as <- <-. now rewrite (T _ _ _ _ TT).
      * destruct (nth_error (workers p) i) as [[]|]; try discriminate; [injection S as S; now rewrite (T _ _ _ _ S)|now injection S as <- <-].
      * destruct (nth_error (workers p) i) as [[]|]; try discriminate. now injection S as <- <-.
      * destruct (nth_error (workers p) i) as [[]|]; try discriminate. now injection S as <- <-.
      * destruct (al && (0 <? busy p))%bool; [discriminate|]. now injection S as <- <-.
      * destruct (owner p); try discriminate. destruct (running p); [discriminate|]. now injection S as <- <-.
      * destruct (at_ p i) as [[]|]; try discriminate. injection S as <- <-. destruct i; cbn; [exact O|]. now destruct (should_destroy p).
      * destruct (at_ p i) as [[]|]; try discriminate. injection S as <- <-. destruct i; cbn; [exact O|discriminate].
    + specialize (N (Check None)). cbn [act at_] in N. rewrite O in N. discriminate.
    + specialize (N (Free None)). cbn [act at_] in N. rewrite O in N. discriminate.
Qed.
Print Assumptions C66_freed_partial.
(** The destroying thread and the last worker may both free it. *)
Theorem C66_twice_refuted : exists ops, run (create 1) ops = UB /\ (forall o, In o ops -> match o with Submit _ _ false => False | _ => True end) /\
  (exists p tr, run (create 1) (removelast ops) = Ok (p, tr) /\ ended tr = [7] /\ freed p = true) /\ last ops Shut = Free (Some 0%nat).
Proof.
  exists [Submit 7 None true; Enter 0; Return 0; Stop true; Shut; Wake 0; Check (Some 0%nat); Check None; Free None; Free (Some 0%nat)]. split; [reflexivity|].
  split; [intros o H; repeat destruct H as [<-|H]; try exact Logic.I; destruct H|]. split; [|reflexivity]. eexists _, _. split; [vm_compute; reflexivity|]. split; reflexivity.
Qed.
Print Assumptions C66_twice_refuted.
(** A worker that has been created and has not run yet is not waited for: its first step uses the
    freed pool. *)
Theorem C66_started_refuted : run (create 1) [Submit 7 None true; Stop true; Shut; Check None; Free None; Enter 0] = UB /\
  exists p tr, run (create 1) [Submit 7 None true; Stop true; Shut; Check None; Free None] = Ok (p, tr).
Proof. split; [reflexivity|]. eexists _, _. vm_compute. reflexivity. Qed.
Print Assumptions C66_started_refuted.

(** ** a schedule that meets the hypotheses: two workers, three tasks, a time out *)
Definition day : list op :=
  [Submit 1 None true; Enter 0; Submit 2 None true; Enter 1; Submit 3 None true; Return 1; Return 0; Expire 0; Wake 0; Check (Some 0%nat); Return 1; Submit 4 (Some 1%nat) true; Spurious 1].
Example C51_witness : exists p tr, run (create 2) (removelast day) = Ok (p, tr) /\ all_steps calm (create 2) (removelast day) = true /\ all_steps settled (create 2) (removelast day) = true /\
  submitted tr = [1; 2; 3; 4] /\ ended tr = [2; 1; 3] /\ queue p = [4] /\ length (threads p) = 1%nat /\ exists p1 e, step p (Stop true) = Ok (p1, e).
Proof. eexists _, _. split; [vm_compute; reflexivity|]. repeat (split; [vm_compute; reflexivity|]). eexists _, _. vm_compute. reflexivity. Qed.
Example C66_witness : exists p tr, run (create 2) (removelast day ++ [Wake 1; Return 1; Stop true; Shut; Check None; Wake 1; Check (Some 1%nat); Free (Some 1%nat)]) = Ok (p, tr) /\ shutdown p = true /\ freed p = true /\ existsb is_waiting (workers p) = false /\
  submitted tr = began tr.
Proof. eexists _, _. split; [vm_compute; reflexivity|]. repeat split. Qed.
