(** C29, C30: listeners of a connection and the order of delivery.

    In the code: rtConnection_AddListener .. rtConnection_RemoveListenerWithId, rtConnection_Read
    and rtConnection_CallbackThread (rtConnection.c).  Every statement is for all interleavings of
    the application's calls with the reader and callback threads. *)
From Verif Require Import Common CommonFacts ListenModel ListenSpec ListenProofs.
From Coq Require Import List ZArith Lia Bool Permutation Sorted.
Import ListNotations.
Local Open Scope Z_scope.

(** C29: callbacks get the accepted messages in the order of arrival, each at most once; what is
    queued is what was accepted and not handled, and never more than 26 *)
Theorem C29_order : forall l s rs, run init l = Ok (s, rs) ->
  StronglySorted lt (map fst (calls s)) /\ incl (map fst (calls s)) (map fst (firstn (S (dones l)) (accepted l 0 0))) /\
  queue s = skipn (dones l) (accepted l 0 0) /\ (length (queue s) <= 26)%nat /\
  StronglySorted lt (map fst (accepted l 0 0)) /\ forall n c, In (n, c) (accepted l 0 0) -> nth_error (arrivals l) n = Some c.
Proof.
  intros l s rs R. pose proof (run_qinv l s rs R) as [A B C D E F G H]. split; [exact H|]. split.
  { intros x I. apply G in I. rewrite <- (Nat.add_1_r (dones l)). destruct (busy s) as [| |n0]; [| |exact I].
    - rewrite Nat.add_0_r in I. rewrite <- (firstn_skipn (dones l) (firstn (dones l + 1) (accepted l 0 0))), map_app, firstn_firstn, Nat.min_l by lia. apply in_app_iff. left. exact I.
    - rewrite Nat.add_0_r in I. rewrite <- (firstn_skipn (dones l) (firstn (dones l + 1) (accepted l 0 0))), map_app, firstn_firstn, Nat.min_l by lia. apply in_app_iff. left. exact I. }
  split; [exact A|]. split; [exact F|]. split; [apply accepted_sorted|]. intros n c I. apply accepted_arrival in I as [_ I]. rewrite Nat.sub_0_r in I. exact I.
Qed.
Print Assumptions C29_order.

(** C29: a message is not accepted only if 26 were waiting when it came *)
Theorem C29_lost : forall l1 c l2 s rs, run init (l1 ++ Arrive c :: l2) = Ok (s, rs) -> ~ In (length (arrivals l1), c) (accepted (l1 ++ Arrive c :: l2) 0 0) ->
  exists s1 rs1, run init l1 = Ok (s1, rs1) /\ length (queue s1) = 26%nat.
Proof.
  intros l1 c l2 s rs R N. rewrite run_app in R. destruct (run init l1) as [[s1 rs1]| |] eqn:R1; cbn [obind] in R; try discriminate. exists s1, rs1. split; [reflexivity|].
  pose proof (run_qinv l1 s1 rs1 R1) as Q. pose proof (j_reach _ _ Q) as RE. rewrite accepted_app, RE in N. cbn [fst snd accepted] in N. pose proof (j_len _ _ Q). destruct (Nat.leb_spec (length (queue s1)) 25); [|lia].
  exfalso. apply N. apply in_app_iff. right. left. rewrite (j_arrived _ _ Q). reflexivity.
Qed.
Print Assumptions C29_lost.

(** C29: when its turn comes a message reaches a callback unless no listener has its id *)
Theorem C29_handled : forall l s rs n id q, run init l = Ok (s, rs) -> busy s = Idle -> queue s = (n, id) :: q ->
  exists s' rs', run s [Look; Call; Done] = Ok (s', rs') /\ queue s' = q /\ busy s' = Idle /\
    ((exists x, In (Some x) (slots s) /\ l_id x = id /\ calls s' = calls s ++ [(n, l_closure x)]) \/
     (forall x, In (Some x) (slots s) -> l_id x <> id) /\ calls s' = calls s).
Proof.
  intros l s rs n id q R B Q. pose proof (run_qinv l s rs R) as QI.
  assert (IA : forall x k, In x (active k) <-> In (Some x) k). { intros x. induction k as [|[y|] k IH]; cbn; [tauto| |]; rewrite IH; intuition congruence. }
  assert (ST : exists s1 r1, step s Look = Ok (s1, r1)) by (cbn [step]; rewrite B, Q; eauto). destruct ST as (s1 & r1 & ST).
  pose proof (qstep l s Look s1 r1 QI ST) as Q1. pose proof ST as ST'. cbn [step] in ST'. rewrite B, Q in ST'. injection ST' as E1 _.
  set (o := option_map l_closure (first (fun x => l_id x =? id) (slots s))) in *.
  assert (ST2 : exists s2 r2, step s1 Call = Ok (s2, r2)) by (rewrite <- E1; cbn [step busy]; eauto). destruct ST2 as (s2 & r2 & ST2). pose proof (qstep _ _ _ _ _ Q1 ST2) as Q2.
  assert (ST3 : exists s3 r3, step s2 Done = Ok (s3, r3)). { rewrite <- E1 in ST2. cbn [step busy] in ST2. injection ST2 as <- _. cbn [step busy]. eauto. }
  destruct ST3 as (s3 & r3 & ST3). pose proof (qstep _ _ _ _ _ Q2 ST3) as Q3. exists s3, [r1; r2; r3]. split; [cbn [run]; rewrite ST; cbn [obind]; rewrite ST2; cbn [obind]; rewrite ST3; reflexivity|].
  assert (QD : queue s3 = q).
  { rewrite (j_queue _ _ Q3). rewrite !dones_app, !accepted_app. cbn [dones filter length accepted reach fst snd app]. rewrite !app_nil_r, !Nat.add_0_r. pose proof (j_queue _ _ QI) as X. rewrite Q in X. symmetry in X. apply skip_front in X. tauto. }
  split; [exact QD|]. rewrite <- E1 in ST2. cbn [step busy] in ST2. injection ST2 as <- _. cbn [step busy] in ST3. injection ST3 as <- _. cbn [busy calls]. split; [reflexivity|].
  unfold o. rewrite first_find. destruct (find _ (active (slots s))) as [x|] eqn:F; cbn [option_map].
  - left. apply find_some in F as [I1 I2]. exists x. apply IA in I1. apply Z.eqb_eq in I2. auto.
  - right. split; [|apply app_nil_r]. intros x I. apply IA in I. apply (find_none _ _ F) in I. apply Z.eqb_neq in I. exact I.
Qed.
Print Assumptions C29_handled.

Definition burst : list event := AddNew [97] 5 :: repeat (Arrive 10000) 27 ++ [Look; Arrive 10001; Call; Done; Arrive 10001; Look; Call; Done].
(** 27 messages at once: the last of them and one more are refused *)
Example C29_witness : exists s rs, run init burst = Ok (s, rs) /\ map fst (calls s) = [0; 1]%nat /\ map fst (accepted burst 0 0) = seq 0 26 ++ [28%nat] /\ length (queue s) = 25%nat.
Proof. eexists. eexists. split; [vm_compute; reflexivity|]. split; [|split]; vm_compute; reflexivity. Qed.

(** C30: as long as no id and no expression is added while it is active, the connection is the
    finite map of the specification: the result of every call, what the broker is told, which
    listeners are active, and who is called with which message *)
Theorem C30_listeners_partial : forall l s rs, proper ideal_init l -> run init l = Ok (s, rs) ->
  exists i ws, ideal_run ideal_init l = (i, rs, ws) /\ wire s = ws /\ calls s = served l /\
    NoDup (map l_id (table i)) /\ (length (table i) <= 128)%nat /\ (forall x, In (Some x) (slots s) <-> In x (table i)).
Proof.
  intros l s rs P R. destruct (run_rel l init ideal_init s rs rel_init P R) as (i & ws & E & RL & W). exists i, ws. split; [exact E|]. split; [exact W|]. split.
  { pose proof (run_vinv l s rs [] P R) as V. rewrite app_nil_r in V. symmetry. apply (v_calls _ _ _ _ V). }
  split; [apply (a_ids _ _ RL)|]. split.
  - rewrite <- (perm_count_le s i RL). pose proof (active_le (slots s)). rewrite (a_len _ _ RL) in H. exact H.
  - assert (IA : forall x k, In x (active k) <-> In (Some x) k). { intros x. induction k as [|[y|] k IH]; cbn; [tauto| |]; rewrite IH; intuition congruence. }
    intros x. rewrite <- IA. split; apply Permutation_in; [|symmetry]; apply (a_perm _ _ RL).
Qed.
Print Assumptions C30_listeners_partial.

(** C30: the table never holds more than 128, whatever is called; an addition fails exactly when
    it holds 128, and then nothing changes and the broker is not told *)
Theorem C30_capacity : forall l s rs e id cl, run init l = Ok (s, rs) ->
  length (slots s) = 128%nat /\
  exists s' r, step s (AddWithId e id cl) = Ok (s', r) /\
    (if existsb (fun o => match o with None => true | _ => false end) (slots s) then r = RT_OK /\ wire s' = wire s ++ [mkWire true e id] /\ In (Some (mkListener id e cl)) (slots s') else r = RT_ENOMEM /\ s' = s).
Proof.
  intros l s rs e id cl R. split.
  - revert s rs R. induction l as [|ev l IH] using rev_ind; intros s rs R; [injection R as <- _; reflexivity|]. rewrite run_app in R. destruct (run init l) as [[s1 a]| |]; cbn [obind] in R; try discriminate. cbn [run] in R. destruct (step s1 ev) as [[s2 r]| |] eqn:ST; cbn [obind] in R; try discriminate. injection R as <- _. specialize (IH s1 a eq_refl).
    destruct ev; cbn [step] in ST; unfold add_with_id, remove_listener in ST; cbn [slots] in ST; try (destruct (put _ _) as [k|] eqn:PT); try (destruct (take _ _) as [[x k]|] eqn:TK); try (destruct (busy s1) as [|? ?|?]); try (destruct (queue s1) as [|[? ?] ?]); try discriminate ST; injection ST as <- _; cbn [slots]; try exact IH.
    all: try (apply put_some in PT; destruct PT as [PT _]; congruence).
    all: apply take_some in TK; destruct TK as [TK _]; congruence.
  - cbn [step]. unfold add_with_id. destruct (put (mkListener id e cl) (slots s)) as [k|] eqn:PT; eexists; eexists; (split; [reflexivity|]).
    + assert (X : existsb (fun o => match o with None => true | _ => false end) (slots s) = true /\ In (Some (mkListener id e cl)) k).
      { clear R. revert k PT. induction (slots s) as [|[y|] t IH]; intros k PT; cbn in *; [discriminate| |injection PT as <-; split; [reflexivity|left; reflexivity]]. destruct (put _ t) as [k'|]; [|discriminate]. injection PT as <-. destruct (IH k' eq_refl). split; [assumption|right; assumption]. }
      destruct X as [-> X]. cbn [wire slots]. auto.
    + assert (X : existsb (fun o => match o with None => true | _ => false end) (slots s) = false). { clear R. induction (slots s) as [|[y|] t IH]; cbn in *; [reflexivity| |discriminate]. destruct (put _ t); [discriminate|]. auto. }
      rewrite X. auto.
Qed.
Print Assumptions C30_capacity.
Definition talk : list event := [AddNew [97] 5; AddWithId [98] 1 6; Arrive 1; Arrive 10000; Arrive 3; Look; Call; Done; Look; Call; Done; Look; Call; Done; RemoveWithId [97] 10000; Arrive 10000; Look; Call; Done; Remove [99]; Remove [98]].
Example C30_witness : proper ideal_init talk /\ exists s, run init talk = Ok (s, [0; 0; 0; 0; 0; 0; 0; 0; 0; 0; 0; 0; 0; 0; 0; 0; 0; 0; 0; 3; 0]) /\ calls s = [(0%nat, 6); (1%nat, 5)] /\ map w_add (wire s) = [true; true; false; false].
Proof. split; [cbn; repeat split; reflexivity|]. eexists. split; [vm_compute; reflexivity|]. split; reflexivity. Qed.

(** C30 refuted: an id that is active can be added again (both calls succeed); the second listener
    never gets a message *)
Theorem C30_duplicate_refuted : exists s, run init [AddWithId [97] 7 5; AddWithId [98] 7 6; Arrive 7; Look; Call; Done] = Ok (s, [0; 0; 0; 0; 0; 0]) /\
  In (Some (mkListener 7 [97] 5)) (slots s) /\ In (Some (mkListener 7 [98] 6)) (slots s) /\ calls s = [(0%nat, 5)].
Proof. eexists. split; [vm_compute; reflexivity|]. cbn. auto. Qed.
Print Assumptions C30_duplicate_refuted.
(** C30 refuted: the id counter starts at 10000 and does not look at the ids in use *)
Theorem C30_counter_refuted : exists s, run init [AddWithId [97] 10000 5; AddNew [98] 6; Arrive 10000; Look; Call; Done] = Ok (s, [0; 0; 0; 0; 0; 0]) /\
  In (Some (mkListener 10000 [97] 5)) (slots s) /\ In (Some (mkListener 10000 [98] 6)) (slots s) /\ calls s = [(0%nat, 5)].
Proof. eexists. split; [vm_compute; reflexivity|]. cbn. auto. Qed.
Print Assumptions C30_counter_refuted.
(** C30 refuted: a callback can start after the call that removed its listener has returned *)
Theorem C30_removed_refuted : exists s s', run init [AddNew [97] 5; Arrive 10000; Look; Remove [97]] = Ok (s, [0; 0; 0; 0]) /\
  (forall x, ~ In (Some x) (slots s)) /\ calls s = [] /\ run s [Call] = Ok (s', [0]) /\ calls s' = [(0%nat, 5)].
Proof. eexists. eexists. split; [vm_compute; reflexivity|]. split; [intros x H; cbn [slots] in H; repeat (destruct H as [H|H]; [discriminate H|]); destruct H|]. split; [reflexivity|]. split; [vm_compute; reflexivity|reflexivity]. Qed.
Print Assumptions C30_removed_refuted.
