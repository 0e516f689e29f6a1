(** Properties of subscription retries: C41 (asynchronous) and C42 (synchronous). *)
From Verif Require Import Common CommonFacts Errors RetryModel RetrySpec RetryProofs.
Local Open Scope list_scope.
Local Open Scope Z_scope.

(** ** C42 *)
(** A timeout of [t] whole seconds: the call ends; it sleeps the waits of the plan, never more than [t]
    in all; a further request is made only after requests that found no provider and while time is
    left; if none is ever found it sleeps exactly [t] and reports a timeout. *)
Theorem C42_schedule_partial : forall ans t own, 0 <= t <= 2147483 ->
  exists n, subscribe_sync ans t own = Ok (waits n t, returned (ans n)) /\
    (forall j, (j < n)%nat -> ans j = NotFound /\ sum (waits j t) < t) /\
    sum (waits n t) <= t /\ Forall (fun w => 0 < w <= 60) (waits n t) /\
    (ans n = NotFound -> sum (waits n t) = t).
Proof.
  intros ans t own H. unfold subscribe_sync, retry_time, INT_MAX, INT_MIN.
  destruct (Z.eqb_spec t (-1)) as [Q|_]; [lia|]. replace ((t * 1000 <? -2147483648) || (2147483647 <? t * 1000)) with false by lia. cbn [obind].
  destruct (attempts_ok ans (t * 1000)) as (n & A & N & T & M); [lia|]. rewrite Z.div_mul in * by lia. rewrite A. cbn [obind].
  exists n. split; [reflexivity|]. split; [intros j J; split; [auto|specialize (M j J); lia]|]. split; [apply sum_waits; lia|]. split; [|exact T].
  clear A T N. induction n as [|n IH]; cbn [waits]; [constructor|]. apply Forall_app. split; [apply IH; intros; apply M; lia|]. constructor; [|constructor].
  pose proof (wait_pos n). specialize (M n (le_n _)). lia.
Qed.
Print Assumptions C42_schedule_partial.
(** With the handle's own timeout, which is in milliseconds: the same for its whole seconds. *)
Theorem C42_default_partial : forall ans own, 0 <= own ->
  exists n, subscribe_sync ans (-1) own = Ok (waits n (own / 1000), returned (ans n)) /\
    (forall j, (j < n)%nat -> ans j = NotFound /\ 1000 * sum (waits j (own / 1000)) < own) /\
    1000 * sum (waits n (own / 1000)) <= own /\ (ans n = NotFound -> sum (waits n (own / 1000)) = own / 1000).
Proof.
  intros ans own H. unfold subscribe_sync, retry_time. cbn [Z.eqb Pos.eqb obind]. destruct (attempts_ok ans own H) as (n & A & N & T & M). rewrite A. cbn [obind].
  exists n. split; [reflexivity|]. split; [auto|]. split; [|exact T].
  pose proof (sum_waits n (own / 1000) ltac:(apply Z.div_pos; lia)). pose proof (Z.mul_div_le own 1000). lia.
Qed.
Print Assumptions C42_default_partial.
(** Any other timeout below zero stands for no retry at all. *)
Theorem C42_negative_partial : forall ans t own, -2147483 <= t < -1 -> subscribe_sync ans t own = Ok ([], returned (ans 0%nat)).
Proof.
  intros ans t own H. unfold subscribe_sync, retry_time, INT_MAX, INT_MIN. destruct (Z.eqb_spec t (-1)) as [Q|_]; [lia|].
  replace ((t * 1000 <? -2147483648) || (2147483647 <? t * 1000)) with false by lia. cbn [obind]. rewrite attempts_once by lia. reflexivity.
Qed.
Print Assumptions C42_negative_partial.
Example C42_witness :
  subscribe_sync (fun _ => NotFound) 100 0 = Ok ([1; 2; 4; 8; 16; 32; 37], E_TIMEOUT) /\
  subscribe_sync (fun _ => NotFound) (-1) 600000 = Ok ([1; 2; 4; 8; 16; 32; 60; 60; 60; 60; 60; 60; 60; 60; 57], E_TIMEOUT) /\
  subscribe_sync (fun k => if Nat.ltb k 3 then NotFound else Accepted) 100 0 = Ok ([1; 2; 4], E_SUCCESS) /\
  subscribe_sync (fun k => if Nat.ltb k 3 then NotFound else Refused 3) 7 0 = Ok ([1; 2; 4], 3) /\
  subscribe_sync (fun k => Lost) 7 0 = Ok ([], E_BUS_ERROR) /\ subscribe_sync (fun _ => NotFound) (-7) 0 = Ok ([], E_TIMEOUT).
Proof. repeat split. Qed.
(** A handle timeout with a fraction of a second: the fraction is not slept. *)
Theorem C42_fraction_refuted : exists own, 0 < own /\ subscribe_sync (fun _ => NotFound) (-1) own = Ok ([1; 0], E_TIMEOUT) /\ 1000 * sum [1; 0] < own.
Proof. exists 1500. repeat split. Qed.
Print Assumptions C42_fraction_refuted.
(** From 2147484 seconds on the conversion to milliseconds overflows. *)
Theorem C42_overflow_refuted : forall ans t own, 2147484 <= t -> subscribe_sync ans t own = UB.
Proof.
  intros ans t own H. unfold subscribe_sync, retry_time, INT_MAX, INT_MIN. destruct (Z.eqb_spec t (-1)) as [Q|_]; [lia|].
  replace ((t * 1000 <? -2147483648) || (2147483647 <? t * 1000)) with true by lia. reflexivity.
Qed.
Print Assumptions C42_overflow_refuted.

(** ** C41 *)
(** Whatever is added, removed, closed and answered in whatever order, as long as the outcome is
    defined: a subscription gets at most one callback, which follows its last request, with the result
    that request's definitive answer stands for; every other request found no provider before the
    timeout; the requests keep the waits; and a subscription without a callback is either pending still
    or was withdrawn. *)
Theorem C41_once_partial : forall tmo c ops s tr, run tmo (start c) [] ops = Ok (s, tr) ->
  forall id h st, In (Added id h st) tr ->
    paced st (tmo h) (history id tr) /\
    ((exists code t a r, callbacks id tr = [(code, t)] /\ history id tr = (t, a) :: r /\ definitive st (tmo h) t a code /\ ~ In (Dropped id) tr)
     \/ (callbacks id tr = [] /\ (forall p, In p (history id tr) -> snd p = NotFound /\ fst p - st < tmo h) /\ In id (map i_id (pending s)) /\ ~ In (Dropped id) tr)
     \/ (callbacks id tr = [] /\ In (Dropped id) tr)).
Proof.
  intros tmo c ops s tr R id h st A. pose proof (inv_run _ _ _ _ _ _ (inv_start tmo c) R) as I. destruct (i_fates _ _ _ I _ _ _ A) as (P & F). split; [exact P|].
  destruct F as [(x & X & E & _ & ST & (O & _) & C & D)|[(C & D & _)|(code & t & a & r & C & H & D & _ & N)]].
  - right; left. split; [exact C|]. split; [rewrite ST in O; intros p IP; rewrite Forall_forall in O; exact (O p IP)|]. split; [|exact D]. rewrite <- E. apply in_map.
    unfold live, pending in *. destruct (ph s); auto. destruct (rest s); auto. cbn in X. rewrite in_app_iff in *. cbn. tauto.
  - right; right. auto.
  - left. exists code, t, a, r. auto.
Qed.
Print Assumptions C41_once_partial.

(** Progress.  The thread goes through the whole list once (from [Wake] until it waits again): every
    subscription that is due gets a request, every one whose timeout is over gets its callback, unless
    it is withdrawn meanwhile. *)
Theorem C41_round_partial : forall tmo c ops s tr ops' s' tr', run tmo (start c) [] ops = Ok (s, tr) ->
  run tmo s tr (Wake :: ops') = Ok (s', tr') -> ~ In Wake ops' -> ph s' = Waiting ->
  forall id h st, In (Added id h st) tr -> callbacks id tr = [] -> ~ In (Dropped id) tr ->
    (due st (tmo h) (history id tr) <= clock s -> In (Dropped id) tr' \/ (length (history id tr) < length (history id tr'))%nat) /\
    (0 <= tmo h -> st + tmo h <= clock s -> In (Dropped id) tr' \/ exists p, callbacks id tr' = [p]).
Proof.
  intros tmo c ops s tr ops' s' tr' R R2 NW W id h st A C D. pose proof (inv_run _ _ _ _ _ _ (inv_start tmo c) R) as I. pose proof (inv_run _ _ _ _ _ _ I R2) as I2.
  destruct (i_fates _ _ _ I _ _ _ A) as (P & [(x & X & E & HX & SX & (O1 & O2 & O3) & _)|[(_ & F & _)|(code & t & a & r & F & _)]]); [|now contradict F|congruence].
  assert (XP : In x (pending s)). { unfold live, pending in *. destruct (ph s); auto. destruct (rest s); auto. cbn in X. rewrite in_app_iff in *. cbn. tauto. }
  rewrite SX in O3. split.
  - intros L. destruct (round_full tmo false s tr ops' s' tr' x I R2 W NW XP) as (ev & -> & S).
    { split; [lia|discriminate]. }
    destruct S as [S|(t & a & S & _)]; rewrite E in S; [left; apply in_app_iff; auto|right]. rewrite history_app, app_length.
    assert (In (t, a) (history id ev)). { apply in_flat_map. exists (Sent id t a). split; [exact S|]. rewrite Nat.eqb_refl. now left. }
    destruct (history id ev); [easy|]. cbn. lia.
  - intros T L. destruct (round_full tmo true s tr ops' s' tr' x I R2 W NW XP) as (ev & EV & S).
    { split; [|intros _; rewrite HX, SX; lia]. rewrite O3. unfold due. destruct (history id tr) as [|[u v] r]; lia. }
    destruct S as [S|(t & a & _ & S)]; rewrite E in S; [left; rewrite EV; apply in_app_iff; auto|right]. destruct (S eq_refl) as (k & K).
    assert (CB : In (k, t) (callbacks id tr')). { apply in_flat_map. exists (Callback id k t). split; [rewrite EV; apply in_app_iff; auto|]. rewrite Nat.eqb_refl. now left. }
    assert (A2 : In (Added id h st) tr') by (rewrite EV; apply in_app_iff; auto).
    destruct (i_fates _ _ _ I2 _ _ _ A2) as (_ & [(y & _ & _ & _ & _ & _ & Q & _)|[(Q & _)|(k' & t' & a' & r' & Q & _)]]); rewrite Q in CB; [easy..|]. eauto.
Qed.
Print Assumptions C41_round_partial.

(** The thread never sleeps past the time at which a pending subscription is due, nor more than 61
    seconds; and it starts a round whenever one is due. *)
Theorem C41_wakeup_partial : forall tmo c ops s tr, run tmo (start c) [] ops = Ok (s, tr) -> ph s = Waiting ->
  (forall id h st, In (Added id h st) tr -> callbacks id tr = [] -> ~ In (Dropped id) tr -> next_send s <= due st (tmo h) (history id tr)) /\
  next_send s <= clock s + 61000 /\
  ((exists s' ev, step tmo s Wake = Ok (s', ev)) <-> exists id h st, In (Added id h st) tr /\ callbacks id tr = [] /\ ~ In (Dropped id) tr /\ due st (tmo h) (history id tr) <= clock s).
Proof.
  intros tmo c ops s tr R W. pose proof (inv_run _ _ _ _ _ _ (inv_start tmo c) R) as I. destruct (next_send_spec s) as (A & B & C).
  assert (ALL : forall id h st, In (Added id h st) tr -> callbacks id tr = [] -> ~ In (Dropped id) tr -> exists x, In x (pending s) /\ i_next x = due st (tmo h) (history id tr)).
  { intros id h st H CB D. destruct (i_fates _ _ _ I _ _ _ H) as (_ & [(x & X & E & HX & SX & (O1 & O2 & O3) & _)|[(_ & F & _)|(code & t & a & r & F & _)]]); [|now contradict F|congruence].
    exists x. unfold live in X. rewrite W in X. split; [exact X|]. now rewrite O3, SX. }
  split; [|split; [exact B|]].
  - intros id h st H CB D. destruct (ALL _ _ _ H CB D) as (x & X & <-). auto.
  - cbn [step]. rewrite W. split.
    + destruct (Z.leb_spec (next_send s) (clock s)) as [L|L]; [|intros (? & ? & ?); discriminate]. intros _. destruct C as [C|(x & X & C)]; [lia|].
      assert (XL : In x (live s)) by (unfold live; now rewrite W).
      assert (EX : exists h st, In (Added (i_id x) h st) tr) by (eapply pending_added; eauto).
      destruct EX as (h & st & H). exists (i_id x), h, st. pose proof (i_fates _ _ _ I _ _ _ H) as F.
      pose proof (fate_live _ _ _ _ _ _ I (live_nodup _ (i_nodup _ _ _ I)) XL F) as (HX & SX & (O1 & O2 & O3) & CB & D).
      split; [exact H|]. split; [exact CB|]. split; [exact D|]. rewrite <- SX, <- O3. lia.
    + intros (id & h & st & H & CB & D & L). destruct (ALL _ _ _ H CB D) as (x & X & E). apply A in X. destruct (Z.leb_spec (next_send s) (clock s)); [eauto|lia].
Qed.
Print Assumptions C41_wakeup_partial.

(** Four subscriptions of a handle with a timeout of 5 seconds: one accepted at the third attempt, one
    refused at once, one for which no provider appears, one withdrawn. *)
Definition five (h : Z) : Z := 5000.
Definition script := [Add 1 10 (-1); Add 1 11 (-1); Add 1 12 (-1); Add 2 13 (-1); Wake; Send NotFound; Send (Refused 3); Finish; Send NotFound; Send NotFound;
  Tick 400; Remove 2 13; Tick 600; Wake; Send NotFound; Send NotFound; Tick 2000; Wake; Tick 50; Send Accepted; Finish; Send NotFound; Tick 1950].
Definition last_round := [Send NotFound; Finish].
Example C41_witness :
  match run five (start 0) [] script with
  | Ok (s, tr) =>
      ph s = Waiting /\ next_send s = 5000 /\ clock s = 5000 /\
      history 0 tr = [(3050, Accepted); (1000, NotFound); (0, NotFound)] /\ callbacks 0 tr = [(E_SUCCESS, 3050)] /\
      history 1 tr = [(0, Refused 3)] /\ callbacks 1 tr = [(3, 0)] /\
      history 2 tr = [(3050, NotFound); (1000, NotFound); (0, NotFound)] /\ callbacks 2 tr = [] /\
      In (Added 2 1 0) tr /\ due 0 5000 (history 2 tr) = 5000 /\ In (Dropped 3) tr /\ callbacks 3 tr = [] /\
      match run five s tr (Wake :: last_round) with
      | Ok (s', tr') => ph s' = Waiting /\ callbacks 2 tr' = [(E_TIMEOUT, 5000)] /\ pending s' = []
      | _ => False
      end
  | _ => False
  end.
Proof. vm_compute. intuition. Qed.

(** A failure that is neither "no provider" nor the provider's own error: the variable for the
    provider's error is read without having been set. *)
Theorem C41_uninitialised_refuted : exists s tr, run five (start 0) [] [Add 1 10 (-1); Wake] = Ok (s, tr) /\ step five s (Send Lost) = UB.
Proof. do 2 eexists. split; reflexivity. Qed.
Print Assumptions C41_uninitialised_refuted.
(** Withdrawing a subscription while its request is under way, or from its own callback: the thread goes
    on with an item that has been freed. *)
Theorem C41_withdraw_refuted : exists s tr, run five (start 0) [] [Add 1 10 (-1); Wake] = Ok (s, tr) /\ step five s (Remove 1 10) = UB /\
  exists s' tr', run five s tr [Send Accepted] = Ok (s', tr') /\ callbacks 0 tr' = [(E_SUCCESS, 0)] /\ step five s' (Remove 1 10) = UB.
Proof. do 2 eexists. split; [reflexivity|]. split; [reflexivity|]. do 2 eexists. repeat split; reflexivity. Qed.
Print Assumptions C41_withdraw_refuted.
(** Closing a handle with two pending subscriptions withdraws one; the other gets no callback: the next
    round uses the handle that has been freed. *)
Theorem C41_close_refuted : exists s tr, run five (start 0) [] [Add 1 10 (-1); Add 1 11 (-1); Close 1; Wake] = Ok (s, tr) /\
  map i_id (pending s) = [1%nat] /\ forall a, step five s (Send a) = UB.
Proof. do 2 eexists. split; [reflexivity|]. split; reflexivity. Qed.
Print Assumptions C41_close_refuted.
(** The timeout given to the call is not used: with 1 second, no callback after 4. *)
Theorem C41_timeout_refuted : exists s tr, run five (start 0) [] [Add 1 10 1; Wake; Send NotFound; Tick 4000; Wake; Send NotFound] = Ok (s, tr) /\
  history 0 tr = [(4000, NotFound); (0, NotFound)] /\ callbacks 0 tr = [] /\ ~ In (Dropped 0) tr.
Proof. do 2 eexists. split; [reflexivity|]. repeat split. cbn. intuition discriminate. Qed.
Print Assumptions C41_timeout_refuted.
