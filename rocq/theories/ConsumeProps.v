(** Theorems about the subscriptions of a consumer (C43, C65). *)
From Coq Require Import String.
From Verif Require Import Common CommonFacts Value Errors.
From Verif Require SubsModel SubsSpec SubsProofs.
From Verif Require Import RetryModel ConsumeModel ConsumeSpec ConsumeProofs.
Local Open Scope string_scope.
Local Open Scope list_scope.
Local Open Scope Z_scope.

(** ** what the requests on the wire leave at the provider *)
Lemma held_sent xs l k raw : (forall x, In x xs -> x_ans x = Accepted) ->
  held (sent xs ++ l) k raw = existsb (fun x => same_req (x_req x) k && eqb false raw) xs || held l k raw.
Proof.
  unfold sent. rewrite <- (rev_involutive xs). generalize (rev xs) as ys. clear xs. intros ys. rewrite map_rev, rev_involutive. induction ys as [|y ys IH]; intros A; [reflexivity|].
  cbn [map app held rev]. rewrite existsb_app, IH by (intros x X; apply A; cbn; apply in_app_iff; auto). cbn [existsb]. rewrite (A y) by (cbn; apply in_app_iff; right; now left).
  destruct (same_req (x_req y) k && eqb false raw); rewrite ?orb_true_r, ?orb_false_r; reflexivity.
Qed.
Lemma held_undone : forall xs us l k raw, (length xs <= length us)%nat -> (forall u, In u us -> u = Accepted) ->
  held (undone xs us ++ l) k raw = negb (existsb (fun x => same_req (x_req x) k && eqb false raw) xs) && held l k raw.
Proof.
  induction xs as [|x xs IH]; intros us l k raw L A; [reflexivity|]. destruct us as [|u us]; [cbn in L; lia|]. unfold undone. cbn [combine map rev fst snd]. rewrite <- app_assoc. fold (undone xs us).
  rewrite IH by (cbn in *; auto; lia). rewrite (A u) by now left. cbn [app held existsb]. destruct (same_req (x_req x) k && eqb false raw); cbn [orb negb andb]; [now rewrite andb_false_r|reflexivity].
Qed.

(** After any history, a list whose call succeeds is active as a whole, beside what was active
    before, and the provider has accepted each; nothing that was active is lost. *)
Theorem C43_success_partial : forall ops s rs xs us s' c, fair_run init ops = true -> run init ops = Ok (s, rs) -> fair s (SubscribeEx false xs us) = true ->
  step s (SubscribeEx false xs us) = Ok (s', Code c) -> c = E_SUCCESS ->
  actives s' = actives s ++ map (fun x => (x_req x, false, x_handler x)) xs /\ waiting s' = waiting s /\
  (forall x, In x xs -> x_ans x = Accepted /\ held (log s') (x_req x) false = true).
Proof.
  intros ops s rs xs us s' c FR R F E ->. destruct (run_ok ops init init_W FR) as (s0 & rs0 & R0 & WS & _). rewrite R in R0. injection R0 as <- <-.
  cbn [fair] in F. apply andb_true_iff in F as [F F3]. apply andb_true_iff in F as [F1 F2]. apply Nat.leb_le in F3.
  destruct (sub_ex_ok us xs s [] (entries s) WS) as (s2 & c & R2 & W' & WA & B' & AB & IB & H).
  { unfold news. cbn. now rewrite app_nil_r. } { reflexivity. } { exact F2. } { exact F3. }
  cbn [step coded map] in *. unfold coded in E. rewrite R2 in E. cbn [obind] in E. injection E as <- ->.
  destruct H as [(_ & AA & EN & LO)|(NC & _)]; [|now contradict NC]. split; [|split; [exact WA|]].
  - unfold actives. rewrite EN, acts_app, AB. f_equal. cbn [app]. clear. induction xs as [|x xs IH]; [reflexivity|]. cbn. f_equal. exact IH.
  - intros x X. split; [now apply AA|]. rewrite LO, held_sent by exact AA. apply orb_true_iff. left. apply existsb_exists. exists x. split; [exact X|]. rewrite same_req_refl; [reflexivity|].
    rewrite forallb_forall in F2. apply F2 in X. apply andb_true_iff in X as [X _]. now apply andb_true_iff in X as [X _].
Qed.
Print Assumptions C43_success_partial.

(** A call that fails changes nothing of what is active.  If in addition no reply is lost and the
    provider accepts the undoing requests, no provider holds anything for the list that it did not
    hold before and no withdrawn entry is left that was not there before. *)
Theorem C43_failure_partial : forall ops s rs xs us, fair_run init ops = true -> run init ops = Ok (s, rs) -> fair s (SubscribeEx false xs us) = true ->
  exists s' c, step s (SubscribeEx false xs us) = Ok (s', Code c) /\
   (c <> E_SUCCESS ->
     actives s' = actives s /\ waiting s' = waiting s /\
     ((forall u, In u us -> u = Accepted) -> (forall x, In x xs -> x_ans x <> Lost) ->
        (forall k raw, held (log s') k raw = true -> held (log s) k raw = true) /\
        (forall k raw, withdrawn s' k raw = true -> withdrawn s k raw = true))).
Proof.
  intros ops s rs xs us FR R F. destruct (run_ok ops init init_W FR) as (s0 & rs0 & R0 & WS & _). rewrite R in R0. injection R0 as <- <-.
  cbn [fair] in F. apply andb_true_iff in F as [F F3]. apply andb_true_iff in F as [F1 F2]. apply Nat.leb_le in F3.
  destruct (sub_ex_ok us xs s [] (entries s) WS) as (s2 & c & R2 & W' & WA & B' & AB & IB & H).
  { unfold news. cbn. now rewrite app_nil_r. } { reflexivity. } { exact F2. } { exact F3. }
  exists s2, c. cbn [step map] in *. unfold coded. rewrite R2. cbn [obind]. split; [reflexivity|]. intros NC.
  destruct H as [(Q & _)|(_ & pre & x & post & f & -> & EN & LO & AA & FF)]; [contradiction|]. cbn [app] in *.
  split; [|split; [exact WA|]].
  - unfold actives. rewrite EN, acts_app, left_over_acts, app_nil_r. exact AB.
  - intros UA NL. split.
    + intros k raw H. rewrite LO in H. rewrite held_undone in H; [|rewrite app_length in F3; cbn in F3; lia|exact UA]. apply andb_true_iff in H as [N H]. apply negb_true_iff in N.
      assert (HS : held (sent pre ++ log s) k raw = held (log s) k raw) by (now rewrite held_sent, N).
      destruct FF as [(-> & _)|(-> & NA)]; cbn [app] in H; [now rewrite HS in H|]. cbn [held] in H. rewrite HS in H. destruct (same_req (x_req x) k && eqb false raw); [|exact H].
      assert (XL : x_ans x <> Lost) by (apply NL, in_elt). rewrite forallb_forall in F2. specialize (F2 x (in_elt _ _ _)). apply andb_true_iff in F2 as [F2 _]. apply andb_true_iff in F2 as [_ F2].
      destruct (x_ans x) as [| |q|]; auto; try contradiction. cbn in F2. apply negb_true_iff in F2. now rewrite F2 in H.
    + intros k raw. apply withdrawn_mono. intros y Y DY. rewrite EN in Y. apply in_app_iff in Y as [Y|Y]; [now apply IB|]. apply left_over_dirty in Y as [_ Y]. apply UA in Y. discriminate.
Qed.
Print Assumptions C43_failure_partial.

(** Asked for asynchronously, the list becomes pending as a whole or not at all, and what is active
    and what the provider was asked for stay as they are. *)
Theorem C43_async_partial : forall ops s rs ks us, fair_run init ops = true -> run init ops = Ok (s, rs) -> fair s (SubscribeExAsync ks us) = true ->
  exists s' c, step s (SubscribeExAsync ks us) = Ok (s', Code c) /\ actives s' = actives s /\ log s' = log s /\
   (c = E_SUCCESS /\ waiting s' = waiting s ++ ks \/ c <> E_SUCCESS /\ waiting s' = waiting s).
Proof.
  intros ops s rs ks us FR R F. destruct (run_ok ops init init_W FR) as (s0 & rs0 & R0 & WS & _). rewrite R in R0. injection R0 as <- <-.
  cbn [fair] in F. apply andb_true_iff in F as [F1 F2]. apply Nat.leb_le in F2.
  destruct (sub_ex_async_ok us ks s [] (waiting s) WS) as (s' & c & E & W' & EN & LO & H); auto; try easy. { now rewrite app_nil_r. }
  exists s', c. cbn [step]. unfold coded. rewrite E. cbn [obind]. split; [reflexivity|]. split; [unfold actives; now rewrite EN|]. split; [exact LO|].
  destruct H as [(-> & H)|(-> & H)]; [now left|right]. split; [discriminate|exact H].
Qed.
Print Assumptions C43_async_partial.

(** After any history, what is active is what the calls and their results say: each successful
    subscribe replaces what is the same and each unsubscribe withdraws it. *)
Theorem C65_view_partial : forall ops, fair_run init ops = true -> exists s rs, run init ops = Ok (s, rs) /\ actives s = replays [] ops rs.
Proof. intros ops F. destruct (run_ok ops init init_W F) as (s & rs & R & _ & A). eauto. Qed.
Print Assumptions C65_view_partial.
(** An event then runs the handler of the active subscription it is for, once, and no other. *)
Theorem C65_delivery_partial : forall ops s rs k c u, fair_run init ops = true -> run init ops = Ok (s, rs) -> plain k = true -> withdrawn s k false = false \/ u <> NotFound ->
  exists s', step s (Deliver k c u) = Ok (s', Ran (match handler_of (replays [] ops rs) k false with Some h => [h] | None => [] end)).
Proof.
  intros ops s rs k c u F R P D. destruct (run_ok ops init init_W F) as (s0 & rs0 & R0 & WS & A). rewrite R in R0. injection R0 as <- <-. cbn in A. rewrite <- A.
  destruct (deliver_ok s k c u WS P) as (s' & l & E & _ & _ & L). exists s'. cbn [step]. rewrite E. cbn [obind]. now rewrite L.
Qed.
Print Assumptions C65_delivery_partial.
(** A second subscribe to what is active is refused and nothing is sent. *)
Theorem C65_refused_partial : forall ops s rs k raw h a id, fair_run init ops = true -> run init ops = Ok (s, rs) -> plain k = true -> existsb (is_act k raw) (replays [] ops rs) = true ->
  step s (Subscribe k raw h a id) = Ok (s, Code E_SUBSCRIPTION_ALREADY_EXIST) /\ (raw = false -> step s (SubscribeAsync k) = Ok (s, Code E_SUBSCRIPTION_ALREADY_EXIST)).
Proof.
  intros ops s rs k raw h a id F R P X. destruct (run_ok ops init init_W F) as (s0 & rs0 & R0 & WS & A). rewrite R in R0. injection R0 as <- <-. cbn in A. rewrite <- A in X.
  assert (B : begin_sub s k raw = Ok None).
  { apply existsb_exists in X as (p & I & Q). unfold actives in I. apply in_flat_map in I as (y & Y & I). pose proof WS as (WL & _). destruct (WL) as (K & _). destruct (K y Y) as (_ & (r & RY) & _).
    unfold act_of in I. rewrite RY in I. destruct (e_dirty y) eqn:D; [easy|]. destruct I as [<-|[]]. unfold is_act in Q. cbn in Q.
    destruct (begin_ok s k raw WS P) as [(B & _)|(_ & ID)]; [exact B|]. rewrite ID in D; [discriminate|exact Y|]. unfold same_entry. now rewrite RY. }
  split; [cbn [step]; unfold coded, subscribe; now rewrite B|]. intros ->. cbn [step]. unfold coded, subscribe_async. now rewrite B.
Qed.
Print Assumptions C65_refused_partial.
(** A subscribe to what is neither active nor pending sends one request and succeeds exactly if it is
    accepted. *)
Theorem C65_accepted_partial : forall ops s rs k raw h a id, fair_run init ops = true -> run init ops = Ok (s, rs) -> fair s (Subscribe k raw h a id) = true ->
  existsb (is_act k raw) (replays [] ops rs) = false -> find_waiting (waiting s) k = Ok None ->
  exists s' c, step s (Subscribe k raw h a id) = Ok (s', Code c) /\ log s' = WSub k raw a :: log s /\ (c = E_SUCCESS <-> a = Accepted) /\
    (c = E_SUCCESS -> actives s' = actives s ++ [(k, raw, h)]) /\ (c <> E_SUCCESS -> actives s' = actives s).
Proof.
  intros ops s rs k raw h a id F R G X NW. destruct (run_ok ops init init_W F) as (s0 & rs0 & R0 & WS & A). rewrite R in R0. injection R0 as <- <-. cbn in A. rewrite <- A in X.
  cbn [fair] in G. apply andb_true_iff in G as [G G3]. apply andb_true_iff in G as [G1 G2].
  destruct (subscribe_ok s k raw h a id WS G1 G2 G3) as (s' & c & E & W' & _ & H). exists s', c. cbn [step]. unfold coded. rewrite E. cbn [obind]. split; [reflexivity|].
  pose proof WS as (WL & _).
  destruct H as [(-> & -> & ID & EN & LO)|[(NC & NA & _ & EN & LO)|(_ & _ & [NI|(r & Q)])]].
  - split; [exact LO|]. split; [now split|]. split; [|now intros []]. intros _. unfold actives. rewrite EN, acts_app, acts_drop by exact WL. f_equal. now apply minus_dirty.
  - split; [exact LO|]. split; [now split|]. split; [intros ->; now contradict NC|]. intros _. unfold actives. now rewrite EN.
  - exfalso. apply NI. intros y Y SY. destruct (e_dirty y) eqn:D; [reflexivity|]. exfalso. rewrite <- not_true_iff_false in X. apply X. apply existsb_exists. destruct WL as (K & _). destruct (K y Y) as (_ & (r & RY) & _).
    exists (e_req y, r, e_handler y). split; [unfold actives; apply in_flat_map; exists y; unfold act_of; rewrite D, RY; cbn; auto|]. unfold same_entry in SY. rewrite RY in SY. exact SY.
  - congruence.
Qed.
Print Assumptions C65_accepted_partial.

(** ** what does not hold *)
Definition ev (s : string) : list Z := bs s.
Definition rq (s : string) : req := mkReq (ev s) FNull 0 0.
(** A subscription withdrawn while its provider was away is active again after an attempt to subscribe
    to it that was refused, and from then on every attempt is turned away. *)
Theorem C43_dirty_refuted : exists ops s rs s' c, fair_run init ops = true /\ run init ops = Ok (s, rs) /\ actives s = [] /\
  step s (SubscribeEx false [mkElt (rq "Device.A!") 8 (Refused E_BUS_ERROR) 2] [Accepted]) = Ok (s', Code c) /\ c <> E_SUCCESS /\ actives s' = [(rq "Device.A!", false, 7)] /\
  step s' (Subscribe (rq "Device.A!") false 9 Accepted 3) = Ok (s', Code E_SUBSCRIPTION_ALREADY_EXIST).
Proof.
  exists [Subscribe (rq "Device.A!") false 7 Accepted 1; Unsubscribe (ev "Device.A!") NotFound]. eexists _, _, _, _. split; [vm_compute; reflexivity|]. split; [vm_compute; reflexivity|]. split; [reflexivity|].
  split; [vm_compute; reflexivity|]. split; [discriminate|]. split; vm_compute; reflexivity.
Qed.
Print Assumptions C43_dirty_refuted.
(** A list of raw data subscriptions that fails is not undone: the undoing looks for other ones. *)
Theorem C43_raw_refuted : exists xs us s' c, step init (SubscribeEx true xs us) = Ok (s', Code c) /\ c <> E_SUCCESS /\ (forall u, In u us -> u = Accepted) /\
  actives s' = [(rq "Device.A!", true, 7)] /\ held (log s') (rq "Device.A!") true = true.
Proof.
  exists [mkElt (rq "Device.A!") 7 Accepted 1; mkElt (rq "Device.B!") 8 (Refused E_BUS_ERROR) 2], [Accepted; Accepted]. eexists _, _. split; [vm_compute; reflexivity|]. split; [discriminate|].
  split; [intros u [<-|[<-|[]]]; reflexivity|]. split; vm_compute; reflexivity.
Qed.
Print Assumptions C43_raw_refuted.
(** When the reply to an undoing request is lost the consumer forgets the subscription, the provider
    keeps it. *)
Theorem C43_undo_lost_refuted : exists xs us s' c, fair init (SubscribeEx false xs us) = true /\ step init (SubscribeEx false xs us) = Ok (s', Code c) /\ c <> E_SUCCESS /\
  entries s' = [] /\ held (log s') (rq "Device.A!") false = true /\ held (log init) (rq "Device.A!") false = false.
Proof.
  exists [mkElt (rq "Device.A!") 7 Accepted 1; mkElt (rq "Device.B!") 8 (Refused E_BUS_ERROR) 2], [Lost; Accepted]. eexists _, _. split; [reflexivity|]. split; [vm_compute; reflexivity|]. split; [discriminate|].
  repeat split.
Qed.
Print Assumptions C43_undo_lost_refuted.
(** When the provider says that it knows the subscription already, the entry made has fields that
    nothing has set, and the next search that comes to it reads them. *)
Theorem C43_uninitialised_refuted : exists s, step init (SubscribeEx false [mkElt (rq "Device.A!") 7 (Refused E_SUBSCRIPTION_ALREADY_EXIST) 1] [Accepted]) = Ok (s, Code E_SUCCESS) /\
  step s (Deliver (rq "Device.A!") false Accepted) = UB /\ step s (Unsubscribe (ev "Device.A!") Accepted) = UB.
Proof. eexists. split; [vm_compute; reflexivity|]. split; reflexivity. Qed.
Print Assumptions C43_uninitialised_refuted.
(** Undoing an asynchronous list withdraws a subscription that had been withdrawn before instead of
    the pending request, which is left behind. *)
Theorem C43_async_refuted : exists ops s rs s' c, fair_run init ops = true /\ run init ops = Ok (s, rs) /\ waiting s = [] /\
  step s (SubscribeExAsync [rq "Device.A!"; rq "Device.B!"] [Accepted; Accepted]) = Ok (s', Code c) /\ c <> E_SUCCESS /\ waiting s' = [rq "Device.A!"].
Proof.
  exists [Subscribe (rq "Device.A!") false 7 Accepted 1; Unsubscribe (ev "Device.A!") NotFound; Subscribe (rq "Device.B!") false 8 Accepted 2]. eexists _, _, _, _.
  split; [vm_compute; reflexivity|]. split; [vm_compute; reflexivity|]. split; [reflexivity|]. split; [vm_compute; reflexivity|]. split; [discriminate|reflexivity].
Qed.
Print Assumptions C43_async_refuted.
(** A handler is run after the unsubscribe call for it has returned success, as long as the provider
    cannot be reached to withdraw it. *)
Theorem C65_withdrawn_refuted : exists ops s rs s', fair_run init ops = true /\ run init ops = Ok (s, rs) /\ rs = [Code E_SUCCESS; Code E_SUCCESS] /\ replays [] ops rs = [] /\
  step s (Deliver (rq "Device.A!") false NotFound) = Ok (s', Ran [7]).
Proof.
  exists [Subscribe (rq "Device.A!") false 7 Accepted 1; Unsubscribe (ev "Device.A!") NotFound]. eexists _, _, _. split; [reflexivity|]. split; [vm_compute; reflexivity|]. split; [reflexivity|]. split; [reflexivity|]. vm_compute; reflexivity.
Qed.
Print Assumptions C65_withdrawn_refuted.
(** Two pending requests for one event that differ in interval only: the second is refused although
    both could be active side by side. *)
Theorem C65_pending_refuted : exists s rs, run init [SubscribeAsync (rq "Device.A!")] = Ok (s, rs) /\ same_req (rq "Device.A!") (mkReq (ev "Device.A!") FNull 5 0) = false /\
  step s (SubscribeAsync (mkReq (ev "Device.A!") FNull 5 0)) = Ok (s, Code E_SUBSCRIPTION_ALREADY_EXIST).
Proof. eexists _, _. split; [vm_compute; reflexivity|]. split; vm_compute; reflexivity. Qed.
Print Assumptions C65_pending_refuted.

(** ** a history that meets the hypotheses *)
Definition history : list op :=
  [ Subscribe (rq "Device.A!") false 7 Accepted 1; Subscribe (mkReq (ev "Device.A!") (FRel OP_GREATER_THAN (VInt32 5)) 0 0) false 8 Accepted 2;
    SubscribeAsync (rq "Device.B!"); Done 0 9 Accepted 3; Deliver (rq "Device.B!") false Accepted;
    SubscribeEx false [mkElt (rq "Device.C!") 1 Accepted 4; mkElt (rq "Device.D!") 2 NotFound 0] [Accepted; Accepted];
    Unsubscribe (ev "Device.A!") NotFound; Subscribe (rq "Device.A!") false 10 Accepted 5;
    SubscribeEx false [mkElt (rq "Device.C!") 3 Accepted 6; mkElt (rq "Device.D!") 4 Accepted 7] [Accepted; Accepted]; UnsubscribeEx [rq "Device.B!"] [Accepted] ].
Example C65_witness : fair_run init history = true /\ exists s rs, run init history = Ok (s, rs) /\
  map snd (replays [] history rs) = [8; 10; 3; 4] /\ handler_of (replays [] history rs) (rq "Device.A!") false = Some 10 /\ withdrawn s (rq "Device.A!") false = false /\
  existsb (is_act (rq "Device.C!") false) (replays [] history rs) = true /\ existsb (is_act (rq "Device.B!") false) (replays [] history rs) = false /\ find_waiting (waiting s) (rq "Device.B!") = Ok None.
Proof. split; [vm_compute; reflexivity|]. eexists _, _. split; [vm_compute; reflexivity|]. vm_compute. repeat split; reflexivity. Qed.
Example C43_witness : exists s rs, run init history = Ok (s, rs) /\ fair s (SubscribeEx false [mkElt (rq "Device.E!") 1 Accepted 8; mkElt (rq "Device.F!") 2 Accepted 9] [Accepted; Accepted]) = true /\
  fair s (SubscribeEx false [mkElt (rq "Device.E!") 1 Accepted 8; mkElt (rq "Device.F!") 2 (Refused E_BUS_ERROR) 9] [Accepted; Accepted]) = true /\
  fair s (SubscribeExAsync [rq "Device.E!"; rq "Device.C!"] [Accepted; Accepted]) = true /\
  (exists s', step s (SubscribeEx false [mkElt (rq "Device.E!") 1 Accepted 8; mkElt (rq "Device.F!") 2 Accepted 9] [Accepted; Accepted]) = Ok (s', Code E_SUCCESS)) /\
  (exists s', step s (SubscribeEx false [mkElt (rq "Device.E!") 1 Accepted 8; mkElt (rq "Device.F!") 2 (Refused E_BUS_ERROR) 9] [Accepted; Accepted]) = Ok (s', Code E_BUS_ERROR)).
Proof.
  eexists _, _. split; [vm_compute; reflexivity|]. split; [vm_compute; reflexivity|]. split; [vm_compute; reflexivity|]. split; [vm_compute; reflexivity|]. split; eexists; vm_compute; reflexivity.
Qed.
