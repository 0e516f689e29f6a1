(** Properties of the broker towards its clients: C27, and C24, C26, C58 as clients see them. *)
From Coq Require Import String.
From Verif Require Import Common CommonFacts RouteModel RouteSpec RouteProofs RouteInv RouteRun RouteLook RouterModel RouterSpec RouterProofs.
From Coq Require Import Lia.
Local Open Scope string_scope.
Local Open Scope list_scope.
Local Open Scope Z_scope.

Lemma consistent_run : forall l, consistent l -> exists b0 b h, start = Ok b0 /\ serve_all b0 l = Ok (b, h) /\ map fst h = l /\ rel (among (requested l)) b (view_of h).
Proof.
  intros l [T G R AD]. destruct (start_rel (among (requested l)) T) as (b0 & E0 & R0); [intros n H; apply in_app_iff; left; apply in_map, H|].
  destruct (serve_rel (among (requested l)) l b0 at_start [] T (rel_weak _ _ _ _ R0)) as (b & h & E & MF & RL).
  - intros s [].
  - intros c e id H. split; [|eapply G; eauto]. apply in_app_iff. right. apply in_flat_map. exists (Sub c e id). split; [exact H|left; reflexivity].
  - intros c e H. apply (R c e H).
  - exact AD.
  - exists b0, b, h. auto.
Qed.
(** Every message is delivered to exactly the subscriptions that serve its topic, in the order of
    their registration; a request nobody serves is turned around once, with its sequence number
    and without payload, and goes to whoever serves its reply topic; anything else nobody serves
    is dropped. *)
Theorem C27_dispatch_partial : forall l, consistent l -> exists b0 b h, start = Ok b0 /\ serve_all b0 l = Ok (b, h) /\ map fst h = l /\
  forall m, plain l (m_topic m) -> (Z.testbit (m_flags m) 0 = true -> plain l (m_reply m)) -> dispatch b m = Ok (expected (view_of h) m).
Proof.
  intros l C. destruct (consistent_run l C) as (b0 & b & h & E0 & E & MF & RL). exists b0, b, h. split; [exact E0|]. split; [exact E|]. split; [exact MF|].
  intros m (P1 & P2 & P3 & P4) PR. apply (dispatch_rel (among (requested l))); auto; [apply (k_tidy _ C)|].
  destruct (Z.testbit (m_flags m) 0); [left; apply PR; reflexivity|right; reflexivity].
Qed.
Print Assumptions C27_dispatch_partial.
(** So the sender of such a request, being the one that serves its reply topic, gets exactly one
    message, an undeliverable response with the same sequence number, and nobody else anything. *)
Theorem C27_undeliverable_partial : forall l, consistent l -> exists b0 b h, start = Ok b0 /\ serve_all b0 l = Ok (b, h) /\ map fst h = l /\
  forall m, plain l (m_topic m) -> owners (view_of h) (split (m_topic m)) = [] ->
  (Z.testbit (m_flags m) 0 = false -> dispatch b m = Ok []) /\
  (forall c id, Z.testbit (m_flags m) 0 = true -> plain l (m_reply m) -> owners (view_of h) (split (m_reply m)) = [Some (c, id)] ->
   exists r, dispatch b m = Ok [ToClient c r] /\ m_seq r = m_seq m /\ m_topic r = m_reply m /\ m_payload r = [] /\ m_control r = id /\
     Z.testbit (m_flags r) 0 = false /\ Z.testbit (m_flags r) 1 = true /\ Z.testbit (m_flags r) 2 = true).
Proof.
  intros l C. destruct (C27_dispatch_partial l C) as (b0 & b & h & E0 & E & MF & D). exists b0, b, h. split; [exact E0|]. split; [exact E|]. split; [exact MF|].
  intros m PM NO. split.
  - intros TB. rewrite D; [|exact PM|congruence]. unfold expected. rewrite NO, TB. reflexivity.
  - intros c id TB PR OR. eexists. split; [|split; [|split; [|split; [|split]]]].
    + rewrite D; [|exact PM|auto]. unfold expected. rewrite NO, TB, OR. cbn [map deliver_to undeliverable m_seq m_flags m_topic m_reply m_payload]. reflexivity.
    + reflexivity.
    + reflexivity.
    + reflexivity.
    + reflexivity.
    + cbn [m_flags]. rewrite !Z.lor_spec, Z.land_spec. cbn. rewrite andb_false_r, !orb_true_r. auto.
Qed.
Print Assumptions C27_undeliverable_partial.
Definition client1_inbox : list Z := bs "client.one.INBOX.1".
Definition client2_inbox : list Z := bs "client.two.INBOX.2".
Definition story : list req :=
  [Sub 1 client1_inbox 1; Sub 2 client2_inbox 1; Sub 2 (bs "Provider.two") 5; Sub 2 (bs "Device.Tab.{i}.X") 5; Sub 1 (bs "Device.Tab.{i}.X") 1; Sub 3 (bs "Device.Z") 7; Sub 3 (bs "Device.Y") 7; Unsub 3 (bs "Device.Y"); Leave 4].
Definition story_history : list (req * Z) := combine story [0; 0; 0; 0; RT_ERROR_DUPLICATE_ENTRY; 0; 0; 0; 0].
Definition ask (topic reply : list Z) : msg := mkMsg 42 1 topic reply [1; 2; 3] 0.
Ltac decide_all := match goal with |- literal ?A ?q => let x := eval vm_compute in A in change A with x end;
  intros a Ha; repeat (destruct Ha as [<-|Ha]; [vm_compute; reflexivity|]); destruct Ha.
Lemma story_consistent : consistent story.
Proof.
  constructor.
  - assert (X : forallb (fun a => forallb (fun b => negb (clash a b)) (requested story)) (requested story) = true) by (vm_compute; reflexivity).
    intros a b Ha Hb. rewrite forallb_forall in X. specialize (X _ Ha). rewrite forallb_forall in X. specialize (X _ Hb). destruct (clash a b); [discriminate|reflexivity].
  - intros c e id H. repeat (destruct H as [H|H]; [first [discriminate H|injection H as <- <- <-; split; [vm_compute; lia|reflexivity]]|]). destruct H.
  - intros c e H. repeat (destruct H as [H|H]; [first [discriminate H|injection H as <- <-; split; [vm_compute; lia|decide_all]]|]). destruct H.
  - vm_compute. intuition discriminate.
Qed.
Ltac decide_plain := split; [vm_compute; lia|split; [discriminate|split; [vm_compute; reflexivity|]]];
  match goal with |- askable ?A ?q => let x := eval vm_compute in A in change A with x end; intros a Ha; repeat (destruct Ha as [<-|Ha]; [vm_compute; reflexivity|]); destruct Ha.
Example C27_witness : consistent story /\ (exists b0 b, start = Ok b0 /\ serve_all b0 story = Ok (b, story_history) /\
    dispatch b (ask (bs "Device.Tab.4.X") client1_inbox) = Ok [ToClient 2 (mkMsg 42 1 (bs "Device.Tab.4.X") client1_inbox [1; 2; 3] 5)] /\
    dispatch b (ask (bs "Device.Y") client1_inbox) = Ok [ToClient 1 (mkMsg 42 6 client1_inbox client1_inbox [] 1)]) /\
  plain story (bs "Device.Y") /\ plain story client1_inbox /\ owners (view_of story_history) (split (bs "Device.Y")) = [] /\ owners (view_of story_history) (split client1_inbox) = [Some (1, 1)].
Proof.
  split; [exact story_consistent|]. split; [eexists _, _; split; [vm_compute; reflexivity|split; [vm_compute; reflexivity|split; vm_compute; reflexivity]]|].
  split; [decide_plain|]. split; [decide_plain|]. split; vm_compute; reflexivity.
Qed.
(** The answer to a subscription request whose reply topic is the broker's own makes the broker
    read through a null pointer. *)
Theorem C27_answer_refuted : exists b0 rq, start = Ok b0 /\ Z.testbit (m_flags rq) 0 = true /\ forall result, answer b0 rq result = UB.
Proof.
  eexists _, (mkMsg 1 1 (bs "_RTROUTED.INBOX.SUBSCRIBE") (bs "_RTROUTED.INBOX.QUERY") [] 0). split; [vm_compute; reflexivity|]. split; [reflexivity|]. intros result. vm_compute. reflexivity.
Qed.
Print Assumptions C27_answer_refuted.
(** A subscription is reported as accepted although the tree has refused its name, and nothing is
    delivered to it. *)
Theorem C24_accepted_refuted : exists l b0 b h, start = Ok b0 /\ serve_all b0 l = Ok (b, h) /\ last h (Leave 0, 1) = (Sub 2 (bs "A.B") 2, 0) /\
  forall seq r, dispatch b (mkMsg seq 0 (bs "A.B") r [] 0) = Ok [].
Proof.
  exists [Sub 1 (bs "A.{i}.X") 1; Sub 2 (bs "A.B") 2]. eexists _, _, _. split; [vm_compute; reflexivity|]. split; [vm_compute; reflexivity|]. split; [vm_compute; reflexivity|]. intros seq r. vm_compute. reflexivity.
Qed.
Print Assumptions C24_accepted_refuted.

(** ** C26: a client leaves *)
Definition to_client (c : Z) (d : delivery) : bool := match d with ToClient x _ => x =? c | ToBroker _ => false end.
Lemma requested_leave : forall l c, requested (l ++ [Leave c]) = requested l.
Proof. intros. unfold requested. rewrite flat_map_app. cbn. rewrite app_nil_r. reflexivity. Qed.
Lemma requested_unsub : forall l c e, requested (l ++ [Unsub c e]) = requested l.
Proof. intros. unfold requested. rewrite flat_map_app. cbn. rewrite app_nil_r. reflexivity. Qed.
Lemma deliver_client : forall c m o, to_client c (deliver_to m o) = of_client c o.
Proof. intros c m [(x, y)|]; reflexivity. Qed.
Lemma owners_leave : forall v c rc p, owners (record v (Leave c, rc)) p = filter (fun o => negb (of_client c o)) (owners v p).
Proof.
  intros v c rc p. unfold owners. assert (E : names_of (record v (Leave c, rc)) = filter (fun x => negb (of_client c (snd x))) (names_of v)) by (destruct rc; reflexivity). rewrite E. clear E.
  induction (names_of v) as [|(u, o) l IH]; [reflexivity|]. cbn [filter snd fst]. destruct (of_client c o) eqn:OC; cbn [negb filter fst]; destruct (serves p u); cbn [map snd filter]; rewrite ?OC; cbn [negb]; rewrite IH; reflexivity.
Qed.
Lemma map_filter_deliver : forall c m os, map (deliver_to m) (filter (fun o => negb (of_client c o)) os) = filter (fun d => negb (to_client c d)) (map (deliver_to m) os).
Proof. intros c m. induction os as [|o os IH]; [reflexivity|]. cbn [map filter]. rewrite deliver_client. destruct (of_client c o); cbn [negb map]; rewrite IH; reflexivity. Qed.
(** After a client has left nothing is delivered to it, and what is not a request reaches exactly
    the other clients it reached before. *)
Theorem C26_clients_partial : forall l c, consistent l -> exists b0 b h, start = Ok b0 /\ serve_all b0 l = Ok (b, h) /\
  forall m, plain l (m_topic m) -> (Z.testbit (m_flags m) 0 = true -> plain l (m_reply m)) -> exists ds ds', dispatch b m = Ok ds /\ dispatch (leave b c) m = Ok ds' /\
    (forall r, ~ In (ToClient c r) ds') /\ (Z.testbit (m_flags m) 0 = false -> ds' = filter (fun d => negb (to_client c d)) ds).
Proof.
  intros l c C. destruct (consistent_run l C) as (b0 & b & h & E0 & E & MF & RL). exists b0, b, h. split; [exact E0|]. split; [exact E|].
  intros m PM PR. pose proof (leave_rel _ _ _ _ c 0 RL) as RL'. pose proof (k_tidy _ C) as T. destruct PM as (P1 & P2 & P3 & P4).
  assert (PR' : fits (m_reply m) /\ m_reply m <> [] /\ ends_dot (m_reply m) = false /\ askableP (among (requested l)) (split (m_reply m)) \/ Z.testbit (m_flags m) 0 = false).
  { destruct (Z.testbit (m_flags m) 0); [left; apply PR; reflexivity|right; reflexivity]. }
  exists (expected (view_of h) m), (expected (record (view_of h) (Leave c, 0)) m).
  split; [apply (dispatch_rel (among (requested l))); auto|]. split; [apply (dispatch_rel (among (requested l))); auto|].
  unfold expected. rewrite !owners_leave. split.
  - assert (NI : forall mm os r, ~ In (ToClient c r) (map (deliver_to mm) (filter (fun o => negb (of_client c o)) os))).
    { intros mm os r H. rewrite map_filter_deliver in H. apply filter_In in H as [_ H]. cbn in H. rewrite Z.eqb_refl in H. discriminate. }
    intros r. pose proof (NI m (owners (view_of h) (split (m_topic m))) r) as N1. destruct (filter (fun o => negb (of_client c o)) (owners (view_of h) (split (m_topic m)))); [|exact N1].
    destruct (Z.testbit (m_flags m) 0); [apply NI|intros []].
  - intros TB. rewrite TB. pose proof (map_filter_deliver c m (owners (view_of h) (split (m_topic m)))) as X. destruct (owners (view_of h) (split (m_topic m))) as [|o os]; [reflexivity|]. rewrite <- X.
    destruct (filter _ (o :: os)); reflexivity.
Qed.
Print Assumptions C26_clients_partial.

(** ** C58: a client takes back a name *)
(** Taking back the first name of one's own subscription affects only that subscription. *)
Theorem C58_own_partial : forall l c e, consistent (l ++ [Unsub c e]) -> printable e RTMSG_MAX_EXPRESSION_LEN = true -> exists b0 b h, start = Ok b0 /\ serve_all b0 l = Ok (b, h) /\
  forall id, find (fun s => bytes_eqb (snd s) e && (fst (fst s) =? c)) (subs_of (view_of h)) = Some ((c, id), e) ->
  exists b', unsubscribe b c e = Ok (b', 0) /\ forall m, plain l (m_topic m) -> Z.testbit (m_flags m) 0 = false -> exists os, dispatch b m = Ok (map (deliver_to m) os) /\
    dispatch b' m = Ok (map (deliver_to m) (filter (fun o => negb (owner_eqb o (Some (c, id)))) os)).
Proof.
  intros l c e C PE. assert (RQ : requested (l ++ [Unsub c e]) = requested l) by apply requested_unsub.
  assert (C0 : consistent l).
  { destruct C as [T G R AD]. rewrite RQ in *. constructor; auto.
    - intros c' e' id H. eapply G. apply in_app_iff. left. exact H.
    - intros c' e' H. apply (R c'). apply in_app_iff. left. exact H.
    - clear - AD. revert AD. generalize (@nil (Z * Z)) as seen. induction l as [|r l IH]; intros seen AD; [exact I|]. destruct r as [c1 e1 id1|c1 e1|c1]; cbn [app advisory_first] in *; [destruct AD as [A1 A2]; split; auto|auto|auto]. }
  destruct (consistent_run l C0) as (b0 & b & h & E0 & E & MF & RL). exists b0, b, h. split; [exact E0|]. split; [exact E|]. intros id FD.
  pose proof (k_tidy _ C0) as T.
  destruct (unsubscribe_rel _ _ _ _ c e T RL) as (b' & rc & EU & RL').
  { apply (k_removed _ C c e). apply in_app_iff. right. left. reflexivity. }
  { destruct (k_removed _ C c e ltac:(apply in_app_iff; right; left; reflexivity)) as [_ L]. rewrite RQ in L. exact L. }
  { discriminate. }
  assert (rc = 0) as ->.
  { unfold unsubscribe in EU. rewrite PE in EU. cbn [negb] in EU. destruct (find _ (entries b)); [injection EU as _ <-; reflexivity|]. destruct (remove_topic (tree_of b) e); cbn [obind] in EU; try discriminate. injection EU as _ <-. reflexivity. }
  exists b'. split; [exact EU|]. intros m PM TB. exists (owners (view_of h) (split (m_topic m))). destruct PM as (P1 & P2 & P3 & P4).
  rewrite (dispatch_rel _ _ _ m T RL P1 P2 P3 P4) by auto. rewrite (dispatch_rel _ _ _ m T RL' P1 P2 P3 P4) by auto.
  assert (EO : owners (record (view_of h) (Unsub c e, 0)) (split (m_topic m)) = filter (fun o => negb (owner_eqb o (Some (c, id)))) (owners (view_of h) (split (m_topic m)))).
  { cbn [record]. rewrite FD. cbn [fst]. unfold owners. cbn [names_of]. induction (names_of (view_of h)) as [|(u, o) ns IH]; [reflexivity|]. cbn [filter snd fst].
    destruct (owner_eqb o (Some (c, id))) eqn:OC; cbn [negb filter fst]; destruct (serves (split (m_topic m)) u); cbn [map snd filter]; rewrite ?OC; cbn [negb]; rewrite IH; reflexivity. }
  unfold expected. rewrite TB, EO. split; [destruct (owners (view_of h) _); reflexivity|]. destruct (filter _ (owners (view_of h) _)); reflexivity.
Qed.
Print Assumptions C58_own_partial.
Example C58_own_witness : consistent (story ++ [Unsub 2 (bs "Provider.two")]) /\ printable (bs "Provider.two") RTMSG_MAX_EXPRESSION_LEN = true /\
  find (fun s => bytes_eqb (snd s) (bs "Provider.two") && (fst (fst s) =? 2)) (subs_of (view_of story_history)) = Some ((2, 5), bs "Provider.two").
Proof.
  split; [|split; vm_compute; reflexivity]. pose proof story_consistent as [T G R AD]. constructor.
  - rewrite requested_unsub. exact T.
  - intros c e id H. apply in_app_iff in H as [H|[H|[]]]; [eapply G; eauto|discriminate].
  - intros c e H. rewrite requested_unsub. apply in_app_iff in H as [H|[H|[]]]; [eapply R; eauto|]. injection H as <- <-. split; [vm_compute; lia|]. decide_all.
  - vm_compute. intuition discriminate.
Qed.
(** A client can take away the names of another one. *)
Theorem C58_others_client_refuted : exists l b0 b h b', consistent l /\ start = Ok b0 /\ serve_all b0 l = Ok (b, h) /\
  owners (view_of h) (split (bs "Device.Z")) = [Some (3, 7)] /\ unsubscribe b 2 (bs "Device") = Ok (b', 0) /\
  forall m, m_topic m = bs "Device.Z" -> Z.testbit (m_flags m) 0 = false -> dispatch b m = Ok [deliver_to m (Some (3, 7))] /\ dispatch b' m = Ok [].
Proof.
  exists story. eexists _, _, story_history, _. split; [exact story_consistent|]. split; [vm_compute; reflexivity|]. split; [vm_compute; reflexivity|]. split; [vm_compute; reflexivity|]. split; [vm_compute; reflexivity|].
  intros [sq fl tp rp pl ct] E TB. cbn [m_topic m_flags] in *. subst tp. split; [vm_compute; reflexivity|].
  unfold dispatch. cbn [m_topic m_flags]. match goal with |- obind ?x _ = _ => let y := eval vm_compute in x in replace x with y by (vm_compute; reflexivity) end. cbn [obind].
  assert (FL : Z.land fl FLAG_REQUEST = 0).
  { apply Z.bits_inj_0. intros k. rewrite Z.land_spec. destruct (Z.eq_dec k 0) as [->|NE]; [rewrite TB; reflexivity|]. unfold FLAG_REQUEST. destruct (Z.ltb_spec k 0); [rewrite Z.testbit_neg_r by lia; reflexivity|].
    rewrite (Z.bits_above_log2 1 k) by (cbn; lia). apply andb_false_r. }
  rewrite FL. reflexivity.
Qed.
Print Assumptions C58_others_client_refuted.
