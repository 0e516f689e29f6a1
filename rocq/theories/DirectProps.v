(** C92 (requests over direct connections) and C93 (events for directly connected consumers). *)
From Coq Require Import String Lia ZifyBool.
From Verif Require Import Common CommonFacts Bytes HeaderModel MsgModel VecList LinkModel DirectModel DirectSpec DirectProofs DirectFacts.
Local Open Scope string_scope.
Local Open Scope list_scope.
Local Open Scope Z_scope.

(** C92: in every state fair histories lead to, a request on a direct connection runs the handler of
    the parameter's component, once, with the parameter's name, the method and a message that carries
    what was sent; the response on the same connection answers the request and carries what the
    handler left. *)
Theorem C92_request_partial : forall E s c d fd method tp ts sequence out,
  reach E s -> connected s c d fd -> text_ok method -> text_ok tp -> text_ok ts -> is_cstr c = true -> size_ok out ->
  (forall m, carries m out -> exists r, hs E (owner E d) d (Some method) m = Answer r /\ size_ok r) ->
  exists m r h bytes m', step E s (Request c d method tp ts sequence out) = Ok (s, [Ran (mkCall (owner E d) d (Some method) m); Replied fd h bytes]) /\
    carries m out /\ hs E (owner E d) d (Some method) m = Answer r /\
    read_response bytes = Ok (inl m') /\ carries m' r /\
    h_sequence_number h = sequence /\ cstring (h_topic h) = Some c /\ h_flags h = rtMessageFlags_Response /\ h_payload_length h = Z.of_nat (length bytes).
Proof. exact request_served. Qed.
Print Assumptions C92_request_partial.

(** C92: whatever bytes arrive, the handler sees and leaves the same as for a request that came by the
    broker. *)
Theorem C92_same_partial : forall E s c d fd bytes, reach E s -> connected s c d fd ->
  (forall method m, exists r, hs E (owner E d) d method m = Answer r) ->
  serve_direct E s d bytes = match serve_broker (hs E) (owner E d) d bytes with Ok (Some r, cs) => Ok (r, cs) | _ => UB end.
Proof. exact same_as_broker. Qed.
Print Assumptions C92_same_partial.

(** C92: a parameter for which nobody ever opened a direct connection is not served over one: no
    handler runs and the caller is told. *)
Theorem C92_never_opened : forall E l s c d fd method tp ts sequence out,
  history E any init l s -> p_conn (peers s c) = Some fd -> fits_name d -> (forall x, ~ In (Open x d) l) ->
  text_ok method -> text_ok tp -> text_ok ts -> size_ok out ->
  exists h bytes m' code m2, step E s (Request c d method tp ts sequence out) = Ok (s, [Replied fd h bytes]) /\ read_response bytes = Ok (inl m') /\
    get_int32 m' = Ok (code, m2) /\ code = CORE_UNSUPPORTED.
Proof.
  intros E l s c d fd method tp ts sequence out H C Fd No Tm Tp Ts So.
  apply (request_unknown E s c d fd); try assumption; [exact (history_reach E any init l s H (reach_init E))|].
  intros p e It Ed. subst d. apply (No (n_consumer e)). exact (opened_items E any l s H p e It).
Qed.
Print Assumptions C92_never_opened.

(** C92: when no consumer gives up or ends while connecting, the same holds for a parameter that
    nobody has open any more, once the provider has noticed the consumers that left. *)
Theorem C92_closed_partial : forall E l s c d fd method tp ts sequence out,
  history E clean init l s -> p_conn (peers s c) = Some fd -> fits_name d ->
  (forall x, ~ In d (p_open (peers s x))) -> (forall x, settled E s x) ->
  text_ok method -> text_ok tp -> text_ok ts -> size_ok out ->
  exists h bytes m' code m2, step E s (Request c d method tp ts sequence out) = Ok (s, [Replied fd h bytes]) /\ read_response bytes = Ok (inl m') /\
    get_int32 m' = Ok (code, m2) /\ code = CORE_UNSUPPORTED.
Proof.
  intros E l s c d fd method tp ts sequence out H C Fd No Se Tm Tp Ts So.
  destruct (clean_history E init l s H (Inv_init E) (Tidy_init E)) as [_ T].
  apply (request_unknown E s c d fd); try assumption; [exact (history_reach E clean init l s H (reach_init E))|].
  intros p e It Ed. subst d. destruct (w_open E s T p e It) as [Y|Y]; [exact (No _ Y)|exact (gone_settled E s _ (Se _) Y)].
Qed.
Print Assumptions C92_closed_partial.

(** C92: nothing the consumers do makes the provider use freed or uninitialised memory, as long as the
    handlers answer and a publisher's item is still in the list. *)
Theorem C92_safe_partial : forall E s o, reach E s ->
  match o with
  | Request c d method tp ts _ out => text_ok method /\ text_ok tp /\ text_ok ts /\ size_ok out /\ forall k n m, exists r, hs E k n (Some method) m = Answer r
  | PubSend _ _ => forall p, found s = Some p -> In p (vec s)
  | _ => True
  end -> step E s o <> UB.
Proof. exact step_safe. Qed.
Print Assumptions C92_safe_partial.

(** ** a provider *)
Definition answer : msg := set_int32 msg_init 0.
Definition P1 : env := mkEnv (bs "prov") (fun _ => true) (fun d => Z.of_nat (length d)) (fun _ _ _ _ => Answer answer).
(* the same, but its handlers answer later *)
Definition P2 : env := mkEnv (bs "prov") (fun _ => true) (fun d => Z.of_nat (length d)) (fun _ _ _ _ => Later).
(* a program with a long name *)
Definition P3 : env := mkEnv (repeat 97 240) (fun _ => true) (fun _ => 7) (fun _ _ _ _ => Answer answer).
Definition c1 : name := bs "app.INBOX.1".
Definition c2 : name := bs "app.INBOX.2".
Definition d1 : name := bs "Device.A".
Definition d2 : name := bs "Device.BC".
Definition get : name := bs "METHOD_GETPARAMETERVALUES".
Definition after (E : env) (l : list op) : state := match run E init l with Ok (s, _) => s | _ => init end.
Definition effects (E : env) (l : list op) : list (list effect) := match run E init l with Ok (_, r) => r | _ => [] end.

(* fairness, to be computed *)
Definition fairb (E : env) (s : state) (o : op) : bool :=
  match o with
  | Open c d => Nat.eqb (length (address E c)) (20 + length (prog E) + 1 + length c) && Nat.leb (length d) 255 &&
      forallb (fun t => match t with mkThread a (Serving fd) => negb (bytes_eqb a (address E c)) || alive s fd | _ => true end) (threads s)
  | _ => true
  end.
Lemma fairb_ok E s o : fairb E s o = true -> fair E s o.
Proof.
  destruct o; cbn [fairb fair]; trivial. intros H. apply andb_prop in H. destruct H as [H H3]. apply andb_prop in H. destruct H as [H1 H2].
  apply Nat.eqb_eq in H1. apply Nat.leb_le in H2. split; [exact H1|]. split; [exact H2|]. intros t fd N. rewrite forallb_forall in H3.
  specialize (H3 _ (nth_error_In _ _ N)). cbv beta iota in H3. rewrite bytes_eqb_refl in H3. exact H3.
Qed.
Definition cleanb (s : state) (o : op) : bool :=
  match o with GiveUp _ _ => false | Exit c => match p_conn (peers s c), p_open (peers s c) with None, _ :: _ => false | _, _ => true end | _ => true end.
Lemma cleanb_ok s o : cleanb s o = true -> clean s o.
Proof.
  destruct o; cbn [cleanb clean]; trivial; [discriminate|]. destruct (p_conn (peers s c)); [left; discriminate|]. destruct (p_open (peers s c)); [now right|discriminate].
Qed.
Fixpoint go (E : env) (q : state -> op -> bool) (s : state) (l : list op) : option state :=
  match l with
  | [] => Some s
  | o :: l => if fairb E s o && q s o then match step E s o with Ok (s, _) => go E q s l | _ => None end else None
  end.
Lemma go_history E q (also : state -> op -> Prop) l : (forall s o, q s o = true -> also s o) -> forall s s', go E q s l = Some s' -> history E also s l s'.
Proof.
  intros Q. induction l as [|o l IH]; intros s s' G; cbn [go] in G; [injection G as <-; constructor|].
  destruct (fairb E s o && q s o) eqn:B; [|discriminate]. apply andb_prop in B. destruct B as [B1 B2].
  destruct (step E s o) as [[s1 es]| |] eqn:St; try discriminate.
  apply (history_cons E also s o s1 es l s'); [now apply fairb_ok|now apply Q|exact St|now apply IH].
Qed.
Lemma go_clean E l s : go E cleanb init l = Some s -> history E clean init l s.
Proof. apply go_history. exact cleanb_ok. Qed.
Lemma history_weaken E also l s s' : history E also s l s' -> history E any s l s'.
Proof. induction 1; [constructor|]. eapply history_cons; try eassumption. exact Logic.I. Qed.

(* two consumers, one of which comes back after the provider has noticed that it had left *)
Definition story : list op :=
  [Open c1 d1; Attach c1 0; Open c2 d1; Open c1 d2; Attach c2 1; Close c1 d1; Close c1 d2; EndThread 0; Open c1 d2; Attach c1 2].
Example C92_witness : exists s, history P1 clean init story s /\ connected s c1 d2 3 /\ connected s c2 d1 2 /\
  (forall x, ~ In (Open x (bs "Device.C")) story) /\ (forall m, carries m msg_init -> exists r, hs P1 (owner P1 d2) d2 (Some get) m = Answer r /\ size_ok r) /\
  text_ok get /\ size_ok msg_init /\ is_cstr c1 = true.
Proof.
  exists (after P1 story). split; [apply go_clean; vm_compute; reflexivity|].
  split; [split; [vm_compute; left; reflexivity|vm_compute; reflexivity]|].
  split; [split; [vm_compute; left; reflexivity|vm_compute; reflexivity]|].
  split; [intros x H; vm_compute in H; repeat (destruct H as [H|H]; [discriminate H|]); exact H|].
  split; [intros m _; exists answer; split; [reflexivity|vm_compute; reflexivity]|].
  split; [split; vm_compute; reflexivity|]. split; vm_compute; reflexivity.
Qed.
Definition who (o : op) : option name := match o with Open c _ | Attach c _ | GiveUp c _ | Close c _ | Exit c => Some c | _ => None end.
Lemma peers_step E s o s' es x : step E s o = Ok (s', es) -> who o <> Some x -> peers s' x = peers s x.
Proof.
  intros St W. destruct o as [c d|c t|c d|c d|c|t|c d m tp ts q out|d c|raw b]; cbn [step] in St; cbv zeta in St; cbn [who] in W.
  - destruct (existsb _ _); [step_out St; reflexivity|]. destruct (has E d); cbn [negb] in St; [|step_out St; reflexivity].
    unfold start_listener in St. destruct (first_item _ _ _) as [o| |]; try discriminate. cbn [obind] in St.
    destruct (match o with None => _ | Some p => _ end) as [i| |]; try discriminate. cbn [obind] in St. step_out St. cbn. apply set_peer_other. congruence.
  - destruct (nth_error (threads s) t) as [[a [| |]]|]; try discriminate. destruct (p_conn (peers s c)); [discriminate|]. destruct (p_open (peers s c)); [discriminate|].
    destruct (bytes_eqb a (address E c)); [|discriminate]. destruct (tell_info _ _ _) as [h| |]; try discriminate. cbn [obind] in St. step_out St. cbn. apply set_peer_other. congruence.
  - destruct (p_conn (peers s c)); [discriminate|]. destruct (p_open (peers s c)) as [|y [|]]; try discriminate. destruct (bytes_eqb y d); [|discriminate]. step_out St. cbn. apply set_peer_other. congruence.
  - destruct (p_conn (peers s c)); [|discriminate]. destruct (existsb _ _); [|discriminate]. cbn [negb] in St. unfold update_listener in St.
    destruct (first_item _ _ _) as [[p|]| |]; try discriminate; cbn [obind] in St; step_out St; cbn; apply set_peer_other; congruence.
  - step_out St. cbn. apply set_peer_other. congruence.
  - destruct (nth_error (threads s) t) as [[a [|fd|]]|]; try discriminate. destruct (alive s fd); [discriminate|].
    destruct (drop_addr _ _ _) as [[h v]| |]; try discriminate. cbn [obind] in St. step_out St. reflexivity.
  - destruct (p_conn (peers s c)); [|discriminate]. destruct (serve_direct _ _ _ _) as [[r cs]| |]; try discriminate. cbn [obind] in St. step_out St. reflexivity.
  - destruct (first_item _ _ _) as [[p|]| |]; try discriminate; cbn [obind] in St; step_out St; reflexivity.
  - destruct (found s); [|discriminate]. destruct (deref _ _); try discriminate. cbn [obind] in St. step_out St. reflexivity.
Qed.
Lemma peers_run E also s l s' x : history E also s l s' -> (forall o, In o l -> who o <> Some x) -> peers s' x = peers s x.
Proof.
  induction 1 as [s|s o s1 es l s2 F A St H IH]; intros W; [reflexivity|]. rewrite IH by (intros o' I; apply W; now right).
  apply (peers_step E s o s1 es x St). apply W. now left.
Qed.
Lemma phases s t a x : nth_error (threads s) t = Some (mkThread a x) -> nth_error (map t_phase (threads s)) t = Some x.
Proof. intros N. rewrite nth_error_map, N. reflexivity. Qed.
(* the parameter both consumers had is open to none any more *)
Definition story2 : list op := story ++ [Close c2 d1; EndThread 1].
Example C92_witness2 : exists s, history P1 clean init story2 s /\ p_conn (peers s c1) = Some 3%nat /\
  (forall x, ~ In d1 (p_open (peers s x))) /\ (forall x, settled P1 s x).
Proof.
  exists (after P1 story2). assert (H : history P1 clean init story2 (after P1 story2)) by (apply go_clean; vm_compute; reflexivity).
  split; [exact H|]. split; [vm_compute; reflexivity|]. split.
  - intros x Ix. destruct (bytes_eqb x c1) eqn:X1; [apply bytes_eqb_eq in X1; subst x; vm_compute in Ix; destruct Ix as [Ix|[]]; discriminate Ix|].
    destruct (bytes_eqb x c2) eqn:X2; [apply bytes_eqb_eq in X2; subst x; vm_compute in Ix; exact Ix|].
    apply bytes_eqb_neq in X1. apply bytes_eqb_neq in X2. rewrite (peers_run P1 clean init story2 _ x H) in Ix; [exact Ix|].
    assert (A : forallb (fun o => match who o with Some y => bytes_eqb y c1 || bytes_eqb y c2 | None => true end) story2 = true) by (vm_compute; reflexivity).
    rewrite forallb_forall in A. intros o I W. specialize (A o I). cbv beta in A. rewrite W in A. apply orb_prop in A. destruct A as [A|A]; apply bytes_eqb_eq in A; contradiction.
  - intros x t fd N.
    apply phases in N. assert (T : map t_phase (threads (after P1 story2)) = [Ended; Ended; Serving 3]) by (vm_compute; reflexivity).
    rewrite T in N. destruct t as [|[|[|t]]]; cbn [nth_error] in N; try discriminate N; [|destruct t; discriminate N].
    assert (fd = 3%nat) by congruence. subst fd. vm_compute. reflexivity.
Qed.

(** C92: without waiting for the provider the statement is false: a consumer that closes its last
    parameter and opens it again before the thread of the former connection has ended loses the new
    entry with it; its requests are refused although it is connected. *)
Theorem C92_reopen_refuted : exists E l s rs c d fd h bytes, run E init l = Ok (s, rs) /\ connected s c d fd /\
  (forall k t m q, hs E k t m q = Answer answer) /\
  step E s (Request c d get [] [] 5 msg_init) = Ok (s, [Replied fd h bytes]).
Proof.
  set (l := [Open c1 d1; Attach c1 0; Close c1 d1; Open c1 d1; EndThread 0; Attach c1 1]).
  exists P1, l, (after P1 l), (effects P1 l), c1, d1, 2%nat.
  exists (reply_header (make_header d1 c1 (Z.lor rtMessageFlags_Request rtMessageFlags_RawBinary) 5 (Z.of_nat (length (request_bytes get [] [] msg_init)))) (Z.of_nat (length (response_bytes unsupported)))), (response_bytes unsupported).
  split; [vm_compute; reflexivity|]. split; [split; [vm_compute; left; reflexivity|vm_compute; reflexivity]|]. split; [reflexivity|]. vm_compute. reflexivity.
Qed.
Print Assumptions C92_reopen_refuted.

(** C92: a handler that answers later, which a request by the broker allows, leaves an uninitialised
    response to the direct connection. *)
Theorem C92_later_refuted : exists E s c d fd bytes, reach E s /\ connected s c d fd /\
  step E s (Request c d get [] [] 5 msg_init) = UB /\ bytes = request_bytes get [] [] msg_init /\ serve_broker (hs E) (owner E d) d bytes <> UB.
Proof.
  exists P2, (after P2 [Open c1 d1; Attach c1 0]), c1, d1, 1%nat, (request_bytes get [] [] msg_init).
  split. { apply (history_reach P2 clean init [Open c1 d1; Attach c1 0]); [apply go_clean; vm_compute; reflexivity|constructor]. }
  split; [split; [vm_compute; left; reflexivity|vm_compute; reflexivity]|]. split; [vm_compute; reflexivity|]. split; [reflexivity|]. vm_compute. discriminate.
Qed.
Print Assumptions C92_later_refuted.

(** C93: an event published for a parameter and a consumer that has a direct connection for it goes
    out on that connection with the consumer's inbox as its topic, also when other consumers open,
    close, connect, leave and call between the publisher's finding the connection and its sending. *)
Theorem C93_event_partial : forall E s c d fd l s1 es1 s2 raw bytes, reach E s -> connected s c d fd -> is_cstr c = true -> bytes <> [] ->
  step E s (PubFind d c) = Ok (s1, es1) -> history E (stays c d) s1 l s2 ->
  es1 = [] /\ exists h s3, step E s2 (PubSend raw bytes) = Ok (s3, [EventOn fd h bytes]) /\
    cstring (h_topic h) = Some c /\ h_control_data h = (match raw with Some k => k | None => 1 end) /\ h_payload_length h = Z.of_nat (length bytes) /\ h_flags h = rtMessageFlags_RawBinary.
Proof. exact event_raced. Qed.
Print Assumptions C93_event_partial.

(** C93: an event for a consumer that never opened a direct connection for the parameter goes by the
    broker. *)
Theorem C93_never_opened : forall E l s c d, history E any init l s -> fits_consumer E c -> fits_name d -> ~ In (Open c d) l ->
  exists s1, step E s (PubFind d c) = Ok (s1, [ByBroker]).
Proof.
  intros E l s c d H Fc Fd No. pose proof (reach_Inv E s (history_reach E any init l s H (reach_init E))) as I.
  destruct (event_found E s d c I Fc Fd) as (o & s1 & St & _ & S). exists s1. destruct o as [p|]; [|exact St]. exfalso.
  destruct S as (e & It & Ec & Ed). apply No. pose proof (opened_items E any l s H p e It) as X. now rewrite Ec, Ed in X.
Qed.
Print Assumptions C93_never_opened.

(** C93: when no consumer gives up or ends while connecting, the same holds for a consumer that has
    closed the parameter or left, once the provider has noticed. *)
Theorem C93_closed_partial : forall E l s c d, history E clean init l s -> fits_consumer E c -> fits_name d -> ~ In d (p_open (peers s c)) -> settled E s c ->
  exists s1, step E s (PubFind d c) = Ok (s1, [ByBroker]).
Proof.
  intros E l s c d H Fc Fd No Se. destruct (clean_history E init l s H (Inv_init E) (Tidy_init E)) as [I T].
  destruct (event_found E s d c I Fc Fd) as (o & s1 & St & _ & S). exists s1. destruct o as [p|]; [|exact St]. exfalso.
  destruct S as (e & It & Ec & Ed). destruct (w_open E s T p e It) as [Y|Y]; rewrite Ec in Y; [rewrite Ed in Y; contradiction|exact (gone_settled E s c Se Y)].
Qed.
Print Assumptions C93_closed_partial.

Definition staysb (c d : name) (s : state) (o : op) : bool :=
  match o with Close x y => negb (bytes_eqb x c && bytes_eqb y d) | Exit x => negb (bytes_eqb x c) | PubFind _ _ | PubSend _ _ => false | _ => true end.
Lemma staysb_ok c d s o : staysb c d s o = true -> stays c d s o.
Proof.
  destruct o; cbn [staysb stays]; trivial; try discriminate; intros H.
  - intros [-> ->]. now rewrite !bytes_eqb_refl in H.
  - intros ->. now rewrite bytes_eqb_refl in H.
Qed.
(* other consumers come and go while the event waits *)
Example C93_witness : exists s s1 s2, reach P1 s /\ connected s c1 d2 3 /\ step P1 s (PubFind d2 c1) = Ok (s1, []) /\
  history P1 (stays c1 d2) s1 [Open c1 d1; Exit c2; EndThread 1; Close c1 d1; Open c2 d2; Attach c2 3] s2 /\
  ~ In d1 (p_open (peers s c1)) /\ fits_consumer P1 c1 /\ fits_name d1 /\ settled P1 s c1 /\ ~ In (Open c2 d2) story.
Proof.
  set (s1 := match step P1 (after P1 story) (PubFind d2 c1) with Ok (s, _) => s | _ => init end).
  set (l := [Open c1 d1; Exit c2; EndThread 1; Close c1 d1; Open c2 d2; Attach c2 3]).
  exists (after P1 story), s1, (match go P1 (staysb c1 d2) s1 l with Some s => s | None => init end).
  assert (H : history P1 clean init story (after P1 story)) by (apply go_clean; vm_compute; reflexivity).
  split; [exact (history_reach P1 clean init story _ H (reach_init P1))|].
  split; [split; [vm_compute; left; reflexivity|vm_compute; reflexivity]|]. split; [vm_compute; reflexivity|].
  split; [apply (go_history P1 (staysb c1 d2)); [apply staysb_ok|vm_compute; reflexivity]|].
  split; [intros X; vm_compute in X; destruct X as [X|[]]; discriminate X|]. split; [vm_compute; reflexivity|]. split; [unfold fits_name; vm_compute; lia|]. split.
  - intros t fd N.
    apply phases in N. assert (T : map t_phase (threads (after P1 story)) = [Ended; Serving 2; Serving 3]) by (vm_compute; reflexivity).
    rewrite T in N. destruct t as [|[|[|t]]]; cbn [nth_error] in N; try discriminate N; [| |destruct t; discriminate N].
    + assert (fd = 2%nat) by congruence. subst fd. vm_compute. reflexivity.
    + assert (fd = 3%nat) by congruence. subst fd. vm_compute. reflexivity.
  - intros X. vm_compute in X. repeat (destruct X as [X|X]; [discriminate X|]). exact X.
Qed.

(** C93: between the provider's accepting a direct connection and the consumer's connecting, an event
    is not sent by the broker but written to descriptor 0. *)
Theorem C93_connecting_refuted : exists E l s rs c d s2 es, reach E s /\ run E init l = Ok (s, rs) /\ In d (p_open (peers s c)) /\
  run E s [PubFind d c; PubSend None [1]] = Ok (s2, es) /\ es = [[]; [EventLost]].
Proof.
  set (l := [Open c1 d1]). set (s := after P1 l).
  exists P1, l, s, (effects P1 l), c1, d1, (match run P1 s [PubFind d1 c1; PubSend None [1]] with Ok (s, _) => s | _ => init end), [[]; [EventLost]].
  split. { apply (history_reach P1 clean init l); [apply go_clean; vm_compute; reflexivity|constructor]. }
  split; [vm_compute; reflexivity|]. split; [vm_compute; left; reflexivity|]. split; [vm_compute; reflexivity|reflexivity].
Qed.
Print Assumptions C93_connecting_refuted.

(** C93: when the consumer cannot connect and gives up, the provider is not told: all later events for
    it are lost although it has no direct connection. *)
Theorem C93_gave_up_refuted : exists E s c d s2 es, reach E s /\ p_open (peers s c) = [] /\ settled E s c /\
  run E s [PubFind d c; PubSend None [1]] = Ok (s2, es) /\ es = [[]; [EventLost]].
Proof.
  set (l := [Open c1 d1; GiveUp c1 d1]). set (s := after P1 l).
  exists P1, s, c1, d1, (match run P1 s [PubFind d1 c1; PubSend None [1]] with Ok (s, _) => s | _ => init end), [[]; [EventLost]].
  split. { apply (history_reach P1 any init l); [apply (go_history P1 (fun _ _ => true)); [intros ? ? _; exact Logic.I|vm_compute; reflexivity]|constructor]. }
  split; [vm_compute; reflexivity|]. split; [|split; [vm_compute; reflexivity|reflexivity]].
  intros t fd N. apply phases in N. assert (T : map t_phase (threads s) = [Waiting]) by (vm_compute; reflexivity). rewrite T in N.
  destruct t as [|t]; cbn [nth_error] in N; [discriminate N|destruct t; discriminate N].
Qed.
Print Assumptions C93_gave_up_refuted.

(** C93: the connection a publisher has found is used without the lock: when the consumer closes it in
    between, freed memory is read. *)
Theorem C93_freed_refuted : exists E l s rs, run E init l = Ok (s, rs) /\ reach E s /\ step E s (PubSend None [1]) = UB.
Proof.
  set (l := [Open c1 d1; Attach c1 0; PubFind d1 c1; Close c1 d1]).
  exists P1, l, (after P1 l), (effects P1 l). split; [vm_compute; reflexivity|].
  split; [apply (history_reach P1 clean init l); [apply go_clean; vm_compute; reflexivity|constructor]|]. vm_compute. reflexivity.
Qed.
Print Assumptions C93_freed_refuted.

(** C93: names whose addresses do not fit are one address: the events of one consumer go to another. *)
Theorem C93_long_refuted : exists E l s rs c c' d s2 es h, run E init l = Ok (s, rs) /\ c <> c' /\ connected s c' d 1 /\ p_conn (peers s c) = None /\
  run E s [PubFind d c; PubSend None [1]] = Ok (s2, es) /\ es = [[]; [EventOn 1 h [1]]].
Proof.
  set (l := [Open c1 d1; Attach c1 0; Open c2 d1]). set (s := after P3 l).
  exists P3, l, s, (effects P3 l), c2, c1, d1, (match run P3 s [PubFind d1 c2; PubSend None [1]] with Ok (s, _) => s | _ => init end), [[]; [EventOn 1 (event_header (mkInfo 1 1 c1) 1 1) [1]]], (event_header (mkInfo 1 1 c1) 1 1).
  split; [vm_compute; reflexivity|]. split; [discriminate|]. split; [split; [vm_compute; left; reflexivity|vm_compute; reflexivity]|].
  split; [vm_compute; reflexivity|]. split; [vm_compute; reflexivity|reflexivity].
Qed.
Print Assumptions C93_long_refuted.
