(** Property of the broker with several senders and registrations in between: C89. *)
From Coq Require Import String.
From Verif Require Import Common CommonFacts Bytes HeaderModel HeaderSpec FramingModel FramingSpec FramingProofs FramingProps RouteModel RouteSpec RouteProofs RouteInv RouteRun RouteLook RouterModel RouterSpec RouterProofs RouterProps LinkModel LinkSpec LinkProofs LinkProps CrowdModel CrowdSpec CrowdProofs.
From Coq Require Import Lia ZifyBool.
Local Open Scope string_scope.
Local Open Scope list_scope.
Local Open Scope Z_scope.

(** Whatever any number of programs send, in whatever order the broker reads from them and however the
    streams are cut up, while registrations come and go: there is one order of all messages and
    requests in which the messages of every sender are the first so many of its successful calls, in
    order (all of them, when it is read to the end), and every program gets exactly what, in this
    order, each message's registrations at its moment say, unchanged and with its own subscription as
    control data. *)
Theorem C89_crowd_partial : forall cap sched calls, (542 <= cap)%nat -> consistent (requests_of sched) -> (forall c e id, In (Sub c e id) (requests_of sched) -> u32 id = true) ->
  (forall c, Forall (fun x => mailable (requests_of sched) (fst x) /\ whole (size (fst x)) (snd x) = true) (calls c)) ->
  exists b0 streams hs b st L, start = Ok b0 /\ (forall c, send_all (calls c) = Ok (map (fun x => verdict (snd x)) (calls c), streams c)) /\
  live cap b0 (fun c => (reader_init cap, streams c)) sched = Ok (hs, b, st) /\ requests_in L = requests_of sched /\ answered hs = answers_in L /\
  (forall c, exists later, accepted (calls c) = sent_by c L ++ later /\ ((length (streams c) <= length (turns c sched))%nat -> later = [])) /\
  forall c, exists back, bytes_to c (forwarded hs) = Ok back /\
  forall cap' rs, (542 <= cap')%nat -> quiet rs = true -> (length back <= deliveries rs)%nat ->
  exists out, read_all cap' false back rs = Ok (out, Waits) /\ map content out = map as_content (for_client c (replay at_start L)).
Proof.
  intros cap sched calls LC CO UI F. destruct CO as [TI G R AD]. set (A := requests_of sched) in *.
  destruct (start_rel (among (requested A)) TI) as (b0 & E0 & R0); [intros n H; apply in_app_iff; left; apply in_map, H|].
  set (streams := fun c => full (map posted (accepted (calls c)))).
  assert (MA : forall c m, In m (accepted (calls c)) -> mailable A m).
  { intros c m HM. unfold accepted in HM. apply in_map_iff in HM as (x & <- & HX). apply filter_In in HX as [HX _]. specialize (F c). rewrite Forall_forall in F. apply (F x HX). }
  assert (PA : forall c m, In m (accepted (calls c)) -> postable m /\ m_payload m <> []).
  { intros c m HM. destruct (MA c m HM) as (LM & NP & _). split; [apply letter_postable; exact LM|exact NP]. }
  assert (RD : forall c, exists out rest s says later, reader_run cap (reader_init cap) (streams c) (turns c sched) = Ok (out, rest, s, false) /\
    accepted (calls c) = says ++ later /\ map content out = map as_content says /\ ((length (streams c) <= length (turns c sched))%nat -> later = [])).
  { intros c. destruct (posted_ok (accepted (calls c))) as [S1 S2]; [intros m H; apply (PA c m H)|].
    assert (NE : forallb nonempty (map posted (accepted (calls c))) = true).
    { apply forallb_forall. intros x HX. apply in_map_iff in HX as (m & <- & HM). destruct (PA c m HM) as [_ NM]. unfold nonempty, posted, header_of. cbn [fst h_payload_length]. destruct (m_payload m); [congruence|]. cbn [length]. lia. }
    destruct (C03_framing_any_prefix cap (map posted (accepted (calls c))) (turns c sched) LC S1 NE) as (out & rest & s & ms1 & ms2 & ER & EM & EC). change (concat (map wire_bytes (map posted (accepted (calls c))))) with (streams c) in ER.
    symmetry in EM. assert (X : exists a1 a2, accepted (calls c) = a1 ++ a2 /\ map posted a1 = ms1 /\ map posted a2 = ms2).
    { exists (firstn (length ms1) (accepted (calls c))), (skipn (length ms1) (accepted (calls c))). split; [symmetry; apply firstn_skipn|].
      split; [rewrite <- firstn_map, <- EM, firstn_app, firstn_all, Nat.sub_diag; cbn [firstn]; apply app_nil_r|rewrite <- skipn_map, <- EM, skipn_app, skipn_all, Nat.sub_diag; reflexivity]. }
    destruct X as (a1 & a2 & EA & <- & <-). exists out, rest, s, a1, a2. split; [exact ER|]. split; [exact EA|].
    assert (C1 : map content out = map as_content a1). { rewrite EC. apply posted_ok. intros m H. apply (PA c m). rewrite EA. apply in_app_iff. left. exact H. }
    split; [exact C1|]. intros LE. destruct (C03_framing cap _ (turns c sched) LC S1 NE LE) as (out' & s' & ER' & EC').
    change (concat (map wire_bytes (map posted (accepted (calls c))))) with (streams c) in ER'. rewrite ER in ER'. assert (out = out') by congruence. subst out'. rewrite EC', S2, EA, map_app in C1.
    assert (LL := f_equal (@length _) C1). rewrite app_length, !map_length in LL. destruct a2; [reflexivity|cbn [length] in LL; lia]. }
  (* a choice for every client, by computing it *)
  set (outs := fun c => match reader_run cap (reader_init cap) (streams c) (turns c sched) with Ok (out, _, _, _) => out | _ => [] end).
  set (says := fun c => firstn (length (outs c)) (accepted (calls c))).
  assert (SO : sources cap A (fun c => (reader_init cap, streams c)) sched outs says /\
    forall c, exists later, accepted (calls c) = says c ++ later /\ ((length (streams c) <= length (turns c sched))%nat -> later = [])).
  { assert (ONE : forall c, ((exists rest s, reader_run cap (reader_init cap) (streams c) (turns c sched) = Ok (outs c, rest, s, false)) /\ map content (outs c) = map as_content (says c)) /\
      exists later, accepted (calls c) = says c ++ later /\ ((length (streams c) <= length (turns c sched))%nat -> later = [])).
    { intros c. destruct (RD c) as (out & rest & s & a1 & a2 & ER & EA & EC & LA). assert (EO : outs c = out) by (unfold outs; rewrite ER; reflexivity).
      assert (LL : length out = length a1) by (apply (f_equal (@length _)) in EC; rewrite !map_length in EC; exact EC).
      assert (ES : says c = a1). { unfold says. rewrite EO, LL, EA, firstn_app, firstn_all, Nat.sub_diag. cbn [firstn]. apply app_nil_r. }
      rewrite EO, ES. split; [split; [exists rest, s; exact ER|exact EC]|]. exists a2. auto. }
    split.
    - intros c. destruct (ONE c) as ((R1 & R2) & _). split; [exact R1|]. split; [exact R2|]. apply Forall_forall. intros m H. apply (MA c m).
      unfold says in H. rewrite <- (firstn_skipn (length (outs c))). apply in_app_iff. left. exact H.
    - intros c. destruct (ONE c) as (_ & L). exact L. }
  destruct SO as [SO LA].
  destruct (live_ok cap A sched b0 at_start [] (fun c => (reader_init cap, streams c)) outs says TI (rel_weak _ _ _ _ R0)) as (hs & b & st & L & EL & FW & RQ & AN & SB); [| | | |exact AD|exact SO|].
  - intros p H. cbn [at_start names_of] in H. apply in_map_iff in H as (n & E & H). injection E as <-. apply in_map. exact H.
  - intros s [].
  - intros c e id H. split; [|eapply G; eauto]. apply in_app_iff. right. apply in_flat_map. exists (Sub c e id). split; [exact H|left; reflexivity].
  - intros c e H. apply (R c e H).
  - exists b0, streams, hs, b, st, L. split; [exact E0|]. split.
    { intros c. apply send_all_spec. specialize (F c). eapply Forall_impl; [|exact F]. intros x ((LM & _) & W). split; assumption. }
    split; [exact EL|]. split; [exact RQ|]. split; [exact AN|]. split; [intros c; rewrite SB; apply LA|].
    intros c. assert (PD : forall x m, In (ToClient x m) (forwarded hs) -> postable m).
    { rewrite FW. apply replay_postable.
      - intros p c' id H. cbn [at_start names_of] in H. apply in_map_iff in H as (n & E & _). discriminate.
      - rewrite RQ. exact UI.
      - intros c' m H. rewrite SB in H. apply (PA c' m). unfold says in H. rewrite <- (firstn_skipn (length (outs c'))). apply in_app_iff. left. exact H. }
    eexists. split; [apply bytes_to_spec; exact PD|]. intros cap' rs LC' Q LD. rewrite FW in PD. rewrite FW in LD |- *.
    destruct (posted_ok (for_client c (replay at_start L))) as [S3 S4].
    { intros m HM. unfold for_client in HM. apply in_flat_map in HM as (d & HD & HM). destruct d as [x r|r]; [|contradiction]. destruct (x =? c); [|contradiction]. destruct HM as [->|[]]. eapply PD. exact HD. }
    destruct (C76_reads cap' _ false rs LC' S3 Q LD) as (out & e & EO & CO & W & _). rewrite (W eq_refl) in EO. exists out. split; [exact EO|]. rewrite CO. exact S4.
Qed.
Print Assumptions C89_crowd_partial.

(** clients 1 and 3 send while client 3 registers and takes back "Device.Y" *)
Definition turns_of (c : Z) (n : nat) : list moment := repeat (Reads c 40) n.
Definition some_schedule : list moment :=
  map Serves (firstn 5 story) ++ [Reads 3 10; Reads 1 500; Reads 1 20] ++ turns_of 3 2 ++ map Serves (firstn 2 (skipn 5 story)) ++
  [Reads 1 30; Reads 3 1; Reads 1 4] ++ turns_of 3 200 ++ map Serves (skipn 7 story) ++ turns_of 1 200.
Definition crowd_calls (c : Z) : list (msg * list send_ans) :=
  if c =? 1 then [(ask (bs "Device.Tab.4.X") client1_inbox, [Sent 1000]); (ask (bs "Device.Y") client1_inbox, [SFailing; Sent 1000])]
  else if c =? 3 then [(ask (bs "Device.Tab.9.X") client1_inbox, [Sent 1000]); (ask (bs "Device.Z") client1_inbox, [SBroken]); (ask (bs "Device.Y") client1_inbox, [Sent 1000])]
  else [].
Lemma broker_names : forall q, forallb (fun n => negb (serves (split q) (split n))) builtin = true -> not_broker q.
Proof. intros q H n I. rewrite forallb_forall in H. specialize (H n I). destruct (serves (split q) (split n)); [discriminate|reflexivity]. Qed.
Example C89_witness : requests_of some_schedule = story /\ consistent (requests_of some_schedule) /\ (forall c e id, In (Sub c e id) (requests_of some_schedule) -> u32 id = true) /\
  (forall c, Forall (fun x => mailable (requests_of some_schedule) (fst x) /\ whole (size (fst x)) (snd x) = true) (crowd_calls c)) /\
  exists b0 s1 s3 hs b st, start = Ok b0 /\ send_all (crowd_calls 1) = Ok ([SOk; SOk], s1) /\ send_all (crowd_calls 3) = Ok ([SOk; SNoConnection; SOk], s3) /\
  (length s1 <= length (turns 1 some_schedule))%nat /\ (length s3 <= length (turns 3 some_schedule))%nat /\
  live 600 b0 (fun c => (reader_init 600, if c =? 1 then s1 else if c =? 3 then s3 else [])) some_schedule = Ok (hs, b, st) /\
  for_client 2 (forwarded hs) = [mkMsg 42 1 (bs "Device.Tab.9.X") client1_inbox [1; 2; 3] 5; mkMsg 42 1 (bs "Device.Tab.4.X") client1_inbox [1; 2; 3] 5] /\
  for_client 3 (forwarded hs) = [mkMsg 42 1 (bs "Device.Y") client1_inbox [1; 2; 3] 7] /\ for_client 1 (forwarded hs) = [mkMsg 42 6 client1_inbox client1_inbox [] 1].
Proof.
  assert (RS : requests_of some_schedule = story) by reflexivity. split; [exact RS|]. rewrite RS. split; [exact story_consistent|]. split.
  { intros c e id H. repeat (destruct H as [H|H]; [first [discriminate H|injection H as <- <- <-; reflexivity]|]). destruct H. }
  split.
  { intros c. unfold crowd_calls. destruct (c =? 1); [|destruct (c =? 3)]; repeat apply Forall_cons; try apply Forall_nil; cbn [fst snd];
      (split; [split; [vm_compute; reflexivity|split; [discriminate|split; [decide_plain|split; [apply broker_names; vm_compute; reflexivity|intros _; split; [decide_plain|apply broker_names; vm_compute; reflexivity]]]]]|vm_compute; reflexivity]). }
  do 6 eexists. repeat (lazymatch goal with |- _ /\ _ => split; [first [vm_compute; reflexivity|vm_compute; lia]|] end). vm_compute; reflexivity.
Qed.
