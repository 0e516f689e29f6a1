(** C76, C77, C78: the connection between clients and the broker. *)
From Coq Require Import String.
From Verif Require Import Common CommonFacts Bytes HeaderModel HeaderSpec FramingModel FramingSpec FramingProofs FramingProps RouteModel RouteSpec RouterModel RouterSpec RouterProofs RouterProps LinkModel LinkSpec LinkProofs.
Local Open Scope string_scope.
Local Open Scope list_scope.
Local Open Scope Z_scope.

(** ** C76: reading *)
(** However recv cuts up the stream and however often it is interrupted, a client gets exactly the
    messages that have been written, in order, empty ones included; then it waits, or notices that the
    other end has closed the connection. *)
Theorem C76_reads : forall cap ms closed rs, (542 <= cap)%nat -> forallb sendable ms = true -> quiet rs = true ->
  (length (concat (map wire_bytes ms)) <= deliveries rs)%nat ->
  exists out e, read_all cap closed (concat (map wire_bytes ms)) rs = Ok (out, e) /\ map content out = map content ms /\
    (closed = false -> e = Waits) /\ (closed = true -> (length (concat (map wire_bytes ms)) < deliveries rs)%nat -> e = NoConnection).
Proof.
  intros cap ms closed rs LC SM Q LD. fold (full ms) in *.
  destruct (reader_part ms (length (full ms)) (S (length rs)) closed (repeat 0 cap) rs SM ltac:(unfold ready; rewrite repeat_length; lia) (quiet_no_other _ Q) ltac:(lia)) as (out & e & ms1 & ms2 & E & EM & EC & L1 & W & K & N).
  rewrite firstn_all in E. rewrite Nat.min_id in *. exists out, e. split; [exact E|].
  assert (KL := K Q LD (length ms) ltac:(lia) ltac:(rewrite firstn_all; lia)). assert (ms2 = []) as ->.
  { destruct ms2; [reflexivity|]. rewrite EM, app_length in KL. cbn in KL. lia. }
  rewrite app_nil_r in EM. split; [congruence|]. split; [auto|]. auto.
Qed.
Print Assumptions C76_reads.
Definition empty_message : message := (sample_header 0, []).
Definition some_recvs : list recv_ans := Intr :: Data 6 :: Data 1 :: Intr :: repeat (Data 1000) 200.
Example C76_witness : forallb sendable [sample_message; empty_message; sample_message] = true /\ quiet some_recvs = true /\
  (length (concat (map wire_bytes [sample_message; empty_message; sample_message])) <= deliveries some_recvs)%nat /\
  match read_all 600 true (concat (map wire_bytes [sample_message; empty_message; sample_message])) some_recvs with Ok ([_; _; _], NoConnection) => True | _ => False end.
Proof. split; [vm_compute; reflexivity|]. split; [reflexivity|]. split; [apply Nat.leb_le; vm_compute; reflexivity|]. vm_compute. exact I. Qed.

(** Whenever the connection breaks, after any number of bytes, the client has got the first so many
    messages and nothing else; with recv not failing before, it has got every message that came in
    whole. *)
Theorem C76_cut_off : forall cap ms n closed rs, (542 <= cap)%nat -> forallb sendable ms = true -> no_other_error rs = true ->
  exists out e ms1 ms2, read_all cap closed (firstn n (concat (map wire_bytes ms))) rs = Ok (out, e) /\ ms = ms1 ++ ms2 /\ map content out = map content ms1 /\
    (length (concat (map wire_bytes ms1)) <= n)%nat /\
    (quiet rs = true -> (n <= deliveries rs)%nat -> forall m rest, ms2 = m :: rest -> (n < length (concat (map wire_bytes (ms1 ++ [m]))))%nat).
Proof.
  intros cap ms n closed rs LC SM NE. fold (full ms) in *.
  destruct (reader_part ms n (S (length rs)) closed (repeat 0 cap) rs SM ltac:(unfold ready; rewrite repeat_length; lia) NE ltac:(lia)) as (out & e & ms1 & ms2 & E & EM & EC & L1 & W & K & N).
  exists out, e, ms1, ms2. split; [exact E|]. split; [exact EM|]. split; [exact EC|]. split; [exact L1|].
  intros Q LD m rest ->. fold (full (ms1 ++ [m])). destruct (Nat.ltb_spec n (length (full (ms1 ++ [m])))) as [|G]; [assumption|exfalso].
  assert (F : firstn (S (length ms1)) ms = ms1 ++ [m]).
  { rewrite EM. rewrite firstn_app, firstn_all2 by lia. replace (S (length ms1) - length ms1)%nat with 1%nat by lia. reflexivity. }
  assert (X := K Q ltac:(lia) (S (length ms1))). rewrite F in X. assert (length ms = (length ms1 + S (length rest))%nat) by (rewrite EM, app_length; reflexivity). specialize (X ltac:(lia) ltac:(lia)). lia.
Qed.
Print Assumptions C76_cut_off.
Example C76_cut_off_witness : no_other_error [Data 70; Data 60; Intr; Data 30; Broken] = true /\
  match read_all 600 false (firstn 100 (concat (map wire_bytes [sample_message; sample_message]))) [Data 70; Data 60; Data 60; Intr; Data 30; Broken] with Ok ([m], NoConnection) => content m = content sample_message | _ => False end.
Proof. vm_compute. auto. Qed.

(** If recv fails for another reason (ENOMEM, say) between the header and the payload, the payload is
    taken for messages: the client hands on a message that nobody has sent to it. *)
Theorem C76_error_refuted : exists ms rs out e, forallb sendable ms = true /\ read_all 600 false (concat (map wire_bytes ms)) rs = Ok (out, e) /\
  exists m, In m out /\ ~ In (content m) (map content ms).
Proof.
  exists [(sample_header 54, wire_bytes sample_message)], ([Data 6; Data 600; Failing] ++ repeat (Data 600) 5). eexists _, _.
  split; [vm_compute; reflexivity|]. split; [vm_compute; reflexivity|]. eexists. split; [left; reflexivity|]. vm_compute. intros [H|[]]. discriminate.
Qed.
Print Assumptions C76_error_refuted.
(** A header that announces a payload of 2^32 - 1 bytes makes the client write a NUL outside of the
    payload's memory: 32 bytes from the other end are enough. *)
Theorem C76_huge_payload_refuted : exists stream rs, bytes_ok stream = true /\ length stream = 32%nat /\ quiet rs = true /\ read_all (Z.to_nat 65536) false stream rs = UB.
Proof.
  exists [170;170;0;2;0;32; 0;0;0;1; 0;0;0;0; 0;0;0;0; 255;255;255;255; 0;0;0;0; 0;0;0;0; 170;170], (repeat (Data 40) 3).
  split; [reflexivity|]. split; [reflexivity|]. split; [reflexivity|]. vm_compute. reflexivity.
Qed.
Print Assumptions C76_huge_payload_refuted.

(** ** C77: sending *)
(** As long as sendmsg takes a message as a whole or not at all, a successful call has put exactly one
    copy of the message on the stream, and one that fails nothing; three failures are retried. *)
Theorem C77_sends_partial : forall m ss, letter m = true -> whole (size m) ss = true ->
  exists b, send_internal (m_topic m) (m_reply m) (m_flags m) (m_seq m) (m_payload m) ss = Ok (verdict ss, b) /\
    (verdict ss = SOk -> exists x, sendable x = true /\ content x = as_content m /\ b = wire_bytes x) /\
    (verdict ss <> SOk -> b = []).
Proof.
  intros m ss LM W. rewrite (send_one m ss LM W). eexists. split; [reflexivity|]. apply letter_postable in LM as [PM C0]. destruct (header_sendable m PM) as (S1 & S2 & _). rewrite C0 in *.
  split; [intros ->; eexists; eauto|]. destruct (verdict ss); congruence.
Qed.
Print Assumptions C77_sends_partial.
Definition a_letter (topic payload : list Z) : msg := mkMsg 9 0 topic (bs "client.one.INBOX.1") payload 0.
Example C77_witness : letter (a_letter (bs "Device.Z") [1; 2]) = true /\ size (a_letter (bs "Device.Z") [1; 2]) = 60%nat /\
  whole 60 [SFailing; SFailing; Sent 60] = true /\ verdict [SFailing; SFailing; Sent 60] = SOk /\ verdict [SFailing; SFailing; SFailing; SFailing; Sent 60] = SFail /\ verdict [SFailing; SBroken] = SNoConnection.
Proof. vm_compute. repeat split; reflexivity. Qed.
(** If sendmsg takes only a part, the whole message is sent again behind it: the call succeeds, but the
    broker does not get the message. *)
Theorem C77_short_write_refuted : exists m ss b, letter m = true /\ send_internal (m_topic m) (m_reply m) (m_flags m) (m_seq m) (m_payload m) ss = Ok (SOk, b) /\
  exists out rest s d, reader_run 600 (reader_init 600) b (repeat 1000 200)%nat = Ok (out, rest, s, d) /\ ~ In (as_content m) (map content out).
Proof.
  exists (a_letter (bs "Device.Z") [1; 2]), [Sent 59; Sent 60]. eexists. split; [vm_compute; reflexivity|]. split; [vm_compute; reflexivity|].
  eexists _, _, _, _. split; [vm_compute; reflexivity|]. vm_compute. intros [H|[]]; discriminate.
Qed.
Print Assumptions C77_short_write_refuted.
(** A topic of more than 255 bytes is cut off without an error: the message goes to another topic. *)
Theorem C77_long_topic_refuted : forall t more reply flags sequence payload ss, is_cstr t = true -> length t = 255%nat ->
  send_internal (t ++ more) reply flags sequence payload ss = send_internal t reply flags sequence payload ss.
Proof.
  intros t more reply flags sequence payload ss C L. unfold send_internal, make_header.
  assert (F1 : firstn 255 t = t) by (apply firstn_all2; lia).
  assert (F2 : firstn 255 (t ++ more) = t) by (rewrite firstn_app, L, F1, Nat.sub_diag; cbn [firstn]; apply app_nil_r).
  unfold topic_array. rewrite F1, F2. reflexivity.
Qed.
Print Assumptions C77_long_topic_refuted.
Example C77_long_topic_witness : is_cstr (repeat 65 255) = true /\ length (repeat 65 255) = 255%nat /\
  exists b, send_internal (repeat 65 255 ++ [66]) (bs "R") 0 1 [7] [Sent 1000] = Ok (SOk, b).
Proof. split; [reflexivity|]. split; [reflexivity|]. eexists. vm_compute. reflexivity. Qed.

(** ** C78: from program to program *)
(** After any consistent history of registrations, whatever sequence of messages a program sends, and
    however the two streams are cut up: every client gets exactly those of the successfully sent
    messages that are for it, in the order of the calls, with topics, payload, flags and sequence number
    unchanged and its own subscription as control data.  (Messages with a payload, see C04, that are
    not for the broker itself, to topics that can be asked for, see C27.) *)
Theorem C78_end_to_end_partial : forall l, consistent l -> (forall c e id, In (Sub c e id) l -> u32 id = true) ->
  exists b0 b h, start = Ok b0 /\ serve_all b0 l = Ok (b, h) /\ map fst h = l /\
  forall calls, Forall (fun x => letter (fst x) = true /\ m_payload (fst x) <> [] /\ whole (size (fst x)) (snd x) = true /\ plain l (m_topic (fst x)) /\
                                 (Z.testbit (m_flags (fst x)) 0 = true -> plain l (m_reply (fst x)))) calls ->
  to_clients (flat_map (expected (view_of h)) (accepted calls)) ->
  exists stream, send_all calls = Ok (map (fun x => verdict (snd x)) calls, stream) /\
  forall cap ks, (542 <= cap)%nat -> (length stream <= length ks)%nat ->
  exists ms s ds, reader_run cap (reader_init cap) stream ks = Ok (ms, [], s, false) /\ broker_all b ms = Ok ds /\
  forall c, exists back, bytes_to c ds = Ok back /\
  forall cap' rs, (542 <= cap')%nat -> quiet rs = true -> (length back <= deliveries rs)%nat ->
  exists out, read_all cap' false back rs = Ok (out, Waits) /\
    map content out = map as_content (for_client c (flat_map (expected (view_of h)) (accepted calls))).
Proof.
  intros l CL UI. destruct (C27_dispatch_partial l CL) as (b0 & b & h & E0 & E & MF & D). exists b0, b, h. split; [exact E0|]. split; [exact E|]. split; [exact MF|].
  intros calls F TC. set (ls := accepted calls).
  assert (FL : Forall (fun m => letter m = true /\ m_payload m <> [] /\ dispatch b m = Ok (expected (view_of h) m)) ls).
  { unfold ls, accepted. apply Forall_forall. intros m HM. apply in_map_iff in HM as (x & <- & HX). apply filter_In in HX as [HX _]. rewrite Forall_forall in F. destruct (F x HX) as (A & B & _ & P1 & P2). split; [exact A|]. split; [exact B|]. apply D; assumption. }
  assert (FP : Forall (fun m => postable m /\ m_payload m <> []) ls).
  { eapply Forall_impl; [|exact FL]. intros m (A & B & _). split; [apply letter_postable; exact A|exact B]. }
  exists (full (map posted ls)). split.
  { apply send_all_spec. eapply Forall_impl; [|exact F]. intros x (A & _ & B & _). split; assumption. }
  intros cap ks LC LK.
  assert (SP : forall ms, (forall m, In m ms -> postable m) -> forallb sendable (map posted ms) = true /\ map content (map posted ms) = map as_content ms).
  { induction ms as [|m ms IH]; intros P; [split; reflexivity|]. destruct (header_sendable m (P m (or_introl eq_refl))) as (S1 & S2 & _). destruct IH as [I1 I2]; [intros; apply P; right; assumption|]. cbn [map forallb]. split; [unfold posted at 1; rewrite S1; exact I1|unfold posted at 1; rewrite S2, I2; reflexivity]. }
  destruct (SP ls) as [S1 S2]. { intros m HM. rewrite Forall_forall in FP. apply FP. exact HM. }
  assert (NE : forallb nonempty (map posted ls) = true).
  { apply forallb_forall. intros x HX. apply in_map_iff in HX as (m & <- & HM). rewrite Forall_forall in FP. destruct (FP m HM) as [_ NM]. unfold nonempty, posted, header_of. cbn [fst h_payload_length]. destruct (m_payload m); [congruence|]. cbn [length]. lia. }
  destruct (C03_framing cap (map posted ls) ks LC S1 NE LK) as (ms & s & ER & EC). rewrite S2 in EC. exists ms, s, (flat_map (expected (view_of h)) ls). split; [exact ER|].
  assert (F2 : Forall2 (fun x m => content x = as_content m) ms ls).
  { clearbody ls. clear - EC. revert ls EC. induction ms as [|x ms IH]; intros [|m ls] EC; [constructor|discriminate|discriminate|]. cbn [map] in EC. constructor; [congruence|apply IH; congruence]. }
  split; [apply broker_all_spec; [exact F2|exact TC|eapply Forall_impl; [|exact FL]; intros m (_ & _ & A); exact A]|].
  intros c. assert (PD : forall x m, In (ToClient x m) (flat_map (expected (view_of h)) ls) -> postable m).
  { intros x m HM. apply in_flat_map in HM as (m0 & H0 & HM). apply (deliver_postable h m0) with (x := x); [rewrite Forall_forall in FP; apply FP; exact H0| |exact HM]. rewrite MF. exact UI. }
  eexists. split; [apply bytes_to_spec; exact PD|]. intros cap' rs LC' Q LD.
  destruct (SP (for_client c (flat_map (expected (view_of h)) ls))) as [S3 S4].
  { intros m HM. unfold for_client in HM. apply in_flat_map in HM as (d & HD & HM). destruct d as [x r|r]; [|contradiction]. destruct (x =? c); [|contradiction]. destruct HM as [->|[]]. eapply PD. exact HD. }
  destruct (C76_reads cap' _ false rs LC' S3 Q LD) as (out & e & EO & CO & W & _). rewrite (W eq_refl) in EO. exists out. split; [exact EO|]. rewrite CO. exact S4.
Qed.
Print Assumptions C78_end_to_end_partial.
Definition some_calls : list (msg * list send_ans) :=
  [(ask (bs "Device.Tab.4.X") client1_inbox, [Sent 1000]); (ask (bs "Device.Z") client1_inbox, [SBroken]); (ask (bs "Device.Y") client1_inbox, [SFailing; Sent 1000])].
Example C78_witness : consistent story /\ (forall c e id, In (Sub c e id) story -> u32 id = true) /\
  Forall (fun x => letter (fst x) = true /\ m_payload (fst x) <> [] /\ whole (size (fst x)) (snd x) = true /\ plain story (m_topic (fst x)) /\
                   (Z.testbit (m_flags (fst x)) 0 = true -> plain story (m_reply (fst x)))) some_calls /\
  to_clients (flat_map (expected (view_of story_history)) (accepted some_calls)) /\
  for_client 1 (flat_map (expected (view_of story_history)) (accepted some_calls)) = [mkMsg 42 6 client1_inbox client1_inbox [] 1] /\
  for_client 2 (flat_map (expected (view_of story_history)) (accepted some_calls)) = [mkMsg 42 1 (bs "Device.Tab.4.X") client1_inbox [1; 2; 3] 5].
Proof.
  split; [exact story_consistent|]. split.
  { intros c e id H. repeat (destruct H as [H|H]; [first [discriminate H|injection H as <- <- <-; reflexivity]|]). destruct H. }
  split.
  { unfold some_calls. repeat apply Forall_cons; try apply Forall_nil; cbn [fst snd]; (split; [vm_compute; reflexivity|split; [discriminate|split; [vm_compute; reflexivity|split; [decide_plain|intros _; decide_plain]]]]). }
  split; [|split; vm_compute; reflexivity]. intros m H. vm_compute in H. repeat (destruct H as [H|H]; [discriminate|]). destruct H.
Qed.
