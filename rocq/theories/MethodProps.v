(** C81: method calls, from the caller's parameters to the handler and back. *)
From Coq Require Import String.
From Verif Require Import Common CommonFacts TextModel Errors ElemModel ElemSpec ElemProofs ElemProps MsgModel WireModel NamesModel NamesSpec NamesProofs Value WireSpec WireProofs MethodModel MethodSpec MethodProofs.
From Verif Require TransModel.
From Coq Require Import Lia ZifyBool.
Local Open Scope string_scope.
Local Open Scope list_scope.
Local Open Scope Z_scope.

(** C81.  A call of a method that exists calls the handler registered for it once, with the name
    and the in parameters of the caller, and gives the caller the code and the out parameters of
    the handler; an error about which the out parameters say nothing is added to them.  Missing
    for the full claim: aliases and wildcards in the name, tables with a get handler, histories
    of registrations that are not orderly (C22), codes outside of the enumeration. *)
Theorem C81_call_partial : forall l t ms later nm inp i h rc out,
  Forall quiet_op l -> orderly empty l -> run empty l = Ok t ->
  tokens nm <> [] -> forallb plain_tok (tokens nm) = true -> text_ok nm ->
  lookup (registered l) nm = Some i -> get t (tokens nm) <> None -> ms (hid i) = Some h ->
  sendable_object inp = true ->
  h nm (arrives inp) = (rc, out) -> rc <> E_ASYNC_RESPONSE -> 0 <= rc <= 100 -> proper out ->
  exists o, invoke (Provides t ms later) nm inp = (Ok (rc, o), [(hid i, nm, arrives inp)]) /\ carries rc out o.
Proof.
  intros l t ms later nm inp i h rc out Q O R N P T L G M S H A B PO.
  pose proof (C22_registry_partial l t nm O R) as RE. rewrite L in RE. destruct (retrieve t nm) as [el|] eqn:RT; [|discriminate]. injection RE as RE.
  pose proof (exists_plain l t nm Q R N P) as X. destruct (retrieve_instance t nm) as [x|] eqn:RI; [|destruct (get t (tokens nm)); [discriminate|congruence]].
  destruct (request_ok nm inp S) as (req & RQ & _). destruct (finish_ok rc out PO (small_int rc B)) as (o & F & SO & NO & C).
  exists (seen_object false o). split; [|exact C]. unfold invoke. rewrite RQ. unfold remote. rewrite (handler_reads t ms nm inp req T S RQ), RT, RI, RE, M, H.
  apply Z.eqb_neq in A. rewrite A, F. cbn [obind]. rewrite (response_ok rc o SO). cbn [obind]. rewrite (answer_ok rc o (small_int rc B) SO NO), (code_small rc B). reflexivity.
Qed.
Print Assumptions C81_call_partial.

(** C81.  A method that is not registered, or whose row does not exist, or that was registered
    without a handler: nothing is called, and the caller learns why. *)
Theorem C81_missing_partial : forall l t ms later nm inp,
  Forall quiet_op l -> orderly empty l -> run empty l = Ok t ->
  tokens nm <> [] -> forallb plain_tok (tokens nm) = true -> text_ok nm -> sendable_object inp = true ->
  (lookup (registered l) nm = None \/ get t (tokens nm) = None ->
   exists o, invoke (Provides t ms later) nm inp = (Ok (E_ELEMENT_DOES_NOT_EXIST, o), []) /\ tells E_ELEMENT_DOES_NOT_EXIST (bs "RBUS_ERROR_ELEMENT_DOES_NOT_EXIST") o) /\
  (forall i, lookup (registered l) nm = Some i -> get t (tokens nm) <> None -> ms (hid i) = None ->
   exists o, invoke (Provides t ms later) nm inp = (Ok (E_INVALID_OPERATION, o), []) /\ tells E_INVALID_OPERATION (bs "RBUS_ERROR_INVALID_OPERATION") o).
Proof.
  intros l t ms later nm inp Q O R N P T S.
  pose proof (C22_registry_partial l t nm O R) as RE. pose proof (exists_plain l t nm Q R N P) as X. destruct (request_ok nm inp S) as (req & RQ & _).
  assert (B1 : 0 <= E_ELEMENT_DOES_NOT_EXIST <= 100) by (unfold E_ELEMENT_DOES_NOT_EXIST; lia). assert (B2 : 0 <= E_INVALID_OPERATION <= 100) by (unfold E_INVALID_OPERATION; lia).
  split.
  - intros E. destruct (new_error E_ELEMENT_DOES_NOT_EXIST (bs "RBUS_ERROR_ELEMENT_DOES_NOT_EXIST") (small_int _ B1) eq_refl) as (o & TE & SO & NO & _ & TL).
    exists (seen_object false o). split; [|exact TL]. unfold invoke. rewrite RQ. unfold remote. rewrite (handler_reads t ms nm inp req T S RQ).
    assert (K : match retrieve t nm, retrieve_instance t nm with Some _, Some _ => False | _, _ => True end).
    { destruct E as [E|E]; [rewrite E in RE; destruct (retrieve t nm); [discriminate|exact I]|]. rewrite E in X. destruct (retrieve t nm), (retrieve_instance t nm); try discriminate; exact I. }
    destruct (retrieve t nm), (retrieve_instance t nm); try contradiction; rewrite TE; cbn [obind]; rewrite (response_ok _ o SO); cbn [obind];
      rewrite (answer_ok _ o (small_int _ B1) SO NO), (code_small _ B1); reflexivity.
  - intros i L G M. destruct (new_error E_INVALID_OPERATION (bs "RBUS_ERROR_INVALID_OPERATION") (small_int _ B2) eq_refl) as (o & TE & SO & NO & _ & TL).
    exists (seen_object false o). split; [|exact TL]. rewrite L in RE. destruct (retrieve t nm) as [el|] eqn:RT; [|discriminate]. injection RE as RE.
    destruct (retrieve_instance t nm) as [x|] eqn:RI; [|destruct (get t (tokens nm)); [discriminate|congruence]].
    unfold invoke. rewrite RQ. unfold remote. rewrite (handler_reads t ms nm inp req T S RQ), RT, RI, RE, M, TE. cbn [obind]. rewrite (response_ok _ o SO). cbn [obind].
    rewrite (answer_ok _ o (small_int _ B2) SO NO), (code_small _ B2). reflexivity.
Qed.
Print Assumptions C81_missing_partial.

(** C81.  A handler that answers later: the caller gets the code and the out parameters of the
    later answer, and a timeout if there is none. *)
Theorem C81_later_partial : forall l t ms later nm inp i h out,
  Forall quiet_op l -> orderly empty l -> run empty l = Ok t ->
  tokens nm <> [] -> forallb plain_tok (tokens nm) = true -> text_ok nm ->
  lookup (registered l) nm = Some i -> get t (tokens nm) <> None -> ms (hid i) = Some h ->
  sendable_object inp = true -> h nm (arrives inp) = (E_ASYNC_RESPONSE, out) ->
  match later with Some (e, out) => 0 <= e <= 100 /\ sendable_object out = true /\ (e = E_SUCCESS -> out <> ONull) | None => True end ->
  exists rc o, invoke (Provides t ms later) nm inp = (Ok (rc, o), [(hid i, nm, arrives inp)]) /\
  match later with
  | Some (e, ONull) => rc = e /\ tells e (text_of e) o
  | Some (e, out) => rc = e /\ o = seen_object false out
  | None => rc = E_TIMEOUT /\ tells E_TIMEOUT (text_of E_TIMEOUT) o
  end.
Proof.
  intros l t ms later nm inp i h out Q O R N P T L G M S H LA.
  pose proof (C22_registry_partial l t nm O R) as RE. rewrite L in RE. destruct (retrieve t nm) as [el|] eqn:RT; [|discriminate]. injection RE as RE.
  pose proof (exists_plain l t nm Q R N P) as X. destruct (retrieve_instance t nm) as [x|] eqn:RI; [|destruct (get t (tokens nm)); [discriminate|congruence]].
  destruct (request_ok nm inp S) as (req & RQ & _).
  unfold invoke. rewrite RQ. unfold remote. rewrite (handler_reads t ms nm inp req T S RQ), RT, RI, RE, M, H. rewrite Z.eqb_refl.
  destruct later as [[e o']|].
  - destruct LA as (B & SO & NN). destruct o' as [|n ty p c x'].
    + assert (E0 : e <> E_SUCCESS) by (intros E; exact (NN E eq_refl)).
      destruct (new_error e (error_text e) (small_int e B) (error_text_ok e)) as (o & TE & SO' & NO & _ & TL). exists e, (seen_object false o). split; [|split; [reflexivity|rewrite <- error_text_is; exact TL]].
      unfold async_response. apply Z.eqb_neq in E0. rewrite E0, TE. cbn [obind]. rewrite (response_ok e o SO'). cbn [obind]. rewrite (answer_ok e o (small_int e B) SO' NO), (code_small e B). reflexivity.
    + exists e. eexists. split; [|split; reflexivity]. unfold async_response. cbn [obind]. set (o := Obj n ty p c x') in *. assert (NO : o <> ONull) by discriminate.
      rewrite (response_ok e o SO). cbn [obind]. rewrite (answer_ok e o (small_int e B) SO NO), (code_small e B). reflexivity.
  - cbn [obind]. change (bus_error TIMED_OUT) with E_TIMEOUT. assert (B : 0 <= E_TIMEOUT <= 100) by (unfold E_TIMEOUT; lia).
    destruct (new_error E_TIMEOUT (error_text E_TIMEOUT) (small_int _ B) (error_text_ok _)) as (o & TE & _ & _ & TL & _).
    exists E_TIMEOUT, o. rewrite TE. cbn [obind]. split; [reflexivity|]. split; [reflexivity|]. rewrite <- error_text_is. exact TL.
Qed.
Print Assumptions C81_later_partial.

(** C81.  A call that the bus cannot carry out calls nothing and never looks like a success. *)
Theorem C81_bus : forall err nm inp, err <> 0 -> sendable_object inp = true ->
  exists rc o, invoke (Broken err) nm inp = (Ok (rc, o), []) /\ rc <> E_SUCCESS /\ tells rc (text_of rc) o /\
  (err = 7 -> rc = E_TIMEOUT) /\ (err = 17 -> rc = E_DESTINATION_NOT_FOUND) /\ (err = 12 -> rc = E_DESTINATION_NOT_REACHABLE).
Proof.
  intros err nm inp E S. destruct (request_ok nm inp S) as (req & RQ & _).
  assert (B : 0 <= bus_error err <= 100 /\ bus_error err <> E_SUCCESS).
  { unfold bus_error. apply Z.eqb_neq in E. rewrite E. repeat match goal with |- context [if ?c then _ else _] => destruct c; [split; [split; vm_compute; discriminate|vm_compute; discriminate]|] end. split; [split; vm_compute; discriminate|vm_compute; discriminate]. }
  destruct B as [B NZ]. destruct (new_error (bus_error err) (error_text (bus_error err)) (small_int _ B) (error_text_ok _)) as (o & TE & _ & _ & TL & _).
  exists (bus_error err), o. unfold invoke. rewrite RQ. cbn [remote obind]. rewrite TE. cbn [obind]. split; [reflexivity|]. split; [exact NZ|]. split; [rewrite <- error_text_is; exact TL|].
  split; [intros ->; reflexivity|]. split; intros ->; reflexivity.
Qed.
Print Assumptions C81_bus.

(** C81.  An asynchronous call gives its callback, once, what the synchronous call would have
    returned; if no thread can be created it fails, and neither the callback nor the handler is
    called. *)
Theorem C81_callback : forall timeout dflt s nm inp x calls, timeout <= 2147483 -> invoke s nm inp = (Ok x, calls) ->
  invoke_async true timeout dflt s nm inp = (Ok (E_SUCCESS, [x]), calls) /\ invoke_async false timeout dflt s nm inp = (Ok (E_BUS_ERROR, []), []).
Proof.
  intros timeout dflt s nm inp x calls B I. unfold invoke_async.
  assert (A : exists ms, async_timeout timeout dflt = Ok ms /\ (0 < timeout -> ms = timeout * 1000) /\ (timeout <= 0 -> ms = dflt)).
  { unfold async_timeout. destruct (0 <? timeout) eqn:E; [|eexists; split; [reflexivity|]; lia]. change (2 ^ 31) with 2147483648. replace (timeout * 1000 <? 2147483648) with true by lia.
    eexists. split; [reflexivity|]. lia. }
  destruct A as (ms & -> & _). rewrite I. split; reflexivity.
Qed.
Print Assumptions C81_callback.

(** A later answer that says success and has no out parameters (the parameter may be NULL) leaves
    the caller reading what was never written. *)
Theorem C81_no_params_refuted : exists l t ms nm, run empty l = Ok t /\ orderly empty l /\ lookup (registered l) nm <> None /\
  fst (invoke (Provides t ms (Some (E_SUCCESS, ONull))) nm ONull) = UB.
Proof.
  exists [Register (bs "A.M()") (mkInfo 4 1 false)]. eexists. exists (fun _ => Some (fun _ _ => (E_ASYNC_RESPONSE, ONull))), (bs "A.M()").
  split; [vm_compute; reflexivity|]. split; [split; [split; [discriminate|discriminate]|exact I]|]. split; [discriminate|]. vm_compute. reflexivity.
Qed.
Print Assumptions C81_no_params_refuted.
(** The timeout of an asynchronous call is converted to milliseconds in an int. *)
Theorem C81_timeout_refuted : forall created dflt s nm inp timeout, 2147483 < timeout < 2 ^ 31 -> fst (invoke_async created timeout dflt s nm inp) = UB.
Proof.
  intros created dflt s nm inp timeout B. unfold invoke_async, async_timeout. replace (0 <? timeout) with true by lia. replace (timeout * 1000 <? 2 ^ 31) with false by (change (2 ^ 31) with 2147483648; lia). reflexivity.
Qed.
Print Assumptions C81_timeout_refuted.
(** A provider of the older library answers success with 100.  Every other call takes that for
    success; a method call returns it to the caller as it is. *)
Theorem C81_legacy_refuted : exists out m, response TransModel.LEGACY_SUCCESS out = Ok m /\ TransModel.good TransModel.LEGACY_SUCCESS = true /\
  method_answer (msg_from_bytes (m_data m)) = Ok (TransModel.LEGACY_SUCCESS, out) /\ TransModel.LEGACY_SUCCESS <> E_SUCCESS.
Proof.
  exists (Obj (Some []) 0 (PCons (Some (bs "p")) (VInt32 5) PNil) ONull ONull). eexists.
  split; [vm_compute; reflexivity|]. split; [reflexivity|]. split; [vm_compute; reflexivity|discriminate].
Qed.
Print Assumptions C81_legacy_refuted.
(** A handler that fails and leaves a property without a name in its out parameters (both are
    allowed) makes its provider compare with no string. *)
Theorem C81_unnamed_refuted : exists l t ms nm, run empty l = Ok t /\ orderly empty l /\ lookup (registered l) nm <> None /\
  fst (invoke (Provides t ms None) nm ONull) = UB.
Proof.
  exists [Register (bs "A.M()") (mkInfo 4 1 false)]. eexists. exists (fun _ => Some (fun _ _ => (E_INVALID_INPUT, Obj None 0 (PCons None (VInt32 5) PNil) ONull ONull))), (bs "A.M()").
  split; [vm_compute; reflexivity|]. split; [split; [split; [discriminate|discriminate]|exact I]|]. split; [discriminate|]. vm_compute. reflexivity.
Qed.
Print Assumptions C81_unnamed_refuted.

Definition meth_hist : list op := [Register (bs "A.T.{i}.") (mkInfo TABLE 1 false); Register (bs "A.T.{i}.M()") (mkInfo 4 2 false); Register (bs "A.N()") (mkInfo 4 3 false);
  RegisterRow (bs "A.T.") 1 None; RegisterRow (bs "A.T.") 2 None].
(** adds one to its parameter "n"; other parameters are refused *)
Definition plus_one : handler := fun _ i =>
  match value_of i (bs "n") with Some (VInt32 n) => (E_SUCCESS, Obj None 0 (PCons (Some (bs "n")) (VInt32 (n + 1)) PNil) ONull ONull)
  | _ => (E_INVALID_INPUT, Obj None 0 (PCons (Some (bs "hint")) (VBool true) PNil) ONull ONull) end.
Definition methods (h : Z) : option handler := if h =? 2 then Some plus_one else if h =? 3 then Some (fun _ _ => (E_ASYNC_RESPONSE, ONull)) else None.
Definition forty_one : Value.object := Obj (Some (bs "in")) 0 (PCons (Some (bs "n")) (VInt32 41) PNil) ONull ONull.
Example C81_witness : Forall quiet_op meth_hist /\ orderly empty meth_hist /\ exists t, run empty meth_hist = Ok t /\
  (tokens (bs "A.T.2.M()") <> [] /\ forallb plain_tok (tokens (bs "A.T.2.M()")) = true /\ text_ok (bs "A.T.2.M()") /\
   lookup (registered meth_hist) (bs "A.T.2.M()") = Some (mkInfo 4 2 false) /\ get t (tokens (bs "A.T.2.M()")) <> None /\ get t (tokens (bs "A.T.3.M()")) = None /\
   lookup (registered meth_hist) (bs "A.T.3.M()") <> None) /\
  sendable_object forty_one = true /\ proper (snd (plus_one (bs "A.T.2.M()") (arrives forty_one))) /\ proper (snd (plus_one (bs "A.T.2.M()") (arrives ONull))) /\
  (exists o, invoke (Provides t methods None) (bs "A.T.2.M()") forty_one = (Ok (E_SUCCESS, o), [(2, bs "A.T.2.M()", forty_one)]) /\ value_of o (bs "n") = Some (VInt32 42)) /\
  (exists o, invoke (Provides t methods None) (bs "A.T.2.M()") ONull = (Ok (E_INVALID_INPUT, o), [(2, bs "A.T.2.M()", new_object)]) /\ tells E_INVALID_INPUT (bs "invalid input") o /\ value_of o (bs "hint") = Some (VBool true)) /\
  (exists o, invoke (Provides t methods None) (bs "A.T.3.M()") ONull = (Ok (E_ELEMENT_DOES_NOT_EXIST, o), [])) /\
  (exists o, invoke (Provides t methods (Some (E_TIMEOUT, ONull))) (bs "A.N()") ONull = (Ok (E_TIMEOUT, o), [(3, bs "A.N()", new_object)])).
Proof.
  split; [repeat constructor; cbn; intros; reflexivity|].
  split; [repeat first
    [ exact I | split | discriminate | progress cbn [orderly orderly_op typ] | intros _; reflexivity
    | match goal with
      | |- forall pos x, retrieve_instance ?t ?s = Some (pos, x) -> is_table x = true =>
          let r := eval vm_compute in (retrieve_instance t s) in
          intros pos x E; assert (H : retrieve_instance t s = r) by (vm_compute; reflexivity); rewrite H in E; injection E as <- <-; reflexivity
      | |- match step ?t ?o with _ => _ end => let r := eval vm_compute in (step t o) in replace (step t o) with r by (vm_compute; reflexivity)
      end ]|].
  eexists. split; [vm_compute; reflexivity|]. split.
  { split; [discriminate|]. split; [reflexivity|]. split; [split; [reflexivity|vm_compute; reflexivity]|]. split; [vm_compute; reflexivity|]. split; [vm_compute; discriminate|]. split; [vm_compute; reflexivity|vm_compute; discriminate]. }
  split; [reflexivity|]. split; [split; [reflexivity|split; reflexivity]|]. split; [split; [reflexivity|split; reflexivity]|].
  split; [eexists; split; [vm_compute; reflexivity|vm_compute; reflexivity]|].
  split; [eexists; split; [vm_compute; reflexivity|]; vm_compute; repeat split|].
  split; eexists; vm_compute; reflexivity.
Qed.
