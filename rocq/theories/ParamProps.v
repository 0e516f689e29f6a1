(** Properties of reading and setting parameters: C82, C83, C84. *)
From Coq Require Import String.
From Verif Require Import Common CommonFacts Bytes TextModel Errors ElemModel ElemSpec ElemProofs ElemRows MsgModel WireModel WalkModel NamesModel NamesSpec NamesProofs Value WireSpec WireProofs ParamModel ParamSpec ParamProofs.
From Verif Require TransModel.
From Coq Require Import Lia ZifyBool.
Local Open Scope string_scope.
Local Open Scope list_scope.
Local Open Scope Z_scope.

(** ** C82: reading *)
(** C82.  The get handler of exactly the parameter that was named runs once, with the name and the
    caller, and the caller gets its code and its value; a handler that puts another name into the
    property makes the call fail. *)
Theorem C82_get_partial : forall l t P me nm i rc nm' v, Forall quiet_op l -> run empty l = Ok t ->
  text me -> plain nm -> one_name nm -> no_call nm -> get t (tokens nm) = Some i -> getter i = true ->
  on_get P (mkGet (hid i) nm me) = (rc, nm', v) -> 0 <= rc < 100 -> (rc = E_SUCCESS -> name_ok nm' = true /\ sendable_value v = true) ->
  exists out, rbus_get (Provides P t) me nm = (Ok out, [mkGet (hid i) nm me]) /\
  (rc = E_SUCCESS -> nm' = Some nm -> out = (E_SUCCESS, Some (seen_value v))) /\
  (rc = E_SUCCESS -> nm' <> Some nm -> out = (E_INVALID_RESPONSE_FROM_DESTINATION, None)) /\
  (rc <> E_SUCCESS -> out = (rc, None)).
Proof.
  intros l t P me nm i rc nm' v Q R TM PL ON NC G GI H B S. destruct (parameter_found l t nm i Q R PL G) as (pos & el & RI & IE).
  pose proof (rbus_get_reads P t me nm (text_text _ TM) (text_text _ (proj2 (proj2 PL))) ON NC) as E. unfold get_single in E. rewrite RI, IE, GI, H in E. cbn [fst snd] in E.
  rewrite (E B S). eexists. split; [reflexivity|]. split; [|split].
  - intros -> ->. rewrite Z.eqb_refl. cbn [the_name]. rewrite bytes_eqb_refl. reflexivity.
  - intros -> N. rewrite Z.eqb_refl. destruct (bytes_eqb nm (the_name nm')) eqn:X; [|reflexivity]. apply bytes_eqb_eq in X. destruct nm' as [n'|]; cbn [the_name] in X; [congruence|].
    destruct ON as [NE _]. congruence.
  - intros N. apply Z.eqb_neq in N. rewrite N. reflexivity.
Qed.
Print Assumptions C82_get_partial.
(** C82.  What does not exist and what cannot be read give their errors, and no handler runs. *)
Theorem C82_errors_partial : forall l t P me nm, Forall quiet_op l -> run empty l = Ok t ->
  text me -> plain nm -> one_name nm -> no_call nm ->
  (get t (tokens nm) = None -> rbus_get (Provides P t) me nm = (Ok (E_ELEMENT_DOES_NOT_EXIST, None), [])) /\
  (forall i, get t (tokens nm) = Some i -> getter i = false -> rbus_get (Provides P t) me nm = (Ok (E_INVALID_OPERATION, None), [])).
Proof.
  intros l t P me nm Q R TM PL ON NC. pose proof (rbus_get_reads P t me nm (text_text _ TM) (text_text _ (proj2 (proj2 PL))) ON NC) as E. unfold get_single in E. split.
  - intros G. rewrite (parameter_missing l t nm Q R PL G) in E. rewrite E; [reflexivity|vm_compute; split; [discriminate|reflexivity]|intros X; discriminate X].
  - intros i G GI. destruct (parameter_found l t nm i Q R PL G) as (pos & el & RI & IE). rewrite RI, IE, GI in E. rewrite E; [reflexivity|vm_compute; split; [discriminate|reflexivity]|intros X; discriminate X].
Qed.
Print Assumptions C82_errors_partial.
(** C82.  Names of events and methods, and names of more than one parameter, are refused without a
    request, whatever the bus does. *)
Theorem C82_names : forall s me nm, nm <> [] ->
  (~ no_call nm -> rbus_get s me nm = (Ok (E_INVALID_INPUT, None), [])) /\
  (no_call nm -> ~ one_name nm -> rbus_get s me nm = (Ok (E_ACCESS_NOT_ALLOWED, None), [])).
Proof.
  intros s me nm NE. unfold rbus_get. destruct nm as [|c0 nm0]; [congruence|]. set (nm := c0 :: nm0) in *. split.
  - intros NC. destruct (valid_query nm) eqn:V; [|reflexivity]. exfalso. apply NC. unfold valid_query in V. apply negb_true_iff in V. apply orb_false_iff in V. destruct V as [V1 V3]. apply orb_false_iff in V1. destruct V1 as [V1 V2].
    split; [|split; apply Z.eqb_neq; assumption]. intros I. assert (X : existsb (Z.eqb 40) nm = true) by (apply existsb_exists; exists 40; auto). congruence.
  - intros NC NO. rewrite (no_call_valid nm NC). cbn [negb]. destruct (TransModel.wild nm) eqn:W; [reflexivity|]. exfalso. apply NO. unfold TransModel.wild in W. apply orb_false_iff in W. destruct W as [W1 W2].
    split; [exact NE|]. split.
    + intros I. assert (X : existsb (Z.eqb 42) nm = true) by (apply existsb_exists; exists 42; auto). congruence.
    + intros L. rewrite L in *. discriminate.
Qed.
Print Assumptions C82_names.
(** C82.  A request that the bus does not carry gives an error and no value; of the errors, a
    missing destination and a timeout are told apart. *)
Theorem C82_bus : forall err me nm, nm <> [] -> err <> 0 -> exists rc, rbus_get (Broken err) me nm = (Ok (rc, None), []) /\ rc <> E_SUCCESS /\
  (no_call nm -> one_name nm -> (err = 7 -> rc = E_TIMEOUT) /\ (err = 17 -> rc = E_DESTINATION_NOT_FOUND)).
Proof.
  intros err me nm NE E. unfold rbus_get. destruct nm as [|c0 nm0]; [congruence|]. set (nm := c0 :: nm0) in *.
  destruct (negb (valid_query nm)) eqn:V; [eexists; split; [reflexivity|split; [discriminate|]]; intros NC; rewrite (no_call_valid nm NC) in V; discriminate|].
  destruct (TransModel.wild nm) eqn:W; [eexists; split; [reflexivity|split; [discriminate|]]; intros _ ON; rewrite (one_name_not_wild nm ON) in W; discriminate|].
  exists (bus_error err). cbn [ask_get obind get_answer]. split; [reflexivity|]. split; [now apply bus_error_never|]. intros _ _. split; intros ->; reflexivity.
Qed.
Print Assumptions C82_bus.
(** C82.  Of a query with a wildcard or a path the caller gets the names and values the provider
    found, in their order, or the provider's code. *)
Theorem C82_many_partial : forall t P me nm rc found, text me -> text nm -> nm <> [] -> TransModel.wild nm = true ->
  query t (for_walk P me) nm = Ok (rc, found) -> 0 <= rc < 100 ->
  Forall (fun nv => text (fst nv) /\ sendable_value (snd nv) = true) found -> Z.of_nat (length found) < 2 ^ 31 ->
  fst (get_wild (Provides P t) me nm) = Ok (if rc =? E_SUCCESS then (E_SUCCESS, map seen_pair found) else (rc, [])).
Proof.
  intros t P me nm rc found TM TN NE W Q B F L. unfold get_wild, ask_get. rewrite (handler_read P t me nm (text_text _ TM) (text_text _ TN) NE), W, Q. cbn [obind fst snd].
  destruct (rc =? E_SUCCESS) eqn:E.
  - apply Z.eqb_eq in E. subst rc.
    assert (F1 : Forall (fun nv : option name * value => name_ok (fst nv) = true /\ sendable_value (snd nv) = true) (map (fun nv => (Some (fst nv), snd nv)) found)).
    { clear - F. induction F as [|x found [T S] F IH]; cbn [map]; constructor; [|exact IH]. cbn [fst snd]. split; [apply text_name; exact T|exact S]. }
    destruct (values_response_ok (map (fun nv => (Some (fst nv), snd nv)) found)) as (r & V & D).
    { clear - F1. induction F1 as [|x l [T S] F IH]; constructor; assumption. }
    rewrite V. cbn [obind fst]. rewrite (values_answer_ok _ r D F1) by (rewrite map_length; exact L). rewrite map_map. reflexivity.
  - apply Z.eqb_neq in E. rewrite (values_response_err rc _ E). cbn [obind fst]. unfold E_SUCCESS in E. rewrite values_answer_err by lia. reflexivity.
Qed.
Print Assumptions C82_many_partial.
(** C82.  A typed read gives the value if it has the type, an error otherwise, and never a value
    of another type. *)
Theorem C82_typed : forall type s me nm rc v calls, rbus_get s me nm = (Ok (rc, v), calls) -> (rc = E_SUCCESS -> v <> None) -> v <> Some (VString None) ->
  get_typed type s me nm = (Ok (match v with Some x => if rc =? E_SUCCESS then if vtype x =? type then (E_SUCCESS, Some x) else (E_BUS_ERROR, None) else (rc, None) | None => (rc, None) end), calls).
Proof.
  intros type s me nm rc v calls G N S. unfold get_typed. rewrite G. cbn [obind]. destruct (rc =? E_SUCCESS) eqn:E; [|destruct v; reflexivity].
  apply Z.eqb_eq in E. destruct v as [x|]; [|exfalso; exact (N E eq_refl)]. destruct (vtype x =? type) eqn:T; [|reflexivity].
  destruct x; try reflexivity. destruct s0; [reflexivity|congruence].
Qed.
Print Assumptions C82_typed.

(** ** C83: setting *)
(** C83.  The set handler of exactly the parameter that was named runs once, with the name, the
    value, the caller, the session and the commit flag, and the caller gets its code. *)
Theorem C83_set_partial : forall l t P me nm i f v opts rc, Forall quiet_op l -> run empty l = Ok t ->
  text me -> plain nm -> one_name nm -> get t (tokens nm) = Some i -> on_set P (hid i) = Some f ->
  sendable_value v = true -> v <> VNull -> v <> VNone -> opts_ok opts ->
  f (mkSet (hid i) nm (seen_value v) (session_of opts) me (commit_of opts)) = rc -> 0 <= rc < 100 ->
  rbus_set (Provides P t) me nm v opts = (Ok rc, [mkSet (hid i) nm (seen_value v) (session_of opts) me (commit_of opts)]).
Proof.
  intros l t P me nm i f v opts rc Q R TM PL ON G F S N1 N2 OO H B. destruct (parameter_found l t nm i Q R PL G) as (pos & el & RI & IE).
  pose proof (rbus_set_sets P t me nm v opts (text_text _ TM) (proj2 (proj2 PL)) ON S N1 N2 OO) as E. cbn [set_loop] in E. rewrite RI, IE, F, andb_true_r, H in E.
  destruct (rc =? E_SUCCESS) eqn:X; [apply Z.eqb_eq in X; subst rc; rewrite X in *|]; apply E; [unfold E_SUCCESS; lia|exact B].
Qed.
Print Assumptions C83_set_partial.
(** C83.  What does not exist and what cannot be set give their errors, and no handler runs. *)
Theorem C83_errors_partial : forall l t P me nm v opts, Forall quiet_op l -> run empty l = Ok t ->
  text me -> plain nm -> one_name nm -> sendable_value v = true -> v <> VNull -> v <> VNone -> opts_ok opts ->
  (get t (tokens nm) = None -> rbus_set (Provides P t) me nm v opts = (Ok E_ELEMENT_DOES_NOT_EXIST, [])) /\
  (forall i, get t (tokens nm) = Some i -> on_set P (hid i) = None -> rbus_set (Provides P t) me nm v opts = (Ok E_NOT_WRITABLE, [])).
Proof.
  intros l t P me nm v opts Q R TM PL ON S N1 N2 OO. pose proof (rbus_set_sets P t me nm v opts (text_text _ TM) (proj2 (proj2 PL)) ON S N1 N2 OO) as E. cbn [set_loop] in E. split.
  - intros G. rewrite (parameter_missing l t nm Q R PL G) in E. apply E. vm_compute; split; [discriminate|reflexivity].
  - intros i G GI. destruct (parameter_found l t nm i Q R PL G) as (pos & el & RI & IE). rewrite RI, IE, GI in E. apply E. vm_compute; split; [discriminate|reflexivity].
Qed.
Print Assumptions C83_errors_partial.
(** C83.  A name of several parameters and a value of no type are refused without a request. *)
Theorem C83_refused : forall s me nm v opts, nm <> [] -> In 42 nm \/ last nm 0 = 46 \/ v = VNull \/ v = VNone -> rbus_set s me nm v opts = (Ok E_INVALID_INPUT, []).
Proof.
  intros s me nm v opts NE H. unfold rbus_set. destruct nm as [|c0 nm0]; [congruence|]. set (nm := c0 :: nm0) in *.
  destruct (TransModel.wild nm) eqn:W; [destruct v; reflexivity|]. unfold TransModel.wild in W. apply orb_false_iff in W. destruct W as [W1 W2].
  destruct H as [H|[H|[->| ->]]]; try reflexivity.
  - assert (X : existsb (Z.eqb 42) nm = true) by (apply existsb_exists; exists 42; auto). congruence.
  - rewrite H in *. discriminate.
Qed.
Print Assumptions C83_refused.
(** C83.  A request with several values: handlers are called in the order of the values, and none is
    called after one that has failed or after a value that cannot be set. *)
Theorem C83_stops : forall P t session who commit l rc failed cs, set_loop P t session who commit l = (rc, failed, cs) ->
  (exists k, map s_name cs = map fst (firstn k l)) /\ (forall a x b, cs = a ++ x :: b -> b <> [] -> exists f, on_set P (s_hid x) = Some f /\ f x = E_SUCCESS) /\
  (rc = E_SUCCESS -> failed = None -> map s_name cs = map fst l /\ forall x, In x cs -> exists f, on_set P (s_hid x) = Some f /\ f x = E_SUCCESS).
Proof.
  intros P t session who commit. induction l as [|[nm v] l IH]; intros rc failed cs E; cbn [set_loop] in E.
  - injection E as <- <- <-. split; [exists 0%nat; reflexivity|]. split; [intros a x b X; destruct a; discriminate|]. intros _ _. split; [reflexivity|intros x []].
  - destruct (retrieve_instance t nm) as [[pos el]|].
    2: { injection E as <- <- <-. split; [exists 0%nat; reflexivity|]. split; [intros a x b X; destruct a; discriminate|discriminate]. }
    destruct (on_set P (hid (inf el))) as [f|] eqn:F.
    2: { injection E as <- <- <-. split; [exists 0%nat; reflexivity|]. split; [intros a x b X; destruct a; discriminate|discriminate]. }
    cbv zeta in E. set (c := mkSet _ _ _ _ _ _) in E. destruct (Z.eqb_spec (f c) E_SUCCESS) as [S|S].
    + destruct (set_loop P t session who commit l) as [[rc' failed'] cs'] eqn:L. injection E as <- <- <-. destruct (IH _ _ _ eq_refl) as ((k & K) & A & B).
      split; [exists (Datatypes.S k); cbn [firstn map fst]; rewrite <- K; reflexivity|]. split.
      * intros a x b X NE. destruct a as [|y a]; injection X as X1 X2; [subst x; exists f; auto|]. apply (A a x b X2 NE).
      * intros R Fl. destruct (B R Fl) as [B1 B2]. split; [cbn [map fst]; rewrite <- B1; reflexivity|]. intros x [<-|X]; [exists f; auto|apply B2; exact X].
    + injection E as <- <- <-. split; [exists 1%nat; reflexivity|]. split; [|discriminate].
      intros a x b X NE. exfalso. destruct a as [|y a]; injection X as X1 X2; [congruence|destruct a; discriminate].
Qed.
Print Assumptions C83_stops.
(** C83.  A request that the bus does not carry is never reported as a success. *)
Theorem C83_bus : forall err me nm v opts, nm <> [] -> err <> 0 -> sendable_value v = true -> exists rc, rbus_set (Broken err) me nm v opts = (Ok rc, []) /\ rc <> E_SUCCESS.
Proof.
  intros err me nm v opts NE E S. unfold rbus_set. destruct nm as [|c0 nm0]; [congruence|]. set (nm := c0 :: nm0) in *.
  destruct (set_request_ok me nm v opts S) as (req & -> & _). cbn [ask_set obind set_answer]. pose proof (bus_error_never err E) as B.
  destruct (TransModel.wild nm); [destruct v; (eexists; split; [reflexivity|discriminate])|].
  destruct (vtype v =? RBUS_NONE); destruct v; (eexists; split; [reflexivity|]); first [exact B|discriminate].
Qed.
Print Assumptions C83_bus.

(** ** C84: parameters are registers *)
(** C84.  For a provider whose handlers keep what they are given, any sequence of reads and sets by
    any components behaves as on registers: every call succeeds, and a read gives the value of
    the last set of that name, with its type, or the first one. *)
Theorem C84_registers_partial : forall l t qs b, Forall quiet_op l -> run empty l = Ok t -> (forall n, whole (b n)) -> Forall (asks_ok t) qs ->
  all_calls t b qs = Ok (serve_all b qs).
Proof. exact registers_ok. Qed.
Print Assumptions C84_registers_partial.

(** C82 and C83 fail for the empty name: it is read at index -1. *)
Theorem C82_empty_refuted : forall s me, fst (rbus_get s me []) = UB.
Proof. reflexivity. Qed.
Print Assumptions C82_empty_refuted.
(** C83 fails for the empty name. *)
Theorem C83_empty_refuted : forall s me v opts, fst (rbus_set s me [] v opts) = UB.
Proof. reflexivity. Qed.
Print Assumptions C83_empty_refuted.

(** ** a data model: a table with a row, a property of its own, and one that cannot be read *)
Definition hist : list op :=
  [Register (bs "A.T.{i}.") (mkInfo TABLE 1 false); Register (bs "A.T.{i}.X") (mkInfo 1 2 true); Register (bs "A.P") (mkInfo 1 3 true);
   Register (bs "A.E") (mkInfo 1 4 false); RegisterRow (bs "A.T.") 5 None].
Definition prog : program := mkProgram
  (fun c => if g_hid c =? 2 then (E_SUCCESS, Some (g_name c), VString (Some (g_who c))) else if bytes_eqb (g_who c) (bs "me") then (E_SUCCESS, Some (bs "A.Q"), VInt32 4) else (E_ACCESS_NOT_ALLOWED, None, VNull))
  (fun _ _ _ => None)
  (fun h => if h =? 2 then Some (fun c => if s_session c =? 9 then E_SESSION_ALREADY_EXIST else E_SUCCESS) else None).
Definition store : bank := fun n => if bytes_eqb n (bs "A.P") then VDouble 7 else VString (Some (bs "?")).
Definition asked : list request :=
  [Get (bs "c1") (bs "A.T.5.X"); Set_ (bs "c2") (bs "A.T.5.X") (VUInt8 200) (Some (mkOpts 12 false)); Get (bs "c1") (bs "A.T.5.X"); Get (bs "c1") (bs "A.P");
   Set_ (bs "c1") (bs "A.P") (VString (Some (bs "text"))) None; Set_ (bs "c2") (bs "A.T.5.X") (VBool true) None; Get (bs "c2") (bs "A.P"); Get (bs "c2") (bs "A.T.5.X")].
Ltac show := first [vm_compute; reflexivity|vm_compute; discriminate|vm_compute; intuition discriminate].
Lemma hist_runs : Forall quiet_op hist /\ exists t, run empty hist = Ok t /\
  parameter t (bs "A.T.5.X") /\ parameter t (bs "A.P") /\ get t (tokens (bs "A.E")) = Some (mkInfo 1 4 false) /\ get t (tokens (bs "A.T.5.X")) = Some (mkInfo 1 2 true).
Proof.
  split; [repeat constructor; vm_compute; intros; congruence|]. eexists. split; [vm_compute; reflexivity|].
  split; [|split; [|split; vm_compute; reflexivity]].
  - split; [split; [show|split; [show|split; show]]|]. split; [split; [show|split; show]|]. split; [split; [show|split; show]|]. eexists. split; [vm_compute; reflexivity|reflexivity].
  - split; [split; [show|split; [show|split; show]]|]. split; [split; [show|split; show]|]. split; [split; [show|split; show]|]. eexists. split; [vm_compute; reflexivity|reflexivity].
Qed.
Example C82_witness : exists t, run empty hist = Ok t /\
  rbus_get (Provides prog t) (bs "me") (bs "A.T.5.X") = (Ok (E_SUCCESS, Some (VString (Some (bs "me")))), [mkGet 2 (bs "A.T.5.X") (bs "me")]) /\
  rbus_get (Provides prog t) (bs "me") (bs "A.P") = (Ok (E_INVALID_RESPONSE_FROM_DESTINATION, None), [mkGet 3 (bs "A.P") (bs "me")]) /\
  rbus_get (Provides prog t) (bs "you") (bs "A.P") = (Ok (E_ACCESS_NOT_ALLOWED, None), [mkGet 3 (bs "A.P") (bs "you")]) /\
  rbus_get (Provides prog t) (bs "me") (bs "A.E") = (Ok (E_INVALID_OPERATION, None), []) /\
  rbus_get (Provides prog t) (bs "me") (bs "A.T.6.X") = (Ok (E_ELEMENT_DOES_NOT_EXIST, None), []) /\
  get_typed (vtype (VString None)) (Provides prog t) (bs "me") (bs "A.T.5.X") = (Ok (E_SUCCESS, Some (VString (Some (bs "me")))), [mkGet 2 (bs "A.T.5.X") (bs "me")]) /\
  get_typed (vtype (VInt32 0)) (Provides prog t) (bs "me") (bs "A.T.5.X") = (Ok (E_BUS_ERROR, None), [mkGet 2 (bs "A.T.5.X") (bs "me")]) /\
  query t (for_walk prog (bs "me")) (bs "A.T.*.X") = Ok (E_SUCCESS, [(bs "A.T.5.X", VString (Some (bs "me")))]) /\
  fst (get_wild (Provides prog t) (bs "me") (bs "A.T.*.X")) = Ok (E_SUCCESS, [(bs "A.T.5.X", VString (Some (bs "me")))]).
Proof. eexists. split; [vm_compute; reflexivity|]. repeat split; vm_compute; reflexivity. Qed.
Example C83_witness : exists t, run empty hist = Ok t /\
  rbus_set (Provides prog t) (bs "me") (bs "A.T.5.X") (VInt32 (-4)) (Some (mkOpts 3000000000 false)) = (Ok E_SUCCESS, [mkSet 2 (bs "A.T.5.X") (VInt32 (-4)) 3000000000 (bs "me") false]) /\
  rbus_set (Provides prog t) (bs "me") (bs "A.T.5.X") (VInt32 (-4)) None = (Ok E_SUCCESS, [mkSet 2 (bs "A.T.5.X") (VInt32 (-4)) 0 (bs "me") true]) /\
  rbus_set (Provides prog t) (bs "me") (bs "A.T.5.X") (VBool true) (Some (mkOpts 9 true)) = (Ok E_SESSION_ALREADY_EXIST, [mkSet 2 (bs "A.T.5.X") (VBool true) 9 (bs "me") true]) /\
  rbus_set (Provides prog t) (bs "me") (bs "A.P") (VBool true) None = (Ok E_NOT_WRITABLE, []) /\
  rbus_set (Provides prog t) (bs "me") (bs "A.Z") (VBool true) None = (Ok E_ELEMENT_DOES_NOT_EXIST, []).
Proof. eexists. split; [vm_compute; reflexivity|]. repeat split; vm_compute; reflexivity. Qed.
Example C83_stops_witness : exists t, run empty hist = Ok t /\
  set_loop prog t 1 (bs "me") true [(bs "A.T.5.X", VBool true); (bs "A.P", VBool true); (bs "A.T.5.X", VBool false)] = (E_NOT_WRITABLE, Some (bs "A.P"), [mkSet 2 (bs "A.T.5.X") (VBool true) 1 (bs "me") false]) /\
  set_loop prog t 9 (bs "me") true [(bs "A.T.5.X", VBool true); (bs "A.T.5.X", VBool false)] = (E_SESSION_ALREADY_EXIST, Some (bs "A.T.5.X"), [mkSet 2 (bs "A.T.5.X") (VBool true) 9 (bs "me") false]).
Proof. eexists. split; [vm_compute; reflexivity|]. repeat split; vm_compute; reflexivity. Qed.
Example C84_witness : Forall quiet_op hist /\ (forall n, whole (store n)) /\ exists t, run empty hist = Ok t /\ Forall (asks_ok t) asked /\
  serve_all store asked =
    [Got E_SUCCESS (Some (VString (Some (bs "?")))); Done E_SUCCESS; Got E_SUCCESS (Some (VUInt8 200)); Got E_SUCCESS (Some (VDouble 7));
     Done E_SUCCESS; Done E_SUCCESS; Got E_SUCCESS (Some (VString (Some (bs "text")))); Got E_SUCCESS (Some (VBool true))].
Proof.
  destruct hist_runs as (Q & t & R & P1 & P2 & _). split; [exact Q|]. split; [intros n; unfold store; destruct (bytes_eqb n (bs "A.P")); (split; [|split]; show)|].
  exists t. split; [exact R|]. split; [|vm_compute; reflexivity].
  assert (T1 : text (bs "c1")) by (split; show). assert (T2 : text (bs "c2")) by (split; show).
  assert (O1 : forall n c, 0 <= n < 2 ^ 32 -> opts_ok (Some (mkOpts n c))) by (intros n c H; exact H). assert (O0 : opts_ok None) by (vm_compute; split; [discriminate|reflexivity]).
  assert (V : forall v, sendable_value v = true -> complete_value v = true -> v <> VNull -> whole v) by (intros; repeat split; assumption).
  unfold asked. repeat apply Forall_cons; try apply Forall_nil; cbn [asks_ok]; repeat match goal with |- _ /\ _ => split end; try assumption; try (apply V; show); try (apply O1; lia); try show.
Qed.
