(** Proofs about method calls (C81). *)
From Coq Require Import String.
From Verif Require Import Common CommonFacts TextModel Errors ElemModel ElemSpec ElemProofs ElemRows MsgModel MsgSpec WireModel NamesModel NamesSpec NamesProofs Value WireSpec WireProofs MethodModel MethodSpec.
From Verif Require TransModel MsgProofs.
From Coq Require Import Lia ZifyBool.
Local Open Scope string_scope.
Local Open Scope list_scope.
Local Open Scope Z_scope.

Lemma prop_value_ok : forall nm p, named p = true -> prop_value nm p = Ok (value_in p nm).
Proof.
  intros nm. induction p as [|n v p IH]; intros H; [reflexivity|]. destruct n as [n|]; [|discriminate]. cbn [prop_value value_in the_name].
  destruct (bytes_eqb n nm); [reflexivity|]. apply IH, H.
Qed.
Lemma set_prop_ok : forall nm v p, named p = true -> exists p', set_prop nm v p = Ok p' /\ named p' = true /\
  (forall m, value_in p' m = if bytes_eqb nm m then Some v else value_in p m) /\ pcount p' <= pcount p + 1 /\
  (sendable_props p = true -> name_ok (Some nm) = true -> sendable_value v = true -> sendable_props p' = true).
Proof.
  intros nm v. induction p as [|n w p IH]; intros H.
  - exists (PCons (Some nm) v PNil). cbn [set_prop named value_in the_name sendable_props pcount]. split; [reflexivity|]. split; [reflexivity|]. split; [reflexivity|]. split; [lia|].
    intros _ A B. rewrite A, B. reflexivity.
  - destruct n as [n|]; [|discriminate]. cbn [named] in H. cbn [set_prop]. destruct (bytes_eqb n nm) eqn:E.
    + exists (PCons (Some n) v p). cbn [named value_in the_name sendable_props pcount]. split; [reflexivity|]. split; [exact H|]. split; [|split; [lia|]].
      * intros m. apply bytes_eqb_eq in E. subst n. destruct (bytes_eqb nm m); reflexivity.
      * intros A B C. apply andb_prop in A as [A A3]. apply andb_prop in A as [A1 A2]. rewrite A1, A3, C. reflexivity.
    + destruct (IH H) as (p' & S & N & V & C & SE). rewrite S. cbn [obind]. exists (PCons (Some n) w p'). cbn [named value_in the_name sendable_props pcount]. split; [reflexivity|].
      split; [exact N|]. split; [|split; [lia|]].
      * intros m. rewrite V. destruct (bytes_eqb n m) eqn:E2; [|reflexivity]. apply bytes_eqb_eq in E2. subst m. rewrite bytes_eqb_sym, E. reflexivity.
      * intros A B D. apply andb_prop in A as [A A3]. rewrite A, SE by assumption. reflexivity.
Qed.
Lemma value_in_seen : forall p nm, value_in (seen_props p) nm = option_map seen_value (value_in p nm).
Proof. induction p as [|n v p IH]; intros nm; [reflexivity|]. cbn [seen_props value_in the_name]. destruct (bytes_eqb (the_name n) nm); [reflexivity|apply IH]. Qed.
Lemma error_text_ok : forall e, name_ok (Some (error_text e)) = true.
Proof.
  intros e. unfold error_text. repeat match goal with |- name_ok (Some (if ?c then _ else _)) = true => destruct c; [vm_compute; reflexivity|] end. vm_compute. reflexivity.
Qed.
Lemma error_text_is : forall e, error_text e = text_of e.
Proof.
  intros e. unfold text_of. destruct (e <? 0) eqn:N.
  { unfold error_text. repeat match goal with |- (if ?e =? ?c then _ else _) = _ => let H := fresh in destruct (e =? c) eqn:H; [apply Z.eqb_eq in H; subst e; discriminate N|clear H] end. reflexivity. }
  apply Z.ltb_ge in N. rewrite <- (Z2Nat.id e) at 1 by exact N. generalize (Z.to_nat e). intros n.
  do 22 (destruct n as [|n]; [reflexivity|]). replace (nth _ texts _) with (bs "unknown error") by (destruct n; reflexivity).
  assert (B : 22 <= Z.of_nat (S (S (S (S (S (S (S (S (S (S (S (S (S (S (S (S (S (S (S (S (S (S n))))))))))))))))))))))) by lia.
  revert B. generalize (Z.of_nat (S (S (S (S (S (S (S (S (S (S (S (S (S (S (S (S (S (S (S (S (S (S n))))))))))))))))))))))). intros z B.
  unfold error_text. repeat match goal with |- (if ?e =? ?c then _ else _) = _ => let H := fresh in destruct (e =? c) eqn:H; [apply Z.eqb_eq in H; subst e; exfalso; revert B; apply Zgt_not_le; reflexivity|clear H] end. reflexivity.
Qed.
Lemma sendable_int : forall e, - 2 ^ 31 <= e < 2 ^ 31 -> sendable_value (VInt32 e) = true.
Proof. intros e H. cbn [sendable_value scalar_wf]. unfold in_s. change (32 - 1) with 31. lia. Qed.
Lemma tell_error_ok : forall e text n t p c x, named p = true -> sendable_object (Obj n t p c x) = true -> pcount p + 2 < 2147483648 -> - 2 ^ 31 <= e < 2 ^ 31 -> name_ok (Some text) = true ->
  exists p', tell_error e text (Obj n t p c x) = Ok (Obj n t p' c x) /\ sendable_object (Obj n t p' c x) = true /\
    value_in p' (bs "error_code") = Some (VInt32 e) /\ value_in p' (bs "error_string") = Some (VString (Some text)) /\
    forall nm, nm <> bs "error_code" -> nm <> bs "error_string" -> value_in p' nm = value_in p nm.
Proof.
  intros e text n t p c x NP SO PC BE NT. unfold tell_error, set_value.
  destruct (set_prop_ok (bs "error_code") (VInt32 e) p NP) as (p1 & S1 & N1 & V1 & C1 & SE1). rewrite S1. cbn [obind].
  destruct (set_prop_ok (bs "error_string") (VString (Some text)) p1 N1) as (p2 & S2 & N2 & V2 & C2 & SE2). rewrite S2. cbn [obind]. exists p2. split; [reflexivity|].
  cbn [sendable_object] in SO |- *. apply andb_prop in SO as [SO A7]. apply andb_prop in SO as [SO A6]. apply andb_prop in SO as [SO A5]. apply andb_prop in SO as [SO A4]. apply andb_prop in SO as [SO A3].
  assert (ST : sendable_value (VString (Some text)) = true) by (cbn [sendable_value scalar_wf]; exact NT).
  assert (SI : sendable_value (VInt32 e) = true) by (apply sendable_int; exact BE).
  split; [|split; [|split]].
  - rewrite SO, A5, A6, A7, SE2; [|apply SE1; [exact A3|reflexivity|exact SI]|reflexivity|exact ST]. cbn [andb]. rewrite !andb_true_r. apply Z.ltb_lt. clear - C1 C2 PC. lia.
  - rewrite V2, V1. reflexivity.
  - rewrite V2. reflexivity.
  - intros nm A B. rewrite V2, V1. destruct (bytes_eqb (bs "error_string") nm) eqn:E; [apply bytes_eqb_eq in E; congruence|].
    destruct (bytes_eqb (bs "error_code") nm) eqn:E1; [apply bytes_eqb_eq in E1; congruence|]. reflexivity.
Qed.


(** ** the messages *)
Notation obytes o := (MsgProofs.all_bytes (object_fields false o)).
Lemma response_ok : forall rc o, sendable_object o = true -> response rc o = Ok (append (set_int32 msg_init rc) (obytes o)).
Proof. intros rc o S. unfold response. apply append_spec, S. Qed.
Lemma answer_ok : forall rc o, - 2 ^ 31 <= rc < 2 ^ 31 -> sendable_object o = true -> o <> ONull ->
  method_answer (msg_from_bytes (m_data (append (set_int32 msg_init rc) (obytes o)))) = Ok (TransModel.code_of rc, seen_object false o).
Proof.
  intros rc o B S N. rewrite from_start. cbn [append set_int32 m_data msg_init app]. unfold method_answer. rewrite take_int by exact B. cbn [obind].
  rewrite <- (app_nil_r (obytes o)), object_at by assumption. reflexivity.
Qed.
Lemma request_ok : forall nm inp, sendable_object inp = true ->
  exists req, method_request nm inp = Ok req /\ m_data req = pack_int 0 ++ pack_str (nm ++ [0]) ++
    match inp with ONull => pack_int 0 | _ => pack_int 1 ++ obytes inp end.
Proof.
  intros nm inp S. unfold method_request. destruct inp as [|n t p c x].
  - eexists. split; [reflexivity|]. reflexivity.
  - rewrite (proj2 (proj2 append_spec) _ S). eexists. split; [reflexivity|]. cbn [append set_int32 set_string m_data msg_init app]. rewrite <- !app_assoc. reflexivity.
Qed.
(** the handler with the request read *)
Lemma handler_reads : forall t ms nm inp req, text_ok nm -> sendable_object inp = true -> method_request nm inp = Ok req ->
  method_handler t ms (msg_from_bytes (m_data req)) =
  match retrieve t nm, retrieve_instance t nm with
  | Some el, Some _ =>
    match ms (hid (inf el)) with
    | Some h =>
      let (rc, out) := h nm (arrives inp) in
      let calls := [(hid (inf el), nm, arrives inp)] in
      if rc =? E_ASYNC_RESPONSE then Ok (None, calls) else
      do out <- finish rc out ; do r <- response rc out ; Ok (Some r, calls)
    | None => do o <- tell_error E_INVALID_OPERATION (bs "RBUS_ERROR_INVALID_OPERATION") new_object ; do r <- response E_INVALID_OPERATION o ; Ok (Some r, [])
    end
  | _, _ => do o <- tell_error E_ELEMENT_DOES_NOT_EXIST (bs "RBUS_ERROR_ELEMENT_DOES_NOT_EXIST") new_object ; do r <- response E_ELEMENT_DOES_NOT_EXIST o ; Ok (Some r, [])
  end.
Proof.
  intros t ms nm inp req TN S R. destruct (request_ok nm inp S) as (req' & R' & D). assert (req' = req) by congruence. subst req'. rewrite D, from_start. clear D R R'.
  unfold method_handler. rewrite take_int by lia. cbn [need obind]. rewrite take_string by exact TN. cbn [need obind].
  destruct inp as [|n ty p c x].
  - match goal with |- context [get_int32 (MsgProofs.at_pos ?pre (pack_int 0) ?m)] => pose proof (take_int pre 0 [] m ltac:(lia)) as T end. rewrite app_nil_r in T. rewrite T. cbn [obind]. change (negb (0 =? 0)) with false. cbn iota. cbn [obind arrives]. reflexivity.
  - rewrite take_int by lia. cbn [obind]. change (negb (1 =? 0)) with true. cbn iota.
    set (o := Obj n ty p c x) in *. assert (NO : o <> ONull) by discriminate. rewrite <- (app_nil_r (obytes o)). rewrite object_at by assumption. cbn [obind].
    change (arrives o) with (seen_object false o). reflexivity.
Qed.
(** the out parameters after the handler arrive *)
Lemma finish_ok : forall rc out, proper out -> - 2 ^ 31 <= rc < 2 ^ 31 -> exists o, finish rc out = Ok o /\ sendable_object o = true /\ o <> ONull /\ carries rc out (seen_object false o).
Proof.
  intros rc out P B. destruct out as [|n t p c x]; [contradiction|]. destruct P as (NP & SO & PC). unfold finish, carries. destruct (rc =? E_SUCCESS) eqn:E.
  - apply Z.eqb_eq in E. exists (Obj n t p c x). split; [reflexivity|]. split; [exact SO|]. split; [discriminate|]. split; [reflexivity|congruence].
  - apply Z.eqb_neq in E. unfold get_value. rewrite prop_value_ok by exact NP. cbn [obind value_of]. destruct (value_in p (bs "error_code")) as [v|] eqn:V.
    + exists (Obj n t p c x). split; [reflexivity|]. split; [exact SO|]. split; [discriminate|]. split; [reflexivity|discriminate].
    + destruct (tell_error_ok rc (error_text rc) n t p c x NP SO PC B (error_text_ok rc)) as (p' & T & S' & V1 & V2 & V3).
      exists (Obj n t p' c x). split; [exact T|]. split; [exact S'|]. split; [discriminate|]. split.
      * intros [K|K]; congruence.
      * intros _ _. split; [reflexivity|]. rewrite <- error_text_is. split; [split|]; cbn [seen_object value_of]; rewrite ?value_in_seen.
        -- rewrite V1. reflexivity.
        -- rewrite V2. reflexivity.
        -- intros nm A C. rewrite value_in_seen, V3 by assumption. reflexivity.
Qed.
(** an empty object that tells an error *)
Lemma new_error : forall e text, - 2 ^ 31 <= e < 2 ^ 31 -> name_ok (Some text) = true -> exists o, tell_error e text new_object = Ok o /\ sendable_object o = true /\ o <> ONull /\
  tells e text o /\ tells e text (seen_object false o).
Proof.
  intros e text B T. destruct (tell_error_ok e text None 0 PNil ONull ONull eq_refl eq_refl ltac:(cbn; lia) B T) as (p' & TE & S & V1 & V2 & _).
  exists (Obj None 0 p' ONull ONull). split; [exact TE|]. split; [exact S|]. split; [discriminate|]. split; [split; assumption|].
  split; cbn [seen_object value_of]; rewrite value_in_seen; [rewrite V1|rewrite V2]; reflexivity.
Qed.

(** ** which elements exist *)
Lemma exists_plain : forall l t nm, Forall quiet_op l -> run empty l = Ok t -> tokens nm <> [] -> forallb plain_tok (tokens nm) = true ->
  match retrieve_instance t nm with Some _ => true | None => false end = match get t (tokens nm) with Some _ => true | None => false end.
Proof.
  intros l t nm Q R N P. rewrite (instance_plain t nm _ (quiet_getterless t (run_quiet l _ _ quiet_empty Q R)) eq_refl N P). unfold get. destruct (sub t (tokens nm)); reflexivity.
Qed.
Lemma code_small : forall rc, 0 <= rc <= 100 -> TransModel.code_of rc = rc.
Proof. intros rc B. unfold TransModel.code_of, TransModel.LEGACY_SUCCESS. replace ((rc <? 0) || (rc >? 100)) with false by lia. reflexivity. Qed.
Lemma small_int : forall rc, 0 <= rc <= 100 -> - 2 ^ 31 <= rc < 2 ^ 31.
Proof. intros. lia. Qed.
