(** Proofs about reading and setting parameters (C82, C83, C84). *)
From Coq Require Import String.
From Verif Require Import Common CommonFacts Bytes BytesFacts TextModel Errors ElemModel ElemSpec ElemProofs ElemRows MsgModel MsgSpec WireModel WalkModel NamesModel NamesSpec NamesProofs Value WireSpec WireProofs ParamModel ParamSpec.
From Verif Require TransModel MsgProofs.
From Coq Require Import Lia ZifyBool.
Local Open Scope string_scope.
Local Open Scope list_scope.
Local Open Scope Z_scope.

(** ** names *)
Lemma existsb_none : forall c l, ~ In c l -> existsb (Z.eqb c) l = false.
Proof. induction l as [|x l IH]; intros H; [reflexivity|]. cbn [existsb]. destruct (c =? x) eqn:E; [apply Z.eqb_eq in E; subst; exfalso; apply H; left; reflexivity|]. apply IH. intros K. apply H. right. exact K. Qed.
Lemma one_name_not_wild : forall nm, one_name nm -> TransModel.wild nm = false.
Proof. intros nm (_ & S & L). unfold TransModel.wild. rewrite (existsb_none 42 nm S). apply Z.eqb_neq in L. rewrite L. reflexivity. Qed.
Lemma no_call_valid : forall nm, no_call nm -> valid_query nm = true.
Proof. intros nm (P & A & B). unfold valid_query. rewrite (existsb_none 40 nm P). apply Z.eqb_neq in A. apply Z.eqb_neq in B. rewrite A, B. reflexivity. Qed.

(** ** properties in messages *)
Notation pbytes n v := (MsgProofs.all_bytes (FStr n :: value_fields v)).
Lemma property_at : forall n v pre r k, name_ok n = true -> sendable_value v = true ->
  property_from_message (MsgProofs.at_pos pre (pbytes n v ++ r) k) = Ok (PCons (Some (the_name n)) (seen_value v) PNil, MsgProofs.at_pos (pre ++ pbytes n v) r k).
Proof.
  intros n v pre r k Hn Hv. unfold property_from_message. rewrite all_bytes_cons, <- app_assoc, read_string_at by now apply name_field. cbn [need obind].
  assert (F : (vneed v <= read_fuel (MsgProofs.at_pos pre (MsgProofs.field_bytes (FStr n) ++ MsgProofs.all_bytes (value_fields v) ++ r) k))%nat).
  { pose proof (proj1 need_fields v). pose proof (fuel_at (pre ++ MsgProofs.field_bytes (FStr n)) (value_fields v) r k).
    unfold MsgProofs.at_pos, read_fuel in *. cbn [m_data] in *. rewrite !app_length in *. lia. }
  rewrite (proj1 init_spec v Hv _ _ _ _ F). cbn [obind]. rewrite <- app_assoc. reflexivity.
Qed.
Lemma append_all_ok : forall l m, Forall (fun nv => sendable_value (snd nv) = true) l -> append_all l m = Ok (append m (flat_map (fun nv => pbytes (fst nv) (snd nv)) l)).
Proof.
  induction l as [|[n v] l IH]; intros m F; cbn [append_all flat_map]; [rewrite append_nil; reflexivity|]. inversion F as [|? ? F1 F2]; subst. cbn [snd] in F1.
  rewrite (proj1 append_spec v F1). cbn [obind]. rewrite IH by exact F2. rewrite append_append. reflexivity.
Qed.
Definition seen_opt (nv : option name * value) : name * value := (the_name (fst nv), seen_value (snd nv)).
Lemma read_values_ok : forall l pre r k, Forall (fun nv => name_ok (fst nv) = true /\ sendable_value (snd nv) = true) l ->
  read_values (length l) (MsgProofs.at_pos pre (flat_map (fun nv => pbytes (fst nv) (snd nv)) l ++ r) k) = Ok (map seen_opt l).
Proof.
  induction l as [|[n v] l IH]; intros pre r k F; cbn [length read_values flat_map map]; [reflexivity|]. inversion F as [|? ? [F1 F2] F3]; subst. cbn [fst snd] in *.
  rewrite <- app_assoc, property_at by assumption. cbn [obind]. rewrite IH by exact F3. reflexivity.
Qed.

(** ** requests for values *)
Lemma good_range : forall rc, 0 < rc < 100 -> TransModel.good rc = false /\ TransModel.code_of rc = rc.
Proof. intros rc B. unfold TransModel.good, TransModel.code_of, TransModel.LEGACY_SUCCESS, E_SUCCESS. split; [lia|]. replace ((rc <? 0) || (rc >? 100)) with false by lia. reflexivity. Qed.
Lemma get_request_data : forall me nm, m_data (get_request me nm) = pack_str (me ++ [0]) ++ pack_int 1 ++ pack_str (nm ++ [0]).
Proof. intros. unfold get_request. cbn [append set_int32 set_string m_data msg_init app]. rewrite <- app_assoc. reflexivity. Qed.
Lemma handler_read : forall P t me nm, text_ok me -> text_ok nm -> nm <> [] ->
  get_handler P t (msg_from_bytes (m_data (get_request me nm))) =
  do (rp, cs) <- (if TransModel.wild nm then do (rc, l) <- query t (for_walk P me) nm ; Ok (rc, map (fun nv => (Some (fst nv), snd nv)) l, [])
                  else let '(rc, p, c) := get_single P t me nm in if rc =? E_SUCCESS then Ok (E_SUCCESS, [p], c) else Ok (rc, [], c)) ;
  do r <- values_response (fst rp) (snd rp) ; Ok (r, cs).
Proof.
  intros P t me nm TM TN NE. rewrite get_request_data, from_start. unfold get_handler. rewrite take_string by exact TM. cbn [need obind]. rewrite take_int by lia. cbn [need obind].
  change (1 >? 0) with true. cbn iota. change (Z.to_nat 1) with 1%nat. cbn [get_loop]. rewrite <- (app_nil_r (pack_str (nm ++ [0]))) at 1. rewrite take_string by exact TN. cbn [need obind].
  destruct nm as [|c0 nm]; [congruence|]. destruct (TransModel.wild (c0 :: nm)).
  - destruct (query t (for_walk P me) (c0 :: nm)) as [[rc l]| |]; reflexivity.
  - destruct (get_single P t me (c0 :: nm)) as [[rc p] c]. destruct (rc =? E_SUCCESS); reflexivity.
Qed.
Lemma values_response_ok : forall l, Forall (fun nv => sendable_value (snd nv) = true) l ->
  exists r, values_response E_SUCCESS l = Ok r /\ m_data r = pack_int 0 ++ pack_int (Z.of_nat (length l)) ++ flat_map (fun nv => pbytes (fst nv) (snd nv)) l.
Proof.
  intros l F. unfold values_response. rewrite Z.eqb_refl, append_all_ok by exact F. eexists. split; [reflexivity|]. cbn [append set_int32 m_data msg_init app]. rewrite <- app_assoc. reflexivity.
Qed.
Lemma values_response_err : forall rc l, rc <> E_SUCCESS -> values_response rc l = Ok (set_int32 msg_init rc).
Proof. intros rc l N. unfold values_response. apply Z.eqb_neq in N. rewrite N. reflexivity. Qed.
Lemma get_answer_ok : forall nm n v r, m_data r = pack_int 0 ++ pack_int 1 ++ pbytes n v ++ [] -> name_ok n = true -> sendable_value v = true ->
  get_answer nm (inl (msg_from_bytes (m_data r))) = Ok (if bytes_eqb nm (the_name n) then (E_SUCCESS, Some (seen_value v)) else (E_INVALID_RESPONSE_FROM_DESTINATION, None)).
Proof.
  intros nm n v r D N S. rewrite D, from_start. unfold get_answer. rewrite take_int by lia. cbn [obind]. change (TransModel.good 0) with true. cbn iota.
  rewrite take_int by lia. cbn [need obind]. rewrite all_bytes_cons, <- (app_assoc (MsgProofs.field_bytes (FStr n))), read_string_at by now apply name_field. cbn [need obind].
  destruct (bytes_eqb nm (the_name n)); [|reflexivity]. rewrite value_at by exact S. reflexivity.
Qed.
Lemma get_answer_err : forall nm rc, 0 < rc < 100 -> get_answer nm (inl (msg_from_bytes (m_data (set_int32 msg_init rc)))) = Ok (rc, None).
Proof.
  intros nm rc B. rewrite from_start. unfold get_answer. cbn [append set_int32 m_data msg_init app]. rewrite <- (app_nil_r (pack_int rc)) at 1. rewrite take_int by lia. cbn [obind].
  destruct (good_range rc B) as [-> ->]. reflexivity.
Qed.

Lemma values_answer_ok : forall l r, m_data r = pack_int 0 ++ pack_int (Z.of_nat (length l)) ++ flat_map (fun nv => pbytes (fst nv) (snd nv)) l ->
  Forall (fun nv => name_ok (fst nv) = true /\ sendable_value (snd nv) = true) l -> Z.of_nat (length l) < 2 ^ 31 ->
  values_answer (inl (msg_from_bytes (m_data r))) = Ok (E_SUCCESS, map seen_opt l).
Proof.
  intros l r D F B. rewrite D, from_start. unfold values_answer. rewrite take_int by lia. cbn [obind]. change (TransModel.good 0) with true. cbn iota.
  rewrite take_int by lia. cbn [obind]. rewrite Nat2Z.id. rewrite <- (app_nil_r (flat_map _ l)). rewrite read_values_ok by exact F. reflexivity.
Qed.
Lemma values_answer_err : forall rc, 0 < rc < 100 -> values_answer (inl (msg_from_bytes (m_data (set_int32 msg_init rc)))) = Ok (rc, []).
Proof.
  intros rc B. rewrite from_start. unfold values_answer. cbn [append set_int32 m_data msg_init app]. rewrite <- (app_nil_r (pack_int rc)) at 1. rewrite take_int by lia. cbn [obind].
  destruct (good_range rc B) as [-> ->]. reflexivity.
Qed.

(** ** reading *)
Lemma instance_is : forall l t nm, Forall quiet_op l -> run empty l = Ok t -> tokens nm <> [] -> forallb plain_tok (tokens nm) = true ->
  match get t (tokens nm) with
  | Some i => exists pos el, retrieve_instance t nm = Some (pos, el) /\ inf el = i
  | None => retrieve_instance t nm = None
  end.
Proof.
  intros l t nm Q R N P. rewrite (instance_plain t nm _ (quiet_getterless t (run_quiet l _ _ quiet_empty Q R)) eq_refl N P). unfold get.
  destruct (sub t (tokens nm)) as [x|]; cbn [option_map]; [|reflexivity]. eexists. exists x. split; reflexivity.
Qed.
(** a read is one call of [get_single] *)
Lemma rbus_get_reads : forall P t me nm, text_ok me -> text_ok nm -> one_name nm -> no_call nm ->
  let '(rc, p, c) := get_single P t me nm in
  0 <= rc < 100 -> (rc = E_SUCCESS -> name_ok (fst p) = true /\ sendable_value (snd p) = true) ->
  rbus_get (Provides P t) me nm =
    (Ok (if rc =? E_SUCCESS then if bytes_eqb nm (the_name (fst p)) then (E_SUCCESS, Some (seen_value (snd p))) else (E_INVALID_RESPONSE_FROM_DESTINATION, None) else (rc, None)), c).
Proof.
  intros P t me nm TM TN ON NC. destruct (get_single P t me nm) as [[rc p] c] eqn:G. intros B SP.
  pose proof (handler_read P t me nm TM TN (proj1 ON)) as H. rewrite (one_name_not_wild nm ON), G in H.
  unfold rbus_get, ask_get. rewrite (no_call_valid nm NC), (one_name_not_wild nm ON). cbn [negb]. destruct nm as [|c0 nm]; [destruct ON; congruence|]. rewrite H. clear H.
  destruct (rc =? E_SUCCESS) eqn:E.
  - apply Z.eqb_eq in E. destruct (SP E) as [N S]. cbn [obind fst snd]. destruct (values_response_ok [p]) as (r & V & D); [constructor; [exact S|constructor]|].
    rewrite V. cbn [obind]. rewrite (get_answer_ok (c0 :: nm) (fst p) (snd p) r D N S). reflexivity.
  - apply Z.eqb_neq in E. cbn [obind fst snd]. rewrite (values_response_err rc [] E). cbn [obind]. rewrite get_answer_err by (unfold E_SUCCESS in E; lia). reflexivity.
Qed.

(** ** setting *)
Definition commit_text (b : bool) : list Z := if b then bs "TRUE" else bs "FALSE".
Lemma set_request_ok : forall me nm v opts, sendable_value v = true ->
  exists req, set_request me nm v opts = Ok req /\
  m_data req = pack_int (to_signed 32 (session_of opts)) ++ pack_str (me ++ [0]) ++ pack_int 0 ++ pack_int 1 ++ pbytes (Some nm) v ++ pack_str (commit_text (commit_of opts) ++ [0]).
Proof.
  intros me nm v opts S. unfold set_request. rewrite (proj1 append_spec v S). cbn [obind]. eexists. split; [reflexivity|].
  assert (E : match opts with Some o => to_signed 32 (o_session o) | None => 0 end = to_signed 32 (session_of opts)) by (destruct opts; reflexivity). rewrite E.
  cbn [append set_int32 set_string m_data msg_init app]. rewrite <- !app_assoc. reflexivity.
Qed.
Lemma text_commit : forall b, text_ok (commit_text b).
Proof. intros []; (split; [reflexivity|vm_compute; reflexivity]). Qed.
Lemma is_true_commit : forall b, is_true (commit_text b) = b.
Proof. intros []; reflexivity. Qed.
Lemma text_name : forall nm, text nm -> name_ok (Some nm) = true.
Proof. intros nm [C L]. unfold name_ok, short. rewrite C. cbn [andb]. lia. Qed.
Lemma text_text : forall nm, text nm -> text_ok nm.
Proof. intros nm [C L]. split; [exact C|lia]. Qed.
Lemma signed_range : forall n, 0 <= n < 2 ^ 32 -> - 2 ^ 31 <= to_signed 32 n < 2 ^ 31.
Proof.
  intros n B. unfold to_signed. change (32 - 1) with 31. destruct (n <? 2 ^ 31) eqn:E; lia.
Qed.
Lemma set_handler_read : forall P t me nm v opts req, text_ok me -> text nm -> sendable_value v = true -> 0 <= session_of opts < 2 ^ 32 ->
  set_request me nm v opts = Ok req ->
  set_handler P t (msg_from_bytes (m_data req)) =
  let '(rc, failed, cs) := set_loop P t (session_of opts) me (commit_of opts) [(nm, seen_value v)] in Ok (set_response rc failed, cs).
Proof.
  intros P t me nm v opts req TM TN SV SE R. destruct (set_request_ok me nm v opts SV) as (req' & R' & D). assert (req' = req) by congruence. subst req'. rewrite D, from_start. clear D R R'.
  unfold set_handler. rewrite take_int by (apply signed_range; exact SE). cbn [need obind]. rewrite take_string by exact TM. cbn [need obind]. rewrite take_int by lia. cbn [need obind].
  rewrite take_int by lia. cbn [need obind]. change (0 =? 1) with false. change (1 >? 0) with true. cbn iota. change (Z.to_nat 1) with 1%nat. cbn [read_props].
  rewrite property_at by (auto using text_name). cbn [obind the_name].
  match goal with |- context [get_string (MsgProofs.at_pos ?pre (pack_str ?s) ?m)] => pose proof (take_string pre (commit_text (commit_of opts)) [] m (text_commit _)) as T end.
  rewrite app_nil_r in T. rewrite T. cbn [need obind]. rewrite is_true_commit, to_unsigned_signed by lia. reflexivity.
Qed.
Lemma set_answer_ok : forall rc failed, 0 <= rc < 100 -> set_answer (inl (msg_from_bytes (m_data (set_response rc failed)))) = Ok rc.
Proof.
  intros rc failed B. rewrite from_start. unfold set_answer, set_response. destruct (rc =? E_SUCCESS) eqn:E.
  - apply Z.eqb_eq in E. subst rc. cbn [append set_int32 m_data msg_init app]. rewrite take_int by (unfold E_SUCCESS; lia). reflexivity.
  - apply Z.eqb_neq in E. unfold E_SUCCESS in E. destruct (good_range rc ltac:(lia)) as [G C]. destruct failed as [f|]; cbn [append set_int32 set_string m_data msg_init app].
    + rewrite take_int by lia. cbn [obind]. rewrite G, C. reflexivity.
    + rewrite <- (app_nil_r (pack_int rc)) at 1. rewrite take_int by lia. cbn [obind]. rewrite G, C. reflexivity.
Qed.
(** a set is one round of [set_loop] *)
Lemma rbus_set_sets : forall P t me nm v opts, text_ok me -> text nm -> one_name nm -> sendable_value v = true -> v <> VNull -> v <> VNone -> 0 <= session_of opts < 2 ^ 32 ->
  let '(rc, failed, cs) := set_loop P t (session_of opts) me (commit_of opts) [(nm, seen_value v)] in
  0 <= rc < 100 -> rbus_set (Provides P t) me nm v opts = (Ok rc, cs).
Proof.
  intros P t me nm v opts TM TN ON SV N1 N2 SE. destruct (set_request_ok me nm v opts SV) as (req & R & _). pose proof (set_handler_read P t me nm v opts req TM TN SV SE R) as H.
  destruct (set_loop P t (session_of opts) me (commit_of opts) [(nm, seen_value v)]) as [[rc failed] cs]. intros B.
  unfold rbus_set, ask_set. rewrite (one_name_not_wild nm ON), R, H. assert (T : vtype v =? RBUS_NONE = false) by (destruct v; try reflexivity; congruence). rewrite T.
  destruct nm as [|c0 nm]; [destruct ON; congruence|]. cbn [obind]. rewrite (set_answer_ok rc failed B). destruct v; try reflexivity; congruence.
Qed.

(** ** the data model *)
Lemma parameter_found : forall l t nm i, Forall quiet_op l -> run empty l = Ok t -> plain nm -> get t (tokens nm) = Some i ->
  exists pos el, retrieve_instance t nm = Some (pos, el) /\ inf el = i.
Proof. intros l t nm i Q R (N & P & _) G. pose proof (instance_is l t nm Q R N P) as H. rewrite G in H. exact H. Qed.
Lemma parameter_missing : forall l t nm, Forall quiet_op l -> run empty l = Ok t -> plain nm -> get t (tokens nm) = None -> retrieve_instance t nm = None.
Proof. intros l t nm Q R (N & P & _) G. pose proof (instance_is l t nm Q R N P) as H. rewrite G in H. exact H. Qed.
Lemma bus_error_never : forall err, err <> 0 -> bus_error err <> E_SUCCESS.
Proof.
  intros err E. unfold bus_error. apply Z.eqb_neq in E. rewrite E. repeat match goal with |- context [if ?c then _ else _] => destruct c; [vm_compute; discriminate|] end. vm_compute. discriminate.
Qed.

(** ** parameters as registers *)
Lemma get_one : forall l t b who nm, Forall quiet_op l -> run empty l = Ok t -> text who -> parameter t nm -> whole (b nm) ->
  rbus_get (Provides (keeper b) t) who nm = (Ok (E_SUCCESS, Some (b nm)), [mkGet (hid (match get t (tokens nm) with Some i => i | None => ElemModel.object end)) nm who]).
Proof.
  intros l t b who nm Q R TW (PL & ON & NC & i & G & GI) (S & C & _). destruct (parameter_found l t nm i Q R PL G) as (pos & el & RI & IE).
  pose proof (rbus_get_reads (keeper b) t who nm (text_text _ TW) (text_text _ (proj2 (proj2 PL))) ON NC) as H. unfold get_single in H. rewrite RI, IE, GI in H. cbn [keeper on_get g_name fst snd] in H.
  rewrite H; [|unfold E_SUCCESS; lia|intros _; split; [apply text_name; exact (proj2 (proj2 PL))|exact S]].
  rewrite Z.eqb_refl. cbn [the_name]. rewrite bytes_eqb_refl, (proj1 complete_seen _ C), G. reflexivity.
Qed.
Lemma set_one : forall l t b who nm v opts, Forall quiet_op l -> run empty l = Ok t -> text who -> parameter t nm -> whole v -> v <> VNone -> opts_ok opts ->
  exists c, rbus_set (Provides (keeper b) t) who nm v opts = (Ok E_SUCCESS, [c]) /\ s_name c = nm /\ s_value c = v.
Proof.
  intros l t b who nm v opts Q R TW (PL & ON & NC & i & G & GI) (S & C & VN) NN OO. destruct (parameter_found l t nm i Q R PL G) as (pos & el & RI & IE).
  pose proof (rbus_set_sets (keeper b) t who nm v opts (text_text _ TW) (proj2 (proj2 PL)) ON S VN NN OO) as H. cbn [set_loop keeper on_set] in H. rewrite RI, Z.eqb_refl in H.
  rewrite (proj1 complete_seen _ C) in H. eexists. split; [apply H; unfold E_SUCCESS; lia|split; reflexivity].
Qed.
Lemma change_whole : forall b nm v, (forall n, whole (b n)) -> whole v -> forall n, whole (change b nm v n).
Proof. intros b nm v B V n. unfold change. destruct (bytes_eqb n nm); [exact V|apply B]. Qed.
Lemma registers_ok : forall l t qs b, Forall quiet_op l -> run empty l = Ok t -> (forall n, whole (b n)) -> Forall (asks_ok t) qs -> all_calls t b qs = Ok (serve_all b qs).
Proof.
  intros l t qs. induction qs as [|q qs IH]; intros b Q R B A; [reflexivity|]. inversion A as [|? ? A1 A2]; subst. cbn [all_calls serve_all]. destruct q as [who nm|who nm v opts]; cbn [asks_ok] in A1; cbn [one_call serve].
  - destruct A1 as [TW PA]. rewrite (get_one l t b who nm Q R TW PA (B nm)). cbn [obind]. rewrite IH by assumption. reflexivity.
  - destruct A1 as (TW & PA & WV & NN & OO). destruct (set_one l t b who nm v opts Q R TW PA WV NN OO) as (c & -> & EN & EV). cbn [obind kept fold_left]. rewrite EN, EV.
    rewrite IH by (try assumption; apply change_whole; assumption). reflexivity.
Qed.
