(** Events from a provider to its subscribers, end to end (C90, C91). *)
From Coq Require Import String.
From Verif Require Import Common CommonFacts Bytes Errors Value MsgModel WireModel WireSpec.
From Verif Require SubsModel SubsSpec SubsProps RetryModel.
From Verif Require Import ConsumeModel ConsumeSpec NotifyModel NotifySpec NotifyProofs.
From Coq Require Import Lia ZifyBool.
Local Open Scope string_scope.
Local Open Scope list_scope.
Local Open Scope Z_scope.

(** ** C90: publishing *)
Theorem C90_publish_partial : forall E shapes comps S V n ev lost, sound_start E comps -> reach E (start shapes comps) S V -> fair E S (Publish n ev lost) ->
  exists S' rc, step E S (Publish n ev lost) =
    Ok (S', (rc, map (told ev) (List.filter (fun v => wants (SubsModel.init shapes []) (look E) n v && negb (lost (key_of v))) V))) /\
    (existsb (wants (SubsModel.init shapes []) (look E) n) V = true -> rc = E_SUCCESS) /\ (rc = E_SUCCESS \/ rc = E_NOSUBSCRIBERS).
Proof.
  intros E shapes comps S V n ev lost SS R F. pose proof (J_reach E shapes comps S V SS R) as H.
  destruct (step_publish E shapes S V n ev lost H (proj2 SS) F) as (S' & rc & Q & _ & _ & A & B). eauto.
Qed.
Print Assumptions C90_publish_partial.
(** the same without losses: each subscription of the event once, in the order they were made *)
Theorem C90_everyone_partial : forall E shapes comps S V n ev, sound_start E comps -> reach E (start shapes comps) S V -> fair E S (Publish n ev (fun _ => false)) ->
  exists S' rc, step E S (Publish n ev (fun _ => false)) = Ok (S', (rc, map (told ev) (List.filter (wants (SubsModel.init shapes []) (look E) n) V))) /\
    reach E (start shapes comps) S' V.
Proof.
  intros E shapes comps S V n ev SS R F. destruct (C90_publish_partial E shapes comps S V n ev (fun _ => false) SS R F) as (S' & rc & Q & _). exists S', rc.
  rewrite (filter_ext _ (wants (SubsModel.init shapes []) (look E) n)) in Q by (intros v; apply andb_true_r). split; [exact Q|].
  exact (reach_step E _ S V (Publish n ev (fun _ => false)) S' rc _ R F Q).
Qed.
Print Assumptions C90_everyone_partial.
Theorem C90_subscribe_partial : forall E shapes comps S V who comp k h initial got S' rc cs, sound_start E comps -> reach E (start shapes comps) S V ->
  fair E S (Sub who comp k h initial got) -> step E S (Sub who comp k h initial got) = Ok (S', (rc, cs)) ->
  (existsb (same_seat who comp k) V = true -> rc = E_SUBSCRIPTION_ALREADY_EXIST /\ cs = [] /\ S' = S) /\
  (existsb (same_seat who comp k) V = false ->
     rc <> E_SUBSCRIPTION_ALREADY_EXIST /\
     (SubsProps.ready (handlers E) (prov S) true (look E (q_event k)) (key_of (mkSeat who comp k h)) -> rc = E_SUCCESS)).
Proof.
  intros E shapes comps S V who comp k h initial got S' rc cs SS R F Q. pose proof (J_reach E shapes comps S V SS R) as H.
  destruct (step_sub E shapes S V who comp k h initial got S' rc cs H F Q) as (H' & C). destruct (existsb (same_seat who comp k) V) eqn:X; split; intros Y; try discriminate Y; [tauto|].
  destruct C as (RQ & _). destruct F as (SK & SW & _ & AR & AN & _).
  assert (NE : procs S who <> []). { cbn [step] in Q. unfold subscribe_call in Q. destruct (handle_of comp (procs S who)) as [s|] eqn:HO; [|discriminate Q]. eapply handle_nonempty, HO. }
  pose proof (not_held E shapes S V who comp k H SK NE X) as NH.
  destruct (sound_seat_key who comp k SK SW) as (_ & _ & _ & _ & PF & _).
  destruct (SubsProps.C31_registry_partial _ shapes [] _ SubsProps.empty_cache (j_reach _ _ _ _ H)) as (_ & C31 & _). destruct (C31 (look E (q_event k)) (seat_key who comp k) (prov S') rc PF RQ) as (_ & _ & C31c).
  split.
  - intros ->. destruct (request_code _ _ _ _ _ _ _ RQ eq_refl AR) as [_ RA]. destruct (RA eq_refl) as [X1|(_ & x & G)]; [now apply AN|].
    assert (PS : SubsProofs.plain_subs (SubsModel.subs (prov S))). { intros y I. destruct (j_subs _ _ _ _ H y I) as ((_ & _ & _ & _ & PY & _) & _). exact PY. }
    rewrite SubsProofs.get_sub_ok in G by assumption. injection G as G. apply find_some in G as [Ix G].
    assert (SubsSpec.holds (SubsSpec.keys (prov S)) (seat_key who comp k) = true); [|congruence]. apply existsb_exists. exists (SubsModel.s_key x). split; [now apply in_map|]. now rewrite SubsProofs.same_key_sym.
  - intros RD. now apply C31c.
Qed.
Print Assumptions C90_subscribe_partial.
Theorem C90_unsubscribe_partial : forall E shapes comps S V who comp k S' rc cs, sound_start E comps -> reach E (start shapes comps) S V ->
  fair E S (Unsub who comp k) -> step E S (Unsub who comp k) = Ok (S', (rc, cs)) ->
  cs = [] /\ rc = if existsb (same_seat who comp k) V then E_SUCCESS else E_INVALID_OPERATION.
Proof.
  intros E shapes comps S V who comp k S' rc cs SS R F Q. pose proof (J_reach E shapes comps S V SS R) as H. exact (proj2 (step_unsub E shapes S V who comp k S' rc cs H F Q)).
Qed.
Print Assumptions C90_unsubscribe_partial.

(** ** C91: the initial value *)
Theorem C91_initial_partial : forall E shapes comps S V who comp k h got S' cs, sound_start E comps -> reach E (start shapes comps) S V ->
  fair E S (Sub who comp k h true got) -> step E S (Sub who comp k h true got) = Ok (S', (E_SUCCESS, cs)) ->
  cs = match got with
       | Some (_, x) => [mkCall who comp h (mkEvent (Some (q_event k)) 4 (seen_object false (Obj None 0 (PCons (Some (bs "initialValue")) x PNil) ONull ONull)))]
       | None => []
       end.
Proof.
  intros E shapes comps S V who comp k h got S' cs SS R F Q. pose proof (J_reach E shapes comps S V SS R) as H.
  destruct (step_sub E shapes S V who comp k h true got S' E_SUCCESS cs H F Q) as (_ & C). destruct (existsb (same_seat who comp k) V); [destruct C as (_ & C & _); discriminate C|].
  destruct C as (_ & ->). change (E_SUCCESS =? E_SUCCESS) with true. cbv iota. unfold first_call. destruct got as [[e x]|]; reflexivity.
Qed.
Print Assumptions C91_initial_partial.
(** asked for without a value, or in vain, nothing is delivered *)
Theorem C91_silent_partial : forall E shapes comps S V who comp k h initial got S' rc cs, sound_start E comps -> reach E (start shapes comps) S V ->
  fair E S (Sub who comp k h initial got) -> step E S (Sub who comp k h initial got) = Ok (S', (rc, cs)) -> initial = false \/ rc <> E_SUCCESS -> cs = [].
Proof.
  intros E shapes comps S V who comp k h initial got S' rc cs SS R F Q N. pose proof (J_reach E shapes comps S V SS R) as H.
  destruct (step_sub E shapes S V who comp k h initial got S' rc cs H F Q) as (_ & C). destruct (existsb (same_seat who comp k) V); [tauto|]. destruct C as (_ & ->).
  destruct N as [->|N]; [now destruct (rc =? E_SUCCESS)|]. now replace (rc =? E_SUCCESS) with false by lia.
Qed.
Print Assumptions C91_silent_partial.

(** ** a provider with a property, an event and a table; two processes, one with two components *)
Definition at_name (s : list Z) : option nat :=
  if bytes_eqb s (bs "Dev.Level") then Some 4%nat else if bytes_eqb s (bs "Dev.Ev") then Some 5%nat else None.
Definition world : env := mkEnv SubsProps.yes at_name (bs "Dev.Ev").
Definition comps (who : list Z) : list Z := if bytes_eqb who (bs "_A") then [1; 2] else if bytes_eqb who (bs "_B") then [1] else [].
Definition zero : sys := start SubsProps.tree comps.
Definition ask_for (s : string) : req := mkReq (bs s) FNull 0 0.
Definition every (s : string) (n : Z) : req := mkReq (bs s) FNull n 0.
Definition above (s : string) (n : Z) : req := mkReq (bs s) (FRel OP_GREATER_THAN (VInt32 n)) 0 0.
Definition news_of (s : string) (n : Z) : event := mkEvent (Some (bs s)) 3 (Obj None 0 (PCons (Some (bs "n")) (VInt32 n) PNil) ONull ONull).
Definition fairb (E : env) (S : sys) (o : op) : bool :=
  match o with
  | Sub who comp k _ initial got =>
      sound_req k && sound_who who comp && match payload k comp with Ok p => msg_size p <? 2 ^ 32 | _ => true end &&
      (0 <=? next_answer E S) && (next_answer E S <? 100) && negb (next_answer E S =? E_SUBSCRIPTION_ALREADY_EXIST) &&
      match got with Some (err, v) => (err =? E_SUCCESS) && sendable_value v | None => true end
  | Unsub who comp k => sound_req k && (next_answer E S =? 0)
  | Gone _ => true
  | Publish _ ev _ => sound_event ev && forallb (fun x => match append_event ev (SubsModel.k_filter (SubsModel.s_key x)) (to_unsigned 32 (SubsModel.k_interval (SubsModel.s_key x))) (to_unsigned 32 (SubsModel.k_duration (SubsModel.s_key x))) (SubsModel.k_comp (SubsModel.s_key x)) msg_init with Ok m => msg_size m <? 2 ^ 31 - 32768 | _ => true end) (SubsModel.subs (prov S))
  end.
Lemma fairb_ok E S o : fairb E S o = true -> fair E S o.
Proof.
  destruct o as [who comp k h initial got|who comp k|who|n ev lost]; cbn [fairb fair].
  - intros H. apply andb_true_iff in H as [H G]. apply andb_true_iff in H as [H N]. apply andb_true_iff in H as [H A2]. apply andb_true_iff in H as [H A1]. apply andb_true_iff in H as [H Z]. apply andb_true_iff in H as [K W].
    apply negb_true_iff in N. split; [exact K|]. split; [exact W|]. split; [intros p P; rewrite P in Z; lia|]. split; [lia|]. split; [lia|].
    destruct got as [[e v]|]; [|exact Logic.I]. apply andb_true_iff in G as [G1 G2]. split; [lia|exact G2].
  - intros H. apply andb_true_iff in H as [H A]. split; [exact H|lia].
  - intros _. exact Logic.I.
  - intros H. apply andb_true_iff in H as [H F]. split; [exact H|]. rewrite forallb_forall in F. intros x I m M. specialize (F x I). rewrite M in F. lia.
Qed.
(** a history with its results and the subscriptions at its end *)
Fixpoint go (E : env) (S : sys) (V : list seat) (l : list op) : outcome unit (sys * list seat * list (Z * list call)) :=
  match l with
  | [] => Ok (S, V, [])
  | o :: l =>
    if fairb E S o then
      do (S, r) <- step E S o ; do (x, rs) <- go E S (after V o (fst r)) l ; Ok (x, r :: rs)
    else Err tt
  end.
Lemma go_reach E S0 : forall l S V S' V' rs, reach E S0 S V -> go E S V l = Ok (S', V', rs) -> reach E S0 S' V'.
Proof.
  induction l as [|o l IH]; cbn [go]; intros S V S' V' rs R Q; [now injection Q as <- <- _|]. destruct (fairb E S o) eqn:F; [|discriminate Q]. apply fairb_ok in F.
  destruct (step E S o) as [[S1 [rc cs]]|[]|] eqn:ST; cbn [obind] in Q; try discriminate Q. destruct (go E S1 (after V o (fst (rc, cs))) l) as [[[S2 V2] r2]|[]|] eqn:G; cbn [obind] in Q; try discriminate Q.
  injection Q as -> -> _. eapply IH; [|exact G]. eapply reach_step; eassumption.
Qed.
Definition sys_of (x : outcome unit (sys * list seat * list (Z * list call))) : sys := match x with Ok (s, _, _) => s | _ => zero end.
Definition seats_of (x : outcome unit (sys * list seat * list (Z * list call))) : list seat := match x with Ok (_, V, _) => V | _ => [] end.
Definition outs_of (x : outcome unit (sys * list seat * list (Z * list call))) : list (Z * list call) := match x with Ok (_, _, r) => r | _ => [] end.
Definition brief (x : Z * list call) : Z * list (list Z * Z * Z * Z) := (fst x, map (fun c => (c_who c, c_comp c, c_handler c, ev_type (c_event c))) (snd x)).
Definition A := bs "_A".
Definition B := bs "_B".
Definition none : SubsModel.key -> bool := fun _ => false.
Lemma world_sound : sound_start world comps.
Proof.
  split; [|vm_compute; reflexivity]. intros who. unfold comps. destruct (bytes_eqb who (bs "_A")); [|destruct (bytes_eqb who (bs "_B"))].
  - constructor; [intros [X|[]]; discriminate X|]. constructor; [intros []|constructor].
  - constructor; [intros []|constructor].
  - constructor.
Qed.
(** subscriptions of two processes for the same event, one with an initial value, one twice, one of another
    component, one with an interval and one with a filter; one is withdrawn, one process ends *)
Definition story : list op :=
  [Sub A 1 (ask_for "Dev.Ev") 7 false None; Sub B 1 (ask_for "Dev.Ev") 8 false None; Sub A 1 (ask_for "Dev.Ev") 9 false None; Sub A 2 (ask_for "Dev.Ev") 10 false None;
   Sub A 1 (ask_for "Dev.Level") 11 true (Some (0, VInt32 5)); Sub B 1 (above "Dev.Level" 3) 12 true None; Sub B 1 (ask_for "Dev.No") 12 false None;
   Publish 5 (news_of "Dev.Ev" 1) none; Publish 5 (news_of "Dev.Ev" 2) (fun k => bytes_eqb (SubsModel.k_listener k) B); Publish 4 (news_of "Dev.Level" 3) none;
   Unsub A 1 (ask_for "Dev.Ev"); Unsub A 1 (ask_for "Dev.Ev"); Publish 5 (news_of "Dev.Ev" 4) none; Gone B; Publish 5 (news_of "Dev.Ev" 5) none; Publish 0 (news_of "Dev" 1) none].
Definition told_story : list (Z * list (list Z * Z * Z * Z)) :=
  [(0, []); (0, []); (E_SUBSCRIPTION_ALREADY_EXIST, []); (0, []);
   (0, [(A, 1, 11, 4)]); (0, []); (E_ELEMENT_DOES_NOT_EXIST, []);
   (0, [(A, 1, 7, 3); (B, 1, 8, 3); (A, 2, 10, 3)]); (0, [(A, 1, 7, 3); (A, 2, 10, 3)]); (0, [(A, 1, 11, 3); (B, 1, 12, 3)]);
   (0, []); (E_INVALID_OPERATION, []); (0, [(B, 1, 8, 3); (A, 2, 10, 3)]); (0, []); (0, [(A, 2, 10, 3)]); (E_NOSUBSCRIBERS, [])].
Example C90_witness : sound_start world comps /\ (exists S V, reach world zero S V /\ length V = 2%nat /\ fair world S (Publish 5 (news_of "Dev.Ev" 6) none) /\
    existsb (wants (SubsModel.init SubsProps.tree []) (look world) 5) V = true /\ fair world S (Unsub A 2 (ask_for "Dev.Ev"))) /\
  map brief (outs_of (go world zero [] story)) = told_story.
Proof.
  split; [apply world_sound|]. split.
  - exists (sys_of (go world zero [] story)), (seats_of (go world zero [] story)). split.
    + apply (go_reach world zero story zero [] _ _ (outs_of (go world zero [] story))); [apply reach_start|]. destruct (go world zero [] story) as [[[S V] rs]|[]|] eqn:G; [reflexivity|exfalso; revert G; vm_compute; discriminate..].
    + split; [vm_compute; reflexivity|]. split; [apply fairb_ok; vm_compute; reflexivity|]. split; [vm_compute; reflexivity|apply fairb_ok; vm_compute; reflexivity].
  - vm_compute. reflexivity.
Qed.
Example C91_witness : exists S', fair world zero (Sub A 1 (ask_for "Dev.Level") 11 true (Some (0, VInt32 5))) /\
  step world zero (Sub A 1 (ask_for "Dev.Level") 11 true (Some (0, VInt32 5))) =
  Ok (S', (E_SUCCESS, [mkCall A 1 11 (mkEvent (Some (bs "Dev.Level")) 4 (Obj (Some []) 0 (PCons (Some (bs "initialValue")) (VInt32 5) PNil) ONull ONull))])).
Proof.
  destruct (step world zero (Sub A 1 (ask_for "Dev.Level") 11 true (Some (0, VInt32 5)))) as [[S' r]|[]|] eqn:Q; [|exfalso; revert Q; vm_compute; discriminate..].
  exists S'. split; [apply fairb_ok; vm_compute; reflexivity|].
  assert (R : match step world zero (Sub A 1 (ask_for "Dev.Level") 11 true (Some (0, VInt32 5))) with Ok (_, r) => r | _ => (1, []) end = (E_SUCCESS, [mkCall A 1 11 (mkEvent (Some (bs "Dev.Level")) 4 (Obj (Some []) 0 (PCons (Some (bs "initialValue")) (VInt32 5) PNil) ONull ONull))])) by (vm_compute; reflexivity).
  rewrite Q in R. now rewrite R.
Qed.

(** ** where this fails *)
(** Publishing reports success although no message reached a subscriber. *)
Theorem C90_lost_refuted : forall E shapes comps S V n ev, sound_start E comps -> reach E (start shapes comps) S V -> fair E S (Publish n ev (fun _ => true)) ->
  existsb (wants (SubsModel.init shapes []) (look E) n) V = true -> exists S', step E S (Publish n ev (fun _ => true)) = Ok (S', (E_SUCCESS, [])).
Proof.
  intros E shapes comps S V n ev SS R F X. destruct (C90_publish_partial E shapes comps S V n ev (fun _ => true) SS R F) as (S' & rc & Q & RC & _). exists S'.
  rewrite (RC X) in Q. rewrite Q. do 3 f_equal. rewrite (filter_ext _ (fun _ => false)) by (intros v; apply andb_false_r). clear. induction V; auto.
Qed.
Print Assumptions C90_lost_refuted.
Definition after_all (E : env) (l : list op) : outcome unit (Z * list call) :=
  match List.rev l with
  | o :: l => (fix run (S : sys) (l : list op) := match l with [] => do (_, r) <- step E S o ; Ok r | p :: l => do (S, _) <- step E S p ; run S l end) zero (List.rev l)
  | [] => Err tt
  end.
(** A process that ends keeps a subscription with an interval at the provider: publishing succeeds with nobody subscribed. *)
Theorem C90_nobody_refuted : after_all world [Sub A 1 (every "Dev.Ev" 5) 7 false None; Gone A; Publish 5 (news_of "Dev.Ev" 1) none] = Ok (E_SUCCESS, []).
Proof. vm_compute. reflexivity. Qed.
Print Assumptions C90_nobody_refuted.
Definition stubborn : env := mkEnv (fun n => if Nat.eqb n 1 then (1, None) else (0, None)) at_name (bs "Dev.Ev").
(** When the provider's handler refuses an unsubscribe, the subscriber is told that it succeeded; subscribing
    again succeeds as well, and the next event is compared with fields that were never set. *)
Theorem C90_refused_refuted :
  after_all stubborn [Sub A 1 (ask_for "Dev.Ev") 7 false None; Unsub A 1 (ask_for "Dev.Ev")] = Ok (E_SUCCESS, []) /\
  after_all stubborn [Sub A 1 (ask_for "Dev.Ev") 7 false None; Unsub A 1 (ask_for "Dev.Ev"); Sub A 1 (ask_for "Dev.Ev") 7 false None] = Ok (E_SUCCESS, []) /\
  after_all stubborn [Sub A 1 (ask_for "Dev.Ev") 7 false None; Unsub A 1 (ask_for "Dev.Ev"); Sub A 1 (ask_for "Dev.Ev") 7 false None; Publish 5 (news_of "Dev.Ev" 1) none] = UB.
Proof. split; [vm_compute; reflexivity|]. split; vm_compute; reflexivity. Qed.
Print Assumptions C90_refused_refuted.
(** When the get handler fails, the answer has no flag for the initial value: the subscriber takes the number of the
    subscription for it and reads an event that is not there. *)
Theorem C91_error_refuted : forall err v, err <> E_SUCCESS -> step world zero (Sub A 1 (ask_for "Dev.Level") 11 true (Some (err, v))) = UB.
Proof.
  intros err v N. cbn [step]. unfold subscribe_call. replace (handle_of 1 (procs zero A)) with (Some ConsumeModel.init) by reflexivity.
  replace (begin_sub ConsumeModel.init (ask_for "Dev.Level") false) with (Ok (E := unit) (Some ConsumeModel.init)) by reflexivity. cbn [obind].
  destruct (request_of (ask_for "Dev.Level") A 1 true) as [q|[]|] eqn:Q; [|exfalso; revert Q; vm_compute; discriminate..]. cbn [obind]. unfold subscribe_handler.
  assert (RR : read_request (msg_from_bytes (m_data q)) = Ok (SubsModel.mkKey A 1 (bs "Dev.Level") FNull 0 0 false, true)).
  { assert (X : match request_of (ask_for "Dev.Level") A 1 true with Ok q => read_request (msg_from_bytes (m_data q)) | _ => UB end = Ok (SubsModel.mkKey A 1 (bs "Dev.Level") FNull 0 0 false, true)) by (vm_compute; reflexivity). now rewrite Q in X. }
  rewrite RR. cbn [obind SubsModel.k_event].
  destruct (SubsModel.request (handlers world) (prov zero) true (look world (bs "Dev.Level")) (SubsModel.mkKey A 1 (bs "Dev.Level") FNull 0 0 false)) as [[p rc]|[]|] eqn:RQ; [|exfalso; revert RQ; vm_compute; discriminate..].
  assert (RC : rc = 0 /\ new_id p = 3).
  { assert (X : match SubsModel.request (handlers world) (prov zero) true (look world (bs "Dev.Level")) (SubsModel.mkKey A 1 (bs "Dev.Level") FNull 0 0 false) with Ok (p, rc) => (rc, new_id p) | _ => (1, 0) end = (0, 3)) by (vm_compute; reflexivity).
    rewrite RQ in X. now injection X. }
  cbn [obind]. destruct RC as [-> ->]. unfold response. cbn [andb]. change (0 =? E_SUCCESS) with true. cbv iota. replace (err =? E_SUCCESS) with false by (symmetry; now apply Z.eqb_neq). cbn [obind]. vm_compute. reflexivity.
Qed.
Print Assumptions C91_error_refuted.
