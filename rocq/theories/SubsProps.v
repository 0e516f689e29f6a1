(** Subscriptions (C31-C33, C35-C37, C56, C57). *)
From Coq Require Import String QArith.
From Verif Require Import Common CommonFacts Value CompareModel CompareSpec CompareProofs TokenModel SubsModel Errors SubsSpec SubsTree SubsProofs SubsFacts.
From Coq Require Import List Permutation Lia ZifyBool.
Import ListNotations.
Local Open Scope string_scope.
Local Open Scope list_scope.
Local Open Scope Z_scope.

(** ** a provider used in the examples: an object with a table, a property, an event and a
    property that has no get handler *)
Definition info (s : string) (t : Z) (h g : bool) := mkInfo (mkNode (bs s) None t) h g.
Definition PP := Sh (info "P" PROPERTY false true) [].
Definition tree := [Sh (info "Dev" 0 false false)
  [Sh (info "T" TABLE false false) [Sh (info "{i}" 0 false false) [PP]]; Sh (info "Level" PROPERTY true true) []; Sh (info "Ev" EVENT true false) [];
   Sh (info "Bare" PROPERTY true false) []]].
Definition row (s : string) := Sh (info s 0 false false) [PP].
Definition key0 (l e : string) := mkKey (bs l) 1 (bs e) FNull 0 0 false.
Definition above (l e : string) (n : Z) := mkKey (bs l) 1 (bs e) (FRel OP_GREATER_THAN (VInt32 n)) 0 0 false.
Definition yes : answers := fun _ => (0, None).
Definition nowhere (s : list Z) : option nat := None.
Definition fairb (s : state) (o : op) : bool :=
  match o with
  | Subscribe _ k | Unsubscribe _ k => plain_filter (k_filter k)
  | AddRow _ t r => sound_row r && existsb (fun q => Nat.eqb (fst q) t && match snd q with n :: _ => negb (bytes_eqb (nname n) TEMPLATE) | [] => false end) (all_nodes s)
  | RemoveRow r => match find_top r (tops s) with Some (_, t) => untyped (el_info t) | None => true end
  | Registered _ _ | Disconnect _ _ => true
  end.
Lemma fairb_ok s o : fairb s o = true -> fair s o.
Proof.
  destruct o as [e k|e k|look t r|r|n e|f l]; cbn; auto.
  - rewrite andb_true_iff, existsb_exists. intros [A ([m p] & I & E)]. cbn in E. apply andb_prop in E as [E1 E2]. apply Nat.eqb_eq in E1. subst m. split; [exact A|].
    exists p. split; [exact I|]. destruct p; [discriminate E2|]. now apply negb_true_iff in E2.
  - intros E up t F. now rewrite F in E.
Qed.
Fixpoint fair_run (ans : answers) (s : state) (l : list op) : bool :=
  match l with [] => true | o :: l => fairb s o && match step ans s o with Ok (s, _) => fair_run ans s l | _ => false end end.
Lemma run_reach ans s0 : forall l s s' rs, reach ans s0 s -> fair_run ans s l = true -> run ans s l = Ok (s', rs) -> reach ans s0 s'.
Proof.
  induction l as [|o l IH]; cbn; intros s s' rs H F Q; [now injection Q as <- _|]. apply andb_prop in F as [F1 F2].
  destruct (step ans s o) as [[s1 r]|[]|] eqn:E; cbn in Q; try discriminate Q. destruct (run ans s1 l) as [[s2 q]|[]|] eqn:Q1; cbn in Q; try discriminate Q.
  injection Q as <- _. eapply IH; [|exact F2|exact Q1]. eapply reach_step; [exact H| |exact E]. now apply fairb_ok.
Qed.
Definition state_of (r : outcome unit (state * list Z)) : state := match r with Ok (s, _) => s | _ => init [] [] end.
Definition results_of (r : outcome unit (state * list Z)) : list Z := match r with Ok (_, l) => l | _ => [] end.
Lemma empty_cache : good_cache [].
Proof. split; [exact I|]. intros k a i []. Qed.

(** ** C31 *)
Definition kind_of (s : state) (e : option nat) : option Z :=
  match e with Some n => match find_top n (tops s) with Some (_, t) => Some (ntype (el_node t)) | None => None end | None => None end.
(** the request names an element that takes it, and the provider's handler, if any, agrees *)
Definition ready (ans : answers) (s : state) (added : bool) (e : option nat) (k : key) : Prop :=
  exists n up t, e = Some n /\ find_top n (tops s) = Some (up, t) /\
  (ntype (el_node t) = TABLE -> ends_dot (k_event k) = true) /\ (i_handler (el_info t) = true -> fst (ans (length (log s))) = 0) /\ k_raw k = false /\
  (added = true -> (k_interval k = 0 \/ ends_dot (k_event k) = false) /\ create (k_event k) (el_node t :: up) <> Err tt).
Theorem C31_registry_partial : forall ans shapes cache s, good_cache cache -> reach ans (init shapes cache) s ->
  distinct (keys s) /\
  (forall e k s' r, plain_filter (k_filter k) = true -> step ans s (Subscribe e k) = Ok (s', r) ->
     (r = E_SUCCESS -> holds (keys s) k = false /\ keys s' = keys s ++ [k]) /\
     (r <> E_SUCCESS -> k_raw k = false \/ kind_of s e = Some EVENT -> keys s' = keys s) /\
     (ready ans s true e k -> holds (keys s) k = false -> r = E_SUCCESS)) /\
  (forall e k s' r, plain_filter (k_filter k) = true -> step ans s (Unsubscribe e k) = Ok (s', r) ->
     (r = E_SUCCESS -> holds (keys s) k = true /\ keys s' = without (keys s) k) /\
     (r <> E_SUCCESS -> keys s' = keys s) /\
     (ready ans s false e k -> holds (keys s) k = true -> r = E_SUCCESS)).
Proof.
  intros ans shapes cache s G HR. pose proof (reach_W _ _ _ _ G HR) as H. split; [apply (w_k s H)|]. split.
  - intros e k s' r P Q. cbn [step] in Q. destruct (request_cases _ _ _ _ _ _ _ Q) as [(-> & NS & WHY)|(n & -> & HA)].
    + split; [congruence|]. split; [reflexivity|]. intros (n & up & t & -> & F & TB & _) HN. exfalso.
      destruct WHY as [WHY|(n1 & u1 & t1 & E & F1 & T1 & D1)]; [discriminate WHY|]. injection E as <-. rewrite F in F1. injection F1 as <- <-. rewrite TB in D1; [discriminate D1|exact T1].
    + clear Q. apply handle_add in HA as (up & t & s1 & early & F & C & L & CS). cbn [kind_of]. rewrite F.
      destruct CS as [(-> & CE & NS & WHY)|(-> & x & AD & RS)].
      * split; [congruence|]. split; [intros _ _; unfold keys; now destruct CE as (_ & _ & -> & _)|].
        intros (n1 & u1 & t1 & E & F1 & TB & HN & RW & AD) NH. injection E as <-. rewrite F in F1. injection F1 as <- <-. exfalso.
        destruct (AD eq_refl) as [A1 A2]. destruct WHY as [WHY|[[W1 W2]|[WHY|WHY]]].
        -- destruct C as (_ & _ & _ & C). destruct (i_handler (el_info t)); [|destruct C; congruence]. destruct C as (err & -> & _ & _ & C). destruct (C WHY); [|congruence]. now rewrite HN in H0.
        -- destruct A1; congruence.
        -- apply held_some in WHY; [congruence|exact H|exact P].
        -- contradiction.
      * pose proof AD as (GS & _ & _ & K & _ & _ & _ & _ & X & _). apply held_none in GS; [|exact H|exact P].
        split; [|split].
        -- intros _. split; [exact GS|]. unfold keys. rewrite X, map_app. cbn. now rewrite K.
        -- intros NS [KR|KE]; destruct RS as [[-> _]|(_ & R1 & R2)]; try congruence.
        -- intros (n1 & u1 & t1 & E & F1 & TB & HN & RW & _) _. destruct RS as [[-> _]|(_ & R1 & R2)]; [reflexivity|congruence].
  - intros e k s' r P Q. cbn [step] in Q. destruct (request_cases _ _ _ _ _ _ _ Q) as [(-> & NS & WHY)|(n & -> & HA)].
    + split; [congruence|]. split; [reflexivity|]. intros (n & up & t & -> & F & TB & _) HN. exfalso.
      destruct WHY as [WHY|(n1 & u1 & t1 & E & F1 & T1 & D1)]; [discriminate WHY|]. injection E as <-. rewrite F in F1. injection F1 as <- <-. rewrite TB in D1; [discriminate D1|exact T1].
    + clear Q. apply handle_del in HA as (up & t & s1 & early & F & C & L & CS).
      destruct CS as [(-> & CE & NS & WHY)|(-> & -> & x & RM)].
      * split; [congruence|]. split; [intros _; unfold keys; now destruct CE as (_ & _ & -> & _)|].
        intros (n1 & u1 & t1 & E & F1 & TB & HN & RW & _) NH. injection E as <-. rewrite F in F1. injection F1 as <- <-. exfalso.
        destruct WHY as [WHY|[WHY|[WHY _]]]; [| |congruence].
        -- destruct C as (_ & _ & _ & C). destruct (i_handler (el_info t)); [|destruct C; congruence]. destruct C as (err & -> & _ & _ & C). destruct (C WHY); [|congruence]. now rewrite HN in H0.
        -- apply held_none in WHY; [congruence|exact H|exact P].
      * pose proof (removed_keys s k x s' H P RM) as [R1 R2]. split; [auto|]. split; [congruence|reflexivity].
Qed.
Print Assumptions C31_registry_partial.
(** the provider with subscribers: one of a property, one of an event, one of every row, one of
    the second row, one with a filter *)
Definition wild := key0 "c1" "Dev.T.*.P".
Definition script := [AddRow nowhere 1 (row "1"); Subscribe (Some 4%nat) (key0 "c1" "Dev.Level"); Subscribe (Some 5%nat) (key0 "c2" "Dev.Ev"); Subscribe (Some 3%nat) wild;
  AddRow nowhere 1 (row "2"); Subscribe (Some 10%nat) (key0 "c2" "Dev.T.2.P"); Subscribe (Some 4%nat) (above "c2" "Dev.Level" 5)].
Definition busy : state := state_of (run yes (init tree []) script).
Lemma busy_reach : reach yes (init tree []) busy.
Proof. eapply (run_reach yes (init tree []) script); [apply reach_init|vm_compute; reflexivity|vm_compute; reflexivity]. Qed.
Example C31_witness : good_cache [] /\ reach yes (init tree []) busy /\
  results_of (run yes (init tree []) script) = [0; 0; 0; 0; 0; 0; 0] /\ length (keys busy) = 5%nat /\
  ready yes busy true (Some 4%nat) (key0 "c3" "Dev.Level") /\ holds (keys busy) (key0 "c3" "Dev.Level") = false /\
  ready yes busy false (Some 3%nat) wild /\ holds (keys busy) wild = true /\
  (exists s', step yes busy (Subscribe (Some 4%nat) (key0 "c1" "Dev.Level")) = Ok (s', E_SUBSCRIPTION_ALREADY_EXIST)) /\
  (exists s', step yes busy (Unsubscribe (Some 3%nat) wild) = Ok (s', E_SUCCESS) /\ length (keys s') = 4%nat).
Proof.
  split; [apply empty_cache|]. split; [apply busy_reach|]. split; [vm_compute; reflexivity|]. split; [vm_compute; reflexivity|].
  split; [eexists 4%nat, _, _; split; [reflexivity|]; split; [vm_compute; reflexivity|]; repeat split; vm_compute; auto; discriminate|]. split; [vm_compute; reflexivity|].
  split; [eexists 3%nat, _, _; split; [reflexivity|]; split; [vm_compute; reflexivity|]; repeat split; vm_compute; auto; discriminate|]. split; [vm_compute; reflexivity|].
  split; [eexists; vm_compute; reflexivity|]. eexists. split; vm_compute; reflexivity.
Qed.
(** a filter with a NaN: the same subscription is accepted again and again, and cannot be ended *)
Definition nan := mkKey (bs "c1") 1 (bs "Dev.Ev") (FRel OP_GREATER_THAN (VDouble 9221120237041090560)) 0 0 false.
(** A subscription whose filter compares with a NaN is accepted again and again, and cannot be ended. *)
Theorem C31_nan_refuted : exists s, run yes (init tree []) [Subscribe (Some 5%nat) nan; Subscribe (Some 5%nat) nan; Unsubscribe (Some 5%nat) nan] =
    Ok (s, [E_SUCCESS; E_SUCCESS; E_INVALID_INPUT]) /\ keys s = [nan; nan].
Proof. eexists. split; vm_compute; reflexivity. Qed.
Print Assumptions C31_nan_refuted.

(** ** C32 *)
Theorem C32_others : forall ans shapes cache s found listener s' r, good_cache cache -> reach ans (init shapes cache) s ->
  step ans s (Disconnect found listener) = Ok (s', r) ->
  List.filter (fun x => negb (bytes_eqb (k_listener (s_key x)) listener)) (subs s') = List.filter (fun x => negb (bytes_eqb (k_listener (s_key x)) listener)) (subs s).
Proof.
  intros ans shapes cache s found l s' r G HR Q. cbn [step] in Q. destruct (disconnect ans found s l) as [s1|[]|] eqn:D; cbn in Q; try discriminate Q. injection Q as <- _.
  unfold disconnect in D. apply disconnect_others in D; [exact D|]. eapply reach_W; eassumption.
Qed.
Print Assumptions C32_others.
Theorem C32_gone_partial : forall ans shapes cache s found listener, good_cache cache -> reach ans (init shapes cache) s ->
  (forall n, fst (ans n) = 0) ->
  (forall x, In x (subs s) -> k_listener (s_key x) = listener ->
     s_key x = mkKey listener (k_comp (s_key x)) (k_event (s_key x)) FNull 0 0 false /\ found (k_event (s_key x)) = true /\ exists e, s_el x = Some e /\ alive e s = true) ->
  exists s', step ans s (Disconnect found listener) = Ok (s', 0) /\
  subs s' = List.filter (fun x => negb (bytes_eqb (k_listener (s_key x)) listener)) (subs s).
Proof.
  intros ans shapes cache s found l G HR AC A. cbn [step]. unfold disconnect.
  destruct (disconnect_gone ans found l AC (subs s) [] s) as (s' & E1 & E2); [eapply reach_W; eassumption|reflexivity| |].
  - intros x I O. unfold of_listener in O. apply bytes_eqb_eq in O. destruct (A x I O) as (B1 & B2 & B3). split; [|split; assumption].
    rewrite B1. repeat split.
  - exists s'. rewrite E1. split; [reflexivity|exact E2].
Qed.
Print Assumptions C32_gone_partial.
Lemma key_eta k l : match k_filter k with FNull => true | _ => false end = true -> k_interval k = 0 -> k_duration k = 0 -> k_raw k = false -> k_listener k = l ->
  k = mkKey l (k_comp k) (k_event k) FNull 0 0 false.
Proof. destruct k as [kl kc ke kf ki kd kr]. cbn. intros F -> -> -> ->. now destruct kf. Qed.
Example C32_witness : exists s', step yes busy (Disconnect (fun _ => true) (bs "c1")) = Ok (s', 0) /\ length (subs busy) = 5%nat /\
  map (fun x => k_listener (s_key x)) (subs s') = [bs "c2"; bs "c2"; bs "c2"] /\
  forall x, In x (subs busy) -> k_listener (s_key x) = bs "c1" ->
    s_key x = mkKey (bs "c1") (k_comp (s_key x)) (k_event (s_key x)) FNull 0 0 false /\ exists e, s_el x = Some e /\ alive e busy = true.
Proof.
  eexists. split; [vm_compute; reflexivity|]. split; [vm_compute; reflexivity|]. split; [vm_compute; reflexivity|].
  assert (forallb (fun x => negb (bytes_eqb (k_listener (s_key x)) (bs "c1")) ||
    (match k_filter (s_key x) with FNull => true | _ => false end && (k_interval (s_key x) =? 0) && (k_duration (s_key x) =? 0) && negb (k_raw (s_key x)) &&
     match s_el x with Some e => alive e busy | None => false end)) (subs busy) = true) as K by (vm_compute; reflexivity).
  intros x I E. rewrite forallb_forall in K. apply K in I. rewrite E, bytes_eqb_refl in I. cbn [negb orb] in I. rewrite !andb_true_iff, !Z.eqb_eq, negb_true_iff in I.
  destruct I as ((((I1 & I2) & I3) & I4) & I5). split; [|destruct (s_el x); [eauto|discriminate I5]]. apply key_eta; assumption.
Qed.
(** the subscriptions that have a filter, an interval or a duration stay *)
Theorem C32_remaining_refuted : exists s, run yes (init tree []) [Subscribe (Some 4%nat) (above "c1" "Dev.Level" 5); Disconnect (fun _ => true) (bs "c1")] = Ok (s, [0; 0]) /\
  keys s = [above "c1" "Dev.Level" 5].
Proof. eexists. split; vm_compute; reflexivity. Qed.
Print Assumptions C32_remaining_refuted.
(** ... and with an unfiltered one behind it, that one is freed and then used *)
Theorem C32_freed_refuted : run yes (init tree []) [Subscribe (Some 4%nat) (above "c1" "Dev.Level" 5); Subscribe (Some 4%nat) (key0 "c1" "Dev.Level"); Disconnect (fun _ => true) (bs "c1")] = UB.
Proof. vm_compute. reflexivity. Qed.
Print Assumptions C32_freed_refuted.

(** ** C33 *)
Lemma busy_refs : sound_refs busy.
Proof.
  assert (forallb (fun x => match s_el x with Some e => alive e busy | None => true end) (subs busy) = true) as K by (vm_compute; reflexivity).
  intros x e I E. rewrite forallb_forall in K. apply K in I. now rewrite E in I.
Qed.
Lemma take_while_ext_in {A} (f g : A -> bool) l : (forall x, In x l -> f x = g x) -> take_while f l = take_while g l.
Proof. induction l as [|x l IH]; cbn; intros H; [reflexivity|]. rewrite <- H by now left. destruct (f x); [f_equal; apply IH; auto|reflexivity]. Qed.
(** deleting a row ends the first subscription that has an element of the row among its elements,
    and all the later ones *)
Theorem C33_row_partial : forall ans shapes cache s r up t s' e, good_cache cache -> reach ans (init shapes cache) s -> sound_refs s ->
  find_top r (tops s) = Some (up, t) -> untyped (el_info t) = true -> step ans s (RemoveRow r) = Ok (s', e) ->
  subs s' = take_while (fun x => negb (existsb (aims s x) (nos t))) (subs s).
Proof.
  intros ans shapes cache s r up t s' e G HR SR F U Q. cbn [step] in Q. destruct (remove_row s r) as [s1|[]|] eqn:D; cbn in Q; try discriminate Q. injection Q as <- _.
  pose proof (reach_W _ _ _ _ G HR) as H. pose proof (reach_R _ _ _ _ G HR) as H1.
  pose proof (remove_row_ok s r s1 up t H) as K. destruct K as (_ & K & _); [intros u1 t1 F1; rewrite F in F1; now injection F1 as <- <-|exact F|exact D|]. rewrite K.
  apply take_while_ext_in. intros x I. unfold avoids. 
  assert (forall l, forallb (fun n => negb (targets x n)) l = negb (existsb (targets x) l)) as FE.
  { induction l as [|n l IH]; [reflexivity|]. cbn. rewrite IH. now rewrite negb_orb. }
  rewrite FE. f_equal. apply eq_true_iff_eq. rewrite !existsb_exists.
  pose proof (drop_top_ok r (tops s) up t (w_nos s H) F) as (_ & _ & D3).
  assert (exists no i, t = El no i (el_kids t) /\ el_info t = i) as (no & i & ET & EI) by (destruct t as [no i ks]; eexists _, _; split; reflexivity).
  split; intros (n & I1 & T).
  - exists n. split; [|rewrite <- targets_aims; assumption]. apply in_map_iff in I1 as ([n1 p] & E & I1). cbn in E. subst n1.
    apply (visited_all_nos _ _ (n, p)) in I1. rewrite ET. cbn. now right.
  - rewrite <- targets_aims in T by assumption. exists n. split; [|exact T]. apply targets_in in T.
    pose proof (i_nodes _ _ _ _ (w_l s H) x I) as (_ & NK). destruct (s_chain x) as [c|]; [|rewrite NK in T; destruct T]. destruct NK as (_ & _ & Q).
    apply (proj1 (Q n)) in T. destruct T as (p & P & _). apply in_map_iff. exists (n, p). split; [reflexivity|]. apply row_visited; [exact U|]. apply D3; [exact P|exact I1].
Qed.
Print Assumptions C33_row_partial.
Theorem C33_untouched_partial : forall ans shapes cache s r up t s' e, good_cache cache -> reach ans (init shapes cache) s -> sound_refs s ->
  find_top r (tops s) = Some (up, t) -> untyped (el_info t) = true -> step ans s (RemoveRow r) = Ok (s', e) ->
  (forall x n, In x (subs s) -> In n (nos t) -> aims s x n = false) -> subs s' = subs s.
Proof.
  intros ans shapes cache s r up t s' e G HR SR F U Q A. rewrite (C33_row_partial ans shapes cache s r up t s' e G HR SR F U Q).
  clear -A. induction (subs s) as [|x l IH]; [reflexivity|]. cbn. assert (existsb (aims s x) (nos t) = false) as ->.
  { destruct (existsb (aims s x) (nos t)) eqn:E; [|reflexivity]. apply existsb_exists in E as (n & I & E). rewrite A in E; [discriminate E|now left|exact I]. }
  cbn. f_equal. apply IH. intros y n I. apply A. now right.
Qed.
Print Assumptions C33_untouched_partial.
Example C33_witness : sound_refs busy /\ (exists up t, find_top 9 (tops busy) = Some (up, t) /\ untyped (el_info t) = true) /\
  exists s', step yes busy (RemoveRow 9) = Ok (s', 0) /\ keys s' = [key0 "c1" "Dev.Level"; key0 "c2" "Dev.Ev"].
Proof.
  split; [apply busy_refs|].
  split; [eexists _, _; split; vm_compute; reflexivity|]. eexists. split; vm_compute; reflexivity.
Qed.
(** a subscription to every row ends with the first row that goes *)
Theorem C33_wildcard_refuted : exists s, run yes (init tree []) [AddRow nowhere 1 (row "1"); AddRow nowhere 1 (row "2"); Subscribe (Some 3%nat) wild; RemoveRow 7] = Ok (s, [0; 0; 0; 0]) /\
  keys s = [] /\ alive 10 s = true.
Proof. eexists. split; [vm_compute; reflexivity|]. split; vm_compute; reflexivity. Qed.
Print Assumptions C33_wildcard_refuted.
(** so do the subscriptions made later to anything else *)
Theorem C33_unrelated_refuted : exists s, run yes (init tree []) [AddRow nowhere 1 (row "1"); Subscribe (Some 8%nat) (key0 "c1" "Dev.T.1.P"); Subscribe (Some 5%nat) (key0 "c2" "Dev.Ev"); RemoveRow 7] = Ok (s, [0; 0; 0; 0]) /\
  keys s = [].
Proof. eexists. split; vm_compute; reflexivity. Qed.
Print Assumptions C33_unrelated_refuted.
(** a subscription to the rows of a table inside a row outlives that table; the next row added
    anywhere compares it with freed memory *)
Definition nested := [Sh (info "Dev" 0 false false) [Sh (info "T" TABLE false false) [Sh (info "{i}" 0 false false) [Sh (info "U" TABLE false false) [Sh (info "{i}" 0 false false) [PP]]]]]].
Definition row_u (s : string) := Sh (info s 0 false false) [Sh (info "U" TABLE false false) [Sh (info "{i}" 0 false false) [PP]]].
(** A subscription to the rows of a table inside a row outlives that table; the next row added anywhere compares it with freed memory. *)
Theorem C33_freed_refuted : run yes (init nested []) [AddRow nowhere 1 (row_u "1"); Subscribe (Some 9%nat) (key0 "c1" "Dev.T.1.U.*.P"); RemoveRow 6; AddRow nowhere 1 (row_u "2")] = UB.
Proof. vm_compute. reflexivity. Qed.
Print Assumptions C33_freed_refuted.

(** ** C35 *)
Theorem C35_publish_partial : forall ans shapes cache s sent n ev, good_cache cache -> reach ans (init shapes cache) s -> sound_refs s -> ev_change ev = false ->
  let to := List.filter (fun x => aims s x n && negb (k_raw (s_key x))) (subs s) in
  publish s sent (Some n) ev =
  Ok (if existsb (fun x => aims s x n) (subs s)
      then (map (fun x => mkMsg (s_key x) (s_id x) (ev_name ev) (ev_data ev)) to, result_of sent (length to))
      else ([], E_NOSUBSCRIBERS)).
Proof.
  intros ans shapes cache s sent n ev G HR SR EC to. rewrite (publish_plain s sent n ev); [|eapply reach_W; eassumption|eapply reach_R; eassumption|exact SR|exact EC].
  fold to. destruct (existsb _ (subs s)); reflexivity.
Qed.
Print Assumptions C35_publish_partial.
Theorem C35_raw_partial : forall ans shapes cache s sent n name data, good_cache cache -> reach ans (init shapes cache) s -> sound_refs s ->
  let to := List.filter (fun x => aims s x n && k_raw (s_key x)) (subs s) in
  publish_raw s sent (Some n) name data =
  Ok (if existsb (fun x => aims s x n) (subs s)
      then (map (fun x => (s_key x, s_id x, data)) to, Some (bs "rawdata." ++ name), sent (length to))
      else ([], None, E_NOSUBSCRIBERS)).
Proof.
  intros ans shapes cache s sent n name data G HR SR to. rewrite (publish_raw_ok s sent n name data); [|eapply reach_W; eassumption|eapply reach_R; eassumption|exact SR].
  fold to. destruct (existsb _ (subs s)); reflexivity.
Qed.
Print Assumptions C35_raw_partial.
Definition sent0 : nat -> Z := fun _ => 0.
Example C35_witness : sound_refs busy /\
  (exists ms, publish busy sent0 (Some 10%nat) (mkEvent (bs "Dev.T.2.P") false [(bs "x", VInt32 1)]) = Ok (ms, E_SUCCESS) /\ map m_to ms = [wild; key0 "c2" "Dev.T.2.P"]) /\
  publish busy sent0 (Some 1%nat) (mkEvent (bs "Dev.T.") false []) = Ok ([], E_NOSUBSCRIBERS).
Proof. split; [apply busy_refs|]. split; [eexists; split; vm_compute; reflexivity|vm_compute; reflexivity]. Qed.
(** raw publishing does not tell whether the subscribers were reached: an error of a direct send
    is overwritten by that of the last one *)
Theorem C35_raw_error_refuted : exists s, run yes (init tree []) [Subscribe (Some 5%nat) (mkKey (bs "c1") 1 (bs "Dev.Ev") FNull 0 0 true)] = Ok (s, [0]) /\
  exists ms, publish_raw s (fun i => match i with O => E_BUS_ERROR | _ => E_SUCCESS end) (Some 5%nat) (bs "Dev.Ev") [1] = Ok (ms, Some (bs "rawdata.Dev.Ev"), E_SUCCESS) /\ length ms = 1%nat.
Proof. eexists. split; [vm_compute; reflexivity|]. eexists. split; vm_compute; reflexivity. Qed.
Print Assumptions C35_raw_error_refuted.

(** ** C36 and C37 *)
(** [h]: whether a value satisfies a filter, for the filters of the subscribers of the element and
    the two values (C16: every filter whose constants can be compared with the values) *)
Theorem C36_crossing_partial : forall h ans shapes cache s sent n ev vn vo, good_cache cache -> reach ans (init shapes cache) s -> sound_refs s -> ev_change ev = true ->
  get_prop (bs "value") (ev_data ev) = Some vn -> get_prop (bs "oldValue") (ev_data ev) = Some vo ->
  (forall x v, In x (subs s) -> aims s x n = true -> k_filter (s_key x) <> FNull -> In v [vn; vo] -> filter_apply (k_filter (s_key x)) v = Ok (h (k_filter (s_key x)) v)) ->
  let to := List.filter (fun x => aims s x n && (fires h vn vo (k_filter (s_key x)) && negb (k_raw (s_key x)))) (subs s) in
  exists ms, publish s sent (Some n) ev = Ok (if existsb (fun x => aims s x n) (subs s) then (ms, result_of sent (length to)) else ([], E_NOSUBSCRIBERS)) /\
  Forall2 (fun x m => m_to m = s_key x /\ m_id m = s_id x /\ m_name m = ev_name ev /\
             (k_filter (s_key x) <> FNull -> get_prop (bs "filter") (m_data m) = Some (VBool (h (k_filter (s_key x)) vn)))) to ms.
Proof.
  intros h ans shapes cache s sent n ev vn vo G HR SR EC VN VO EV to.
  destruct (publish_change h s sent n ev vn vo) as (ms & E & F); try assumption; [eapply reach_W; eassumption|eapply reach_R; eassumption| |].
  - intros x I A. split; intros FN; apply EV; cbn; auto.
  - exists ms. split; [exact E|]. fold to in F. clear -F. induction F as [|x m to ms (M1 & M2 & M3 & M4 & _) F IH]; constructor; auto.
Qed.
Print Assumptions C36_crossing_partial.
Theorem C37_data_partial : forall h ans shapes cache s sent n ev vn vo, good_cache cache -> reach ans (init shapes cache) s -> sound_refs s -> ev_change ev = true ->
  get_prop (bs "value") (ev_data ev) = Some vn -> get_prop (bs "oldValue") (ev_data ev) = Some vo ->
  (forall x v, In x (subs s) -> aims s x n = true -> k_filter (s_key x) <> FNull -> In v [vn; vo] -> filter_apply (k_filter (s_key x)) v = Ok (h (k_filter (s_key x)) v)) ->
  forall ms r m, publish s sent (Some n) ev = Ok (ms, r) -> In m ms ->
  m_name m = ev_name ev /\ (forall p, p <> bs "filter" -> get_prop p (m_data m) = get_prop p (ev_data ev)) /\
  (k_filter (m_to m) <> FNull -> get_prop (bs "filter") (m_data m) = Some (VBool (h (k_filter (m_to m)) vn))).
Proof.
  intros h ans shapes cache s sent n ev vn vo G HR SR EC VN VO EV ms r m Q I.
  destruct (publish_change h s sent n ev vn vo) as (ms' & E & F); try assumption; [eapply reach_W; eassumption|eapply reach_R; eassumption| |].
  - intros x Ix A. split; intros FN; apply EV; cbn; auto.
  - rewrite Q in E. destruct (existsb _ (subs s)); injection E as -> _; [|destruct I].
    destruct (forall2_in _ _ _ m F I) as (x & _ & (M1 & _ & M2 & M3 & M4)). rewrite M1. auto.
Qed.
Print Assumptions C37_data_partial.
(** a property whose values are integers: what a subscriber is told *)
Definition int_truth (f : Value.filter) (v : value) : bool := match integer_of v with Some n => int_filter_holds f n | None => false end.
Theorem C36_alternation_partial : forall ans shapes cache s sent n name x vo vs, good_cache cache -> reach ans (init shapes cache) s -> sound_refs s ->
  In x (subs s) -> aims s x n = true -> k_raw (s_key x) = false -> k_filter (s_key x) <> FNull ->
  (forall y, In y (subs s) -> aims s y n = true -> k_filter (s_key y) <> FNull -> int_filter (k_filter (s_key y)) = true) ->
  (forall v, In v (vo :: vs) -> exists z, integer_of v = Some z /\ Z.abs z <= 2 ^ 53) ->
  exists ms, changes s sent n name vo vs = Ok ms /\
  flat_map (told_by (s_key x)) ms = turns (int_truth (k_filter (s_key x)) vo) (map (int_truth (k_filter (s_key x))) vs) /\
  alternates (int_truth (k_filter (s_key x)) vo) (flat_map (told_by (s_key x)) ms) /\
  last (flat_map (told_by (s_key x)) ms) (int_truth (k_filter (s_key x)) vo) = last (map (int_truth (k_filter (s_key x))) vs) (int_truth (k_filter (s_key x)) vo).
Proof.
  intros ans shapes cache s sent n name x vo vs G HR SR I A KR FN IF IV.
  destruct (change_told int_truth s sent n name x) with (vs := vs) (vo := vo) as (ms & E & T); try assumption; [eapply reach_W; eassumption|eapply reach_R; eassumption| |].
  - intros v Iv y Iy Ay FNy. destruct (IV v Iv) as (z & Z1 & Z2). unfold int_truth. rewrite Z1. apply filter_apply_int; auto.
  - exists ms. split; [exact E|]. split; [exact T|]. rewrite T. split; [apply turns_alternate|apply turns_last].
Qed.
Print Assumptions C36_alternation_partial.
Example C36_witness : (exists x, In x (subs busy) /\ s_key x = above "c2" "Dev.Level" 5 /\ aims busy x 4 = true) /\
  (forall y, In y (subs busy) -> k_filter (s_key y) <> FNull -> int_filter (k_filter (s_key y)) = true) /\
  exists ms, changes busy sent0 4 (bs "Dev.Level") (VInt32 3) [VInt32 4; VInt32 7; VInt32 9; VInt32 5; VInt32 6] = Ok ms /\
  flat_map (told_by (above "c2" "Dev.Level" 5)) ms = [true; false; true] /\ length ms = 8%nat.
Proof.
  split; [eexists (nth 4 (subs busy) (mkSub 0 wild false None None [] 0)); split; [|split]; [|vm_compute; reflexivity..]|].
  { apply nth_In. vm_compute. repeat constructor. }
  split.
  - assert (forallb (fun y => match k_filter (s_key y) with FNull => true | f => int_filter f end) (subs busy) = true) as K by (vm_compute; reflexivity).
    intros y I FN. rewrite forallb_forall in K. apply K in I. destruct (k_filter (s_key y)); [congruence|exact I..].
  - eexists. split; [vm_compute; reflexivity|]. split; vm_compute; reflexivity.
Qed.
(** whoever subscribed without a filter is sent the truth of somebody else's filter *)
Definition two := [Subscribe (Some 4%nat) (above "c1" "Dev.Level" 5); Subscribe (Some 4%nat) (key0 "c2" "Dev.Level")].
(** Whoever subscribed without a filter is sent the truth of somebody else's filter. *)
Theorem C37_leak_refuted : exists s s' ms m m', run yes (init tree []) two = Ok (s, [0; 0]) /\ run yes (init tree []) (rev two) = Ok (s', [0; 0]) /\
  publish s sent0 (Some 4%nat) (change (bs "Dev.Level") (VInt32 3) (VInt32 7)) = Ok (ms, 0) /\ nth_error ms 1 = Some m /\ m_to m = key0 "c2" "Dev.Level" /\ get_prop (bs "filter") (m_data m) = Some (VBool true) /\
  (exists ms', publish s' sent0 (Some 4%nat) (change (bs "Dev.Level") (VInt32 3) (VInt32 7)) = Ok (ms', 0) /\ nth_error ms' 0 = Some m') /\ m_to m' = key0 "c2" "Dev.Level" /\ get_prop (bs "filter") (m_data m') = None.
Proof.
  eexists _, _, _, _, _. split; [vm_compute; reflexivity|]. split; [vm_compute; reflexivity|]. split; [vm_compute; reflexivity|]. split; [vm_compute; reflexivity|]. split; [vm_compute; reflexivity|]. split; [vm_compute; reflexivity|].
  split; [eexists; split; vm_compute; reflexivity|]. split; vm_compute; reflexivity.
Qed.
Print Assumptions C37_leak_refuted.

(** ** C56 *)
(** as long as what the handler accepts succeeds, the handler's view is the registry *)
Theorem C56_balanced_partial : forall ans shapes cache s start e k s' r (added : bool), good_cache cache -> reach ans (init shapes cache) s -> plain_filter (k_filter k) = true ->
  (forall n up t, e = Some n -> find_top n (tops s) = Some (up, t) -> i_handler (el_info t) = true) ->
  replay (log s) start = keys s -> step ans s (if added then Subscribe e k else Unsubscribe e k) = Ok (s', r) ->
  (r = E_SUCCESS \/ forall c, log s' = log s ++ [c] -> c_err c <> 0) ->
  replay (log s') start = keys s'.
Proof.
  intros ans shapes cache s start e k s' r added G HR P HH V Q OK. pose proof (reach_W _ _ _ _ G HR) as H.
  assert (request ans s added e k = Ok (s', r)) as Q1 by (destruct added; exact Q). clear Q.
  apply request_cases in Q1 as [(-> & _)|(n & -> & HA)]; [exact V|]. destruct added.
  - apply handle_add in HA as (up & t & s1 & early & F & C & L & CS). specialize (HH n up t eq_refl F). destruct C as (_ & _ & _ & C). rewrite HH in C.
    destruct C as (err & _ & LG & E0 & _). rewrite L, LG, replay_app, V. cbn [replay c_err c_action c_key]. destruct CS as [(-> & CE & NS & _)|(-> & x & AD & _)].
    + destruct OK as [OK|OK]; [congruence|]. specialize (OK _ LG). cbn in OK. apply Z.eqb_neq in OK. rewrite OK. cbn. unfold keys. now destruct CE as (_ & _ & -> & _).
    + rewrite (E0 eq_refl). cbn. destruct AD as (_ & _ & _ & K & _ & _ & _ & _ & X & _). unfold keys. rewrite X, map_app. cbn. now rewrite K.
  - apply handle_del in HA as (up & t & s1 & early & F & C & L & CS). specialize (HH n up t eq_refl F). destruct C as (_ & _ & _ & C). rewrite HH in C.
    destruct C as (err & _ & LG & E0 & _). rewrite L, LG, replay_app, V. cbn [replay c_err c_action c_key]. destruct CS as [(-> & CE & NS & _)|(-> & _ & x & RM)].
    + destruct OK as [OK|OK]; [congruence|]. specialize (OK _ LG). cbn in OK. apply Z.eqb_neq in OK. rewrite OK. cbn. unfold keys. now destruct CE as (_ & _ & -> & _).
    + rewrite (E0 eq_refl). cbn. symmetry. apply (removed_keys s k x s' H P RM).
Qed.
Print Assumptions C56_balanced_partial.
Example C56_witness : exists s s', run yes (init tree []) two = Ok (s, [0; 0]) /\ replay (log s) [] = keys s /\ length (log s) = 2%nat /\
  step yes s (Unsubscribe (Some 4%nat) (above "c1" "Dev.Level" 5)) = Ok (s', E_SUCCESS) /\ keys s' = [key0 "c2" "Dev.Level"].
Proof. eexists _, _. split; [vm_compute; reflexivity|]. split; [vm_compute; reflexivity|]. split; [vm_compute; reflexivity|]. split; vm_compute; reflexivity. Qed.
(** the handler is asked before the registry: it accepts a second subscription that is then refused,
    and an end of one that never was; nobody tells it about the ones a deleted row ends *)
Theorem C56_refuted :
  (exists s, run yes (init tree []) [Subscribe (Some 5%nat) (key0 "c1" "Dev.Ev"); Subscribe (Some 5%nat) (key0 "c1" "Dev.Ev")] = Ok (s, [E_SUCCESS; E_SUBSCRIPTION_ALREADY_EXIST]) /\
     replay (log s) [] = [key0 "c1" "Dev.Ev"; key0 "c1" "Dev.Ev"] /\ keys s = [key0 "c1" "Dev.Ev"]) /\
  (exists s, run yes (init tree []) [Unsubscribe (Some 5%nat) (key0 "c1" "Dev.Ev")] = Ok (s, [E_INVALID_INPUT]) /\ log s = [mkCall UNSUBSCRIBE (key0 "c1" "Dev.Ev") 0]) /\
  (exists s, run yes (init tree []) [AddRow nowhere 1 (Sh (info "1" 0 false false) [Sh (info "P" PROPERTY true true) []]); Subscribe (Some 8%nat) (key0 "c1" "Dev.T.1.P"); RemoveRow 7] = Ok (s, [0; 0; 0]) /\
     replay (log s) [] = [key0 "c1" "Dev.T.1.P"] /\ keys s = []).
Proof.
  split; [eexists; split; [vm_compute; reflexivity|split; vm_compute; reflexivity]|]. split; [eexists; split; vm_compute; reflexivity|].
  eexists; split; [vm_compute; reflexivity|split; vm_compute; reflexivity].
Qed.
Print Assumptions C56_refuted.

(** ** C57 *)
Theorem C57_unchanged_partial : forall ans s e k s' r (added : bool),
  step ans s (if added then Subscribe e k else Unsubscribe e k) = Ok (s', r) -> r <> E_SUCCESS -> k_raw k = false \/ kind_of s e = Some EVENT ->
  subs s' = subs s /\ links s' = links s /\ watched s' = watched s /\ timers s' = timers s /\ tops s' = tops s /\ next_id s' = next_id s /\ file s' = file s.
Proof.
  intros ans s e k s' r added Q NS KK. assert (request ans s added e k = Ok (s', r)) as Q1 by (destruct added; exact Q). clear Q.
  apply request_cases in Q1 as [(-> & _)|(n & -> & HA)]; [repeat split|]. cbn [kind_of] in KK. destruct added.
  - apply handle_add in HA as (up & t & s1 & early & F & C & L & CS). rewrite F in KK. destruct C as (_ & (W1 & W2) & _).
    destruct CS as [(-> & (C1 & C2 & C3 & C4 & C5 & C6 & C7) & _)|(_ & x & AD & [[-> _]|(_ & R1 & R2)])]; [repeat split; assumption|congruence|].
    destruct KK; congruence.
  - apply handle_del in HA as (up & t & s1 & early & F & C & L & CS). destruct C as (_ & (W1 & W2) & _).
    destruct CS as [(-> & (C1 & C2 & C3 & C4 & C5 & C6 & C7) & _)|(_ & -> & _)]; [repeat split; assumption|congruence].
Qed.
Print Assumptions C57_unchanged_partial.
Example C57_witness : exists s', step yes busy (Subscribe (Some 4%nat) (key0 "c1" "Dev.Level")) = Ok (s', E_SUBSCRIPTION_ALREADY_EXIST) /\
  (exists s'', step (fun _ => (5, None)) busy (Subscribe (Some 5%nat) (key0 "c9" "Dev.Ev")) = Ok (s'', 5)).
Proof. eexists. split; [vm_compute; reflexivity|]. eexists. vm_compute. reflexivity. Qed.
(** raw subscriptions to a property are refused, and stay *)
Theorem C57_raw_refuted : let k := mkKey (bs "c1") 1 (bs "Dev.Level") FNull 0 0 true in
  exists s, run yes (init tree []) [Subscribe (Some 4%nat) k; Unsubscribe (Some 4%nat) k] = Ok (s, [E_INVALID_INPUT; E_INVALID_INPUT]) /\ keys s = [k].
Proof. eexists. split; vm_compute; reflexivity. Qed.
Print Assumptions C57_raw_refuted.
(** subscribing to a property that has no get handler ends the provider (an assertion) *)
Theorem C57_abort_refuted : run yes (init tree []) [Subscribe (Some 6%nat) (key0 "c1" "Dev.Bare")] = UB.
Proof. vm_compute. reflexivity. Qed.
Print Assumptions C57_abort_refuted.

(** ** C62 *)
Definition identity (x : sub) := (s_key x, s_id x, s_auto x, s_el x).
Lemma link_all_same : forall new s s', link_all new s = Ok s' -> map identity (subs s') = map identity (subs s) /\ log s' = log s.
Proof.
  induction new as [|[n p] new IH]; cbn; intros s s' Q; [injection Q as <-; split; reflexivity|].
  destruct (link_new s n p (subs s)) as [[l k]|[]|] eqn:L; cbn in Q; try discriminate Q. apply link_new_ok in L as [L _]. apply IH in Q as [Q1 Q2]. cbn in Q1, Q2.
  split; [|exact Q2]. rewrite Q1. symmetry. apply (forall2_map _ _ _ _ _ L). intros x y ((_ & E1 & E2 & E3 & _ & E4) & _). unfold identity. congruence.
Qed.
Lemma row_again_idle ans look name : forall count cur s s', (forall x, In x (subs s) -> is_prefix name (k_event (s_key x)) = false) -> row_again count ans look name cur s = Ok s' -> s' = s.
Proof.
  induction count as [|count IH]; intros [c|] s s' A Q; cbn in Q; try (now injection Q as <-). destruct (item c (subs s)) as [[x next]|] eqn:I; [|discriminate Q].
  apply item_in in I. rewrite (A x I) in Q. cbn in Q. now apply IH in Q.
Qed.
(** a new row whose name begins no subscription's event name leaves every subscription's key and id
    as they are and asks no handler *)
Theorem C62_row_partial : forall ans s look t rw s' r up te, step ans s (AddRow look t rw) = Ok (s', r) -> find_top t (tops s) = Some (up, te) ->
  (forall x, In x (subs s) -> is_prefix (full_name (i_node (sh_info rw) :: el_node te :: up)) (k_event (s_key x)) = false) ->
  map identity (subs s') = map identity (subs s) /\ log s' = log s.
Proof.
  intros ans s look t rw s' r up te Q F A. cbn [step] in Q. destruct (add_row ans look s t rw) as [s1|[]|] eqn:AR; cbn in Q; try discriminate Q. injection Q as <- _.
  unfold add_row in AR. rewrite F in AR. destruct (number (next_el s) rw) as [re m] eqn:NU. assert (el_node re = i_node (sh_info rw)) as EN by (unfold el_node; now rewrite (number_info _ _ _ _ NU)).
  rewrite EN in AR. remember (full_name (i_node (sh_info rw) :: el_node te :: up)) as name eqn:ENM.
  match type of AR with obind (link_all ?nw ?st) _ = _ => destruct (link_all nw st) as [s2|[]|] eqn:LA; cbn in AR; try discriminate AR end.
  apply link_all_same in LA as [L1 L2]. cbn in L1, L2.
  match type of AR with obind ?X _ = _ => destruct X as [s3|[]|] eqn:RW; cbn in AR; try discriminate AR end.
  apply row_watch_core in RW as ((_ & _ & C3 & _) & CL). apply row_again_idle in AR; [subst s1; rewrite C3, CL; auto|].
  intros x I. rewrite C3 in I. assert (In (identity x) (map identity (subs s))) as J by (rewrite <- L1; now apply in_map). apply in_map_iff in J as (y & E & J).
  unfold identity in E. injection E as <- _ _ _. now apply A.
Qed.
Print Assumptions C62_row_partial.
Example C62_witness : (exists up te, find_top 1 (tops busy) = Some (up, te) /\
   forallb (fun x => negb (is_prefix (full_name (i_node (sh_info (row "3")) :: el_node te :: up)) (k_event (s_key x)))) (subs busy) = true) /\
  exists s', step yes busy (AddRow nowhere 1 (row "3")) = Ok (s', 0) /\ map s_id (subs s') = [3; 4; 5; 6; 7] /\ map (fun x => length (s_insts x)) (subs s') = [1; 1; 3; 1; 1]%nat.
Proof. split; [eexists _, _; split; vm_compute; reflexivity|]. eexists. split; [vm_compute; reflexivity|]. split; vm_compute; reflexivity. Qed.
(** row 1 makes the provider subscribe the subscribers of row 10 once more: under a new id, which they
    do not know, or not at all *)
Definition row_h (s : string) := Sh (info s 0 false false) [Sh (info "P" PROPERTY true true) []].
Definition ten := key0 "c1" "Dev.T.10.P".
(** Adding row 1 makes the provider subscribe the subscribers of row 10 once more: under a new number, which they do not know, or not at all. *)
Theorem C62_prefix_refuted :
  (exists s, run yes (init tree []) [AddRow nowhere 1 (row_h "10"); Subscribe (Some 8%nat) ten; AddRow (fun _ => Some 8%nat) 1 (row_h "1")] = Ok (s, [0; 0; 0]) /\
     map s_id (subs s) = [4] /\ log s = [mkCall SUBSCRIBE ten 0; mkCall SUBSCRIBE ten 0]) /\
  (exists s, run (fun i => match i with O => (0, None) | _ => (E_BUS_ERROR, None) end) (init tree []) [AddRow nowhere 1 (row_h "10"); Subscribe (Some 8%nat) ten; AddRow (fun _ => Some 8%nat) 1 (row_h "1")] = Ok (s, [0; 0; 0]) /\
     keys s = [] /\ map s_key (file s) = [ten]).
Proof. split; eexists; (split; [vm_compute; reflexivity|split; vm_compute; reflexivity]). Qed.
Print Assumptions C62_prefix_refuted.
