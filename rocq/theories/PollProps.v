(** What a provider polls: C75. *)
From Coq Require Import String QArith.
From Verif Require Import Common CommonFacts Value CompareModel TokenModel SubsModel Errors SubsSpec SubsTree SubsProofs SubsFacts SubsProps PollSpec PollProofs.
From Coq Require Import List Permutation Lia ZifyBool.
Import ListNotations.
Local Open Scope string_scope.
Local Open Scope list_scope.
Local Open Scope Z_scope.

(** Whatever happens, no property is polled twice, and every property a subscriber waits for is
    polled. *)
Theorem C75_watched : forall ans shapes cache s, good_cache cache -> reach_apt ans (init shapes cache) s ->
  NoDup (watched s) /\ forall n, property s n -> wanted s n -> In n (watched s).
Proof.
  intros ans shapes cache s G H. destruct (reach_Pl _ _ _ _ G H) as [N P]. split; [exact N|]. intros n PN WN. apply P; [exact PN|].
  apply wanted_iff; [|exact WN]. eapply reach_W; [exact G|]. apply apt_reach; exact H.
Qed.
Print Assumptions C75_watched.
(** As long as no row is removed, nothing else is polled, and every timer is the only one of a live
    interval subscription, for one of its properties. *)
Theorem C75_exact_partial : forall ans shapes cache s, good_cache cache -> reach_steady ans (init shapes cache) s ->
  (forall n, In n (watched s) <-> property s n /\ wanted s n) /\ NoDup (watched s) /\
  NoDup (map snd (timers s)) /\
  forall n x, In (n, x) (timers s) -> exists y, In y (subs s) /\ s_no y = x /\ targets y n = true /\ property s n /\ s_auto y = true /\ k_interval (s_key y) <> 0.
Proof.
  intros ans shapes cache s G H. pose proof (reach_J _ _ _ _ G H) as HJ. destruct (C75_watched _ _ _ _ G (steady_apt _ _ _ H)) as [N P].
  assert (HW : W s) by (eapply reach_W; [exact G|apply apt_reach, steady_apt, H]).
  split; [|split; [exact N|split; [apply (j_once s HJ)|]]].
  - intros n. split; [|intros [A B]; auto]. intros I. destruct (j_watched s HJ n I) as [A B]. split; [exact A|]. apply wanted_iff; assumption.
  - intros n x I. exact (j_timed s HJ _ I).
Qed.
Print Assumptions C75_exact_partial.
(** An interval subscription to a property starts its timer, if the first of its instances can be read. *)
Theorem C75_timer_partial : forall ans shapes cache s n k s' up t, good_cache cache -> reach_steady ans (init shapes cache) s ->
  step ans s (Subscribe (Some n) k) = Ok (s', E_SUCCESS) -> find_top n (tops s) = Some (up, t) -> ntype (el_node t) = PROPERTY -> k_interval k <> 0 ->
  exists x, subs s' = subs s ++ [x] /\
  (s_auto x = true -> forall m l u c, s_insts x = m :: l -> find_top m (tops s) = Some (u, c) -> i_getter (el_info c) = true -> In (m, s_no x) (timers s')).
Proof.
  intros ans shapes cache s n k s' up t G H Q F TY KI. assert (HW : W s) by (eapply reach_W; [exact G|apply apt_reach, steady_apt, H]). pose proof (reach_J _ _ _ _ G H) as HJ.
  cbn [step] in Q. apply request_cases in Q as [(-> & NS & _)|(n' & E & Q)]; [congruence|]. injection E as <-.
  pose proof Q as Q0. apply handle_add in Q0 as (up0 & t0 & s1 & early & F0 & _ & _ & [(_ & _ & NS & _)|(_ & x0 & AD0 & RS)]); [congruence|]. rewrite F in F0. injection F0 as <- <-.
  assert (KR : k_raw k = false). { destruct RS as [[_ RS]|(RS & _)]; [|discriminate RS]. destruct (k_raw k); [|reflexivity]. specialize (RS eq_refl). rewrite TY in RS. discriminate RS. }
  apply handle_add_poll in Q as (up1 & t1 & F1 & [(_ & _ & _ & NS)|(x & AD & _ & EF & TK)]); [congruence|]. rewrite F in F1. injection F1 as <- <-.
  pose proof AD as (_ & _ & NX & KX & _ & _ & _ & _ & X3 & _). exists x. split; [exact X3|]. intros AU m l u c EI FM GT.
  assert (TX : ticks t x = true) by (unfold ticks; rewrite TY, AU, KX; cbn; apply negb_true_iff, Z.eqb_neq, KI).
  pose proof (TK TX KR m l u c EI FM GT) as EX. apply existsb_exists in EX as ([m' x'] & I & E). apply Nat.eqb_eq in E. cbn in E. subst x'.
  assert (DR : drives t x = false) by (unfold drives, on_change; rewrite KX; apply Z.eqb_neq in KI; rewrite KI; now rewrite !andb_false_r). rewrite DR in EF.
  assert (NEW : ~ In (m', s_no x) (timers s)). { intros J. destruct (j_timed s HJ _ J) as (y & Y1 & Y2 & _). apply (i_lt _ _ _ _ (w_l s HW)) in Y1. cbn in Y2. lia. }
  destruct EF as [_ [E|(_ & _ & m2 & l2 & EI2 & E)]]; rewrite E in I |- *; [contradiction|]. rewrite EI in EI2. injection EI2 as <- <-. apply in_or_app. right. now left.
Qed.
Print Assumptions C75_timer_partial.

(** ** deciding the conditions, for the examples *)
Definition kinb (s : state) (e : nat) (k : key) : bool :=
  match find_top e (tops s) with
  | None => true
  | Some (up, t) => forallb (fun np => match snd np with
      | [] => true
      | q :: p => match event_matches (k_event k) (el_node t :: up) (q :: p) with Ok true => eqb (ntype q =? PROPERTY) (ntype (el_node t) =? PROPERTY) | _ => true end
      end) (all_nodes s)
  end.
Lemma kinb_ok s e k : kinb s e k = true -> kin s e k.
Proof.
  unfold kinb, kin. intros H up t n q p F I M. rewrite F in H. rewrite forallb_forall in H. specialize (H _ I). cbn [snd] in H. rewrite M in H. apply eqb_prop in H.
  split; intros E; apply Z.eqb_eq; apply Z.eqb_eq in E; congruence.
Qed.
Definition aptb (s : state) (o : op) (s' : state) : bool :=
  match o with
  | Subscribe (Some e) k => kinb s' e k
  | AddRow look _ _ => forallb (fun k => match look (k_event k) with Some e => kinb s' e k | None => true end) (keys s)
  | Registered _ e => forallb (kinb s' e) (keys s)
  | _ => true
  end.
Lemma aptb_ok s o s' : aptb s o s' = true -> apt s o s'.
Proof.
  destruct o as [[e|] k|e k|look t r|r|n e|f l]; cbn [aptb apt]; auto; [apply kinb_ok| |].
  - intros H k e I L. rewrite forallb_forall in H. specialize (H k I). rewrite L in H. now apply kinb_ok.
  - intros H k I. rewrite forallb_forall in H. now apply kinb_ok, H.
Qed.
Definition same_el (x : sub) (e : nat) : bool := match s_el x with Some f => Nat.eqb f e | None => true end.
Lemma same_el_ok x e : same_el x e = true -> s_el x = Some e \/ s_el x = None.
Proof. unfold same_el. destruct (s_el x); [|auto]. intros H. apply Nat.eqb_eq in H. left. congruence. Qed.
Definition steadyb (s : state) (o : op) (s' : state) : bool :=
  aptb s o s' &&
  match o with
  | Subscribe _ _ | Registered _ _ | Unsubscribe None _ => true
  | Unsubscribe (Some e) k => forallb (fun x => negb (bytes_eqb (k_event (s_key x)) (k_event k)) || same_el x e) (subs s)
  | AddRow _ t row =>
    forallb (fun x => match s_el x with Some e => kinb s' e (s_key x) | None => true end) (subs s) &&
    match find_top t (tops s) with
    | Some (up, u) => forallb (fun x => negb (is_prefix (full_name (i_node (sh_info row) :: el_node u :: up)) (k_event (s_key x))) || negb (is_some (s_el x))) (subs s)
    | None => true
    end
  | RemoveRow _ => false
  | Disconnect _ _ => forallb (fun x => match s_el x with Some e => forallb (fun y => negb (bytes_eqb (k_event (s_key x)) (k_event (s_key y))) || same_el y e) (subs s) | None => true end) (subs s)
  end.
Lemma steadyb_ok s o s' : steadyb s o s' = true -> steady s o s'.
Proof.
  unfold steadyb. intros H. apply andb_prop in H as [A H]. apply aptb_ok in A. split; [exact A|]. destruct o as [e k|[e|] k|look t r|r|n e|f l]; auto.
  - rewrite forallb_forall in H. intros x I E. specialize (H x I). rewrite E, bytes_eqb_refl in H. now apply same_el_ok.
  - apply andb_prop in H as [H1 H2]. rewrite forallb_forall in H1. split.
    + intros x e I E. specialize (H1 x I). rewrite E in H1. now apply kinb_ok.
    + intros x up u I F P. rewrite F in H2. rewrite forallb_forall in H2. specialize (H2 x I). rewrite P in H2. cbn in H2. destruct (s_el x); [discriminate H2|reflexivity].
  - discriminate H.
  - rewrite forallb_forall in H. intros x y e I J E SE. specialize (H x I). rewrite SE, forallb_forall in H. specialize (H y J). rewrite E, bytes_eqb_refl in H. now apply same_el_ok.
Qed.
Fixpoint good_run (good : state -> op -> state -> bool) (ans : answers) (s : state) (l : list op) : bool :=
  match l with [] => true | o :: l => fairb s o && match step ans s o with Ok (s', _) => good s o s' && good_run good ans s' l | _ => false end end.
Lemma run_apt ans s0 : forall l s s' rs, reach_apt ans s0 s -> good_run aptb ans s l = true -> run ans s l = Ok (s', rs) -> reach_apt ans s0 s'.
Proof.
  induction l as [|o l IH]; cbn; intros s s' rs H F Q; [now injection Q as <- _|]. apply andb_prop in F as [F1 F2].
  destruct (step ans s o) as [[s1 r]|[]|] eqn:E; cbn in Q; try discriminate Q. destruct (run ans s1 l) as [[s2 q]|[]|] eqn:Q1; cbn in Q; try discriminate Q.
  injection Q as <- _. apply andb_prop in F2 as [F2 F3]. eapply IH; [|exact F3|exact Q1]. eapply apt_step; [exact H|apply fairb_ok; exact F1|exact E|apply aptb_ok; exact F2].
Qed.
Lemma run_steady ans s0 : forall l s s' rs, reach_steady ans s0 s -> good_run steadyb ans s l = true -> run ans s l = Ok (s', rs) -> reach_steady ans s0 s'.
Proof.
  induction l as [|o l IH]; cbn; intros s s' rs H F Q; [now injection Q as <- _|]. apply andb_prop in F as [F1 F2].
  destruct (step ans s o) as [[s1 r]|[]|] eqn:E; cbn in Q; try discriminate Q. destruct (run ans s1 l) as [[s2 q]|[]|] eqn:Q1; cbn in Q; try discriminate Q.
  injection Q as <- _. apply andb_prop in F2 as [F2 F3]. eapply IH; [|exact F3|exact Q1]. eapply steady_step; [exact H|apply fairb_ok; exact F1|exact E|apply steadyb_ok; exact F2].
Qed.
(** the provider of C31, with an interval subscriber of its property, and one that comes and goes *)
Definition every (l e : string) (n : Z) := mkKey (bs l) 1 (bs e) FNull n 0 false.
Definition polling := script ++ [Subscribe (Some 4%nat) (every "c3" "Dev.Level" 5); Subscribe (Some 8%nat) (key0 "c3" "Dev.T.1.P"); Unsubscribe (Some 8%nat) (key0 "c3" "Dev.T.1.P"); Subscribe (Some 3%nat) (every "c4" "Dev.T.*.P" 7);
  Unsubscribe (Some 3%nat) (every "c4" "Dev.T.*.P" 7); Disconnect (fun _ => true) (bs "c2")].
Definition polled : state := state_of (run yes (init tree []) polling).
Example C75_witness : good_cache [] /\ reach_steady yes (init tree []) polled /\ reach_apt yes (init tree []) polled /\
  watched polled = [4; 8; 10]%nat /\ timers polled = [(4, 5)]%nat /\ length (subs polled) = 4%nat.
Proof.
  split; [apply empty_cache|]. assert (S : reach_steady yes (init tree []) polled) by (eapply (run_steady yes (init tree []) polling); [apply steady_init|vm_compute; reflexivity|vm_compute; reflexivity]).
  split; [exact S|]. split; [now apply steady_apt|]. split; [vm_compute; reflexivity|]. split; vm_compute; reflexivity.
Qed.
(** with rows removed, too *)
Example C75_rows_witness : exists s, reach_apt yes (init tree []) s /\ run yes (init tree []) (polling ++ [RemoveRow 7]) = Ok (s, [0; 0; 0; 0; 0; 0; 0; 0; 0; 0; 0; 0; 0; 0]).
Proof. eexists. split; [eapply (run_apt yes (init tree []) (polling ++ [RemoveRow 7])); [apply apt_init|vm_compute; reflexivity|vm_compute; reflexivity]|vm_compute; reflexivity]. Qed.
(** The removal of one row ends a subscription to all rows (C35), but the other rows' properties are
    still polled; when they are removed as well the provider polls an element that is gone. *)
Theorem C75_row_refuted : exists s1 s2,
  run yes (init tree []) [AddRow nowhere 1 (row "1"); AddRow nowhere 1 (row "2"); Subscribe (Some 3%nat) wild; RemoveRow 7] = Ok (s1, [0; 0; 0; 0]) /\ subs s1 = [] /\ watched s1 = [10]%nat /\ alive 10 s1 = true /\
  step yes s1 (RemoveRow 9) = Ok (s2, 0) /\ watched s2 = [10]%nat /\ alive 10 s2 = false.
Proof. eexists _, _. split; [vm_compute; reflexivity|]. split; [vm_compute; reflexivity|]. split; [vm_compute; reflexivity|]. split; [vm_compute; reflexivity|]. split; [vm_compute; reflexivity|]. split; vm_compute; reflexivity. Qed.
Print Assumptions C75_row_refuted.
(** The timer of a subscription that a removed row ends goes on, with a subscription that is gone. *)
Theorem C75_timer_refuted : exists s, run yes (init tree []) [AddRow nowhere 1 (row "1"); Subscribe (Some 8%nat) (every "c1" "Dev.T.1.P" 5); RemoveRow 7] = Ok (s, [0; 0; 0]) /\ subs s = [] /\ timers s = [(8, 0)]%nat /\ alive 8 s = false.
Proof. eexists. split; [vm_compute; reflexivity|]. split; [vm_compute; reflexivity|]. split; vm_compute; reflexivity. Qed.
Print Assumptions C75_timer_refuted.
(** An interval subscription to all rows of an empty table is accepted and never has a timer. *)
Theorem C75_empty_refuted : exists s, run yes (init tree []) [Subscribe (Some 3%nat) (every "c1" "Dev.T.*.P" 5); AddRow nowhere 1 (row "1")] = Ok (s, [0; 0]) /\ map s_insts (subs s) = [[8%nat]] /\ timers s = [].
Proof. eexists. split; [vm_compute; reflexivity|]. split; vm_compute; reflexivity. Qed.
Print Assumptions C75_empty_refuted.
