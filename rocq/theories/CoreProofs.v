(** Proofs about core events. *)
From Verif Require Import Common CommonFacts VecList VecFacts CoreModel CoreSpec.
From Coq Require Import Lia FinFun.
Local Open Scope Z_scope.

Definition ok_ob (o : object) : Prop := strlen (ob_name o) < 256.
Definition ok_ev (e : event) : Prop := strlen (ev_name e) < 256.
Definition wf_ob (o : object) : Prop :=
  NoDup (map ev_name (ob_events o)) /\ Forall ok_ev (ob_events o) /\
  Forall (fun e => NoDup (ev_listeners e)) (ob_events o).
Definition wf (s : server) : Prop := NoDup (map ob_name s) /\ Forall ok_ob s /\ Forall wf_ob s.

Lemma obj_is_eq : forall n o, ok_ob o -> obj_is n o = bytes_eqb (ob_name o) n.
Proof. intros n o H. apply strneq_eq. exact H. Qed.
Lemma ev_is_eq : forall n e, ok_ev e -> ev_is n e = bytes_eqb (ev_name e) n.
Proof. intros n e H. apply strneq_eq. exact H. Qed.

Definition ev_of (s : server) (x y : name) : option event :=
  match get_object s x with None => None | Some o => vfind (ev_is y) (ob_events o) end.
Definition over_of (s : server) (x : name) : bool :=
  match get_object s x with None => false | Some o => ob_override o end.
Definition in_of (s : server) (x y l : name) : bool :=
  match ev_of s x y with None => false | Some e => has_listener e l end.
Record rel (s : server) (w : world) : Prop := mkRel {
  r_obj : forall x, w_obj w x = is_some (get_object s x);
  r_over : forall x, w_over w x = over_of s x;
  r_ev : forall x y, w_ev w x y = option_map ev_cb (ev_of s x y);
  r_in : forall x y l, w_in w x y l = in_of s x y l }.

Lemma get_some : forall s n o, wf s -> get_object s n = Some o -> In o s /\ ob_name o = n /\ ok_ob o /\ wf_ob o.
Proof.
  intros s n o (N & F1 & F2) H. unfold get_object in H.
  destruct (vfind_some ob_name obj_is ok_ob obj_is_eq n s o F1 H) as [I K].
  rewrite Forall_forall in F1, F2. auto.
Qed.
Lemma get_update : forall s n m f, wf s -> (forall o, ob_name (f o) = ob_name o) ->
  get_object (vupdate (obj_is n) f s) m = if bytes_eqb m n then option_map f (get_object s n) else get_object s m.
Proof.
  intros s n m f (N & F1 & F2) K. unfold get_object.
  apply (vfind_update ob_name obj_is ok_ob obj_is_eq); auto.
  intros x I E. unfold ok_ob. rewrite K. split; auto. rewrite Forall_forall in F1. apply F1. auto.
Qed.
Lemma wf_update : forall s n f, wf s -> (forall o, ob_name (f o) = ob_name o) ->
  (forall o, get_object s n = Some o -> wf_ob o -> wf_ob (f o)) -> wf (vupdate (obj_is n) f s).
Proof.
  intros s n f (N & F1 & F2) K W. repeat split.
  - rewrite (vupdate_keys ob_name obj_is ok_ob obj_is_eq); auto. intros x _ E. rewrite K. auto.
  - apply (vupdate_ok ob_name obj_is ok_ob obj_is_eq); auto. intros x I E O. unfold ok_ob. rewrite K. auto.
  - apply (vupdate_ok ob_name obj_is ok_ob obj_is_eq); auto. intros x I E O. apply W; auto.
    rewrite <- E. apply (vfind_in ob_name obj_is ok_ob obj_is_eq); auto.
Qed.
Lemma get_name : forall s n o, wf s -> get_object s n = Some o -> ob_name o = n.
Proof. intros s n o W H. apply (get_some s n o W H). Qed.

(** updates that touch neither events nor the override *)
Lemma rel_same : forall s s' w, rel s w ->
  (forall x, is_some (get_object s' x) = is_some (get_object s x) /\ over_of s' x = over_of s x /\
             forall y, ev_of s' x y = ev_of s x y) -> rel s' w.
Proof.
  intros s s' w [A B C D] H. constructor; intros x.
  - rewrite A. symmetry. apply H.
  - rewrite B. symmetry. apply H.
  - intros y. rewrite C. f_equal. symmetry. apply H.
  - intros y l. rewrite D. unfold in_of. destruct (H x) as (_ & _ & ->). reflexivity.
Qed.
Lemma quiet_update : forall s n f, wf s -> (forall o, ob_name (f o) = ob_name o) ->
  (forall o, ob_events (f o) = ob_events o) -> (forall o, ob_override (f o) = ob_override o) ->
  let s' := vupdate (obj_is n) f s in
  wf s' /\ forall x, is_some (get_object s' x) = is_some (get_object s x) /\ over_of s' x = over_of s x /\
             forall y, ev_of s' x y = ev_of s x y.
Proof.
  intros s n f W K1 K2 K3 s'. split.
  - apply wf_update; auto. intros o _ (A & B & C). unfold wf_ob. rewrite K2. auto.
  - intros x. subst s'. unfold over_of, ev_of. rewrite get_update by auto.
    destruct (bytes_eqb x n) eqn:E; [|auto]. apply bytes_eqb_eq in E. subst x.
    destruct (get_object s n) as [o|]; cbn; [|auto]. rewrite K2, K3. auto.
Qed.
Lemma quiet_refl : forall s, wf s -> wf s /\ forall x, is_some (get_object s x) = is_some (get_object s x) /\ over_of s x = over_of s x /\
             forall y, ev_of s x y = ev_of s x y.
Proof. auto. Qed.
Definition quiet (s s' : server) : Prop :=
  wf s' /\ forall x, is_some (get_object s' x) = is_some (get_object s x) /\ over_of s' x = over_of s x /\
             forall y, ev_of s' x y = ev_of s x y.
Lemma quiet_trans : forall a b c, quiet a b -> quiet b c -> quiet a c.
Proof.
  intros a b c [_ H1] [W H2]. split; auto. intros x.
  destruct (H1 x) as (P & Q & R), (H2 x) as (P' & Q' & R'). repeat split; [congruence|congruence|intros y; congruence].
Qed.
Lemma register_method_quiet : forall s obj m b c s' acts, wf s ->
  register_method s obj m b = (c, s', acts) -> quiet s s' /\ acts = [].
Proof.
  intros s obj m b c s' acts W H. unfold register_method in H.
  destruct (_ <=? _); [injection H as <- <- <-; split; [apply quiet_refl; auto|reflexivity]|].
  destruct (get_object s obj) as [o|]; [|injection H as <- <- <-; split; [apply quiet_refl; auto|reflexivity]].
  destruct (_ <=? _); [injection H as <- <- <-; split; [apply quiet_refl; auto|reflexivity]|].
  destruct (is_some _); [injection H as <- <- <-; split; [apply quiet_refl; auto|reflexivity]|].
  injection H as <- <- <-. split; auto. apply quiet_update; auto.
Qed.
Lemma install_quiet : forall s obj c s' acts, wf s ->
  install_handlers s obj = (c, s', acts) -> quiet s s' /\ acts = [].
Proof.
  intros s obj c s' acts W H. unfold install_handlers in H.
  destruct (get_object s obj) as [o|]; [|injection H as <- <- <-; split; [apply quiet_refl; auto|reflexivity]].
  destruct (is_some _); [injection H as <- <- <-; split; [apply quiet_refl; auto|reflexivity]|].
  destruct (register_method s obj METHOD_SUBSCRIBE true) as [[r1 s1] a1] eqn:E1.
  destruct (register_method_quiet _ _ _ _ _ _ _ W E1) as [Q1 ->].
  destruct (negb (r1 =? CORE_SUCCESS)); [injection H as <- <- <-; auto|].
  destruct (register_method s1 obj METHOD_UNSUBSCRIBE true) as [[r2 s2] a2] eqn:E2.
  destruct (register_method_quiet _ _ _ _ _ _ _ (proj1 Q1) E2) as [Q2 ->].
  pose proof (quiet_trans _ _ _ Q1 Q2) as Q3.
  destruct (negb (r2 =? CORE_SUCCESS)); [injection H as <- <- <-; auto|].
  injection H as <- <- <-. split; auto. eapply quiet_trans; [exact Q3|].
  apply quiet_update; auto. apply Q3.
Qed.

Lemma is_none_get : forall s w x, rel s w -> get_object s x = None -> w_obj w x = false /\ w_over w x = false /\
  (forall y, w_ev w x y = None) /\ forall y l, w_in w x y l = false.
Proof.
  intros s w x [A B C D] H. rewrite A, B. unfold over_of. rewrite H. repeat split.
  - intros y. rewrite C. unfold ev_of. rewrite H. reflexivity.
  - intros y l. rewrite D. unfold in_of, ev_of. rewrite H. reflexivity.
Qed.

Lemma andb_eqb : forall x y x' y', bytes_eqb x x' && bytes_eqb y y' = true -> x = x' /\ y = y'.
Proof. intros. apply andb_prop in H as [A B]. apply bytes_eqb_eq in A. apply bytes_eqb_eq in B. auto. Qed.

(** an update of one object's events *)
Lemma get_with_events : forall s obj g x, wf s ->
  get_object (vupdate (obj_is obj) (fun o => with_events o (g o)) s) x =
  if bytes_eqb x obj then option_map (fun o => with_events o (g o)) (get_object s obj) else get_object s x.
Proof. intros. apply get_update; auto. Qed.

Lemma has_listener_in : forall e l, has_listener e l = true <-> In l (ev_listeners e).
Proof.
  intros [n c ls] l. unfold has_listener, vhas. cbn [ev_listeners].
  induction ls as [|y ls IH]; cbn; [split; [discriminate|tauto]|].
  destruct (bytes_eqb l y) eqn:E.
  - apply bytes_eqb_eq in E. subst. cbn. tauto.
  - rewrite IH. split; auto. intros [->|H]; auto. rewrite bytes_eqb_refl in E. discriminate.
Qed.
Lemma beq_iff : forall a b : bool, (a = true <-> b = true) -> a = b.
Proof. intros [|] [|]; intuition congruence. Qed.
Lemma vremove_listener : forall l ls x, NoDup ls -> In x (vremove (bytes_eqb l) ls) <-> In x ls /\ x <> l.
Proof.
  induction ls as [|y ls IH]; intros x N; cbn; [tauto|].
  inversion N; subst. destruct (bytes_eqb l y) eqn:E.
  - apply bytes_eqb_eq in E. subst. split; [|intuition congruence].
    intros H. split; auto. congruence.
  - assert (l <> y) by (intros ->; rewrite bytes_eqb_refl in E; discriminate).
    cbn. rewrite IH by auto. intuition congruence.
Qed.

(** the event after a request, and the callback made *)
Lemma change_listener : forall (obj : name) (e : event) (l : name) (added : bool) (e' : event) (acts : list action), NoDup (ev_listeners e) ->
  (if added then add_listener obj e l else remove_listener obj e l) = (e', acts) ->
  ev_name e' = ev_name e /\ ev_cb e' = ev_cb e /\ NoDup (ev_listeners e') /\
  (forall z, has_listener e' z = if bytes_eqb z l then added else has_listener e z) /\
  acts = if ev_cb e && negb (Bool.eqb (has_listener e l) added) then [SubCallback obj (ev_name e) l added] else [].
Proof.
  intros obj e l added e' acts N H.
  assert (HL : forall z b, (if bytes_eqb z l then b else has_listener e z) = true <-> (z = l /\ b = true) \/ (z <> l /\ In z (ev_listeners e))).
  { intros z b. destruct (bytes_eqb z l) eqn:E.
    - apply bytes_eqb_eq in E. subst. intuition.
    - rewrite has_listener_in. assert (z <> l) by (intros ->; rewrite bytes_eqb_refl in E; discriminate). intuition. }
  destruct added.
  - unfold add_listener in H. destruct (has_listener e l) eqn:E; injection H as <- <-; cbn [ev_name ev_cb ev_listeners].
    + rewrite andb_false_r. repeat split; auto. intros z. apply beq_iff. rewrite HL, has_listener_in.
      apply has_listener_in in E. destruct (list_eq_dec Z.eq_dec z l); [subst|]; intuition.
    + rewrite andb_true_r.
      assert (E' : ~ In l (ev_listeners e)) by (rewrite <- has_listener_in; congruence).
      repeat split; auto.
      * apply nodup_app_intro; auto; [repeat constructor; cbn; tauto|]. intros x I [<-|[]]; auto.
      * intros z. apply beq_iff. rewrite HL, has_listener_in. cbn [ev_listeners]. rewrite in_app_iff. cbn.
        destruct (list_eq_dec Z.eq_dec z l); [subst|]; intuition.
  - unfold remove_listener in H. destruct (has_listener e l) eqn:E; injection H as <- <-; cbn [ev_name ev_cb ev_listeners].
    + rewrite andb_true_r. repeat split; auto.
      * rewrite <- (map_id (vremove _ _)). apply vremove_nodup. rewrite map_id. auto.
      * intros z. apply beq_iff. rewrite HL, has_listener_in. cbn [ev_listeners]. rewrite vremove_listener by auto.
        intuition congruence.
    + rewrite andb_false_r. repeat split; auto.
      assert (E' : ~ In l (ev_listeners e)) by (rewrite <- has_listener_in; congruence).
      intros z. apply beq_iff. rewrite HL, has_listener_in.
      destruct (list_eq_dec Z.eq_dec z l); [subst|]; intuition congruence.
Qed.

Lemma find_ev_some : forall o y e, wf_ob o -> vfind (ev_is y) (ob_events o) = Some e ->
  In e (ob_events o) /\ ev_name e = y /\ ok_ev e /\ NoDup (ev_listeners e).
Proof.
  intros o y e (A & B & C) H.
  destruct (vfind_some ev_name ev_is ok_ev ev_is_eq y _ e B H) as [I K].
  rewrite Forall_forall in B, C. auto.
Qed.

Lemma quiet_step : forall s w o c s' acts, rel s w -> quiet s s' -> acts = [] ->
  (forall code, spec_step w o code = w) -> (match o with Publish _ _ | Request _ _ _ _ _ => False | _ => True end) ->
  wf s' /\ rel s' (spec_step w o c) /\ obs_ok w o c acts.
Proof.
  intros s w o c s' acts R [Q1 Q2] -> E P. rewrite E. split; [auto|split; [eapply rel_same; eauto|]].
  unfold obs_ok. destruct o; cbn in *; try tauto.
Qed.

Lemma step_ok : forall o s w c s' acts, wf s -> rel s w -> step s o = (c, s', acts) ->
  wf s' /\ rel s' (spec_step w o c) /\ obs_ok w o c acts.
Proof.
  intros o s w c s' acts W R H. pose proof R as [RO RV RE RI].
  destruct o as [n lok|n lok|obj m|obj m|obj ev cb|obj ev|obj|obj ev l added ans|obj ev]; cbn [step] in H.
  - (* RegObj *) unfold register_obj in H.
    destruct ((_ <=? _) || _) eqn:L; [injection H as <- <- <-; exact (conj W (conj R (conj eq_refl eq_refl)))|].
    apply orb_false_iff in L as [L1 L2].
    destruct (get_object s n) eqn:G; cbn [is_some] in H; [injection H as <- <- <-; exact (conj W (conj R (conj eq_refl eq_refl)))|].
    destruct lok; injection H as <- <- <-; [|exact (conj W (conj R (conj eq_refl eq_refl)))].
    assert (OK : ok_ob (mkObject n [] [] false false)) by (unfold ok_ob, strlen in *; cbn; unfold MAX_OBJECT_NAME_LENGTH in *; lia).
    destruct W as (N & F1 & F2).
    assert (GE : forall x, get_object (s ++ [mkObject n [] [] false false]) x =
             if bytes_eqb x n then Some (mkObject n [] [] false false) else get_object s x).
    { intros x. unfold get_object. rewrite (vfind_app ob_name obj_is ok_ob obj_is_eq) by auto. cbn [ob_name].
      destruct (bytes_eqb x n) eqn:E.
      - apply bytes_eqb_eq in E. subst x. fold (get_object s n). rewrite G, bytes_eqb_refl. reflexivity.
      - rewrite bytes_eqb_sym, E. destruct (vfind _ s); reflexivity. }
    split; [|split].
    + repeat split.
      * apply (app_nodup_key ob_name obj_is ok_ob obj_is_eq); auto.
      * apply Forall_app. auto.
      * apply Forall_app. split; auto. constructor; auto. repeat split; cbn; constructor.
    + cbn [spec_step CORE_SUCCESS Z.eqb]. constructor; cbn [w_obj w_over w_ev w_in]; intros x; unfold over_of, ev_of, in_of, ev_of; rewrite ?GE.
      * rewrite RO. destruct (bytes_eqb x n); reflexivity.
      * rewrite RV. destruct (bytes_eqb x n); reflexivity.
      * intros y. rewrite ?GE. destruct (bytes_eqb x n); [reflexivity|apply RE].
      * intros y l. rewrite ?GE. destruct (bytes_eqb x n); [reflexivity|apply RI].
    + split; reflexivity.
  - (* UnregObj *) unfold unregister_obj in H.
    destruct ((_ <=? _) || _) eqn:L; [injection H as <- <- <-; exact (conj W (conj R (conj eq_refl eq_refl)))|].
    destruct lok; cbn [negb] in H; [|injection H as <- <- <-; exact (conj W (conj R (conj eq_refl eq_refl)))].
    destruct (get_object s n) eqn:G; cbn [is_some] in H; injection H as <- <- <-; [|exact (conj W (conj R (conj eq_refl eq_refl)))].
    destruct W as (N & F1 & F2).
    assert (GE : forall x, get_object (vremove (obj_is n) s) x = if bytes_eqb x n then None else get_object s x).
    { intros x. apply (vfind_remove ob_name obj_is ok_ob obj_is_eq); auto. }
    split; [|split].
    + repeat split; [apply vremove_nodup|apply vremove_ok|apply vremove_ok]; auto.
    + cbn [spec_step CORE_SUCCESS Z.eqb]. constructor; cbn [w_obj w_over w_ev w_in]; intros x; unfold over_of, ev_of, in_of, ev_of; rewrite ?GE.
      * rewrite RO. destruct (bytes_eqb x n); reflexivity.
      * rewrite RV. unfold over_of. destruct (bytes_eqb x n); reflexivity.
      * intros y. rewrite ?GE. destruct (bytes_eqb x n); [reflexivity|apply RE].
      * intros y l. rewrite ?GE. destruct (bytes_eqb x n); [reflexivity|apply RI].
    + split; reflexivity.
  - (* RegMethod *)
    destruct (register_method_quiet _ _ _ _ _ _ _ W H) as [Q A]. eapply quiet_step; eauto; cbn; auto.
  - (* UnregMethod *) unfold unregister_method in H.
    assert (Q : quiet s s' /\ acts = []).
    { destruct (get_object s obj); [|injection H as <- <- <-; split; [apply quiet_refl; auto|reflexivity]].
      destruct (is_some _); injection H as <- <- <-; split; auto; [|apply quiet_refl; auto].
      apply quiet_update; auto. }
    destruct Q as [Q A]. eapply quiet_step; eauto; cbn; auto.
  - (* RegEvent *) unfold register_event in H.
    destruct (_ <=? _) eqn:L.
    { injection H as <- <- <-. unfold MAX_EVENT_NAME_LENGTH, MAX_OBJECT_NAME_LENGTH in L.
      assert (Z.ltb (strlen ev) 256 = false) as E by lia.
      cbn [spec_step]. rewrite E, andb_false_r. cbn. split; [auto|split;[auto|split; auto]]. }
    destruct (get_object s obj) as [o|] eqn:G.
    2: { injection H as <- <- <-. cbn [spec_step]. rewrite RO, G. cbn. split; [auto|split;[auto|split; auto]]. }
    assert (E : Z.ltb (strlen ev) 256 = true) by (unfold MAX_EVENT_NAME_LENGTH, MAX_OBJECT_NAME_LENGTH in L; lia).
    set (s1 := if is_some (vfind (ev_is ev) (ob_events o)) then s else _) in H.
    assert (S1 : wf s1 /\ rel s1 (spec_step w (RegEvent obj ev cb) c)).
    { subst s1. cbn [spec_step]. rewrite RO, G, E, RE. unfold ev_of. rewrite G. cbn [is_some andb].
      destruct (vfind (ev_is ev) (ob_events o)) as [e|] eqn:V; cbn [option_map is_some negb]; [auto|].
      destruct (get_some _ _ _ W G) as (IO & NO & OO & (O1 & O2 & O3)).
      assert (OE : ok_ev (mkEvent ev cb [])) by (unfold ok_ev; cbn; lia).
      assert (V1 : forall x, wf_ob x -> vfind (ev_is ev) (ob_events x) = None -> wf_ob (with_events x (ob_events x ++ [mkEvent ev cb []]))).
      { intros x (X1 & X2 & X3) XV. repeat split; cbn [ob_events with_events].
        - apply (app_nodup_key ev_name ev_is ok_ev ev_is_eq); auto.
        - apply Forall_app; auto.
        - apply Forall_app. split; auto. constructor; [constructor|constructor]. }
      assert (VE : forall y, vfind (ev_is y) (ob_events o ++ [mkEvent ev cb []]) =
                  if bytes_eqb y ev then Some (mkEvent ev cb []) else vfind (ev_is y) (ob_events o)).
      { intros y. rewrite (vfind_app ev_name ev_is ok_ev ev_is_eq) by auto. cbn [ev_name].
        destruct (bytes_eqb y ev) eqn:B.
        - apply bytes_eqb_eq in B. subst y. rewrite V, bytes_eqb_refl. reflexivity.
        - rewrite bytes_eqb_sym, B. destruct (vfind (ev_is y) (ob_events o)); reflexivity. }
      set (s1 := vupdate _ _ _).
      assert (GE : forall x, get_object s1 x = if bytes_eqb x obj then Some (with_events o (ob_events o ++ [mkEvent ev cb []])) else get_object s x).
      { intros x. subst s1. rewrite get_with_events by auto. rewrite G. reflexivity. }
      split.
      + apply wf_update; auto. intros o' G' WO. apply V1; auto. congruence.
      + constructor; cbn [w_obj w_over w_ev w_in]; intros x.
        * rewrite GE, RO. destruct (bytes_eqb x obj) eqn:B; [|reflexivity]. apply bytes_eqb_eq in B. subst. rewrite G. reflexivity.
        * unfold over_of. rewrite GE, RV. unfold over_of. destruct (bytes_eqb x obj) eqn:B; [|reflexivity]. apply bytes_eqb_eq in B. subst. rewrite G. reflexivity.
        * intros y. unfold ev_of. rewrite GE, RE. unfold ev_of. destruct (bytes_eqb x obj) eqn:B; [|reflexivity].
          apply bytes_eqb_eq in B. subst. rewrite G. cbn [ob_events with_events andb]. rewrite VE. destruct (bytes_eqb y ev); reflexivity.
        * intros y l. unfold in_of, ev_of. rewrite GE, RI. unfold in_of, ev_of. destruct (bytes_eqb x obj) eqn:B; [|reflexivity].
          apply bytes_eqb_eq in B. subst. rewrite G. cbn [ob_events with_events andb]. rewrite VE. destruct (bytes_eqb y ev) eqn:B; [|reflexivity].
          apply bytes_eqb_eq in B. subst y. rewrite V. reflexivity. }
    destruct S1 as [W1 R1].
    destruct (ob_process o).
    + injection H as <- <- <-. split; [auto|split; [auto|split; reflexivity]].
    + destruct (install_quiet _ _ _ _ _ W1 H) as [[Q1 Q2] ->].
      split; [auto|split; [|split; reflexivity]]. eapply rel_same; eauto.
  - (* UnregEvent *) unfold unregister_event in H.
    assert (SAME : ev_of s obj ev = None -> wf s /\ rel s (spec_step w (UnregEvent obj ev) c)).
    { intros V. split; auto. cbn [spec_step]. constructor; cbn [w_obj w_over w_ev w_in]; auto.
      - intros x y. rewrite RE. destruct (_ && _) eqn:B; [|reflexivity]. apply andb_eqb in B as [-> ->]. rewrite V. reflexivity.
      - intros x y l. rewrite RI. destruct (bytes_eqb x obj && bytes_eqb y ev) eqn:B; [|reflexivity]. apply andb_eqb in B as [-> ->]. unfold in_of. rewrite V. reflexivity. }
    destruct (get_object s obj) as [o|] eqn:G.
    2: { injection H as <- <- <-. destruct SAME; [unfold ev_of; rewrite G; reflexivity|]. split; [auto|split; [auto|split; reflexivity]]. }
    destruct (vfind (ev_is ev) (ob_events o)) as [e|] eqn:V; cbn [is_some] in H.
    2: { injection H as <- <- <-. destruct SAME; [unfold ev_of; rewrite G; auto|]. split; [auto|split; [auto|split; reflexivity]]. }
    injection H as <- <- <-. clear SAME.
    destruct (get_some _ _ _ W G) as (IO & NO & OO & (O1 & O2 & O3)).
    set (s1 := vupdate _ _ _).
    assert (GE : forall x, get_object s1 x = if bytes_eqb x obj then Some (with_events o (vremove (ev_is ev) (ob_events o))) else get_object s x).
    { intros x. subst s1. rewrite get_with_events by auto. rewrite G. reflexivity. }
    assert (VE : forall y, vfind (ev_is y) (vremove (ev_is ev) (ob_events o)) = if bytes_eqb y ev then None else vfind (ev_is y) (ob_events o)).
    { intros y. apply (vfind_remove ev_name ev_is ok_ev ev_is_eq); auto. }
    split; [|split].
    + apply wf_update; auto. intros o' _ (X1 & X2 & X3). repeat split; cbn [ob_events with_events]; [apply vremove_nodup|apply vremove_ok|apply vremove_ok]; auto.
    + cbn [spec_step]. constructor; cbn [w_obj w_over w_ev w_in]; intros x.
      * rewrite GE, RO. destruct (bytes_eqb x obj) eqn:B; [|reflexivity]. apply bytes_eqb_eq in B. subst. rewrite G. reflexivity.
      * unfold over_of. rewrite GE, RV. unfold over_of. destruct (bytes_eqb x obj) eqn:B; [|reflexivity]. apply bytes_eqb_eq in B. subst. rewrite G. reflexivity.
      * intros y. unfold ev_of. rewrite GE, RE. unfold ev_of. destruct (bytes_eqb x obj) eqn:B; [|reflexivity].
        apply bytes_eqb_eq in B. subst. rewrite G. cbn [ob_events with_events andb]. rewrite VE. destruct (bytes_eqb y ev); reflexivity.
      * intros y l. unfold in_of, ev_of. rewrite GE, RI. unfold in_of, ev_of. destruct (bytes_eqb x obj) eqn:B; [|reflexivity].
        apply bytes_eqb_eq in B. subst. rewrite G. cbn [ob_events with_events andb]. rewrite VE. destruct (bytes_eqb y ev); reflexivity.
    + split; reflexivity.
  - (* RegOverride *) unfold register_override in H.
    destruct (get_object s obj) as [o|] eqn:G.
    2: { injection H as <- <- <-. split; [auto|split; [|split; reflexivity]]. cbn [spec_step]. rewrite RO, G. cbn [is_some].
         constructor; cbn [w_obj w_over w_ev w_in]; auto. intros x. destruct (bytes_eqb x obj) eqn:B; [|apply RV].
         apply bytes_eqb_eq in B. subst. unfold over_of. rewrite G. reflexivity. }
    set (s1 := vupdate _ _ _) in H.
    assert (GE : forall x, get_object s1 x = if bytes_eqb x obj then Some (mkObject (ob_name o) (ob_methods o) (ob_events o) (ob_process o) true) else get_object s x).
    { intros x. subst s1. rewrite get_update by auto. rewrite G. reflexivity. }
    assert (W1 : wf s1) by (apply wf_update; auto).
    assert (R1 : rel s1 (spec_step w (RegOverride obj) c)).
    { cbn [spec_step]. constructor; cbn [w_obj w_over w_ev w_in]; intros x.
      - rewrite GE, RO. destruct (bytes_eqb x obj) eqn:B; [|reflexivity]. apply bytes_eqb_eq in B. subst. rewrite G. reflexivity.
      - unfold over_of. rewrite GE. destruct (bytes_eqb x obj) eqn:B; [|apply RV]. cbn. rewrite RO, G. reflexivity.
      - intros y. unfold ev_of. rewrite GE, RE. unfold ev_of. destruct (bytes_eqb x obj) eqn:B; [|reflexivity]. apply bytes_eqb_eq in B. subst. rewrite G. reflexivity.
      - intros y l. unfold in_of, ev_of. rewrite GE, RI. unfold in_of, ev_of. destruct (bytes_eqb x obj) eqn:B; [|reflexivity]. apply bytes_eqb_eq in B. subst. rewrite G. reflexivity. }
    destruct (ob_process o).
    + injection H as <- <- <-. split; [auto|split; [auto|split; reflexivity]].
    + destruct (install_quiet _ _ _ _ _ W1 H) as [[Q1 Q2] ->].
      split; [auto|split; [|split; reflexivity]]. eapply rel_same; eauto.
  - (* Request *) unfold subscription_request in H. unfold obs_ok.
    destruct (get_object s obj) as [o|] eqn:G.
    2: { injection H as <- <- <-. destruct (is_none_get _ _ _ R G) as (_ & _ & Z1 & _).
         cbn [spec_step]. rewrite Z1. cbn [is_some]. rewrite andb_false_r. split; [auto|split; [auto|]].
         cbn [expected_callbacks]. rewrite Z1. repeat split. discriminate. }
    destruct ((_ <=? _) || _) eqn:L.
    { injection H as <- <- <-. unfold MAX_SUBSCRIBER_NAME_LENGTH, MAX_EVENT_NAME_LENGTH, MAX_OBJECT_NAME_LENGTH in L.
      assert ((strlen l <? 256) && (strlen ev <? 256) = false) as E by lia.
      cbn [spec_step]. rewrite E. cbn [andb]. split; [auto|split; [auto|]]. cbn [expected_callbacks].
      rewrite Bool.eqb_reflx. split; [|split; [reflexivity|discriminate]]. destruct (w_ev w obj ev) as [[|]|]; reflexivity. }
    assert (E : (strlen l <? 256) && (strlen ev <? 256) = true) by (unfold MAX_SUBSCRIBER_NAME_LENGTH, MAX_EVENT_NAME_LENGTH, MAX_OBJECT_NAME_LENGTH in L; lia).
    cbn [spec_step expected_callbacks]. rewrite E. cbn [andb].
    rewrite RV. unfold over_of at 1 2 3 4. rewrite G.
    unfold CORE_ERROR_SUBSCRIBE_NOT_HANDLED in H.
    destruct (ob_override o && negb (ans =? 14)) eqn:OV; cbn [negb andb].
    { injection H as <- <- <-. apply andb_prop in OV as [OV _]. rewrite OV. split; [auto|split; [auto|]].
      rewrite Bool.eqb_reflx. split; [destruct (w_ev w obj ev) as [[|]|]; reflexivity|split; [reflexivity|]].
      intros _. left. reflexivity. }
    assert (PRE : forall a, callbacks ((if ob_override o then [OverrideCallback obj ev l added] else []) ++ a) = callbacks a /\
                            sends ((if ob_override o then [OverrideCallback obj ev l added] else []) ++ a) = sends a).
    { intros a. destruct (ob_override o); split; reflexivity. }
    destruct (vfind (ev_is ev) (ob_events o)) as [e|] eqn:V.
    2: { injection H as <- <- <-. assert (Z1 : w_ev w obj ev = None) by (rewrite RE; unfold ev_of; rewrite G, V; reflexivity).
         rewrite Z1. cbn [is_some]. split; [auto|split; [auto|]].
         rewrite <- (app_nil_r (if ob_override o then _ else _)). destruct (PRE []) as [-> ->]. repeat split. discriminate. }
    assert (Z1 : w_ev w obj ev = Some (ev_cb e)) by (rewrite RE; unfold ev_of; rewrite G, V; reflexivity).
    rewrite Z1. cbn [is_some].
    destruct (get_some _ _ _ W G) as (IO & NO & OO & WO). pose proof WO as (O1 & O2 & O3).
    destruct (find_ev_some _ _ _ WO V) as (IE & NE & OE & NDE).
    destruct (if added then add_listener (ob_name o) e l else remove_listener (ob_name o) e l) as [e' a] eqn:CH.
    destruct (change_listener _ _ _ _ _ _ NDE CH) as (C1 & C2 & C3 & C4 & C5).
    rewrite NO, NE in C5.
    injection H as <- <- <-. destruct (PRE a) as [-> ->].
    set (s1 := vupdate _ _ _).
    assert (GE : forall x, get_object s1 x = if bytes_eqb x obj then Some (with_events o (vupdate (ev_is ev) (fun _ => e') (ob_events o))) else get_object s x).
    { intros x. subst s1. rewrite get_with_events by auto. rewrite G. reflexivity. }
    assert (KO : ok_ev e') by (unfold ok_ev; rewrite C1; exact OE).
    assert (VE : forall y, vfind (ev_is y) (vupdate (ev_is ev) (fun _ => e') (ob_events o)) = if bytes_eqb y ev then Some e' else vfind (ev_is y) (ob_events o)).
    { intros y. rewrite (vfind_update ev_name ev_is ok_ev ev_is_eq); auto; [rewrite V; reflexivity|]. intros x _ _. split; [congruence|auto]. }
    split; [|split].
    + apply wf_update; auto. intros o' _ (X1 & X2 & X3). repeat split; cbn [ob_events with_events].
      * rewrite (vupdate_keys ev_name ev_is ok_ev ev_is_eq); auto. intros; congruence.
      * apply (vupdate_ok ev_name ev_is ok_ev ev_is_eq); auto.
      * apply (vupdate_ok ev_name ev_is ok_ev ev_is_eq); auto.
    + constructor; cbn [w_obj w_over w_ev w_in]; intros x.
      * rewrite GE, RO. destruct (bytes_eqb x obj) eqn:B; [|reflexivity]. apply bytes_eqb_eq in B. subst x. rewrite G. reflexivity.
      * unfold over_of. rewrite GE, RV. unfold over_of. destruct (bytes_eqb x obj) eqn:B; [|reflexivity]. apply bytes_eqb_eq in B. subst x. rewrite G. reflexivity.
      * intros y. unfold ev_of. rewrite GE, RE. unfold ev_of. destruct (bytes_eqb x obj) eqn:B; [|reflexivity].
        apply bytes_eqb_eq in B. subst x. rewrite G. cbn [ob_events with_events]. rewrite VE. destruct (bytes_eqb y ev) eqn:B; [|reflexivity].
        apply bytes_eqb_eq in B. subst y. rewrite V. cbn. congruence.
      * intros y z. unfold in_of, ev_of. rewrite GE, RI. unfold in_of, ev_of. destruct (bytes_eqb x obj) eqn:B; [|reflexivity].
        apply bytes_eqb_eq in B. subst x. rewrite G. cbn [ob_events with_events andb]. rewrite VE. destruct (bytes_eqb y ev) eqn:B; [|reflexivity].
        apply bytes_eqb_eq in B. subst y. rewrite V, C4. cbn [andb]. reflexivity.
    + cbn [w_in]. rewrite !bytes_eqb_refl. cbn [andb]. rewrite RI. unfold in_of, ev_of. rewrite G, V.
      split; [|split].
      * rewrite C5. destruct (ev_cb e); cbn [andb]; [|reflexivity]. destruct (Bool.eqb _ _); reflexivity.
      * rewrite C5. destruct (ev_cb e && negb (Bool.eqb (has_listener e l) added)); reflexivity.
      * intros _. right. discriminate.
  - (* Publish *) unfold publish in H. cbn [spec_step]. unfold obs_ok. cbn [spec_step expected_callbacks].
    assert (NONE : ev_of s obj ev = None -> (forall a, In a [] <-> exists l : name, a = SendEvent obj ev l /\ w_in w obj ev l = true) /\ w_ev w obj ev = None).
    { intros V. split; [|rewrite RE, V; reflexivity]. intros a. split; [intros []|]. intros (l & _ & X). rewrite RI in X. unfold in_of in X. rewrite V in X. discriminate. }
    destruct (_ <=? _) eqn:L.
    { injection H as <- <- <-. destruct NONE as [Z1 Z2].
      { unfold ev_of. destruct (get_object s obj) eqn:G; [|reflexivity]. exfalso.
        destruct (get_some _ _ _ W G) as (_ & NO & OO & _). unfold ok_ob in OO. unfold MAX_OBJECT_NAME_LENGTH in L. rewrite NO in OO. lia. }
      split; [auto|split; [auto|split; [reflexivity|split; [|split; [constructor|exact Z1]]]]]. rewrite Z2. split; [discriminate|tauto]. }
    destruct (get_object s obj) as [o|] eqn:G.
    2: { injection H as <- <- <-. destruct NONE as [Z1 Z2]; [unfold ev_of; rewrite G; reflexivity|].
      split; [auto|split; [auto|split; [reflexivity|split; [|split; [constructor|exact Z1]]]]]. rewrite Z2. split; [discriminate|tauto]. }
    destruct (vfind (ev_is ev) (ob_events o)) as [e|] eqn:V.
    2: { injection H as <- <- <-. destruct NONE as [Z1 Z2]; [unfold ev_of; rewrite G; auto|].
      split; [auto|split; [auto|split; [reflexivity|split; [|split; [constructor|exact Z1]]]]]. rewrite Z2. split; [discriminate|tauto]. }
    injection H as <- <- <-. destruct (get_some _ _ _ W G) as (IO & NO & OO & WO).
    destruct (find_ev_some _ _ _ WO V) as (IE & NE & OE & NDE).
    split; [auto|split; [auto|split; [|split; [|split]]]].
    + unfold callbacks. clear. induction (ev_listeners e); cbn; auto.
    + rewrite RE. unfold ev_of. rewrite G, V. cbn. split; [discriminate|reflexivity].
    + apply FinFun.Injective_map_NoDup; auto. intros x y X. congruence.
    + intros a. rewrite in_map_iff. split.
      * intros (l & <- & I). exists l. split; auto. rewrite RI. unfold in_of, ev_of. rewrite G, V. apply has_listener_in. auto.
      * intros (l & -> & I). exists l. split; auto. rewrite RI in I. unfold in_of, ev_of in I. rewrite G, V in I. apply has_listener_in. auto.
Qed.

Lemma wf0 : wf [].
Proof. repeat split; constructor. Qed.
Lemma rel0 : rel [] world0.
Proof. constructor; reflexivity. Qed.
Lemma history_ok_from : forall ops s w, wf s -> rel s w -> history_ok s w ops.
Proof.
  induction ops as [|o ops IH]; intros s w W R; cbn [history_ok]; [exact I|].
  destruct (step s o) as [[c s'] acts] eqn:E.
  destruct (step_ok _ _ _ _ _ _ W R E) as (W' & R' & O). split; auto.
Qed.
Lemma history_all : forall ops, history_ok [] world0 ops.
Proof. intros. apply history_ok_from; [apply wf0|apply rel0]. Qed.

Lemma run_rel : forall ops s w, wf s -> rel s w -> wf (fst (run s ops)) /\ rel (fst (run s ops)) (world_after s w ops).
Proof.
  induction ops as [|o ops IH]; intros s w W R; cbn [run world_after]; [auto|].
  destruct (step s o) as [[c s'] acts] eqn:E.
  destruct (step_ok _ _ _ _ _ _ W R E) as (W' & R' & O).
  specialize (IH s' _ W' R'). destruct (run s' ops) as [s'' rest]. exact IH.
Qed.
Lemma reaches_iff : forall s w obj ev l, wf s -> rel s w -> reaches s obj ev l <-> w_in w obj ev l = true.
Proof.
  intros s w obj ev l W R. unfold reaches.
  destruct (publish s obj ev) as [[c s'] acts] eqn:E.
  destruct (step_ok (Publish obj ev) _ _ _ _ _ W R E) as (_ & _ & (_ & _ & _ & A)).
  rewrite A. split; [intros (x & X & Y); injection X as ->; auto|]. intros Y. exists l. auto.
Qed.

Lemma times_app : forall obj ev l d a b, times obj ev l d (a ++ b) = times obj ev l d a + times obj ev l d b.
Proof. intros. unfold times. rewrite filter_app, app_length. lia. Qed.
Lemma times_callbacks : forall obj ev l d a, times obj ev l d a = times obj ev l d (callbacks a).
Proof.
  intros. unfold times. f_equal. f_equal. induction a as [|x a IH]; cbn; auto.
  destruct x; cbn; rewrite ?IH; try destruct (_ && _); auto.
Qed.
Definition b2z (b : bool) : Z := if b then 1 else 0.
Lemma step_balance : forall o s w c s' acts obj ev l, wf s -> rel s w -> step s o = (c, s', acts) ->
  w_ev w obj ev = Some true -> destroys obj ev o = false ->
  w_ev (spec_step w o c) obj ev = Some true /\
  times obj ev l true acts - times obj ev l false acts = b2z (w_in (spec_step w o c) obj ev l) - b2z (w_in w obj ev l).
Proof.
  intros o s w c s' acts obj ev l W R E EV D.
  destruct (step_ok _ _ _ _ _ _ W R E) as (W' & R' & (CB & _)).
  rewrite (times_callbacks _ _ _ true), (times_callbacks _ _ _ false), CB. clear CB.
  assert (GO : get_object s obj <> None).
  { pose proof (r_ev _ _ R obj ev) as X. rewrite EV in X. unfold ev_of in X. intros Y. rewrite Y in X. discriminate. }
  assert (Z0 : forall z d, times obj ev l d [] + z = z) by (intros; reflexivity).
  destruct o as [n lok|n lok|ob m|ob m|ob y cb|ob y|ob|ob y x added ans|ob y]; cbn [expected_callbacks].
  - cbn [spec_step]. destruct (c =? 0) eqn:C; [|split; [auto|cbn; lia]].
    assert (bytes_eqb obj n = false) as B.
    { destruct (bytes_eqb obj n) eqn:B; [|reflexivity]. apply bytes_eqb_eq in B. subst n. exfalso.
      cbn [step] in E. unfold register_obj in E. destruct (_ || _); [injection E as <- <- <-; discriminate|].
      destruct (get_object s obj); [|auto]. injection E as <- <- <-; discriminate. }
    cbn [w_ev w_in]. rewrite B. split; [auto|cbn; lia].
  - cbn [spec_step]. destruct (c =? 0) eqn:C; [|split; [auto|cbn; lia]].
    cbn [destroys] in D. rewrite bytes_eqb_sym in D. cbn [w_ev w_in]. rewrite D. split; [auto|cbn; lia].
  - split; [auto|cbn; lia].
  - split; [auto|cbn; lia].
  - cbn [spec_step]. destruct (_ && _) eqn:C; [|split; [auto|cbn; lia]]. cbn [w_ev w_in]. split; [|cbn; lia].
    destruct (bytes_eqb obj ob && bytes_eqb ev y) eqn:B; [|auto]. apply andb_eqb in B as [<- <-].
    rewrite EV in C. cbn in C. rewrite andb_false_r in C. discriminate.
  - cbn [spec_step w_ev w_in]. cbn [destroys] in D. rewrite (bytes_eqb_sym ob), (bytes_eqb_sym y) in D. rewrite D. cbn [negb andb]. split; [auto|cbn; lia].
  - cbn [spec_step w_ev w_in]. split; [auto|cbn; lia].
  - split.
    + cbn [spec_step]. destruct (_ && _); auto.
    + destruct (bytes_eqb obj ob && bytes_eqb ev y && bytes_eqb l x) eqn:B.
      * apply andb_prop in B as [B B2]. apply andb_eqb in B as [<- <-]. apply bytes_eqb_eq in B2. subst x.
        rewrite EV. destruct (Bool.eqb _ _) eqn:Q.
        -- apply Bool.eqb_prop in Q. rewrite <- Q. cbn. lia.
        -- unfold times. cbn [filter is_cb]. rewrite !bytes_eqb_refl. cbn [andb].
           destruct (w_in (spec_step _ _ _) obj ev l), (w_in w obj ev l); cbn in Q |- *; try discriminate; reflexivity.
      * replace (w_in (spec_step w (Request ob y x added ans) c) obj ev l) with (w_in w obj ev l).
        2: { cbn [spec_step]. destruct ((strlen x <? 256) && _ && _ && _); [|reflexivity]. cbn [w_in]. rewrite B. reflexivity. }
        assert (X : forall d u, times obj ev l d [SubCallback ob y x u] = 0).
        { intros d u. unfold times. cbn [filter is_cb].
          rewrite (bytes_eqb_sym ob), (bytes_eqb_sym y), (bytes_eqb_sym x), B. reflexivity. }
        destruct (w_ev w ob y) as [[|]|]; cbn [times]; try (cbn; lia).
        destruct (Bool.eqb _ _); [cbn; lia|]. rewrite !X. lia.
  - split; [auto|cbn; lia].
Qed.
Lemma run_balance : forall ops s w obj ev l, wf s -> rel s w ->
  w_ev w obj ev = Some true -> forallb (fun o => negb (destroys obj ev o)) ops = true ->
  times obj ev l true (snd (run s ops)) - times obj ev l false (snd (run s ops)) =
  b2z (w_in (world_after s w ops) obj ev l) - b2z (w_in w obj ev l).
Proof.
  induction ops as [|o ops IH]; intros s w obj ev l W R EV D; cbn [run world_after]; [cbn; lia|].
  cbn in D. apply andb_prop in D as [D1 D2]. apply negb_true_iff in D1.
  destruct (step s o) as [[c s'] acts] eqn:E.
  destruct (step_ok _ _ _ _ _ _ W R E) as (W' & R' & _).
  destruct (step_balance _ _ _ _ _ _ obj ev l W R E EV D1) as (EV' & B).
  specialize (IH s' _ obj ev l W' R' EV' D2). destruct (run s' ops) as [s'' rest]. cbn [snd] in *.
  rewrite !times_app. lia.
Qed.
Lemma balance : forall pre ops obj ev l z0 z1, let s := fst (run [] pre) in
  w_ev (world_after [] world0 pre) obj ev = Some true ->
  forallb (fun o => negb (destroys obj ev o)) ops = true ->
  flag (reaches s obj ev l) z0 -> flag (reaches (fst (run s ops)) obj ev l) z1 ->
  times obj ev l true (snd (run s ops)) - times obj ev l false (snd (run s ops)) = z1 - z0.
Proof.
  intros pre ops obj ev l z0 z1 s EV D F0 F1.
  destruct (run_rel pre [] world0 wf0 rel0) as [W R].
  destruct (run_rel ops s _ W R) as [W' R'].
  assert (X : forall s w z, wf s -> rel s w -> flag (reaches s obj ev l) z -> b2z (w_in w obj ev l) = z).
  { intros s1 w1 z A B [[C ->]|[C ->]]; rewrite (reaches_iff _ w1) in C by auto.
    - rewrite C. reflexivity.
    - destruct (w_in w1 obj ev l); [tauto|reflexivity]. }
  rewrite (run_balance ops s _ obj ev l W R EV D).
  rewrite (X _ _ _ W' R' F1), (X _ _ _ W R F0). reflexivity.
Qed.

(** Requests keep reaching the handler. *)
Definition okm (m : method) : Prop := strlen (mt_name m) < 64.
Lemma meth_is_eq : forall n m, okm m -> meth_is n m = bytes_eqb (mt_name m) n.
Proof. intros n m H. apply strneq_eq. exact H. Qed.
Definition handled (o : object) : Prop :=
  dispatch o METHOD_SUBSCRIBE = TSubscription /\ dispatch o METHOD_UNSUBSCRIBE = TSubscription.
Definition J (k : Z) (o : object) : Prop :=
  Forall okm (ob_methods o) /\ NoDup (map mt_name (ob_methods o)) /\
  ((ob_process o = true /\ handled o) \/
   (ob_process o = false /\ ob_events o = [] /\ ob_override o = false /\
    ~ In METHOD_SUBSCRIBE (map mt_name (ob_methods o)) /\ ~ In METHOD_UNSUBSCRIBE (map mt_name (ob_methods o)) /\
    Z.of_nat (length (ob_methods o)) <= k)).
Lemma J_mono : forall k k' o, k <= k' -> J k o -> J k' o.
Proof. intros k k' o L (A & B & [C|C]); split; auto; split; auto. right. intuition lia. Qed.

Lemma dispatch_sub : forall o n, Forall okm (ob_methods o) -> dispatch o n = TSubscription ->
  forall m, mt_name m <> n -> okm m -> dispatch (with_methods o (ob_methods o ++ [m])) n = TSubscription.
Proof.
  intros o n F D m K O. unfold dispatch in *. cbn [ob_methods with_methods].
  rewrite (vfind_app mt_name meth_is okm meth_is_eq) by auto. destruct (vfind _ _); [auto|discriminate].
Qed.
Lemma dispatch_remove : forall o n m, Forall okm (ob_methods o) -> NoDup (map mt_name (ob_methods o)) -> dispatch o n = TSubscription -> n <> m ->
  dispatch (with_methods o (vremove (meth_is m) (ob_methods o))) n = TSubscription.
Proof.
  intros o n m F ND D K. unfold dispatch in *. cbn [ob_methods with_methods].
  rewrite (vfind_remove mt_name meth_is okm meth_is_eq) by auto.
  destruct (bytes_eqb n m) eqn:E; [apply bytes_eqb_eq in E; congruence|auto].
Qed.
Lemma forall_update : forall (P Q : object -> Prop) s n f, wf s -> Forall P s -> (forall o, P o -> Q o) ->
  (forall o, get_object s n = Some o -> P o -> Q (f o)) -> Forall Q (vupdate (obj_is n) f s).
Proof.
  intros P Q s n f W F PQ H. apply Forall_forall. intros x I.
  assert (X : forall l, (forall o, In o l -> P o /\ (obj_is n o = true -> get_object s n = Some o)) -> In x (vupdate (obj_is n) f l) -> Q x).
  { induction l as [|y l IH]; intros HL J0; cbn [vupdate] in J0; [destruct J0|].
    destruct (HL y) as [A B]; cbn; auto. revert J0. destruct (obj_is n y) eqn:E; intros J0.
    - destruct J0 as [<-|J0]; [apply H; auto|]. apply PQ. apply HL. cbn; auto.
    - destruct J0 as [<-|J0]; [auto|]. apply IH; auto. intros; apply HL; cbn; auto. }
  apply (X s); auto. intros o IO. rewrite Forall_forall in F. split; auto. intros E.
  destruct W as (N & F1 & F2). pose proof F1 as F1'. rewrite Forall_forall in F1'.
  apply (p_true ob_name obj_is ok_ob obj_is_eq) in E; auto. subst n.
  apply (vfind_in ob_name obj_is ok_ob obj_is_eq); auto.
Qed.

Lemma strlen_sub : strlen METHOD_SUBSCRIBE = 16 /\ strlen METHOD_UNSUBSCRIBE = 18 /\ METHOD_SUBSCRIBE <> METHOD_UNSUBSCRIBE.
Proof. repeat split. discriminate. Qed.

Lemma update_update : forall n f g l, Forall ok_ob l -> (forall x, ob_name (f x) = ob_name x) ->
     vupdate (obj_is n) g (vupdate (obj_is n) f l) = vupdate (obj_is n) (fun x => g (f x)) l.
Proof.
  intros n f g l F KF. induction l as [|y l IH]; [reflexivity|]. inversion F; subst. cbn [vupdate]. destruct (obj_is n y) eqn:E; cbn [vupdate].
    - assert (obj_is n (f y) = true) as ->; [|reflexivity]. unfold obj_is in *. rewrite KF. exact E.
    - rewrite E. f_equal. auto.
Qed.
(** installing the handlers in an object that has room *)
Lemma install_J : forall s obj o c s' acts k, wf s -> k <= 30 -> get_object s obj = Some o ->
  Forall okm (ob_methods o) -> NoDup (map mt_name (ob_methods o)) ->
  ~ In METHOD_SUBSCRIBE (map mt_name (ob_methods o)) -> ~ In METHOD_UNSUBSCRIBE (map mt_name (ob_methods o)) ->
  Z.of_nat (length (ob_methods o)) <= k ->
  install_handlers s obj = (c, s', acts) -> c = 0 /\
  exists f, s' = vupdate (obj_is obj) f s /\ (forall x, ob_name (f x) = ob_name x) /\ J k (f o).
Proof.
  intros s obj o c s' acts k W K G FM NM N1 N2 LM H. unfold install_handlers in H. rewrite G in H.
  assert (V1 : vfind (meth_is METHOD_SUBSCRIBE) (ob_methods o) = None) by (apply (vfind_none mt_name meth_is okm meth_is_eq); auto).
  assert (V2 : vfind (meth_is METHOD_UNSUBSCRIBE) (ob_methods o) = None) by (apply (vfind_none mt_name meth_is okm meth_is_eq); auto).
  rewrite V1 in H. cbn [is_some] in H.
  destruct strlen_sub as (L1 & L2 & L3).
  set (m1 := mkMethod METHOD_SUBSCRIBE true) in *. set (m2 := mkMethod METHOD_UNSUBSCRIBE true) in *.
  assert (OK1 : okm m1) by (unfold okm, m1; cbn [mt_name]; lia).
  assert (OK2 : okm m2) by (unfold okm, m2; cbn [mt_name]; lia).
  assert (R1 : register_method s obj METHOD_SUBSCRIBE true =
    (CORE_SUCCESS, vupdate (obj_is obj) (fun o => with_methods o (ob_methods o ++ [m1])) s, [])).
  { unfold register_method. rewrite L1, G, V1. unfold MAX_SUPPORTED_METHODS, MAX_METHOD_NAME_LENGTH.
    destruct (64 <=? 16) eqn:E; [lia|]. destruct (32 <=? _) eqn:E2; [lia|]. reflexivity. }
  rewrite R1 in H. cbn [negb Z.eqb CORE_SUCCESS] in H.
  set (s1 := vupdate (obj_is obj) _ s) in H.
  assert (G1 : get_object s1 obj = Some (with_methods o (ob_methods o ++ [m1]))).
  { subst s1. rewrite get_update by auto. rewrite bytes_eqb_refl, G. reflexivity. }
  assert (V3 : vfind (meth_is METHOD_UNSUBSCRIBE) (ob_methods o ++ [m1]) = None).
  { rewrite (vfind_app mt_name meth_is okm meth_is_eq), V2 by auto. cbn [mt_name m1].
    destruct (bytes_eqb METHOD_SUBSCRIBE METHOD_UNSUBSCRIBE) eqn:E; [apply bytes_eqb_eq in E; congruence|reflexivity]. }
  assert (R2 : register_method s1 obj METHOD_UNSUBSCRIBE true =
    (CORE_SUCCESS, vupdate (obj_is obj) (fun o => with_methods o (ob_methods o ++ [m2])) s1, [])).
  { unfold register_method. rewrite L2, G1. cbn [ob_methods with_methods]. rewrite V3, app_length. unfold MAX_SUPPORTED_METHODS, MAX_METHOD_NAME_LENGTH.
    destruct (64 <=? 18) eqn:E; [lia|]. cbn [length]. destruct (32 <=? _) eqn:E2; [lia|]. reflexivity. }
  rewrite R2 in H. cbn [negb Z.eqb CORE_SUCCESS] in H. injection H as <- <- <-. split; [reflexivity|].
  assert (W1 : wf s1) by (subst s1; apply wf_update; auto).
  rewrite update_update by (auto; apply W1). subst s1. rewrite update_update by (auto; apply W). eexists. split; [reflexivity|]. split; [reflexivity|].
  repeat split; cbn [ob_methods with_methods ob_process].
  - apply Forall_app. split; [apply Forall_app|]; auto.
  - rewrite !map_app. cbn [map m1 m2 mt_name]. apply nodup_app_intro; [apply nodup_app_intro; auto| |].
    + repeat constructor; cbn; tauto.
    + intros x I1 [<-|[]]. auto.
    + repeat constructor; cbn; tauto.
    + intros x I1 [<-|[]]. apply in_app_or in I1 as [I1|[I1|[]]]; auto.
  - left. split; [reflexivity|]. unfold handled, dispatch. cbn [ob_methods with_methods].
    rewrite !(vfind_app mt_name meth_is okm meth_is_eq), V1, V2 by (auto; apply Forall_app; auto).
    split; reflexivity.
Qed.
Lemma reserved_neq : forall m, reserved_name m = false -> METHOD_SUBSCRIBE <> m /\ METHOD_UNSUBSCRIBE <> m.
Proof.
  intros m H. unfold reserved_name in H. apply orb_false_iff in H as [A B].
  split; intros <-; [rewrite bytes_eqb_refl in A|rewrite bytes_eqb_refl in B]; discriminate.
Qed.


Lemma step_J : forall o s c s' acts k, wf s -> Forall (J k) s -> step s o = (c, s', acts) ->
  touches_reserved o = false -> 0 <= k -> k + (if is_regmethod o then 1 else 0) <= 30 ->
  Forall (J (k + if is_regmethod o then 1 else 0)) s' /\
  (forall obj ev cb, o = RegEvent obj ev cb -> strlen ev < 256 -> get_object s obj <> None -> c = 0).
Proof.
  intros o s c s' acts k W F H TR K0 K.
  assert (FK : Forall (J (k + if is_regmethod o then 1 else 0)) s).
  { eapply Forall_impl; [|exact F]. intros a. apply J_mono. destruct (is_regmethod o); lia. }
  assert (ID : s' = s -> (forall obj ev cb, o = RegEvent obj ev cb -> strlen ev < 256 -> get_object s obj <> None -> c = 0) ->
     Forall (J (k + if is_regmethod o then 1 else 0)) s' /\
  (forall obj ev cb, o = RegEvent obj ev cb -> strlen ev < 256 -> get_object s obj <> None -> c = 0)).
  { intros -> X. auto. }
  assert (GJ : forall obj o, get_object s obj = Some o -> J k o).
  { intros obj x G. destruct (get_some _ _ _ W G) as (I & _). rewrite Forall_forall in F. auto. }
  destruct o as [n lok|n lok|obj m|obj m|obj ev cb|obj ev|obj|obj ev l added ans|obj ev]; cbn [step is_regmethod touches_reserved] in *.
  - unfold register_obj in H. destruct (_ || _); [injection H as <- <- <-; apply ID; auto; discriminate|].
    destruct (is_some _); [injection H as <- <- <-; apply ID; auto; discriminate|].
    destruct lok; injection H as <- <- <-; [|apply ID; auto; discriminate]. split; [|discriminate].
    apply Forall_app. split; auto. constructor; auto.
    split; [constructor|split; [constructor|]]. right. cbn. repeat split; auto; lia.
  - unfold unregister_obj in H. destruct (_ || _); [injection H as <- <- <-; apply ID; auto; discriminate|].
    destruct lok; cbn [negb] in H; [|injection H as <- <- <-; apply ID; auto; discriminate].
    destruct (is_some _); injection H as <- <- <-; [|apply ID; auto; discriminate]. split; [|discriminate].
    apply vremove_ok. auto.
  - unfold register_method in H. destruct (_ <=? _) eqn:L; [injection H as <- <- <-; apply ID; auto; discriminate|].
    destruct (get_object s obj) as [o|] eqn:G; [|injection H as <- <- <-; apply ID; auto; discriminate].
    destruct (MAX_SUPPORTED_METHODS <=? _); [injection H as <- <- <-; apply ID; auto; discriminate|].
    destruct (vfind (meth_is m) (ob_methods o)) eqn:V; cbn [is_some] in H; [injection H as <- <- <-; apply ID; auto; discriminate|].
    injection H as <- <- <-. split; [|discriminate].
    destruct (reserved_neq _ TR) as [T1 T2].
    apply (forall_update (J k)); [exact W|exact F|intros x; apply J_mono; lia|].
    intros x G' (J1 & J2 & J3). assert (x = o) by congruence. subst x.
    assert (OK : okm (mkMethod m false)) by (unfold okm; cbn; unfold MAX_METHOD_NAME_LENGTH in L; lia).
    split; [|split]; cbn [ob_methods with_methods].
    + apply Forall_app; auto.
    + apply (app_nodup_key mt_name meth_is okm meth_is_eq); auto.
    + destruct J3 as [(P & H1 & H2)|(P & P1 & P2 & P3 & P4 & P5)]; [left|right].
      * split; auto. split; apply dispatch_sub; cbn; auto.
      * cbn [ob_process ob_events ob_override with_methods]. rewrite !map_app, !in_app_iff, app_length. cbn.
        repeat split; auto; try lia; intros [X|[X|[]]]; auto.
  - unfold unregister_method in H.
    destruct (get_object s obj) as [o|] eqn:G; [|injection H as <- <- <-; apply ID; auto; discriminate].
    destruct (vfind (meth_is m) (ob_methods o)) eqn:V; cbn [is_some] in H; injection H as <- <- <-; [|apply ID; auto; discriminate].
    split; [|discriminate].
    destruct (reserved_neq _ TR) as [T1 T2].
    apply (forall_update (J k)); [exact W|exact F|intros x; apply J_mono; lia|].
    intros x G' (J1 & J2 & J3). assert (x = o) by congruence. subst x.
    assert (INC : forall y, In y (map mt_name (vremove (meth_is m) (ob_methods o))) -> In y (map mt_name (ob_methods o))).
    { intros y Y. apply in_map_iff in Y as (z & <- & Z1). apply in_map. eapply vremove_incl; eauto. }
    split; [|split]; cbn [ob_methods with_methods].
    + apply vremove_ok; auto.
    + apply vremove_nodup; auto.
    + destruct J3 as [(P & H1 & H2)|(P & P1 & P2 & P3 & P4 & P5)]; [left|right].
      * split; auto. split; apply dispatch_remove; auto.
      * cbn [ob_process ob_events ob_override with_methods].
        assert (LL : forall q (l : list method), Z.of_nat (length (vremove q l)) <= Z.of_nat (length l)).
        { intros q. induction l as [|y l IH]; [cbn; lia|]. cbn [vremove]. destruct (q y); cbn [length]; lia. }
        repeat split; auto. specialize (LL (meth_is m) (ob_methods o)). lia.
  - unfold register_event in H. destruct (_ <=? _) eqn:L.
    { injection H as <- <- <-. apply ID; auto. intros ? ? ? X. injection X as -> -> ->. unfold MAX_EVENT_NAME_LENGTH, MAX_OBJECT_NAME_LENGTH in L. lia. }
    destruct (get_object s obj) as [o|] eqn:G.
    2: { injection H as <- <- <-. apply ID; auto. intros ? ? ? X. injection X as -> -> ->. congruence. }
    pose proof (GJ _ _ G) as (J1 & J2 & J3).
    set (s1 := if is_some (vfind (ev_is ev) (ob_events o)) then s else _) in H.
    destruct J3 as [(P & H1 & H2)|(P & P1 & P2 & P3 & P4 & P5)].
    + rewrite P in H. injection H as <- <- <-. split; [|reflexivity]. subst s1.
      destruct (is_some _); auto. apply (forall_update (J k)); [exact W|exact F|intros x; apply J_mono; lia|].
      intros x G' _. assert (x = o) by congruence. subst x.
      split; [|split]; auto. left. split; auto. split; auto.
    + rewrite P in H.
      assert (S1 : s1 = vupdate (obj_is obj) (fun o => with_events o (ob_events o ++ [mkEvent ev cb []])) s) by (subst s1; rewrite P1; reflexivity).
      clearbody s1. rewrite S1 in H. clear S1 s1. set (s1 := vupdate _ _ _) in H.
      assert (W1 : wf s1).
      { subst s1. apply wf_update; auto. intros o' G' _. assert (o' = o) by congruence. subst o'.
        unfold wf_ob. cbn [ob_events with_events]. rewrite P1. cbn. repeat split; repeat constructor; cbn; try tauto.
        unfold ok_ev; cbn; unfold MAX_EVENT_NAME_LENGTH, MAX_OBJECT_NAME_LENGTH in L; lia. }
      set (o1 := with_events o (ob_events o ++ [mkEvent ev cb []])).
      assert (G1 : get_object s1 obj = Some o1).
      { subst s1. rewrite get_with_events by auto. rewrite bytes_eqb_refl, G. reflexivity. }
      destruct (install_J _ _ _ _ _ _ k W1 ltac:(lia) G1 J1 J2 P3 P4 P5 H) as (-> & f & -> & Kf & Jf).
      split; [|reflexivity]. subst s1. rewrite update_update by (auto; apply W).
      apply (forall_update (J k)); [exact W|exact F|intros x; apply J_mono; lia|].
      intros x G' _. assert (x = o) by congruence. subst x. replace (k + 0) with k by lia. exact Jf.
  - unfold unregister_event in H.
    destruct (get_object s obj) as [o|] eqn:G; [|injection H as <- <- <-; apply ID; auto; discriminate].
    destruct (is_some _); injection H as <- <- <-; [|apply ID; auto; discriminate].
    split; [|discriminate]. apply (forall_update (J k)); [exact W|exact F|intros x; apply J_mono; lia|].
    intros x G' (J1 & J2 & J3). split; [|split]; auto.
    destruct J3 as [(P & H1 & H2)|(P & P1 & P2 & P3 & P4 & P5)]; [left; split; auto; split; auto|right].
    cbn [ob_process ob_events ob_override ob_methods with_events]. rewrite P1. repeat split; auto. lia.
  - unfold register_override in H.
    destruct (get_object s obj) as [o|] eqn:G; [|injection H as <- <- <-; apply ID; auto; discriminate].
    pose proof (GJ _ _ G) as (J1 & J2 & J3). split; [|discriminate].
    set (s1 := vupdate _ _ _) in H.
    destruct J3 as [(P & H1 & H2)|(P & P1 & P2 & P3 & P4 & P5)].
    + rewrite P in H. injection H as <- <- <-. subst s1.
      apply (forall_update (J k)); [exact W|exact F|intros x; apply J_mono; lia|].
      intros x G' _. assert (x = o) by congruence. subst x.
      split; [|split]; auto. left. split; auto. split; auto.
    + rewrite P in H.
      assert (W1 : wf s1) by (subst s1; apply wf_update; auto).
      set (o1 := mkObject (ob_name o) (ob_methods o) (ob_events o) (ob_process o) true).
      assert (G1 : get_object s1 obj = Some o1).
      { subst s1. rewrite get_update by auto. rewrite bytes_eqb_refl, G. reflexivity. }
      destruct (install_J _ _ _ _ _ _ k W1 ltac:(lia) G1 J1 J2 P3 P4 P5 H) as (-> & f & -> & Kf & Jf).
      subst s1. rewrite update_update by (auto; apply W).
      apply (forall_update (J k)); [exact W|exact F|intros x; apply J_mono; lia|].
      intros x G' _. assert (x = o) by congruence. subst x. replace (k + 0) with k by lia. exact Jf.
  - unfold subscription_request in H.
    destruct (get_object s obj) as [o|] eqn:G; [|injection H as <- <- <-; apply ID; auto; discriminate].
    destruct (_ || _); [injection H as <- <- <-; apply ID; auto; discriminate|].
    destruct (_ && _); [injection H as <- <- <-; apply ID; auto; discriminate|].
    destruct (vfind (ev_is ev) (ob_events o)) as [e|] eqn:V; [|injection H as <- <- <-; apply ID; auto; discriminate].
    destruct (if added then _ else _) as [e' a]. injection H as <- <- <-.
    split; [|discriminate]. apply (forall_update (J k)); [exact W|exact F|intros x; apply J_mono; lia|].
    intros x G' (J1 & J2 & J3). assert (x = o) by congruence. subst x. split; [|split]; auto.
    destruct J3 as [(P & H1 & H2)|(P & P1 & P2 & P3 & P4 & P5)]; [left; split; auto; split; auto|].
    rewrite P1 in V. discriminate.
  - unfold publish in H. destruct (_ <=? _); [injection H as <- <- <-; apply ID; auto; discriminate|].
    destruct (get_object s obj) as [o|] eqn:G; [|injection H as <- <- <-; apply ID; auto; discriminate].
    destruct (vfind _ _); injection H as <- <- <-; apply ID; auto; discriminate.
Qed.

Lemma run_J : forall ops s w k, wf s -> rel s w -> Forall (J k) s -> 0 <= k -> existsb touches_reserved ops = false ->
  k + count_regmethod ops <= 30 -> Forall (J (k + count_regmethod ops)) (fst (run s ops)).
Proof.
  induction ops as [|o ops IH]; intros s w k W R F K0 T K; cbn [run].
  - cbn. replace (k + _) with k by (cbn; lia). auto.
  - destruct (step s o) as [[c s'] acts] eqn:E.
    destruct (step_ok _ _ _ _ _ _ W R E) as (W' & R' & _).
    cbn in T. apply orb_false_iff in T as [T1 T2].
    assert (C : count_regmethod (o :: ops) = (if is_regmethod o then 1 else 0) + count_regmethod ops).
    { unfold count_regmethod. cbn [filter]. destruct (is_regmethod o); cbn [length]; lia. }
    assert (0 <= count_regmethod ops) by (unfold count_regmethod; lia).
    rewrite C in K |- *.
    destruct (step_J _ _ _ _ _ k W F E T1 K0 ltac:(lia)) as [F' _].
    specialize (IH s' _ _ W' R' F' ltac:(destruct (is_regmethod o); lia) T2 ltac:(lia)).
    destruct (run s' ops) as [s'' rest]. cbn [fst] in *. rewrite Z.add_assoc. exact IH.
Qed.
Lemma requests_dispatched : forall ops obj o, existsb touches_reserved ops = false -> count_regmethod ops <= 30 ->
  get_object (fst (run [] ops)) obj = Some o -> (ob_events o <> [] \/ ob_override o = true) ->
  dispatch o METHOD_SUBSCRIBE = TSubscription /\ dispatch o METHOD_UNSUBSCRIBE = TSubscription.
Proof.
  intros ops obj o T K G H.
  destruct (run_rel ops [] world0 wf0 rel0) as [W R].
  pose proof (run_J ops [] world0 0 wf0 rel0 (Forall_nil _) ltac:(lia) T ltac:(lia)) as F.
  destruct (get_some _ _ _ W G) as (I & _). rewrite Forall_forall in F. destruct (F o I) as (_ & _ & [(_ & X)|(_ & X & Y & _)]); [exact X|].
  destruct H; congruence.
Qed.
