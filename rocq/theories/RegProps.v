(** Properties of registering a list of elements: C44. *)
From Coq Require Import String.
From Verif Require Import Common CommonFacts Errors RouteModel RouteSpec RouteProofs RouteInv RouteRun RouteLook RouterModel RouterSpec RouterProofs RouterProps RegModel RegSpec RegProofs.
From Verif Require ElemModel.
From Coq Require Import Lia.
Local Open Scope string_scope.
Local Open Scope list_scope.
Local Open Scope Z_scope.

Lemma advisory_prefix : forall l l' seen, advisory_first seen (l ++ l') -> advisory_first seen l.
Proof. induction l as [|r l IH]; intros l' seen H; [exact I|]. destruct r; cbn in *; [destruct H as [H1 H2]; split; [exact H1|]|..]; eapply IH; eassumption. Qed.
Lemma setup : forall l c id els, consistent (l ++ asked c id els) -> exists b0 b h, start = Ok b0 /\ serve_all b0 l = Ok (b, h) /\ map fst h = l /\ rel (among (requested (l ++ asked c id els))) b (view_of h).
Proof.
  intros l c id els [T G R AD]. set (A := among (requested (l ++ asked c id els))). destruct (start_rel A T) as (b0 & E0 & R0); [intros n H; apply in_app_iff; left; apply in_map, H|].
  destruct (serve_rel A l b0 at_start [] T (rel_weak _ _ _ _ R0)) as (b & h & E & MF & RL).
  - intros s [].
  - intros c' e id' H. assert (H' : In (Sub c' e id') (l ++ asked c id els)) by (apply in_app_iff; left; exact H). split; [|eapply G; eauto]. apply in_app_iff. right. apply in_flat_map. exists (Sub c' e id'). split; [exact H'|left; reflexivity].
  - intros c' e H. apply (R c' e). apply in_app_iff. left. exact H.
  - eapply advisory_prefix, AD.
  - exists b0, b, h. auto.
Qed.
Lemma names_usable : forall l c id els e, consistent (l ++ asked c id els) -> ~ In ADVISORY (map fst els) -> In e els -> usable (among (requested (l ++ asked c id els))) (fst e).
Proof.
  intros l c id els e [T G R AD] NA He. assert (H : In (Sub c (fst e) id) (l ++ asked c id els)) by (apply in_app_iff; right; apply (in_map (fun e => Sub c (fst e) id)), He).
  split; [|split; [eapply G, H|]]. { apply in_app_iff. right. apply in_flat_map. exists (Sub c (fst e) id). split; [exact H|left; reflexivity]. }
  intros Q. apply NA. rewrite <- Q. apply in_map, He.
Qed.
Lemma dispatch_plain : forall l b v m, tidy (requested l) -> rel (among (requested l)) b v -> plain l (m_topic m) -> Z.testbit (m_flags m) 0 = false -> dispatch b m = Ok (map (deliver_to m) (owners v (split (m_topic m)))).
Proof.
  intros l b v m T RL (P1 & P2 & P3 & P4) TB. rewrite (dispatch_rel (among (requested l)) b v m T RL P1 P2 P3 P4 (or_intror TB)). unfold expected. rewrite TB. destruct (owners v (split (m_topic m))); reflexivity.
Qed.
Lemma none_clears : forall v els k, none_below v els -> (forall e, In e (firstn k els) -> forall u o, In (u, o) (names_of v) -> stands_for u (split (fst e)) = false) ->
  filter (fun x => negb (clears (firstn k els) x)) (names_of v) = names_of v.
Proof.
  intros v els k NB NS. assert (X : forall l, incl l (names_of v) -> filter (fun x => negb (clears (firstn k els) x)) l = l); [|apply X, incl_refl].
  induction l as [|(u, o) l IH]; intros IN; [reflexivity|]. cbn [filter]. replace (clears (firstn k els) (u, o)) with false.
  - cbn [negb]. f_equal. apply IH. intros y Hy. apply IN. right. exact Hy.
  - symmetry. unfold clears. destruct (existsb _ (firstn k els)) eqn:X; [|reflexivity]. exfalso. apply existsb_exists in X as (e & He & B). cbn in B. apply below_spec in B as (r & ->).
    assert (HU : In (split (fst e) ++ r, o) (names_of v)) by (apply IN; left; reflexivity). pose proof (NB _ o e r HU (firstn_subset _ _ _ He) eq_refl) as ->. rewrite app_nil_r in HU. pose proof (NS e He _ _ HU) as Q. rewrite stands_refl in Q. discriminate.
Qed.

(** C44.  If the call fails, whatever was asked for in the list is delivered to nobody it was not
    delivered to before, provided no answer of the broker got lost; and if nobody had registered
    anything below the listed names, the broker delivers every message as it did before. *)
Theorem C44_broker_partial : forall l c id els fs t, consistent (l ++ asked c id els) -> els <> [] -> ~ In ADVISORY (map fst els) ->
  exists b0 b h, start = Ok b0 /\ serve_all b0 l = Ok (b, h) /\ map fst h = l /\
  (listening (view_of h) c id els -> exists b' t' rc, reg_elements c id fs els b t = Ok (b', t', rc) /\
   (rc <> E_SUCCESS -> answered fs ->
    (forall m, plain (l ++ asked c id els) (m_topic m) -> Z.testbit (m_flags m) 0 = false ->
     exists ds ds', dispatch b m = Ok ds /\ dispatch b' m = Ok ds' /\ incl ds' ds) /\
    (none_below (view_of h) els -> forall m, plain (l ++ asked c id els) (m_topic m) -> (Z.testbit (m_flags m) 0 = true -> plain (l ++ asked c id els) (m_reply m)) -> dispatch b' m = dispatch b m))).
Proof.
  intros l c id els fs t C NE NA. destruct (setup l c id els C) as (b0 & b & h & E0 & E & MF & RL). exists b0, b, h. split; [exact E0|]. split; [exact E|]. split; [exact MF|].
  intros LS. pose proof (k_tidy _ C) as T. destruct (reg_rel _ c id fs els b (view_of h) t T RL LS NE (fun e He _ => names_usable l c id els e C NA He)) as (b' & k & rc & r & RE & NS & RS).
  eexists b', _, rc. split; [exact RE|]. intros NZ AN. destruct RS as [[Q _]|(_ & K & LB & RL')]; [contradiction|].
  destruct LB as [->|(Q & _)]; [|exfalso; apply (AN _ Q)]. rewrite app_nil_r in RL'. split.
  - intros m PM TB. eexists _, _. split; [apply (dispatch_plain _ _ _ _ T RL PM TB)|]. split; [apply (dispatch_plain _ _ _ _ T RL' PM TB)|].
    intros d Hd. apply in_map_iff in Hd as (o & <- & Ho). apply in_map. apply in_map_iff in Ho as (x & <- & Hx). apply filter_In in Hx as [Hx S]. cbn [names_of] in Hx. apply filter_In in Hx as [Hx _]. apply in_map, filter_In. auto.
  - intros NB m (P1 & P2 & P3 & P4) PR. rewrite (none_clears _ _ _ NB NS) in RL'.
    assert (PR' : fits (m_reply m) /\ m_reply m <> [] /\ ends_dot (m_reply m) = false /\ askableP (among (requested (l ++ asked c id els))) (split (m_reply m)) \/ Z.testbit (m_flags m) 0 = false).
    { destruct (Z.testbit (m_flags m) 0); [left; apply PR; reflexivity|right; reflexivity]. }
    rewrite (dispatch_rel _ b (view_of h) m T RL P1 P2 P3 P4 PR'), (dispatch_rel _ b' _ m T RL' P1 P2 P3 P4 PR'). reflexivity.
Qed.
Print Assumptions C44_broker_partial.
(** C44.  If it succeeds, every listed name is delivered to the component, in addition to what was
    delivered before. *)
Theorem C44_success_partial : forall l c id els fs t, consistent (l ++ asked c id els) -> els <> [] -> ~ In ADVISORY (map fst els) ->
  exists b0 b h, start = Ok b0 /\ serve_all b0 l = Ok (b, h) /\ map fst h = l /\
  (listening (view_of h) c id els -> exists b' t' rc, reg_elements c id fs els b t = Ok (b', t', rc) /\
   (rc = E_SUCCESS -> forall m, plain (l ++ asked c id els) (m_topic m) -> Z.testbit (m_flags m) 0 = false ->
    exists ds, dispatch b m = Ok ds /\ dispatch b' m = Ok (ds ++ map (fun _ => deliver_to m (Some (c, id))) (filter (fun e => serves (split (m_topic m)) (split (fst e))) els)))).
Proof.
  intros l c id els fs t C NE NA. destruct (setup l c id els C) as (b0 & b & h & E0 & E & MF & RL). exists b0, b, h. split; [exact E0|]. split; [exact E|]. split; [exact MF|].
  intros LS. pose proof (k_tidy _ C) as T. destruct (reg_rel _ c id fs els b (view_of h) t T RL LS NE (fun e He _ => names_usable l c id els e C NA He)) as (b' & k & rc & r & RE & NS & RS).
  eexists b', _, rc. split; [exact RE|]. intros Z0. destruct RS as [(_ & K & RL')|[Q _]]; [|contradiction].
  intros m PM TB. eexists. split; [apply (dispatch_plain _ _ _ _ T RL PM TB)|]. rewrite (dispatch_plain _ _ _ _ T RL' PM TB). f_equal. unfold owners. cbn [names_of]. rewrite filter_app, !map_app. f_equal.
  unfold added. generalize els. clear. induction els as [|e els IH]; [reflexivity|]. cbn [map filter fst]. destruct (serves (split (m_topic m)) (split (fst e))); cbn [map snd]; [f_equal; exact IH|exact IH].
Qed.
Print Assumptions C44_success_partial.
(** C44.  The call fails if one of the names is taken, also by a name with placeholders. *)
Theorem C44_duplicate_partial : forall l c id els fs t, consistent (l ++ asked c id els) -> els <> [] -> ~ In ADVISORY (map fst els) ->
  exists b0 b h, start = Ok b0 /\ serve_all b0 l = Ok (b, h) /\ map fst h = l /\
  (listening (view_of h) c id els -> exists b' t' rc, reg_elements c id fs els b t = Ok (b', t', rc) /\
   forall e u o, In e els -> In (u, o) (names_of (view_of h)) -> stands_for u (split (fst e)) = true -> rc <> E_SUCCESS).
Proof.
  intros l c id els fs t C NE NA. destruct (setup l c id els C) as (b0 & b & h & E0 & E & MF & RL). exists b0, b, h. split; [exact E0|]. split; [exact E|]. split; [exact MF|].
  intros LS. pose proof (k_tidy _ C) as T. destruct (reg_rel _ c id fs els b (view_of h) t T RL LS NE (fun e He _ => names_usable l c id els e C NA He)) as (b' & k & rc & r & RE & NS & RS).
  eexists b', _, rc. split; [exact RE|]. intros e u o He HU ST Z0. destruct RS as [(_ & K & _)|[Q _]]; [|contradiction]. rewrite K, firstn_all in NS. rewrite (NS e He u o HU) in ST. discriminate.
Qed.
Print Assumptions C44_duplicate_partial.

(** C44 for the component itself: whatever the outcome, the elements before the failing one stay
    registered in the component, exactly as if each had been registered with success. *)
Lemma loop_tree : forall c id fs els i b t b' t' j rc, reg_loop c id fs i els b t = Ok (b', t', j, rc) ->
  exists k, (rc = E_SUCCESS /\ k = length els \/ rc <> E_SUCCESS /\ (k < length els)%nat) /\ forall l, ElemModel.run ElemModel.empty l = Ok t -> ElemModel.run ElemModel.empty (l ++ registrations_of els k) = Ok t'.
Proof.
  intros c id fs. induction els as [|(s, x) els IH]; intros i b t b' t' j rc H; cbn [reg_loop] in H.
  - injection H as <- <- <- <-. exists 0%nat. split; [left; auto|]. intros l R. unfold registrations_of. cbn. rewrite app_nil_r. exact R.
  - assert (STOP : forall e, e <> E_SUCCESS -> Ok (A := broker * ElemModel.tree * nat * Z) (E := unit) (b', t, i, e) = Ok (b', t', j, rc) -> exists k, (rc = E_SUCCESS /\ k = length ((s, x) :: els) \/ rc <> E_SUCCESS /\ (k < length ((s, x) :: els))%nat) /\
      forall l, ElemModel.run ElemModel.empty l = Ok t -> ElemModel.run ElemModel.empty (l ++ registrations_of ((s, x) :: els) k) = Ok t').
    { intros e NZ Q. injection Q as <- <- <-. exists 0%nat. split; [right; split; [exact NZ|cbn; lia]|]. intros l R. unfold registrations_of. cbn. rewrite app_nil_r. exact R. }
    assert (bb : forall b1 e, Ok (A := broker * ElemModel.tree * nat * Z) (E := unit) (b1, t, i, e) = Ok (b', t', j, rc) -> b1 = b') by (intros b1 e Q; injection Q; auto).
    destruct s as [|s0 s1]; [pose proof (bb _ _ H); subst b'; eapply STOP; [|exact H]; discriminate|]. set (s := s0 :: s1) in *.
    destruct (add_element b c id s (fs i)) as [(b1, e)| |]; cbn [obind] in H; try discriminate.
    destruct e; try (pose proof (bb _ _ H); subst b'; eapply STOP; [|exact H]; discriminate).
    destruct (IH _ _ _ _ _ _ _ H) as (k & RS & RT). exists (S k). split; [destruct RS as [[-> ->]|[R1 R2]]; [left; auto|right; split; [exact R1|cbn; lia]]|].
    intros l R. unfold registrations_of. cbn [firstn map fst snd].
    specialize (RT (l ++ [ElemModel.Register s x])). rewrite <- app_assoc in RT. apply RT.
    revert R. generalize ElemModel.empty as t0. clear. induction l as [|o l IHl]; intros t0 R; cbn [ElemModel.run app] in *.
    + injection R as <-. reflexivity.
    + destruct (ElemModel.step t0 o) as [(t1, e)| |]; cbn [obind] in *; try discriminate. apply IHl, R.
Qed.
Theorem C44_component : forall c id fs els b t b' t' rc, els <> [] -> reg_elements c id fs els b t = Ok (b', t', rc) ->
  exists k, (rc = E_SUCCESS /\ k = length els \/ rc <> E_SUCCESS /\ (k < length els)%nat) /\
    forall l, ElemModel.run ElemModel.empty l = Ok t -> ElemModel.run ElemModel.empty (l ++ registrations_of els k) = Ok t'.
Proof.
  intros c id fs els b t b' t' rc NE H. unfold reg_elements in H. destruct els as [|e0 el]; [congruence|]. set (els := e0 :: el) in *. clearbody els.
  destruct (reg_loop c id fs 0 els b t) as [[[[b1 t1] j] rc1]| |] eqn:L; cbn [obind] in H; try discriminate. destruct (loop_tree _ _ _ _ _ _ _ _ _ _ _ L) as (k & RS & RT).
  destruct (negb (rc1 =? E_SUCCESS) && Nat.ltb 0 j); [|injection H as <- <- <-; eauto].
  destruct (unreg_elements c (firstn j els) b1) as [(b2, z)| |]; cbn [obind] in H; try discriminate. injection H as <- <- <-. eauto.
Qed.
Print Assumptions C44_component.

(** ** a case, and what can go wrong *)
Definition prop_el (s : list Z) : element := (s, ElemModel.mkInfo 0 7 true).
Definition before : list req := [Sub 1 (bs "one.INBOX.11") 1; Sub 1 (bs "Comp.one") 2; Sub 2 (bs "two.INBOX.22") 1; Sub 2 (bs "Comp.two") 2; Sub 2 (bs "Device.Tab.{i}.X") 2; Sub 1 (bs "Device.Mine") 2].
Definition wanted : list element := [prop_el (bs "Device.A"); prop_el (bs "Device.B.C"); prop_el (bs "Device.Tab.{i}.X"); prop_el (bs "Device.D")].
Definition good : nat -> fate := fun _ => Answered.
Lemma consistent_wanted : consistent (before ++ asked 1 2 wanted).
Proof.
  constructor.
  - assert (X : forallb (fun a => forallb (fun b => negb (clash a b)) (requested (before ++ asked 1 2 wanted))) (requested (before ++ asked 1 2 wanted)) = true) by (vm_compute; reflexivity).
    intros a b Ha Hb. rewrite forallb_forall in X. specialize (X _ Ha). rewrite forallb_forall in X. specialize (X _ Hb). destruct (clash a b); [discriminate|reflexivity].
  - intros c e id H. cbn in H. repeat (destruct H as [H|H]; [first [discriminate H|injection H as <- <- <-; split; [vm_compute; lia|reflexivity]]|]). destruct H.
  - intros c e H. cbn in H. repeat (destruct H as [H|H]; [discriminate H|]). destruct H.
  - vm_compute. intuition discriminate.
Qed.
Ltac by_listing := split; [vm_compute; auto 10|]; intros s Hs; vm_compute in Hs; repeat (destruct Hs as [<-|Hs]; [intros _ Q; vm_compute in Q; repeat (destruct Q as [Q|Q]; [discriminate Q|]); destruct Q|]); destruct Hs.
Example C44_witness : consistent (before ++ asked 1 2 wanted) /\ ~ In ADVISORY (map fst wanted) /\ answered good /\ exists b0 b h b' t' b1 t1, start = Ok b0 /\ serve_all b0 before = Ok (b, h) /\
  listening (view_of h) 1 2 wanted /\ none_below (view_of h) wanted /\ reg_elements 1 2 good wanted b ElemModel.empty = Ok (b', t', E_ELEMENT_NAME_DUPLICATE) /\
  plain (before ++ asked 1 2 wanted) (bs "Device.A") /\ plain (before ++ asked 1 2 wanted) (bs "Device.Tab.5.X") /\
  dispatch b' (ask (bs "Device.Tab.5.X") (bs "one.INBOX.11")) = Ok [deliver_to (ask (bs "Device.Tab.5.X") (bs "one.INBOX.11")) (Some (2, 2))] /\
  reg_elements 1 2 good [prop_el (bs "Device.A"); prop_el (bs "Device.B.C")] b ElemModel.empty = Ok (b1, t1, E_SUCCESS).
Proof.
  split; [exact consistent_wanted|]. split; [vm_compute; intuition discriminate|]. split; [intros i; discriminate|]. eexists _, _, _, _, _, _, _. split; [vm_compute; reflexivity|]. split; [vm_compute; reflexivity|].
  split; [by_listing|]. split.
  { intros u o e r HU He ->. vm_compute in He. repeat (destruct He as [<-|He]; [|]); [..|destruct He]; vm_compute in HU; repeat (destruct HU as [HU|HU]; [first [discriminate HU|injection HU; intros; subst; auto]|]); destruct HU. }
  split; [vm_compute; reflexivity|].
  assert (PL : forall q, forallb (fun a => negb (vague a (split q))) (requested (before ++ asked 1 2 wanted)) = true -> askable (requested (before ++ asked 1 2 wanted)) (split q)).
  { intros q X a Ha. rewrite forallb_forall in X. specialize (X a Ha). destruct (vague a (split q)); [discriminate|reflexivity]. }
  split; [split; [vm_compute; lia|]; split; [discriminate|]; split; [reflexivity|]; apply PL; vm_compute; reflexivity|].
  split; [split; [vm_compute; lia|]; split; [discriminate|]; split; [reflexivity|]; apply PL; vm_compute; reflexivity|].
  split; vm_compute; reflexivity.
Qed.
(** C44 fails for the component: after a failed call the elements before the failing one are
    still found in its tree. *)
Theorem C44_visible_refuted : exists b0 b h b' t' rc, start = Ok b0 /\ serve_all b0 before = Ok (b, h) /\ reg_elements 1 2 good wanted b ElemModel.empty = Ok (b', t', rc) /\ rc <> E_SUCCESS /\
  ElemModel.retrieve ElemModel.empty (bs "Device.A") = None /\ option_map ElemModel.inf (ElemModel.retrieve t' (bs "Device.A")) = Some (snd (prop_el (bs "Device.A"))).
Proof. eexists _, _, _, _, _, _. split; [vm_compute; reflexivity|]. split; [vm_compute; reflexivity|]. split; [vm_compute; reflexivity|]. split; [discriminate|]. split; vm_compute; reflexivity. Qed.
Print Assumptions C44_visible_refuted.
(** C44 fails when an answer of the broker is late: the call reports an error and the element is
    served all the same. *)
Theorem C44_late_refuted : exists b0 b h b' t' rc, start = Ok b0 /\ serve_all b0 before = Ok (b, h) /\
  reg_elements 1 2 (fun i => if Nat.eqb i 1 then NoAnswer else Answered) [prop_el (bs "Device.A"); prop_el (bs "Device.B.C")] b ElemModel.empty = Ok (b', t', rc) /\ rc <> E_SUCCESS /\
  forall seq r p k, dispatch b (mkMsg seq 0 (bs "Device.B.C") r p k) = Ok [] /\ dispatch b' (mkMsg seq 0 (bs "Device.B.C") r p k) = Ok [ToClient 1 (mkMsg seq 0 (bs "Device.B.C") r p 2)].
Proof. eexists _, _, _, _, _, _. split; [vm_compute; reflexivity|]. split; [vm_compute; reflexivity|]. split; [vm_compute; reflexivity|]. split; [discriminate|]. intros. split; vm_compute; reflexivity. Qed.
Print Assumptions C44_late_refuted.
(** A failed call withdraws elements of another component that lie below a listed name: here the
    very one whose existence made it fail. *)
Theorem C44_others_refuted : exists els b0 b h b' t' rc, start = Ok b0 /\ serve_all b0 before = Ok (b, h) /\ listening (view_of h) 1 2 els /\ reg_elements 1 2 good els b ElemModel.empty = Ok (b', t', rc) /\ rc <> E_SUCCESS /\
  forall seq r p k, dispatch b (mkMsg seq 0 (bs "Device.Tab.5.X") r p k) = Ok [ToClient 2 (mkMsg seq 0 (bs "Device.Tab.5.X") r p 2)] /\ dispatch b' (mkMsg seq 0 (bs "Device.Tab.5.X") r p k) = Ok [].
Proof.
  exists [prop_el (bs "Device.Tab"); prop_el (bs "Device.Tab.{i}.X")]. eexists _, _, _, _, _, _. split; [vm_compute; reflexivity|]. split; [vm_compute; reflexivity|]. split; [by_listing|].
  split; [vm_compute; reflexivity|]. split; [discriminate|]. intros. split; vm_compute; reflexivity.
Qed.
Print Assumptions C44_others_refuted.
