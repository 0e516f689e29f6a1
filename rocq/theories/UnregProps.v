(** Unregistering elements: C86. *)
From Coq Require Import String.
From Verif Require Import Common CommonFacts Errors RouteModel RouteSpec RouteProofs RouteInv RouteRun RouteLook RouterModel RouterSpec RouterProofs RouterProps RegModel RegSpec RegProofs RegProps.
From Verif Require ElemModel WalkModel.
From Coq Require Import Lia.
Local Open Scope string_scope.
Local Open Scope list_scope.
Local Open Scope Z_scope.

(** the name is one of the list or lies below one *)
Definition withdrawn (els : list element) (u : list (list Z)) : Prop := exists e r, In e els /\ u = split (fst e) ++ r.
(** the names of a call that takes back what the history asked for: each was asked for, and fits
    a request of the client *)
Definition takes_back (l : list req) (els : list element) : Prop :=
  els <> [] /\ forall e, In e els -> fst e <> [] /\ fst e <> ADVISORY /\ printable (fst e) RTMSG_MAX_EXPRESSION_LEN = true /\ exists c id, In (Sub c (fst e) id) l.

Lemma clears_iff : forall els x, clears els x = true <-> withdrawn els (fst x).
Proof.
  intros els x. unfold clears. rewrite existsb_exists. split.
  - intros (e & He & B). apply below_spec in B as (r & B). exists e, r. auto.
  - intros (e & r & He & B). exists e. split; [exact He|]. apply below_spec. eauto.
Qed.
Lemma none_left : forall {A} (f : A -> bool) l, (forall x, In x l -> f x = false) -> filter f l = [].
Proof. intros A f. induction l as [|x l IH]; intros H; [reflexivity|]. cbn [filter]. rewrite (H x (or_introl eq_refl)). apply IH. intros y Hy. apply H. right. exact Hy. Qed.
Lemma unreg_setup : forall l c id els, consistent l -> takes_back l els ->
  exists b0 b h, start = Ok b0 /\ serve_all b0 l = Ok (b, h) /\ map fst h = l /\ rel (among (requested l)) b (view_of h) /\
  (listening (view_of h) c id els -> exists b', unreg_elements c els b = Ok (b', E_SUCCESS) /\
    rel (among (requested l)) b' (mkView (filter (fun x => negb (clears els x)) (names_of (view_of h))) (subs_of (view_of h)))).
Proof.
  intros l c id els C (NE & TB). assert (C' : consistent (l ++ asked c id [])) by (cbn; rewrite app_nil_r; exact C).
  destruct (setup l c id [] C') as (b0 & b & h & E0 & E & MF & RL). cbn [asked map] in RL. rewrite app_nil_r in RL. exists b0, b, h. split; [exact E0|]. split; [exact E|]. split; [exact MF|]. split; [exact RL|].
  intros [_ LS]. destruct C as [T G R AD].
  destruct (unreg_rel (among (requested l)) c els b (view_of h) T RL) as (b' & E' & RL').
  - intros e He. destruct (TB e He) as (A1 & A2 & A3 & c' & id' & A4). split; [exact A1|]. split; [exact A3|]. split; [|split; [eapply G, A4|exact A2]].
    apply in_app_iff. right. apply in_flat_map. exists (Sub c' (fst e) id'). split; [exact A4|left; reflexivity].
  - exact LS.
  - exists b'. split; [|exact RL']. unfold unreg_elements. destruct els; [congruence|]. rewrite E'. reflexivity.
Qed.

(** C86.  The call succeeds, and afterwards a message is delivered exactly to those who have
    registered a name for it that is neither of the list nor below a name of the list. *)
Theorem C86_exact_partial : forall l c id els, consistent l -> takes_back l els ->
  exists b0 b h, start = Ok b0 /\ serve_all b0 l = Ok (b, h) /\ map fst h = l /\
  (listening (view_of h) c id els -> exists b', unreg_elements c els b = Ok (b', E_SUCCESS) /\
   forall m, plain l (m_topic m) -> Z.testbit (m_flags m) 0 = false ->
    exists os, dispatch b' m = Ok (map (deliver_to m) os) /\
    forall o, In o os <-> exists u, In (u, o) (names_of (view_of h)) /\ serves (split (m_topic m)) u = true /\ ~ withdrawn els u).
Proof.
  intros l c id els C TB. destruct (unreg_setup l c id els C TB) as (b0 & b & h & E0 & E & MF & RL & U). exists b0, b, h. split; [exact E0|]. split; [exact E|]. split; [exact MF|].
  intros LS. destruct (U LS) as (b' & E' & RL'). exists b'. split; [exact E'|]. intros m PM TBt. eexists. split; [apply (dispatch_plain _ _ _ _ (k_tidy _ C) RL' PM TBt)|].
  intros o. unfold owners. cbn [names_of]. rewrite in_map_iff. split.
  - intros ((u, o') & Q & H). cbn in Q. subst o'. apply filter_In in H as [H S]. apply filter_In in H as [H N]. exists u. split; [exact H|]. split; [exact S|].
    intros W. apply (clears_iff els (u, o)) in W. rewrite W in N. discriminate.
  - intros (u & H & S & N). exists (u, o). split; [reflexivity|]. apply filter_In. split; [|exact S]. apply filter_In. split; [exact H|].
    destruct (clears els (u, o)) eqn:K; [|reflexivity]. apply clears_iff in K. contradiction.
Qed.
Print Assumptions C86_exact_partial.
(** C86.  What was served by names of the list only is answered by nobody, and a request for it
    is told so; with nothing registered below the listed names, every message that no listed name
    serves is delivered as before. *)
Theorem C86_gone_partial : forall l c id els, consistent l -> takes_back l els ->
  exists b0 b h, start = Ok b0 /\ serve_all b0 l = Ok (b, h) /\ map fst h = l /\
  (listening (view_of h) c id els -> exists b', unreg_elements c els b = Ok (b', E_SUCCESS) /\
   (forall m, plain l (m_topic m) -> Z.testbit (m_flags m) 0 = false ->
     (forall u o, In (u, o) (names_of (view_of h)) -> serves (split (m_topic m)) u = true -> In u (map (fun e => split (fst e)) els)) ->
     dispatch b' m = Ok []) /\
   (none_below (view_of h) els -> forall m, plain l (m_topic m) -> (Z.testbit (m_flags m) 0 = true -> plain l (m_reply m)) ->
     (forall e, In e els -> serves (split (m_topic m)) (split (fst e)) = false /\ serves (split (m_reply m)) (split (fst e)) = false) ->
     dispatch b' m = dispatch b m)).
Proof.
  intros l c id els C TB. destruct (unreg_setup l c id els C TB) as (b0 & b & h & E0 & E & MF & RL & U). exists b0, b, h. split; [exact E0|]. split; [exact E|]. split; [exact MF|].
  intros LS. destruct (U LS) as (b' & E' & RL'). exists b'. split; [exact E'|]. pose proof (k_tidy _ C) as T. split.
  - intros m PM TBt ONLY. rewrite (dispatch_plain _ _ _ _ T RL' PM TBt). f_equal. unfold owners. cbn [names_of].
    replace (filter _ _) with (@nil (list (list Z) * owner)); [reflexivity|]. symmetry. apply none_left. intros (u, o) H. apply filter_In in H as [H N]. cbn [fst].
    destruct (serves (split (m_topic m)) u) eqn:S; [|reflexivity]. pose proof (ONLY u o H S) as Q. apply in_map_iff in Q as (e & Q & He). exfalso.
    assert (W : clears els (u, o) = true) by (apply clears_iff; exists e, []; cbn [fst]; rewrite app_nil_r; auto). rewrite W in N. discriminate.
  - intros NB m (P1 & P2 & P3 & P4) PR NS.
    assert (PR' : fits (m_reply m) /\ m_reply m <> [] /\ ends_dot (m_reply m) = false /\ askableP (among (requested l)) (split (m_reply m)) \/ Z.testbit (m_flags m) 0 = false).
    { destruct (Z.testbit (m_flags m) 0); [left; apply PR; reflexivity|right; reflexivity]. }
    rewrite (dispatch_rel _ b (view_of h) m T RL P1 P2 P3 P4 PR'), (dispatch_rel _ b' _ m T RL' P1 P2 P3 P4 PR').
    assert (SAME : forall p, (forall e, In e els -> serves p (split (fst e)) = false) -> owners (mkView (filter (fun x => negb (clears els x)) (names_of (view_of h))) (subs_of (view_of h))) p = owners (view_of h) p).
    { intros p N. unfold owners. cbn [names_of]. f_equal. rewrite filter_filter. apply filter_ext_in. intros (u, o) H. cbn [fst]. destruct (serves p u) eqn:S; [|apply andb_false_r]. rewrite andb_true_r.
      destruct (clears els (u, o)) eqn:K; [|reflexivity]. exfalso. apply clears_iff in K as (e & r & He & Q). cbn [fst] in Q. pose proof (NB u o e r H He Q) as ->. rewrite app_nil_r in Q. subst u. rewrite (N e He) in S. discriminate. }
    unfold expected. rewrite !SAME by (intros e He; apply (NS e He)). reflexivity.
Qed.
Print Assumptions C86_gone_partial.

(** ** a case, and what can go wrong *)
Definition served : list req := before ++ asked 1 2 [prop_el (bs "Device.A"); prop_el (bs "Device.B.C"); prop_el (bs "Device.Rows.{i}.Y")].
Definition leaving : list element := [prop_el (bs "Device.A"); prop_el (bs "Device.Rows.{i}.Y")].
Lemma consistent_served : consistent served.
Proof.
  constructor.
  - assert (X : forallb (fun a => forallb (fun b => negb (clash a b)) (requested served)) (requested served) = true) by (vm_compute; reflexivity).
    intros a b Ha Hb. rewrite forallb_forall in X. specialize (X _ Ha). rewrite forallb_forall in X. specialize (X _ Hb). destruct (clash a b); [discriminate|reflexivity].
  - intros c e id H. cbn in H. repeat (destruct H as [H|H]; [first [discriminate H|injection H as <- <- <-; split; [vm_compute; lia|reflexivity]]|]). destruct H.
  - intros c e H. cbn in H. repeat (destruct H as [H|H]; [discriminate H|]). destruct H.
  - vm_compute. intuition discriminate.
Qed.
Definition plain_note (s : string) : msg := mkMsg 9 0 (bs s) (bs "one.INBOX.11") (bs "x") 0.
Example C86_witness : consistent served /\ takes_back served leaving /\ exists b0 b h b', start = Ok b0 /\ serve_all b0 served = Ok (b, h) /\ listening (view_of h) 1 2 leaving /\ none_below (view_of h) leaving /\
  unreg_elements 1 leaving b = Ok (b', E_SUCCESS) /\
  dispatch b (plain_note "Device.A") = Ok [deliver_to (plain_note "Device.A") (Some (1, 2))] /\ dispatch b' (plain_note "Device.A") = Ok [] /\
  dispatch b (plain_note "Device.Rows.4.Y") = Ok [deliver_to (plain_note "Device.Rows.4.Y") (Some (1, 2))] /\ dispatch b' (plain_note "Device.Rows.4.Y") = Ok [] /\
  dispatch b' (plain_note "Device.B.C") = Ok [deliver_to (plain_note "Device.B.C") (Some (1, 2))] /\ dispatch b' (plain_note "Device.Tab.5.X") = Ok [deliver_to (plain_note "Device.Tab.5.X") (Some (2, 2))].
Proof.
  split; [exact consistent_served|]. split.
  { split; [discriminate|]. intros e He. cbn [leaving In] in He. destruct He as [<-|[<-|[]]]; (split; [discriminate|]); (split; [discriminate|]); (split; [vm_compute; reflexivity|]); exists 1, 2; vm_compute; auto 12. }
  eexists _, _, _, _. split; [vm_compute; reflexivity|]. split; [vm_compute; reflexivity|]. split; [by_listing|]. split.
  { intros u o e r HU He ->. vm_compute in He. repeat (destruct He as [<-|He]; [|]); [..|destruct He]; vm_compute in HU; repeat (destruct HU as [HU|HU]; [first [discriminate HU|injection HU; intros; subst; auto]|]); destruct HU. }
  repeat (split; [vm_compute; reflexivity|]). vm_compute; reflexivity.
Qed.
(** C86 fails for the component itself: the element stays in its tree, and a query for the path
    above it, which still leads to the component, still calls its handler. *)
Theorem C86_visible_refuted : exists b0 b h b1 t1 b2, start = Ok b0 /\ serve_all b0 before = Ok (b, h) /\
  reg_elements 1 2 good [prop_el (bs "Dev.A"); prop_el (bs "Dev.B")] b ElemModel.empty = Ok (b1, t1, E_SUCCESS) /\ unreg_elements 1 [prop_el (bs "Dev.A")] b1 = Ok (b2, E_SUCCESS) /\
  dispatch b2 (plain_note "Dev.A") = Ok [] /\
  forall V (g : WalkModel.handlers V) v, WalkModel.prop_get g 7 (bs "Dev.A") = (E_SUCCESS, v) -> WalkModel.prop_get g 7 (bs "Dev.B") = (E_SUCCESS, v) ->
    WalkModel.query t1 g (bs "Dev.") = Ok (E_SUCCESS, [(bs "Dev.A", v); (bs "Dev.B", v)]).
Proof.
  eexists _, _, _, _, _, _. split; [vm_compute; reflexivity|]. split; [vm_compute; reflexivity|]. split; [vm_compute; reflexivity|]. split; [vm_compute; reflexivity|]. split; [vm_compute; reflexivity|].
  intros V g v A B. destruct g as [p t]. cbn [WalkModel.prop_get] in *.
  change (bs "Dev.A") with [68; 101; 118; 46; 65] in *. change (bs "Dev.B") with [68; 101; 118; 46; 66] in *. lazy -[E_SUCCESS]. rewrite A, B. lazy. reflexivity.
Qed.
Print Assumptions C86_visible_refuted.
(** C86 fails for other components: their elements below a listed name go too. *)
Theorem C86_below_refuted : exists b0 b h b1 t1 b2, start = Ok b0 /\ serve_all b0 before = Ok (b, h) /\
  reg_elements 1 2 good [prop_el (bs "Device.Tab")] b ElemModel.empty = Ok (b1, t1, E_SUCCESS) /\ unreg_elements 1 [prop_el (bs "Device.Tab")] b1 = Ok (b2, E_SUCCESS) /\
  dispatch b (plain_note "Device.Tab.5.X") = Ok [deliver_to (plain_note "Device.Tab.5.X") (Some (2, 2))] /\ dispatch b2 (plain_note "Device.Tab.5.X") = Ok [].
Proof. eexists _, _, _, _, _, _. repeat (split; [vm_compute; reflexivity|]). vm_compute; reflexivity. Qed.
Print Assumptions C86_below_refuted.
(** C86 fails for other components: a component can take back what another has registered. *)
Theorem C86_foreign_refuted : exists b0 b h b2, start = Ok b0 /\ serve_all b0 before = Ok (b, h) /\ unreg_elements 1 [prop_el (bs "Device.Tab.{i}.X")] b = Ok (b2, E_SUCCESS) /\
  dispatch b (plain_note "Device.Tab.5.X") = Ok [deliver_to (plain_note "Device.Tab.5.X") (Some (2, 2))] /\ dispatch b2 (plain_note "Device.Tab.5.X") = Ok [].
Proof. eexists _, _, _, _. repeat (split; [vm_compute; reflexivity|]). vm_compute; reflexivity. Qed.
Print Assumptions C86_foreign_refuted.
