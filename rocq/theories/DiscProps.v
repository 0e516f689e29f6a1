(** Properties of discovery: C71-C74. *)
From Coq Require Import String.
From Verif Require Import Common CommonFacts Errors RouteModel RouteSpec RouteProofs RouteInv RouteRun RouteLook RouterModel RouterSpec RouterProofs RouterProps DiscModel DiscSpec DiscProofs.
From Coq Require Import Lia.
Local Open Scope string_scope.
Local Open Scope list_scope.
Local Open Scope Z_scope.

Lemma discovery_run : forall l, consistent l -> exists b0 b h, start = Ok b0 /\ serve_all b0 l = Ok (b, h) /\ map fst h = l /\ rel (among (requested l)) b (view_of h) /\ host b /\ brief (view_of h) /\
  (whole at_start h -> relq true (among (requested l)) b (view_of h)).
Proof.
  intros l C. destruct (consistent_run l C) as (b0 & b & h & E0 & E & MF & RL). exists b0, b, h. split; [exact E0|]. split; [exact E|]. split; [exact MF|]. split; [exact RL|].
  pose proof C as [T G R AD]. split; [eapply host_run; [exact E|apply host_start, E0]|]. split; [eapply brief_run; [exact E|exact G|apply brief_start]|].
  intros WH. destruct (start_rel (among (requested l)) T) as (b1 & E1 & R1); [intros n H; apply in_app_iff; left; apply in_map, H|]. assert (b1 = b0) by congruence. subst b1.
  apply (serve_relq (among (requested l)) l b0 at_start [] b h T R1); auto.
  intros c e id H. split; [|eapply G; eauto]. apply in_app_iff. right. apply in_flat_map. exists (Sub c e id). split; [exact H|left; reflexivity].
Qed.

(** ** C71: who provides an element *)
(** With [k] the number of components serving the first element, and all names being non-empty:
    the first [k] names for each element of the list, out of the right answer, if there are that many,
    and otherwise nothing. *)
Theorem C71_exact : forall l, consistent l -> exists b0 b h, start = Ok b0 /\ serve_all b0 l = Ok (b, h) /\ map fst h = l /\
  forall names, names <> [] -> (forall n, In n names -> plain l n) -> (forall x, In x (serving (view_of h) names) -> x <> []) ->
  let k := length (owners (view_of h) (split (hd [] names))) in
  discover_component_name false b names = Ok (E_SUCCESS, if Nat.leb (length names * k) (length (serving (view_of h) names)) then firstn (length names * k) (serving (view_of h) names) else []).
Proof.
  intros l C. destruct (discovery_run l C) as (b0 & b & h & E0 & E & MF & RL & HB & BR & _). exists b0, b, h. split; [exact E0|]. split; [exact E|]. split; [exact MF|].
  intros names NN G NE. apply (names_thm (among (requested l))); auto. apply (k_tidy _ C).
Qed.
Print Assumptions C71_exact.
(** So if all the elements are served by equally many components, in particular if each is served by
    one, or if one element is asked for, the answer is right. *)
Theorem C71_partial : forall l, consistent l -> exists b0 b h, start = Ok b0 /\ serve_all b0 l = Ok (b, h) /\ map fst h = l /\
  forall names k, names <> [] -> (forall n, In n names -> plain l n) -> (forall x, In x (serving (view_of h) names) -> x <> []) ->
  (forall n, In n names -> length (owners (view_of h) (split n)) = k) ->
  discover_component_name false b names = Ok (E_SUCCESS, serving (view_of h) names).
Proof.
  intros l C. destruct (C71_exact l C) as (b0 & b & h & E0 & E & MF & X). exists b0, b, h. split; [exact E0|]. split; [exact E|]. split; [exact MF|].
  intros names k NN G NE K. rewrite (X names NN G NE). assert (HK : length (owners (view_of h) (split (hd [] names))) = k) by (destruct names; [congruence|apply K; left; reflexivity]). rewrite HK.
  assert (L : length (serving (view_of h) names) = (length names * k)%nat).
  { clear - K. unfold serving. induction names as [|n names IH]; [reflexivity|]. cbn [flat_map length Nat.mul]. rewrite app_length, map_length, K by (left; reflexivity). rewrite IH by (intros; apply K; right; assumption). reflexivity. }
  rewrite L, Nat.leb_refl, <- L, firstn_all. reflexivity.
Qed.
Print Assumptions C71_partial.
Ltac decide_names := let n := fresh in let H := fresh in intros n H; repeat (destruct H as [<-|H]; [decide_plain|]); destruct H.
Example C71_witness : consistent story /\ (exists b0 b, start = Ok b0 /\ serve_all b0 story = Ok (b, story_history) /\
    discover_component_name false b [bs "Device.Z"; bs "Device.Tab.2.X"; bs "Device.Tab.{i}.X"] = Ok (E_SUCCESS, [bs "Device.Z"; bs "Provider.two"; bs "Provider.two"])) /\
  (forall n, In n [bs "Device.Z"; bs "Device.Tab.2.X"; bs "Device.Tab.{i}.X"] -> plain story n) /\
  (forall x, In x (serving (view_of story_history) [bs "Device.Z"; bs "Device.Tab.2.X"; bs "Device.Tab.{i}.X"]) -> x <> []) /\
  (forall n, In n [bs "Device.Z"; bs "Device.Tab.2.X"; bs "Device.Tab.{i}.X"] -> length (owners (view_of story_history) (split n)) = 1%nat).
Proof.
  split; [exact story_consistent|]. split; [eexists _, _; split; [vm_compute; reflexivity|split; [vm_compute; reflexivity|vm_compute; reflexivity]]|].
  split; [decide_names|]. split; [intros x H; vm_compute in H; intuition congruence|]. intros n H. repeat (destruct H as [<-|H]; [vm_compute; reflexivity|]). destruct H.
Qed.
(** An element nobody serves makes the components of the others disappear, whichever comes first. *)
Theorem C71_missing_refuted : exists l b0 b h n n', consistent l /\ start = Ok b0 /\ serve_all b0 l = Ok (b, h) /\ plain l n /\ plain l n' /\
  owners (view_of h) (split n) = [Some (3, 7)] /\ owners (view_of h) (split n') = [] /\
  discover_component_name false b [n; n'] = Ok (E_SUCCESS, []) /\ discover_component_name false b [n'; n] = Ok (E_SUCCESS, []).
Proof.
  exists story. eexists _, _, story_history, (bs "Device.Z"), (bs "Device.Y"). split; [exact story_consistent|]. split; [vm_compute; reflexivity|]. split; [vm_compute; reflexivity|].
  split; [decide_plain|]. split; [decide_plain|]. split; [vm_compute; reflexivity|]. split; [vm_compute; reflexivity|]. split; vm_compute; reflexivity.
Qed.
Print Assumptions C71_missing_refuted.
(** Success is reported even if no answer arrives. *)
Theorem C71_lost_refuted : exists b n, start = Ok b /\ discover_component_name true b [n] = Ok (E_SUCCESS, []) /\ discover_component_name false b [n] = Ok (E_SUCCESS, [bs "_RTROUTED.>"]).
Proof. eexists _, (bs "_registered_components"). split; [vm_compute; reflexivity|]. split; vm_compute; reflexivity. Qed.
Print Assumptions C71_lost_refuted.

(** ** C72: the elements of a component *)
(** The names found for a component are exactly those its subscription has at the moment, each once,
    and none for a name that is not a component's. *)
Theorem C72_partial : forall l, consistent l -> exists b0 b h, start = Ok b0 /\ serve_all b0 l = Ok (b, h) /\ map fst h = l /\
  forall n, n <> bs "_RTROUTED.>" -> exists xs, discover_component_elements false b n = Ok (E_SUCCESS, xs) /\ NoDup xs /\
    match find (fun s => bytes_eqb n (snd s)) (subs_of (view_of h)) with
    | Some (o, _) => forall x, In x xs <-> exists u, In (u, Some o) (names_of (view_of h)) /\ x = dotted u
    | None => xs = []
    end.
Proof.
  intros l C. destruct (discovery_run l C) as (b0 & b & h & E0 & E & MF & RL & HB & BR & _). exists b0, b, h. split; [exact E0|]. split; [exact E|]. split; [exact MF|].
  intros n NH. apply (elements_thm (among (requested l))); auto.
Qed.
Print Assumptions C72_partial.
(** A name comes back as it was registered, unless it ended in a dot. *)
Theorem C72_name : forall e, ends_dot e = false -> dotted (split e) = e.
Proof. intros e D. rewrite <- join_dotted, join_split, D. reflexivity. Qed.
Print Assumptions C72_name.
Example C72_witness : exists b0 b, start = Ok b0 /\ serve_all b0 story = Ok (b, story_history) /\
  find (fun s => bytes_eqb (bs "Provider.two") (snd s)) (subs_of (view_of story_history)) = Some ((2, 5), bs "Provider.two") /\
  discover_component_elements false b (bs "Provider.two") = Ok (E_SUCCESS, [bs "Provider.two"; bs "Device.Tab.{i}.X"]) /\
  discover_component_elements false b (bs "Device.Z") = Ok (E_SUCCESS, [bs "Device.Z"]) /\ discover_component_elements false b (bs "Device.Y") = Ok (E_SUCCESS, []).
Proof. eexists _, _. split; [vm_compute; reflexivity|]. split; [vm_compute; reflexivity|]. split; [vm_compute; reflexivity|]. split; [vm_compute; reflexivity|]. split; vm_compute; reflexivity. Qed.
(** The component's own name is among its elements, although no element of that name is registered
    by the component. *)
Theorem C72_own_name_refuted : exists b0 b h xs, start = Ok b0 /\ serve_all b0 [Sub 1 (bs "comp") 1; Sub 1 (bs "Device.A") 1] = Ok (b, h) /\
  discover_component_elements false b (bs "comp") = Ok (E_SUCCESS, xs) /\ xs = [bs "comp"; bs "Device.A"].
Proof. eexists _, _, _, _. split; [vm_compute; reflexivity|]. split; [vm_compute; reflexivity|]. split; vm_compute; reflexivity. Qed.
Print Assumptions C72_own_name_refuted.
(** Of two components of the same name only the first one's elements are found. *)
Theorem C72_namesake_refuted : exists l b0 b h, consistent l /\ start = Ok b0 /\ serve_all b0 l = Ok (b, h) /\ map snd h = [0; 0; 0; 0] /\
  subs_of (view_of h) = [((1, 1), bs "comp"); ((2, 1), bs "comp")] /\ owners (view_of h) (split (bs "Device.B")) = [Some (2, 1)] /\
  discover_component_elements false b (bs "comp") = Ok (E_SUCCESS, [bs "comp"; bs "Device.A"]).
Proof.
  exists [Sub 1 (bs "comp") 1; Sub 1 (bs "Device.A") 1; Sub 2 (bs "comp") 1; Sub 2 (bs "Device.B") 1]. eexists _, _, _. split; [|split; [vm_compute; reflexivity|split; [vm_compute; reflexivity|split; [vm_compute; reflexivity|split; [vm_compute; reflexivity|split; vm_compute; reflexivity]]]]].
  constructor.
  - match goal with |- tidy ?A => assert (X : forallb (fun a => forallb (fun b => negb (clash a b)) A) A = true) by (vm_compute; reflexivity) end.
    intros a b Ha Hb. rewrite forallb_forall in X. specialize (X _ Ha). rewrite forallb_forall in X. specialize (X _ Hb). destruct (clash a b); [discriminate|reflexivity].
  - intros c e id H. repeat (destruct H as [H|H]; [injection H as <- <- <-; split; [vm_compute; lia|reflexivity]|]). destruct H.
  - intros c e H. repeat (destruct H as [H|H]; [discriminate H|]). destruct H.
  - vm_compute. intuition discriminate.
Qed.
Print Assumptions C72_namesake_refuted.

(** ** C73: the components *)
(** The list of components is that of the first names of the subscriptions, oldest first, without
    those that are empty or begin with an underscore. *)
Theorem C73_partial : forall l, consistent l -> exists b0 b h, start = Ok b0 /\ serve_all b0 l = Ok (b, h) /\ map fst h = l /\
  discover_registered false b = Ok (0, filter public (map snd (subs_of (view_of h)))).
Proof.
  intros l C. destruct (discovery_run l C) as (b0 & b & h & E0 & E & MF & RL & HB & BR & _). exists b0, b, h. split; [exact E0|]. split; [exact E|]. split; [exact MF|].
  destruct (components_thm _ _ _ RL HB BR) as (xs & EX & ->). rewrite EX. unfold RBUSCORE_SUCCESS. f_equal. f_equal. apply filter_ext. intros [|c r]; reflexivity.
Qed.
Print Assumptions C73_partial.
Example C73_witness : consistent story /\ exists b0 b, start = Ok b0 /\ serve_all b0 story = Ok (b, story_history) /\
  discover_registered false b = Ok (0, [client1_inbox; client2_inbox; bs "Provider.two"; bs "Device.Z"]).
Proof. split; [exact story_consistent|]. eexists _, _. split; [vm_compute; reflexivity|]. split; vm_compute; reflexivity. Qed.
(** The private reply topic of every connected process is listed as a component. *)
Theorem C73_inbox_refuted : exists b0 b h, start = Ok b0 /\ serve_all b0 [Sub 1 client1_inbox 1] = Ok (b, h) /\ discover_registered false b = Ok (0, [client1_inbox]).
Proof. eexists _, _, _. split; [vm_compute; reflexivity|]. split; vm_compute; reflexivity. Qed.
Print Assumptions C73_inbox_refuted.

(** ** C74: who has elements below a path *)
Lemma serves_self : forall u, serves u u = true.
Proof. intros u. unfold serves. replace (covers u u) with true; [reflexivity|]. induction u as [|t u IH]; [reflexivity|]. cbn. rewrite bytes_eqb_refl. exact IH. Qed.
(** As long as names are withdrawn with their subscription only: one address for every owner of a
    name strictly below the path, and for no other; each address is a name of that owner, and a
    message for it goes to that owner. *)
Theorem C74_partial : forall l, consistent l -> exists b0 b h, start = Ok b0 /\ serve_all b0 l = Ok (b, h) /\ map fst h = l /\
  (whole at_start h -> forall q, printable q RTMSG_MAX_EXPRESSION_LEN = true -> (dots q <= 31)%nat -> q <> [] -> askable (requested l) (split q) ->
   exists xs os, discover_wildcard false b q = Ok (0, xs) /\ NoDup os /\ (forall o, In o os <-> exists u, In (u, o) (names_of (view_of h)) /\ inside (split q) u = true) /\
     Forall2 (fun x o => exists u, In (u, o) (names_of (view_of h)) /\ x = dotted u /\ (x <> [] -> In o (owners (view_of h) (split x)))) xs os).
Proof.
  intros l C. destruct (discovery_run l C) as (b0 & b & h & E0 & E & MF & _ & HB & BR & RQ). exists b0, b, h. split; [exact E0|]. split; [exact E|]. split; [exact MF|].
  intros WH q P D NQ Q. destruct (wildcard_thm (among (requested l)) b (view_of h) q (k_tidy _ C) (RQ WH) HB BR P D NQ Q) as (xs & os & EX & N & IN & F). exists xs, os. split; [exact EX|]. split; [exact N|]. split; [exact IN|].
  clear - F BR. induction F as [|x o xs os (u & U & ->) F IH]; [constructor|]. constructor; [|exact IH]. exists u. split; [exact U|]. split; [reflexivity|]. intros NX. destruct (proj1 BR _ _ U) as (e & -> & _ & G & _).
  rewrite <- join_dotted in *. rewrite (split_join e G NX). unfold owners. apply in_map_iff. exists (split e, o). split; [reflexivity|]. apply filter_In. split; [exact U|apply serves_self].
Qed.
Print Assumptions C74_partial.
Definition tale : list req :=
  [Sub 1 client1_inbox 1; Sub 2 (bs "Provider.two") 5; Sub 2 (bs "Device.Tab.{i}.X") 5; Sub 3 (bs "Provider.three") 7; Sub 3 (bs "Device.Tab.{i}.Y") 7; Sub 4 (bs "Provider.four") 1; Sub 4 (bs "Device.Z") 1; Unsub 4 (bs "Provider.four")].
Definition tale_history : list (req * Z) := map (fun r => (r, 0)) tale.
Lemma tale_consistent : consistent tale.
Proof.
  constructor.
  - assert (X : forallb (fun a => forallb (fun b => negb (clash a b)) (requested tale)) (requested tale) = true) by (vm_compute; reflexivity).
    intros a b Ha Hb. rewrite forallb_forall in X. specialize (X _ Ha). rewrite forallb_forall in X. specialize (X _ Hb). destruct (clash a b); [discriminate|reflexivity].
  - intros c e id H. repeat (destruct H as [H|H]; [first [discriminate H|injection H as <- <- <-; split; [vm_compute; lia|reflexivity]]|]). destruct H.
  - intros c e H. repeat (destruct H as [H|H]; [first [discriminate H|injection H as <- <-; split; [vm_compute; lia|decide_all]]|]). destruct H.
  - vm_compute. intuition discriminate.
Qed.
Example C74_witness : consistent tale /\ (exists b0 b, start = Ok b0 /\ serve_all b0 tale = Ok (b, tale_history) /\
    discover_wildcard false b (bs "Device.") = Ok (0, [bs "Provider.two"; bs "Provider.three"]) /\ discover_wildcard false b (bs "Device.Tab.*.") = Ok (0, [bs "Provider.two"; bs "Provider.three"])) /\
  whole at_start tale_history /\ printable (bs "Device.Tab.*.") RTMSG_MAX_EXPRESSION_LEN = true /\ askable (requested tale) (split (bs "Device.Tab.*.")).
Proof.
  split; [exact tale_consistent|]. split; [eexists _, _; split; [vm_compute; reflexivity|split; [vm_compute; reflexivity|split; vm_compute; reflexivity]]|].
  split; [repeat (split; [exact I|]); split; [|exact I]; exists 1; vm_compute; tauto|]. split; [reflexivity|].
  match goal with |- askable ?A ?q => let x := eval vm_compute in A in change A with x end. intros a Ha. repeat (destruct Ha as [<-|Ha]; [vm_compute; reflexivity|]). destruct Ha.
Qed.
(** A component that has taken back its only element below the path is still found. *)
Theorem C74_withdrawn_refuted : exists l b0 b h, start = Ok b0 /\ serve_all b0 l = Ok (b, h) /\ forallb (fun x => negb (inside (split (bs "Device.")) (fst x))) (names_of (view_of h)) = true /\
  discover_wildcard false b (bs "Device.") = Ok (0, [bs "comp"]).
Proof.
  exists [Sub 1 (bs "comp") 1; Sub 1 (bs "Device.A") 1; Unsub 1 (bs "Device.A")]. eexists _, _, _. split; [vm_compute; reflexivity|]. split; [vm_compute; reflexivity|]. split; vm_compute; reflexivity.
Qed.
Print Assumptions C74_withdrawn_refuted.
(** A wildcard query that ends with the name of an element finds nobody, although a message for any
    of its instances would reach the element's owner. *)
Theorem C74_element_refuted : exists b0 b, start = Ok b0 /\ serve_all b0 tale = Ok (b, tale_history) /\ owners (view_of tale_history) (split (bs "Device.Tab.*.X")) = [Some (2, 5)] /\
  discover_wildcard false b (bs "Device.Tab.*.X") = Ok (0, []).
Proof. eexists _, _. split; [vm_compute; reflexivity|]. split; [vm_compute; reflexivity|]. split; vm_compute; reflexivity. Qed.
Print Assumptions C74_element_refuted.
