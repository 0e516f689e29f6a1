(** Properties of the broker's routing tree: C24, C25, C26, C58. *)
From Coq Require Import String.
From Verif Require Import Common CommonFacts RouteModel RouteSpec RouteProofs RouteInv RouteRun RouteLook.
From Coq Require Import Lia.
Local Open Scope string_scope.
Local Open Scope list_scope.
Local Open Scope Z_scope.

(** ** C24: lookups *)
(** Whatever was registered and removed before, a lookup of a full name gives the registrations
    that serve it, oldest first; and no operation reads freed memory.  The names that were ever
    accepted have to be used consistently, the lookup must not have a placeholder where a
    registered name has none, and removed topics have to be literal. *)
Theorem C24_lookup_partial : forall l, careful [] l -> Forall op_fits l -> exists s h, run init l = Ok (s, h) /\
  (tidy (accepted h) -> removals_literal (accepted h) l -> forall q, fits q -> q <> [] -> ends_dot q = false -> askable (accepted h) (split q) ->
   get s q = Ok (lookup (registered h) (split q))).
Proof. exact lookup_thm. Qed.
Print Assumptions C24_lookup_partial.
(** A lookup of a name that ends in a dot gives everyone registered below it, once. *)
Theorem C24_partial_path_partial : forall l, careful [] l -> Forall op_fits l -> (forall n, ~ In (RemoveTopic n) l) -> exists s h, run init l = Ok (s, h) /\
  (tidy (accepted h) -> forall q, fits q -> ends_dot q = true -> askable (accepted h) (split q) -> get s q = Ok (lookup_below (registered h) (split q))).
Proof. exact below_thm. Qed.
Print Assumptions C24_partial_path_partial.
Definition sample : list op :=
  [Add (bs "A.Tab.{i}.X") 1 false; Add (bs "A.Tab.{i}.Y") 1 true; Add (bs "A.Z") 2 false; Add (bs "B.{i}.") 3 false; Add (bs "A.Z") 1 true; RemoveTopic (bs "A.Tab.{i}.Y"); Add (bs "A.W") 2 true].
Definition sample_history : list (op * Z) := combine sample [0; 0; 0; 0; RT_ERROR_DUPLICATE_ENTRY; 0; 0].
Definition outcome_of {A} (o : outcome unit A) (d : A) : A := match o with Ok x => x | _ => d end.
Ltac decide_tidy := match goal with |- tidy ?A => let x := eval vm_compute in A in change A with x end;
  intros a b Ha Hb; repeat (destruct Ha as [<-|Ha]; [repeat (destruct Hb as [<-|Hb]; [vm_compute; reflexivity|]); destruct Hb|]); destruct Ha.
Ltac decide_askable := match goal with |- askable ?A ?q => let x := eval vm_compute in A in change A with x end;
  intros a Ha; repeat (destruct Ha as [<-|Ha]; [vm_compute; reflexivity|]); destruct Ha.
Example C24_witness : careful [] sample /\ Forall op_fits sample /\ tidy (accepted sample_history) /\ removals_literal (accepted sample_history) sample /\
  (exists s, run init sample = Ok (s, sample_history) /\ get s (bs "A.Tab.7.X") = Ok [1] /\ get s (bs "A.Z") = Ok [2] /\ get s (bs "B") = Ok [3] /\ get s (bs "A.Tab.1.Y") = Ok [] /\ get s (bs "A.Tab.") = Ok [1]) /\
  askable (accepted sample_history) (split (bs "A.Tab.7.X")) /\ lookup (registered sample_history) (split (bs "A.Tab.7.X")) = [1] /\
  lookup_below (registered (firstn 5 sample_history)) (split (bs "A.")) = [1; 2].
Proof.
  split; [vm_compute; intuition congruence|]. split; [repeat constructor; vm_compute; lia|]. split; [decide_tidy|].
  split; [intros n Hn; repeat (destruct Hn as [Hn|Hn]; [try discriminate; injection Hn as <-; decide_askable || (intros a Ha; vm_compute in Ha; repeat (destruct Ha as [<-|Ha]; [vm_compute; reflexivity|]); destruct Ha)|]); destruct Hn|].
  split; [eexists; split; [vm_compute; reflexivity|]; vm_compute; auto|]. split; [decide_askable|]. vm_compute. auto.
Qed.
(** A name that stands for a held one, with a row number, an alias or the wildcard in place of its
    placeholders, is taken: registering it as a provider is refused as a duplicate. *)
Theorem C24_taken_partial : forall l, careful [] l -> Forall op_fits l -> exists s h, run init l = Ok (s, h) /\
  (tidy (accepted h) -> removals_literal (accepted h) l -> forall u d n d', In (u, d) (registered h) -> fits n -> double_dot n = false -> n <> ADVISORY -> stands_for u (split n) = true ->
   exists s', step s (Add n d' true) = Ok (s', RT_ERROR_DUPLICATE_ENTRY)).
Proof. exact taken_thm. Qed.
Print Assumptions C24_taken_partial.
Example C24_taken_witness : In (split (bs "A.Tab.{i}.X"), 1) (registered sample_history) /\ fits (bs "A.Tab.*.X") /\ double_dot (bs "A.Tab.*.X") = false /\
  stands_for (split (bs "A.Tab.{i}.X")) (split (bs "A.Tab.*.X")) = true /\ stands_for (split (bs "A.Tab.{i}.X")) (split (bs "A.Tab.[a].X")) = true /\
  stands_for (split (bs "A.Tab.{i}.X")) (split (bs "A.Tab.5.X")) = true.
Proof. vm_compute. split; [tauto|]. split; [split; lia|]. auto. Qed.
(** A lookup with a placeholder where names were registered gets the first of them. *)
Theorem C24_placeholder_lookup_refuted : exists l s h q, careful [] l /\ Forall op_fits l /\ run init l = Ok (s, h) /\ tidy (accepted h) /\ fits q /\
  get s q = Ok [1] /\ lookup (registered h) (split q) = [].
Proof.
  exists [Add (bs "Foo.Bar") 1 false]. eexists _, _, (bs "Foo.{i}"). split; [vm_compute; tauto|]. split; [repeat constructor; vm_compute; lia|]. split; [vm_compute; reflexivity|].
  split; [decide_tidy|]. split; [vm_compute; lia|]. vm_compute. auto.
Qed.
Print Assumptions C24_placeholder_lookup_refuted.
(** A name that once had a table below it is no longer found after the table's owner has left. *)
Theorem C24_left_table_refuted : exists l s h q, careful [] l /\ Forall op_fits l /\ run init l = Ok (s, h) /\ fits q /\ askable (accepted h) (split q) /\
  get s q = Ok [] /\ lookup (registered h) (split q) = [1].
Proof.
  exists [Add (bs "Foo") 1 false; Add (bs "Foo.{i}.") 2 false; RemoveRoute 2]. eexists _, _, (bs "Foo"). split; [vm_compute; intuition congruence|]. split; [repeat constructor; vm_compute; lia|].
  split; [vm_compute; reflexivity|]. split; [vm_compute; lia|]. split; [decide_askable|]. vm_compute. auto.
Qed.
Print Assumptions C24_left_table_refuted.
(** A name nobody holds any more is refused as a duplicate while something below it is registered. *)
Theorem C24_reregister_refuted : exists l s h, careful [] l /\ Forall op_fits l /\ run init l = Ok (s, h) /\ tidy (accepted h) /\
  lookup (registered h) (split (bs "A")) = [] /\ last (map snd h) 0 = RT_ERROR_DUPLICATE_ENTRY /\ last l (RemoveRoute 0) = Add (bs "A") 3 true.
Proof.
  exists [Add (bs "A") 1 false; Add (bs "A.B") 2 false; Add (bs "C") 3 false; RemoveRoute 1; Add (bs "A") 3 true]. eexists _, _. split; [vm_compute; intuition congruence|]. split; [repeat constructor; vm_compute; lia|].
  split; [vm_compute; reflexivity|]. split; [decide_tidy|]. vm_compute. auto.
Qed.
Print Assumptions C24_reregister_refuted.

(** ** C25: the parse buffers *)
Lemma cut_exact : forall s cur, s <> [] -> (length (cut s cur) = dots s + (if ends_dot s then 0 else 1))%nat /\ (written (cut s cur) = length s + length cur + (if ends_dot s then 0 else 1))%nat.
Proof.
  induction s as [|c r IH]; intros cur NE; [congruence|]. cbn [cut dots length]. destruct r as [|x r].
  - unfold ends_dot. cbn [last]. destruct (c =? 46); cbn [cut dots length written fold_right]; rewrite ?app_length; cbn [length]; lia.
  - assert (ED : ends_dot (c :: x :: r) = ends_dot (x :: r)) by reflexivity. rewrite ED. destruct (c =? 46).
    + destruct (IH [] ltac:(discriminate)) as [A B]. cbn [length] in *. unfold written in *. cbn [fold_right]. rewrite A, B. lia.
    + destruct (IH (cur ++ [c]) ltac:(discriminate)) as [A B]. cbn [length] in *. rewrite A, B, app_length. cbn [length]. lia.
Qed.
(** Parsing a name stays inside the two buffers exactly if it has at most 32 parts and, with one
    terminator for each, at most 512 bytes. *)
Theorem C25_buffers : forall s, s <> [] -> let e := (if ends_dot s then 0 else 1)%nat in
  (tokenize s = Ok (split s) <-> (dots s + e <= 32)%nat /\ (length s + e <= 512)%nat) /\ (tokenize s = UB <-> ~ ((dots s + e <= 32)%nat /\ (length s + e <= 512)%nat)).
Proof.
  intros s NE e. assert (E : split s = cut s []) by (destruct s; [congruence|reflexivity]). destruct (cut_exact s [] NE) as [A B]. fold e in A, B. cbn [length] in B. rewrite Nat.add_0_r in B.
  unfold tokenize. rewrite E, A, B. unfold MAX_TOKENS, MAX_TOKEN_BUFFER_SIZE. destruct (Nat.leb_spec (dots s + e) 32), (Nat.leb_spec (length s + e) 512); cbn [andb]; split; split; intros X; try discriminate; try reflexivity; try lia.
Qed.
Print Assumptions C25_buffers.
(** So no sequence of operations on names of at most 511 bytes and 31 dots leaves the buffers. *)
Theorem C25_operations_partial : forall l q, careful [] l -> Forall op_fits l -> fits q -> ends_dot q = false ->
  exists s h ds, run init l = Ok (s, h) /\ get s q = Ok ds.
Proof.
  intros l q C F FQ D. destruct (run_ok l init [] [] inv_init) as (s & h & m & E & I); [intros ? ? []|exact C|exact F|].
  destruct (get_at s m q I FQ D) as [G|(u & _ & G)]; eauto 6.
Qed.
Print Assumptions C25_operations_partial.
Example C25_witness : fits (repeat 97 511) /\ ends_dot (repeat 97 511) = false /\ tokenize (repeat 97 511) = Ok (split (repeat 97 511)) /\ fits (bs "Device.WiFi.AccessPoint.{i}.Enable").
Proof. vm_compute. repeat split; auto; lia. Qed.
(** The check made on registration lets through names one byte or one part too long. *)
Theorem C25_validated_refuted : (exists s, validate s = true /\ length s = 512%nat /\ dots s = 0%nat /\ tokenize s = UB) /\
  (exists s, validate s = true /\ (length s <= 127)%nat /\ tokenize s = UB /\ forall b, add init s 1 b = UB).
Proof.
  split; [exists (repeat 97 512); vm_compute; auto|]. exists (concat (repeat [97; 46] 32) ++ [97]). split; [vm_compute; reflexivity|]. split; [vm_compute; lia|]. split; [vm_compute; reflexivity|].
  intros [|]; vm_compute; reflexivity.
Qed.
Print Assumptions C25_validated_refuted.
(** Nothing is checked before a lookup: the topic of a message may have more parts. *)
Theorem C25_lookup_refuted : exists q, (length q <= 255)%nat /\ forall s, get s q = UB /\ remove_topic s q = UB /\ resolve s q = UB.
Proof. exists (concat (repeat [97; 46] 100)). split; [vm_compute; lia|]. intros s. repeat split; reflexivity. Qed.
Print Assumptions C25_lookup_refuted.

(** ** C26: leaving *)
(** After a route is removed no lookup gives it, whatever was done before. *)
Theorem C26_gone : forall l d q, careful [] l -> Forall op_fits l -> fits q -> ends_dot q = false ->
  exists s h ds, run init (l ++ [RemoveRoute d]) = Ok (s, h) /\ get s q = Ok ds /\ ~ In d ds.
Proof. exact gone_thm. Qed.
Print Assumptions C26_gone.
Lemma run_last : forall l s0 s h o s1 e, run s0 l = Ok (s, h) -> step s o = Ok (s1, e) -> run s0 (l ++ [o]) = Ok (s1, h ++ [(o, e)]).
Proof.
  induction l as [|o' l IH]; intros s0 s h o s1 e E ST; [injection E as -> <-; cbn; rewrite ST; reflexivity|]. cbn [run app] in *.
  destruct (step s0 o') as [(s2, e2)| |]; cbn [obind] in *; try discriminate. destruct (run s2 l) as [(s3, h2)| |] eqn:E2; cbn [obind] in *; try discriminate.
  injection E as -> <-. rewrite (IH _ _ _ _ _ _ E2 ST). reflexivity.
Qed.
Lemma careful_app : forall l used o, careful used l -> (forall n d b, o <> Add n d b) -> careful used (l ++ [o]).
Proof.
  induction l as [|o' l IH]; intros used o C NA; cbn [app].
  - destruct o; cbn; auto. exfalso. eapply NA; reflexivity.
  - destruct o' as [n d [|]|d|n]; cbn [careful] in *; try (destruct C as [C1 C2]; split; auto); auto.
Qed.
Lemma accepted_app : forall h o e, (forall n d b, o <> Add n d b) -> accepted (h ++ [(o, e)]) = accepted h.
Proof. intros h o e NA. unfold accepted. rewrite flat_map_app. cbn. destruct o; [exfalso; eapply NA; reflexivity| |]; rewrite !app_nil_r; reflexivity. Qed.
Lemma registered_app : forall h o, registered (h ++ [o]) = note (registered h) o.
Proof. intros. unfold registered. rewrite fold_left_app. reflexivity. Qed.
(** Everyone else is found as before. *)
Theorem C26_others_partial : forall l d, careful [] l -> Forall op_fits l -> exists s h, run init l = Ok (s, h) /\
  (tidy (accepted h) -> removals_literal (accepted h) l -> forall q, fits q -> q <> [] -> ends_dot q = false -> askable (accepted h) (split q) ->
   exists ds, get s q = Ok ds /\ get (remove_route s d) q = Ok (filter (fun x => negb (x =? d)) ds)).
Proof.
  intros l d C F. destruct (lookup_thm l C F) as (s & h & E & H). exists s, h. split; [exact E|]. intros TA L q FQ NQ D Q. exists (lookup (registered h) (split q)). split; [auto|].
  destruct (lookup_thm (l ++ [RemoveRoute d])) as (s1 & h1 & E1 & H1); [apply careful_app; [exact C|discriminate]|apply Forall_app; split; [exact F|repeat constructor]|].
  rewrite (run_last _ _ _ _ (RemoveRoute d) (remove_route s d) RT_OK E eq_refl) in E1. injection E1 as <- <-. rewrite (accepted_app h (RemoveRoute d) RT_OK) in H1 by discriminate.
  rewrite H1; auto.
  - rewrite registered_app. cbn [note]. unfold lookup. rewrite filter_comm. f_equal. induction (filter (fun x => serves (split q) (fst x)) (registered h)) as [|(a, e) m IH]; [reflexivity|].
    cbn. destruct (e =? d); cbn; rewrite IH; reflexivity.
  - intros n Hn. apply in_app_iff in Hn as [Hn|[Hn|[]]]; [apply L; exact Hn|discriminate].
Qed.
Print Assumptions C26_others_partial.
(** The same for names that end in a dot. *)
Theorem C26_partial_paths_partial : forall l d, careful [] l -> Forall op_fits l -> (forall n, ~ In (RemoveTopic n) l) -> exists s h, run init l = Ok (s, h) /\
  (tidy (accepted h) -> forall q, fits q -> ends_dot q = true -> askable (accepted h) (split q) ->
   exists ds, get s q = Ok ds /\ get (remove_route s d) q = Ok (filter (fun x => negb (x =? d)) ds)).
Proof.
  intros l d C F NR. destruct (below_thm l C F NR) as (s & h & E & H). exists s, h. split; [exact E|]. intros TA q FQ D Q. exists (lookup_below (registered h) (split q)). split; [auto|].
  destruct (below_thm (l ++ [RemoveRoute d])) as (s1 & h1 & E1 & H1); [apply careful_app; [exact C|discriminate]|apply Forall_app; split; [exact F|repeat constructor]| |].
  { intros n Hn. apply in_app_iff in Hn as [Hn|[Hn|[]]]; [apply (NR n Hn)|discriminate]. }
  rewrite (run_last _ _ _ _ (RemoveRoute d) (remove_route s d) RT_OK E eq_refl) in E1. injection E1 as <- <-. rewrite (accepted_app h (RemoveRoute d) RT_OK) in H1 by discriminate.
  rewrite H1; auto. rewrite registered_app. cbn [note]. unfold lookup_below. rewrite filter_comm, <- distinct_filter. do 2 f_equal.
  induction (filter (fun x => inside (split q) (fst x)) (registered h)) as [|(a, e) m IH]; [reflexivity|]. cbn. destruct (e =? d); cbn; rewrite IH; reflexivity.
Qed.
Print Assumptions C26_partial_paths_partial.
Example C26_witness : exists s h, run init sample = Ok (s, h) /\ careful [] sample /\ get s (bs "A.Z") = Ok [2] /\ get (remove_route s 2) (bs "A.Z") = Ok [] /\ get (remove_route s 2) (bs "A.Tab.3.X") = Ok [1].
Proof. eexists _, _. split; [vm_compute; reflexivity|]. split; [vm_compute; intuition congruence|]. vm_compute. auto. Qed.
(** The one name exempt from the duplicate check: added twice for one route, it keeps a pointer
    to the route after the route is gone. *)
Theorem C26_exempt_name_refuted : exists l s h, Forall op_fits l /\ run init l = Ok (s, h) /\ map snd h = [0; 0; 0; 0] /\ get s ADVISORY = UB.
Proof.
  exists [Add (bs "x.INBOX.1") 1 false; Add ADVISORY 1 true; Add ADVISORY 1 true; RemoveRoute 1]. eexists _, _. split; [repeat constructor; vm_compute; lia|]. split; [vm_compute; reflexivity|]. vm_compute. auto.
Qed.
Print Assumptions C26_exempt_name_refuted.

(** ** C58: withdrawing a name *)
(** Withdrawing a name takes it and everything below it out of the exact lookups and changes no other. *)
Theorem C58_others_partial : forall l n, careful [] l -> Forall op_fits l -> fits n -> exists s h, run init l = Ok (s, h) /\
  (tidy (accepted h) -> removals_literal (accepted h) (l ++ [RemoveTopic n]) -> exists s', remove_topic s n = Ok s' /\
   forall q, fits q -> q <> [] -> ends_dot q = false -> askable (accepted h) (split q) ->
   ((forall u d, In (u, d) (registered h) -> serves (split q) u = true -> below (split n) u = false) -> get s' q = get s q) /\
   ((forall u d, In (u, d) (registered h) -> serves (split q) u = true -> below (split n) u = true) -> split n <> [] -> get s' q = Ok [])).
Proof.
  intros l n C F FN. destruct (lookup_thm l C F) as (s & h & E & H). exists s, h. split; [exact E|]. intros TA L.
  destruct (lookup_thm (l ++ [RemoveTopic n])) as (s1 & h1 & E1 & H1); [apply careful_app; [exact C|discriminate]|apply Forall_app; split; [exact F|constructor; [exact FN|constructor]]|].
  destruct (run_ok l init [] [] inv_init) as (s0 & h0 & m & E0 & I); [intros ? ? []|exact C|exact F|]. rewrite E in E0. injection E0 as <- <-.
  destruct (remove_topic_inv s m n FN I) as (s' & m' & RT & _). exists s'. split; [exact RT|].
  assert (ST : step s (RemoveTopic n) = Ok (s', RT_OK)) by (cbn [step]; rewrite RT; reflexivity).
  rewrite (run_last _ _ _ _ _ _ _ E ST) in E1. injection E1 as <- <-. rewrite (accepted_app h (RemoveTopic n) RT_OK) in H1 by discriminate.
  assert (L0 : removals_literal (accepted h) l) by (intros k Hk; apply L; apply in_app_iff; left; exact Hk).
  intros q FQ NQ D Q. rewrite H1, H by auto. rewrite registered_app. cbn [note]. split.
  - intros X. f_equal. destruct (split n) as [|t0 ts] eqn:TS; [reflexivity|]. rewrite <- TS in *. unfold lookup. rewrite filter_comm. f_equal. apply filter_none. intros (u, d) Hu.
    apply filter_In in Hu as [Hu1 Hu2]. cbn [fst] in *. rewrite (X u d Hu1 Hu2). reflexivity.
  - intros X NT. f_equal. destruct (split n) as [|t0 ts] eqn:TS; [congruence|]. rewrite <- TS in *. unfold lookup. rewrite filter_comm. rewrite filter_nil; [reflexivity|]. intros (u, d) Hu.
    apply filter_In in Hu as [Hu1 Hu2]. cbn [fst] in *. rewrite (X u d Hu1 Hu2). reflexivity.
Qed.
Print Assumptions C58_others_partial.
Example C58_witness : exists s h s', run init (firstn 5 sample) = Ok (s, h) /\ remove_topic s (bs "A.Tab.{i}.Y") = Ok s' /\ get s (bs "A.Tab.1.Y") = Ok [1] /\ get s' (bs "A.Tab.1.Y") = Ok [] /\ get s' (bs "A.Tab.1.X") = Ok [1].
Proof. eexists _, _, _. split; [vm_compute; reflexivity|]. split; [vm_compute; reflexivity|]. vm_compute. auto. Qed.
(** What is withdrawn may be someone else's: route 2 withdraws a name it never registered. *)
Theorem C58_others_names_refuted : exists s h s', run init [Add (bs "A.B") 1 false; Add (bs "C") 2 false] = Ok (s, h) /\ get s (bs "A.B") = Ok [1] /\
  remove_topic s (bs "A") = Ok s' /\ get s' (bs "A.B") = Ok [].
Proof. eexists _, _, _. split; [vm_compute; reflexivity|]. split; [vm_compute; reflexivity|]. split; [vm_compute; reflexivity|]. vm_compute. reflexivity. Qed.
Print Assumptions C58_others_names_refuted.
(** After a route's last name is withdrawn, the topics above still point to the freed route. *)
Theorem C58_dangling_refuted : exists l s h, careful [] l /\ Forall op_fits l /\ run init l = Ok (s, h) /\ get s (bs "A.") = UB /\ resolve s (bs "A.") = UB.
Proof.
  exists [Add (bs "A.B") 1 false; Add (bs "A.C") 2 false; RemoveTopic (bs "A.B")]. eexists _, _. split; [vm_compute; intuition congruence|]. split; [repeat constructor; vm_compute; lia|]. split; [vm_compute; reflexivity|].
  vm_compute. auto.
Qed.
Print Assumptions C58_dangling_refuted.
