From Coq Require Import String.
From Verif Require Import Common CommonFacts Errors RouteModel RouteSpec RouteProofs RouteInv RouteRun RouteLook RouterModel RouterSpec RouterProofs RegModel RegSpec.
From Verif Require ElemModel.
From Coq Require Import Lia.
Local Open Scope string_scope.
Local Open Scope list_scope.
Local Open Scope Z_scope.

(** ** names that are taken *)
Lemma taken_add : forall A s m u d n d', tidyP A -> inv s m -> tree A (root s) -> In (u, d) m -> fits n -> double_dot n = false -> n <> ADVISORY -> stands_for u (split n) = true ->
  exists s', add s n d' true = Ok (s', RT_ERROR_DUPLICATE_ENTRY).
Proof.
  intros A s m u d n d' TA I' W HU FN DD NA ST. pose proof (reg_node _ _ _ _ I' HU) as SU. pose proof (add_walk_taken (split n) _ (root s) u (w_shape _ _ W) TA SU ST) as AW.
  unfold add. assert (V : validate n = true).
  { destruct FN as [F1 F2]. unfold validate. rewrite DD. cbn [negb andb]. apply andb_true_iff. unfold MAX_TOKEN_BUFFER_SIZE, MAX_TOKENS. rewrite !Nat.leb_le. lia. }
  rewrite V. cbn [negb]. rewrite fits_tokenize by exact FN. cbn [obind]. assert (NU : u <> []) by (intros ->; eapply (v_ne _ _ I'); eauto).
  destruct (split n) as [|t0 ts] eqn:TS; [destruct u; [congruence|discriminate]|]. rewrite <- TS in *. clear TS t0 ts.
  set (x := match find_data d' (live s) with Some r => (s, tid r) | None => _ end). assert (RX : root (fst x) = root s) by (unfold x; destruct (find_data d' (live s)); reflexivity). destruct x as [s0 i]. cbn [fst] in RX.
  rewrite RX. destruct (add_walk (split n) false (root s)) as [t r] eqn:AE. cbn [snd] in AW. subst r. pose proof (add_walk_same _ _ _ _ _ AE (or_intror (ex_intro _ u eq_refl))) as ->.
  destruct (v_held _ _ I' _ _ HU) as (y & j & HR & HJ & _). unfold R in HR. destruct (sub (root s) u) as [c|]; [|discriminate]. cbn in HR. injection HR as HR. rewrite HR.
  destruct y; [|destruct HJ]. apply bytes_eqb_neq in NA. rewrite NA. cbn [is_some negb andb]. eauto.
Qed.
Lemma cut_nonempty : forall s cur, cut s cur <> [].
Proof. induction s as [|c s IH]; intros cur; cbn [cut]; [discriminate|]. destruct (c =? 46); [discriminate|apply IH]. Qed.
Lemma split_nonempty : forall s, s <> [] -> split s <> [].
Proof. intros [|x e] NE; [congruence|]. apply cut_nonempty. Qed.
Lemma stands_refl : forall u, stands_for u u = true.
Proof. induction u as [|x u IH]; [reflexivity|]. cbn. rewrite bytes_eqb_refl, IH. reflexivity. Qed.
Lemma owned_sub : forall es c id, In (c, id) (map fst (subs es)) -> find (owned_by c id) es <> None.
Proof.
  intros es c id H F. apply in_map_iff in H as ((o, e) & E & H). cbn in E. subst o. unfold subs in H. apply in_flat_map in H as (r & Hr & H). pose proof (find_none _ _ F r Hr) as Q. unfold owned_by in Q.
  destruct (e_owner r) as [(x, y)|]; [|destruct H]. destruct H as [H|[]]. injection H as -> -> _. rewrite !Z.eqb_refl in Q. discriminate.
Qed.
(** a further name of a subscription: nothing changes unless it is accepted *)
Definition usable (A : names) (s : list Z) : Prop := A (split s) /\ good_name s /\ s <> ADVISORY.
Lemma alias_rel : forall A b v c e id, tidyP A -> rel A b v -> usable A e -> e <> [] -> In (c, id) (map fst (subs_of v)) ->
  exists b' rc, subscribe b c e id = Ok (b', rc) /\
    (rc = 0 -> printable e RTMSG_MAX_EXPRESSION_LEN = true /\ rel A b' (mkView (names_of v ++ [(split e, Some (c, id))]) (subs_of v)) /\ (forall u o, In (u, o) (names_of v) -> stands_for u (split e) = false)) /\
    (rc <> 0 -> rel A b' v).
Proof.
  intros A b v c e id TA RL (U1 & U2 & U3) NE LS. destruct (subscribe_rel false A b v c e id TA RL U1 U2) as (b' & rc & E & RL'); [intros X; contradiction|].
  exists b', rc. split; [exact E|]. assert (EX : existsb (fun s => (fst (fst s) =? c) && (snd (fst s) =? id)) (subs_of v) = true).
  { apply existsb_exists. apply in_map_iff in LS as (s & Hs & LS). exists s. rewrite Hs. cbn. rewrite !Z.eqb_refl. auto. }
  split.
  - intros ->. split; [|split].
    + unfold subscribe in E. destruct (printable e RTMSG_MAX_EXPRESSION_LEN); [reflexivity|]. discriminate E.
    + cbn [record] in RL'. rewrite EX in RL'. destruct (split e) eqn:SE; [|exact RL']. exfalso. apply (split_nonempty e NE SE).
    + intros u o HU. destruct (stands_for u (split e)) eqn:ST; [|reflexivity]. exfalso. destruct RL as (m & C & NM & SB & _). pose proof C as [I W MA N O FR K].
      rewrite NM in HU. apply in_map_iff in HU as ((u', d) & HE & HU). cbn in HE. injection HE as <- _.
      unfold subscribe in E. destruct (printable e RTMSG_MAX_EXPRESSION_LEN) eqn:P; [|discriminate E]. cbn [negb] in E. apply printable_length in P. unfold RTMSG_MAX_EXPRESSION_LEN in P.
      rewrite SB in LS. apply owned_sub in LS. destruct (find (owned_by c id) (entries b)) as [r|]; [|congruence]. destruct U2 as [G1 G2].
      destruct (taken_add A (tree_of b) m u' d e (e_id r) TA I W HU) as (s' & AE); auto; [split; lia|]. rewrite AE in E. discriminate E.
  - intros NZ. destruct rc as [|p|p]; [congruence|exact RL'|exact RL'].
Qed.

(** ** the loop *)
Definition added (c id : Z) (els : list element) : list (list (list Z) * owner) := map (fun e => (split (fst e), Some (c, id))) els.
Definition left_by (fs : nat -> fate) (c id : Z) (els : list element) (i k : nat) (r : list (list (list Z) * owner)) : Prop :=
  r = [] \/ fs (i + k)%nat = NoAnswer /\ exists e, nth_error els k = Some e /\ r = [(split (fst e), Some (c, id))].
Lemma loop_rel : forall A c id fs els i b v t, tidyP A -> rel A b v -> In (c, id) (map fst (subs_of v)) -> (forall e, In e els -> fst e <> [] -> usable A (fst e)) ->
  exists b' k rc r, reg_loop c id fs i els b t = Ok (b', fold_left (fun t e => ElemModel.insert_element (fst e) (snd e) t) (firstn k els) t, (i + k)%nat, rc) /\
    (rc = E_SUCCESS /\ k = length els \/ rc <> E_SUCCESS /\ (k < length els)%nat) /\ left_by fs c id els i k r /\
    rel A b' (mkView (names_of v ++ added c id (firstn k els) ++ r) (subs_of v)) /\ (rc = E_SUCCESS -> r = []) /\
    forall e, In e (firstn k els) -> fst e <> [] /\ printable (fst e) RTMSG_MAX_EXPRESSION_LEN = true /\ forall u o, In (u, o) (names_of v) -> stands_for u (split (fst e)) = false.
Proof.
  intros A c id fs. induction els as [|(s, x) els IH]; intros i b v t TA RL LS US.
  - exists b, 0%nat, E_SUCCESS, []. cbn. rewrite Nat.add_0_r, app_nil_r. split; [reflexivity|]. split; [auto|]. split; [left; reflexivity|]. split; [destruct v; exact RL|]. split; [reflexivity|]. intros e [].
  - assert (STOP : forall rc b' r, rc <> E_SUCCESS -> left_by fs c id ((s, x) :: els) i 0 r -> rel A b' (mkView (names_of v ++ r) (subs_of v)) ->
      exists b'' k rc' r', Ok (A := broker * ElemModel.tree * nat * Z) (E := unit) (b', t, i, rc) = Ok (b'', fold_left (fun t e => ElemModel.insert_element (fst e) (snd e) t) (firstn k ((s, x) :: els)) t, (i + k)%nat, rc') /\
        (rc' = E_SUCCESS /\ k = length ((s, x) :: els) \/ rc' <> E_SUCCESS /\ (k < length ((s, x) :: els))%nat) /\ left_by fs c id ((s, x) :: els) i k r' /\
        rel A b'' (mkView (names_of v ++ added c id (firstn k ((s, x) :: els)) ++ r') (subs_of v)) /\ (rc' = E_SUCCESS -> r' = []) /\
        forall e, In e (firstn k ((s, x) :: els)) -> fst e <> [] /\ printable (fst e) RTMSG_MAX_EXPRESSION_LEN = true /\ forall u o, In (u, o) (names_of v) -> stands_for u (split (fst e)) = false).
    { intros rc b' r NZ LB RL'. exists b', 0%nat, rc, r. cbn [firstn fold_left]. rewrite Nat.add_0_r. split; [reflexivity|]. split; [right; split; [exact NZ|cbn; lia]|]. split; [exact LB|]. split; [exact RL'|]. split; [congruence|]. intros e []. }
    assert (RL0 : rel A b (mkView (names_of v ++ []) (subs_of v))) by (rewrite app_nil_r; destruct v; exact RL).
    cbn [reg_loop]. destruct s as [|s0 s1]; [apply (STOP _ _ []); [discriminate|left; reflexivity|exact RL0]|]. set (s := s0 :: s1) in *. assert (NE : s <> []) by discriminate. clearbody s.
    unfold add_element. destruct (bad_name s) eqn:BN; cbn [obind]; [apply (STOP _ _ []); [discriminate|left; reflexivity|exact RL0]|].
    destruct (alias_rel A b v c s id TA RL (US (s, x) (or_introl eq_refl) NE) NE LS) as (b1 & rc & E & OK & BAD).
    unfold add_alias. destruct (fs i) eqn:F.
    + rewrite E. cbn [obind]. destruct (Z.eqb_spec rc RT_OK) as [->|NZ].
      * destruct (OK eq_refl) as (P & RL1 & NT). clear OK BAD.
        destruct (IH (S i) b1 (mkView (names_of v ++ [(split s, Some (c, id))]) (subs_of v)) (ElemModel.insert_element s x t) TA RL1 LS) as (b' & k & rc' & r & LE & RS & LB & RL' & RN & DN); [intros e He; apply US; right; exact He|].
        exists b', (S k), rc', r. cbn [firstn fold_left fst snd names_of subs_of] in *. rewrite LE. replace (S i + k)%nat with (i + S k)%nat by lia. split; [reflexivity|].
        split; [destruct RS as [[-> ->]|[R1 R2]]; [left|right]; cbn [length]; (split; [first [reflexivity|exact R1]|lia])|].
        split; [destruct LB as [LB|(LB1 & e & LB2 & LB3)]; [left; exact LB|right; split; [rewrite <- LB1; f_equal; lia|exists e; auto]]|].
        split; [rewrite <- !app_assoc in RL'; exact RL'|]. split; [exact RN|]. intros e [<-|He]; [cbn; auto|]. destruct (DN e He) as (D1 & D2 & D3). split; [exact D1|]. split; [exact D2|].
        intros u o HU. apply (D3 u o). apply in_app_iff. left. exact HU.
      * specialize (BAD NZ). assert (RLB : rel A b1 (mkView (names_of v ++ []) (subs_of v))) by (rewrite app_nil_r; destruct v; exact BAD).
        destruct (rc =? RT_ERROR_DUPLICATE_ENTRY); [|destruct (rc =? RT_ERROR_PROTOCOL_ERROR)]; apply (STOP _ _ []); try (discriminate || (left; reflexivity) || exact RLB).
    + rewrite E. cbn [obind]. replace (RT_ERROR_TIMEOUT =? RT_OK) with false by reflexivity. replace (RT_ERROR_TIMEOUT =? RT_ERROR_DUPLICATE_ENTRY) with false by reflexivity. replace (RT_ERROR_TIMEOUT =? RT_ERROR_PROTOCOL_ERROR) with false by reflexivity. cbn [obind].
      destruct (Z.eq_dec rc 0) as [->|NZ].
      * destruct (OK eq_refl) as (P & RL1 & NT). apply (STOP _ _ [(split s, Some (c, id))]); [discriminate| |exact RL1]. right. rewrite Nat.add_0_r. split; [exact F|]. exists (s, x). auto.
      * specialize (BAD NZ). apply (STOP _ _ []); [discriminate|left; reflexivity|]. rewrite app_nil_r. destruct v; exact BAD.
    + cbn [obind]. replace (RT_ERROR_TIMEOUT =? RT_OK) with false by reflexivity. replace (RT_ERROR_TIMEOUT =? RT_ERROR_DUPLICATE_ENTRY) with false by reflexivity. replace (RT_ERROR_TIMEOUT =? RT_ERROR_PROTOCOL_ERROR) with false by reflexivity. cbn [obind].
      apply (STOP _ _ []); [discriminate|left; reflexivity|exact RL0].
Qed.

(** ** taking back *)
Definition clears (els : list element) (x : list (list Z) * owner) : bool := existsb (fun e => below (split (fst e)) (fst x)) els.
Lemma unreg_rel : forall A c els b v, tidyP A -> rel A b v -> (forall e, In e els -> fst e <> [] /\ printable (fst e) RTMSG_MAX_EXPRESSION_LEN = true /\ usable A (fst e)) ->
  (forall s, In s (subs_of v) -> fst (fst s) = c -> ~ In (snd s) (map fst els)) ->
  exists b', unreg_loop c els b = Ok b' /\ rel A b' (mkView (filter (fun x => negb (clears els x)) (names_of v)) (subs_of v)).
Proof.
  intros A c. induction els as [|(s, x) els IH]; intros b v TA RL US NL.
  - exists b. split; [reflexivity|]. cbn. replace (filter (fun _ => true) (names_of v)) with (names_of v); [destruct v; exact RL|]. generalize (names_of v) as g. induction g as [|y g IHl]; [reflexivity|]. cbn. rewrite <- IHl. reflexivity.
  - destruct (US (s, x) (or_introl eq_refl)) as (NE & P & UA & UG & _). cbn [fst] in *. pose proof (printable_length _ _ P) as LP. unfold RTMSG_MAX_EXPRESSION_LEN in LP.
    cbn [unreg_loop]. unfold remove_element. replace (bad_name s) with false.
    2: { symmetry. unfold bad_name, MAX_OBJECT_NAME_LENGTH. destruct s; [congruence|]. cbn [length] in *. rewrite orb_false_r. apply Nat.leb_gt. lia. }
    destruct (unsubscribe_rel false A b v c s TA RL) as (b1 & rc & E & RL1); [apply UG| |discriminate|].
    { intros a Aa. pose proof (TA a (split s) Aa UA) as CL. clear -CL. revert CL. generalize (split s) as q. induction a as [|y a IHa]; intros [|z q] CL; cbn in *; auto. destruct (bytes_eqb y z); auto. }
    rewrite E. cbn [obind].
    assert (rc = 0) as ->.
    { unfold unsubscribe in E. rewrite P in E. cbn [negb] in E. destruct (find _ (entries b)); [injection E as _ <-; reflexivity|]. destruct (remove_topic _ _); cbn in E; try discriminate. injection E as _ <-. reflexivity. }
    cbn [record] in RL1.
    destruct (find (fun s0 => bytes_eqb (snd s0) s && (fst (fst s0) =? c)) (subs_of v)) as [z|] eqn:FD.
    { exfalso. apply find_some in FD as [HZ Q]. apply andb_prop in Q as [Q1 Q2]. apply bytes_eqb_eq in Q1. apply Z.eqb_eq in Q2. apply (NL z HZ Q2). left. cbn. congruence. }
    destruct (split s) as [|p0 ps] eqn:SS; [exfalso; apply (split_nonempty s NE SS)|]. rewrite <- SS in RL1.
    destruct (IH b1 _ TA RL1) as (b' & E' & RL'); [intros e He; apply US; right; exact He|intros z Hz Q HI; apply (NL z Hz Q); right; exact HI|].
    exists b'. split; [exact E'|]. cbn [names_of subs_of] in RL'. rewrite filter_filter in RL'.
    match goal with HR : rel A b' (mkView ?g _) |- rel A b' (mkView ?g' _) => replace g' with g; [exact HR|] end. apply filter_ext. intros y. unfold clears. cbn [existsb fst]. rewrite negb_orb. reflexivity.
Qed.
Lemma below_refl : forall p, below p p = true.
Proof. intros. apply below_spec. exists []. rewrite app_nil_r. reflexivity. Qed.
Lemma clears_added : forall c id els, filter (fun x => negb (clears els x)) (added c id els) = [].
Proof.
  intros c id els. unfold added. assert (X : forall l, incl l els -> filter (fun x => negb (clears els x)) (map (fun e => (split (fst e), Some (c, id))) l) = []); [|apply X, incl_refl].
  induction l as [|e l IH]; intros IN; [reflexivity|]. cbn [map filter]. replace (clears els (split (fst e), Some (c, id))) with true; [apply IH; intros y Hy; apply IN; right; exact Hy|].
  symmetry. unfold clears. apply existsb_exists. exists e. split; [apply IN; left; reflexivity|]. cbn. apply below_refl.
Qed.
Lemma stands_below : forall u p, u = p -> stands_for u p = true.
Proof. intros u p ->. apply stands_refl. Qed.

Lemma firstn_subset : forall {T} (l : list T) k x, In x (firstn k l) -> In x l.
Proof. induction l as [|y l IH]; intros [|k] x H; cbn in H; try destruct H; [left; assumption|right; eapply IH; eassumption]. Qed.
Lemma reg_rel : forall A c id fs els b v t, tidyP A -> rel A b v -> listening v c id els -> els <> [] -> (forall e, In e els -> fst e <> [] -> usable A (fst e)) ->
  exists b' k rc r, reg_elements c id fs els b t = Ok (b', fold_left (fun t e => ElemModel.insert_element (fst e) (snd e) t) (firstn k els) t, rc) /\
    (forall e, In e (firstn k els) -> forall u o, In (u, o) (names_of v) -> stands_for u (split (fst e)) = false) /\
    (rc = E_SUCCESS /\ k = length els /\ rel A b' (mkView (names_of v ++ added c id els) (subs_of v)) \/
     rc <> E_SUCCESS /\ (k < length els)%nat /\ left_by fs c id els 0 k r /\
     rel A b' (mkView (filter (fun x => negb (clears (firstn k els) x)) (names_of v ++ r)) (subs_of v))).
Proof.
  intros A c id fs els b v t TA RL [LS NL] NE US. destruct (loop_rel A c id fs els 0 b v t TA RL LS US) as (b1 & k & rc & r & E & RS & LB & RL1 & RN & DN).
  unfold reg_elements. destruct els as [|e0 els0]; [congruence|]. set (els := e0 :: els0) in *. clearbody els. rewrite E. cbn [obind]. cbn [Nat.add].
  destruct RS as [[-> K]|[NZ K]].
  - cbn [negb Z.eqb andb E_SUCCESS]. exists b1, k, 0, []. split; [reflexivity|]. split; [intros e He; apply (DN e He)|]. left. split; [reflexivity|]. split; [exact K|].
    rewrite (RN eq_refl), app_nil_r, K, firstn_all in RL1. exact RL1.
  - apply Z.eqb_neq in NZ as NZ'. rewrite NZ'. cbn [negb andb]. destruct (Nat.ltb_spec 0 k) as [KP|KP].
    + assert (NF : firstn k els <> []) by (destruct els; [cbn in K; lia|]; destruct k; [lia|discriminate]).
      destruct (unreg_rel A c (firstn k els) b1 _ TA RL1) as (b2 & E2 & RL2).
      { intros e He. destruct (DN e He) as (D1 & D2 & _). split; [exact D1|]. split; [exact D2|]. apply US; [|exact D1]. apply (firstn_subset _ k). exact He. }
      { intros s Hs Q HI. apply (NL s Hs Q). apply in_map_iff in HI as (e & HE & He). rewrite <- HE. apply in_map, (firstn_subset _ k), He. }
      unfold unreg_elements. destruct (firstn k els) as [|f0 fl] eqn:FE; [congruence|]. rewrite <- FE in *. rewrite E2. cbn [obind]. exists b2, k, rc, r. split; [reflexivity|]. split; [intros e He; apply (DN e He)|]. right. split; [exact NZ|]. split; [exact K|]. split; [exact LB|].
      cbn [names_of subs_of] in RL2. rewrite !filter_app, clears_added in RL2. cbn [app] in RL2. rewrite filter_app. exact RL2.
    + assert (k = 0%nat) as -> by lia. exists b1, 0%nat, rc, r. split; [reflexivity|]. split; [intros e []|]. right. split; [exact NZ|]. split; [exact K|]. split; [exact LB|]. cbn [firstn added map app] in RL1 |- *.
      replace (filter (fun x => negb (clears [] x)) (names_of v ++ r)) with (names_of v ++ r); [exact RL1|]. generalize (names_of v ++ r) as g. induction g as [|y g IHl]; [reflexivity|]. cbn [filter clears existsb negb]. f_equal. exact IHl.
Qed.
