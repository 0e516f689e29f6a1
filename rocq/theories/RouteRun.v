(** Proofs for the routing tree, part 3: histories and lookups. *)
From Coq Require Import String.
From Verif Require Import Common CommonFacts RouteModel RouteSpec RouteProofs RouteInv.
From Coq Require Import Lia.
Local Open Scope string_scope.
Local Open Scope list_scope.
Local Open Scope Z_scope.

(** ** one operation *)
Lemma add_walk_created : forall ts b t t' p, add_walk ts b t = (t', Some (p, true)) -> ts <> [] -> sub t p = None.
Proof.
  induction ts as [|n ts IH]; intros b t t' p H NE; [congruence|]. cbn [add_walk] in H.
  assert (REC : forall j m c, hit_at (child n (kids t) 0) = Some (j, m, c) ->
    (let '(c0, r0) := add_walk ts false c in (Node (is_table t) (routes t) (routes2 t) (upd (kids t) j (m, c0)),
       match r0 with Some (p, b0) => Some (m :: p, b0) | None => None end)) = (t', Some (p, true)) -> sub t p = None).
  { intros j m c C G. apply child_hit in C as (K & _). destruct (add_walk ts false c) as [c' [(p', b')|]] eqn:E; [|discriminate]. injection G as <- <- ->.
    cbn [sub]. rewrite K. eapply IH; [exact E|]. destruct ts; [cbn in E; discriminate|discriminate]. }
  destruct (child n (kids t) 0) as [j m c|j m c|j m c|] eqn:C; try discriminate.
  - eapply REC; [reflexivity|exact H].
  - eapply REC; [reflexivity|exact H].
  - rewrite add_walk_blank in H. injection H as <- <-. apply child_missing in C as (K & _). cbn [sub]. rewrite K. reflexivity.
Qed.
Definition once_at (s : state) (m : registrations) (n : list Z) (d : Z) (b : bool) : Prop :=
  (b = true /\ n <> ADVISORY) \/ (forall t p cr, add_walk (split n) false (root s) = (t, Some (p, cr)) -> ~ In (p, d) m).
Definition grows (s s' : state) : Prop := forall j e, dat (live s) j = Some e -> dat (live s') j = Some e.
Inductive added (s : state) (m : registrations) (n : list Z) (d : Z) : state -> Z -> registrations -> Prop :=
| added_refused : forall s' e, e <> 0 -> root s' = root s -> grows s s' -> added s m n d s' e m
| added_nothing : split n = [] -> added s m n d s 0 m
| added_here : forall s' p t cr i, split n <> [] -> add_walk (split n) false (root s) = (t, Some (p, cr)) -> p <> [] -> grows s s' ->
    root s' = push_root p i (extend p (root s)) -> (forall j, dat (live s') j = Some d <-> j = i) -> added s m n d s' 0 (m ++ [(p, d)]).
Lemma add_inv : forall s m n d b, fits n -> inv s m -> once_at s m n d b -> exists s' e m', add s n d b = Ok (s', e) /\ inv s' m' /\ added s m n d s' e m'.
Proof.
  intros s m n d b F I O. unfold add. destruct (validate n); cbn [negb].
  2: { exists s, RT_ERROR_INVALID_EXPRESSION, m. split; [reflexivity|]. split; [exact I|]. apply added_refused; [discriminate|reflexivity|intros j e X; exact X]. }
  rewrite fits_tokenize by exact F. cbn [obind]. destruct (split n) as [|t0 ts0] eqn:TS.
  { exists s, 0, m. split; [reflexivity|]. split; [exact I|]. apply added_nothing. exact TS. }
  rewrite <- TS. set (s0 := match find_data d (live s) with Some r => s | None => mkState (root s) (live s ++ [mkTroute (next s) d []]) (S (next s)) end).
  set (i := match find_data d (live s) with Some r => tid r | None => next s end).
  assert (I0 : inv s0 m /\ root s0 = root s /\ exists r, In r (live s0) /\ tid r = i /\ tdata r = d).
  { unfold s0, i. destruct (find_data d (live s)) as [r|] eqn:FD.
    - apply find_data_some in FD as [FD1 FD2]. split; [exact I|]. split; [reflexivity|]. exists r. auto.
    - split; [apply inv_new; assumption|]. split; [reflexivity|]. eexists. split; [cbn; apply in_app_iff; right; left; reflexivity|]. auto. }
  assert (GR : grows s s0) by (unfold s0; destruct (find_data d (live s)); intros j e X; [exact X|apply append_dat; exact X]).
  destruct I0 as (I0 & RS & r & Ir & Er & Dr).
  replace (match find_data d (live s) with Some r0 => (s, tid r0) | None => (mkState (root s) (live s ++ [mkTroute (next s) d []]) (S (next s)), next s) end) with (s0, i)
    by (unfold s0, i; destruct (find_data d (live s)); reflexivity).
  rewrite RS. destruct (add_walk (split n) false (root s)) as [t [(p, cr)|]] eqn:W.
  2: { pose proof (add_walk_same _ _ _ _ _ W (or_introl eq_refl)) as ->. exists (mkState (root s) (live s0) (next s0)), RT_ERROR_PROTOCOL_ERROR, m.
       split; [reflexivity|]. split; [rewrite <- RS; destruct s0; exact I0|]. apply added_refused; [discriminate|reflexivity|exact GR]. }
  pose proof (add_walk_extend _ _ _ _ _ _ W) as [TE LP].
  assert (NP : p <> []) by (intros ->; rewrite TS in LP; discriminate).
  destruct (b && negb cr && is_some match sub t p with Some x => routes x | None => None end && negb (bytes_eqb n ADVISORY)) eqn:DUP.
  { apply andb_prop in DUP as [DUP _]. apply andb_prop in DUP as [DUP _]. apply andb_prop in DUP as [_ DUP]. destruct cr; [discriminate|].
    pose proof (add_walk_same _ _ _ _ _ W (or_intror (ex_intro _ p eq_refl))) as TT. subst t. rewrite TT. exists (mkState (root s) (live s0) (next s0)), RT_ERROR_DUPLICATE_ENTRY, m.
    split; [reflexivity|]. split; [rewrite <- RS; destruct s0; exact I0|]. apply added_refused; [discriminate|reflexivity|exact GR]. }
  assert (ONCE : ~ In (p, d) m).
  { destruct O as [[-> NA]|O]; [|eapply O; reflexivity || exact W]. apply bytes_eqb_neq in NA. rewrite NA in DUP. cbn [andb negb] in DUP. rewrite andb_true_r in DUP.
    intros C. destruct cr; cbn [negb andb] in DUP.
    - apply add_walk_created in W; [|rewrite TS; discriminate]. eapply (v_none _ _ I p); [unfold R; rewrite W; reflexivity|exact C].
    - pose proof (add_walk_same _ _ _ _ _ W (or_intror (ex_intro _ p eq_refl))) as TT. subst t. rewrite TT in DUP.
      destruct (v_held _ _ I _ _ C) as (x & j & Hx & Hj & _). unfold R in Hx. destruct (sub (root s) p) as [y|]; [|discriminate]. cbn in Hx. injection Hx as Hx. rewrite Hx in DUP.
      destruct x; [discriminate|destruct Hj]. }
  eexists _, 0, (m ++ [(p, d)]). split; [reflexivity|]. subst t. rewrite <- RS. split.
  - rewrite <- Er, <- Dr. apply inv_push; auto. rewrite Dr. exact ONCE.
  - eapply added_here with (i := i); [rewrite TS; discriminate|exact W|exact NP|intros j e X; cbn [live]; rewrite set_topics_dat; apply GR; exact X|cbn [root]; rewrite RS; reflexivity|]. intros j. cbn [live]. rewrite set_topics_dat. subst i.
    rewrite <- Er. split; [|intros ->; rewrite <- Dr; apply dat_in; [apply (v_ids _ _ I0)|exact Ir]].
    intros Hj. eapply dat_inj; [apply (v_ids _ _ I0)|apply (v_datas _ _ I0)|exact Hj|]. rewrite <- Dr. apply dat_in; [apply (v_ids _ _ I0)|exact Ir].
Qed.
Lemma cutoff_on : forall m p t, p <> [] -> cutoff (m :: p) t = Node (is_table t) (routes t) (routes2 t) (on_kid m (cutoff p) (kids t)).
Proof. intros m [|n p] t NE; [congruence|reflexivity]. Qed.
Lemma remove_walk_eff : forall ts up t l, remove_walk up ts t l = Ok (t, l) \/
  exists p c, p <> [] /\ sub t p = Some c /\ remove_walk up ts t l = (do l <- forget_tree (up ++ p) c l ; Ok (cutoff p t, l)).
Proof.
  induction ts as [|n ts IH]; intros up t l; [left; reflexivity|]. cbn [remove_walk].
  assert (REC : forall j m c, hit_at (child n (kids t) 0) = Some (j, m, c) ->
    let X := (do (c, l) <- remove_walk (up ++ [m]) ts c l ; Ok (Node (is_table t) (routes t) (routes2 t) (upd (kids t) j (m, c)), l)) in
    X = Ok (t, l) \/ exists p c, p <> [] /\ sub t p = Some c /\ X = (do l <- forget_tree (up ++ p) c l ; Ok (cutoff p t, l))).
  { intros j m c C X. apply child_hit in C as (K & U & _). subst X. destruct (IH (up ++ [m]) c l) as [E|(p & c' & NP & SP & E)].
    - left. rewrite E. cbn [obind]. rewrite U, on_kid_same by exact K. rewrite node_eta. reflexivity.
    - right. exists (m :: p), c'. split; [discriminate|]. split; [cbn [sub]; rewrite K; exact SP|]. rewrite E, <- app_assoc. cbn [app].
      destruct (forget_tree (up ++ m :: p) c' l) as [l'| |]; cbn [obind]; [|reflexivity|reflexivity]. rewrite U, cutoff_on by exact NP. do 3 f_equal.
      apply on_kid_ext. intros c0 K0. congruence. }
  destruct (child n (kids t) 0) as [j m c|j m c|j m c|] eqn:C.
  - destruct ts as [|n' ts].
    + right. pose proof (child_hit n (kids t) j m c ltac:(rewrite C; reflexivity)) as (K & _ & D). exists [m], c. split; [discriminate|]. split; [cbn [sub]; rewrite K; reflexivity|].
      rewrite D. reflexivity.
    + apply (REC j m c). reflexivity.
  - apply (REC j m c). reflexivity.
  - apply (REC j m c). reflexivity.
  - left. reflexivity.
Qed.
Lemma remove_topic_inv : forall s m n, fits n -> inv s m -> exists s' m', remove_topic s n = Ok s' /\ inv s' m' /\ (forall x, In x m' -> In x m).
Proof.
  intros s m n F I. unfold remove_topic. rewrite fits_tokenize by exact F. cbn [obind]. destruct (remove_walk_eff (split n) [] (root s) (live s)) as [E|(p & c & NP & SP & E)]; rewrite E; cbn [obind app].
  - exists s, m. split; [destruct s; reflexivity|]. auto.
  - destruct (inv_cutoff _ _ _ _ I NP SP) as (l & Fl & I'). rewrite Fl. cbn [obind]. eexists _, _. split; [reflexivity|]. split; [exact I'|]. intros x H. apply filter_In in H as [H _]. exact H.
Qed.

(** ** histories *)
Lemma run_ok : forall l s m used, inv s m -> (forall u d, In (u, d) m -> In d used) -> careful used l -> Forall op_fits l ->
  exists s' h m', run s l = Ok (s', h) /\ inv s' m'.
Proof.
  induction l as [|o l IH]; intros s m used I U C F; [exists s, [], m; auto|]. inversion F as [|? ? F1 F2]; subst. cbn [run].
  destruct o as [n d b|d|n]; cbn [step op_fits] in *.
  - assert (O : once_at s m n d b).
    { destruct b; [left; split; [reflexivity|apply C]|]. right. intros t p cr _ H. apply U in H. destruct C as [C _]. auto. }
    destruct (add_inv s m n d b F1 I O) as (s1 & e & m1 & E & I1 & AD). rewrite E. cbn [obind].
    destruct (IH s1 m1 (d :: used) I1) as (s2 & h & m2 & R2 & I2); [|destruct b; apply C|exact F2|rewrite R2; cbn [obind]; eauto].
    intros u x H. inversion AD; subst; try (right; eapply U; exact H). apply in_app_iff in H as [H|[H|[]]]; [right; eapply U; exact H|injection H as _ ->; left; reflexivity].
  - cbn [obind]. destruct (IH _ _ (remove Z.eq_dec d used) (inv_remove_route _ _ d I)) as (s2 & h & m2 & R2 & I2); [|exact C|exact F2|rewrite R2; cbn [obind]; eauto].
    intros u x H. apply filter_In in H as [H H2]. cbn in H2. apply in_in_remove; [|eapply U; exact H]. intros ->. rewrite Z.eqb_refl in H2. discriminate.
  - destruct (remove_topic_inv s m n F1 I) as (s1 & m1 & E & I1 & S1). rewrite E. cbn [obind].
    destruct (IH s1 m1 used I1) as (s2 & h & m2 & R2 & I2); [intros u x H; eapply U, S1; exact H|exact C|exact F2|rewrite R2; cbn [obind]; eauto].
Qed.
Lemma at_sound : forall s m u x, inv s m -> u <> [] -> R (root s) u = Some x -> datas (live s) (olist x) = Ok (at_ u m).
Proof. intros s m u x I NE H. apply datas_dat. eapply v_reg; eauto. Qed.
Lemma walk_sub : forall ts t c, walk ts t = Some c -> exists u, sub t u = Some c /\ length u = length ts.
Proof.
  induction ts as [|n ts IH]; intros t c H; cbn [walk] in H; [injection H as ->; exists []; auto|].
  destruct (hit_at (child n (kids t) 0)) as [[[j m] c']|] eqn:C.
  - assert (H' : walk ts c' = Some c) by (destruct (child n (kids t) 0); cbn in C; try discriminate; injection C as <- <- <-; exact H).
    apply child_hit in C as (K & _). destruct (IH _ _ H') as (u & SU & L). exists (m :: u). cbn [sub length]. rewrite K. auto.
  - destruct (child n (kids t) 0); discriminate.
Qed.
(** every exact lookup reads the registrations of one topic *)
Lemma get_at : forall s m q, inv s m -> fits q -> ends_dot q = false -> get s q = Ok [] \/ exists u, u <> [] /\ get s q = Ok (at_ u m).
Proof.
  intros s m q I F D. unfold get. rewrite fits_tokenize by exact F. cbn [obind]. destruct (split q) as [|t0 ts] eqn:TS; [auto|].
  destruct (walk (t0 :: ts) (root s)) as [t|] eqn:W; [|auto]. rewrite D. apply walk_sub in W as (u & SU & LU). assert (NU : u <> []) by (intros ->; discriminate).
  destruct (is_table t).
  - destruct (hit_at (child (bs "{i}") (kids t) 0)) as [[[j m'] c]|] eqn:C.
    + pose proof C as C'. apply child_hit in C' as (K & _). right. exists (u ++ [m']). split; [destruct u; discriminate|].
      assert (RR : R (root s) (u ++ [m']) = Some (routes c)) by (unfold R; rewrite sub_app, SU; cbn [sub]; rewrite K; reflexivity).
      rewrite <- (at_sound s m (u ++ [m']) (routes c) I); [|destruct u; discriminate|exact RR].
      destruct (child (bs "{i}") (kids t) 0); cbn in C; try discriminate; injection C as <- <- <-; reflexivity.
    + destruct (child (bs "{i}") (kids t) 0); cbn in C; try discriminate. auto.
  - right. exists u. split; [exact NU|]. apply at_sound; auto. unfold R. rewrite SU. reflexivity.
Qed.
Theorem gone_thm : forall l d q, careful [] l -> Forall op_fits l -> fits q -> ends_dot q = false ->
  exists s h ds, run init (l ++ [RemoveRoute d]) = Ok (s, h) /\ get s q = Ok ds /\ ~ In d ds.
Proof.
  intros l d q C F FQ D. destruct (run_ok l init [] [] inv_init) as (s & h & m & E & I); [intros ? ? []|exact C|exact F|].
  assert (EA : run init (l ++ [RemoveRoute d]) = Ok (remove_route s d, h ++ [(RemoveRoute d, RT_OK)])).
  { revert E. generalize init. revert h. clear. induction l as [|o l IH]; intros h s0 E; [injection E as -> <-; reflexivity|]. cbn [run app] in *.
    destruct (step s0 o) as [(s1, e)| |]; cbn [obind] in *; try discriminate. destruct (run s1 l) as [(s2, h2)| |] eqn:E2; cbn [obind] in *; try discriminate.
    injection E as -> <-. rewrite (IH _ _ E2). reflexivity. }
  exists (remove_route s d), (h ++ [(RemoveRoute d, RT_OK)]). pose proof (inv_remove_route _ _ d I) as I'.
  destruct (get_at _ _ q I' FQ D) as [G|(u & _ & G)]; eexists; (split; [exact EA|]); (split; [exact G|]); [intros []|].
  intros H. apply at_in in H. apply filter_In in H as [_ H]. cbn in H. rewrite Z.eqb_refl in H. discriminate.
Qed.
