(** rbusObject_SetPropertyValue and the typed setters built on it. *)
From Verif Require Import Common CommonFacts OwnModel OwnSpec OwnProofs OwnFacts OwnSteps OwnComp OwnLists.
Local Open Scope nat_scope.

Definition differ (h : heap) (n : list Z) (l : list ptr) : Prop :=
  forall x, In x l -> exists c m v nx, at_ h x = Some c /\ bd c = Property (Some m) v nx /\ m <> n.

Definition value_put (h h' : heap) (o : ptr) (pr pr' : option ptr) (n : list Z) (v : ptr) (l l' : list ptr) : Prop :=
  (exists pre p post vo nx cp, l = pre ++ p :: post /\ l' = l /\ pr' = pr /\ differ h n pre /\
     at_ h p = Some cp /\ bd cp = Property (Some n) vo nx /\
     (exists cp', at_ h' p = Some cp' /\ bd cp' = Property (Some n) (Some v) nx) /\
     (forall q c', q <> p -> at_ h' q = Some c' -> exists c, at_ h q = Some c /\ bd c' = bd c)) \/
  (differ h n l /\ l' = l ++ [length h] /\
     (exists cp', at_ h' (length h) = Some cp' /\ bd cp' = Property (Some n) (Some v) None) /\
     (forall q c', q <> length h -> at_ h' q = Some c' ->
        exists c, at_ h q = Some c /\ face (bd c') = face (bd c) /\ (~ In q (o :: l) -> bd c' = bd c))).

Lemma grown_back h h' b q c' : Grown h h' b -> q <> length h -> at_ h' q = Some c' -> exists c, at_ h q = Some c /\ bd c' = bd c.
Proof.
  intros G N E. pose proof (gr_old _ _ _ G q N) as X. rewrite E in X. destruct (at_ h q) as [c|]; [|discriminate].
  injection X as X. eauto.
Qed.

Lemma set_property_value_ok h refs pend o c nm m pr ch nx pa n v :
  Inv h refs pend -> at_ h o = Some c -> bd c = Object nm m pr ch nx pa -> isk h v KValue ->
  ~ contains h v o ->
  (forall f x, pr = Some f -> inlist h f x -> named' h x /\ ~ contains h v x) ->
  (forall f x cx old nx', pr = Some f -> inlist h f x -> at_ h x = Some cx -> bd cx = Property (Some n) (Some old) nx' ->
     ~ contains h old v) ->
  exists h' pr' l', set_property_value h o n v = Ok h' /\ Inv h' refs pend /\ (exists x, points h' x v) /\
    holds h' o (Object nm m pr' ch nx pa) /\ pseg h' pr' l' None /\
    length h <= length h' /\
    forall l, pseg h pr l None -> value_put h h' o pr pr' n v l l'.
Proof.
  intros V E B T No Nm Old.
  assert (Ll : exists l, pseg h pr l None).
  { destruct pr as [f|]; [|exists []; constructor]. apply (pseg_exists h refs pend V (deep h) f []).
    - eapply (inv_typed _ _ _ V); eauto. rewrite B. now left.
    - apply budget_nil.
    - unfold deep. cbn. lia. }
  destruct Ll as (l & Pl).
  destruct (search_ok h refs pend V (deep h) pr None [] n) as (fo & la & Es & Fs).
  { intros q ->. split; [|apply budget_nil]. eapply (inv_typed _ _ _ V); eauto. rewrite B. now left. }
  { intros q x -> I. destruct (Nm q x eq_refl I) as (X & _). exact X. }
  { unfold deep. cbn. lia. }
  destruct (finds_seg _ _ _ _ _ _ Fs) as (pre & Ppre & Npre & _ & Fd).
  unfold set_property_value. rewrite (get_at _ _ _ E). cbn [obind]. rewrite B, Es. cbn [obind].
  assert (Uniq : forall l0, pseg h pr l0 None -> l0 = l) by (intros; eapply pseg_unique; eauto).
  destruct fo as [p|].
  - destruct (Fd p eq_refl) as (cp & vo & np & Ep & Bp).
    assert (Post : exists post, pseg h np post None).
    { destruct np as [q|]; [|exists []; constructor]. apply (pseg_exists h refs pend V (deep h) q []).
      - eapply next_isk; eauto.
      - apply budget_nil.
      - unfold deep. cbn. lia. }
    destruct Post as (post & Ppost).
    assert (Pall : pseg h pr (pre ++ p :: post) None).
    { apply pseg_app. exists (Some p). split; [exact Ppre|]. econstructor; eauto. now rewrite Bp. }
    assert (Q : pre ++ p :: post = l) by (apply Uniq; exact Pall). subst l.
    assert (F : exists f, pr = Some f).
    { destruct pr; [eauto|]. apply pseg_none_inv in Pall. destruct pre; discriminate. }
    destruct F as (f & ->).
    assert (Ip : inlist h f p). { eapply pseg_inlist; [exact Pall|]. apply in_app_iff. right. now left. }
    assert (Pf : points h o f). { exists c. split; auto. rewrite B. now left. }
    destruct (set_value_ok h refs pend p (Some n) vo np (Some v) cp V Ep Bp) as (h' & E' & V' & A' & Pt').
    { intros q X. inversion X; subst. exact T. }
    { intros q X. inversion X; subst. split; [destruct (Nm f p eq_refl Ip) as (_ & Y); exact Y|].
      intros o' ->. eapply Old; eauto. }
    assert (Npo : o <> p) by (intros ->; congruence).
    assert (Oa : exists c', at_ h' o = Some c' /\ bd c' = bd c).
    { eapply (af_keep _ _ _ _ _ A' o c); auto. intros z -> K. apply (inv_acy _ _ _ V o f Pf).
      eapply contains_trans; [apply inlist_contains; exact Ip|]. econstructor 2; [|exact K].
      exists cp. split; auto. rewrite Bp. now left. }
    destruct (af_at _ _ _ _ _ A') as (cp' & Ep' & Bp').
    exists h', (Some f), (pre ++ p :: post). split; [exact E'|]. split; [exact V'|].
    split; [exists p, cp'; split; auto; rewrite Bp'; now left|].
    split; [apply holds_at; destruct Oa as (c' & Ec' & Bc'); exists c'; split; congruence|].
    split; [|split; [rewrite (af_len _ _ _ _ _ A'); lia|]].
    + apply (pseg_move h h' refs pend _ V'); auto.
      * intros q c' I Eq. destruct (Nat.eq_dec q p) as [->|Nq].
        -- exists cp. split; auto. assert (c' = cp') by congruence. subst. rewrite Bp', Bp. reflexivity.
        -- destruct (af_body _ _ _ _ _ A' q c' Nq Eq) as (c0 & E0 & B0). exists c0. split; congruence.
      * intros q Q _. inversion Q; subst. destruct Oa as (c' & Ec' & Bc').
        eapply (inv_points _ _ _ o q V'). exists c'. split; auto. rewrite Bc', B. now left.
    + intros l0 P0. apply Uniq in P0. subst l0. left. exists pre, p, post, vo, np, cp.
      repeat (split; [solve [auto | exact Npre | exists cp'; auto]|]). intros. eapply (af_body _ _ _ _ _ A'); eauto.
  - assert (pre = l) by (apply Uniq; exact Ppre). subst pre.
    destruct (new_property_ok h refs pend (Some n) (Some v) V) as (h1 & E1 & V1 & G1).
    { intros q X. inversion X; subst. exact T. }
    rewrite E1. cbn [obind]. set (p := length h) in *.
    destruct (isk_at _ _ _ T) as (cv & Ev). pose proof (at_lt _ _ _ Ev) as Lv.
    pose proof (at_lt _ _ _ E) as Lo.
    assert (Sl : forall q, In q (slots (Property (Some n) (Some v) None)) -> q < length h).
    { cbn. intros q [<-|[]]. exact Lv. }
    destruct (gr_new _ _ _ G1) as (cp & Ep & Bp). fold p in Ep.
    assert (Tp : may h1 (Some p) KProperty).
    { intros q X. inversion X; subst q. exists cp. split; auto. now rewrite Bp. }
    destruct (grown_at _ _ _ _ _ G1 E) as (co & Eo & Bo). rewrite B in Bo.
    assert (Nto : forall x, x < length h -> ~ contains h v x -> ~ contains h1 p x).
    { intros x Lx N K. destruct (grown_new h refs pend h1 _ x V Sl G1 K) as [X|(y & Iy & Ky)]; [lia|].
      cbn in Iy. destruct Iy as [<-|[]]. auto. }
    assert (LP : forall x, In x l -> x < length h).
    { intros x I. destruct (pseg_props _ _ _ _ _ Pl I) as (cx & _ & _ & _ & Ex & _). eapply at_lt; eauto. }
    assert (S2 : exists h2 w pr', (match pr with None => set_properties h1 o (Some p) | Some first => append h1 first (Some p) end) = Ok h2 /\
       Inv h2 (plus [p] refs) pend /\ points h2 w p /\ length h2 = length h1 /\
       (exists co2, at_ h2 o = Some co2 /\ bd co2 = Object nm m pr' ch nx pa) /\
       pseg h2 pr' (l ++ [p]) None /\ relinked h1 h2 (o :: l) /\
       (exists cp2, at_ h2 p = Some cp2 /\ bd cp2 = Property (Some n) (Some v) None)).
    { destruct pr as [f|].
      - destruct (append_ok h1 _ pend f (Some p) V1) as (h2 & w & cw & nw & vw & E2 & Aw & Bw & Iw & Ew & V2 & A2 & Pt2).
        { eapply grown_isk; [exact G1|]. eapply (inv_typed _ _ _ V); [exact E|]. rewrite B. now left. }
        { exact Tp. }
        { intros y x Y I. injection Y as <-. 
          assert (Lf : f < length h).
          { destruct (inv_points h refs pend o f V) as (cf & Ecf); [exists c; split; auto; rewrite B; now left|]. eapply at_lt; eauto. }
          apply (grown_inlist h refs pend h1 _ f x V G1 Lf) in I.
          apply Nto; [|destruct (Nm f x eq_refl I) as (_ & X); exact X].
          destruct (inv_points h refs pend o f V) as (cf & Ecf); [exists c; split; auto; rewrite B; now left|].
          destruct (inv_contains h refs pend f x cf V Ecf (inlist_contains _ _ _ I)) as (cx & Ex). eapply at_lt; eauto. }
        destruct (af_at _ _ _ _ _ A2) as (cw2 & Ew2 & Bw2).
        assert (Keep : forall z cz, at_ h1 z = Some cz -> z <> w -> exists c2, at_ h2 z = Some c2 /\ bd c2 = bd cz).
        { intros z cz Ez Nz. eapply (af_keep _ _ _ _ _ A2); eauto. discriminate. }
        assert (Pl1 : pseg h1 (Some f) l None).
        { apply (pseg_move h h1 _ pend l V1); auto.
          - intros q c' I Eq. destruct (grown_back _ _ _ q c' G1) as (c0 & E0 & B0); auto.
            + specialize (LP _ I). lia.
            + exists c0. split; congruence.
          - intros q Q _. inversion Q; subst q. destruct (inv_points h refs pend o f V) as (cf & Ecf); [exists c; split; auto; rewrite B; now left|].
            destruct (grown_at _ _ _ _ _ G1 Ecf) as (c' & E' & _). eauto. }
        destruct (pseg_end _ _ _ Pl1) as (l' & z & -> & Pz & cz & Ez & Nz).
        assert (w = z) by (eapply last_of_seg; eauto). subst z.
        assert (Now : o <> w) by (intros ->; congruence).
        assert (Npw : p <> w).
        { specialize (LP w). rewrite in_app_iff in LP. unfold p. cbn in LP. intros X. specialize (LP (or_intror (or_introl eq_refl))). lia. }
        exists h2, w, (Some f). split; [exact E2|]. split; [exact V2|].
        split; [exists cw2; split; auto; rewrite Bw2; cbn; apply in_app_iff; right; now left|].
        split; [apply (af_len _ _ _ _ _ A2)|].
        split; [destruct (Keep o co Eo Now) as (c2 & Ec2 & Bc2); exists c2; split; congruence|].
        split; [|split].
        + assert (PP : pseg h2 (Some f) (l' ++ [w]) (Some p)).
          { apply pseg_app. exists (Some w). split.
            - apply (pseg_move h1 h2 _ pend l' V2); auto.
              + intros q c' I Eq. destruct (af_body _ _ _ _ _ A2 q c') as (c0 & E0 & B0); auto.
                * exact (pseg_neq h1 _ pend (Some f) l' w [] None q V1 Pl1 I).
                * exists c0. split; congruence.
              + intros q Q _. inversion Q; subst q. destruct (Keep o co Eo Now) as (c2 & Ec2 & Bc2).
                eapply (inv_points _ _ _ o f V2). exists c2. split; auto. rewrite Bc2, Bo. now left.
            - econstructor; eauto; [rewrite Bw2; reflexivity|constructor]. }
          apply pseg_app. exists (Some p). split; [exact PP|].
          destruct (Keep p cp Ep Npw) as (c2 & Ec2 & Bc2). econstructor; eauto; [rewrite Bc2, Bp; reflexivity|constructor].
        + eapply relinked_weak; [eapply after_relinked; [exact A2|exact Aw|rewrite Bw; reflexivity]|].
          intros q [<-|[]]. right. apply in_app_iff. right. now left.
        + destruct (Keep p cp Ep Npw) as (c2 & Ec2 & Bc2). exists c2. split; congruence.
      - apply pseg_none_inv in Pl. subst l.
        destruct (set_properties_ok h1 _ pend o nm m None ch nx pa (Some p) co V1 Eo Bo Tp) as (h2 & E2 & V2 & A2 & Pt2).
        { intros y Y. injection Y as <-. split; [apply Nto; auto|discriminate]. }
        destruct (af_at _ _ _ _ _ A2) as (co2 & Eo2 & Bo2).
        assert (Npo : p <> o) by (unfold p; lia).
        assert (Keep : forall z cz, at_ h1 z = Some cz -> z <> o -> exists c2, at_ h2 z = Some c2 /\ bd c2 = bd cz).
        { intros z cz Ez Nz. eapply (af_keep _ _ _ _ _ A2); eauto. discriminate. }
        destruct (Keep p cp Ep Npo) as (c2 & Ec2 & Bc2).
        exists h2, o, (Some p). split; [exact E2|]. split; [exact V2|].
        split; [exists co2; split; auto; rewrite Bo2; now left|].
        split; [apply (af_len _ _ _ _ _ A2)|]. split; [eauto|]. split; [|split].
        + cbn. econstructor; eauto; [rewrite Bc2, Bp; reflexivity|constructor].
        + eapply relinked_weak; [eapply after_relinked; [exact A2|exact Eo|rewrite Bo; reflexivity]|]. intros q [<-|[]]. now left.
        + exists c2. split; congruence. }
    destruct S2 as (h2 & w & pr' & E2 & V2 & P2 & Len2 & (co2 & Eo2 & Bo2) & L2 & R2 & (cp2 & Ep2 & Bp2)).
    rewrite E2. cbn [obind].
    destruct (release_shared h2 refs pend p w V2 P2) as (h3 & E3 & V3 & S3).
    exists h3, pr', (l ++ [p]). split; [exact E3|]. split; [exact V3|].
    destruct (same_at _ _ _ _ S3 Ep2) as (cp3 & Ep3 & Bp3). rewrite Bp2 in Bp3.
    split; [exists p, cp3; split; auto; rewrite Bp3; now left|].
    destruct (same_at _ _ _ _ S3 Eo2) as (co3 & Eo3 & Bo3).
    split; [apply holds_at; exists co3; split; congruence|]. split; [|split].
    + apply (pseg_move h2 h3 refs pend _ V3); auto.
      * intros q c' I Eq. destruct (same_back _ _ _ _ S3 Eq) as (c0 & E0 & B0). exists c0. split; congruence.
      * intros q -> Ne. destruct l as [|z l]; cbn in L2; apply pseg_cons_inv in L2; destruct L2 as (Q & cz & _ & Ez & _);
          inversion Q; subst q; destruct (same_at _ _ _ _ S3 Ez) as (c' & E' & _); eauto.
    + rewrite (same_len _ _ S3), Len2, (gr_len _ _ _ G1). lia.
    + intros l0 P0. apply Uniq in P0. subst l0. right. split; [exact Npre|]. split; [reflexivity|].
      split; [exists cp3; auto|]. intros q c' Nq Eq. destruct (same_back _ _ _ _ S3 Eq) as (c2 & Ec2 & Bc2).
      destruct (R2 _ _ Ec2) as (c1 & Ec1 & F1 & X1). destruct (grown_back _ _ _ _ _ G1 Nq Ec1) as (c0 & E0 & B0).
      exists c0. split; auto. split; [congruence|]. intros Y. rewrite Bc2, X1 by exact Y. exact B0.
Qed.

Lemma set_property_data_ok h refs pend o c nm m pr ch nx pa n d :
  Inv h refs pend -> at_ h o = Some c -> bd c = Object nm m pr ch nx pa -> good h d ->
  (forall f x, pr = Some f -> inlist h f x -> named' h x) ->
  (forall q, ref_of d = Some q -> ~ contains h q o) ->
  (forall q f x, ref_of d = Some q -> pr = Some f -> inlist h f x -> ~ contains h q x) ->
  exists h1 h2 h' pr' l', set_property_data h o n d = Ok h' /\ Inv h' refs pend /\
    Grown h h1 (Value d) /\ Same h2 h' /\
    holds h2 o (Object nm m pr' ch nx pa) /\ pseg h2 pr' l' None /\
    forall l, pseg h1 pr l None -> value_put h1 h2 o pr pr' n (length h) l l'.
Proof.
  intros V E B G Nm No Nx.
  destruct (new_value_ok h refs pend d V G) as (h1 & E1 & V1 & G1).
  destruct (grown_at _ _ _ _ _ G1 E) as (co & Eo & Bo). rewrite B in Bo.
  pose proof (at_lt _ _ _ E) as Lo.
  assert (Nto : forall x, x < length h -> (forall q, ref_of d = Some q -> ~ contains h q x) -> ~ contains h1 (length h) x).
  { intros x Lx N K. destruct (grown_new h refs pend h1 _ x V (good_lt _ _ G) G1 K) as [X|(y & Iy & Ky)]; [lia|].
    cbn in Iy. destruct (ref_of d) as [r|] eqn:Rd; cbn in Iy; [|contradiction]. destruct Iy as [<-|[]]. eapply N; eauto. }
  assert (IL : forall f x, pr = Some f -> inlist h1 f x -> inlist h f x /\ x < length h).
  { intros f x -> I. destruct (inv_points h refs pend o f V) as (cf & Ecf); [exists c; split; auto; rewrite B; now left|].
    assert (J : inlist h f x) by (eapply grown_inlist; eauto; eapply at_lt; eauto).
    split; auto. destruct (inv_contains h refs pend f x cf V Ecf (inlist_contains _ _ _ J)) as (cx & Ex). eapply at_lt; eauto. }
  destruct (set_property_value_ok h1 _ pend o co nm m pr ch nx pa n (length h) V1 Eo Bo) as (h2 & pr' & l' & E2 & V2 & (x & P2) & H2 & L2 & Len2 & Ef).
  - destruct (gr_new _ _ _ G1) as (cv & Ev & Bv). exists cv. rewrite Bv. auto.
  - apply Nto; auto.
  - intros f y Q I. destruct (IL f y Q I) as (J & Ly). split; [|apply Nto; eauto].
    destruct (Nm f y Q J) as (cy & my & vy & ny & Ey & By). destruct (grown_at _ _ _ _ _ G1 Ey) as (c' & E' & B').
    exists c', my, vy, ny. split; congruence.
  - intros f y cy old nx' Q I Ey By K. destruct (IL f y Q I) as (J & Ly).
    destruct (grown_back _ _ _ y cy G1) as (c0 & E0 & B0); [lia|exact Ey|].
    destruct (inv_points h refs pend y old V) as (cold & Eold).
    { exists c0. split; auto. rewrite <- B0, By. now left. }
    pose proof (at_lt _ _ _ Eold) as Lold. pose proof (grown_old h refs pend h1 _ old (length h) V (good_lt _ _ G) G1 K Lold) as K'.
    destruct (inv_contains h refs pend old (length h) cold V Eold K') as (cz & Ez). pose proof (at_lt _ _ _ Ez). lia.
  - destruct (release_shared h2 refs pend (length h) x) as (h3 & E3 & V3 & S3).
    { exact V2. }
    { exact P2. }
    exists h1, h2, h3, pr', l'. split; [unfold set_property_data; rewrite E1; cbn [obind]; rewrite E2; exact E3|].
    auto 10.
Qed.
