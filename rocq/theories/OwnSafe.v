(** Every careful call succeeds, does what it says, and keeps the counts. *)
From Verif Require Import Common CommonFacts OwnModel OwnSpec OwnProofs OwnFacts OwnSteps OwnComp OwnLists OwnValues.
Local Open Scope nat_scope.

Definition H (s : state) : ptr -> nat := fun q => occ q (held s).

Lemma Inv_ext h refs refs' pend : (forall q, refs q = refs' q) -> Inv h refs pend -> Inv h refs' pend.
Proof.
  intros X [A B C D]. split; auto. apply (Count_ext _ _ refs pend); auto; now intros q; rewrite X.
Qed.

Lemma Inv_created h s pend p : Inv h (plus [p] (H s)) pend -> Inv h (H (mkState h (p :: held s))) pend.
Proof. apply Inv_ext. intros q. unfold plus, H. cbn [held]. now rewrite (occ_cons q p (held s)). Qed.

Lemma grown_adds h h' b : Grown h h' b -> adds h h' b.
Proof.
  intros G. split; [apply holds_at; apply (gr_new _ _ _ G)|]. split; [apply (gr_len _ _ _ G)|].
  intros q b' N. now apply (grown_holds h h' b).
Qed.

Lemma after_changes h h' p b old : After h h' p b old -> changes h h' p b.
Proof.
  intros A. split; [apply holds_at; apply (af_at _ _ _ _ _ A)|]. split; [|apply (af_len _ _ _ _ _ A)].
  intros q b' N X. apply holds_at in X. destruct X as (c & E & <-). apply holds_at.
  destruct (af_body _ _ _ _ _ A q c) as (c0 & E0 & B0); auto.
  - intros ->. apply N. now left.
  - exists c0. auto.
Qed.

Lemma pseg_sequence h l : forall a, pseg h a l None <-> sequence h a l.
Proof.
  induction l as [|x l IH]; intros a.
  - split; intros X.
    + apply pseg_nil_inv in X. subst. constructor.
    + inversion X. constructor.
  - split; intros X.
    + apply pseg_cons_inv in X. destruct X as (-> & c & nx & E & B & P). destruct (bd c) as [|nm v nx'| | |] eqn:Bc; try discriminate.
      injection B as ->. econstructor; [apply holds_at; exists c; split; eauto|]. now apply IH.
    + inversion X as [|p nm v nx l0 A B]; subst. apply holds_at in A. destruct A as (c & E & Bc).
      econstructor; eauto; [now rewrite Bc|]. now apply IH.
Qed.

Lemma sequence_exists h refs pend p : Inv h refs pend -> isk h p KProperty -> exists l, pseg h (Some p) l None.
Proof.
  intros V T. apply (pseg_exists h refs pend V (deep h) p []); auto; [apply budget_nil|unfold deep; cbn; lia].
Qed.

Lemma inlist_seq h p x : forall l, inlist h p x -> pseg h (Some p) l None ->
  exists l1 l2, l = l1 ++ x :: l2 /\ pseg h (Some x) (x :: l2) None.
Proof.
  intros l I. revert l. induction I as [p|p nm v q x A I IH]; intros l P.
  - destruct l as [|y l]; [apply pseg_nil_inv in P; discriminate|]. pose proof P as P'. apply pseg_cons_inv in P'. destruct P' as (Q & _).
    injection Q as <-. exists [], l. auto.
  - destruct l as [|y l]; [apply pseg_nil_inv in P; discriminate|]. apply pseg_cons_inv in P. destruct P as (Q & c & nx & E & N & P).
    injection Q as <-. apply holds_at in A. destruct A as (c' & E' & B'). assert (c' = c) by congruence. subst c'.
    rewrite B' in N. cbn in N. injection N as <-. destruct (IH l P) as (l1 & l2 & -> & P2). exists (p :: l1), l2. auto.
Qed.

Lemma append_appended h h' refs pend p l c nm v back :
  Inv h refs pend -> isk h p KProperty -> at_ h l = Some c -> bd c = Property nm v None ->
  last_of (deep h) h p = Ok l -> After h h' l (Property nm v back) None -> appended h h' p back.
Proof.
  intros V T E B L A. destruct (sequence_exists _ _ _ _ V T) as (ll & P).
  destruct (pseg_end _ _ _ P) as (l' & z & -> & Pz & cz & Ez & Nz).
  assert (l = z) by (eapply last_of_seg; eauto). subst z.
  exists l', l, nm, v. split; [now apply pseg_sequence|]. split; [apply holds_at; eauto|]. eapply after_changes; eauto.
Qed.

Lemma same_changes h h' h'' p b : changes h h' p b -> Same h' h'' -> changes h h'' p b.
Proof.
  intros (A & B & C) S. split; [now apply (same_holds h' h'')|]. split; [|rewrite (same_len _ _ S); exact C].
  intros q b' N X. apply B; auto. now apply (same_holds h' h'').
Qed.

Lemma same_adds h h' h'' b : adds h h' b -> Same h' h'' -> adds h h'' b.
Proof.
  intros (A & B & C) S. split; [now apply (same_holds h' h'')|]. split; [rewrite (same_len _ _ S); exact B|].
  intros q b' N. rewrite <- (C q b' N). now apply (same_holds h' h'').
Qed.

Lemma same_adds_l h h1 h' b : Same h h1 -> adds h1 h' b -> adds h h' b.
Proof.
  intros S (A & B & C). rewrite (same_len _ _ S) in *. split; [exact A|]. split; [exact B|].
  intros q b' N. rewrite (C q b' N). now apply (same_holds h h1).
Qed.

Lemma same_sequence h h' a l : Same h h' -> sequence h a l -> sequence h' a l.
Proof.
  intros S X. induction X as [|p nm v nx l A B IH]; [constructor|]. econstructor; [apply (same_holds h h' p _ S); exact A|exact IH].
Qed.

Lemma differ_nottitled h n l : differ h n l -> nottitled h n l.
Proof.
  intros D x I. destruct (D x I) as (c & m & v & nx & E & B & N). exists m. split; auto. exists v, nx. apply holds_at. eauto.
Qed.

Lemma titled_at h n p c v nx : at_ h p = Some c -> bd c = Property (Some n) v nx -> titled h n p.
Proof. intros E B. exists v, nx. apply holds_at. eauto. Qed.

Lemma relinked_others h h' t : relinked h h' t -> others h h' t.
Proof.
  intros R q b N X. apply holds_at in X. destruct X as (c & E & <-). destruct (R q c E) as (c0 & E0 & _ & Y).
  apply holds_at. exists c0. split; auto. symmetry. auto.
Qed.

Lemma face_intact h h' (l : list ptr) :
  (forall q c', In q l -> at_ h' q = Some c' -> exists c, at_ h q = Some c /\ face (bd c') = face (bd c)) -> intact h h' l.
Proof.
  intros R x nm v nx I X. apply holds_at in X. destruct X as (c' & E' & B'). destruct (R _ _ I E') as (c & E & F).
  rewrite B' in F. cbn in F. destruct (bd c) as [|nm0 v0 nx0|nm0 m0 a b d e| |] eqn:Bc; cbn in F; try discriminate.
  injection F as <- <-. exists nx0. apply holds_at. eauto.
Qed.

Lemma value_put_set h h' o nm m pr pr' ch nx pa n v l l' :
  holds h o (Object nm m pr ch nx pa) -> pseg h pr l None ->
  holds h' o (Object nm m pr' ch nx pa) -> pseg h' pr' l' None ->
  (forall x, In x l -> x < length h) -> value_put h h' o pr pr' n v l l' -> value_set h h' o n v.
Proof.
  intros A B C D L P. exists nm, m, pr, ch, nx, pa, pr', l, l'.
  split; [exact A|]. split; [now apply pseg_sequence|]. split; [exact C|]. split; [now apply pseg_sequence|].
  destruct P as [(pre & p & post & vo & nx' & cp & -> & -> & -> & Dp & Ep & Bp & (cp' & Ep' & Bp') & O)|(Dl & -> & (cp' & Ep' & Bp') & O)].
  - left. exists pre, p, post, vo, nx'. split; auto. split; [now apply differ_nottitled|].
    split; [apply holds_at; eauto|]. split; auto. split; [apply holds_at; eauto|].
    intros q b N X. apply holds_at in X. destruct X as (c & E & <-).
    destruct (O q c) as (c0 & E0 & B0); auto; [intros ->; apply N; now left|]. apply holds_at. exists c0. auto.
  - right. split; [now apply differ_nottitled|]. split; auto. split; [apply holds_at; eauto|]. split.
    + intros q b N X. apply holds_at in X. destruct X as (c & E & <-).
      destruct (O q c) as (c0 & E0 & _ & B0); auto; [intros ->; apply N; now left|]. apply holds_at. exists c0. split; auto.
      symmetry. apply B0. intros Y. apply N. now right.
    + apply face_intact. intros q c' I E. destruct (O q c') as (c0 & E0 & F0 & _); auto; [specialize (L _ I); lia|]. eauto.
Qed.

Lemma pseg_lt h a l x : pseg h a l None -> In x l -> x < length h.
Proof. intros P I. destruct (pseg_props _ _ _ _ _ P I) as (c & _ & _ & _ & E & _). eapply at_lt; eauto. Qed.

Lemma same_value_set h h' h'' o n v : value_set h h' o n v -> Same h' h'' -> value_set h h'' o n v.
Proof.
  intros (nm & m & pr & ch & nx & pa & pr' & l & l' & A & B & C & D & X) S.
  assert (HS : forall q b, holds h'' q b <-> holds h' q b) by (intros; now apply same_holds).
  exists nm, m, pr, ch, nx, pa, pr', l, l'. split; auto. split; auto. split; [now apply HS|].
  split; [eapply same_sequence; eauto|].
  destruct X as [(pre & p & post & vo & nx' & A1 & A2 & A3 & A4 & A5 & A6)|(A1 & A2 & A3 & A4 & A5)].
  - left. exists pre, p, post, vo, nx'. repeat (split; [first [assumption | apply HS; assumption]|]).
    intros q b N X. apply A6; auto. apply HS. exact X.
  - right. repeat (split; [first [assumption | apply HS; assumption | intros q b N X; apply A4; auto; apply HS; exact X]|]).
    intros x nmx vx nx0 I X. eapply A5; [exact I|]. apply HS. exact X.
Qed.

Lemma drop_occ p l : In p l -> forall q, occ q l = occ q [p] + occ q (drop p l).
Proof.
  induction l as [|x l IH]; intros I q; [contradiction|]. cbn [drop]. destruct (Nat.eqb x p) eqn:E.
  - apply Nat.eqb_eq in E. subst. now rewrite occ_cons.
  - apply Nat.eqb_neq in E. destruct I as [->|I]; [congruence|]. rewrite (occ_cons q x l), (occ_cons q x (drop p l)), (IH I q). lia.
Qed.

Lemma drop_split p l : In p l -> exists l1 l2, l = l1 ++ p :: l2 /\ drop p l = l1 ++ l2.
Proof.
  induction l as [|x l IH]; intros I; [contradiction|]. cbn [drop]. destruct (Nat.eqb x p) eqn:E.
  - apply Nat.eqb_eq in E. subst. exists [], l. auto.
  - apply Nat.eqb_neq in E. destruct I as [->|I]; [congruence|]. destruct (IH I) as (l1 & l2 & -> & ->).
    exists (x :: l1), l2. auto.
Qed.

Definition went (s : state) (o : op) (pend : ptr -> nat) : Prop :=
  exists s' pend', step s o = Ok s' /\ effect s o s' /\ Inv (hp s') (H s') pend' /\ (keeps s o -> pend' = pend).

Lemma went_created s o pend h' b :
  step s o = created s (Ok (h', length (hp s))) -> Inv h' (plus [length (hp s)] (H s)) pend -> Grown (hp s) h' b ->
  (adds (hp s) h' b -> effect s o (mkState h' (length (hp s) :: held s))) -> went s o pend.
Proof.
  intros E V G F. exists (mkState h' (length (hp s) :: held s)), pend. split; [rewrite E; reflexivity|].
  split; [apply F; now apply grown_adds|]. split; [now apply Inv_created|auto].
Qed.

Lemma went_changed s o pend h' :
  step s o = changed s (Ok h') -> Inv h' (H s) pend -> effect s o (mkState h' (held s)) -> went s o pend.
Proof.
  intros E V F. exists (mkState h' (held s)), pend. split; [rewrite E; reflexivity|]. split; auto.
Qed.

Theorem step_ok s pend o : Inv (hp s) (H s) pend -> fine s o -> went s o pend.
Proof.
  intros V F. destruct o; cbn [fine] in F.
  - (* ONewValue *)
    destruct (new_value_ok _ _ _ d V (good_conv _ _ F)) as (h' & E & V' & G).
    eapply went_created; [cbn [step]; rewrite E; reflexivity|exact V'|exact G|]. intros A. cbn. auto.
  - (* OSetDatum *)
    destruct F as (d0 & Hv & Gd & R). apply holds_at in Hv. destruct Hv as (c & E & B).
    apply good_conv in Gd. apply replaces_conv in R. rewrite !pointer_ref in R.
    destruct (match d with Buffer t (Some b) => true | _ => false end) eqn:K.
    + destruct d as [| |t [b|]| |]; try discriminate.
      destruct (lose_datum_ok _ _ _ v d0 t b c V E B) as (h' & E' & V' & A').
      exists (mkState h' (held s)), (plus (opt (ref_of d0)) pend). split; [cbn [step]; rewrite E'; reflexivity|].
      split; [cbn; split; auto; eapply after_changes; eauto|]. split; [exact V'|].
      cbn [keeps]. intros Kp. assert (X : ref_of d0 = None) by (rewrite <- pointer_ref; apply Kp; apply holds_at; eauto).
      rewrite X. reflexivity.
    + destruct (set_datum_ok _ _ _ v d0 d c V E B Gd R) as (h' & E' & V' & A' & _).
      { intros t b ->. discriminate. }
      eapply went_changed; [cbn [step]; rewrite E'; reflexivity|exact V'|]. cbn. split; auto. eapply after_changes; eauto.
  - (* OCopy *)
    destruct F as (d0 & d & Hd & Hs & Ns & No). apply holds_at in Hd, Hs. destruct Hd as (c & E & B). destruct Hs as (cs & Es & Bs).
    destruct (Nat.eq_dec dst src) as [->|N].
    + eapply went_changed; [cbn [step]; unfold copy_value; rewrite Nat.eqb_refl; reflexivity|exact V|].
      cbn. exists d. split; [apply holds_at; eauto|]. split; auto. split; [apply holds_at; eauto|]. split; auto.
      intros q b' _ X. exact X.
    + destruct (copy_ok _ _ _ dst src d0 d c cs V E B Es Bs Ns) as (h' & E' & V' & A' & _); auto.
      { intros o X K. rewrite <- pointer_ref in X. apply (No o X). now apply inside_contains. }
      eapply went_changed; [cbn [step]; rewrite E'; reflexivity|exact V'|].
      cbn. exists d. split; [apply holds_at; eauto|]. split; auto. eapply after_changes; eauto.
  - (* ONewProperty *)
    destruct (new_property_ok _ _ _ nm v V (maybe_may _ _ _ F)) as (h' & E & V' & G).
    eapply went_created; [cbn [step]; rewrite E; reflexivity|exact V'|exact G|]. intros A. cbn. auto.
  - (* OSetPropName *)
    apply is_isk in F. destruct (isk_prop _ _ F) as (c & old & v & nx & E & B).
    destruct (plain_write (hp s) (H s) pend p c (fun _ => Property nm v nx) _ V E eq_refl) as (h' & E' & V' & A' & _); [now rewrite B|now rewrite B|].
    eapply went_changed; [cbn [step]; unfold set_prop_name; rewrite (get_at _ _ _ E); cbn [obind]; rewrite B, E'; reflexivity|exact V'|].
    cbn. exists old, v, nx. split; [apply holds_at; eauto|]. split; auto. eapply after_changes; eauto.
  - (* OSetValue *)
    destruct F as (nm & old & nx & Hp & M & R). apply holds_at in Hp. destruct Hp as (c & E & B).
    destruct (set_value_ok _ _ _ p nm old nx v c V E B (maybe_may _ _ _ M) (replaces_conv _ _ _ _ R)) as (h' & E' & V' & A' & _).
    eapply went_changed; [cbn [step]; rewrite E'; reflexivity|exact V'|].
    cbn. exists nm, old, nx. split; [apply holds_at; eauto|]. split; auto. eapply after_changes; eauto.
  - (* OSetNext *)
    destruct F as (nm & v & old & Hp & M & R). apply holds_at in Hp. destruct Hp as (c & E & B).
    destruct (set_next_ok _ _ _ p nm v old n c V E B (maybe_may _ _ _ M) (replaces_conv _ _ _ _ R)) as (h' & E' & V' & A' & _).
    eapply went_changed; [cbn [step]; rewrite E'; reflexivity|exact V'|].
    cbn. exists nm, v, old. split; [apply holds_at; eauto|]. split; auto. eapply after_changes; eauto.
  - (* OAppend *)
    destruct F as (T & M & N). apply is_isk in T.
    destruct (append_ok _ _ _ p back V T (maybe_may _ _ _ M)) as (h' & l & c & nm & v & E' & El & Bl & Il & Ll & V' & A' & _).
    { intros n x X I K. apply (N n x X I). now apply inside_contains. }
    eapply went_changed; [cbn [step]; rewrite E'; reflexivity|exact V'|].
    cbn. split; auto. eapply append_appended; eauto.
  - (* OSetPropData *)
    destruct F as (nm & old & nx & Hp & Gd & R). apply holds_at in Hp. destruct Hp as (c & E & B).
    apply good_conv in Gd. apply replaces_conv in R. rewrite !pointer_ref in R.
    destruct (set_prop_data_ok _ _ _ p nm old nx d c V E B Gd R) as (h' & E' & V' & F2).
    eapply went_changed; [cbn [step]; rewrite E'; reflexivity|exact V'|].
    cbn. exists nm, old, nx. split; [apply holds_at; eauto|]. split; [apply holds_at; apply (f2_at _ _ _ _ _ F2)|].
    split; [apply holds_at; apply (f2_new _ _ _ _ _ F2)|]. split; [|split; [apply (f2_len _ _ _ _ _ F2)|auto]].
    intros q b N X. apply holds_at in X. destruct X as (cq & Eq & <-). cbn in N.
    destruct (f2_body _ _ _ _ _ F2 q cq) as (c0 & E0 & B0); auto. apply holds_at. eauto.
  - (* ONewPropData *)
    apply good_conv in F. destruct (new_prop_data_ok _ _ _ nm d V F) as (h' & E & V' & h1 & h2 & G1 & V1 & G2 & S2).
    exists (mkState h' (S (length (hp s)) :: held s)), pend. split; [cbn [step]; rewrite E; reflexivity|].
    split; [|split; [now apply Inv_created|auto]].
    cbn. exists h1. split; [now apply grown_adds|]. split; auto. eapply same_adds; [|exact S2]. now apply grown_adds.
  - (* OAppendData *)
    destruct F as (T & Gd & N). apply is_isk in T. apply good_conv in Gd.
    destruct (append_data_ok _ _ _ p nm d V T Gd) as (h' & q & E & V' & h1 & h2 & h3 & h4 & l & nm' & v' & G1 & G2 & S3 & Il & Hl & -> & A4 & S4).
    { intros n x X I K. rewrite <- pointer_ref in X. apply (N n x X I). now apply inside_contains. }
    eapply went_changed; [cbn [step]; rewrite E; reflexivity|exact V'|].
    cbn. exists h1, h3. split; [now apply grown_adds|]. split; [eapply same_adds; [apply grown_adds; exact G2|exact S3]|]. split; auto.
    destruct (sequence_exists _ _ _ _ V T) as (ll & P).
    destruct (pseg_end _ _ _ P) as (l' & z & -> & Pz & cz & Ez & Nz).
    assert (LP : forall x, In x (l' ++ [z]) -> x < length (hp s)) by (intros; eapply pseg_lt; eauto).
    assert (HH : forall x b, x < length (hp s) -> holds h3 x b <-> holds (hp s) x b).
    { intros x b Lx. rewrite (same_holds h2 h3) by exact S3. rewrite (grown_holds h1 h2 _ x b G2).
      - apply (grown_holds (hp s) h1 (Value d)); auto; lia.
      - rewrite (gr_len _ _ _ G1). lia. }
    assert (lz : l = z).
    { destruct (inlist_seq (hp s) p l (l' ++ [z]) Il P) as (l1 & l2 & Q & P2).
      apply holds_at in Hl. destruct Hl as (cl & El & Bl).
      apply pseg_cons_inv in P2. destruct P2 as (_ & c2 & n2 & E2 & N2 & P2). assert (c2 = cl) by congruence. subst c2.
      rewrite Bl in N2. cbn in N2. injection N2 as <-. apply pseg_none_inv in P2. subst l2.
      apply app_inj_tail in Q. now destruct Q. }
    subst z. exists l', l, nm', v'. split; [|split].
    + apply pseg_sequence in P. revert P LP. generalize (Some p) as a. generalize (l' ++ [l]) as ll. intros ll a P LP.
      induction P; [constructor|]. econstructor; [apply HH; [apply LP; now left|eassumption]|]. apply IHP. intros x I. apply LP. now right.
    + apply HH; auto. apply LP. apply in_app_iff. right. now left.
    + eapply same_changes; [eapply after_changes; eauto|exact S4].
  - (* ONewObject *)
    destruct (new_object_ok (hp s) _ _ nm multi V) as (h' & E & V' & G).
    eapply went_created; [cbn [step]; rewrite E; reflexivity|exact V'|exact G|]. intros A. cbn. auto.
  - (* OSetObjName *)
    apply is_isk in F. destruct F as (c & E & K). destruct (bd c) as [| |old m pr ch nx pa| |] eqn:B; try discriminate.
    destruct (plain_write (hp s) (H s) pend o c (fun _ => Object nm m pr ch nx pa) _ V E eq_refl) as (h' & E' & V' & A' & _); [now rewrite B|now rewrite B|].
    eapply went_changed; [cbn [step]; unfold set_obj_name; rewrite (get_at _ _ _ E); cbn [obind]; rewrite B, E'; reflexivity|exact V'|].
    cbn. exists old, m, pr, ch, nx, pa. split; [apply holds_at; eauto|]. split; auto. eapply after_changes; eauto.
  - (* OSetProperties *)
    destruct F as (nm & m & old & ch & nx & pa & Ho & M & R). apply holds_at in Ho. destruct Ho as (c & E & B).
    destruct (set_properties_ok _ _ _ o nm m old ch nx pa ps c V E B (maybe_may _ _ _ M) (replaces_conv _ _ _ _ R)) as (h' & E' & V' & A' & _).
    eapply went_changed; [cbn [step]; rewrite E'; reflexivity|exact V'|].
    cbn. exists nm, m, old, ch, nx, pa. split; [apply holds_at; eauto|]. split; auto. eapply after_changes; eauto.
  - (* OSetProperty *)
    destruct F as (nm & m & pr & ch & nx & pa & Ho & T & N & Np & Nx). apply holds_at in Ho. destruct Ho as (c & E & B).
    apply is_isk in T. destruct (sequence_exists _ _ _ _ V T) as (lp & Plp).
    destruct (set_property_ok _ _ _ o c nm m pr ch nx pa p lp V E B T) as (h' & pr' & l' & E' & V' & Ho' & Pl' & X); auto.
    { intros K. apply N. now apply inside_contains. }
    { intros Y. destruct pr as [f|]; [|congruence]. apply named_conv. eapply Np; eauto. }
    { intros f x Y I. destruct (Nx f x Y I) as (A1 & A2 & A3). split; [now apply named_conv|]. split.
      - intros K. apply A2. now apply inside_contains.
      - intros y Iy K. apply (A3 y Iy). now apply inside_contains. }
    assert (Ll : exists l, pseg (hp s) pr l None).
    { destruct pr as [f|]; [|exists []; constructor]. eapply sequence_exists; eauto.
      eapply (inv_typed _ _ _ V); [exact E|]. rewrite B. now left. }
    destruct Ll as (l & Pl). destruct (X l Pl) as (Rl & Q). clear X.
    eapply went_changed; [cbn [step]; rewrite E'; reflexivity|exact V'|].
    cbn. split; auto. exists nm, m, pr, ch, nx, pa, pr', l, lp, l'.
    split; [apply holds_at; eauto|]. split; [now apply pseg_sequence|]. split; [now apply pseg_sequence|].
    split; [exact Ho'|]. split; [now apply pseg_sequence|]. split; [now apply relinked_others|].
    split. { apply face_intact. intros q c' _ Eq. destruct (Rl q c' Eq) as (c0 & E0 & F0 & _). eauto. }
    destruct Q as [(pre & op & post & -> & -> & cp & v & n & co & vo & n' & Ep & Bp & Eo & (no & Bo) & Dp)|(-> & [->|(cp & v & n & n' & Ep & Bp & Dp)])].
    + right. exists n. split; [eapply titled_at; eauto|]. right. exists pre, op, post. split; auto.
      split; [now apply differ_nottitled|]. split; auto. eapply titled_at; eauto.
    + left. auto.
    + right. exists n. split; [eapply titled_at; eauto|]. left. split; auto. now apply differ_nottitled.
  - (* OSetPropertyValue *)
    destruct F as (nm' & m & pr & ch & nx & pa & Ho & T & N & Nx & Old). pose proof Ho as Hh. apply holds_at in Ho. destruct Ho as (c & E & B).
    apply is_isk in T.
    destruct (set_property_value_ok _ _ _ o c nm' m pr ch nx pa nm v V E B T) as (h' & pr' & l' & E' & V' & _ & Ho' & Pl' & _ & X).
    { intros K. apply N. now apply inside_contains. }
    { intros f x Y I. destruct (Nx f x Y I) as (A1 & A2). split; [now apply named_conv|].
      intros K. apply A2. now apply inside_contains. }
    { intros f x cx old nx' Y I Ex Bx K. eapply (Old f x old nx' Y I); [apply holds_at; eauto|]. now apply inside_contains. }
    assert (Ll : exists l, pseg (hp s) pr l None).
    { destruct pr as [f|]; [|exists []; constructor]. eapply sequence_exists; eauto.
      eapply (inv_typed _ _ _ V); [exact E|]. rewrite B. now left. }
    destruct Ll as (l & Pl).
    eapply went_changed; [cbn [step]; rewrite E'; reflexivity|exact V'|].
    cbn. split; auto. eapply value_put_set; eauto. intros; eapply pseg_lt; eauto.
  - (* OSetPropertyData *)
    destruct F as (nm' & m & pr & ch & nx & pa & Ho & Gd & Nm & No & Nx). pose proof Ho as Hh. apply holds_at in Ho. destruct Ho as (c & E & B).
    apply good_conv in Gd.
    destruct (set_property_data_ok _ _ _ o c nm' m pr ch nx pa nm d V E B Gd) as (h1 & h2 & h' & pr' & l' & E' & V' & G1 & S2 & Ho' & Pl' & X).
    { intros f x Y I. apply named_conv. eauto. }
    { intros q Y K. rewrite <- pointer_ref in Y. apply (No q Y). now apply inside_contains. }
    { intros q f x Y Z I K. rewrite <- pointer_ref in Y. apply (Nx q f x Y Z I). now apply inside_contains. }
    assert (Ll : exists l, pseg (hp s) pr l None).
    { destruct pr as [f|]; [|exists []; constructor]. eapply sequence_exists; eauto.
      eapply (inv_typed _ _ _ V); [exact E|]. rewrite B. now left. }
    destruct Ll as (l & Pl).
    pose proof (at_lt _ _ _ E) as Lo.
    assert (Pl1 : pseg h1 pr l None).
    { apply pseg_sequence. apply pseg_sequence in Pl as Q.
      assert (LP : forall x, In x l -> x < length (hp s)) by (intros; eapply pseg_lt; eauto). clear - Q LP G1.
      induction Q; [constructor|]. econstructor; [|apply IHQ; intros x I; apply LP; now right].
      apply (grown_holds (hp s) h1 (Value d) p); [exact G1|specialize (LP p (or_introl eq_refl)); lia|eassumption]. }
    eapply went_changed; [cbn [step]; rewrite E'; reflexivity|exact V'|].
    cbn. exists h1. split; [now apply grown_adds|]. split; auto. eapply same_value_set; [|exact S2].
    eapply value_put_set; [|exact Pl1|exact Ho'|exact Pl'|intros; eapply pseg_lt; eauto|eauto].
    apply (grown_holds (hp s) h1 (Value d)); auto. lia.
  - (* OSetChildren *)
    destruct F as (nm & m & pr & old & nx & pa & Ho & M & R). apply holds_at in Ho. destruct Ho as (c & E & B).
    destruct (set_children_ok _ _ _ o nm m pr old nx pa cs c V E B (maybe_may _ _ _ M) (replaces_conv _ _ _ _ R)) as (h' & E' & V' & A' & _).
    eapply went_changed; [cbn [step]; rewrite E'; reflexivity|exact V'|].
    cbn. exists nm, m, pr, old, nx, pa. split; [apply holds_at; eauto|]. split; auto. eapply after_changes; eauto.
  - (* OSetSibling *)
    destruct F as (nm & m & pr & ch & old & pa & Ho & M & R). apply holds_at in Ho. destruct Ho as (c & E & B).
    destruct (set_sibling_ok _ _ _ o nm m pr ch old pa n c V E B (maybe_may _ _ _ M) (replaces_conv _ _ _ _ R)) as (h' & E' & V' & A' & _).
    eapply went_changed; [cbn [step]; rewrite E'; reflexivity|exact V'|].
    cbn. exists nm, m, pr, ch, old, pa. split; [apply holds_at; eauto|]. split; auto. eapply after_changes; eauto.
  - (* OSetParent *)
    apply is_isk in F. destruct F as (c & E & K). destruct (bd c) as [| |nm m pr ch nx old| |] eqn:B; try discriminate.
    destruct (plain_write (hp s) (H s) pend o c (fun _ => Object nm m pr ch nx pa) _ V E eq_refl) as (h' & E' & V' & A' & _); [now rewrite B|now rewrite B|].
    eapply went_changed; [cbn [step]; unfold set_parent; rewrite (get_at _ _ _ E); cbn [obind]; rewrite B, E'; reflexivity|exact V'|].
    cbn. exists nm, m, pr, ch, nx, old. split; [apply holds_at; eauto|]. split; auto. eapply after_changes; eauto.
  - (* ONewRelation *)
    destruct (new_relation_ok _ _ _ op v V (maybe_may _ _ _ F)) as (h' & E & V' & G).
    eapply went_created; [cbn [step]; rewrite E; reflexivity|exact V'|exact G|]. intros A. cbn. auto.
  - (* ONewLogic *)
    destruct F as (Fl & Fr). destruct (new_logic_ok _ _ _ op l r V (maybe_may _ _ _ Fl) (maybe_may _ _ _ Fr)) as (h' & E & V' & G).
    eapply went_created; [cbn [step]; rewrite E; reflexivity|exact V'|exact G|]. intros A. cbn. auto.
  - (* ORetain *)
    destruct F as (b & Hb). apply holds_at in Hb. destruct Hb as (c & E & B).
    destruct (retain_inv _ _ _ p c V E) as (h' & E' & V' & S').
    exists (mkState h' (p :: held s)), pend. split; [cbn [step]; rewrite E'; reflexivity|].
    split; [cbn; split; auto; intros q b'; now apply same_holds|]. split; [now apply Inv_created|auto].
  - (* ORelease *)
    destruct (release_inv (hp s) (fun q => occ q (drop p (held s))) pend p) as (h' & E' & V' & L' & _).
    { eapply Inv_ext; [|exact V]. intros q. unfold plus, H. now apply drop_occ. }
    exists (mkState h' (drop p (held s))), pend. split; [cbn [step]; rewrite E'; reflexivity|].
    split; [|split; [exact V'|auto]]. cbn. split.
    + intros q b' _ X. apply holds_at in X. destruct X as (cq & Eq & <-). destruct (less_body _ _ L' q cq Eq) as (c0 & E0 & B0).
      apply holds_at. eauto.
    + destruct (drop_split p (held s) F) as (l1 & l2 & A1 & A2). exists l1, l2. auto.
Qed.
