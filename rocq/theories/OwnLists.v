(** The property list of an object under rbusObject_SetProperty and
    rbusObject_SetPropertyValue. *)
From Verif Require Import Common CommonFacts OwnModel OwnSpec OwnProofs OwnFacts OwnSteps OwnComp.
Local Open Scope nat_scope.

Definition nxt (b : body) : option (option ptr) := match b with Property _ _ nx => Some nx | _ => None end.

(** From [a] along the list through [l], ending before [b]. *)
Inductive pseg (h : heap) : option ptr -> list ptr -> option ptr -> Prop :=
| pseg_nil a : pseg h a [] a
| pseg_cons p c nx l b : at_ h p = Some c -> nxt (bd c) = Some nx -> pseg h nx l b -> pseg h (Some p) (p :: l) b.

Lemma pseg_nil_inv h a b : pseg h a [] b -> a = b.
Proof. intros H. inversion H. reflexivity. Qed.

Lemma pseg_cons_inv h a x l b : pseg h a (x :: l) b ->
  a = Some x /\ exists c nx, at_ h x = Some c /\ nxt (bd c) = Some nx /\ pseg h nx l b.
Proof. intros H. inversion H; subst. split; [reflexivity|]. eauto. Qed.

Lemma pseg_none_inv h l b : pseg h None l b -> l = [].
Proof. intros H. inversion H; reflexivity. Qed.

Lemma pseg_app h l1 : forall a l2 b, pseg h a (l1 ++ l2) b <-> exists m, pseg h a l1 m /\ pseg h m l2 b.
Proof.
  induction l1 as [|x l1 IH]; intros a l2 b; cbn.
  - split; [intros H; exists a; split; [constructor|exact H]|]. intros (m & H1 & H2). apply pseg_nil_inv in H1. now subst.
  - split.
    + intros H. apply pseg_cons_inv in H. destruct H as (-> & c & nx & E & N & P).
      apply IH in P. destruct P as (m & A & B). exists m. split; [econstructor; eauto|exact B].
    + intros (m & A & B). apply pseg_cons_inv in A. destruct A as (-> & c & nx & E & N & P). econstructor; eauto. apply IH. eauto.
Qed.

Lemma pseg_unique h l1 : forall a l2, pseg h a l1 None -> pseg h a l2 None -> l1 = l2.
Proof.
  induction l1 as [|y l1 IH]; intros a l2 P1 P2.
  - apply pseg_nil_inv in P1. subst. apply pseg_none_inv in P2. congruence.
  - apply pseg_cons_inv in P1. destruct P1 as (-> & c & nx & E & N & P).
    destruct l2 as [|z l2]; [apply pseg_nil_inv in P2; discriminate|].
    apply pseg_cons_inv in P2. destruct P2 as (Z & c' & nx' & E' & N' & P'). inversion Z; subst.
    f_equal. apply (IH nx); auto. assert (nx' = nx) by congruence. congruence.
Qed.

Lemma nxt_slots b q : nxt b = Some (Some q) -> In q (slots b).
Proof. destruct b; cbn; try discriminate. intros E. inversion E; subst. apply in_app_iff. right. now left. Qed.

Lemma pseg_inlist h l : forall p b x, pseg h (Some p) l b -> In x l -> inlist h p x.
Proof.
  induction l as [|y l IH]; intros p b x H I; [destruct I|]. apply pseg_cons_inv in H.
  destruct H as (Q & c & nx & E & N & P). inversion Q; subst y.
  destruct I as [<-|I]; [constructor|]. destruct nx as [q|].
  - destruct (bd c) as [|nm v nx| | |] eqn:B; cbn in N; try discriminate. inversion N; subst nx.
    apply (inlist_next h p nm v q x); [|eapply IH; eauto]. apply holds_at. eauto.
  - apply pseg_none_inv in P. subst. destruct I.
Qed.

Lemma pseg_strict h l1 : forall a y l2 b x, pseg h a (l1 ++ y :: l2) b -> In x l1 -> exists z, points h x z /\ contains h z y.
Proof.
  induction l1 as [|w l1 IH]; intros a y l2 b x H I; [destruct I|]. cbn in H. apply pseg_cons_inv in H.
  destruct H as (Q & c & nx & E & N & P).
  destruct I as [<-|I]; [|eapply IH; eauto].
  destruct nx as [q|].
  - exists q. split; [exists c; split; auto; now apply nxt_slots|]. apply inlist_contains. eapply pseg_inlist; eauto.
    apply in_app_iff. right. now left.
  - apply pseg_none_inv in P. destruct l1; discriminate.
Qed.

Lemma pseg_neq h refs pend a l1 y l2 b x : Inv h refs pend -> pseg h a (l1 ++ y :: l2) b -> In x l1 -> x <> y.
Proof.
  intros V H I ->. destruct (pseg_strict _ _ _ _ _ _ _ H I) as (z & P & K). eapply (inv_acy _ _ _ V); eauto.
Qed.

Lemma pseg_neq_after h refs pend a l1 y l2 b x : Inv h refs pend -> pseg h a (l1 ++ y :: l2) b -> In x l2 -> x <> y.
Proof.
  intros V H I ->. apply in_split in I. destruct I as (u & w & ->).
  rewrite app_comm_cons, app_assoc in H. eapply (pseg_neq h refs pend a (l1 ++ y :: u) y w b y V H); auto.
  apply in_app_iff. right. now left.
Qed.

Lemma pseg_move h h' refs pend l : Inv h' refs pend -> forall a b, pseg h a l b ->
  (forall q c', In q l -> at_ h' q = Some c' -> exists c, at_ h q = Some c /\ nxt (bd c') = nxt (bd c)) ->
  (forall q, a = Some q -> l <> [] -> exists c, at_ h' q = Some c) -> pseg h' a l b.
Proof.
  intros V. induction l as [|x l IH]; intros a b H F Al.
  - apply pseg_nil_inv in H. subst. constructor.
  - apply pseg_cons_inv in H. destruct H as (-> & c & nx & E & N & P).
    destruct (Al x eq_refl) as (c' & E'); [discriminate|].
    destruct (F x c' (or_introl eq_refl) E') as (c0 & E0 & N0).
    assert (c0 = c) by congruence. subst c0.
    econstructor; [exact E'|rewrite N0; eauto|]. apply IH; auto.
    + intros q cq I. apply F. now right.
    + intros q -> _. eapply inv_points; [exact V|]. exists c'. split; [exact E'|]. apply nxt_slots. congruence.
Qed.

Lemma pseg_props h l : forall a b x, pseg h a l b -> In x l -> exists c nm v nx, at_ h x = Some c /\ bd c = Property nm v nx.
Proof.
  induction l as [|y l IH]; intros a b x H I; [destruct I|]. apply pseg_cons_inv in H.
  destruct H as (Q & c & nx & E & N & P).
  destruct I as [<-|I]; [|eapply IH; eauto]. exists c. destruct (bd c) eqn:B; cbn in N; try discriminate. eauto.
Qed.

Lemma pseg_end h p l : pseg h (Some p) l None -> exists l' x, l = l' ++ [x] /\ pseg h (Some p) l' (Some x) /\
  exists c, at_ h x = Some c /\ nxt (bd c) = Some None.
Proof.
  intros H. destruct l as [|y l]; [inversion H|].
  destruct (exists_last (l := y :: l)) as (l' & x & E); [discriminate|]. rewrite E in *.
  apply pseg_app in H. destruct H as (m & A & B). apply pseg_cons_inv in B. destruct B as (-> & c & nx & Ex & N & P).
  apply pseg_nil_inv in P. subst nx. exists l', x. repeat split; eauto.
Qed.

Lemma last_of_seg h : forall k a l r z, pseg h (Some a) (l ++ [z]) None -> last_of k h a = Ok r -> r = z.
Proof.
  induction k as [|k IH]; intros a l r z P L; [discriminate|]. cbn [last_of] in L.
  destruct l as [|x l]; cbn in P; apply pseg_cons_inv in P; destruct P as (Q & c & nx & E & N & P);
    inversion Q; subst; rewrite (get_at _ _ _ E) in L; cbn [obind] in L;
    destruct (bd c); cbn in N; try discriminate; inversion N; subst.
  - apply pseg_nil_inv in P. subst. congruence.
  - destruct nx as [y|]; [eapply IH; eauto|]. apply pseg_none_inv in P. destruct l; discriminate.
Qed.

(** What the search returns, as a split of the list. *)
Lemma finds_seg h nm cur last f l :
  finds h nm cur last f l ->
  exists pre, pseg h cur pre f /\
    (forall x, In x pre -> exists c m v nx, at_ h x = Some c /\ bd c = Property (Some m) v nx /\ m <> nm) /\
    ((pre = [] /\ l = last) \/ exists pre' x, pre = pre' ++ [x] /\ l = Some x) /\
    (forall p, f = Some p -> exists c v nx, at_ h p = Some c /\ bd c = Property (Some nm) v nx).
Proof.
  induction 1 as [last|p last c v nx E B|p last c m v nx f l E B N F IH].
  - exists []. split; [constructor|]. split; [intros x []|]. split; [auto|]. discriminate.
  - exists []. split; [constructor|]. split; [intros x []|]. split; [auto|]. intros q Q. inversion Q; subst. eauto.
  - destruct IH as (pre & P & Nm & L & Fd). exists (p :: pre). split; [|split; [|split; [|exact Fd]]].
    + econstructor; eauto. now rewrite B.
    + intros x [<-|I]; eauto 10.
    + right. destruct L as [[-> ->]|(pre' & x & -> & ->)].
      * exists [], p. auto.
      * exists (p :: pre'), x. auto.
Qed.

(** The list of a property is finite and ends. *)
Lemma pseg_exists h refs pend : Inv h refs pend -> forall n p seen,
  isk h p KProperty -> budget h seen p -> length h < n + length seen -> exists l, pseg h (Some p) l None.
Proof.
  intros V. induction n as [|n IH]; intros p seen T Bu L.
  - exfalso. destruct (isk_at _ _ _ T) as (c & E). pose proof (budget_len _ _ _ Bu (at_lt _ _ _ E)). lia.
  - destruct (isk_prop _ _ T) as (c & nm & v & nx & E & B). destruct nx as [q|].
    + destruct (IH q (p :: seen)) as (l & P).
      * eapply next_isk; eauto.
      * eapply budget_step; eauto. rewrite B. cbn. rewrite in_app_iff. right. now left.
      * cbn. lia.
      * exists (p :: l). econstructor; eauto. now rewrite B.
    + exists [p]. econstructor; eauto; [now rewrite B|constructor].
Qed.

Definition face (b : body) : body :=
  match b with
  | Property nm v _ => Property nm v None
  | Object nm m _ ch nx pa => Object nm m None ch nx pa
  | b => b
  end.

(** Every cell that is left is as before but for the links of the lists. *)
Definition relinked (h h' : heap) (touched : list ptr) : Prop :=
  forall q c', at_ h' q = Some c' -> exists c, at_ h q = Some c /\ face (bd c') = face (bd c) /\
    (~ In q touched -> bd c' = bd c).

Lemma after_relinked h h' p c b old : After h h' p b old -> at_ h p = Some c -> face b = face (bd c) -> relinked h h' [p].
Proof.
  intros A E F q c' Eq. destruct (Nat.eq_dec q p) as [->|N].
  - destruct (af_at _ _ _ _ _ A) as (c1 & E1 & B1). assert (c1 = c') by congruence. subst.
    exists c. split; auto. split; [congruence|]. intros X. exfalso. apply X. now left.
  - destruct (af_body _ _ _ _ _ A _ _ N Eq) as (c0 & E0 & B0). exists c0. split; auto. split; congruence.
Qed.

Lemma relinked_trans h h1 h2 t1 t2 : relinked h h1 t1 -> relinked h1 h2 t2 -> relinked h h2 (t1 ++ t2).
Proof.
  intros A B q c2 E2. destruct (B _ _ E2) as (c1 & E1 & F1 & N1). destruct (A _ _ E1) as (c & E & F & N).
  exists c. split; auto. split; [congruence|]. rewrite in_app_iff. intros X. rewrite N1, N by tauto. reflexivity.
Qed.

Lemma relinked_weak h h' t t' : relinked h h' t -> incl t t' -> relinked h h' t'.
Proof. intros A I q c' E. destruct (A _ _ E) as (c & E0 & F & N). exists c. split; auto. split; auto. Qed.

Lemma relinked_refl h : relinked h h [].
Proof. intros q c E. eauto. Qed.

(** ** rbusObject_SetProperty *)
Lemma set_property_ok h refs pend o c nm m pr ch nx pa p lp :
  Inv h refs pend -> at_ h o = Some c -> bd c = Object nm m pr ch nx pa -> isk h p KProperty ->
  ~ contains h p o -> (pr <> None -> named' h p) ->
  (forall f x, pr = Some f -> inlist h f x -> named' h x /\ ~ contains h p x /\ forall y, inlist h p y -> ~ contains h x y) ->
  pseg h (Some p) lp None ->
  exists h' pr' l', set_property h o p = Ok h' /\ Inv h' refs pend /\
    holds h' o (Object nm m pr' ch nx pa) /\ pseg h' pr' l' None /\
    (forall l, pseg h pr l None -> relinked h h' (o :: l ++ lp) /\
      ((exists pre op post, l = pre ++ op :: post /\ l' = pre ++ lp ++ post /\
          (exists cp v n co vo n', at_ h p = Some cp /\ bd cp = Property (Some n) v n' /\
             at_ h op = Some co /\ (exists no, bd co = Property (Some n) vo no) /\
             forall x, In x pre -> exists cx mx vx nx', at_ h x = Some cx /\ bd cx = Property (Some mx) vx nx' /\ mx <> n)) \/
       (l' = l ++ lp /\
          (l = [] \/ exists cp v n n', at_ h p = Some cp /\ bd cp = Property (Some n) v n' /\
            forall x, In x l -> exists cx mx vx nx', at_ h x = Some cx /\ bd cx = Property (Some mx) vx nx' /\ mx <> n)))).
Proof.
  intros V E B T No Nm Cond Lp.
  assert (KO : forall x a l b, pseg h a l b -> In x l -> x <> o).
  { intros x a l b P I ->. destruct (pseg_props _ _ _ _ _ P I) as (cx & ? & ? & ? & Ex & Bx). congruence. }
  assert (AllP : exists cp, at_ h p = Some cp) by (eapply isk_at; eauto).
  destruct pr as [f|].
  2:{ (* no properties yet *)
    destruct (set_properties_ok h refs pend o nm m None ch nx pa (Some p) c V E B) as (h' & E' & V' & A' & Pt').
    { intros q Q. inversion Q; subst. exact T. }
    { intros n Q. inversion Q; subst. split; [exact No|discriminate]. }
    exists h', (Some p), lp. split; [unfold set_property; rewrite (get_at _ _ _ E); cbn [obind]; rewrite B; exact E'|].
    split; [exact V'|]. split; [apply holds_at; apply (af_at _ _ _ _ _ A')|]. split.
    - eapply pseg_move; eauto.
      + intros q c' I Eq. destruct (af_body _ _ _ _ _ A' q c') as (c0 & E0 & B0); eauto. exists c0. split; congruence.
      + intros q Q _. inversion Q; subst. destruct AllP as (cp & Ep). destruct (af_keep _ _ _ _ _ A' q cp) as (c' & Ec' & _); eauto.
        * intros ->. apply No. constructor.
        * discriminate.
    - intros l Pl. apply pseg_none_inv in Pl. subst l. split; [|right; auto].
      eapply relinked_weak; [eapply after_relinked; eauto; rewrite B; reflexivity|]. intros x [<-|[]]. now left. }
  assert (Pf : points h o f). { exists c. split; auto. rewrite B. now left. }
  assert (Tf : isk h f KProperty). { eapply (inv_typed _ _ _ V); eauto. rewrite B. now left. }
  destruct (Nm ltac:(discriminate)) as (cp & n & vp & np & Ep & Bp).
  destruct (search_ok h refs pend V (deep h) (Some f) None [] n) as (fo & la & Es & Fs).
  { intros q Q. inversion Q; subst. split; [exact Tf|apply budget_nil]. }
  { intros q x Q I. inversion Q; subst. destruct (Cond q x eq_refl I) as (X & _). exact X. }
  { unfold deep. cbn. lia. }
  destruct (finds_seg _ _ _ _ _ _ Fs) as (pre & Ppre & Npre & La & Fd).
  assert (Step1 : set_property h o p =
    match fo with
    | Some op =>
        do oc <- get h op;
        match bd oc with
        | Property _ _ nx =>
            do h1 <- (match nx with Some q => append h p (Some q) | None => Ok h end);
            match la with Some lp => set_next h1 lp (Some p) | None => set_properties h1 o (Some p) end
        | _ => Err tt
        end
    | None => match la with Some lp => set_next h lp (Some p) | None => UB end
    end).
  { unfold set_property. rewrite (get_at _ _ _ E). cbn [obind]. rewrite B, (get_at _ _ _ Ep). cbn [obind].
    rewrite Bp, Es. reflexivity. }
  rewrite Step1. clear Step1 Es Fs.
  assert (InP : forall x, In x lp -> inlist h p x) by (intros x; apply pseg_inlist with (b := None); exact Lp).
  assert (InF : forall x l b, pseg h (Some f) l b -> In x l -> inlist h f x) by (intros; eapply pseg_inlist; eauto).
  assert (Disj : forall x y, inlist h f x -> inlist h p y -> x <> y).
  { intros x y Ix Iy ->. destruct (Cond f y eq_refl Ix) as (_ & X & _). apply X. now apply inlist_contains. }
  destruct fo as [op|].
  - (* replaced *)
    destruct (Fd op eq_refl) as (co & vo & no & Eo & Bo). rewrite (get_at _ _ _ Eo). cbn [obind]. rewrite Bo.
    assert (Iop : inlist h f op).
    { destruct (pseg_exists h refs pend V (deep h) op [] ) as (lo & Plo).
      - exists co. rewrite Bo. auto.
      - apply budget_nil.
      - unfold deep. cbn. lia.
      - eapply (InF op (pre ++ lo)).
        + apply pseg_app. eauto.
        + destruct lo as [|z lo]; [apply pseg_nil_inv in Plo; discriminate|]. apply pseg_cons_inv in Plo.
          destruct Plo as (Z & _). inversion Z; subst. apply in_app_iff. right. now left. }
    assert (Post : exists post, pseg h no post None).
    { destruct no as [q|]; [|exists []; constructor]. apply (pseg_exists h refs pend V (deep h) q []).
      - eapply next_isk; eauto.
      - apply budget_nil.
      - unfold deep. cbn. lia. }
    destruct Post as (post & Ppost).
    assert (Pall : pseg h (Some f) (pre ++ op :: post) None).
    { apply pseg_app. exists (Some op). split; [exact Ppre|]. econstructor; eauto. now rewrite Bo. }
    destruct (pseg_end _ _ _ Lp) as (lp' & lw & -> & Plp' & clw & Elw & Nlw).
    assert (Ilw : inlist h p lw) by (apply InP; apply in_app_iff; right; now left).
    (* first step: the rest of the list goes behind the new property *)
    assert (S1 : exists h1, (match no with Some q => append h p (Some q) | None => Ok h end) = Ok h1 /\
      Inv h1 refs pend /\ pseg h1 (Some p) (lp' ++ [lw]) no /\
      (forall x y, points h1 x y -> points h x y \/ (x = lw /\ no = Some y)) /\
      relinked h h1 [lw] /\ (forall q c, at_ h q = Some c -> exists c', at_ h1 q = Some c')).
    { destruct no as [q|].
      - assert (Iq : inlist h f q).
        { eapply inlist_trans; [exact Iop|]. econstructor 2; [|constructor]. apply holds_at. eauto. }
        destruct (append_ok h refs pend p (Some q) V T) as (h1 & l1 & c1 & n1 & v1 & E1 & Al & Bl & Il & El & V1 & A1 & Pt1).
        { intros y Y. injection Y as <-. exact (next_isk h refs pend op co _ _ _ V Eo Bo). }
        { intros y x Y I. injection Y as <-. destruct (Cond f q eq_refl Iq) as (_ & _ & X). apply X. exact I. }
        assert (l1 = lw).
        { eapply last_of_seg; eauto. }
        subst l1. exists h1. split; [exact E1|]. split; [exact V1|].
        assert (Keep : forall z cz, at_ h z = Some cz -> exists c', at_ h1 z = Some c').
        { intros z cz Ez. destruct (Nat.eq_dec z lw) as [->|Nz].
          - destruct (af_at _ _ _ _ _ A1) as (c' & Ec' & _). eauto.
          - destruct (af_keep _ _ _ _ _ A1 z cz Nz) as (c' & Ec' & _); eauto. discriminate. }
        split; [|split; [|split; [|exact Keep]]].
        + apply pseg_app. exists (Some lw). split.
          * apply (pseg_move h h1 refs pend lp' V1 (Some p)); auto.
            -- intros z cz I Ez. destruct (af_body _ _ _ _ _ A1 z cz) as (c0 & E0 & B0); auto.
               ++ exact (pseg_neq h refs pend (Some p) lp' lw [] None z V Lp I).
               ++ exists c0. split; congruence.
            -- intros z Z _. inversion Z; subst. eauto.
          * destruct (af_at _ _ _ _ _ A1) as (c' & Ec' & Bc'). econstructor; eauto; [rewrite Bc'; reflexivity|constructor].
        + intros x y P. destruct (Pt1 _ _ P) as [X|X]; auto.
        + eapply after_relinked; eauto. rewrite Bl. reflexivity.
      - exists h. split; [reflexivity|]. split; [exact V|]. split; [exact Lp|]. split; [auto|]. split; [|eauto].
        eapply relinked_weak; [apply relinked_refl|]. intros x []. }
    destruct S1 as (h1 & E1 & V1 & Lp1 & Pt1 & Rl1 & Keep1). rewrite E1. cbn [obind].
    assert (Back : forall z cz, at_ h1 z = Some cz -> z <> lw -> exists c0, at_ h z = Some c0 /\ bd cz = bd c0).
    { intros z cz Ez Nz. destruct (Rl1 _ _ Ez) as (c0 & E0 & _ & X). exists c0. split; auto. apply X. intros [Y|[]]. congruence. }
    assert (Fwd : forall z cz, at_ h z = Some cz -> z <> lw -> exists c1, at_ h1 z = Some c1 /\ bd c1 = bd cz).
    { intros z cz Ez Nz. destruct (Keep1 _ _ Ez) as (c1 & Ec1). exists c1. split; auto.
      destruct (Back _ _ Ec1 Nz) as (c0 & E0 & B0). congruence. }
    (* nothing reached from the old property leads to the new one *)
    assert (Nop : ~ contains h1 op p).
    { intros K. destruct (Cond f op eq_refl Iop) as (_ & _ & X).
      destruct no as [q|].
      - destruct (contains_add h h1 lw q op p) with (2 := K) as [K'|[K' _]].
        + intros x y P. destruct (Pt1 _ _ P) as [Y|[Y1 Y2]]; [auto|]. right. split; congruence.
        + apply (X p); [constructor|exact K'].
        + apply (X lw); auto.
      - apply (X p); [constructor|]. eapply contains_mono; [|exact K]. intros x y P.
        destruct (Pt1 _ _ P) as [Y|[Y1 Y2]]; [auto|discriminate]. }
    assert (NpTo : forall z, ~ contains h p z -> (forall q, no = Some q -> ~ contains h q z) -> ~ contains h1 p z).
    { intros z N1 N2 K. destruct no as [q|].
      - destruct (contains_add h h1 lw q p z) with (2 := K) as [K'|[_ K']].
        + intros x y P. destruct (Pt1 _ _ P) as [Y|[Y1 Y2]]; [auto|]. right. split; congruence.
        + auto.
        + eapply N2; eauto.
      - apply N1. eapply contains_mono; [|exact K]. intros x y P.
        destruct (Pt1 _ _ P) as [Y|[Y1 Y2]]; [auto|discriminate]. }
    assert (Tp1 : may h1 (Some p) KProperty).
    { intros z Z. inversion Z; subst z. destruct (Keep1 _ _ Ep) as (c1 & Ec1). exists c1. split; auto.
      destruct (Rl1 _ _ Ec1) as (c0 & E0 & F0 & _). assert (c0 = cp) by congruence. subst c0. rewrite Bp in F0.
      destruct (bd c1); cbn in F0; try discriminate. reflexivity. }
    assert (Nlw_o : o <> lw).
    { intros ->. apply No. now apply inlist_contains. }
    assert (NoOp : forall q, no = Some q -> points h op q).
    { intros q ->. exists co. split; auto. rewrite Bo. cbn. apply in_app_iff. right. now left. }
    assert (SucL : forall q, no = Some q -> contains h f q).
    { intros q Q. eapply contains_trans; [apply inlist_contains; exact Iop|]. eapply contains_one. eauto. }
    (* second step *)
    destruct La as [[-> ->]|(pre' & x & -> & ->)].
    + (* it was the first one *)
      apply pseg_nil_inv in Ppre. inversion Ppre; subst op.
      destruct (Fwd o c E Nlw_o) as (c1 & Eo1 & Bo1). rewrite B in Bo1.
      destruct (set_properties_ok h1 refs pend o nm m (Some f) ch nx pa (Some p) c1 V1 Eo1 Bo1 Tp1) as (h2 & E2 & V2 & A2 & Pt2).
      { intros z Z. inversion Z; subst z. split.
        - apply NpTo; auto. intros q Q K. apply (inv_acy _ _ _ V o f Pf). eapply contains_trans; [apply SucL; eauto|exact K].
        - intros z' Z'. inversion Z'; subst z'. exact Nop. }
      assert (Eq_o : exists c2, at_ h2 o = Some c2 /\ bd c2 = Object nm m (Some p) ch nx pa) by apply (af_at _ _ _ _ _ A2).
      assert (Ap : exists c2, at_ h2 p = Some c2).
      { destruct Eq_o as (c2 & Ec2 & Bc2). eapply (inv_points _ _ _ o p V2). exists c2. split; auto. rewrite Bc2. now left. }
      assert (Bk : forall z cz, z <> o -> at_ h2 z = Some cz -> exists c0, at_ h1 z = Some c0 /\ bd cz = bd c0).
      { intros. eapply (af_body _ _ _ _ _ A2); eauto. }
      assert (KO1 : forall z a l b, pseg h1 a l b -> In z l -> z <> o).
      { intros z a l b P I ->. destruct (pseg_props _ _ _ _ _ P I) as (cx & ? & ? & ? & Ex & Bx). congruence. }
      assert (Ppost1 : pseg h1 no post None).
      { apply (pseg_move h h1 refs pend post V1); auto.
        - intros z cz I Ez. destruct (Back z cz Ez) as (c0 & E0 & B0); [|exists c0; split; congruence].
          apply Disj; auto. eapply (InF z _ _ Pall). apply in_app_iff. right. now right.
        - intros z Z _. subst no. destruct (inv_points h refs pend f z V (NoOp _ eq_refl)) as (cz & Ez). eauto. }
      exists h2, (Some p), ((lp' ++ [lw]) ++ post). split; [exact E2|]. split; [exact V2|].
      split; [apply holds_at; exact Eq_o|]. split.
      * apply (pseg_move h1 h2 refs pend _ V2).
        -- apply pseg_app. exists no. split; [exact Lp1|exact Ppost1].
        -- intros z cz I Ez. destruct (Bk z cz) as (c0 & E0 & B0); auto; [|exists c0; split; congruence].
           apply in_app_iff in I. destruct I; eauto.
        -- intros z Z _. inversion Z; subst. exact Ap.
      * intros l Pl. assert (l = f :: post).
        { eapply pseg_unique; eauto. }
        subst l. split.
        -- eapply relinked_weak; [eapply relinked_trans; [exact Rl1|eapply after_relinked; eauto; rewrite Bo1; reflexivity]|].
           intros z Z. cbn in Z. destruct Z as [<-|[<-|[]]]; [|now left]. right. apply in_app_iff. right. apply in_app_iff. right. now left.
        -- left. exists [], f, post. split; [reflexivity|]. split; [reflexivity|].
           exists cp, vp, n, co, vo, np. repeat (split; eauto).
    + (* it had a predecessor *)
      rename x into pv. 
      assert (Ppv : pseg h (Some f) (pre' ++ pv :: op :: post) None).
      { rewrite <- app_assoc in Pall. exact Pall. }
      assert (Ipv : inlist h f pv) by (eapply (InF pv _ _ Ppv); apply in_app_iff; right; now left).
      destruct (Npre pv) as (cv & mv & vv & nv & Ev & Bv & Mv); [apply in_app_iff; right; now left|].
      assert (nv = Some op).
      { apply pseg_app in Ppv. destruct Ppv as (mm & _ & X). apply pseg_cons_inv in X. destruct X as (_ & c0 & n0 & E0 & N0 & X).
        assert (c0 = cv) by congruence. subst c0. rewrite Bv in N0. cbn in N0. inversion N0; subst n0.
        apply pseg_cons_inv in X. apply X. }
      subst nv.
      assert (Nvlw : pv <> lw) by (apply Disj; auto).
      destruct (Fwd pv cv Ev Nvlw) as (cv1 & Ev1 & Bv1). rewrite Bv in Bv1.
      assert (Pvo : points h pv op). { exists cv. split; auto. rewrite Bv. cbn. apply in_app_iff. right. now left. }
      destruct (set_next_ok h1 refs pend pv (Some mv) vv (Some op) (Some p) cv1 V1 Ev1 Bv1 Tp1) as (h2 & E2 & V2 & A2 & Pt2).
      { intros z Z. inversion Z; subst z. split.
        - apply NpTo.
          + destruct (Cond f pv eq_refl Ipv) as (_ & X & _). exact X.
          + intros q Q K. apply (inv_acy _ _ _ V pv op Pvo). eapply con_step; [apply NoOp; eauto|exact K].
        - intros z' Z'. inversion Z'; subst z'. exact Nop. }
      assert (Npvo : pv <> o). { intros ->. congruence. }
      destruct (Fwd o c E Nlw_o) as (c1 & Eo1 & Bo1). rewrite B in Bo1.
      assert (Oalive : exists c2, at_ h2 o = Some c2 /\ bd c2 = Object nm m (Some f) ch nx pa).
      { destruct (af_keep _ _ _ _ _ A2 o c1) as (c2 & Ec2 & Bc2); auto.
        - intros z Z K. inversion Z; subst z.
          apply (inv_acy _ _ _ V1 o f).
          + exists c1. split; auto. rewrite Bo1. now left.
          + eapply contains_trans; [|exact K].
            assert (Pp1 : pseg h1 (Some f) (pre' ++ [pv]) (Some op)).
            { apply (pseg_move h h1 refs pend _ V1); auto.
              - intros z cz I Ez. destruct (Back z cz Ez) as (c0 & E0 & B0); [|exists c0; split; congruence].
                apply Disj; auto. eapply (InF z _ _ Ppre). exact I.
              - intros z Z' _. inversion Z'; subst. destruct (isk_at _ _ _ Tf) as (cf & Ecf). eauto. }
            apply pseg_app in Pp1. destruct Pp1 as (mm & X1 & X2). pose proof (pseg_cons_inv _ _ _ _ _ X2) as (-> & _).
            eapply contains_trans; [|eapply contains_one; exists cv1; split; [exact Ev1|rewrite Bv1; cbn; apply in_app_iff; right; now left]].
            apply inlist_contains. eapply pseg_inlist with (l := pre' ++ [pv]) (b := Some op).
            * apply pseg_app. exists (Some pv). split; [exact X1|exact X2].
            * apply in_app_iff. right. now left.
        - exists c2. split; congruence. }
      assert (Bk : forall z cz, z <> pv -> at_ h2 z = Some cz -> exists c0, at_ h1 z = Some c0 /\ bd cz = bd c0).
      { intros. eapply (af_body _ _ _ _ _ A2); eauto. }
      assert (Pv2 : exists c2, at_ h2 pv = Some c2 /\ bd c2 = Property (Some mv) vv (Some p)) by apply (af_at _ _ _ _ _ A2).
      assert (Ppost1 : pseg h1 no post None).
      { apply (pseg_move h h1 refs pend post V1); auto.
        - intros z cz I Ez. destruct (Back z cz Ez) as (c0 & E0 & B0); [|exists c0; split; congruence].
          apply Disj; auto. eapply (InF z _ _ Pall). apply in_app_iff. right. now right.
        - intros z Z _. subst no. destruct (inv_points h refs pend op z V (NoOp _ eq_refl)) as (cz & Ez). eauto. }
      assert (P2 : pseg h2 (Some f) pre' (Some pv)).
      { apply pseg_app in Ppre. destruct Ppre as (mm & X1 & X2). pose proof (pseg_cons_inv _ _ _ _ _ X2) as (-> & _).
        apply (pseg_move h h2 refs pend pre' V2); auto.
        - intros z cz I Ez. destruct (Bk z cz) as (c0 & E0 & B0); auto.
          { eapply (pseg_neq h refs pend (Some f) pre' pv); eauto. }
          destruct (Back z c0 E0) as (c00 & E00 & B00).
          { apply Disj; auto. eapply (InF z _ _ X1). exact I. }
          exists c00. split; congruence.
        - intros z Z _. inversion Z; subst. destruct Oalive as (c2 & Ec2 & Bc2).
          eapply (inv_points _ _ _ o z V2). exists c2. split; auto. rewrite Bc2. now left. }
      assert (P3 : pseg h2 (Some p) ((lp' ++ [lw]) ++ post) None).
      { apply (pseg_move h1 h2 refs pend _ V2).
        - apply pseg_app. exists no. split; [exact Lp1|exact Ppost1].
        - intros z cz I Ez. destruct (Bk z cz) as (c0 & E0 & B0); auto; [|exists c0; split; congruence].
          apply in_app_iff in I. destruct I as [I|I].
          + intros ->. apply (Disj pv pv); auto.
          + eapply (pseg_neq_after h refs pend (Some f) pre' pv (op :: post)); eauto. now right.
        - intros z Z _. inversion Z; subst. destruct Pv2 as (c2 & Ec2 & Bc2).
          eapply (inv_points _ _ _ pv z V2). exists c2. split; auto. rewrite Bc2. cbn. apply in_app_iff. right. now left. }
      exists h2, (Some f), ((pre' ++ [pv]) ++ (lp' ++ [lw]) ++ post). split; [exact E2|]. split; [exact V2|].
      split; [apply holds_at; exact Oalive|]. split.
      * apply pseg_app. exists (Some p). split; [|exact P3]. apply pseg_app. exists (Some pv). split; [exact P2|].
        destruct Pv2 as (c2 & Ec2 & Bc2). econstructor; eauto; [rewrite Bc2; reflexivity|constructor].
      * intros l Pl. assert (l = (pre' ++ [pv]) ++ op :: post).
        { eapply pseg_unique; eauto. }
        subst l. split.
        -- eapply relinked_weak; [eapply relinked_trans; [exact Rl1|eapply after_relinked; eauto; rewrite Bv1; reflexivity]|].
           intros z Z. cbn in Z. right. destruct Z as [<-|[<-|[]]]; rewrite !in_app_iff; cbn; auto 10.
        -- left. exists (pre' ++ [pv]), op, post. split; [reflexivity|]. split; [reflexivity|].
           exists cp, vp, n, co, vo, np. repeat (split; eauto).
  - (* added at the end *)
    destruct La as [[-> ->]|(pre' & x & -> & ->)].
    { apply pseg_nil_inv in Ppre. discriminate. }
    apply pseg_app in Ppre. destruct Ppre as (mm & Pp' & Px). apply pseg_cons_inv in Px. destruct Px as (-> & cx & nx' & Ex & Nx & Px').
    apply pseg_nil_inv in Px'. subst nx'.
    assert (Pall : pseg h (Some f) (pre' ++ [x]) None).
    { apply pseg_app. exists (Some x). split; [exact Pp'|]. econstructor; eauto. constructor. }
    assert (Ix : inlist h f x) by (eapply (InF x _ _ Pall); apply in_app_iff; right; now left).
    destruct (bd cx) as [|nmx vx nxx| | |] eqn:Bx; cbn in Nx; try discriminate. inversion Nx; subst nxx.
    destruct (set_next_ok h refs pend x nmx vx None (Some p) cx V Ex Bx) as (h2 & E2 & V2 & A2 & Pt2).
    { intros q Q. inversion Q; subst. exact T. }
    { intros q Q. inversion Q; subst. split; [|discriminate]. destruct (Cond f x eq_refl Ix) as (_ & X & _). exact X. }
    assert (Keep : forall z cz, at_ h z = Some cz -> z <> x -> exists c2, at_ h2 z = Some c2 /\ bd c2 = bd cz).
    { intros z cz Ez Nz. eapply (af_keep _ _ _ _ _ A2); eauto. discriminate. }
    assert (Bk : forall z cz, z <> x -> at_ h2 z = Some cz -> exists c0, at_ h z = Some c0 /\ bd cz = bd c0).
    { intros. eapply (af_body _ _ _ _ _ A2); eauto. }
    assert (Nxo : o <> x) by (intros ->; congruence).
    exists h2, (Some f), ((pre' ++ [x]) ++ lp). split; [exact E2|]. split; [exact V2|]. split.
    { destruct (Keep o c E Nxo) as (c2 & Ec2 & Bc2). apply holds_at. exists c2. split; congruence. }
    split.
    + apply pseg_app. exists (Some p). split.
      * apply pseg_app. exists (Some x). split.
        -- apply (pseg_move h h2 refs pend pre' V2); auto.
           ++ intros z cz I Ez. destruct (Bk z cz) as (c0 & E0 & B0); auto; [|exists c0; split; congruence].
              eapply (pseg_neq h refs pend (Some f) pre' x); eauto.
           ++ intros z Z _. inversion Z; subst. destruct (isk_at _ _ _ Tf) as (cf & Ecf).
              destruct (Nat.eq_dec z x) as [->|Nz].
              ** destruct (af_at _ _ _ _ _ A2) as (c2 & Ec2 & _). eauto.
              ** destruct (Keep _ _ Ecf Nz) as (c2 & Ec2 & _). eauto.
        -- destruct (af_at _ _ _ _ _ A2) as (c2 & Ec2 & Bc2). econstructor; eauto; [rewrite Bc2; reflexivity|constructor].
      * apply (pseg_move h h2 refs pend lp V2); auto.
        -- intros z cz I Ez. destruct (Bk z cz) as (c0 & E0 & B0); auto; [|exists c0; split; congruence].
           intros ->. apply (Disj x x); auto.
        -- intros z Z _. inversion Z; subst. destruct (Keep _ _ Ep) as (c2 & Ec2 & _); eauto.
           intros ->. apply (Disj x x); auto. constructor.
    + intros l Pl. assert (l = pre' ++ [x]).
      { eapply pseg_unique; eauto. }
      subst l. split.
      * eapply relinked_weak; [eapply after_relinked; eauto; rewrite Bx; reflexivity|].
        intros z [<-|[]]. right. rewrite !in_app_iff. cbn. auto.
      * right. split; [reflexivity|]. right. exists cp, vp, n, np. auto.
Qed.
