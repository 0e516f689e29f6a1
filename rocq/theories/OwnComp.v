(** The functions made of several stores. *)
From Verif Require Import Common CommonFacts OwnModel OwnSpec OwnProofs OwnFacts OwnSteps.
Local Open Scope nat_scope.

Lemma copy_ok h refs pend dst src d0 d c cs :
  Inv h refs pend -> at_ h dst = Some c -> bd c = Value d0 -> at_ h src = Some cs -> bd cs = Value d ->
  (forall q, d <> PropertyRef q /\ d <> ObjectRef q) ->
  (forall o, ref_of d0 = Some o -> ~ contains h o src) -> dst <> src ->
  exists h', copy_value h dst src = Ok h' /\ stored h h' refs pend dst (Value d) (ref_of d0) None.
Proof.
  intros V E B Es Bs Nr Ns Ne.
  assert (Rd : ref_of d = None).
  { destruct d as [| | |q|q]; try reflexivity; destruct (Nr q) as (X & Y); congruence. }
  destruct (store_ok h refs pend dst c (fun _ => Value d) _ (ref_of d0) None [] KProperty V E eq_refl) as (h' & E' & S').
  - now rewrite B.
  - rewrite B. intros q. change (occ q []) with 0. cbn [slots]. lia.
  - cbn [slots]. rewrite Rd. reflexivity.
  - rewrite B. destruct d as [| | |[?|]|[?|]]; cbn in *; try discriminate; tauto.
  - intros q Q. discriminate.
  - intros q Q. discriminate.
  - exists h'. split; [|exact S'].
    destruct (release_hole h refs pend dst c (ref_of d0) [] V E) as (h1 & E1 & C1 & L1 & P1 & F1 & Ep1).
    { rewrite B. intros q. change (occ q []) with 0. cbn [slots]. lia. }
    unfold copy_value. destruct (Nat.eqb_spec dst src); [congruence|].
    rewrite (get_at _ _ _ E). cbn [obind]. rewrite B, E1. cbn [obind].
    rewrite (get_at h1 src cs) by (rewrite F1; auto). cbn [obind]. rewrite Bs.
    unfold assign in E'. rewrite E1 in E'. cbn [obind] in E'. rewrite (write_at _ _ _ _ Ep1) in *.
    cbn [obind retain_opt] in E'.
    destruct d as [| | |q|q]; try (destruct (Nr q) as (X & Y); congruence); exact E'.
Qed.

(** The old value of a property gives way to a fresh one. *)
Record Fresh2 (h h' : heap) (p : ptr) (b bv : body) : Prop := {
  f2_len : length h' = S (length h);
  f2_at : exists c', at_ h' p = Some c' /\ bd c' = b;
  f2_new : exists c', at_ h' (length h) = Some c' /\ bd c' = bv;
  f2_body : forall q c', q <> p -> q <> length h -> at_ h' q = Some c' -> exists c, at_ h q = Some c /\ bd c' = bd c }.

Lemma set_prop_data_ok h refs pend p nm old nx d c :
  Inv h refs pend -> at_ h p = Some c -> bd c = Property nm old nx -> good h d ->
  replaces' h p old (ref_of d) ->
  exists h', set_prop_data h p d = Ok h' /\ Inv h' refs pend /\
    Fresh2 h h' p (Property nm (Some (length h)) nx) (Value d).
Proof.
  intros V E B G R.
  destruct (release_hole h refs pend p c old (opt nx) V E) as (h1 & E1 & C1 & L1 & P1 & F1 & Ep1).
  { rewrite B. occs. }
  pose proof (less_len _ _ L1) as Len1. pose proof (at_lt _ _ _ E) as Lp.
  set (v := length h) in *.
  assert (Sd : forall q, In q (slots (Value d)) -> ref_of d = Some q /\ exists cq, at_ h q = Some cq /\ at_ h1 q = Some cq).
  { intros q I. cbn [slots] in I. destruct (ref_of d) as [r|] eqn:Rd; cbn in I; [|contradiction].
    destruct I as [<-|[]]. split; auto. destruct (isk_at _ _ _ (good_may _ _ G r Rd)) as (cq & Eq).
    exists cq. split; auto. destruct (R r eq_refl) as (X & Y). rewrite F1; auto. }
  set (B0 := hole h p (opt nx)) in *.
  assert (Bv : B0 (length h1) = []).
  { unfold B0, hole. rewrite Len1. fold v. destruct (Nat.eqb_spec v p); [unfold v in *; lia|].
    unfold slots_at. now rewrite at_ge. }
  pose proof (Count_alloc _ _ _ _ (Value d) C1 Bv) as C2. fold (fresh_heap h1 (Value d)) in C2. rewrite Len1 in C2. fold v in C2.
  assert (Af : forall q, at_ (fresh_heap h1 (Value d)) q = if Nat.eqb q v then Some (mkCell 1 (Value d)) else at_ h1 q).
  { intros q. unfold fresh_heap. rewrite at_snoc, Len1. reflexivity. }
  assert (Pf : AllPos (fresh_heap h1 (Value d))).
  { intros q cq Eq. rewrite Af in Eq. destruct (Nat.eqb_spec q v); [inversion Eq; reflexivity|eauto]. }
  destruct (retain_all_ok _ _ (slots (Value d)) _ _ C2) as (h3 & E3 & C3 & S3 & P3).
  { intros q I. destruct (Sd q I) as (_ & cq & Eq & Eq1). eapply pos_alive; [exact Pf|]. rewrite Af.
    destruct (Nat.eqb_spec q v); [subst q; pose proof (at_lt _ _ _ Eq); unfold v in *; lia|exact Eq1]. }
  specialize (P3 Pf).
  assert (Np : p <> v) by (unfold v; lia).
  destruct (same_at _ _ p c S3) as (c3 & Ep3 & B3).
  { rewrite Af. destruct (Nat.eqb_spec p v); [congruence|exact Ep1]. }
  destruct (same_at _ _ v (mkCell 1 (Value d)) S3) as (cv & Ev3 & Bv3).
  { rewrite Af, Nat.eqb_refl. reflexivity. }
  set (h4 := put h3 p (mkCell (rc c3) (Property nm (Some v) nx))).
  assert (Run : set_prop_data h p d = Ok h4).
  { unfold set_prop_data. rewrite (get_at _ _ _ E). cbn [obind]. rewrite B, E1. cbn [obind].
    rewrite new_value_eq, E3. cbn [obind]. rewrite (write_at _ _ _ _ Ep3), B3, B, Len1. reflexivity. }
  assert (E4p : at_ h4 p = Some (mkCell (rc c3) (Property nm (Some v) nx))) by (eapply at_put_eq; eauto).
  assert (E4n : forall q, q <> p -> at_ h4 q = at_ h3 q) by (intros; now apply at_put_neq).
  assert (E4v : at_ h4 v = Some cv) by (rewrite E4n by auto; exact Ev3).
  assert (P4 : AllPos h4).
  { intros q cq Eq. destruct (Nat.eq_dec q p) as [->|M].
    - rewrite E4p in Eq. inversion Eq; subst. cbn. apply (P3 _ _ Ep3).
    - rewrite E4n in Eq by auto. eauto. }
  assert (Bo : forall q c', q <> p -> q <> v -> at_ h4 q = Some c' -> exists c, at_ h q = Some c /\ bd c' = bd c).
  { intros q c' M Mv Eq. rewrite E4n in Eq by auto. destruct (same_back _ _ _ _ S3 Eq) as (cf & Ef & Bf).
    rewrite Af in Ef. destruct (Nat.eqb_spec q v); [congruence|].
    destruct (less_body _ _ L1 _ _ Ef) as (c0 & E0 & K0). exists c0. split; congruence. }
  assert (C4 : Count (slots_at h4) h4 refs pend).
  { assert (X1 : Count B0 h4 refs (plus (slots (Value d)) (plus [v] pend))).
    { eapply Count_ext; [|eapply Count_rcs; [apply upd_length| |exact C3]].
      - intros q. unfold plus. lia.
      - exact (put_rcs h3 p c3 _ Ep3). }
    set (B1 := fun x => if Nat.eqb x v then slots (Value d) else B0 x).
    assert (X2 : Count B1 h4 refs (plus [v] pend)).
    { eapply (Count_move B0 B1 h4 refs (plus [v] pend) v); [exact X1|eapply pos_alive; eauto| |].
      - intros x M. unfold B1. destruct (Nat.eqb_spec x v); congruence.
      - intros q. unfold B1. rewrite Nat.eqb_refl. replace (B0 v) with (@nil ptr); [cbn; lia|].
        rewrite <- Bv. now rewrite Len1. }
    set (B2 := fun x => if Nat.eqb x p then v :: opt nx else B1 x).
    assert (X3 : Count B2 h4 refs pend).
    { eapply (Count_move B1 B2 h4 refs pend p); [exact X2|eapply pos_alive; eauto| |].
      - intros x M. unfold B2. destruct (Nat.eqb_spec x p); congruence.
      - intros q. unfold B2, B1, B0, hole. rewrite Nat.eqb_refl. destruct (Nat.eqb_spec p v); [congruence|].
        rewrite (occ_cons q v). lia. }
    eapply Count_B; [|exact X3]. intros x A. unfold B2, B1, slots_at. 
    destruct (Nat.eqb_spec x p) as [->|M]; [now rewrite E4p|].
    destruct (Nat.eqb_spec x v) as [->|Mv]; [rewrite E4v, Bv3; reflexivity|].
    unfold alive in A. destruct (at_ h4 x) as [cx|] eqn:Ex; [|discriminate].
    destruct (Bo _ _ M Mv Ex) as (c0 & E0 & K0). unfold B0, hole. destruct (Nat.eqb_spec x p); [congruence|].
    unfold slots_at. rewrite E0. congruence. }
  assert (Sl : forall q, In q (slots (Value d)) -> q < length h).
  { intros q I. destruct (Sd q I) as (_ & cq & Eq & _). eapply at_lt; eauto. }
  exists h4. split; [exact Run|]. split.
  - split; auto.
    + eapply (acyclic_add (fresh_heap h (Value d)) h4 p v).
      * intros x y (cx & Ex & I). destruct (Nat.eq_dec x p) as [->|M].
        -- rewrite E4p in Ex. inversion Ex; subst cx. cbn in I. destruct I as [<-|I]; [auto|]. left.
           apply fresh_points. left. split; [exact Np|]. exists c. split; auto. rewrite B. cbn. apply in_app_iff. auto.
        -- left. apply fresh_points. destruct (Nat.eq_dec x v) as [->|Mv].
           ++ right. split; auto. rewrite E4v in Ex. inversion Ex; subst cx. rewrite Bv3 in I. exact I.
           ++ left. split; auto. destruct (Bo _ _ M Mv Ex) as (c0 & E0 & K0). exists c0. split; congruence.
      * intros K. inversion K as [|a q x P K']; subst; [congruence|].
        apply fresh_points in P. destruct P as [[N _]|[_ I]]; [unfold v in N; congruence|].
        destruct (Sd q I) as (Rq & _). destruct (R q Rq) as (X & _). apply X.
        apply (fresh_contains h refs pend (Value d) q p V Sl K'). auto.
      * eapply fresh_acyclic; eauto.
    + eapply typed_finish; eauto. intros a ca q k cq Ea I Eq.
      assert (H : isk h q k \/ (q = v /\ k = KValue)).
      { destruct (Nat.eq_dec a p) as [->|M].
        - rewrite E4p in Ea. inversion Ea; subst ca. cbn in I. destruct I as [I|I].
          + inversion I; subst. auto.
          + left. eapply (inv_typed _ _ _ V); eauto. rewrite B. cbn. rewrite in_app_iff. auto.
        - destruct (Nat.eq_dec a v) as [->|Mv].
          + rewrite E4v in Ea. inversion Ea; subst ca. rewrite Bv3 in I. left. eapply good_isk; eauto.
          + destruct (Bo _ _ M Mv Ea) as (c0 & E0 & K0). left. eapply (inv_typed _ _ _ V); eauto. now rewrite <- K0. }
      destruct (Nat.eq_dec q v) as [->|Mv].
      * rewrite E4v in Eq. inversion Eq; subst cq. rewrite Bv3. cbn.
        destruct H as [(c0 & E0 & _)|[_ ->]]; [|reflexivity]. pose proof (at_lt _ _ _ E0). unfold v in *. lia.
      * destruct H as [(c0 & E0 & K0)|[X _]]; [|congruence]. destruct (Nat.eq_dec q p) as [->|M].
        -- rewrite E4p in Eq. inversion Eq; subst cq. cbn. rewrite <- K0. assert (c0 = c) by congruence. subst. now rewrite B.
        -- destruct (Bo _ _ M Mv Eq) as (c1 & Ec1 & K1). congruence.
  - split.
    + unfold h4, put. rewrite upd_length, (same_len _ _ S3). unfold fresh_heap. rewrite app_length, Len1. cbn. lia.
    + eauto.
    + exists cv. split; auto.
    + exact Bo.
Qed.

(** A fresh property around a fresh value. *)
Lemma new_prop_data_ok h refs pend nm d :
  Inv h refs pend -> good h d ->
  exists h', new_prop_data h nm d = Ok (h', S (length h)) /\ Inv h' (plus [S (length h)] refs) pend /\
    exists h1 h2, Grown h h1 (Value d) /\ Inv h1 (plus [length h] refs) pend /\
      Grown h1 h2 (Property nm (Some (length h)) None) /\ Same h2 h'.
Proof.
  intros V G.
  destruct (new_value_ok h refs pend d V G) as (h1 & E1 & V1 & G1).
  destruct (new_property_ok h1 _ pend nm (Some (length h)) V1) as (h2 & E2 & V2 & G2).
  { intros q X. inversion X; subst. destruct (gr_new _ _ _ G1) as (c & Ec & Bc). exists c. rewrite Bc. auto. }
  rewrite (gr_len _ _ _ G1) in *.
  destruct (release_shared h2 (plus [S (length h)] refs) pend (length h) (S (length h))) as (h3 & E3 & V3 & S3).
  { destruct V2 as [C P A T]. split; auto. eapply Count_ext; [|exact C]. intros q. unfold plus. lia. }
  { destruct (gr_new _ _ _ G2) as (c & Ec & Bc). rewrite (gr_len _ _ _ G1) in Ec. exists c. split; auto. rewrite Bc. now left. }
  exists h3. split; [|split; [exact V3|]].
  - unfold new_prop_data. rewrite E1. cbn [obind]. rewrite E2. cbn [obind]. rewrite E3. reflexivity.
  - exists h1, h2. auto.
Qed.

Definition good_lt h d : good h d -> forall q, In q (slots (Value d)) -> q < length h.
Proof.
  intros G q I. cbn in I. destruct (ref_of d) as [r|] eqn:R; cbn in I; [|contradiction]. destruct I as [<-|[]].
  destruct (isk_at _ _ _ (good_may _ _ G r R)) as (c & E). eapply at_lt; eauto.
Qed.

(** Lists of properties survive growth. *)
Lemma inlist_back h h' (P : ptr -> Prop) p x :
  (forall q nm v nx, P q -> holds h' q (Property nm v (Some nx)) -> holds h q (Property nm v (Some nx)) /\ P nx) ->
  P p -> inlist h' p x -> inlist h p x.
Proof.
  intros F Pp I. induction I as [p|p nm v q x H I IH]; [constructor|].
  destruct (F _ _ _ _ Pp H) as (H' & Pq). econstructor 2; eauto.
Qed.

Lemma grown_inlist h refs pend h' b p x : Inv h refs pend -> Grown h h' b -> p < length h -> inlist h' p x -> inlist h p x.
Proof.
  intros V G L. apply (inlist_back h h' (fun q => q < length h)); auto.
  intros q nm v nx Lq H. apply holds_at in H. destruct H as (c & E & B).
  pose proof (gr_old _ _ _ G q ltac:(lia)) as X. rewrite E in X. destruct (at_ h q) as [c0|] eqn:E0; [|discriminate].
  injection X as X. split; [apply holds_at; exists c0; split; congruence|].
  destruct (next_isk h refs pend q c0 nm v nx V E0 ltac:(congruence)) as (c1 & E1 & _). eapply at_lt; eauto.
Qed.

Lemma same_holds h h' q b : Same h h' -> holds h' q b <-> holds h q b.
Proof.
  intros S. rewrite !holds_at. split; intros (c & E & B).
  - destruct (same_back _ _ _ _ S E) as (c' & E' & B'). exists c'. split; congruence.
  - destruct (same_at _ _ _ _ S E) as (c' & E' & B'). exists c'. split; congruence.
Qed.

Lemma same_inlist h h' p x : Same h h' -> inlist h' p x -> inlist h p x.
Proof.
  intros S. apply (inlist_back h h' (fun _ => True)); auto. intros q nm v nx _ H.
  split; auto. now apply (same_holds _ _ _ _ S).
Qed.

Lemma grown_holds h h' b q b' : Grown h h' b -> q <> length h -> holds h' q b' <-> holds h q b'.
Proof.
  intros G N. pose proof (gr_old _ _ _ G q N) as X. rewrite !holds_at.
  destruct (at_ h' q) as [c'|], (at_ h q) as [c|]; try discriminate.
  - injection X as X. split; intros (k & E & B); inversion E; subst; eexists; split; eauto; congruence.
  - split; intros (k & E & B); discriminate.
Qed.

Lemma grown_isk h h' b q k : Grown h h' b -> isk h q k -> isk h' q k.
Proof.
  intros G (c & E & K). destruct (grown_at _ _ _ _ _ G E) as (c' & E' & B'). exists c'. split; congruence.
Qed.

Lemma append_data_ok h refs pend p nm d :
  Inv h refs pend -> isk h p KProperty -> good h d ->
  (forall n x, ref_of d = Some n -> inlist h p x -> ~ contains h n x) ->
  exists h' q, append_data h p nm d = Ok (h', q) /\ Inv h' refs pend /\
    exists h1 h2 h3 h4 l nm' v', Grown h h1 (Value d) /\ Grown h1 h2 (Property nm (Some (length h)) None) /\ Same h2 h3 /\
      inlist h p l /\ holds h l (Property nm' v' None) /\ q = S (length h) /\
      After h3 h4 l (Property nm' v' (Some q)) None /\ Same h4 h'.
Proof.
  intros V T G R.
  destruct (new_prop_data_ok h refs pend nm d V G) as (h3 & E3 & V3 & h1 & h2 & G1 & V1 & G2 & S3).
  pose proof (gr_len _ _ _ G1) as Len1.
  destruct (isk_at _ _ _ T) as (cp & Ep). pose proof (at_lt _ _ _ Ep) as Lp.
  set (q := S (length h)) in *.
  assert (IL : forall x, inlist h3 p x -> inlist h p x).
  { intros x I. eapply (grown_inlist h refs pend h1); eauto. eapply (grown_inlist h1 _ pend h2); eauto; [lia|].
    eapply same_inlist; eauto. }
  assert (INL : forall x, inlist h p x -> x < length h).
  { intros x I. apply inlist_contains in I. destruct (inv_contains _ _ _ _ _ _ V Ep I) as (c & E). eapply at_lt; eauto. }
  assert (Q3 : exists cq, at_ h3 q = Some cq /\ bd cq = Property nm (Some (length h)) None).
  { destruct (gr_new _ _ _ G2) as (c & Ec & Bc). rewrite Len1 in Ec.
    destruct (same_at _ _ _ _ S3 Ec) as (c' & Ec' & Bc'). exists c'. split; [exact Ec'|]. rewrite Bc'. exact Bc. }
  destruct (append_ok h3 (plus [q] refs) pend p (Some q) V3) as (h4 & l & c & nm' & v' & E4 & Al & Bl & Il & El & St).
  { eapply Same_isk; eauto. eapply grown_isk; eauto. eapply grown_isk; eauto. }
  { intros y Y. inversion Y; subst y. destruct Q3 as (cq & Eq & Bq). exists cq. rewrite Bq. auto. }
  { intros n x Y I K. inversion Y; subst n. apply IL in I. pose proof (INL _ I) as Lx.
    apply (same_contains _ _ _ _ S3) in K. replace q with (length h1) in K by (rewrite Len1; reflexivity).
    assert (Sp : forall z, In z (slots (Property nm (Some (length h)) None)) -> z < length h1).
    { cbn. intros z [<-|[]]. unfold q in *. lia. }
    destruct (grown_new h1 _ pend h2 _ x V1 Sp G2 K) as [X|(y & Iy & Ky)].
    - unfold q in *. lia.
    - cbn in Iy. destruct Iy as [<-|[]].
      destruct (grown_new h _ pend h1 _ x V (good_lt _ _ G) G1 Ky) as [X|(z & Iz & Kz)]; [lia|].
      cbn in Iz. destruct (ref_of d) as [r|] eqn:Rd; cbn in Iz; [|contradiction]. destruct Iz as [<-|[]].
      eapply R; eauto. }
  destruct St as (V4 & A4 & Pt4).
  assert (Pq : points h4 l q).
  { destruct (af_at _ _ _ _ _ A4) as (c' & E' & B'). exists c'. split; auto. rewrite B'. cbn. rewrite in_app_iff. right. now left. }
  destruct (release_shared h4 refs pend q l V4 Pq) as (h5 & E5 & V5 & S5).
  exists h5, q. split; [|split; [exact V5|]].
  - unfold append_data. rewrite E3. cbn [obind]. rewrite E4. cbn [obind]. rewrite E5. reflexivity.
  - exists h1, h2, h3, h4, l, nm', v'.
    assert (Ll : inlist h p l) by (apply IL; exact Il). pose proof (INL _ Ll).
    assert (Hl : holds h l (Property nm' v' None)).
    { apply (grown_holds h h1 _ l _ G1 ltac:(lia)). apply (grown_holds h1 h2 _ l _ G2 ltac:(lia)).
      apply (same_holds _ _ _ _ S3). apply holds_at. eauto. }
    repeat (split; [assumption||reflexivity|]). exact S5.
Qed.
