(** All outcomes of a statement, computed, and proved to be all of them and only them. *)
From Verif Require Import Common GuardModel GuardSpec.
Local Open Scope list_scope.

Definition held := list mutex.
Definition exit_eq_dec : forall a b : exit, {a = b} + {a <> b}. Proof. decide equality. Defined.
Definition held_eq_dec : forall a b : held, {a = b} + {a <> b} := list_eq_dec mutex_eq_dec.
Definition out_eq_dec : forall a b : exit * held, {a = b} + {a <> b}.
Proof. decide equality; [apply held_eq_dec | apply exit_eq_dec]. Defined.
Definition fault_eq_dec : forall a b : fault, {a = b} + {a <> b}. Proof. decide equality; apply mutex_eq_dec. Defined.
Definition memb (m : mutex) (h : held) : bool := if in_dec mutex_eq_dec m h then true else false.
Lemma memb_in m h : memb m h = true <-> In m h.
Proof. unfold memb. destruct (in_dec mutex_eq_dec m h); split; intros; try tauto; discriminate. Qed.
Lemma memb_out m h : memb m h = false <-> ~ In m h.
Proof. unfold memb. destruct (in_dec mutex_eq_dec m h); split; intros; try tauto; discriminate. Qed.

Definition res := (list (exit * held) * list fault)%type.
Definition join (x y : res) : res := (nodup out_eq_dec (fst x ++ fst y), nodup fault_eq_dec (snd x ++ snd y)).
Fixpoint each {A} (f : A -> option res) (l : list A) : option res :=
  match l with
  | [] => Some ([], [])
  | x :: l => match f x, each f l with Some a, Some b => Some (join a b) | _, _ => None end
  end.
Definition gos (r : list (exit * held)) : list held :=
  flat_map (fun x => match fst x with Go => [snd x] | _ => [] end) r.
Definition seq_out (f : held -> option res) (x : exit * held) : option res :=
  match fst x with Go => f (snd x) | _ => Some ([x], []) end.
Fixpoint grow (f : held -> option res) (n : nat) (Q0 : list held) : option (list held * res) :=
  match n with
  | O => None
  | Datatypes.S n =>
      match each f Q0 with
      | None => None
      | Some r =>
          if forallb (fun d => if in_dec held_eq_dec d Q0 then true else false) (gos (fst r)) then Some (Q0, r)
          else grow f n (nodup held_eq_dec (Q0 ++ gos (fst r)))
      end
  end.
Definition after_loop (x : exit * held) : list (exit * held) :=
  match fst x with Go => [] | Broke => [(Go, snd x)] | _ => [x] end.
Definition of_fn (x : exit * held) : exit * held := (match fst x with Returned => Go | e => e end, snd x).
Fixpoint ana (s : stm) (d : held) : option res :=
  match s with
  | Skip => Some ([(Go, d)], [])
  | Ret => Some ([(Returned, d)], [])
  | Brk => Some ([(Broke, d)], [])
  | Acq m =>
      if memb m d then match kind_of m with
        | Recursive => Some ([(Go, m :: d)], [])
        | Checked => Some ([(Go, d)], [Again m])
        | Plain => Some ([(Stuck, d)], [Again m]) end
      else Some ([(Go, m :: d)], [])
  | Rel m => if memb m d then Some ([(Go, drop m d)], []) else Some ([(Go, d)], [Foreign m])
  | Use m => if memb m d then Some ([(Go, d)], []) else Some ([(Go, d)], [Bare m])
  | Seq a b =>
      match ana a d with
      | Some (r, fs) => match each (seq_out (ana b)) r with Some (r', fs') => Some (r', nodup fault_eq_dec (fs ++ fs')) | None => None end
      | None => None
      end
  | Alt a b => match ana a d, ana b d with Some x, Some y => Some (join x y) | _, _ => None end
  | Loop a =>
      match grow (ana a) 20 [d] with
      | Some (Q0, (r, fs)) => Some (nodup out_eq_dec (map (fun d => (Go, d)) Q0 ++ flat_map after_loop r), fs)
      | None => None
      end
  | Fn a => match ana a d with Some (r, fs) => Some (nodup out_eq_dec (map of_fn r), fs) | None => None end
  end.

(** ** soundness *)
Lemma each_in {A} (f : A -> option res) l r : each f l = Some r -> forall x, In x l -> exists y, f x = Some y /\ incl (fst y) (fst r) /\ incl (snd y) (snd r).
Proof.
  revert r. induction l as [|a l IH]; intros r E x [].
  - subst. cbn [each] in E. destruct (f x) as [y|] eqn:F; [|discriminate]. destruct (each f l) as [z|]; [|discriminate]. inversion E; subst.
    exists y. split; [reflexivity|]. unfold join; cbn [fst snd]. split; intros q Q; apply nodup_In, in_or_app; auto.
  - cbn [each] in E. destruct (f a) as [y|] eqn:F; [|discriminate]. destruct (each f l) as [z|]; [|discriminate]. inversion E; subst.
    destruct (IH _ eq_refl _ H) as (w & W & W1 & W2). exists w. split; [assumption|]. unfold join; cbn [fst snd]. split; intros q Q; apply nodup_In, in_or_app; auto.
Qed.
Lemma each_from {A} (f : A -> option res) l r : each f l = Some r ->
  (forall q, In q (fst r) -> exists x y, In x l /\ f x = Some y /\ In q (fst y)) /\
  (forall q, In q (snd r) -> exists x y, In x l /\ f x = Some y /\ In q (snd y)).
Proof.
  revert r. induction l as [|a l IH]; intros r E; cbn [each] in E.
  - inversion E; subst. split; intros q [].
  - destruct (f a) as [y|] eqn:F; [|discriminate]. destruct (each f l) as [z|]; [|discriminate]. inversion E; subst.
    destruct (IH _ eq_refl) as [I1 I2]. unfold join; cbn [fst snd].
    split; intros q Q; apply nodup_In, in_app_or in Q; destruct Q as [Q|Q].
    + exists a, y. cbn. auto.
    + destruct (I1 _ Q) as (x & w & X & W & V). exists x, w. cbn. auto.
    + exists a, y. cbn. auto.
    + destruct (I2 _ Q) as (x & w & X & W & V). exists x, w. cbn. auto.
Qed.
Lemma gos_in r d : In d (gos r) <-> In (Go, d) r.
Proof.
  unfold gos. rewrite in_flat_map. split.
  - intros ([e h] & X & Y). cbn in Y. destruct e; cbn in Y; try contradiction. destruct Y as [<-|[]]. assumption.
  - intros H. exists (Go, d). split; [assumption|]. cbn. auto.
Qed.
Lemma grow_sound f n : forall S0 Q0 r, grow f n S0 = Some (Q0, r) ->
  incl S0 Q0 /\ each f Q0 = Some r /\ (forall d, In (Go, d) (fst r) -> In d Q0).
Proof.
  induction n as [|n IH]; intros S0 Q0 r E; cbn [grow] in E; [discriminate|].
  destruct (each f S0) as [r0|] eqn:Q; [|discriminate].
  destruct (forallb _ _) eqn:B.
  - inversion E; subst. split; [apply incl_refl|]. split; [assumption|]. intros d D.
    rewrite forallb_forall in B. apply gos_in in D. specialize (B _ D). destruct (in_dec held_eq_dec d Q0); [assumption|discriminate].
  - destruct (IH _ _ _ E) as (I1 & I2 & I3). split; [|auto]. intros x X. apply I1, nodup_In, in_or_app. auto.
Qed.
Lemma in_app_fresh m (d h0 : held) : ~ In m h0 -> (In m (d ++ h0) <-> In m d).
Proof. intros N. rewrite in_app_iff. tauto. Qed.
Lemma drop_app m d h0 : In m d -> drop m (d ++ h0) = drop m d ++ h0.
Proof.
  induction d as [|x d IH]; intros H; [destruct H|]. cbn [drop app]. destruct (mutex_eq_dec x m); [reflexivity|].
  cbn [app]. rewrite IH; [reflexivity|]. destruct H; [congruence|assumption].
Qed.

Definition covered (s : stm) := forall d h0, (forall m, In m (muts s) -> ~ In m h0) -> forall e h' f, ex s (d ++ h0) e h' f ->
  forall r fs, ana s d = Some (r, fs) -> incl f fs /\ (e = Cut \/ exists d', In (e, d') r /\ h' = d' ++ h0).

Lemma loop_covered a : covered a -> forall h0, (forall m, In m (muts a) -> ~ In m h0) ->
  forall Q0 r, each (ana a) Q0 = Some r -> (forall d, In (Go, d) (fst r) -> In d Q0) ->
  forall h e h' f, ex (Loop a) h e h' f -> forall d, h = d ++ h0 -> In d Q0 ->
  incl f (snd r) /\ (e = Cut \/ exists d', h' = d' ++ h0 /\ (e = Go /\ In d' Q0 \/ exists x, In x (fst r) /\ In (e, d') (after_loop x))).
Proof.
  intros CA h0 FR Q0 r E CL h e h' f X. remember (Loop a) as s eqn:Q.
  induction X; inversion Q; subst; intros d -> D; try clear Q.
  - split; [intros q []|auto].
  - split; [intros q []|]. right. exists d. auto.
  - destruct (each_in _ _ _ E _ D) as ([ry fy] & Y & Y1 & Y2).
    destruct (CA _ _ FR _ _ _ X1 _ _ Y) as [F1 [|(d1 & D1 & ->)]]; [discriminate|].
    destruct (IHX2 eq_refl _ eq_refl (CL _ (Y1 _ D1))) as [F2 T]. split; [|exact T].
    intros q [P|P]%in_app_or; [apply Y2, F1, P | apply F2, P].
  - destruct (each_in _ _ _ E _ D) as ([ry fy] & Y & Y1 & Y2).
    destruct (CA _ _ FR _ _ _ X _ _ Y) as [F1 [|(d1 & D1 & ->)]]; [discriminate|].
    split; [intros q P; apply Y2, F1, P|]. right. exists d1. split; [reflexivity|]. right. exists (Broke, d1). split; [apply Y1, D1|]. cbn. auto.
  - destruct (each_in _ _ _ E _ D) as ([ry fy] & Y & Y1 & Y2).
    destruct (CA _ _ FR _ _ _ X _ _ Y) as [F1 [->|(d1 & D1 & ->)]].
    + split; [intros q P; apply Y2, F1, P|auto].
    + split; [intros q P; apply Y2, F1, P|]. right. exists d1. split; [reflexivity|]. right. exists (e, d1). split; [apply Y1, D1|].
      destruct e; try congruence; cbn; auto.
Qed.
Lemma ana_covers s : covered s.
Proof.
  induction s; intros d h0 FR e h' f X r fs A; inversion X; subst;
    try (split; [intros q []|left; reflexivity]).
  - cbn in A. inversion A; subst. split; [apply incl_refl|]. right. exists d. cbn; auto.
  - assert (N : ~ In m h0) by (apply FR; cbn; auto). match goal with H : context[In m (d ++ h0)] |- _ => rewrite in_app_fresh in H by assumption; rename H into HI end; try match goal with H : kind_of m = _ |- _ => rename H into HK end. cbn [ana] in A.
    destruct (memb m d) eqn:B.
    + apply memb_in in B. destruct HI as [HI|HI]; [contradiction|]. rewrite HI in A. inversion A; subst. split; [apply incl_refl|]. right. exists (m :: d). cbn; auto.
    + inversion A; subst. split; [apply incl_refl|]. right. exists (m :: d). cbn; auto.
  - assert (N : ~ In m h0) by (apply FR; cbn; auto). match goal with H : context[In m (d ++ h0)] |- _ => rewrite in_app_fresh in H by assumption; rename H into HI end; try match goal with H : kind_of m = _ |- _ => rename H into HK end. cbn [ana] in A.
    apply memb_in in HI. rewrite HI, HK in A. inversion A; subst. split; [apply incl_refl|]. right. exists d. cbn; auto.
  - assert (N : ~ In m h0) by (apply FR; cbn; auto). match goal with H : context[In m (d ++ h0)] |- _ => rewrite in_app_fresh in H by assumption; rename H into HI end; try match goal with H : kind_of m = _ |- _ => rename H into HK end. cbn [ana] in A.
    apply memb_in in HI. rewrite HI, HK in A. inversion A; subst. split; [apply incl_refl|]. right. exists d. cbn; auto.
  - assert (N : ~ In m h0) by (apply FR; cbn; auto). match goal with H : context[In m (d ++ h0)] |- _ => rewrite in_app_fresh in H by assumption; rename H into HI end; try match goal with H : kind_of m = _ |- _ => rename H into HK end. cbn [ana] in A.
    pose proof HI as HI2. apply memb_in in HI. rewrite HI in A. inversion A; subst. split; [apply incl_refl|]. right. exists (drop m d). cbn [In]. split; [auto|]. apply drop_app, HI2.
  - assert (N : ~ In m h0) by (apply FR; cbn; auto). match goal with H : context[In m (d ++ h0)] |- _ => rewrite in_app_fresh in H by assumption; rename H into HI end; try match goal with H : kind_of m = _ |- _ => rename H into HK end. cbn [ana] in A.
    apply memb_out in HI. rewrite HI in A. inversion A; subst. split; [apply incl_refl|]. right. exists d. cbn; auto.
  - assert (N : ~ In m h0) by (apply FR; cbn; auto). match goal with H : context[In m (d ++ h0)] |- _ => rewrite in_app_fresh in H by assumption; rename H into HI end; try match goal with H : kind_of m = _ |- _ => rename H into HK end. cbn [ana] in A.
    apply memb_in in HI. rewrite HI in A. inversion A; subst. split; [apply incl_refl|]. right. exists d. cbn; auto.
  - assert (N : ~ In m h0) by (apply FR; cbn; auto). match goal with H : context[In m (d ++ h0)] |- _ => rewrite in_app_fresh in H by assumption; rename H into HI end; try match goal with H : kind_of m = _ |- _ => rename H into HK end. cbn [ana] in A.
    apply memb_out in HI. rewrite HI in A. inversion A; subst. split; [apply incl_refl|]. right. exists d. cbn; auto.
  - cbn in A. inversion A; subst. split; [apply incl_refl|]. right. exists d. cbn; auto.
  - cbn in A. inversion A; subst. split; [apply incl_refl|]. right. exists d. cbn; auto.
  - cbn [ana] in A. destruct (ana s1 d) as [[r1 f1']|] eqn:A1; [|discriminate]. destruct (each _ r1) as [[r2 f2']|] eqn:A2; [|discriminate]. inversion A; subst.
    assert (FR1 : forall m, In m (muts s1) -> ~ In m h0) by (intros m M; apply FR; cbn; apply in_or_app; auto).
    assert (FR2 : forall m, In m (muts s2) -> ~ In m h0) by (intros m M; apply FR; cbn; apply in_or_app; auto).
    match goal with H : ex s1 _ _ _ _ |- _ => rename H into HX1 end. destruct (IHs1 _ _ FR1 _ _ _ HX1 _ _ A1) as [F1 [|(d1 & D1 & ->)]]; [discriminate|].
    destruct (each_in _ _ _ A2 _ D1) as ([ry fy] & Y & Y1 & Y2). unfold seq_out in Y; cbn [fst snd] in Y.
    match goal with H : ex s2 _ _ _ _ |- _ => rename H into HX2 end. destruct (IHs2 _ _ FR2 _ _ _ HX2 _ _ Y) as [F2 T].
    split. { intros q [P|P]%in_app_or; apply nodup_In, in_or_app; [left; apply F1, P | right; apply Y2, F2, P]. }
    destruct T as [->|(d2 & D2 & ->)]; [left; reflexivity|]. right. exists d2. split; [apply Y1, D2|reflexivity].
  - cbn [ana] in A. destruct (ana s1 d) as [[r1 f1']|] eqn:A1; [|discriminate]. destruct (each _ r1) as [[r2 f2']|] eqn:A2; [|discriminate]. inversion A; subst.
    assert (FR1 : forall m, In m (muts s1) -> ~ In m h0) by (intros m M; apply FR; cbn; apply in_or_app; auto).
    match goal with H : ex s1 _ _ _ _ |- _ => rename H into HX1 end. destruct (IHs1 _ _ FR1 _ _ _ HX1 _ _ A1) as [F1 [->|(d1 & D1 & ->)]].
    + split; [intros q P; apply nodup_In, in_or_app; left; apply F1, P|auto].
    + destruct (each_in _ _ _ A2 _ D1) as ([ry fy] & Y & Y1 & Y2). split; [intros q P; apply nodup_In, in_or_app; left; apply F1, P|].
      right. exists d1. split; [|reflexivity]. apply Y1. unfold seq_out in Y; cbn [fst snd] in Y. destruct e; try congruence; inversion Y; subst; cbn; auto.
  - cbn [ana] in A. destruct (ana s1 d) as [[r1 f1']|] eqn:A1; [|discriminate]. destruct (ana s2 d) as [[r2 f2']|] eqn:A2; [|discriminate]. inversion A; subst.
    assert (FR1 : forall m, In m (muts s1) -> ~ In m h0) by (intros m M; apply FR; cbn; apply in_or_app; auto).
    match goal with H : ex s1 _ _ _ _ |- _ => rename H into HX1 end. destruct (IHs1 _ _ FR1 _ _ _ HX1 _ _ A1) as [F1 T]. cbn [fst snd].
    split; [intros q P; apply nodup_In, in_or_app; left; apply F1, P|]. destruct T as [->|(d1 & D1 & ->)]; [auto|]. right. exists d1. split; [apply nodup_In, in_or_app; auto|reflexivity].
  - cbn [ana] in A. destruct (ana s1 d) as [[r1 f1']|] eqn:A1; [|discriminate]. destruct (ana s2 d) as [[r2 f2']|] eqn:A2; [|discriminate]. inversion A; subst.
    assert (FR1 : forall m, In m (muts s2) -> ~ In m h0) by (intros m M; apply FR; cbn; apply in_or_app; auto).
    match goal with H : ex s2 _ _ _ _ |- _ => rename H into HX1 end. destruct (IHs2 _ _ FR1 _ _ _ HX1 _ _ A2) as [F1 T]. cbn [fst snd].
    split; [intros q P; apply nodup_In, in_or_app; right; apply F1, P|]. destruct T as [->|(d1 & D1 & ->)]; [auto|]. right. exists d1. split; [apply nodup_In, in_or_app; auto|reflexivity].
  - clear X. cbn [ana] in A. destruct (grow _ _ _) as [[Q0 [r1 f1']]|] eqn:G; [|discriminate]. inversion A; subst.
    destruct (grow_sound _ _ _ _ _ G) as (I1 & I2 & I3). split; [intros q []|]. right. exists d. split; [|reflexivity].
    apply nodup_In, in_or_app. left. apply in_map_iff. exists d. split; [reflexivity|]. apply I1; cbn; auto.
  - cbn [ana] in A. destruct (grow _ _ _) as [[Q0 [r1 f1']]|] eqn:G; [|discriminate]. inversion A; subst.
    destruct (grow_sound _ _ _ _ _ G) as (I1 & I2 & I3).
    destruct (loop_covered _ IHs _ FR _ _ I2 I3 _ _ _ _ X d eq_refl (I1 _ (or_introl eq_refl))) as [F T]. cbn [fst snd] in F, T. split; [exact F|].
    destruct T as [T|(d' & -> & T)]; [auto|]. right. exists d'. split; [|reflexivity]. apply nodup_In, in_or_app.
    destruct T as [[-> T]|(x & X1 & X2)]; [left; apply in_map_iff; eauto | right; apply in_flat_map; eauto].
  - cbn [ana] in A. destruct (grow _ _ _) as [[Q0 [r1 f1']]|] eqn:G; [|discriminate]. inversion A; subst.
    destruct (grow_sound _ _ _ _ _ G) as (I1 & I2 & I3).
    destruct (loop_covered _ IHs _ FR _ _ I2 I3 _ _ _ _ X d eq_refl (I1 _ (or_introl eq_refl))) as [F T]. cbn [fst snd] in F, T. split; [exact F|].
    destruct T as [T|(d' & -> & T)]; [auto|]. right. exists d'. split; [|reflexivity]. apply nodup_In, in_or_app.
    destruct T as [[Q T]|(x & X1 & X2)]; [left; apply in_map_iff; eauto | right; apply in_flat_map; eauto].
  - cbn [ana] in A. destruct (grow _ _ _) as [[Q0 [r1 f1']]|] eqn:G; [|discriminate]. inversion A; subst.
    destruct (grow_sound _ _ _ _ _ G) as (I1 & I2 & I3).
    destruct (loop_covered _ IHs _ FR _ _ I2 I3 _ _ _ _ X d eq_refl (I1 _ (or_introl eq_refl))) as [F T]. cbn [fst snd] in F, T. split; [exact F|].
    destruct T as [T|(d' & -> & T)]; [auto|]. right. exists d'. split; [|reflexivity]. apply nodup_In, in_or_app.
    destruct T as [[Q T]|(x & X1 & X2)]; [congruence | right; apply in_flat_map; eauto].
  - cbn [ana] in A. destruct (ana s d) as [[r1 f1']|] eqn:A1; [|discriminate]. inversion A; subst.
    match goal with H : ex s _ _ _ _ |- _ => rename H into HX end. clear X. destruct (IHs _ _ FR _ _ _ HX _ _ A1) as [F1 T]. split; [exact F1|].
    destruct T as [->|(d1 & D1 & ->)]; [left; reflexivity|]. right. exists d1. split; [|reflexivity]. apply nodup_In, in_map_iff.
    eexists. split; [|exact D1]. destruct e0; reflexivity.
Qed.

(** ** completeness *)
Inductive star (a : stm) : held -> held -> list fault -> Prop :=
| star_0 : forall h, star a h h []
| star_s : forall h h1 h2 f1 f2, star a h h1 f1 -> ex a h1 Go h2 f2 -> star a h h2 (f1 ++ f2).
Lemma star_loop a h h1 f1 : star a h h1 f1 -> forall e h2 f2, ex (Loop a) h1 e h2 f2 -> ex (Loop a) h e h2 (f1 ++ f2).
Proof.
  induction 1; intros e h' f' X; [exact X|]. rewrite <- app_assoc. apply IHstar. eapply ex_more; eauto.
Qed.
Definition attained (s : stm) := forall d r fs, ana s d = Some (r, fs) ->
  (forall e d', In (e, d') r -> exists f, ex s d e d' f) /\ (forall q, In q fs -> exists e d' f, ex s d e d' f /\ In q f).
Lemma grow_complete a : attained a -> forall n d S0 Q0 r, grow (ana a) n S0 = Some (Q0, r) ->
  (forall x, In x S0 -> exists f, star a d x f) -> forall x, In x Q0 -> exists f, star a d x f.
Proof.
  intros AT n. induction n as [|n IH]; intros d S0 Q0 r E H0; cbn [grow] in E; [discriminate|].
  destruct (each (ana a) S0) as [[r0 f0]|] eqn:Q; [|discriminate].
  destruct (forallb _ _).
  - inversion E; subst. exact H0.
  - eapply IH; [exact E|]. intros x [X|X]%nodup_In%in_app_or; [auto|]. apply gos_in in X. cbn [fst] in X.
    destruct (proj1 (each_from _ _ _ Q) _ X) as (y & [ry fy] & Y & A & W). cbn [fst] in W.
    destruct (H0 _ Y) as [f1 F1]. destruct (proj1 (AT _ _ _ A) _ _ W) as [f2 F2]. exists (f1 ++ f2). econstructor; eauto.
Qed.
Lemma ana_attained s : attained s.
Proof.
  induction s; intros d r fs A.
  - cbn in A. inversion A; subst. split; [|intros q []]. intros e d' [E|[]]. inversion E; subst. eexists. constructor.
  - cbn [ana] in A. destruct (memb m d) eqn:B.
    + apply memb_in in B. destruct (kind_of m) eqn:K; inversion A; subst; (split; [intros e d' [E|[]]; inversion E; subst|intros q Q]).
      * eexists. apply ex_again; assumption.
      * destruct Q as [<-|[]]. do 3 eexists. split; [apply ex_again; assumption|cbn; auto].
      * eexists. apply ex_stuck; assumption.
      * destruct Q as [<-|[]]. do 3 eexists. split; [apply ex_stuck; assumption|cbn; auto].
      * eexists. apply ex_acq; auto.
      * destruct Q.
    + apply memb_out in B. inversion A; subst. split; [intros e d' [E|[]]; inversion E; subst|intros q []]. eexists. apply ex_acq; auto.
  - cbn [ana] in A. destruct (memb m d) eqn:B; [apply memb_in in B|apply memb_out in B]; inversion A; subst; (split; [intros e d' [E|[]]; inversion E; subst|intros q Q]).
    + eexists. apply ex_rel; assumption.
    + destruct Q.
    + eexists. apply ex_foreign; assumption.
    + destruct Q as [<-|[]]. do 3 eexists. split; [apply ex_foreign; assumption|cbn; auto].
  - cbn [ana] in A. destruct (memb m d) eqn:B; [apply memb_in in B|apply memb_out in B]; inversion A; subst; (split; [intros e d' [E|[]]; inversion E; subst|intros q Q]).
    + eexists. apply ex_use; assumption.
    + destruct Q.
    + eexists. apply ex_bare; assumption.
    + destruct Q as [<-|[]]. do 3 eexists. split; [apply ex_bare; assumption|cbn; auto].
  - cbn in A. inversion A; subst. split; [|intros q []]. intros e d' [E|[]]. inversion E; subst. eexists. constructor.
  - cbn in A. inversion A; subst. split; [|intros q []]. intros e d' [E|[]]. inversion E; subst. eexists. constructor.
  - cbn [ana] in A. destruct (ana s1 d) as [[r1 f1]|] eqn:A1; [|discriminate]. destruct (each _ r1) as [[r2 f2]|] eqn:A2; [|discriminate]. inversion A; subst.
    destruct (IHs1 _ _ _ A1) as [P1 P2]. destruct (each_from _ _ _ A2) as [Q1 Q2]. cbn [fst snd] in Q1, Q2. split.
    + intros e d' D. destruct (Q1 _ D) as ([e1 d1] & [ry fy] & Y & Z & W). unfold seq_out in Z; cbn [fst snd] in Z, W.
      destruct (P1 _ _ Y) as [g1 G1].
      destruct e1; try (inversion Z; subst; destruct W as [W|[]]; inversion W; subst; eexists; apply ex_seq_out; [exact G1|discriminate]).
      destruct (proj1 (IHs2 _ _ _ Z) _ _ W) as [g2 G2]. eexists. eapply ex_seq; eauto.
    + intros q [Q|Q]%nodup_In%in_app_or.
      * destruct (P2 _ Q) as (e & d' & f & X & F). destruct (exit_eq_dec e Go) as [->|N].
        -- exists Cut, d', (f ++ []). split; [eapply ex_seq; [exact X|constructor]|apply in_or_app; auto].
        -- exists e, d', f. split; [apply ex_seq_out; assumption|assumption].
      * destruct (Q2 _ Q) as ([e1 d1] & [ry fy] & Y & Z & W). unfold seq_out in Z; cbn [fst snd] in Z, W.
        destruct (P1 _ _ Y) as [g1 G1]. destruct e1; try (inversion Z; subst; destruct W).
        destruct (proj2 (IHs2 _ _ _ Z) _ W) as (e & d' & f & X & F). exists e, d', (g1 ++ f). split; [eapply ex_seq; eauto|apply in_or_app; auto].
  - cbn [ana] in A. destruct (ana s1 d) as [[r1 f1]|] eqn:A1; [|discriminate]. destruct (ana s2 d) as [[r2 f2]|] eqn:A2; [|discriminate]. inversion A; subst.
    destruct (IHs1 _ _ _ A1) as [P1 P2]. destruct (IHs2 _ _ _ A2) as [Q1 Q2]. cbn [fst snd]. split.
    + intros e d' [D|D]%nodup_In%in_app_or; [destruct (P1 _ _ D) as [f F]; eexists; apply ex_left; eauto | destruct (Q1 _ _ D) as [f F]; eexists; apply ex_right; eauto].
    + intros q [D|D]%nodup_In%in_app_or; [destruct (P2 _ D) as (e & d' & f & X & F); exists e, d', f; split; [apply ex_left; assumption|assumption] | destruct (Q2 _ D) as (e & d' & f & X & F); exists e, d', f; split; [apply ex_right; assumption|assumption]].
  - cbn [ana] in A. destruct (grow _ _ _) as [[Q0 [r1 f1]]|] eqn:G; [|discriminate]. inversion A; subst.
    assert (ST : forall x, In x Q0 -> exists f, star s d x f).
    { eapply grow_complete; [exact IHs|exact G|]. intros x [<-|[]]. eexists. constructor. }
    destruct (grow_sound _ _ _ _ _ G) as (I1 & I2 & I3). destruct (each_from _ _ _ I2) as [E1 E2]. cbn [fst snd] in E1, E2. split.
    + intros e d' [D|D]%nodup_In%in_app_or.
      * apply in_map_iff in D. destruct D as (x & X & D). inversion X; subst. destruct (ST _ D) as [f F]. eexists. eapply star_loop; [exact F|]. constructor.
      * apply in_flat_map in D. destruct D as ([e1 d1] & X & D). destruct (E1 _ X) as (y & [ry fy] & Y & Z & W). cbn [fst] in W.
        destruct (ST _ Y) as [f F]. destruct (proj1 (IHs _ _ _ Z) _ _ W) as [g G1]. unfold after_loop in D; cbn [fst snd] in D.
        destruct e1; cbn [In] in D; try contradiction; destruct D as [D|[]]; inversion D; subst; eexists; (eapply star_loop; [exact F|]).
        -- apply ex_break. exact G1.
        -- apply ex_loop_out; [exact G1|discriminate|discriminate].
        -- apply ex_loop_out; [exact G1|discriminate|discriminate].
        -- apply ex_loop_out; [exact G1|discriminate|discriminate].
    + intros q Q. destruct (E2 _ Q) as (y & [ry fy] & Y & Z & W). cbn [snd] in W. destruct (ST _ Y) as [f F].
      destruct (proj2 (IHs _ _ _ Z) _ W) as (e & d' & g & X & V).
      assert (L : exists e' , ex (Loop s) y e' d' (g ++ [])).
      { destruct e.
        - exists Cut. eapply ex_more; [exact X|constructor].
        - exists Go. rewrite app_nil_r. apply ex_break. exact X.
        - exists Returned. rewrite app_nil_r. apply ex_loop_out; [exact X|discriminate|discriminate].
        - exists Stuck. rewrite app_nil_r. apply ex_loop_out; [exact X|discriminate|discriminate].
        - exists Cut. rewrite app_nil_r. apply ex_loop_out; [exact X|discriminate|discriminate]. }
      destruct L as [e' L]. exists e', d', (f ++ g ++ []). split; [eapply star_loop; [exact F|exact L]|]. apply in_or_app. right. apply in_or_app. auto.
  - cbn [ana] in A. destruct (ana s d) as [[r1 f1]|] eqn:A1; [|discriminate]. inversion A; subst.
    destruct (IHs _ _ _ A1) as [P1 P2]. split.
    + intros e d' D%nodup_In%in_map_iff. destruct D as ([e1 d1] & E & D). unfold of_fn in E; cbn [fst snd] in E. inversion E; subst.
      destruct (P1 _ _ D) as [f F]. exists f. pose proof (ex_fn _ _ _ _ _ F) as Z. destruct e1; exact Z.
    + intros q Q. destruct (P2 _ Q) as (e & d' & f & X & F). do 3 eexists. split; [apply ex_fn; exact X|exact F].
Qed.

(** ** the checks *)
Definition is_released (s : stm) : bool :=
  match ana s [] with Some (r, _) => forallb (fun x => if out_eq_dec x (Go, []) then true else false) r | None => false end.
Definition is_only (l : list fault) (s : stm) : bool :=
  match ana s [] with Some (_, fs) => forallb (fun q => if in_dec fault_eq_dec q l then true else false) fs | None => false end.
Lemma is_released_ok s : is_released s = true -> released s.
Proof.
  unfold is_released. intros B h0 e h' f FR X NC. destruct (ana s []) as [[r fs]|] eqn:A; [|discriminate].
  destruct (ana_covers s [] h0 FR _ _ _ X _ _ A) as [_ [|(d & D & ->)]]; [contradiction|].
  rewrite forallb_forall in B. specialize (B _ D). destruct (out_eq_dec (e, d) (Go, [])) as [E|]; [|discriminate]. inversion E; subst. auto.
Qed.
Lemma is_only_ok l s : is_only l s = true -> only l s.
Proof.
  unfold is_only. intros B h0 e h' f FR X. destruct (ana s []) as [[r fs]|] eqn:A; [|discriminate].
  destruct (ana_covers s [] h0 FR _ _ _ X _ _ A) as [F _]. rewrite forallb_forall in B. intros q Q. specialize (B _ (F _ Q)).
  destruct (in_dec fault_eq_dec q l); [assumption|discriminate].
Qed.
Lemma guarded_ok s : is_only [] s = true -> guarded s.
Proof. intros B h0 e h' f FR X. apply incl_l_nil. exact (is_only_ok _ _ B _ _ _ _ FR X). Qed.
Definition has_fault (q : fault) (s : stm) : bool :=
  match ana s [] with Some (_, fs) => if in_dec fault_eq_dec q fs then true else false | None => false end.
Lemma has_fault_ok q s : has_fault q s = true -> exists e h f, ex s [] e h f /\ In q f.
Proof.
  unfold has_fault. intros B. destruct (ana s []) as [[r fs]|] eqn:A; [|discriminate]. destruct (in_dec fault_eq_dec q fs) as [I|]; [|discriminate].
  exact (proj2 (ana_attained s _ _ _ A) _ I).
Qed.
Definition has_exit (e : exit) (h : held) (s : stm) : bool :=
  match ana s [] with Some (r, _) => if in_dec out_eq_dec (e, h) r then true else false | None => false end.
Lemma has_exit_ok e h s : has_exit e h s = true -> exists f, ex s [] e h f.
Proof.
  unfold has_exit. intros B. destruct (ana s []) as [[r fs]|] eqn:A; [|discriminate]. destruct (in_dec out_eq_dec (e, h) r) as [I|]; [|discriminate].
  exact (proj1 (ana_attained s _ _ _ A) _ _ I).
Qed.
Lemma fresh_nil s : fresh_for s [].
Proof. intros m _ []. Qed.
Lemma calls_released (P : stm -> Prop) : (forall s, P s -> released s) ->
  forall h0 e h', (forall s, P s -> fresh_for s h0) -> calls P h0 e h' -> e <> Cut -> e = Go /\ h' = h0.
Proof.
  intros R h0 e h' FR X. induction X; intros NC.
  - auto.
  - destruct (R _ H _ _ _ _ (FR _ H) H0 NC) as [-> _]. congruence.
  - destruct (R _ H _ _ _ _ (FR _ H) H0 ltac:(discriminate)) as [_ ->]. apply IHX; assumption.
Qed.
