(** Every function of the model keeps the invariant under the program's care. *)
From Verif Require Import Common CommonFacts OwnModel OwnSpec OwnProofs OwnFacts.
Local Open Scope nat_scope.

(** ** The words of the specification *)
Lemma holds_at h p b : holds h p b <-> exists c, at_ h p = Some c /\ bd c = b.
Proof.
  unfold holds, at_. split.
  - intros (k & E). rewrite E. eexists. split; reflexivity.
  - intros (c & E & B). destruct (nth_error h p) as [[c'|]|]; try discriminate. inversion E; subst.
    exists (rc c). destruct c; reflexivity.
Qed.

Lemma owns_slots b q : owns b q <-> In q (slots b).
Proof.
  split.
  - intros O. destruct O; cbn; auto; rewrite ?in_app_iff; cbn; auto.
  - destruct b as [d|nm v nx|nm m pr ch nx pa|op v|op l r]; cbn.
    + destruct d as [| | |[?|]|[?|]]; cbn; try tauto; intros [<-|[]]; constructor.
    + rewrite in_app_iff. destruct v, nx; cbn; intros [I|I]; try (destruct I as [<-|[]]; constructor); destruct I.
    + rewrite !in_app_iff. destruct pr, ch, nx; cbn; intros [I|[I|I]]; try (destruct I as [<-|[]]; constructor); destruct I.
    + destruct v; cbn; try tauto. intros [<-|[]]. constructor.
    + rewrite in_app_iff. destruct l, r; cbn; intros [I|I]; try (destruct I as [<-|[]]; constructor); destruct I.
Qed.

Lemma inside_contains h p q : inside h p q <-> contains h p q.
Proof.
  split.
  - induction 1 as [p|p b q x H O I IH]; [constructor|]. econstructor 2; [|exact IH].
    apply holds_at in H. destruct H as (c & E & B). exists c. split; auto. apply owns_slots. congruence.
  - induction 1 as [p|p q x (c & E & I) K IH]; [constructor|]. econstructor 2; [|apply owns_slots; exact I|exact IH].
    apply holds_at. eauto.
Qed.

Lemma is_isk h p k : is h p k <-> isk h p k.
Proof.
  unfold is, isk. split.
  - intros (b & H & K). apply holds_at in H. destruct H as (c & E & B). exists c. split; congruence.
  - intros (c & E & K). exists (bd c). split; auto. apply holds_at. eauto.
Qed.

Lemma pointer_ref d : pointer d = ref_of d.
Proof. destruct d; reflexivity. Qed.

(** ** Containment after growth and stores *)
Lemma grown_points h h' b x y : Grown h h' b -> points h' x y <-> points (fresh_heap h b) x y.
Proof.
  intros G. unfold points, fresh_heap. rewrite at_snoc. destruct (Nat.eqb_spec x (length h)) as [->|N].
  - destruct (gr_new _ _ _ G) as (c & E & B). split.
    + intros (c' & E' & I). eexists. split; [reflexivity|]. cbn. congruence.
    + intros (c' & E' & I). exists c. split; auto. inversion E'; subst. cbn in I. congruence.
  - pose proof (gr_old _ _ _ G _ N) as X. destruct (at_ h' x) as [c'|], (at_ h x) as [c|]; try discriminate.
    + injection X as X. split; intros (k & E & I); inversion E; subst; eexists; split; eauto; congruence.
    + split; intros (k & E & I); discriminate.
Qed.

Lemma grown_old h refs pend h' b x y :
  Inv h refs pend -> (forall q, In q (slots b) -> q < length h) -> Grown h h' b ->
  contains h' x y -> x < length h -> contains h x y.
Proof.
  intros V S G K L. apply (fresh_contains h refs pend b x y V S); auto.
  eapply contains_mono; [|exact K]. intros a z. apply grown_points. exact G.
Qed.

Lemma grown_new h refs pend h' b y :
  Inv h refs pend -> (forall q, In q (slots b) -> q < length h) -> Grown h h' b ->
  contains h' (length h) y -> y = length h \/ exists q, In q (slots b) /\ contains h q y.
Proof.
  intros V S G K. inversion K as [|p q x P K']; subst; [auto|].
  right. apply (grown_points _ _ _ _ _ G) in P. apply fresh_points in P. destruct P as [[N _]|[_ I]]; [congruence|].
  exists q. split; auto. eapply grown_old; eauto.
Qed.

Lemma grown_at h h' b q c : Grown h h' b -> at_ h q = Some c -> exists c', at_ h' q = Some c' /\ bd c' = bd c.
Proof.
  intros G E. assert (N : q <> length h) by (intros ->; rewrite at_ge in E by lia; discriminate).
  pose proof (gr_old _ _ _ G _ N) as X. rewrite E in X. destruct (at_ h' q) as [c'|]; [|discriminate].
  injection X as X. eauto.
Qed.

Lemma same_at h h' q c : Same h h' -> at_ h q = Some c -> exists c', at_ h' q = Some c' /\ bd c' = bd c.
Proof.
  intros G E. pose proof (same_bd _ _ G q) as X. rewrite E in X. destruct (at_ h' q) as [c'|]; [|discriminate].
  injection X as X. eauto.
Qed.

Lemma same_back h h' q c : Same h h' -> at_ h' q = Some c -> exists c', at_ h q = Some c' /\ bd c = bd c'.
Proof.
  intros G E. pose proof (same_bd _ _ G q) as X. rewrite E in X. destruct (at_ h q) as [c'|]; [|discriminate].
  injection X as X. eauto.
Qed.

Lemma same_contains h h' x y : Same h h' -> contains h' x y <-> contains h x y.
Proof. intros S. split; apply contains_mono; intros a b; apply (Same_points _ _ _ _ S). Qed.

Lemma release_shared h refs pend p x :
  Inv h (plus [p] refs) pend -> points h x p ->
  exists h', release (deep h) h p = Ok h' /\ Inv h' refs pend /\ Same h h'.
Proof.
  intros V P. destruct (release_inv _ _ _ _ V) as (h' & E & V' & L & F).
  exists h'. split; [exact E|]. split; [exact V'|].
  destruct (inv_points _ _ _ _ _ V P) as (c & Ep).
  assert (R : (2 <= rc c)%Z).
  { pose proof (inv_count _ _ _ V p) as C. rewrite Ep in C. unfold plus in C. rewrite occ_one, Nat.eqb_refl in C.
    pose proof P as (cx & Ex & I). pose proof (insum_point (slots_at h) h x p) as H.
    specialize (H (pos_alive _ _ _ (inv_pos _ _ _ V) Ex)). unfold slots_at at 1 in H. rewrite Ex in H.
    apply occ_in in I. lia. }
  unfold deep in E. rewrite release_S, (get_at _ _ _ Ep) in E. cbn [obind] in E. cbv zeta in E.
  destruct (Z.eqb_spec (rc c - 1) 0); [lia|]. inversion E as [E']. clear E E'.
  split.
  - apply upd_length.
  - intros q. destruct (Nat.eq_dec q p) as [->|N].
    + rewrite (at_put_eq _ _ _ _ Ep), Ep. reflexivity.
    + now rewrite at_put_neq.
  - intros q A. unfold alive in *. destruct (Nat.eq_dec q p) as [->|N].
    + rewrite (at_put_eq _ _ _ _ Ep). cbn. lia.
    + now rewrite at_put_neq.
Qed.

Lemma After_points h h' p b old c new R :
  After h h' p b old -> at_ h p = Some c ->
  (forall q, occ q (slots (bd c)) = occ q (opt old) + occ q R) ->
  (forall q, occ q (slots b) = occ q (opt new) + occ q R) ->
  forall x y, points h' x y -> points h x y \/ (x = p /\ new = Some y).
Proof.
  intros A E O N x y (cx & Ex & I). destruct (Nat.eq_dec x p) as [->|M].
  - destruct (af_at _ _ _ _ _ A) as (c' & E' & B'). assert (cx = c') by congruence. subst cx. rewrite B' in I.
    apply occ_in in I. rewrite N in I. destruct new as [n|]; cbn [opt] in I.
    + rewrite occ_one in I. destruct (Nat.eqb_spec y n) as [Yn|Yn]; [right; split; congruence|].
      left. exists c. split; auto. apply occ_in. rewrite O. lia.
    + left. exists c. split; auto. apply occ_in. rewrite O. cbn in I. lia.
  - destruct (af_body _ _ _ _ _ A _ _ M Ex) as (c0 & E0 & K0). left. exists c0. split; congruence.
Qed.

(** ** The setters *)
Definition stored (h h' : heap) (refs pend : ptr -> nat) (p : ptr) (b : body) (old new : option ptr) : Prop :=
  Inv h' refs pend /\ After h h' p b old /\
  forall x y, points h' x y -> points h x y \/ (x = p /\ new = Some y).

Definition replaces' (h : heap) (p : ptr) (old new : option ptr) : Prop :=
  forall n, new = Some n -> ~ contains h n p /\ forall o, old = Some o -> ~ contains h o n.

Lemma replaces_conv h p old new : replaces h p old new -> replaces' h p old new.
Proof.
  intros R n E. destruct (R n E) as (A & B). split.
  - intros K. apply A. now apply inside_contains.
  - intros o Eo K. apply (B o Eo). now apply inside_contains.
Qed.

Definition may (h : heap) (o : option ptr) (k : kind) : Prop := forall q, o = Some q -> isk h q k.

Lemma maybe_may h o k : maybe h o k -> may h o k.
Proof. intros M q E. apply is_isk. auto. Qed.

Lemma store_ok h refs pend p c f b' old new R k :
  Inv h refs pend -> at_ h p = Some c -> f (bd c) = b' -> kind_of b' = kind_of (bd c) ->
  (forall q, occ q (slots (bd c)) = occ q (opt old) + occ q R) ->
  (forall q, occ q (slots b') = occ q (opt new) + occ q R) ->
  (forall q k', In (q, k') (links b') -> In (q, k') (links (bd c)) \/ (new = Some q /\ k' = k)) ->
  may h new k -> replaces' h p old new ->
  exists h', assign h p old f new = Ok h' /\ stored h h' refs pend p b' old new.
Proof.
  intros V E F K O N T M R'.
  destruct (assign_ok h refs pend p c f b' old new R V E F K O N) as (h' & E' & V' & A').
  - intros q k' I. destruct (T _ _ I) as [J|[J ->]]; [auto|]. right. split; auto.
  - intros n En. destruct (R' n En) as (X & Y). split; [|split; auto]. eapply isk_at. apply M. exact En.
  - exists h'. split; [exact E'|]. split; [exact V'|]. split; [exact A'|]. eapply After_points; eauto.
Qed.

Ltac occs := intros ?q; cbn [slots]; rewrite ?occ_app; lia.

Ltac lnk := intros ?q ?k'; cbn; rewrite ?in_app_iff;
  repeat match goal with |- context [match ?o with Some _ => _ | None => _ end] => destruct o end;
  cbn; intuition congruence.

Lemma set_value_ok h refs pend p nm old nx v c :
  Inv h refs pend -> at_ h p = Some c -> bd c = Property nm old nx ->
  may h v KValue -> replaces' h p old v ->
  exists h', set_value h p v = Ok h' /\ stored h h' refs pend p (Property nm v nx) old v.
Proof.
  intros V E B M R. unfold set_value. rewrite (get_at _ _ _ E). cbn [obind]. rewrite B.
  apply (store_ok h refs pend p c _ _ old v (opt nx) KValue); auto; rewrite ?B; auto; try occs. lnk.
Qed.

Lemma set_next_ok h refs pend p nm v old n c :
  Inv h refs pend -> at_ h p = Some c -> bd c = Property nm v old ->
  may h n KProperty -> replaces' h p old n ->
  exists h', set_next h p n = Ok h' /\ stored h h' refs pend p (Property nm v n) old n.
Proof.
  intros V E B M R. unfold set_next. rewrite (get_at _ _ _ E). cbn [obind]. rewrite B.
  apply (store_ok h refs pend p c _ _ old n (opt v) KProperty); auto; rewrite ?B; auto; try occs. lnk.
Qed.

Lemma set_properties_ok h refs pend p nm m old ch nx pa ps c :
  Inv h refs pend -> at_ h p = Some c -> bd c = Object nm m old ch nx pa ->
  may h ps KProperty -> replaces' h p old ps ->
  exists h', set_properties h p ps = Ok h' /\ stored h h' refs pend p (Object nm m ps ch nx pa) old ps.
Proof.
  intros V E B M R. unfold set_properties. rewrite (get_at _ _ _ E). cbn [obind]. rewrite B.
  apply (store_ok h refs pend p c _ _ old ps (opt ch ++ opt nx) KProperty); auto; rewrite ?B; auto; try occs. lnk.
Qed.

Lemma set_children_ok h refs pend p nm m pr old nx pa cs c :
  Inv h refs pend -> at_ h p = Some c -> bd c = Object nm m pr old nx pa ->
  may h cs KObject -> replaces' h p old cs ->
  exists h', set_children h p cs = Ok h' /\ stored h h' refs pend p (Object nm m pr cs nx pa) old cs.
Proof.
  intros V E B M R. unfold set_children. rewrite (get_at _ _ _ E). cbn [obind]. rewrite B.
  apply (store_ok h refs pend p c _ _ old cs (opt pr ++ opt nx) KObject); auto; rewrite ?B; auto; try occs. lnk.
Qed.

Lemma set_sibling_ok h refs pend p nm m pr ch old pa n c :
  Inv h refs pend -> at_ h p = Some c -> bd c = Object nm m pr ch old pa ->
  may h n KObject -> replaces' h p old n ->
  exists h', set_sibling h p n = Ok h' /\ stored h h' refs pend p (Object nm m pr ch n pa) old n.
Proof.
  intros V E B M R. unfold set_sibling. rewrite (get_at _ _ _ E). cbn [obind]. rewrite B.
  apply (store_ok h refs pend p c _ _ old n (opt pr ++ opt ch) KObject); auto; rewrite ?B; auto; try occs. lnk.
Qed.

Lemma plain_write h refs pend p c f b' :
  Inv h refs pend -> at_ h p = Some c -> f (bd c) = b' -> kind_of b' = kind_of (bd c) ->
  links b' = links (bd c) ->
  exists h', write h p f = Ok h' /\ stored h h' refs pend p b' None None.
Proof.
  intros V E F K L. destruct (write_ok h refs pend p c f b' V E F K L) as (h' & E' & V' & A').
  exists h'. split; [exact E'|]. split; [exact V'|]. split; [exact A'|].
  eapply (After_points h h' p b' None c None (slots (bd c))); eauto.
  - intros q. rewrite <- !links_slots, L. reflexivity.
Qed.

(** The datum a value gets. *)
Definition good (h : heap) (d : datum) : Prop :=
  match d with
  | PropertyRef q => may h q KProperty
  | ObjectRef q => may h q KObject
  | _ => True
  end.

Lemma good_conv h d : good_datum h d -> good h d.
Proof. destruct d; cbn; auto using maybe_may. Qed.

Lemma good_isk h d q k : good h d -> In (q, k) (links (Value d)) -> isk h q k.
Proof.
  destruct d as [| | |[?|]|[?|]]; cbn; try tauto; intros G [X|[]]; inversion X; subst; auto.
Qed.

Definition d_kind (d : datum) : kind := match d with ObjectRef _ => KObject | _ => KProperty end.

Lemma good_may h d : good h d -> may h (ref_of d) (d_kind d).
Proof. destruct d; cbn; auto; intros _ q E; discriminate. Qed.

Lemma set_datum_ok h refs pend v d0 d c :
  Inv h refs pend -> at_ h v = Some c -> bd c = Value d0 -> good h d ->
  replaces' h v (ref_of d0) (ref_of d) ->
  (forall t b, d = Buffer t (Some b) -> ref_of d0 = None) ->
  exists h', set_datum h v d = Ok h' /\ stored h h' refs pend v (Value d) (ref_of d0) (ref_of d).
Proof.
  intros V E B G R Kp. unfold set_datum. rewrite (get_at _ _ _ E). cbn [obind]. rewrite B.
  assert (X : exists h', assign h v (ref_of d0) (fun _ => Value d) (ref_of d) = Ok h' /\
    stored h h' refs pend v (Value d) (ref_of d0) (ref_of d)).
  { apply (store_ok h refs pend v c _ _ (ref_of d0) (ref_of d) [] (d_kind d)); auto; rewrite ?B; auto; try occs.
    - intros q k'. destruct d as [| | |[?|]|[?|]]; cbn; intuition congruence.
    - now apply good_may. }
  destruct d as [| |t [b|]|q|q]; auto.
  destruct X as (h' & E' & S'). exists h'. split; [|exact S'].
  rewrite (Kp t b eq_refl) in E'. unfold assign in E'. cbn [release_opt obind ref_of] in E'.
  rewrite (write_at _ _ _ _ E) in *. exact E'.
Qed.

Lemma lose_datum_ok h refs pend v d0 t b c :
  Inv h refs pend -> at_ h v = Some c -> bd c = Value d0 ->
  exists h', set_datum h v (Buffer t (Some b)) = Ok h' /\
    Inv h' refs (plus (opt (ref_of d0)) pend) /\ After h h' v (Value (Buffer t (Some b))) None.
Proof.
  intros V E B. unfold set_datum. rewrite (get_at _ _ _ E). cbn [obind]. rewrite B.
  destruct (lose_ok h refs pend v c (fun _ => Value (Buffer t (Some b))) _ V E eq_refl) as (h' & E' & V' & A').
  - now rewrite B.
  - reflexivity.
  - exists h'. split; [exact E'|]. rewrite B in V'. auto.
Qed.

(** ** New cells *)
Lemma fresh_write h b f : write (fresh_heap h b) (length h) f = Ok (fresh_heap h (f b)).
Proof.
  assert (E : at_ (fresh_heap h b) (length h) = Some (mkCell 1 b)).
  { unfold fresh_heap. rewrite at_snoc, Nat.eqb_refl. reflexivity. }
  rewrite (write_at _ _ _ _ E). f_equal. cbn. unfold put, fresh_heap.
  generalize (Some (mkCell 1 b)) (Some (mkCell 1 (f b))). intros u w.
  induction h as [|a h IH]; cbn; [reflexivity|]. f_equal. auto.
Qed.

Lemma fresh_get h b : get (fresh_heap h b) (length h) = Ok (mkCell 1 b).
Proof. apply get_at. unfold fresh_heap. now rewrite at_snoc, Nat.eqb_refl. Qed.

Lemma new_value_eq h d :
  new_value h d = do h2 <- retain_all (fresh_heap h (Value d)) (slots (Value d)); Ok (h2, length h).
Proof.
  unfold new_value, alloc. fold (fresh_heap h (Value Nothing)).
  unfold set_datum. rewrite fresh_get. cbn [obind bd].
  unfold assign. cbn [ref_of release_opt obind].
  destruct d as [| |t [b|]|q|q]; cbn [slots ref_of opt retain_all obind]; rewrite ?fresh_write; cbn [obind retain_opt]; try reflexivity.
  - rewrite <- retain_opt_all. reflexivity.
  - rewrite <- retain_opt_all. reflexivity.
Qed.

Lemma new_value_ok h refs pend d :
  Inv h refs pend -> good h d ->
  exists h', new_value h d = Ok (h', length h) /\ Inv h' (plus [length h] refs) pend /\ Grown h h' (Value d).
Proof.
  intros V G. destruct (alloc_ok h refs pend (Value d) V) as (h' & E & V' & G').
  - intros q k. now apply good_isk.
  - exists h'. rewrite new_value_eq, E. auto.
Qed.

Lemma new_property_eq h nm v :
  new_property h nm v = do h2 <- retain_all (fresh_heap h (Property nm v None)) (slots (Property nm v None)); Ok (h2, length h).
Proof.
  unfold new_property, alloc. fold (fresh_heap h (Property nm None None)).
  destruct v as [v|]; [|reflexivity].
  unfold set_value. rewrite fresh_get. cbn [obind bd]. unfold assign. cbn [release_opt obind].
  rewrite fresh_write. cbn [obind]. rewrite retain_opt_all. cbn [slots opt]. rewrite app_nil_r. reflexivity.
Qed.

Lemma new_property_ok h refs pend nm v :
  Inv h refs pend -> may h v KValue ->
  exists h', new_property h nm v = Ok (h', length h) /\ Inv h' (plus [length h] refs) pend /\
    Grown h h' (Property nm v None).
Proof.
  intros V M. destruct (alloc_ok h refs pend (Property nm v None) V) as (h' & E & V' & G').
  - intros q k. cbn. rewrite app_nil_r. destruct v as [v|]; cbn; [|tauto]. intros [X|[]]. inversion X; subst. auto.
  - exists h'. rewrite new_property_eq, E. auto.
Qed.

Lemma new_object_ok h refs pend nm m :
  Inv h refs pend ->
  exists h', new_object h nm m = (h', length h) /\ Inv h' (plus [length h] refs) pend /\
    Grown h h' (Object nm m None None None None).
Proof.
  intros V. destruct (alloc_ok h refs pend (Object nm m None None None None) V) as (h' & E & V' & G').
  - cbn. tauto.
  - cbn in E. inversion E; subst. eexists. split; [reflexivity|]. auto.
Qed.

Lemma new_relation_ok h refs pend op v :
  Inv h refs pend -> may h v KValue ->
  exists h', new_relation h op v = Ok (h', length h) /\ Inv h' (plus [length h] refs) pend /\
    Grown h h' (Relation op v).
Proof.
  intros V M. destruct (alloc_ok h refs pend (Relation op v) V) as (h' & E & V' & G').
  - intros q k. cbn. destruct v as [v|]; cbn; [|tauto]. intros [X|[]]. inversion X; subst. auto.
  - exists h'. split; [|auto]. unfold new_relation, alloc. fold (fresh_heap h (Relation op v)).
    rewrite retain_opt_all. cbn [slots] in E. rewrite E. reflexivity.
Qed.

Lemma retain_all_app h l l' : retain_all h (l ++ l') = do h1 <- retain_all h l; retain_all h1 l'.
Proof.
  revert h. induction l as [|a l IH]; intros h; cbn; [reflexivity|].
  destruct (retain h a); cbn; auto.
Qed.

Lemma new_logic_ok h refs pend op l r :
  Inv h refs pend -> may h l KFilter -> may h r KFilter ->
  exists h', new_logic h op l r = Ok (h', length h) /\ Inv h' (plus [length h] refs) pend /\
    Grown h h' (Logic op l r).
Proof.
  intros V M M'. destruct (alloc_ok h refs pend (Logic op l r) V) as (h' & E & V' & G').
  - intros q k. cbn. rewrite in_app_iff. destruct l as [l|], r as [r|]; cbn;
    intros [X|X]; try (destruct X as [X|[]]; inversion X; subst; auto); destruct X.
  - exists h'. split; [|auto]. unfold new_logic, alloc. fold (fresh_heap h (Logic op l r)).
    cbn [slots] in E. rewrite retain_all_app in E. rewrite retain_opt_all.
    destruct (retain_all (fresh_heap h (Logic op l r)) (opt l)) as [h1| |]; cbn [obind] in *; try discriminate.
    rewrite retain_opt_all, E. reflexivity.
Qed.

(** ** Walking lists *)
Definition budget (h : heap) (seen : list ptr) (p : ptr) : Prop :=
  NoDup seen /\ (forall x, In x seen -> x < length h) /\ ~ In p seen /\ forall x, In x seen -> contains h x p.

Lemma budget_step h refs pend seen p q c :
  Inv h refs pend -> budget h seen p -> at_ h p = Some c -> In q (slots (bd c)) -> budget h (p :: seen) q.
Proof.
  intros V (ND & L & N & K) E I.
  assert (P : points h p q) by (exists c; auto).
  split; [constructor; auto|]. split; [|split].
  - intros x [<-|J]; auto. eapply at_lt; eauto.
  - intros [<-|J].
    + apply (inv_acy _ _ _ V p p P). constructor.
    + apply (inv_acy _ _ _ V p q P). auto.
  - intros x [<-|J]; [eapply contains_one; eauto|]. eapply contains_trans; [apply K; exact J|]. eapply contains_one; eauto.
Qed.

Lemma budget_len h seen p : budget h seen p -> p < length h -> length seen < length h.
Proof.
  intros (ND & L & N & _) Lp.
  assert (X : length (p :: seen) <= length (seq 0 (length h))).
  { apply NoDup_incl_length; [constructor; auto|]. intros x [<-|J]; apply in_seq; [lia|]. specialize (L _ J). lia. }
  rewrite seq_length in X. cbn in X. lia.
Qed.

Lemma budget_nil h p : budget h [] p.
Proof. repeat split; try constructor; cbn; tauto. Qed.

Lemma inlist_contains h p x : inlist h p x -> contains h p x.
Proof.
  induction 1 as [p|p nm v q x H I IH]; [constructor|]. econstructor 2; [|exact IH].
  apply holds_at in H. destruct H as (c & E & B). exists c. split; auto. rewrite B. cbn.
  rewrite in_app_iff. right. now left.
Qed.

Lemma inlist_trans h p q x : inlist h p q -> inlist h q x -> inlist h p x.
Proof. induction 1; eauto using inlist_next. Qed.

Lemma next_isk h refs pend p c nm v q :
  Inv h refs pend -> at_ h p = Some c -> bd c = Property nm v (Some q) -> isk h q KProperty.
Proof.
  intros V E B. eapply (inv_typed _ _ _ V); eauto. rewrite B. cbn. rewrite in_app_iff. right. now left.
Qed.

Lemma isk_prop h p : isk h p KProperty -> exists c nm v nx, at_ h p = Some c /\ bd c = Property nm v nx.
Proof.
  intros (c & E & K). exists c. destruct (bd c) eqn:B; try discriminate. eauto.
Qed.

Lemma last_of_ok h refs pend : Inv h refs pend -> forall n p seen,
  isk h p KProperty -> budget h seen p -> length h < n + length seen ->
  exists l c nm v, last_of n h p = Ok l /\ at_ h l = Some c /\ bd c = Property nm v None /\ inlist h p l.
Proof.
  intros V. induction n as [|n IH]; intros p seen T Bu L.
  - exfalso. destruct (isk_at _ _ _ T) as (c & E). pose proof (budget_len _ _ _ Bu (at_lt _ _ _ E)). lia.
  - destruct (isk_prop _ _ T) as (c & nm & v & nx & E & B). cbn [last_of]. rewrite (get_at _ _ _ E). cbn [obind].
    rewrite B. destruct nx as [q|].
    + destruct (IH q (p :: seen)) as (l & cl & nm' & v' & El & Al & Bl & Il).
      * eapply next_isk; eauto.
      * eapply budget_step; eauto. rewrite B. cbn. rewrite in_app_iff. right. now left.
      * cbn. lia.
      * exists l, cl, nm', v'. repeat split; auto. econstructor 2; [|exact Il]. apply holds_at. eauto.
    + exists p, c, nm, v. repeat split; auto. constructor.
Qed.

Lemma append_ok h refs pend p back :
  Inv h refs pend -> isk h p KProperty -> may h back KProperty ->
  (forall n x, back = Some n -> inlist h p x -> ~ contains h n x) ->
  exists h' l c nm v, append h p back = Ok h' /\ at_ h l = Some c /\ bd c = Property nm v None /\ inlist h p l /\
    last_of (deep h) h p = Ok l /\
    stored h h' refs pend l (Property nm v back) None back.
Proof.
  intros V T M R.
  destruct (last_of_ok h refs pend V (deep h) p [] T (budget_nil h p)) as (l & c & nm & v & El & Al & Bl & Il).
  { unfold deep. cbn. lia. }
  destruct (set_next_ok h refs pend l nm v None back c V Al Bl M) as (h' & E' & S').
  { intros n En. split; [eapply R; eauto|discriminate]. }
  exists h', l, c, nm, v. unfold append. rewrite El. cbn [obind]. repeat (split; auto).
Qed.

Definition named' (h : heap) (p : ptr) : Prop := exists c nm v nx, at_ h p = Some c /\ bd c = Property (Some nm) v nx.

Lemma named_conv h p : named h p -> named' h p.
Proof. intros (nm & v & nx & H). apply holds_at in H. destruct H as (c & E & B). exists c, nm, v, nx. auto. Qed.

(** The first property with this name, and the one before it. *)
Inductive finds (h : heap) (nm : list Z) : option ptr -> option ptr -> option ptr -> option ptr -> Prop :=
| finds_none last : finds h nm None last None last
| finds_here p last c v nx : at_ h p = Some c -> bd c = Property (Some nm) v nx -> finds h nm (Some p) last (Some p) last
| finds_later p last c m v nx f l : at_ h p = Some c -> bd c = Property (Some m) v nx -> m <> nm ->
    finds h nm nx (Some p) f l -> finds h nm (Some p) last f l.

Lemma search_ok h refs pend : Inv h refs pend -> forall n cur last seen nm,
  (forall p, cur = Some p -> isk h p KProperty /\ budget h seen p) ->
  (forall p x, cur = Some p -> inlist h p x -> named' h x) -> length h < n + length seen ->
  exists f l, search n h cur last nm = Ok (f, l) /\ finds h nm cur last f l.
Proof.
  intros V. induction n as [|n IH]; intros cur last seen nm T Nm L; destruct cur as [p|].
  - exfalso. destruct (T p eq_refl) as (Tp & Bu). destruct (isk_at _ _ _ Tp) as (c & E).
    pose proof (budget_len _ _ _ Bu (at_lt _ _ _ E)). lia.
  - exists None, last. split; [reflexivity|constructor].
  - destruct (T p eq_refl) as (Tp & Bu). destruct (Nm p p eq_refl (inlist_here h p)) as (c & m & v & nx & E & B).
    cbn [search]. rewrite (get_at _ _ _ E). cbn [obind]. rewrite B.
    destruct (bytes_eqb m nm) eqn:Q.
    + apply bytes_eqb_eq in Q. subst m. exists (Some p), last. split; [reflexivity|]. eapply finds_here; eauto.
    + destruct (IH nx (Some p) (p :: seen) nm) as (f & l & Es & Fs).
      * intros q ->. split; [eapply next_isk; eauto|]. eapply budget_step; eauto. rewrite B. cbn.
        rewrite in_app_iff. right. now left.
      * intros q x -> I. apply (Nm p x eq_refl). econstructor 2; [|exact I]. apply holds_at. eauto.
      * cbn. lia.
      * exists f, l. split; [exact Es|]. eapply finds_later; eauto.
        intros ->. rewrite bytes_eqb_refl in Q. discriminate.
  - exists None, last. split; [reflexivity|constructor].
Qed.
