(** The invariant of a careful program and what each building block does to it. *)
From Verif Require Import Common CommonFacts OwnModel OwnSpec OwnProofs.
Local Open Scope nat_scope.

Definition links (b : body) : list (ptr * kind) :=
  let one k o := match o with Some q => [(q, k)] | None => [] end in
  match b with
  | Value (PropertyRef q) => one KProperty q
  | Value (ObjectRef q) => one KObject q
  | Value _ => []
  | Property _ v nx => one KValue v ++ one KProperty nx
  | Object _ _ pr ch nx _ => one KProperty pr ++ one KObject ch ++ one KObject nx
  | Relation _ v => one KValue v
  | Logic _ l r => one KFilter l ++ one KFilter r
  end.

Lemma links_slots b : map fst (links b) = slots b.
Proof.
  destruct b as [d|nm v nx|nm m pr ch nx pa|op v|op l r]; cbn.
  - destruct d as [| | |[?|]|[?|]]; reflexivity.
  - destruct v, nx; reflexivity.
  - destruct pr, ch, nx; reflexivity.
  - destruct v; reflexivity.
  - destruct l, r; reflexivity.
Qed.

Lemma links_in b q k : In (q, k) (links b) -> In q (slots b).
Proof. intros I. rewrite <- links_slots. apply (in_map fst) in I. exact I. Qed.

Definition isk (h : heap) (q : ptr) (k : kind) : Prop := exists c, at_ h q = Some c /\ kind_of (bd c) = k.

Definition acyclic (h : heap) : Prop := forall p q, points h p q -> ~ contains h q p.

Definition typed (h : heap) : Prop :=
  forall p c q k, at_ h p = Some c -> In (q, k) (links (bd c)) -> isk h q k.

Definition AllPos (h : heap) : Prop := forall p c, at_ h p = Some c -> (0 < rc c)%Z.

Record Inv (h : heap) (refs pend : ptr -> nat) : Prop := {
  inv_count : Count (slots_at h) h refs pend;
  inv_pos : AllPos h;
  inv_acy : acyclic h;
  inv_typed : typed h }.

(** ** Containment *)
Lemma contains_trans h p q x : contains h p q -> contains h q x -> contains h p x.
Proof. induction 1; eauto using con_step. Qed.

Lemma contains_one h p q : points h p q -> contains h p q.
Proof. intros P. econstructor 2; eauto using con_self. Qed.

Lemma contains_mono h h' p q :
  (forall x y, points h' x y -> points h x y) -> contains h' p q -> contains h p q.
Proof. intros M C. induction C; eauto using con_self, con_step. Qed.

Lemma contains_add h h' a n p q :
  (forall x y, points h' x y -> points h x y \/ (x = a /\ y = n)) ->
  contains h' p q -> contains h p q \/ (contains h p a /\ contains h n q).
Proof.
  intros M C. induction C as [p|p r q P C IH]; [left; constructor|].
  destruct (M _ _ P) as [P0|[E1 E2]].
  - destruct IH as [IH|[I1 I2]]; [left|right; split]; eauto using con_step.
  - subst r p. destruct IH as [IH|[I1 I2]]; right; split; auto using con_self.
Qed.

Lemma acyclic_mono h h' : (forall x y, points h' x y -> points h x y) -> acyclic h -> acyclic h'.
Proof. intros M A p q P C. apply (A p q); auto. eapply contains_mono; eauto. Qed.

Lemma acyclic_add h h' a n :
  (forall x y, points h' x y -> points h x y \/ (x = a /\ y = n)) ->
  ~ contains h n a -> acyclic h -> acyclic h'.
Proof.
  intros M N A p q P C. destruct (contains_add _ _ _ _ _ _ M C) as [C0|[C1 C2]];
    destruct (M _ _ P) as [P0|[E1 E2]].
  - apply (A p q); auto.
  - subst. auto.
  - apply N. eapply contains_trans; [exact C2|]. eapply con_step; eauto.
  - subst. auto.
Qed.

(** ** Counting *)
Lemma Count_move B B' h refs pend p l :
  Count B h refs (plus l pend) -> alive h p = true ->
  (forall x, x <> p -> B' x = B x) -> (forall q, occ q (B' p) = occ q l + occ q (B p)) ->
  Count B' h refs pend.
Proof.
  intros C A S E q. specialize (C q). rewrite (insum_moves B B' h p l q A S (E q)).
  unfold plus in C. destruct (at_ h q); lia.
Qed.

Lemma Count_unmove B B' h refs pend p l :
  Count B' h refs pend -> alive h p = true ->
  (forall x, x <> p -> B' x = B x) -> (forall q, occ q (B' p) = occ q l + occ q (B p)) ->
  Count B h refs (plus l pend).
Proof.
  intros C A S E q. specialize (C q). rewrite (insum_moves B B' h p l q A S (E q)) in C.
  unfold plus. destruct (at_ h q); lia.
Qed.

Lemma Count_B B B' h refs pend : (forall x, alive h x = true -> B x = B' x) -> Count B h refs pend -> Count B' h refs pend.
Proof.
  intros E C q. specialize (C q). rewrite (insum_B B' B) by (intros; now rewrite E). exact C.
Qed.

(** Same counters and presence, possibly other contents. *)
Lemma Count_rcs B h h' refs pend :
  length h' = length h ->
  (forall q, option_map rc (at_ h' q) = option_map rc (at_ h q)) ->
  Count B h refs pend -> Count B h' refs pend.
Proof.
  intros L E C q. pose proof (C q) as Cq.
  rewrite (insum_same B h h'); auto.
  - pose proof (E q). destruct (at_ h' q), (at_ h q); cbn in *; try discriminate; auto. congruence.
  - intros x. unfold alive. pose proof (E x). destruct (at_ h' x), (at_ h x); cbn in *; try discriminate; auto. congruence.
Qed.

Lemma at_snoc h c q : at_ (h ++ [Some c]) q = if Nat.eqb q (length h) then Some c else at_ h q.
Proof.
  unfold at_. destruct (Nat.eqb_spec q (length h)) as [->|N].
  - rewrite nth_error_app2, Nat.sub_diag by lia. reflexivity.
  - destruct (Nat.lt_ge_cases q (length h)).
    + now rewrite nth_error_app1.
    + rewrite nth_error_app2 by lia. destruct (q - length h) eqn:E; [lia|].
      cbn. rewrite (proj2 (nth_error_None h q)) by lia. now destruct n.
Qed.

Lemma at_ge h q : length h <= q -> at_ h q = None.
Proof. intros L. unfold at_. rewrite (proj2 (nth_error_None h q)) by lia. reflexivity. Qed.

Lemma Count_alloc B h refs pend b :
  Count B h refs pend -> B (length h) = [] ->
  Count B (h ++ [Some (mkCell 1 b)]) (plus [length h] refs) pend.
Proof.
  intros C E q.
  assert (I : insum B (h ++ [Some (mkCell 1 b)]) q = insum B h q).
  { unfold insum. rewrite app_length. cbn [Datatypes.length]. rewrite seq_app, map_app, list_sum_app.
    cbn [seq map]. rewrite Nat.add_0_l. rewrite E.
    replace (if alive (h ++ [Some (mkCell 1 b)]) (length h) then occ q [] else 0) with 0
      by (destruct alive; reflexivity).
    cbn [list_sum fold_right]. rewrite !Nat.add_0_r. apply sum_ext. intros x X. apply in_seq in X.
    unfold alive. rewrite at_snoc. destruct (Nat.eqb_spec x (length h)); [lia|]. reflexivity. }
  rewrite I, at_snoc. unfold plus. rewrite occ_one. pose proof (C q) as Cq.
  destruct (Nat.eqb_spec q (length h)) as [->|N].
  - rewrite (at_ge h (length h)) in Cq by lia. cbn. lia.
  - destruct (at_ h q); lia.
Qed.

Fixpoint retain_all (h : heap) (l : list ptr) : outcome unit heap :=
  match l with [] => Ok h | p :: l' => do h' <- retain h p; retain_all h' l' end.

Lemma retain_opt_all h o : retain_opt h o = retain_all h (opt o).
Proof. destruct o; cbn; [|reflexivity]. destruct (retain h n); reflexivity. Qed.

(** Same contents everywhere. *)
Record Same (h h' : heap) : Prop := {
  same_len : length h' = length h;
  same_bd : forall q, option_map bd (at_ h' q) = option_map bd (at_ h q);
  same_alive : forall q, alive h q = true -> alive h' q = true }.

Lemma Same_refl h : Same h h.
Proof. split; auto. Qed.
Lemma Same_trans h h1 h2 : Same h h1 -> Same h1 h2 -> Same h h2.
Proof. intros [A B C] [A' B' C']. split; [congruence| |auto]. intros q. now rewrite B'. Qed.

Lemma retain_ok B h refs pend p :
  Count B h refs pend -> alive h p = true ->
  exists h', retain h p = Ok h' /\ Count B h' refs (plus [p] pend) /\ Same h h' /\ (AllPos h -> AllPos h').
Proof.
  intros C A. pose proof A as A'. unfold alive in A. destruct (at_ h p) as [c|] eqn:E; [|discriminate].
  unfold retain. rewrite (get_at _ _ _ E). cbn [obind]. eexists. split; [reflexivity|].
  set (h' := put h p _).
  assert (Ep : at_ h' p = Some (mkCell (rc c + 1) (bd c))) by (eapply at_put_eq; eauto).
  assert (En : forall q, q <> p -> at_ h' q = at_ h q) by (intros; now apply at_put_neq).
  assert (Al : forall x, alive h' x = alive h x).
  { intros x. unfold alive. destruct (Nat.eq_dec x p) as [->|N]; [|now rewrite En].
    rewrite Ep, E. cbn. lia. }
  assert (L : length h' = length h) by apply upd_length.
  split; [|split].
  - intros q. rewrite (insum_same B h h') by auto. pose proof (C q) as Cq. unfold plus. rewrite occ_one.
    destruct (Nat.eqb_spec q p) as [->|N].
    + rewrite Ep. rewrite E in Cq. cbn. lia.
    + rewrite En by auto. destruct (at_ h q); lia.
  - split; auto.
    + intros q. destruct (Nat.eq_dec q p) as [->|N]; [|now rewrite En]. now rewrite Ep, E.
    + intros q X. now rewrite Al.
  - intros P q c' Eq. destruct (Nat.eq_dec q p) as [->|N].
    + rewrite Ep in Eq. inversion Eq; subst. cbn. specialize (P _ _ E). lia.
    + rewrite En in Eq by auto. eauto.
Qed.

Lemma retain_all_ok B refs l : forall h pend,
  Count B h refs pend -> (forall p, In p l -> alive h p = true) ->
  exists h', retain_all h l = Ok h' /\ Count B h' refs (plus l pend) /\ Same h h' /\ (AllPos h -> AllPos h').
Proof.
  induction l as [|p l IH]; intros h pend C A.
  - exists h. repeat split; auto.
  - destruct (retain_ok B h refs pend p C) as (h1 & E1 & C1 & S1 & P1); [apply A; now left|].
    destruct (IH h1 _ C1) as (h2 & E2 & C2 & S2 & P2).
    { intros q I. apply (same_alive _ _ S1). apply A. now right. }
    exists h2. cbn [retain_all]. rewrite E1. cbn [obind]. split; [exact E2|]. split; [|split].
    + eapply Count_ext; [|exact C2]. intros q. unfold plus. rewrite (occ_cons q p l). lia.
    + eapply Same_trans; eauto.
    + auto.
Qed.

Lemma Same_points h h' x y : Same h h' -> points h' x y <-> points h x y.
Proof.
  intros S. pose proof (same_bd _ _ S x) as E. unfold points.
  destruct (at_ h' x) as [c'|], (at_ h x) as [c|]; cbn in E; try discriminate.
  - injection E as E. split; intros (k & K & I); inversion K; subst; eexists; split; eauto; congruence.
  - split; intros (k & K & I); discriminate.
Qed.

Lemma Same_isk h h' q k : Same h h' -> isk h q k -> isk h' q k.
Proof.
  intros S (c & E & K). pose proof (same_bd _ _ S q) as X. rewrite E in X. unfold isk.
  destruct (at_ h' q) as [c'|]; [|discriminate]. injection X as X. exists c'. split; congruence.
Qed.

Lemma Same_slots h h' x : Same h h' -> slots_at h' x = slots_at h x.
Proof.
  intros S. pose proof (same_bd _ _ S x) as E. unfold slots_at.
  destruct (at_ h' x), (at_ h x); cbn in E; try discriminate; congruence.
Qed.

(** ** Structure from the counts *)
Lemma pos_alive h p c : AllPos h -> at_ h p = Some c -> alive h p = true.
Proof. intros P E. unfold alive. rewrite E. specialize (P _ _ E). lia. Qed.

Lemma points_alive h refs pend p q :
  Count (slots_at h) h refs pend -> alive h p = true -> points h p q -> alive h q = true.
Proof.
  intros C A (c & E & I). destruct (Count_alive _ _ _ _ q C) as (c' & _ & _ & A'); auto.
  pose proof (insum_point (slots_at h) h p q A) as H. unfold slots_at at 1 in H. rewrite E in H.
  apply occ_in in I. lia.
Qed.

Lemma inv_points h refs pend p q : Inv h refs pend -> points h p q -> exists c, at_ h q = Some c.
Proof.
  intros V P. assert (A : alive h q = true).
  { pose proof P as (c & E & I). eapply points_alive; [apply V| |exact P]. eapply pos_alive; eauto. apply V. }
  unfold alive in A. destruct (at_ h q); [eauto|discriminate].
Qed.

Lemma inv_contains h refs pend p q c : Inv h refs pend -> at_ h p = Some c -> contains h p q -> exists c', at_ h q = Some c'.
Proof.
  intros V E K. revert c E. induction K as [p|p r q P K IH]; intros c E; [eauto|].
  destruct (inv_points _ _ _ _ _ V P) as (c' & E'). eauto.
Qed.

Lemma typed_finish h refs pend :
  Count (slots_at h) h refs pend -> AllPos h ->
  (forall p c q k cq, at_ h p = Some c -> In (q, k) (links (bd c)) -> at_ h q = Some cq -> kind_of (bd cq) = k) ->
  typed h.
Proof.
  intros C P K p c q k E I. 
  assert (A : alive h q = true).
  { eapply points_alive; [exact C|eapply pos_alive; eauto|]. exists c. split; auto. eapply links_in; eauto. }
  unfold alive in A. destruct (at_ h q) as [cq|] eqn:Eq; [|discriminate]. exists cq. split; eauto.
Qed.

Lemma isk_at h q k : isk h q k -> exists c, at_ h q = Some c.
Proof. intros (c & E & _). eauto. Qed.

(** ** A new cell *)
Definition fresh_heap (h : heap) (b : body) : heap := h ++ [Some (mkCell 1 b)].

Lemma points_lt h refs pend p q : Inv h refs pend -> points h p q -> q < length h.
Proof. intros V P. destruct (inv_points _ _ _ _ _ V P) as (c & E). eapply at_lt; eauto. Qed.

Lemma fresh_points h b x y : points (fresh_heap h b) x y <-> (x <> length h /\ points h x y) \/ (x = length h /\ In y (slots b)).
Proof.
  unfold points, fresh_heap. rewrite at_snoc. destruct (Nat.eqb_spec x (length h)) as [->|N].
  - split.
    + intros (c & E & I). inversion E; subst. right. auto.
    + intros [[X _]|[_ I]]; [congruence|]. eexists. split; [reflexivity|]. exact I.
  - split.
    + intros P. left. auto.
    + intros [[_ P]|[X _]]; [auto|congruence].
Qed.

Lemma fresh_contains h refs pend b x y :
  Inv h refs pend -> (forall q, In q (slots b) -> q < length h) ->
  contains (fresh_heap h b) x y -> x < length h -> contains h x y /\ y <= length h.
Proof.
  intros V S K. induction K as [x|x r y P K IH]; intros L; [split; [constructor|lia]|].
  apply fresh_points in P. destruct P as [[_ P]|[E _]]; [|lia].
  pose proof (points_lt _ _ _ _ _ V P). destruct (IH H) as (K' & L'). split; auto. eapply con_step; eauto.
Qed.

Lemma fresh_acyclic h refs pend b :
  Inv h refs pend -> (forall q, In q (slots b) -> q < length h) -> acyclic (fresh_heap h b).
Proof.
  intros V S p q P K. apply fresh_points in P. destruct P as [[N P]|[-> I]].
  - pose proof (points_lt _ _ _ _ _ V P) as L. destruct (fresh_contains _ _ _ _ _ _ V S K L).
    eapply (inv_acy _ _ _ V); eauto.
  - pose proof (S _ I) as L. destruct (fresh_contains _ _ _ _ _ _ V S K L) as (K' & _).
    assert (X : forall a z, contains h a z -> a < length h -> z < length h).
    { intros a z KK. induction KK; auto. intros. apply IHKK. eapply points_lt; eauto. }
    specialize (X _ _ K' L). lia.
Qed.

Record Grown (h h' : heap) (b : body) : Prop := {
  gr_len : length h' = S (length h);
  gr_new : exists c, at_ h' (length h) = Some c /\ bd c = b;
  gr_old : forall q, q <> length h -> option_map bd (at_ h' q) = option_map bd (at_ h q) }.

Lemma alloc_ok h refs pend b :
  Inv h refs pend -> (forall q k, In (q, k) (links b) -> isk h q k) ->
  exists h', retain_all (fresh_heap h b) (slots b) = Ok h' /\ Inv h' (plus [length h] refs) pend /\ Grown h h' b.
Proof.
  intros V T.
  assert (S : forall q, In q (slots b) -> exists c, at_ h q = Some c /\ q < length h).
  { intros q I. rewrite <- links_slots in I. apply in_map_iff in I. destruct I as ((q', k) & E & I). cbn in E. subst q'.
    destruct (T _ _ I) as (c & E & _). exists c. split; auto. eapply at_lt; eauto. }
  assert (B0 : slots_at h (length h) = []) by (unfold slots_at; now rewrite at_ge).
  pose proof (Count_alloc _ _ _ _ b (inv_count _ _ _ V) B0) as C1. fold (fresh_heap h b) in C1.
  assert (P1 : AllPos (fresh_heap h b)).
  { intros p c E. unfold fresh_heap in E. rewrite at_snoc in E. destruct (Nat.eqb_spec p (length h)).
    - inversion E; subst. reflexivity.
    - eapply (inv_pos _ _ _ V); eauto. }
  destruct (retain_all_ok _ _ (slots b) _ _ C1) as (h' & E' & C' & Sm & P').
  { intros q I. destruct (S _ I) as (c & E & L). unfold alive, fresh_heap. rewrite at_snoc.
    destruct (Nat.eqb_spec q (length h)); [lia|]. rewrite E. pose proof (inv_pos _ _ _ V _ _ E). lia. }
  specialize (P' P1).
  assert (N : exists c, at_ h' (length h) = Some c /\ bd c = b).
  { pose proof (same_bd _ _ Sm (length h)) as X. unfold fresh_heap in X. rewrite at_snoc, Nat.eqb_refl in X.
    destruct (at_ h' (length h)) as [c|]; [|discriminate]. injection X as X. eauto. }
  assert (O : forall q, q <> length h -> option_map bd (at_ h' q) = option_map bd (at_ h q)).
  { intros q Q. rewrite (same_bd _ _ Sm q). unfold fresh_heap. rewrite at_snoc.
    destruct (Nat.eqb_spec q (length h)); [congruence|reflexivity]. }
  assert (CC : Count (slots_at h') h' (plus [length h] refs) pend).
  { destruct N as (c & Ec & Kc).
    apply (Count_move (slots_at h) _ _ _ _ (length h) (slots b) C').
    - eapply pos_alive; eauto.
    - intros x X. specialize (O _ X). unfold slots_at. destruct (at_ h' x), (at_ h x); cbn in O; congruence.
    - intros q. rewrite B0. unfold slots_at. rewrite Ec, Kc. cbn. lia. }
  exists h'. split; [exact E'|]. split.
  - split; auto.
    + apply (acyclic_mono (fresh_heap h b)).
      * intros x y X. now apply (Same_points _ _ _ _ Sm).
      * eapply fresh_acyclic; eauto. intros q I. destruct (S _ I) as (? & _ & L). exact L.
    + eapply typed_finish; eauto. intros p c q k cq Ep I Eq.
      assert (H : isk h q k).
      { destruct (Nat.eq_dec p (length h)) as [->|Np].
        - destruct N as (c1 & Ec & Kc). assert (c = c1) by congruence. subst c1. apply T. now rewrite <- Kc.
        - specialize (O _ Np). rewrite Ep in O. destruct (at_ h p) as [cp|] eqn:E; [|discriminate].
          injection O as O. eapply (inv_typed _ _ _ V); eauto. now rewrite <- O. }
      destruct H as (c0 & E0 & K0). pose proof (at_lt _ _ _ E0).
      specialize (O q ltac:(lia)). rewrite Eq, E0 in O. injection O as O. congruence.
  - split; auto. rewrite (same_len _ _ Sm). unfold fresh_heap. rewrite app_length. cbn. lia.
Qed.

(** ** Releasing a reference of the program *)
Lemma released_inv h refs pend h' :
  Inv h refs pend -> forall refs', Count (slots_at h) h' refs' pend -> Less h h' -> Inv h' refs' pend.
Proof.
  intros V refs' C L.
  assert (P' : AllPos h').
  { intros q c E. destruct (less_body _ _ L _ _ E) as (c0 & E0 & K0).
    pose proof (Count_rc _ _ _ _ _ _ C E). destruct (Z.eq_dec (rc c) 0) as [Z0|Z0]; [|lia].
    pose proof (less_dead _ _ L _ _ E Z0) as X. exact (inv_pos _ _ _ V _ _ X). }
  assert (C' : Count (slots_at h') h' refs' pend).
  { eapply Count_B; [|exact C]. intros x A. unfold alive in A. unfold slots_at.
    destruct (at_ h' x) as [c'|] eqn:E; [|discriminate]. destruct (less_body _ _ L _ _ E) as (c0 & E0 & K0).
    rewrite E0. congruence. }
  split; auto.
  - eapply acyclic_mono; [|apply V]. intros x y. now apply Less_points.
  - eapply typed_finish; eauto. intros p c q k cq Ep I Eq.
    destruct (less_body _ _ L _ _ Ep) as (c0 & E0 & K0). destruct (less_body _ _ L _ _ Eq) as (cq0 & Eq0 & Kq0).
    rewrite K0 in I. destruct (inv_typed _ _ _ V _ _ _ _ E0 I) as (cc & Ec & Kc).
    rewrite Kq0. congruence.
Qed.

Lemma release_inv h refs pend p :
  Inv h (plus [p] refs) pend ->
  exists h', release (deep h) h p = Ok h' /\ Inv h' refs pend /\ Less h h' /\
    forall x, ~ contains h p x -> at_ h' x = at_ h x.
Proof.
  intros V.
  destruct (release_ok (deep h) h p (slots_at h) refs pend) as (h' & E & C & L & F).
  - unfold deep. pose proof (livecount_le h). lia.
  - eapply Count_ext; [|apply V]. intros q. unfold plus. lia.
  - intros; reflexivity.
  - exists h'. split; [exact E|]. split; [|split; [exact L|]].
    + eapply released_inv; eauto.
    + intros x N. apply F. intros q [<-|[]]. exact N.
Qed.

Lemma retain_inv h refs pend p c :
  Inv h refs pend -> at_ h p = Some c ->
  exists h', retain h p = Ok h' /\ Inv h' (plus [p] refs) pend /\ Same h h'.
Proof.
  intros V E. destruct (retain_ok (slots_at h) h refs pend p) as (h' & E' & C & S & P).
  - apply V.
  - eapply pos_alive; eauto. apply V.
  - exists h'. split; [exact E'|]. split; [|exact S].
    assert (C' : Count (slots_at h') h' (plus [p] refs) pend).
    { eapply Count_B; [intros x _; symmetry; apply (Same_slots _ _ _ S)|].
      eapply Count_ext; [|exact C]. intros q. unfold plus. lia. }
    split; auto.
    + apply P, V.
    + eapply acyclic_mono; [|apply V]. intros x y. apply (Same_points _ _ _ _ S).
    + intros a ca q k Ea I. eapply Same_isk; [exact S|].
      pose proof (same_bd _ _ S a) as X. rewrite Ea in X. destruct (at_ h a) as [c0|] eqn:E0; [|discriminate].
      injection X as X. eapply (inv_typed _ _ _ V); eauto. congruence.
Qed.

(** ** Letting go of what a field held *)
Definition hole (h : heap) (p : ptr) (R : list ptr) : ptr -> list ptr :=
  fun x => if Nat.eqb x p then R else slots_at h x.

Lemma release_hole h refs pend p c old R :
  Inv h refs pend -> at_ h p = Some c ->
  (forall q, occ q (slots (bd c)) = occ q (opt old) + occ q R) ->
  exists h1, release_opt h old = Ok h1 /\ Count (hole h p R) h1 refs pend /\ Less h h1 /\ AllPos h1 /\
    (forall x, (forall o, old = Some o -> ~ contains h o x) -> at_ h1 x = at_ h x) /\
    at_ h1 p = Some c.
Proof.
  intros V E O.
  assert (A : alive h p = true) by (eapply pos_alive; eauto; apply V).
  assert (C : Count (hole h p R) h refs (plus (opt old) pend)).
  { apply (Count_unmove _ (slots_at h) _ _ _ p); auto.
    - apply V.
    - intros x N. unfold hole. destruct (Nat.eqb_spec x p); congruence.
    - intros q. unfold hole. rewrite Nat.eqb_refl. unfold slots_at. rewrite E. apply O. }
  destruct old as [o|]; cbn [release_opt opt] in *.
  - assert (PT : points h p o).
    { exists c. split; auto. apply occ_in. rewrite O. cbn [opt]. rewrite occ_one, Nat.eqb_refl. lia. }
    destruct (release_ok (deep h) h o (hole h p R) refs pend) as (h1 & E1 & C1 & L1 & F1).
    + unfold deep. pose proof (livecount_le h). lia.
    + exact C.
    + intros q x [<-|[]] K _. unfold hole. destruct (Nat.eqb_spec x p) as [->|N]; [|reflexivity].
      exfalso. eapply (inv_acy _ _ _ V); eauto.
    + exists h1. split; [exact E1|]. split; [exact C1|]. split; [exact L1|]. split; [|split].
      * intros q cq Eq. destruct (less_body _ _ L1 _ _ Eq) as (c0 & E0 & K0).
        pose proof (Count_rc _ _ _ _ _ _ C1 Eq). destruct (Z.eq_dec (rc cq) 0) as [Z0|Z0]; [|lia].
        pose proof (less_dead _ _ L1 _ _ Eq Z0) as X. exact (inv_pos _ _ _ V _ _ X).
      * intros x N. apply F1. intros q [<-|[]]. apply N. reflexivity.
      * rewrite F1; auto. intros q [<-|[]]. eapply (inv_acy _ _ _ V); eauto.
  - exists h. split; [reflexivity|]. split; [|split; [apply Less_refl|split; [apply V|auto]]].
    eapply Count_ext; [|exact C]. intros q. reflexivity.
Qed.

(** What a store leaves: [p] holds [b]; the others that are still there hold
    what they held; what the old contents did not contain is still there. *)
Record After (h h' : heap) (p : ptr) (b : body) (old : option ptr) : Prop := {
  af_len : length h' = length h;
  af_at : exists c', at_ h' p = Some c' /\ bd c' = b;
  af_body : forall q c', q <> p -> at_ h' q = Some c' -> exists c, at_ h q = Some c /\ bd c' = bd c;
  af_keep : forall q c, q <> p -> (forall o, old = Some o -> ~ contains h o q) ->
            at_ h q = Some c -> exists c', at_ h' q = Some c' /\ bd c' = bd c }.

Lemma write_at h p c f : at_ h p = Some c -> write h p f = Ok (put h p (mkCell (rc c) (f (bd c)))).
Proof. intros E. unfold write. rewrite (get_at _ _ _ E). reflexivity. Qed.

Lemma put_rcs h p c b : at_ h p = Some c -> forall q, option_map rc (at_ (put h p (mkCell (rc c) b)) q) = option_map rc (at_ h q).
Proof.
  intros E q. destruct (Nat.eq_dec q p) as [->|N].
  - rewrite (at_put_eq _ _ _ _ E), E. reflexivity.
  - now rewrite at_put_neq.
Qed.

Lemma assign_ok h refs pend p c f b' old new R :
  Inv h refs pend -> at_ h p = Some c -> f (bd c) = b' -> kind_of b' = kind_of (bd c) ->
  (forall q, occ q (slots (bd c)) = occ q (opt old) + occ q R) ->
  (forall q, occ q (slots b') = occ q (opt new) + occ q R) ->
  (forall q k, In (q, k) (links b') -> In (q, k) (links (bd c)) \/ (new = Some q /\ isk h q k)) ->
  (forall n, new = Some n -> (exists cn, at_ h n = Some cn) /\ ~ contains h n p /\
             forall o, old = Some o -> ~ contains h o n) ->
  exists h', assign h p old f new = Ok h' /\ Inv h' refs pend /\ After h h' p b' old.
Proof.
  intros V E Fb Kb O N T G.
  destruct (release_hole h refs pend p c old R V E O) as (h1 & E1 & C1 & L1 & P1 & F1 & Ep1).
  unfold assign. rewrite E1. cbn [obind]. rewrite (write_at _ _ _ _ Ep1). cbn [obind]. rewrite Fb.
  set (h2 := put h1 p (mkCell (rc c) b')).
  assert (Len2 : length h2 = length h1) by apply upd_length.
  assert (E2p : at_ h2 p = Some (mkCell (rc c) b')) by (eapply at_put_eq; eauto).
  assert (E2n : forall q, q <> p -> at_ h2 q = at_ h1 q) by (intros; now apply at_put_neq).
  assert (C2 : Count (hole h p R) h2 refs pend).
  { eapply Count_rcs; [exact Len2| |exact C1]. apply put_rcs. exact Ep1. }
  assert (P2 : AllPos h2).
  { intros q cq Eq. destruct (Nat.eq_dec q p) as [->|M].
    - rewrite E2p in Eq. inversion Eq; subst. cbn. eapply (inv_pos _ _ _ V); eauto.
    - rewrite E2n in Eq by auto. eauto. }
  assert (Anew : forall n, In n (opt new) -> alive h2 n = true).
  { intros n I. destruct new as [m|]; cbn in I; [|contradiction]. destruct I as [<-|[]].
    destruct (G m eq_refl) as ((cn & En) & Np & No).
    assert (m <> p) by (intros ->; apply Np; constructor).
    eapply pos_alive; [exact P2|]. rewrite E2n by auto. rewrite F1 by auto. exact En. }
  rewrite retain_opt_all.
  destruct (retain_all_ok _ _ _ _ _ C2 Anew) as (h3 & E3 & C3 & S3 & P3). specialize (P3 P2).
  assert (At3 : exists c', at_ h3 p = Some c' /\ bd c' = b').
  { pose proof (same_bd _ _ S3 p) as X. rewrite E2p in X. destruct (at_ h3 p) as [c'|]; [|discriminate].
    injection X as X. eauto. }
  assert (Bo : forall q c', q <> p -> at_ h3 q = Some c' -> exists c, at_ h q = Some c /\ bd c' = bd c).
  { intros q c' M Eq. pose proof (same_bd _ _ S3 q) as X. rewrite Eq, E2n in X by auto.
    destruct (at_ h1 q) as [c1|] eqn:Eq1; [|discriminate]. injection X as X.
    destruct (less_body _ _ L1 _ _ Eq1) as (c0 & E0 & K0). exists c0. split; congruence. }
  assert (Pts : forall x y, points h3 x y -> points h x y \/ (x = p /\ new = Some y)).
  { intros x y (cx & Ex & I). destruct (Nat.eq_dec x p) as [->|M].
    - destruct At3 as (c' & E' & B'). assert (cx = c') by congruence. subst cx. rewrite B' in I.
      apply occ_in in I. rewrite N in I. destruct new as [n|]; cbn [opt] in I.
      + rewrite occ_one in I. destruct (Nat.eqb_spec y n) as [Yn|Yn]; [right; split; congruence|].
        left. exists c. split; auto. apply occ_in. rewrite O. lia.
      + left. exists c. split; auto. apply occ_in. rewrite O. cbn in I. lia.
    - destruct (Bo _ _ M Ex) as (c0 & E0 & K0). left. exists c0. split; congruence. }
  exists h3. split; [exact E3|].
  assert (C3' : Count (slots_at h3) h3 refs pend).
  { apply (Count_B (fun x => if Nat.eqb x p then slots b' else slots_at h x)).
    { intros x A. unfold slots_at. destruct (Nat.eqb_spec x p) as [->|M].
      - destruct At3 as (c' & E' & B'). now rewrite E', B'.
      - unfold alive in A. destruct (at_ h3 x) as [cx|] eqn:Ex; [|discriminate].
        destruct (Bo _ _ M Ex) as (c0 & E0 & K0). rewrite E0. congruence. }
    eapply Count_move; [exact C3| | |].
    - destruct At3 as (c' & E' & B'). eapply pos_alive; eauto.
    - intros x M. unfold hole. destruct (Nat.eqb_spec x p); congruence.
    - intros q. unfold hole. rewrite Nat.eqb_refl. apply N. }
  split.
  - split; auto.
    + destruct new as [n|].
      * destruct (G n eq_refl) as (_ & Np & _). eapply (acyclic_add h h3 p n); [|exact Np|apply V].
        intros x y X. destruct (Pts _ _ X) as [Y|[Y1 Y2]]; [auto|]. right. split; congruence.
      * eapply acyclic_mono; [|apply V]. intros x y X. destruct (Pts _ _ X) as [Y|[Y1 Y2]]; [auto|congruence].
    + eapply typed_finish; eauto. intros a ca q k cq Ea I Eq.
      assert (H : isk h q k).
      { destruct (Nat.eq_dec a p) as [->|M].
        - destruct At3 as (c' & E' & B'). assert (ca = c') by congruence. subst ca. rewrite B' in I.
          destruct (T _ _ I) as [I'|[_ H]]; [|exact H]. eapply (inv_typed _ _ _ V); eauto.
        - destruct (Bo _ _ M Ea) as (c0 & E0 & K0). eapply (inv_typed _ _ _ V); eauto. now rewrite <- K0. }
      destruct H as (c0 & E0 & K0). destruct (Nat.eq_dec q p) as [->|M].
      * destruct At3 as (c' & E' & B'). assert (cq = c') by congruence. subst. congruence.
      * destruct (Bo _ _ M Eq) as (c1 & E1' & K1). congruence.
  - split; auto.
    + rewrite (same_len _ _ S3), Len2. apply (less_len _ _ L1).
    + intros q cq M No Eq. pose proof (same_bd _ _ S3 q) as X. rewrite E2n, F1, Eq in X by auto.
      destruct (at_ h3 q) as [c'|]; [|discriminate]. injection X as X. eauto.
Qed.

(** A store that changes no counted pointer. *)
Lemma write_ok h refs pend p c f b' :
  Inv h refs pend -> at_ h p = Some c -> f (bd c) = b' -> kind_of b' = kind_of (bd c) ->
  links b' = links (bd c) ->
  exists h', write h p f = Ok h' /\ Inv h' refs pend /\ After h h' p b' None.
Proof.
  intros V E Fb Kb Lb.
  assert (SL : slots b' = slots (bd c)) by (now rewrite <- !links_slots, Lb).
  destruct (assign_ok h refs pend p c f b' None None (slots (bd c)) V E Fb Kb) as (h' & E' & V' & A').
  - reflexivity.
  - intros q. rewrite SL. reflexivity.
  - intros q k I. left. congruence.
  - discriminate.
  - exists h'. split; [|split; auto]. unfold assign in E'. cbn [release_opt obind] in E'.
    rewrite (write_at _ _ _ _ E) in *. cbn [obind retain_opt] in E'. exact E'.
Qed.

(** A store that forgets the pointers the cell held: they are never released. *)
Lemma lose_ok h refs pend p c f b' :
  Inv h refs pend -> at_ h p = Some c -> f (bd c) = b' -> kind_of b' = kind_of (bd c) ->
  links b' = [] ->
  exists h', write h p f = Ok h' /\ Inv h' refs (plus (slots (bd c)) pend) /\ After h h' p b' None.
Proof.
  intros V E Fb Kb Lb. rewrite (write_at _ _ _ _ E), Fb. eexists. split; [reflexivity|].
  set (h' := put h p _).
  assert (Ep : at_ h' p = Some (mkCell (rc c) b')) by (eapply at_put_eq; eauto).
  assert (En : forall q, q <> p -> at_ h' q = at_ h q) by (intros; now apply at_put_neq).
  assert (L : length h' = length h) by apply upd_length.
  assert (P' : AllPos h').
  { intros q cq Eq. destruct (Nat.eq_dec q p) as [->|M].
    - rewrite Ep in Eq. inversion Eq; subst. cbn. eapply (inv_pos _ _ _ V); eauto.
    - rewrite En in Eq by auto. eapply (inv_pos _ _ _ V); eauto. }
  assert (Pts : forall x y, points h' x y -> points h x y).
  { intros x y (cx & Ex & I). destruct (Nat.eq_dec x p) as [->|M].
    - rewrite Ep in Ex. inversion Ex; subst cx. cbn in I. rewrite <- links_slots, Lb in I. destruct I.
    - rewrite En in Ex by auto. exists cx. auto. }
  assert (C' : Count (slots_at h') h' refs (plus (slots (bd c)) pend)).
  { eapply Count_rcs; [exact L| |]. { exact (put_rcs h p c b' E). }
    apply (Count_unmove _ (slots_at h) _ _ _ p); [apply V|eapply pos_alive; eauto; apply V| |].
    - intros x M. unfold slots_at. now rewrite En.
    - intros q. unfold slots_at. rewrite Ep, E. cbn [bd]. rewrite <- (links_slots b'), Lb. cbn. lia. }
  split.
  - split; auto.
    + eapply acyclic_mono; [exact Pts|apply V].
    + eapply typed_finish; eauto. intros a ca q k cq Ea I Eq.
      destruct (Nat.eq_dec a p) as [->|M].
      * rewrite Ep in Ea. inversion Ea; subst ca. cbn in I. rewrite Lb in I. destruct I.
      * rewrite En in Ea by auto. destruct (inv_typed _ _ _ V _ _ _ _ Ea I) as (c0 & E0 & K0).
        destruct (Nat.eq_dec q p) as [->|Mq].
        -- rewrite Ep in Eq. inversion Eq; subst cq. cbn. congruence.
        -- rewrite En in Eq by auto. congruence.
  - split; auto.
    + exists (mkCell (rc c) b'). split; [exact Ep|reflexivity].
    + intros q c' M Eq. rewrite En in Eq by auto. eauto.
    + intros q cq M _ Eq. rewrite En by auto. eauto.
Qed.
