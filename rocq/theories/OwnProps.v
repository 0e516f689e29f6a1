(** C94 and C95: lifetime and contents of values, properties, objects and
    filters. *)
From Coq Require Import String.
From Verif Require Import Common CommonFacts OwnModel OwnSpec OwnProofs OwnFacts OwnSteps OwnComp OwnLists OwnValues OwnSafe.
Local Open Scope string_scope.
Local Open Scope list_scope.
Local Open Scope nat_scope.

Definition none : ptr -> nat := fun _ => 0.

Lemma Inv_start : Inv (hp start) (H start) none.
Proof.
  split.
  - intros q. cbn. unfold at_. destruct q; reflexivity.
  - intros p c E. unfold at_ in E. destruct p; discriminate.
  - intros p q (c & E & _). unfold at_ in E. destruct p; discriminate.
  - intros p c q k E. unfold at_ in E. destruct p; discriminate.
Qed.

Lemma run_ok also l : forall s pend, Inv (hp s) (H s) pend -> careful also s l ->
  exists s' pend', run s l = Ok s' /\ Inv (hp s') (H s') pend' /\
    ((forall s o, also s o -> keeps s o) -> pend' = pend).
Proof.
  induction l as [|o l IH]; intros s pend V C.
  - exists s, pend. auto.
  - cbn [careful] in C. destruct C as (F & A & N). destruct (step_ok s pend o V F) as (s1 & p1 & E1 & _ & V1 & K1).
    destruct (IH s1 p1 V1 (N s1 E1)) as (s' & p' & E' & V' & K'). exists s', p'. cbn [run]. rewrite E1. cbn [obind].
    split; auto. split; auto. intros X. rewrite K'; auto.
Qed.

Lemma reachable_at s pend p : Inv (hp s) (H s) pend -> reachable s p -> exists_at (hp s) p.
Proof.
  intros V (r & I & K). apply inside_contains in K.
  destruct (Count_alive _ _ _ _ r (inv_count _ _ _ V)) as (c & E & _).
  { apply occ_in in I. unfold H. lia. }
  destruct (inv_contains _ _ _ r p c V E K) as (c' & E'). exists (bd c'). apply holds_at. eauto.
Qed.

Lemma pred_root h refs : Inv h refs none -> forall n q seen c,
  at_ h q = Some c -> NoDup (q :: seen) -> (forall x, In x seen -> contains h q x) ->
  (forall x, In x seen -> x < length h) -> length h < n + length seen ->
  exists r, 0 < refs r /\ contains h r q.
Proof.
  intros V. induction n as [|n IH]; intros q seen c E N K B L.
  - exfalso. assert (X : length seen <= length (seq 0 (length h))).
    { apply NoDup_incl_length; [now inversion N|]. intros x I. apply in_seq. specialize (B x I). lia. }
    rewrite seq_length in X. lia.
  - pose proof (inv_count _ _ _ V q) as C. rewrite E in C. pose proof (inv_pos _ _ _ V _ _ E) as P.
    destruct (refs q) as [|k] eqn:R; [|exists q; split; [lia|constructor]].
    assert (X : 0 < insum (slots_at h) h q) by (unfold none in C; lia).
    apply sum_pos in X. destruct X as (x & Ix & Px). destruct (alive h x) eqn:Al; [|lia].
    assert (Pt : points h x q).
    { apply occ_in in Px. unfold slots_at in Px. destruct (at_ h x) as [cx|] eqn:Ex; [|contradiction]. exists cx. auto. }
    destruct Pt as (cx & Ex & Sx). assert (Pt : points h x q) by (exists cx; auto).
    destruct (IH x (q :: seen) cx Ex) as (r & Rr & Kr).
    + constructor; [|exact N]. intros [->|I].
      * apply (inv_acy _ _ _ V x x Pt). constructor.
      * apply (inv_acy _ _ _ V x q Pt). apply K. exact I.
    + intros y [<-|I]; [now apply contains_one|]. econstructor 2; [exact Pt|]. auto.
    + intros y [<-|I]; auto. eapply at_lt; eauto.
    + cbn. lia.
    + exists r. split; auto. eapply contains_trans; [exact Kr|]. now apply contains_one.
Qed.

Lemma exact_at s p : Inv (hp s) (H s) none -> exists_at (hp s) p -> reachable s p.
Proof.
  intros V (b & X). apply holds_at in X. destruct X as (c & E & _).
  destruct (pred_root _ _ V (S (length (hp s))) p [] c E) as (r & R & K).
  - constructor; [easy|constructor].
  - easy.
  - easy.
  - cbn. lia.
  - exists r. split; [apply occ_in; exact R|now apply inside_contains].
Qed.

(** ** C94 *)

(** A careful program never touches freed memory and no assertion fails. *)
Theorem C94_safe_partial : forall l, careful (fun _ _ => True) start l -> exists s, run start l = Ok s.
Proof.
  intros l C. destruct (run_ok _ l start none Inv_start C) as (s & _ & E & _). eauto.
Qed.
Print Assumptions C94_safe_partial.

(** What it can reach is still there. *)
Theorem C94_kept_partial : forall l s p, careful (fun _ _ => True) start l -> run start l = Ok s ->
  reachable s p -> exists_at (hp s) p.
Proof.
  intros l s p C E R. destruct (run_ok _ l start none Inv_start C) as (s' & pend & E' & V & _).
  assert (s' = s) by congruence. subst. eapply reachable_at; eauto.
Qed.
Print Assumptions C94_kept_partial.

(** And when it stores no string or bytes over a property or object, exactly
    what it can reach is there. *)
Theorem C94_exact_partial : forall l s p, careful keeps start l -> run start l = Ok s ->
  (exists_at (hp s) p <-> reachable s p).
Proof.
  intros l s p C E. destruct (run_ok _ l start none Inv_start C) as (s' & pend & E' & V & K).
  assert (s' = s) by congruence. subst. rewrite (K (fun _ _ X => X)) in V. split.
  - now apply exact_at.
  - eapply reachable_at; eauto.
Qed.
Print Assumptions C94_exact_partial.

(** In particular, once it has released everything nothing is left. *)
Theorem C94_empty_partial : forall l s p, careful keeps start l -> run start l = Ok s ->
  held s = [] -> ~ exists_at (hp s) p.
Proof.
  intros l s p C E N X. apply (C94_exact_partial l s p C E) in X. destruct X as (r & I & _). rewrite N in I. contradiction.
Qed.
Print Assumptions C94_empty_partial.

(** ** C95 *)

(** Every careful call does what it says and leaves everything else alone. *)
Theorem C95_effect_partial : forall l s o, careful (fun _ _ => True) start l -> run start l = Ok s -> fine s o ->
  exists s', step s o = Ok s' /\ effect s o s'.
Proof.
  intros l s o C E F. destruct (run_ok _ l start none Inv_start C) as (s' & pend & E' & V & _).
  assert (s' = s) by congruence. subst. destruct (step_ok s pend o V F) as (s1 & p1 & E1 & X & _). eauto.
Qed.
Print Assumptions C95_effect_partial.

(** ** Witnesses: a checker for histories *)
Definition mem (x : ptr) (l : list ptr) : bool := existsb (Nat.eqb x) l.

Lemma mem_in x l : mem x l = true <-> In x l.
Proof.
  unfold mem. rewrite existsb_exists. split.
  - intros (y & I & E). apply Nat.eqb_eq in E. now subst.
  - intros I. exists x. split; auto. apply Nat.eqb_refl.
Qed.

Fixpoint grow (f : ptr -> list ptr) (n : nat) (l : list ptr) : list ptr :=
  match n with O => l | S n' => grow f n' (nodup Nat.eq_dec (l ++ flat_map f l)) end.

Definition closedb (f : ptr -> list ptr) (l : list ptr) : bool := forallb (fun x => forallb (fun y => mem y l) (f x)) l.

Definition outb (h : heap) (p x : ptr) : bool :=
  let l := grow (slots_at h) (length h) [p] in closedb (slots_at h) l && mem p l && negb (mem x l).

Lemma outb_ok h p x : outb h p x = true -> ~ inside h p x.
Proof.
  unfold outb. generalize (grow (slots_at h) (length h) [p]). intros l. rewrite !andb_true_iff, negb_true_iff. intros ((C & P) & N) K.
  assert (X : In x l).
  { apply mem_in in P. clear N. apply inside_contains in K. induction K as [p|p q x Pt K IH]; auto. apply IH.
    destruct Pt as (c & E & I). unfold closedb in C. rewrite forallb_forall in C. specialize (C p P).
    rewrite forallb_forall in C. apply mem_in. apply C. unfold slots_at. now rewrite E. }
  apply mem_in in X. congruence.
Qed.

Definition next_at (h : heap) (x : ptr) : list ptr :=
  match at_ h x with Some c => match bd c with Property _ _ (Some q) => [q] | _ => [] end | None => [] end.

Definition chain (h : heap) (f : ptr) : list ptr := grow (next_at h) (length h) [f].
Definition chained (h : heap) (f : ptr) : bool := closedb (next_at h) (chain h f) && mem f (chain h f).

Lemma chain_ok h f x : chained h f = true -> inlist h f x -> In x (chain h f).
Proof.
  unfold chained. set (l := chain h f). rewrite andb_true_iff. intros (C & P) I. apply mem_in in P.
  clearbody l. revert P. induction I as [p|p nm v q x A I IH]; intros P; auto. apply IH.
  unfold closedb in C. rewrite forallb_forall in C. specialize (C p P). rewrite forallb_forall in C. apply mem_in. apply C.
  apply holds_at in A. destruct A as (c & E & B). unfold next_at. rewrite E, B. now left.
Qed.

Definition body_at (h : heap) (p : ptr) : option body := option_map bd (at_ h p).

Lemma body_holds h p b : body_at h p = Some b -> holds h p b.
Proof.
  unfold body_at. intros X. apply holds_at. destruct (at_ h p) as [c|]; [|discriminate]. injection X as <-. eauto.
Qed.

Definition kindb (a b : kind) : bool :=
  match a, b with KValue, KValue | KProperty, KProperty | KObject, KObject | KFilter, KFilter => true | _, _ => false end.
Definition isb (h : heap) (k : kind) (p : ptr) : bool :=
  match body_at h p with Some b => kindb (kind_of b) k | None => false end.

Lemma isb_ok h k p : isb h k p = true -> is h p k.
Proof.
  unfold isb. destruct (body_at h p) as [b|] eqn:E; [|discriminate]. intros K. exists b. split; [now apply body_holds|].
  destruct (kind_of b), k; cbn in K; congruence.
Qed.

Definition optb {A} (f : A -> bool) (o : option A) : bool := match o with Some x => f x | None => true end.

Lemma maybeb_ok h k o : optb (isb h k) o = true -> maybe h o k.
Proof. intros X q ->. now apply isb_ok. Qed.

Definition goodb (h : heap) (d : datum) : bool :=
  match d with PropertyRef q => optb (isb h KProperty) q | ObjectRef q => optb (isb h KObject) q | _ => true end.

Lemma goodb_ok h d : goodb h d = true -> good_datum h d.
Proof. destruct d; cbn; auto; apply maybeb_ok. Qed.

Definition namedb (h : heap) (p : ptr) : bool :=
  match body_at h p with Some (Property (Some _) _ _) => true | _ => false end.

Lemma namedb_ok h p : namedb h p = true -> named h p.
Proof.
  unfold namedb. destruct (body_at h p) as [[|[nm|] v nx| | |]|] eqn:E; try discriminate. intros _. exists nm, v, nx. now apply body_holds.
Qed.

Definition legalb (s : state) (o : op) : bool :=
  let h := hp s in
  match o with
  | ONewValue d | ONewPropData _ d => goodb h d
  | OSetDatum v d => isb h KValue v && goodb h d
  | OCopy dst src => isb h KValue dst && isb h KValue src
  | ONewProperty _ v | ONewRelation _ v => optb (isb h KValue) v
  | OSetPropName p _ => isb h KProperty p
  | OSetValue p v => isb h KProperty p && optb (isb h KValue) v
  | OSetNext p n | OAppend p n => isb h KProperty p && optb (isb h KProperty) n
  | OSetPropData p d | OAppendData p _ d => isb h KProperty p && goodb h d
  | ONewObject _ _ => true
  | OSetObjName o _ => isb h KObject o
  | OSetProperties o ps => isb h KObject o && optb (isb h KProperty) ps
  | OSetProperty o p => isb h KObject o && isb h KProperty p
  | OSetPropertyValue o _ v => isb h KObject o && isb h KValue v
  | OSetPropertyData o _ d => isb h KObject o && goodb h d
  | OSetChildren o n | OSetSibling o n | OSetParent o n => isb h KObject o && optb (isb h KObject) n
  | ONewLogic _ l r => optb (isb h KFilter) l && optb (isb h KFilter) r
  | ORetain p => match body_at h p with Some _ => true | None => false end
  | ORelease p => mem p (held s)
  end.

Lemma legalb_ok s o : legalb s o = true -> legal s o.
Proof.
  destruct o; cbn [legalb legal]; rewrite ?andb_true_iff; intros X;
    repeat match goal with X : _ /\ _ |- _ => destruct X end;
    repeat match goal with |- _ /\ _ => split end;
    auto using isb_ok, maybeb_ok, goodb_ok.
  - destruct (body_at (hp s) p) as [b|] eqn:E; [|discriminate]. exists b. now apply body_holds.
  - now apply mem_in.
Qed.

Fixpoint lawfulb (s : state) (l : list op) : bool :=
  match l with
  | [] => true
  | o :: l' => legalb s o && match step s o with Ok s' => lawfulb s' l' | _ => true end
  end.

Lemma lawfulb_ok l : forall s, lawfulb s l = true -> lawful s l.
Proof.
  induction l as [|o l IH]; intros s X; [exact I|]. cbn [lawfulb lawful] in *. apply andb_true_iff in X. destruct X as (A & B).
  split; [now apply legalb_ok|]. intros s' E. rewrite E in B. auto.
Qed.

Definition replacesb (h : heap) (p : ptr) (old new : option ptr) : bool :=
  optb (fun n => outb h n p && optb (fun o => outb h o n) old) new.

Lemma replacesb_ok h p old new : replacesb h p old new = true -> replaces h p old new.
Proof.
  intros X n ->. cbn in X. apply andb_true_iff in X. destruct X as (A & B). split; [now apply outb_ok|].
  intros o ->. now apply outb_ok.
Qed.

(** The calls used below. *)
Definition fineb (s : state) (o : op) : bool :=
  let h := hp s in
  match o with
  | ONewValue d | ONewPropData _ d => goodb h d
  | OSetDatum v d => match body_at h v with
                     | Some (Value d0) => goodb h d && replacesb h v (pointer d0) (pointer d) | _ => false end
  | ONewObject _ _ => true
  | ONewProperty _ v | ONewRelation _ v => optb (isb h KValue) v
  | ONewLogic _ l r => optb (isb h KFilter) l && optb (isb h KFilter) r
  | OSetValue p v => match body_at h p with
                     | Some (Property _ old _) => optb (isb h KValue) v && replacesb h p old v | _ => false end
  | OSetNext p n => match body_at h p with
                     | Some (Property _ _ old) => optb (isb h KProperty) n && replacesb h p old n | _ => false end
  | OSetChildren o n => match body_at h o with
                     | Some (Object _ _ _ old _ _) => optb (isb h KObject) n && replacesb h o old n | _ => false end
  | OSetParent o n => isb h KObject o
  | OAppendData p _ d => isb h KProperty p && goodb h d && match pointer d with None => true | _ => false end
  | OSetProperty o p =>
      match body_at h o with
      | Some (Object _ _ pr _ _ _) =>
          isb h KProperty p && outb h p o && chained h p &&
          optb (fun f => namedb h p && chained h f &&
            forallb (fun x => namedb h x && outb h p x && forallb (fun y => outb h x y) (chain h p)) (chain h f)) pr
      | _ => false
      end
  | OSetPropertyValue o _ v =>
      match body_at h o with
      | Some (Object _ _ pr _ _ _) =>
          isb h KValue v && outb h v o &&
          optb (fun f => chained h f &&
            forallb (fun x => namedb h x && outb h v x &&
               match body_at h x with Some (Property _ (Some old) _) => outb h old v | _ => true end) (chain h f)) pr
      | _ => false
      end
  | OSetPropertyData o _ d =>
      match body_at h o with
      | Some (Object _ _ pr _ _ _) =>
          goodb h d && match pointer d with None => true | _ => false end &&
          optb (fun f => chained h f && forallb (namedb h) (chain h f)) pr
      | _ => false
      end
  | ORelease p => mem p (held s)
  | _ => false
  end.

Lemma holds_fun h p b b' : holds h p b -> holds h p b' -> b = b'.
Proof. intros (k & A) (k' & B). congruence. Qed.

Lemma body_back h p b : holds h p b -> body_at h p = Some b.
Proof. intros X. apply holds_at in X. destruct X as (c & E & <-). unfold body_at. now rewrite E. Qed.

Lemma fineb_ok s o : fineb s o = true -> fine s o.
Proof.
  destruct o; cbn [fineb fine]; try discriminate; intros X.
  - now apply goodb_ok.
  - destruct (body_at (hp s) v) as [[d0| | | |]|] eqn:E; try discriminate. apply andb_true_iff in X. destruct X as (A & B).
    exists d0. split; [now apply body_holds|]. split; [now apply goodb_ok|now apply replacesb_ok].
  - now apply maybeb_ok.
  - destruct (body_at (hp s) p) as [[|nm old nx| | |]|] eqn:E; try discriminate. apply andb_true_iff in X. destruct X as (A & B).
    exists nm, old, nx. split; [now apply body_holds|]. split; [now apply maybeb_ok|now apply replacesb_ok].
  - destruct (body_at (hp s) p) as [[|nm v old| | |]|] eqn:E; try discriminate. apply andb_true_iff in X. destruct X as (A & B).
    exists nm, v, old. split; [now apply body_holds|]. split; [now apply maybeb_ok|now apply replacesb_ok].
  - now apply goodb_ok.
  - rewrite !andb_true_iff in X. destruct X as ((A & B) & C). split; [now apply isb_ok|]. split; [now apply goodb_ok|].
    intros n x Y. rewrite Y in C. discriminate.
  - exact I.
  - destruct (body_at (hp s) o) as [[| |nm m pr ch nx pa| |]|] eqn:E; try discriminate.
    rewrite !andb_true_iff in X. destruct X as (((A & B) & Cp) & D). exists nm, m, pr, ch, nx, pa.
    split; [now apply body_holds|]. split; [now apply isb_ok|]. split; [now apply outb_ok|].
    destruct pr as [f|]; [|split; intros; discriminate]. cbn [optb] in D. rewrite !andb_true_iff in D. destruct D as ((D1 & D2) & D3).
    split; [intros; now apply namedb_ok|]. intros f0 x Q I. injection Q as <-. rewrite forallb_forall in D3.
    specialize (D3 x (chain_ok _ _ _ D2 I)). rewrite !andb_true_iff in D3. destruct D3 as ((F1 & F2) & F3).
    split; [now apply namedb_ok|]. split; [now apply outb_ok|]. intros y Iy. rewrite forallb_forall in F3.
    apply outb_ok. apply F3. now apply chain_ok.
  - destruct (body_at (hp s) o) as [[| |nm' m pr ch nx pa| |]|] eqn:E; try discriminate.
    rewrite !andb_true_iff in X. destruct X as ((A & B) & D). exists nm', m, pr, ch, nx, pa.
    split; [now apply body_holds|]. split; [now apply isb_ok|]. split; [now apply outb_ok|].
    destruct pr as [f|]; [|split; intros; discriminate]. cbn [optb] in D. rewrite !andb_true_iff in D. destruct D as (D2 & D3).
    rewrite forallb_forall in D3. split.
    + intros f0 x Q I. injection Q as <-. specialize (D3 x (chain_ok _ _ _ D2 I)). rewrite !andb_true_iff in D3.
      destruct D3 as ((F1 & F2) & F3). split; [now apply namedb_ok|now apply outb_ok].
    + intros f0 x old nx' Q I Hx. injection Q as <-. specialize (D3 x (chain_ok _ _ _ D2 I)). rewrite !andb_true_iff in D3.
      destruct D3 as ((F1 & F2) & F3). rewrite (body_back _ _ _ Hx) in F3. now apply outb_ok.
  - destruct (body_at (hp s) o) as [[| |nm' m pr ch nx pa| |]|] eqn:E; try discriminate.
    rewrite !andb_true_iff in X. destruct X as ((A & B) & D). exists nm', m, pr, ch, nx, pa.
    split; [now apply body_holds|]. split; [now apply goodb_ok|]. split; [|split; intros q *; intros Y; rewrite Y in B; discriminate].
    intros f x -> I. cbn [optb] in D. rewrite andb_true_iff in D. destruct D as (D2 & D3).
    rewrite forallb_forall in D3. apply namedb_ok. apply D3. now apply chain_ok.
  - destruct (body_at (hp s) o) as [[| |nm m pr old nx pa| |]|] eqn:E; try discriminate. apply andb_true_iff in X. destruct X as (A & B).
    exists nm, m, pr, old, nx, pa. split; [now apply body_holds|]. split; [now apply maybeb_ok|now apply replacesb_ok].
  - now apply isb_ok.
  - now apply maybeb_ok.
  - apply andb_true_iff in X. destruct X as (A & B). split; now apply maybeb_ok.
  - now apply mem_in.
Qed.

Definition keepsb (s : state) (o : op) : bool :=
  match o with OSetDatum v (Buffer _ (Some _)) => false | _ => true end.

Lemma keepsb_ok s o : keepsb s o = true -> keeps s o.
Proof. destruct o; cbn; auto. destruct d as [| |t [b|]| |]; auto. discriminate. Qed.

Fixpoint carefulb (also : state -> op -> bool) (s : state) (l : list op) : bool :=
  match l with
  | [] => true
  | o :: l' => fineb s o && also s o && match step s o with Ok s' => carefulb also s' l' | _ => true end
  end.

Lemma carefulb_ok (also : state -> op -> bool) (P : state -> op -> Prop) :
  (forall s o, also s o = true -> P s o) -> forall l s, carefulb also s l = true -> careful P s l.
Proof.
  intros K. induction l as [|o l IH]; intros s X; [exact I|]. cbn [carefulb careful] in *. rewrite !andb_true_iff in X.
  destruct X as ((A & B) & C). split; [now apply fineb_ok|]. split; [auto|]. intros s' E. rewrite E in C. auto.
Qed.

(** An object with three properties, one of them replaced by a list of two,
    a child with its parent, a value holding the object, and a filter; then
    all is released but the value. *)
Definition sample : list op :=
  [ ONewObject (Some (bs "o")) false;                       (* 0 *)
    OSetPropertyData 0 (bs "a") (Number 1%Z 7%Z);             (* 1, 2 *)
    OSetPropertyData 0 (bs "b") (Buffer 14%Z (Some (bs "x"))); (* 3, 4 *)
    OSetPropertyData 0 (bs "c") Nothing;                    (* 5, 6 *)
    ONewPropData (Some (bs "b")) (Number 1%Z 8%Z);            (* 7, 8 *)
    OAppendData 8 (Some (bs "d")) (Number 1%Z 9%Z);           (* 9, 10 *)
    OSetProperty 0 8;
    ORelease 8;
    ONewValue (Number 1%Z 5%Z);                               (* 11 *)
    OSetPropertyValue 0 (bs "d") 11;
    ONewObject None true;                                   (* 12 *)
    OSetChildren 0 (Some 12);
    OSetParent 12 (Some 0);
    ORelease 12;
    ONewValue (ObjectRef (Some 0));                         (* 13 *)
    ORelease 0;
    ONewRelation 1%Z (Some 11);                               (* 14 *)
    ORelease 11;
    ONewLogic 1%Z (Some 14) (Some 14);                        (* 15 *)
    ORelease 14 ].

Definition sample_end : state := match run start sample with Ok s => s | _ => start end.

Example C94_witness : careful keeps start sample /\ run start sample = Ok sample_end /\
  held sample_end = [15; 13] /\
  map (fun p => match body_at (hp sample_end) p with Some _ => true | None => false end) (seq 0 16) =
    [true; true; true; false; false; true; true; true; true; false; true; true; true; true; true; true] /\
  (exists s, run start (sample ++ [ORelease 13; ORelease 15]) = Ok s /\ held s = [] /\ forallb (fun x => match x with None => true | Some _ => false end) (hp s) = true).
Proof.
  split; [apply (carefulb_ok keepsb keeps keepsb_ok); vm_compute; reflexivity|].
  split; [vm_compute; reflexivity|]. split; [vm_compute; reflexivity|]. split; [vm_compute; reflexivity|].
  eexists. split; [vm_compute; reflexivity|]. split; reflexivity.
Qed.

Example C95_witness : careful (fun _ _ => True) start (firstn 6 sample) /\
  exists s, run start (firstn 6 sample) = Ok s /\ fine s (OSetProperty 0 8) /\
    chain (hp s) 2 = [2; 4; 6] /\ chain (hp s) 8 = [8; 10] /\
    exists s', step s (OSetProperty 0 8) = Ok s' /\ nodup Nat.eq_dec (chain (hp s') 2) = [2; 8; 10; 6].
Proof.
  split; [apply (carefulb_ok (fun _ _ => true)); [auto|vm_compute; reflexivity]|].
  eexists. split; [vm_compute; reflexivity|]. split; [apply fineb_ok; vm_compute; reflexivity|].
  split; [vm_compute; reflexivity|]. split; [vm_compute; reflexivity|].
  eexists. split; [vm_compute; reflexivity|vm_compute; reflexivity].
Qed.

(** ** Where the code does not keep it *)

Definition text : datum := Buffer 14%Z (Some (bs "text")).

Definition leaks (s : state) : bool :=
  match held s with [] => existsb (fun x => match x with Some _ => true | None => false end) (hp s) | _ => false end.

Lemma leaks_ok s : leaks s = true -> held s = [] /\ exists p, exists_at (hp s) p.
Proof.
  unfold leaks. destruct (held s); [|discriminate]. intros X. split; auto. apply existsb_exists in X.
  destruct X as (x & I & E). destruct x as [[k b]|]; [|discriminate]. apply In_nth_error in I. destruct I as (p & I).
  exists p, b, k. exact I.
Qed.

(** rbusValue_SetString and SetBytes over a value that holds a property or an
    object lose it: SetBufferData creates a buffer without looking at what
    the value held, so the reference is never given back. *)
Theorem C94_lost_refuted : exists l s p, careful (fun _ _ => True) start l /\ run start l = Ok s /\
  held s = [] /\ exists_at (hp s) p.
Proof.
  exists [ONewProperty (Some (bs "p")) None; ONewValue (PropertyRef (Some 0)); OSetDatum 1 text; ORelease 0; ORelease 1].
  eexists. cut (forall s, leaks s = true -> exists p, held s = [] /\ exists_at (hp s) p).
  - intros X. assert (Y : leaks (mkState [Some (mkCell 1%Z (Property (Some (bs "p")) None None)); None] []) = true) by reflexivity.
    destruct (X _ Y) as (p & A & B). exists p. split; [apply (carefulb_ok (fun _ _ => true)); [auto|vm_compute; reflexivity]|].
    split; [vm_compute; reflexivity|]. split; [exact A|exact B].
  - intros s X. destruct (leaks_ok s X) as (A & p & B). exists p. auto.
Qed.
Print Assumptions C94_lost_refuted.

(** Storing back what is stored there (rbusProperty_SetValue(p,
    rbusProperty_GetValue(p)), SetNext, rbusObject_SetProperties, SetChildren
    and SetNext alike) uses freed memory when the container has the only
    reference: the setters release the old before they retain the new. *)
Theorem C94_reassign_refuted :
  (exists l, lawful start l /\ run start l = UB /\ last l (ORetain 0) = OSetValue 1 (Some 0)) /\
  (exists l, lawful start l /\ run start l = UB /\ last l (ORetain 0) = OSetNext 1 (Some 0)) /\
  (exists l, lawful start l /\ run start l = UB /\ last l (ORetain 0) = OSetProperties 1 (Some 0)) /\
  (exists l, lawful start l /\ run start l = UB /\ last l (ORetain 0) = OSetChildren 1 (Some 0)) /\
  (exists l, lawful start l /\ run start l = UB /\ last l (ORetain 0) = OSetSibling 1 (Some 0)) /\
  (exists l, lawful start l /\ run start l = UB /\ last l (ORetain 0) = OSetDatum 1 (PropertyRef (Some 0))).
Proof.
  split; [|split; [|split; [|split; [|split]]]].
  - exists [ONewValue (Number 1%Z 1%Z); ONewProperty (Some (bs "p")) (Some 0); ORelease 0; OSetValue 1 (Some 0)].
    split; [apply lawfulb_ok; vm_compute; reflexivity|]. split; vm_compute; reflexivity.
  - exists [ONewProperty (Some (bs "q")) None; ONewProperty (Some (bs "p")) None; OSetNext 1 (Some 0); ORelease 0; OSetNext 1 (Some 0)].
    split; [apply lawfulb_ok; vm_compute; reflexivity|]. split; vm_compute; reflexivity.
  - exists [ONewProperty (Some (bs "q")) None; ONewObject None false; OSetProperties 1 (Some 0); ORelease 0; OSetProperties 1 (Some 0)].
    split; [apply lawfulb_ok; vm_compute; reflexivity|]. split; vm_compute; reflexivity.
  - exists [ONewObject None false; ONewObject None false; OSetChildren 1 (Some 0); ORelease 0; OSetChildren 1 (Some 0)].
    split; [apply lawfulb_ok; vm_compute; reflexivity|]. split; vm_compute; reflexivity.
  - exists [ONewObject None false; ONewObject None false; OSetSibling 1 (Some 0); ORelease 0; OSetSibling 1 (Some 0)].
    split; [apply lawfulb_ok; vm_compute; reflexivity|]. split; vm_compute; reflexivity.
  - exists [ONewProperty (Some (bs "q")) None; ONewValue (PropertyRef (Some 0)); ORelease 0; OSetDatum 1 (PropertyRef (Some 0))].
    split; [apply lawfulb_ok; vm_compute; reflexivity|]. split; vm_compute; reflexivity.
Qed.
Print Assumptions C94_reassign_refuted.

(** rbusObject_SetPropertyValue with the value the property already has does
    the same; so does rbusObject_SetProperty with the object's only property. *)
Theorem C94_same_refuted :
  (exists l, lawful start l /\ run start l = UB /\ last l (ORetain 0) = OSetPropertyValue 0 (bs "a") 1) /\
  (exists l, lawful start l /\ run start l = UB /\ last l (ORetain 0) = OSetProperty 0 2).
Proof.
  split.
  - exists [ONewObject None false; OSetPropertyData 0 (bs "a") text; OSetPropertyValue 0 (bs "a") 1].
    split; [apply lawfulb_ok; vm_compute; reflexivity|]. split; vm_compute; reflexivity.
  - exists [ONewObject None false; OSetPropertyData 0 (bs "a") text; OSetProperty 0 2].
    split; [apply lawfulb_ok; vm_compute; reflexivity|]. split; vm_compute; reflexivity.
Qed.
Print Assumptions C94_same_refuted.

(** rbusObject_SetProperty with a property that is already first of two in
    the object ties the second one to itself: the list never ends (any later
    append or search for a missing name loops), and releasing everything
    leaves it behind. *)
Theorem C94_again_refuted :
  (exists l s p, lawful start l /\ run start l = Ok s /\ held s = [] /\ exists_at (hp s) p) /\
  (exists l, lawful start l /\ run start l = UB /\ last l (ORetain 0) = OSetPropertyData 0 (bs "c") text).
Proof.
  split.
  - exists [ONewObject None false; OSetPropertyData 0 (bs "a") text; OSetPropertyData 0 (bs "b") text; ORetain 2;
            OSetProperty 0 2; ORelease 2; ORelease 0].
    eexists. exists 4. split; [apply lawfulb_ok; vm_compute; reflexivity|]. split; [vm_compute; reflexivity|].
    split; [reflexivity|]. eexists. eexists. reflexivity.
  - exists [ONewObject None false; OSetPropertyData 0 (bs "a") text; OSetPropertyData 0 (bs "b") text; ORetain 2;
            OSetProperty 0 2; OSetPropertyData 0 (bs "c") text].
    split; [apply lawfulb_ok; vm_compute; reflexivity|]. split; vm_compute; reflexivity.
Qed.
Print Assumptions C94_again_refuted.

(** Circles are not refused: a property appended to itself, an object that
    is its own child, or an object inside a value of its own property is
    never freed. *)
Theorem C94_circle_refuted :
  (exists l s p, lawful start l /\ run start l = Ok s /\ held s = [] /\ exists_at (hp s) p /\ In (OAppend 0 (Some 0)) l) /\
  (exists l s p, lawful start l /\ run start l = Ok s /\ held s = [] /\ exists_at (hp s) p /\ In (OSetChildren 0 (Some 0)) l) /\
  (exists l s p, lawful start l /\ run start l = Ok s /\ held s = [] /\ exists_at (hp s) p /\
     In (OSetPropertyData 0 (bs "a") (ObjectRef (Some 0))) l).
Proof.
  split; [|split].
  - exists [ONewProperty (Some (bs "p")) None; OAppend 0 (Some 0); ORelease 0]. eexists. exists 0.
    split; [apply lawfulb_ok; vm_compute; reflexivity|]. split; [vm_compute; reflexivity|]. split; [reflexivity|].
    split; [eexists; eexists; reflexivity|right; now left].
  - exists [ONewObject None false; OSetChildren 0 (Some 0); ORelease 0]. eexists. exists 0.
    split; [apply lawfulb_ok; vm_compute; reflexivity|]. split; [vm_compute; reflexivity|]. split; [reflexivity|].
    split; [eexists; eexists; reflexivity|right; now left].
  - exists [ONewObject None false; OSetPropertyData 0 (bs "a") (ObjectRef (Some 0)); ORelease 0]. eexists. exists 0.
    split; [apply lawfulb_ok; vm_compute; reflexivity|]. split; [vm_compute; reflexivity|]. split; [reflexivity|].
    split; [eexists; eexists; reflexivity|right; now left].
Qed.
Print Assumptions C94_circle_refuted.

(** rbusValue_Copy from a value that holds a property or an object fails an
    assertion, after the destination has been emptied. *)
Theorem C94_copy_refuted : exists l, lawful start l /\ run start l = Err tt /\ last l (ORetain 0) = OCopy 2 1.
Proof.
  exists [ONewProperty (Some (bs "p")) None; ONewValue (PropertyRef (Some 0)); ONewValue text; OCopy 2 1].
  split; [apply lawfulb_ok; vm_compute; reflexivity|]. split; vm_compute; reflexivity.
Qed.
Print Assumptions C94_copy_refuted.

(** An object does not keep its parent: rbusObject_GetParent on a child that
    outlives the parent returns a handle to freed memory. *)
Theorem C94_parent_refuted : exists l s o nm m pr ch nx p, careful keeps start l /\ run start l = Ok s /\
  In o (held s) /\ holds (hp s) o (Object nm m pr ch nx (Some p)) /\ ~ exists_at (hp s) p.
Proof.
  exists [ONewObject None false; ONewObject None false; OSetParent 1 (Some 0); OSetChildren 0 (Some 1); ORelease 0].
  eexists. exists 1. do 5 eexists. exists 0. split; [apply (carefulb_ok keepsb keeps keepsb_ok); vm_compute; reflexivity|].
  split; [vm_compute; reflexivity|]. split; [now left|]. split; [eexists; reflexivity|].
  intros (b & k & X). vm_compute in X. discriminate.
Qed.
Print Assumptions C94_parent_refuted.

(** rbusObject_SetProperty on an object that has properties reads names: a
    property without a name (rbusProperty_Init(NULL, ...), which is allowed)
    makes it read a null pointer. *)
Theorem C95_noname_refuted :
  (exists l, lawful start l /\ run start l = UB /\ last l (ORetain 0) = OSetProperty 0 3) /\
  (exists l, lawful start l /\ run start l = UB /\ last l (ORetain 0) = OSetPropertyData 0 (bs "a") text).
Proof.
  split.
  - exists [ONewObject None false; OSetPropertyData 0 (bs "a") text; ONewProperty None None; OSetProperty 0 3].
    split; [apply lawfulb_ok; vm_compute; reflexivity|]. split; vm_compute; reflexivity.
  - exists [ONewObject None false; ONewProperty None None; OSetProperties 0 (Some 1); OSetPropertyData 0 (bs "a") text].
    split; [apply lawfulb_ok; vm_compute; reflexivity|]. split; vm_compute; reflexivity.
Qed.
Print Assumptions C95_noname_refuted.

(** rbusObject_SetProperty with a property that carries a list puts the whole
    list into the object, also where the object has properties of those
    names already: the object then has two properties of one name. *)
Theorem C95_twice_refuted : exists l s s' p q, careful (fun _ _ => True) start l /\ run start l = Ok s /\
  fine s (OSetProperty 0 6) /\ step s (OSetProperty 0 6) = Ok s' /\
  p <> q /\ inlist (hp s') 6 p /\ inlist (hp s') 6 q /\ titled (hp s') (bs "b") p /\ titled (hp s') (bs "b") q.
Proof.
  exists [ONewObject None false; OSetPropertyData 0 (bs "a") text; OSetPropertyData 0 (bs "b") text;
          ONewPropData (Some (bs "a")) text; OAppendData 6 (Some (bs "b")) text].
  eexists. eexists. exists 8, 4. split; [apply (carefulb_ok (fun _ _ => true)); [auto|vm_compute; reflexivity]|].
  split; [vm_compute; reflexivity|]. split; [apply fineb_ok; vm_compute; reflexivity|]. split; [vm_compute; reflexivity|].
  split; [discriminate|]. split; [|split; [|split]].
  - econstructor 2; [eexists; reflexivity|]. constructor.
  - econstructor 2; [eexists; reflexivity|]. econstructor 2; [eexists; reflexivity|]. constructor.
  - eexists. eexists. eexists. reflexivity.
  - eexists. eexists. eexists. reflexivity.
Qed.
Print Assumptions C95_twice_refuted.
