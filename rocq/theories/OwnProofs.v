(** Reference counting: counters equal incoming references, release keeps
    that, setters keep it. *)
From Verif Require Import Common CommonFacts OwnModel OwnSpec.
Local Open Scope nat_scope.

Definition at_ (h : heap) (p : ptr) : option cell :=
  match nth_error h p with Some (Some c) => Some c | _ => None end.

Definition occ (q : ptr) (l : list ptr) : nat := count_occ Nat.eq_dec l q.

Definition alive (h : heap) (x : ptr) : bool :=
  match at_ h x with Some c => (0 <? rc c)%Z | None => false end.

Definition insum (B : ptr -> list ptr) (h : heap) (q : ptr) : nat :=
  list_sum (map (fun x => if alive h x then occ q (B x) else 0) (seq 0 (length h))).

Definition livecount (h : heap) : nat :=
  list_sum (map (fun x => if alive h x then 1 else 0) (seq 0 (length h))).

Definition Count (B : ptr -> list ptr) (h : heap) (refs pend : ptr -> nat) : Prop :=
  forall q, match at_ h q with
            | Some c => rc c = Z.of_nat (refs q + insum B h q + pend q)
            | None => refs q + insum B h q + pend q = 0
            end.

Definition plus (l : list ptr) (f : ptr -> nat) : ptr -> nat := fun q => occ q l + f q.

Definition slots_at (h : heap) (x : ptr) : list ptr :=
  match at_ h x with Some c => slots (bd c) | None => [] end.

Definition points (h : heap) (p q : ptr) : Prop :=
  exists c, at_ h p = Some c /\ In q (slots (bd c)).

Inductive contains (h : heap) : ptr -> ptr -> Prop :=
| con_self p : contains h p p
| con_step p q x : points h p q -> contains h q x -> contains h p x.

(** ** Access *)
Lemma at_lt h p c : at_ h p = Some c -> p < length h.
Proof. unfold at_. intros E. apply nth_error_Some. intros N. now rewrite N in E. Qed.

Lemma get_at h p c : at_ h p = Some c -> get h p = Ok c.
Proof. unfold at_, get. destruct (nth_error h p) as [[?|]|]; congruence. Qed.

Lemma at_upd_eq h p x : p < length h -> at_ (upd h p x) p = x.
Proof. intros L. unfold at_. rewrite upd_nth_eq by exact L. now destruct x. Qed.

Lemma at_upd_neq h p x q : q <> p -> at_ (upd h p x) q = at_ h q.
Proof. intros N. unfold at_. rewrite upd_nth_neq; auto. Qed.

Lemma at_put_eq h p c c' : at_ h p = Some c -> at_ (put h p c') p = Some c'.
Proof. intros E. unfold put. apply at_upd_eq. eapply at_lt; eauto. Qed.

Lemma at_put_neq h p c q : q <> p -> at_ (put h p c) q = at_ h q.
Proof. apply at_upd_neq. Qed.

(** ** Sums *)
Lemma ls_cons (f : nat -> nat) a l : list_sum (map f (a :: l)) = f a + list_sum (map f l).
Proof. reflexivity. Qed.

Lemma sum_ext (f g : nat -> nat) l : (forall x, In x l -> f x = g x) -> list_sum (map f l) = list_sum (map g l).
Proof. induction l as [|a l IH]; intros E; [reflexivity|]. rewrite !ls_cons. rewrite E by now left. f_equal. apply IH. intros; apply E; now right. Qed.

Lemma sum_change (f g : nat -> nat) l p :
  NoDup l -> In p l -> (forall x, x <> p -> f x = g x) ->
  list_sum (map f l) + g p = list_sum (map g l) + f p.
Proof.
  induction l as [|a l IH]; intros ND I E; [destruct I|]. inversion ND; subst. rewrite !ls_cons.
  destruct (Nat.eq_dec a p) as [->|N].
  - rewrite (sum_ext f g l). { lia. } intros x J. apply E. intros ->. auto.
  - destruct I as [I|I]; [congruence|]. rewrite (E a N). pose proof (IH H2 I E). lia.
Qed.

Lemma sum_le_one (f : nat -> nat) l x : In x l -> f x <= list_sum (map f l).
Proof. induction l as [|a l IH]; intros I; [destruct I|]. rewrite ls_cons. destruct I as [->|I]; [lia|]. specialize (IH I). lia. Qed.

Lemma sum_pos (f : nat -> nat) l : 0 < list_sum (map f l) -> exists x, In x l /\ 0 < f x.
Proof.
  induction l as [|a l IH]; [cbn; lia|]. rewrite ls_cons. intros H. destruct (f a) eqn:E.
  - destruct (IH H) as (x & I & P). exists x. split; [now right|exact P].
  - exists a. split; [now left|lia].
Qed.

Lemma sum_bound (f : nat -> nat) l : (forall x, f x <= 1) -> list_sum (map f l) <= length l.
Proof. intros H. induction l as [|a l IH]; [cbn; lia|]. rewrite ls_cons. cbn [Datatypes.length]. specialize (H a). lia. Qed.

Lemma alive_lt h x : alive h x = true -> x < length h.
Proof. unfold alive. destruct (at_ h x) as [c|] eqn:E; [|discriminate]. intros _. eapply at_lt; eauto. Qed.

Lemma livecount_le h : livecount h <= length h.
Proof. unfold livecount. etransitivity; [apply sum_bound; intros x; destruct (alive h x); lia|]. rewrite seq_length. lia. Qed.

Lemma insum_same B h h' q :
  length h' = length h -> (forall x, alive h' x = alive h x) -> insum B h' q = insum B h q.
Proof. intros L A. unfold insum. rewrite L. apply sum_ext. intros x _. now rewrite A. Qed.

Lemma insum_B B B' h q : (forall x, alive h x = true -> occ q (B x) = occ q (B' x)) -> insum B h q = insum B' h q.
Proof. intros A. unfold insum. apply sum_ext. intros x _. destruct (alive h x) eqn:E; auto. Qed.

Lemma insum_dies B h h' p q :
  length h' = length h -> alive h p = true -> alive h' p = false ->
  (forall x, x <> p -> alive h' x = alive h x) -> insum B h q = insum B h' q + occ q (B p).
Proof.
  intros L A D S. unfold insum. rewrite L.
  pose proof (sum_change (fun x => if alive h x then occ q (B x) else 0)
    (fun x => if alive h' x then occ q (B x) else 0) (seq 0 (length h)) p (seq_NoDup _ _)) as H.
  cbn in H. rewrite A, D in H. rewrite Nat.add_0_r in H. apply H.
  - apply in_seq. pose proof (alive_lt _ _ A). lia.
  - intros x N. now rewrite S.
Qed.

Lemma insum_moves B B' h p l q :
  alive h p = true -> (forall x, x <> p -> B' x = B x) -> occ q (B' p) = occ q l + occ q (B p) ->
  insum B' h q = insum B h q + occ q l.
Proof.
  intros A S E. unfold insum.
  pose proof (sum_change (fun x => if alive h x then occ q (B' x) else 0)
    (fun x => if alive h x then occ q (B x) else 0) (seq 0 (length h)) p (seq_NoDup _ _)) as H.
  cbn in H. rewrite A in H. 
  assert (I : In p (seq 0 (length h))) by (apply in_seq; pose proof (alive_lt _ _ A); lia).
  specialize (H I). rewrite E in H. enough (X : forall x, x <> p ->
    (if alive h x then occ q (B' x) else 0) = (if alive h x then occ q (B x) else 0)) by (specialize (H X); lia).
  intros x N. now rewrite S.
Qed.

Lemma insum_point B h x q : alive h x = true -> occ q (B x) <= insum B h q.
Proof.
  intros A. unfold insum.
  pose proof (sum_le_one (fun x => if alive h x then occ q (B x) else 0) (seq 0 (length h)) x) as H.
  cbn in H. rewrite A in H. apply H. apply in_seq. pose proof (alive_lt _ _ A). lia.
Qed.

Lemma livecount_dies h h' p :
  length h' = length h -> alive h p = true -> alive h' p = false ->
  (forall x, x <> p -> alive h' x = alive h x) -> livecount h = S (livecount h').
Proof.
  intros L A D S. unfold livecount. rewrite L.
  pose proof (sum_change (fun x => if alive h x then 1 else 0)
    (fun x => if alive h' x then 1 else 0) (seq 0 (length h)) p (seq_NoDup _ _)) as H.
  cbn in H. rewrite A, D in H. rewrite Nat.add_0_r, Nat.add_1_r in H. apply H.
  - apply in_seq. pose proof (alive_lt _ _ A). lia.
  - intros x N. now rewrite S.
Qed.

Lemma livecount_same h h' :
  length h' = length h -> (forall x, alive h' x = alive h x) -> livecount h' = livecount h.
Proof. intros L A. unfold livecount. rewrite L. apply sum_ext. intros x _. now rewrite A. Qed.

Lemma occ_in q l : 0 < occ q l <-> In q l.
Proof. unfold occ. rewrite (count_occ_In Nat.eq_dec). lia. Qed.

Lemma occ_app q l l' : occ q (l ++ l') = occ q l + occ q l'.
Proof. unfold occ. apply count_occ_app. Qed.

Lemma occ_one q p : occ q [p] = if Nat.eqb q p then 1 else 0.
Proof. unfold occ. cbn. destruct (Nat.eq_dec p q), (Nat.eqb_spec q p); congruence. Qed.

Lemma occ_cons q p l : occ q (p :: l) = occ q [p] + occ q l.
Proof. apply (occ_app q [p] l). Qed.

Lemma Count_ext B h refs pend refs' pend' :
  (forall q, refs q + pend q = refs' q + pend' q) -> Count B h refs pend -> Count B h refs' pend'.
Proof. intros E C q. specialize (C q). specialize (E q). destruct (at_ h q); lia. Qed.

Lemma Count_alive B h refs pend q :
  Count B h refs pend -> 0 < refs q + insum B h q + pend q -> exists c, at_ h q = Some c /\ (0 < rc c)%Z /\ alive h q = true.
Proof.
  intros C P. specialize (C q). unfold alive. destruct (at_ h q) as [c|]; [|lia].
  exists c. repeat split; lia.
Qed.

Lemma Count_rc B h refs pend q c : Count B h refs pend -> at_ h q = Some c -> (0 <= rc c)%Z.
Proof. intros C E. specialize (C q). rewrite E in C. lia. Qed.

(** ** What a release leaves alone *)
Record Less (h h' : heap) : Prop := {
  less_len : length h' = length h;
  less_body : forall q c', at_ h' q = Some c' -> exists c, at_ h q = Some c /\ bd c' = bd c;
  less_dead : forall q c', at_ h' q = Some c' -> rc c' = 0%Z -> at_ h q = Some c';
  less_dying : forall q c, at_ h q = Some c -> rc c = 0%Z -> at_ h' q = Some c;
  less_live : livecount h' <= livecount h }.

Lemma Less_refl h : Less h h.
Proof. split; eauto. Qed.

Lemma Less_trans h h1 h2 : Less h h1 -> Less h1 h2 -> Less h h2.
Proof.
  intros A B. split.
  - rewrite (less_len _ _ B). apply (less_len _ _ A).
  - intros q c' E. destruct (less_body _ _ B _ _ E) as (c1 & E1 & K1).
    destruct (less_body _ _ A _ _ E1) as (c & E2 & K2). exists c. split; congruence.
  - intros q c' E Z. apply (less_dead _ _ A); auto. now apply (less_dead _ _ B).
  - intros q c E Z. apply (less_dying _ _ B); auto. now apply (less_dying _ _ A).
  - pose proof (less_live _ _ A). pose proof (less_live _ _ B). lia.
Qed.

Lemma Less_points h h' p q : Less h h' -> points h' p q -> points h p q.
Proof. intros L (c & E & I). destruct (less_body _ _ L _ _ E) as (c0 & E0 & K). exists c0. split; congruence. Qed.

Lemma Less_contains h h' p q : Less h h' -> contains h' p q -> contains h p q.
Proof. intros L C. induction C as [p|p q x P C IH]; [constructor|]. econstructor 2; eauto using Less_points. Qed.

Lemma Less_alive B refs pend h h' x : Less h h' -> Count B h refs pend ->
  alive h' x = true -> alive h x = true /\ slots_at h' x = slots_at h x.
Proof.
  intros L C A. unfold alive in *. unfold slots_at. destruct (at_ h' x) as [c'|] eqn:E; [|discriminate].
  destruct (less_body _ _ L _ _ E) as (c & E0 & K). rewrite E0. split; [|congruence].
  pose proof (Count_rc _ _ _ _ _ _ C E0) as R. destruct (Z.eq_dec (rc c) 0) as [Z0|Z0]; [|lia].
  pose proof (less_dying _ _ L _ _ E0 Z0). assert (c' = c) by congruence. subst. lia.
Qed.

(** ** Release *)
Definition rel_all (n : nat) : list ptr -> heap -> outcome unit heap :=
  fix all (l : list ptr) (h : heap) : outcome unit heap :=
    match l with [] => Ok h | q :: l' => do h' <- release n h q; all l' h' end.

Lemma rel_all_cons n q l h : rel_all n (q :: l) h = do h' <- release n h q; rel_all n l h'.
Proof. reflexivity. Qed.

Lemma release_S n h p : release (S n) h p =
  do c <- get h p;
  let h1 := put h p (mkCell (rc c - 1) (bd c)) in
  if (rc c - 1 =? 0)%Z then do h2 <- rel_all n (slots (bd c)) h1; Ok (free h2 p) else Ok h1.
Proof.
  cbn [release]. destruct (get h p) as [c| |]; cbn [obind]; try reflexivity.
Qed.

Definition released (n : nat) (h : heap) (l : list ptr) (x : outcome unit heap) : Prop :=
  forall B refs pend, livecount h < n -> Count B h refs (plus l pend) ->
  (forall q x, In q l -> contains h q x -> alive h x = true -> B x = slots_at h x) ->
  exists h', x = Ok h' /\ Count B h' refs pend /\ Less h h' /\
    forall x, (forall q, In q l -> ~ contains h q x) -> at_ h' x = at_ h x.

Lemma all_ok n :
  (forall h p, released n h [p] (release n h p)) ->
  forall l h, released n h l (rel_all n l h).
Proof.
  intros R. induction l as [|q l IH]; intros h B refs pend F C S.
  - exists h. repeat split; auto. eapply Less_refl; eauto. 
    all: auto.
  - destruct (R h q B refs (plus l pend) F) as (h1 & E1 & C1 & L1 & F1).
    + eapply Count_ext; [|exact C]. intros x. unfold plus. rewrite (occ_cons x q l). lia.
    + intros q' x [<-|[]] K A. apply (S q); auto. now left.
    + destruct (IH h1 B refs pend) as (h2 & E2 & C2 & L2 & F2); auto.
      * pose proof (less_live _ _ L1). lia.
      * intros q' x I K A. destruct (Less_alive _ _ _ _ _ _ L1 C A) as (A0 & S0).
        rewrite S0. apply (S q'); [now right|eapply Less_contains; eauto|auto].
      * exists h2. rewrite rel_all_cons, E1. cbn [obind]. rewrite E2. repeat split; auto.
        1-5: apply (Less_trans _ _ _ L1 L2).
        intros x N. rewrite F2.
        -- apply F1. intros q' [<-|[]]. apply N. now left.
        -- intros q' I K. apply (N q'); [now right|]. eapply Less_contains; eauto.
Qed.

Lemma alive_put h p k b x :
  alive (put h p (mkCell k b)) x =
  if Nat.eqb x p then (p <? length h) && (0 <? k)%Z else alive h x.
Proof.
  unfold alive. destruct (Nat.eqb_spec x p) as [->|N].
  - unfold put. destruct (Nat.ltb_spec p (length h)).
    + rewrite at_upd_eq by auto. reflexivity.
    + unfold at_. replace (nth_error (upd h p (Some (mkCell k b))) p) with (@None (option cell)); [reflexivity|].
      symmetry. apply nth_error_None. rewrite upd_length. auto.
  - rewrite at_put_neq by auto. reflexivity.
Qed.

Lemma release_ok : forall n h p, released n h [p] (release n h p).
Proof.
  induction n as [|n IH]; intros h p B refs pend F C S; [lia|].
  destruct (Count_alive _ _ _ _ p C) as (c & E & P & A).
  { unfold plus. rewrite (occ_one p p), Nat.eqb_refl. lia. }
  rewrite release_S, (get_at _ _ _ E). cbn [obind]. cbv zeta.
  pose proof (at_lt _ _ _ E) as LT.
  set (h1 := put h p (mkCell (rc c - 1) (bd c))).
  assert (LEN : length h1 = length h) by (apply upd_length).
  assert (Ep : at_ h1 p = Some (mkCell (rc c - 1) (bd c))) by (eapply at_put_eq; eauto).
  assert (En : forall q, q <> p -> at_ h1 q = at_ h q) by (intros; now apply at_put_neq).
  pose proof (C p) as Cp. rewrite E in Cp. unfold plus in Cp. rewrite occ_one, Nat.eqb_refl in Cp.
  destruct (Z.eqb_spec (rc c - 1) 0) as [Z0|Z0].
  - (* the last reference *)
    assert (D : alive h1 p = false).
    { unfold alive. rewrite Ep. cbn. rewrite Z0. reflexivity. }
    assert (A1 : forall x, x <> p -> alive h1 x = alive h x).
    { intros x N. unfold alive. rewrite En by auto. reflexivity. }
    assert (BP : B p = slots (bd c)).
    { rewrite (S p p); [|now left|constructor|auto]. unfold slots_at. rewrite E. reflexivity. }
    assert (IS : forall q, insum B h q = insum B h1 q + occ q (slots (bd c))).
    { intros q. rewrite <- BP. apply insum_dies; auto. }
    assert (L1 : livecount h = Datatypes.S (livecount h1)) by (eapply livecount_dies; eauto).
    destruct (all_ok n IH (slots (bd c)) h1 B refs pend) as (h2 & E2 & C2 & Le & F2).
    + lia.
    + intros q. destruct (Nat.eq_dec q p) as [->|N].
      * rewrite Ep. cbn. unfold plus. specialize (IS p). lia.
      * rewrite En by auto. pose proof (C q) as Cq. unfold plus in *. rewrite occ_one in Cq.
        destruct (Nat.eqb_spec q p); [congruence|]. specialize (IS q). destruct (at_ h q); lia.
    + intros q x I K Al. destruct (Nat.eq_dec x p) as [->|N]; [congruence|].
      assert (K' : contains h q x).
      { clear - K E Ep En. induction K as [q|q r x (c' & E' & I') K IH]; [constructor|].
        econstructor 2; [|exact IH]. destruct (Nat.eq_dec q p) as [->|M].
        - exists c. split; auto. rewrite Ep in E'. inversion E'; subst. exact I'.
        - exists c'. rewrite En in E' by auto. auto. }
      rewrite (S p x); [|now left|econstructor 2; [exists c; eauto|exact K']|now rewrite <- A1].
      unfold slots_at. rewrite En by auto. reflexivity.
    + assert (E2p : at_ h2 p = Some (mkCell (rc c - 1) (bd c))).
      { apply (less_dying _ _ Le); auto. }
      assert (D2 : alive h2 p = false) by (unfold alive; rewrite E2p; cbn; now rewrite Z0).
      assert (L2 : p < length h2) by (eapply at_lt; eauto).
      assert (Ef : at_ (free h2 p) p = None) by (unfold free; now apply at_upd_eq).
      assert (Efn : forall q, q <> p -> at_ (free h2 p) q = at_ h2 q) by (intros; now apply at_upd_neq).
      assert (AF : forall x, alive (free h2 p) x = alive h2 x).
      { intros x. destruct (Nat.eq_dec x p) as [->|N]; [|unfold alive; now rewrite Efn].
        rewrite D2. unfold alive. now rewrite Ef. }
      assert (LF : length (free h2 p) = length h2) by apply upd_length.
      rewrite E2. cbn [obind]. exists (free h2 p). split; [reflexivity|]. split; [|split].
      * intros q. rewrite (insum_same B h2 (free h2 p)) by auto. destruct (Nat.eq_dec q p) as [->|N].
        -- rewrite Ef. specialize (C2 p). rewrite E2p in C2. cbn in C2. lia.
        -- rewrite Efn by auto. apply C2.
      * split.
        -- rewrite LF, (less_len _ _ Le). auto.
        -- intros q c' Eq. destruct (Nat.eq_dec q p) as [->|N]; [congruence|]. rewrite Efn in Eq by auto.
           destruct (less_body _ _ Le _ _ Eq) as (c0 & E0 & K0). rewrite En in E0 by auto. eauto.
        -- intros q c' Eq Zq. destruct (Nat.eq_dec q p) as [->|N]; [congruence|]. rewrite Efn in Eq by auto.
           rewrite <- En by auto. now apply (less_dead _ _ Le).
        -- intros q c' Eq Zq. destruct (Nat.eq_dec q p) as [->|N].
           { assert (c' = c) by congruence. subst. lia. }
           rewrite Efn by auto. apply (less_dying _ _ Le); auto. now rewrite En.
        -- rewrite (livecount_same h2) by auto. pose proof (less_live _ _ Le). lia.
      * intros x N. assert (x <> p). { intros ->. apply (N p); [now left|constructor]. }
        rewrite Efn by auto. rewrite F2.
        -- now rewrite En.
        -- intros q I K. apply (N p); [now left|]. 
           assert (K' : contains h q x).
           { clear - K E Ep En. induction K as [q|q r x (c' & E' & I') K IH]; [constructor|].
             econstructor 2; [|exact IH]. destruct (Nat.eq_dec q p) as [->|M].
             - exists c. split; auto. rewrite Ep in E'. inversion E'; subst. exact I'.
             - exists c'. rewrite En in E' by auto. auto. }
           econstructor 2; [exists c; eauto|exact K'].
  - (* others remain *)
    assert (P1 : (0 < rc c - 1)%Z) by lia.
    assert (A1 : forall x, alive h1 x = alive h x).
    { intros x. unfold alive. destruct (Nat.eq_dec x p) as [->|N].
      - rewrite Ep, E. cbn. lia.
      - now rewrite En. }
    exists h1. split; [reflexivity|]. split; [|split].
    + intros q. rewrite (insum_same B h h1) by auto. destruct (Nat.eq_dec q p) as [->|N].
      * rewrite Ep. cbn. lia.
      * rewrite En by auto. pose proof (C q) as Cq. unfold plus in Cq. rewrite occ_one in Cq.
        destruct (Nat.eqb_spec q p); [congruence|]. destruct (at_ h q); lia.
    + split; auto.
      * intros q c' Eq. destruct (Nat.eq_dec q p) as [->|N].
        -- rewrite Ep in Eq. inversion Eq; subst. exists c. auto.
        -- rewrite En in Eq by auto. eauto.
      * intros q c' Eq Zq. destruct (Nat.eq_dec q p) as [->|N].
        -- rewrite Ep in Eq. inversion Eq; subst. cbn in Zq. lia.
        -- rewrite En in Eq by auto. auto.
      * intros q c' Eq Zq. destruct (Nat.eq_dec q p) as [->|N].
        -- assert (c' = c) by congruence. subst. lia.
        -- rewrite En by auto. auto.
      * rewrite (livecount_same h) by auto. lia.
    + intros x N. apply En. intros ->. apply (N p); [now left|constructor].
Qed.
