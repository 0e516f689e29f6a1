(** Proofs about the trace context (C101). *)
From Verif Require Import Common CommonFacts Bytes MsgModel MsgSpec MsgProofs TraceModel TraceSpec.
Local Open Scope list_scope.
Local Open Scope Z_scope.

Definition holds (b s : list Z) : Prop := length b = 512%nat /\ string_of b = Ok s /\ is_cstr s = true /\ (length s <= 510)%nat.
Definition rep (c : context) (x : trace) : Prop := holds (c_parent c) (fst x) /\ holds (c_state c) (snd x).
Definition at_ (st : store) (t : nat) (x : trace) : Prop := rep (local st t) x.

Lemma string_app s r : is_cstr s = true -> string_of (s ++ 0 :: r) = Ok s.
Proof.
  induction s as [|c s IH]; intros H; [reflexivity|]. cbn [is_cstr forallb] in H. apply andb_prop in H as [H1 H2]. cbn [app string_of]. replace (c =? 0) with false by lia. rewrite IH by exact H2. reflexivity.
Qed.
Lemma fresh_none : rep fresh none.
Proof. split; (split; [reflexivity|split; [reflexivity|split; [reflexivity|cbn; lia]]]). Qed.
Lemma cut_none b : length b = 512%nat -> holds (cut b) [].
Proof. intros L. destruct b as [|c b]; [discriminate|]. split; [exact L|]. split; [reflexivity|split; [reflexivity|cbn; lia]]. Qed.
Lemma upd_id {A} (l : list A) j x : nth_error l j = Some x -> upd l j x = l.
Proof. revert j. induction l as [|y l IH]; intros [|j] H; cbn in *; try discriminate; [congruence|]. f_equal. apply IH, H. Qed.
Lemma set_one_ok b s : length b = 512%nat -> text_ok s -> exists b', set_one b s = Ok b' /\ holds b' (given s).
Proof.
  intros L (C & N). unfold set_one. destruct s as [s|]; [|exists (cut b); split; [reflexivity|apply cut_none, L]]. cbn [given] in *.
  destruct (Nat.ltb 0 (length s) && Nat.ltb (length s) 511)%bool eqn:E.
  - apply andb_prop in E as [E1 E2]. apply Nat.ltb_lt in E1. rewrite L. replace (Nat.ltb (S (length s)) 512) with true by (symmetry; apply Nat.ltb_lt; lia).
    assert (X : skipn (length s) (repeat 0 512) = 0 :: 0 :: repeat 0 (510 - length s)).
    { assert (Q : forall n m, (n <= m)%nat -> skipn n (repeat 0 m) = repeat 0 (m - n)).
      { induction n as [|n IH]; intros m H; [rewrite Nat.sub_0_r; reflexivity|]. destruct m as [|m]; [lia|]. cbn. apply IH. lia. }
      rewrite Q by lia. replace (512 - length s)%nat with (S (S (510 - length s))) by lia. reflexivity. }
    rewrite X. rewrite upd_id.
    + eexists. split; [reflexivity|]. split; [rewrite app_length; cbn [length]; rewrite repeat_length; lia|]. split; [apply string_app, C|]. split; [exact C|exact N].
    + rewrite nth_error_app2 by lia. replace (S (length s) - length s)%nat with 1%nat by lia. reflexivity.
  - assert (Z0 : s = []).
    { destruct s as [|c s]; [reflexivity|]. exfalso. apply andb_false_iff in E as [E|E]; apply Nat.ltb_ge in E; cbn [length] in *; lia. }
    subst s. exists (cut b). split; [reflexivity|apply cut_none, L].
Qed.
Lemma put_same st t c : local (put st t c) t = c.
Proof. unfold local, put. rewrite Nat.eqb_refl. reflexivity. Qed.
Lemma put_other st t c q : q <> t -> local (put st t c) q = local st q.
Proof. intros N. unfold local, put. rewrite (proj2 (Nat.eqb_neq q t) N). reflexivity. Qed.
Lemma set_ok st t x p s : at_ st t x -> text_ok p -> text_ok s ->
  exists c, set_context st t p s = Ok (put st t c) /\ rep c (given p, given s).
Proof.
  intros ((A & _) & (B & _)) P S. unfold set_context. destruct (set_one_ok _ _ A P) as (bp & EP & HP). destruct (set_one_ok _ _ B S) as (bt & ES & HS).
  rewrite EP. cbn [obind]. rewrite ES. cbn [obind]. eexists. split; [reflexivity|]. split; assumption.
Qed.
Lemma clear_ok st t x : at_ st t x -> exists c, clear_context st t = put st t c /\ rep c none.
Proof. intros ((A & _) & (B & _)). eexists. split; [reflexivity|]. split; apply cut_none; assumption. Qed.
Lemma get_ok b s n : holds b s -> room_ok n -> get_one b n = Ok (seen s n).
Proof.
  intros (_ & E & _) R. destruct n as [n|]; [|reflexivity]. cbn [room_ok] in R. unfold get_one. rewrite E. cbn [obind]. replace (n - 1 <? 0) with false by lia. cbn [seen option_map]. f_equal. f_equal.
  destruct (Z.min_spec (Z.of_nat (length s)) (n - 1)) as [[H ->]|[H ->]]; [|reflexivity]. rewrite Nat2Z.id, firstn_all. symmetry. apply firstn_all2. lia.
Qed.
Lemma holds_text b s : holds b s -> text_ok (Some s).
Proof. intros (_ & _ & C & N). split; assumption. Qed.
Lemma cstr_field s : is_cstr s = true -> (length s <= 1000)%nat -> field_ok (FStr (Some s)) = true.
Proof. intros C L. cbn [field_ok]. rewrite C. cbn [andb]. lia. Qed.
Lemma carried c x method payload : rep c x -> request_ok method payload ->
  exists b, request c method payload = Ok b /\ exists m, get_meta_info (msg_from_bytes b) = Ok (Some method, Some (fst x), Some (snd x), m).
Proof.
  intros (A & B) (M & L & P). unfold request. destruct A as (_ & EA & CA & LA). destruct B as (_ & EB & CB & LB). rewrite EA. cbn [obind]. rewrite EB. cbn [obind]. eexists. split; [reflexivity|].
  destruct (call_metadata payload (Some method) (Some (fst x)) (Some (snd x)) P) as (m & E & _); try (apply cstr_field; [assumption|lia]). exists m. exact E.
Qed.

(** the threads at work keep their contexts, the others have none *)
Definition idle (st : store) (busy : list nat) : Prop := forall q, ~ In q busy -> at_ st q none.
Definition same (st st' : store) (l : list nat) : Prop := forall q, In q l -> local st' q = local st q.

Lemma dispatch_ok st busy q c method payload b later h x :
  rep c x -> request_ok method payload -> request c method payload = Ok b -> ~ In q busy -> idle st busy -> (later = true -> last x h = none) ->
  (forall st1, at_ st1 q x -> idle st1 (q :: busy) -> exists st2, exec st1 q h = Ok (st2, ideal x q h) /\ at_ st2 q (last x h) /\ idle st2 (q :: busy) /\ same st1 st2 busy) ->
  exists st', dispatch st q b later (fun st => exec st q h) = Ok (st', ideal x q h) /\ idle st' busy /\ same st st' busy.
Proof.
  intros R Q B N I LT H. destruct (carried _ _ _ _ R Q) as (b' & B' & m & M). rewrite B in B'. injection B' as <-. unfold dispatch. rewrite M. cbn [obind].
  destruct R as (RA & RB). destruct (set_ok st q none (Some (fst x)) (Some (snd x)) (I q N) (holds_text _ _ RA) (holds_text _ _ RB)) as (c1 & E1 & R1). rewrite E1. cbn [obind given] in *.
  destruct (H (put st q c1)) as (st2 & E2 & A2 & I2 & S2).
  - unfold at_. rewrite put_same. destruct x. exact R1.
  - intros z NZ. assert (z <> q /\ ~ In z busy) as [NZ1 NZ2] by (split; intros X; apply NZ; [left; congruence|right; exact X]). unfold at_. rewrite put_other by exact NZ1. apply I, NZ2.
  - rewrite E2. cbn [obind].
    assert (S3 : same st st2 busy).
    { intros z IZ. rewrite (S2 z IZ). apply put_other. intros ->. exact (N IZ). }
    destruct later.
    + eexists. split; [reflexivity|]. split; [|exact S3]. intros z NZ. destruct (Nat.eq_dec z q) as [->|NQ]; [rewrite <- (LT eq_refl); exact A2|]. apply I2. intros [X|X]; [congruence|exact (NZ X)].
    + destruct (clear_ok _ _ _ A2) as (c2 & E3 & R3). rewrite E3. eexists. split; [reflexivity|]. split.
      * intros z NZ. destruct (Nat.eq_dec z q) as [->|NQ]; unfold at_; [rewrite put_same; exact R3|]. rewrite put_other by exact NQ. apply I2. intros [X|X]; [congruence|exact (NZ X)].
      * intros z IZ. rewrite put_other; [apply S3, IZ|]. intros ->. exact (N IZ).
Qed.
Lemma exec_ok a : forall st t busy x, In t busy -> at_ st t x -> idle st busy -> proper busy x a ->
  exists st', exec st t a = Ok (st', ideal x t a) /\ at_ st' t (last x a) /\ idle st' busy /\ same st st' (filter (fun q => negb (Nat.eqb q t)) busy).
Proof.
  assert (OT : forall t q busy, In q (filter (fun q => negb (Nat.eqb q t)) busy) <-> In q busy /\ q <> t).
  { intros t q busy. rewrite filter_In, negb_true_iff, Nat.eqb_neq. reflexivity. }
  assert (PUT : forall st t c y busy, In t busy -> idle st busy -> rep c y -> at_ (put st t c) t y /\ idle (put st t c) busy /\ same st (put st t c) (filter (fun q => negb (Nat.eqb q t)) busy)).
  { intros st t c y busy IT I R. split; [unfold at_; rewrite put_same; exact R|]. split.
    - intros q N. unfold at_. rewrite put_other; [apply I, N|]. intros ->. exact (N IT).
    - intros q IQ. apply OT in IQ as [_ NQ]. apply put_other, NQ. }
  assert (BACK : forall st st' t x busy, In t busy -> at_ st t x -> same st st' busy -> at_ st' t x) by (intros st st' t x busy IT A S; unfold at_; rewrite (S t IT); exact A).
  induction a as [|p s k IH|k IH|n m k IH|q method payload h IHh later k IHk|q method payload h IHh k IHk|q h IHh k IHk]; intros st t busy x IT A I P; cbn [exec ideal last proper] in *.
  - exists st. split; [reflexivity|]. split; [exact A|]. split; [exact I|]. intros q _. reflexivity.
  - destruct P as (P1 & P2 & P3). destruct (set_ok _ _ _ _ _ A P1 P2) as (c & E & R). rewrite E. cbn [obind]. destruct (PUT st t c _ busy IT I R) as (A1 & I1 & S1).
    destruct (IH _ t busy _ IT A1 I1 P3) as (st' & E' & A' & I' & S'). exists st'. split; [exact E'|]. split; [exact A'|]. split; [exact I'|]. intros q IQ. rewrite (S' q IQ). apply S1, IQ.
  - destruct (clear_ok _ _ _ A) as (c & E & R). rewrite E. destruct (PUT st t c _ busy IT I R) as (A1 & I1 & S1).
    destruct (IH _ t busy _ IT A1 I1 P) as (st' & E' & A' & I' & S'). exists st'. split; [exact E'|]. split; [exact A'|]. split; [exact I'|]. intros q IQ. rewrite (S' q IQ). apply S1, IQ.
  - destruct P as (P1 & P2 & P3). pose proof A as A0. destruct A0 as (H1 & H2). rewrite (get_ok _ _ _ H1 P1). cbn [obind]. rewrite (get_ok _ _ _ H2 P2). cbn [obind].
    destruct (PUT st t (local st t) _ busy IT I A) as (A1 & I1 & S1).
    destruct (IH _ t busy _ IT A1 I1 P3) as (st' & E' & A' & I' & S'). rewrite E'. cbn [obind]. exists st'. split; [reflexivity|]. split; [exact A'|]. split; [exact I'|]. intros q IQ. rewrite (S' q IQ). apply S1, IQ.
  - destruct P as (NQ & RQ & PH & LT & PK). destruct (carried _ _ _ _ A RQ) as (b & B & _). rewrite B. cbn [obind].
    destruct (PUT st t (local st t) _ busy IT I A) as (A1 & I1 & S1).
    destruct (dispatch_ok (put st t (local st t)) busy q (local st t) method payload b later h x A RQ B NQ I1 LT) as (st2 & E2 & I2 & S2).
    { intros st1 AQ IQ. destruct (IHh st1 q (q :: busy) x (or_introl eq_refl) AQ IQ PH) as (st2 & E & A2 & I2 & S2). exists st2. split; [exact E|]. split; [exact A2|]. split; [exact I2|].
      intros z IZ. apply S2. apply OT. split; [right; exact IZ|]. intros ->. exact (NQ IZ). }
    rewrite E2. cbn [obind]. destruct (IHk st2 t busy x IT (BACK _ _ _ _ _ IT A1 S2) I2 PK) as (st3 & E3 & A3 & I3 & S3). rewrite E3. cbn [obind]. exists st3. split; [reflexivity|]. split; [exact A3|]. split; [exact I3|].
    intros z IZ. rewrite (S3 z IZ). rewrite S2 by (apply OT in IZ; tauto). apply S1, IZ.
  - destruct P as (NQ & RQ & -> & PH & PK). destruct (carried _ _ _ _ fresh_none RQ) as (b & B & _). rewrite B. cbn [obind].
    destruct (dispatch_ok st busy q fresh method payload b false h none fresh_none RQ B NQ I) as (st2 & E2 & I2 & S2).
    { discriminate. }
    { intros st1 AQ IQ. destruct (IHh st1 q (q :: busy) none (or_introl eq_refl) AQ IQ PH) as (st2 & E & A2 & I2 & S2). exists st2. split; [exact E|]. split; [exact A2|]. split; [exact I2|].
      intros z IZ. apply S2. apply OT. split; [right; exact IZ|]. intros ->. exact (NQ IZ). }
    rewrite E2. cbn [obind]. destruct (IHk st2 t busy none IT (BACK _ _ _ _ _ IT A S2) I2 PK) as (st3 & E3 & A3 & I3 & S3). rewrite E3. cbn [obind]. exists st3. split; [reflexivity|]. split; [exact A3|]. split; [exact I3|].
    intros z IZ. rewrite (S3 z IZ). apply S2. apply OT in IZ. tauto.
  - destruct P as (NQ & PH & LH & PK). destruct (IHh st q (q :: busy) none (or_introl eq_refl) (I q NQ)) as (st2 & E2 & A2 & I2 & S2); [|exact PH|].
    { intros z NZ. apply I. intros X. apply NZ. right. exact X. }
    rewrite E2. cbn [obind]. rewrite LH in A2.
    assert (S2' : same st st2 busy) by (intros z IZ; apply S2; apply OT; split; [right; exact IZ|intros ->; exact (NQ IZ)]).
    assert (I2' : idle st2 busy) by (intros z NZ; destruct (Nat.eq_dec z q) as [->|NE]; [exact A2|apply I2; intros [X|X]; [congruence|exact (NZ X)]]).
    destruct (IHk st2 t busy x IT (BACK _ _ _ _ _ IT A S2') I2' PK) as (st3 & E3 & A3 & I3 & S3). rewrite E3. cbn [obind]. exists st3. split; [reflexivity|]. split; [exact A3|]. split; [exact I3|].
    intros z IZ. rewrite (S3 z IZ). apply S2'. apply OT in IZ. tauto.
Qed.
Lemma trace_thm t a : proper [t] none a -> exists st, exec init t a = Ok (st, ideal none t a).
Proof.
  intros P. destruct (exec_ok a init t [t] none (or_introl eq_refl)) as (st & E & _); [exact fresh_none|intros q _; exact fresh_none|exact P|]. exists st. exact E.
Qed.
