From Verif Require Import Common CommonFacts RetainModel RetainSpec.
From Coq Require Import Lia.
Local Open Scope Z_scope.

Lemma total_upd : forall l i t t', nth_error l i = Some t -> (total (upd l i t') + refs t = total l + refs t')%nat.
Proof.
  induction l as [|x l IH]; intros i t t' H; destruct i; cbn in *; try discriminate.
  - injection H as ->. lia.
  - specialize (IH i t t' H). lia.
Qed.
Lemma chk_upd : forall l i t t', nth_error l i = Some t ->
  (length (filter checking (upd l i t')) + (if checking t then 1 else 0) = length (filter checking l) + (if checking t' then 1 else 0))%nat.
Proof.
  induction l as [|x l IH]; intros i t t' H; destruct i; cbn in *; try discriminate.
  - injection H as ->. destruct (checking t), (checking t'); cbn; lia.
  - specialize (IH i t t' H). destruct (checking x); cbn; lia.
Qed.
Lemma total_in : forall l i t, nth_error l i = Some t -> (refs t <= total l)%nat.
Proof. induction l as [|x l IH]; intros i t H; destruct i; cbn in *; try discriminate; [injection H as ->; lia|]. apply IH in H. lia. Qed.

(** count = references held; the object is destroyed only with no reference left; if none is
    left and it is not destroyed, somebody is about to test *)
Definition inv (s : state) : Prop :=
  count s = Z.of_nat (total (threads s)) /\
  (freed s = true <-> destroyed s = 1%nat) /\ (freed s = false <-> destroyed s = 0%nat) /\
  (freed s = true -> total (threads s) = 0%nat) /\
  (total (threads s) = 0%nat -> freed s = false -> (0 < checkers s)%nat).
Lemma inv_init : forall n, inv (init n).
Proof.
  intros n. unfold inv, init, checkers. cbn [count freed destroyed threads total refs].
  assert (H : total (repeat (mkThread 0 false) n) = 0%nat) by (induction n; cbn; auto).
  rewrite H. split; [reflexivity|]. split; [split; discriminate|]. split; [tauto|]. split; [discriminate|lia].
Qed.
Lemma total_upd2 : forall l i j a b x y, nth_error l i = Some a -> nth_error l j = Some b -> i <> j ->
  (total (upd (upd l i x) j y) + refs a + refs b = total l + refs x + refs y)%nat /\
  (length (filter checking (upd (upd l i x) j y)) + (if checking a then 1 else 0) + (if checking b then 1 else 0) =
   length (filter checking l) + (if checking x then 1 else 0) + (if checking y then 1 else 0))%nat.
Proof.
  intros l i j a b x y HA HB N.
  assert (HB' : nth_error (upd l i x) j = Some b).
  { clear - HB N. revert i j HB N. induction l as [|z l IH]; intros i j HB N; destruct i, j; cbn in *; try discriminate; try congruence; auto. }
  pose proof (total_upd _ _ _ x HA). pose proof (total_upd _ _ _ y HB').
  pose proof (chk_upd _ _ _ x HA). pose proof (chk_upd _ _ _ y HB'). lia.
Qed.
Lemma step_inv : forall s a s', inv s -> step s a = Ok s' -> inv s'.
Proof.
  intros s a s' V H. pose proof V as (A & B & C & D & E). destruct a as [i|i|i|i j]; cbn [step] in H.
  - destruct (nth_error (threads s) i) as [[[|n] [|]]|] eqn:T; try (injection H as <-; exact V).
    destruct (freed s) eqn:F; [discriminate|]. injection H as <-.
    pose proof (total_upd _ _ _ (mkThread (S (S n)) false) T) as U. cbn in U.
    unfold inv, set_thread, checkers. cbn [count freed destroyed threads]. repeat split; try tauto; try lia; try discriminate; intros; exfalso; lia.
  - destruct (nth_error (threads s) i) as [[[|n] [|]]|] eqn:T; try (injection H as <-; exact V).
    destruct (freed s) eqn:F; [discriminate|]. injection H as <-.
    pose proof (total_upd _ _ _ (mkThread n true) T) as U. pose proof (chk_upd _ _ _ (mkThread n true) T) as K. cbn in U, K.
    unfold inv, set_thread, checkers. cbn [count freed destroyed threads]. repeat split; try tauto; try lia; try discriminate.
  - destruct (nth_error (threads s) i) as [[n [|]]|] eqn:T; try (injection H as <-; exact V).
    destruct (freed s) eqn:F; [discriminate|].
    pose proof (total_upd _ _ _ (mkThread n false) T) as U. pose proof (chk_upd _ _ _ (mkThread n false) T) as K. cbn in U, K.
    destruct (count s =? 0) eqn:Q; injection H as <-; unfold inv, set_thread, checkers; cbn [count freed destroyed threads].
    + assert (destroyed s = 0%nat) as -> by tauto. repeat split; try tauto; try lia; try discriminate.
    + repeat split; try tauto; try lia; try discriminate.
  - destruct (nth_error (threads s) i) as [[[|n] [|]]|] eqn:T; try (injection H as <-; exact V).
    destruct (nth_error (threads s) j) as [[m [|]]|] eqn:T2; try (injection H as <-; exact V).
    destruct (Nat.eqb i j) eqn:Q; [injection H as <-; exact V|]. apply Nat.eqb_neq in Q. injection H as <-.
    destruct (total_upd2 _ _ _ _ _ (mkThread n false) (mkThread (S m) false) T T2 Q) as [U K]. cbn in U, K.
    unfold inv, checkers. cbn [count freed destroyed threads]. repeat split; try tauto; try lia.
    intros G1 G2. assert (Z0 : total (threads s) = 0%nat) by lia. specialize (E Z0 G2). unfold checkers in E. lia.
Qed.
Lemma run_inv : forall l s s', inv s -> run s l = Ok s' -> inv s'.
Proof.
  induction l as [|a l IH]; intros s s' V H; cbn in H; [injection H as <-; auto|].
  destruct (step s a) as [s1|?|] eqn:E; cbn in H; try discriminate. eapply IH; [|exact H]. eapply step_inv; eauto.
Qed.
Lemma quiescent_checkers : forall s, quiescent s -> checkers s = 0%nat.
Proof.
  intros s Q. unfold quiescent, checkers in *. induction (threads s) as [|t l IH]; cbn; [reflexivity|].
  rewrite (Q t) by (cbn; auto). apply IH. intros; apply Q; cbn; auto.
Qed.
Lemma exactly_once : forall n l s, run (init n) l = Ok s ->
  (destroyed s <= 1)%nat /\
  (destroyed s = 1%nat -> total (threads s) = 0%nat) /\
  (quiescent s -> (destroyed s = 1%nat <-> total (threads s) = 0%nat)).
Proof.
  intros n l s H. destruct (run_inv _ _ _ (inv_init n) H) as (A & B & C & D & E).
  assert (X : destroyed s = 1%nat \/ destroyed s = 0%nat) by (destruct (freed s); tauto).
  repeat split; try lia; try tauto.
  intros T. destruct (freed s) eqn:F; [tauto|]. apply quiescent_checkers in H0. specialize (E T eq_refl). lia.
Qed.
Lemma no_err : forall s a e, step s a <> Err e.
Proof.
  intros s a e H. destruct a; cbn in H;
  repeat match goal with H : context [match ?x with _ => _ end] |- _ => destruct x eqn:?; try discriminate end.
Qed.
(** serialized releases *)
Lemma serialized_safe : forall l s, inv s -> (checkers s <= 1)%nat -> (freed s = true -> checkers s = 0%nat) -> serialized s l ->
  exists s', run s l = Ok s'.
Proof.
  induction l as [|a l IH]; intros s V C F SR; cbn [run]; [eauto|].
  cbn [serialized] in SR. destruct SR as [S1 S2].
  assert (X : exists s', step s a = Ok s' /\ (checkers s' <= 1)%nat /\ (freed s' = true -> checkers s' = 0%nat)).
  { pose proof V as (A & B & CC & D & E). destruct a as [i|i|i|i j]; cbn [step].
    - destruct (nth_error (threads s) i) as [[[|n] [|]]|] eqn:T; try (exists s; auto; fail).
      destruct (freed s) eqn:Q; [exfalso; specialize (D eq_refl); apply total_in in T; cbn in T; lia|].
      eexists. split; [reflexivity|]. unfold checkers, set_thread in *. cbn [threads freed].
      pose proof (chk_upd _ _ _ (mkThread (S (S n)) false) T) as K. cbn in K. rewrite ?Q. split; [lia|discriminate].
    - destruct (nth_error (threads s) i) as [[[|n] [|]]|] eqn:T; try (exists s; auto; fail).
      destruct (freed s) eqn:Q; [exfalso; specialize (D eq_refl); apply total_in in T; cbn in T; lia|].
      eexists. split; [reflexivity|]. unfold checkers, set_thread in *. cbn [threads freed].
      pose proof (chk_upd _ _ _ (mkThread n true) T) as K. cbn in K. rewrite ?Q. split; [lia|discriminate].
    - destruct (nth_error (threads s) i) as [[n [|]]|] eqn:T; try (exists s; auto; fail).
      pose proof (chk_upd _ _ _ (mkThread n false) T) as K. cbn in K. fold (checkers s) in K.
      destruct (freed s) eqn:Q; [exfalso; specialize (F eq_refl); lia|].
      destruct (count s =? 0); eexists; (split; [reflexivity|]); unfold checkers, set_thread in *; cbn [threads freed]; rewrite ?Q; split; try discriminate; lia.
    - destruct (nth_error (threads s) i) as [[[|n] [|]]|] eqn:T; try (exists s; auto; fail).
      destruct (nth_error (threads s) j) as [[m [|]]|] eqn:T2; try (exists s; auto; fail).
      destruct (Nat.eqb i j) eqn:Q; [exists s; auto|]. apply Nat.eqb_neq in Q.
      destruct (total_upd2 _ _ _ _ _ (mkThread n false) (mkThread (S m) false) T T2 Q) as [U K]. cbn in U, K.
      eexists. split; [reflexivity|]. unfold checkers in *. cbn [threads freed]. split; [lia|]. intros G. specialize (F G). lia. }
  destruct X as (s' & E & C' & F'). rewrite E in S2 |- *. cbn. apply IH; auto. eapply step_inv; eauto.
Qed.
Lemma serialized_ok : forall n l, serialized (init n) l -> exists s, run (init n) l = Ok s.
Proof.
  intros n l H. apply serialized_safe; auto; [apply inv_init| |discriminate].
  clear H. unfold checkers, init. cbn [threads filter checking]. induction n; cbn in *; lia.
Qed.
