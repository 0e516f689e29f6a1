From Verif Require Import Common SemModel SemSpec.
From Coq Require Import Lia.
Local Open Scope Z_scope.
Definition inv (s : state) : Prop :=
  0 <= value s /\ posts s = value s + taken s /\ 0 <= taken s <= succeeded s /\ Z.of_nat (unsent s) <= posts s.
Lemma step_inv : forall s a, inv s -> inv (step s a).
Proof.
  intros s a (A & B & C & D). destruct a as [|j|i t|i|i|i]; cbn [step].
  - unfold inv; cbn [value unsent posts taken succeeded]. lia.
  - destruct (unsent s) eqn:U; unfold inv; cbn [value unsent posts taken succeeded]; lia.
  - destruct (at_ s i); try (unfold inv; lia). destruct (0 <? value s) eqn:Q; unfold inv; cbn [value unsent posts taken succeeded]; lia.
  - destruct (at_ s i); unfold inv; cbn [value unsent posts taken succeeded]; lia.
  - destruct (at_ s i) as [|[|]|]; unfold inv; cbn [value unsent posts taken succeeded]; lia.
  - destruct (at_ s i); try (unfold inv; lia). destruct (0 <? value s) eqn:Q; unfold inv; cbn [value unsent posts taken succeeded]; lia.
Qed.
Lemma run_from : forall l s, inv s -> inv (fold_left step l s).
Proof. induction l as [|a l IH]; intros s V; cbn; auto. apply IH, step_inv, V. Qed.
Lemma inv_init : inv init.
Proof. unfold inv; cbn; lia. Qed.
Lemma accounting : forall l, let s := run l in
  0 <= value s /\ posts s = value s + taken s /\ 0 <= taken s <= succeeded s.
Proof. intros l s. destruct (run_from l init inv_init) as (A & B & C & D). auto. Qed.

(** one wait in the whole history *)
Inductive stage (s : state) : Prop :=
| NoWait : succeeded s = 0 -> (forall k, at_ s k = Idle) -> stage s
| InWait : forall i p, succeeded s = 0 -> (forall k, at_ s k = if Nat.eqb k i then p else Idle) -> p <> Idle -> (p = Woken -> 1 <= posts s) -> stage s
| Done : succeeded s <= 1 -> (succeeded s = 1 -> 1 <= posts s) -> (forall k, at_ s k = Idle) -> stage s.
Lemma stage_idle : forall s i, stage s -> inv s ->
  at_ s i <> Idle -> exists p, succeeded s = 0 /\ at_ s i = p /\ (forall k, at_ s k = if Nat.eqb k i then p else Idle) /\ (p = Woken -> 1 <= posts s).
Proof.
  intros s i [A B|j p A B C D|A B C] V N; try (rewrite B in N; congruence); try (rewrite C in N; congruence).
  rewrite B in N. destruct (Nat.eqb i j) eqn:E; [|congruence]. apply Nat.eqb_eq in E. subst j.
  exists p. split; auto. split; [rewrite B, Nat.eqb_refl; reflexivity|]. auto.
Qed.
Lemma step_stage : forall s a, inv s -> stage s -> is_spurious a = false -> (is_wait a = true -> succeeded s = 0 /\ forall k, at_ s k = Idle) ->
  stage (step s a).
Proof.
  intros s a V ST SP W. pose proof V as (A & B & C & D). destruct a as [|j|i t|i|i|i]; cbn [step]; try discriminate SP.
  - destruct ST as [X Y|i p X Y Z1 Z2|X Y Z1]; [apply NoWait|eapply InWait with (i := i) (p := p)|apply Done]; cbn [succeeded at_ posts]; auto; intros; try (specialize (Z2 H)); try (specialize (Y H)); lia.
  - destruct (unsent s) as [|n] eqn:U; [exact ST|].
    assert (P : 1 <= posts s) by lia.
    destruct j as [i|].
    2: { destruct ST as [X Y|i p X Y Z1 Z2|X Y Z1]; [apply NoWait|eapply InWait with (i := i) (p := p)|apply Done]; cbn [succeeded at_ posts]; auto. }
    destruct (at_ s i) as [|tm|] eqn:Q.
    + destruct ST as [X Y|i0 p X Y Z1 Z2|X Y Z1]; [apply NoWait|eapply InWait with (i := i0) (p := p)|apply Done]; cbn [succeeded at_ posts]; auto.
    + destruct (stage_idle s i ST V) as (p & X & Y & Z1 & Z2); [congruence|].
      apply InWait with (i := i) (p := Woken); cbn [succeeded at_ posts]; auto; [|discriminate].
      intros k. unfold set_at. rewrite Z1. destruct (Nat.eqb k i); reflexivity.
    + destruct ST as [X Y|i0 p X Y Z1 Z2|X Y Z1]; [apply NoWait|eapply InWait with (i := i0) (p := p)|apply Done]; cbn [succeeded at_ posts]; auto.
  - destruct (W eq_refl) as [X Y]. rewrite Y. destruct (0 <? value s) eqn:Q.
    + apply Done; cbn [succeeded at_ posts]; auto; intros; lia.
    + apply InWait with (i := i) (p := Blocked t); cbn [succeeded at_ posts]; auto; try discriminate.
      intros k. unfold set_at. rewrite Y. reflexivity.
  - destruct (at_ s i) as [|[|]|] eqn:Q; try exact ST.
    destruct (stage_idle s i ST V) as (p & X & Y & Z1 & Z2); [congruence|].
    apply Done; cbn [succeeded at_ posts]; try lia. intros k. unfold set_at. rewrite Z1. destruct (Nat.eqb k i); reflexivity.
  - destruct (at_ s i) as [|tm|] eqn:Q; try exact ST.
    destruct (stage_idle s i ST V) as (p & X & Y & Z1 & Z2); [congruence|].
    assert (p = Woken) by congruence. specialize (Z2 H).
    destruct (0 <? value s); (apply Done; cbn [succeeded at_ posts]; try lia; intros k; unfold set_at; rewrite Z1; destruct (Nat.eqb k i); reflexivity).
Qed.
Lemma no_wait_stage : forall s a, is_wait a = false -> (succeeded s = 0 /\ forall k, at_ s k = Idle) ->
  (succeeded (step s a) = 0 /\ forall k, at_ (step s a) k = Idle).
Proof.
  intros s a W [X Y]. destruct a as [|j|i t|i|i|i]; cbn [step] in *; try discriminate W; rewrite ?Y; cbn [succeeded at_]; auto.
  destruct (unsent s); auto. cbn. split; auto. intros k. destruct j; auto. rewrite Y. auto.
Qed.
Lemma run_stage : forall l s, inv s -> stage s -> existsb is_spurious l = false ->
  (waits l = 0 \/ (waits l <= 1 /\ succeeded s = 0 /\ forall k, at_ s k = Idle)) ->
  stage (fold_left step l s).
Proof.
  induction l as [|a l IH]; intros s V ST SP W; cbn [fold_left]; [auto|].
  cbn in SP. apply Bool.orb_false_iff in SP as [S1 S2].
  assert (0 <= waits l) by (unfold waits; lia).
  assert (C : waits (a :: l) = (if is_wait a then 1 else 0) + waits l) by (unfold waits; cbn [filter]; destruct (is_wait a); cbn [length]; lia).
  rewrite C in W. apply IH; auto.
  - apply step_inv; auto.
  - apply step_stage; auto. intros Q. rewrite Q in W. destruct W as [W|(_ & W)]; [lia|auto].
  - destruct (is_wait a) eqn:Q; [left; destruct W as [W|(W & _)]; lia|].
    destruct W as [W|(W1 & W2)]; [left; lia|]. right. split; [lia|]. apply no_wait_stage; auto.
Qed.
Lemma single_wait : forall l, existsb is_spurious l = false -> waits l <= 1 ->
  succeeded (run l) <= posts (run l).
Proof.
  intros l SP W. destruct (run_from l init inv_init) as (A & B & C & D).
  destruct (run_stage l init inv_init (NoWait init eq_refl (fun _ => eq_refl)) SP) as [X Y|i p X Y Z1 Z2|X Y Z1].
  - right. cbn. auto.
  - fold (run l) in *. lia.
  - fold (run l) in *. lia.
  - fold (run l) in *. destruct (Z.eq_dec (succeeded (run l)) 1); [apply Y in e|]; lia.
Qed.
