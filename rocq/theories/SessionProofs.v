(** Proofs about sessions. *)
From Verif Require Import Common Errors SessionModel SessionSpec.
From Coq Require Import ZifyBool.
Local Open Scope Z_scope.

Definition held (m : manager) : option Z := if m =? 0 then None else Some m.
Lemma step_right : forall m o, m = 0 \/ m = 1 ->
  let '(r, m') := step m o in right_answer (held m) (o, r) /\ after (held m) (o, r) = held m' /\ (m' = 0 \/ m' = 1).
Proof.
  intros m [| |id] M.
  1,2: destruct M as [-> | ->]; cbn; repeat split; try discriminate; auto.
  unfold step, right_answer, after. destruct (id =? 0) eqn:E; [cbn; repeat split; auto|].
  destruct M as [-> | ->]; unfold end_session; rewrite E; cbn [negb]; [repeat split; cbn; auto|].
  destruct (id =? 1) eqn:F; cbn; rewrite ?F; repeat split; auto.
Qed.

Lemma run_right : forall ops m, m = 0 \/ m = 1 -> forall h1 e h2, fst (run m ops) = h1 ++ e :: h2 ->
  right_answer (fold_left after h1 (held m)) e.
Proof.
  induction ops as [|o ops IH]; intros m M h1 e h2 E; cbn in E.
  - destruct h1; discriminate E.
  - pose proof (step_right m o M) as S. destruct (step m o) as [r m1]. destruct S as (R & A & M1).
    specialize (IH m1 M1). destruct (run m1 ops) as [rs m2]. cbn in E, IH.
    destruct h1 as [|x h1]; cbn in E.
    + injection E as <- _. exact R.
    + injection E as <- E. cbn [fold_left]. rewrite A. exact (IH h1 e h2 E).
Qed.

Lemma sessions : forall ops h1 e h2, fst (run manager_init ops) = h1 ++ e :: h2 ->
  right_answer (open_after h1) e.
Proof. intros ops. exact (run_right ops 0 (or_introl eq_refl)). Qed.
Lemma one_at_a_time : forall ops h1 r1 h2 r2 h3,
  fst (run manager_init ops) = h1 ++ (Create, r1) :: h2 ++ (Create, r2) :: h3 -> r_code r1 = E_SUCCESS -> r_code r2 = E_SUCCESS ->
  exists id r, In (Close id, r) h2 /\ id = r_id r1 /\ r_code r = E_SUCCESS.
Proof.
  intros ops h1 r1 h2 r2 h3 E S1 S2.
  pose proof (sessions ops h1 (Create, r1) _ E) as R1. cbn in R1.
  assert (I1 : r_id r1 <> 0). { destruct (open_after h1); [destruct R1 as [R1 _]; rewrite S1 in R1; discriminate|tauto]. }
  assert (G : forall a b, h2 = a ++ b -> (exists id r, In (Close id, r) a /\ id = r_id r1 /\ r_code r = E_SUCCESS) \/
     open_after (h1 ++ (Create, r1) :: a) = Some (r_id r1)).
  { induction a as [|e a IH] using rev_ind; intros b Hab.
    - right. unfold open_after. rewrite fold_left_app. cbn. rewrite S1. reflexivity.
    - rewrite <- app_assoc in Hab. destruct (IH _ Hab) as [(id & r & I & J)|O].
      + left. exists id, r. split; [apply in_or_app; now left|exact J].
      + pose proof (sessions ops (h1 ++ (Create, r1) :: a) e (b ++ (Create, r2) :: h3)) as R.
        rewrite O in R. specialize (R ltac:(rewrite E, Hab; rewrite <- ?app_assoc; cbn; rewrite <- ?app_assoc; reflexivity)).
        replace (h1 ++ (Create, r1) :: a ++ [e]) with ((h1 ++ (Create, r1) :: a) ++ [e]) by (rewrite <- app_assoc; reflexivity).
        unfold open_after in *. rewrite fold_left_app, O. cbn [fold_left].
        destruct e as [[| |id] r]; cbn in *.
        * right. destruct R as [R _]. rewrite R. reflexivity.
        * right. reflexivity.
        * destruct (id =? 0) eqn:Z; cbn in *; [right; now rewrite andb_false_r|].
          destruct (id =? r_id r1) eqn:Q; destruct R as [R _]; rewrite R; cbn; [left|right; reflexivity].
          exists id, r. split; [apply in_or_app; right; now left|]. split; [lia|exact R]. }
  destruct (G h2 [] ltac:(now rewrite app_nil_r)) as [X|O]; [exact X|].
  pose proof (sessions ops (h1 ++ (Create, r1) :: h2) (Create, r2) h3 ltac:(rewrite E; rewrite <- ?app_assoc; reflexivity)) as R.
  rewrite O in R. cbn in R. destruct R as [R _]. rewrite S2 in R. discriminate.
Qed.
