(** Properties of interval subscriptions: C39. *)
From Coq Require Import Lia.
From Verif Require Import Common IntervalModel IntervalSpec.
Local Open Scope list_scope.
Local Open Scope Z_scope.

Lemma loop_spec i d : 0 < i <= 2147483 -> 0 <= d -> forall reads ts count now, 0 <= count -> count + Z.of_nat (length reads) <= INT_MAX -> (d <> 0 -> count <= d / i) ->
  let times := read_times i now reads in
  publish_loop i d count now (turns i reads ++ ts) =
  if d =? 0 then do (l, e) <- publish_loop i d (count + Z.of_nat (length times)) (now + i * 1000 * Z.of_nat (length reads)) ts; Ok (map (fun t => (t, Interval)) times ++ l, e)
  else match nth_error times (Z.to_nat (d / i - count)) with
       | Some t => Ok (map (fun t => (t, Interval)) (firstn (Z.to_nat (d / i - count)) times) ++ [(t, Complete)], true)
       | None => do (l, e) <- publish_loop i d (count + Z.of_nat (length times)) (now + i * 1000 * Z.of_nat (length reads)) ts; Ok (map (fun t => (t, Interval)) times ++ l, e)
       end.
Proof.
  intros HI HD. induction reads as [|r reads IH]; intros ts count now C L B; cbv zeta.
  - cbn [turns map app read_times length Z.of_nat nth_error]. rewrite Z.add_0_r, Z.mul_0_r, Z.add_0_r. assert (Q : (do (l, e) <- publish_loop i d count now ts; Ok ([] ++ l, e)) = publish_loop i d count now ts).
    { destruct (publish_loop i d count now ts) as [[l e]|[]|]; reflexivity. }
    cbn [map app] in *. destruct (d =? 0); [now rewrite Q|]. destruct (Z.to_nat _); now rewrite Q.
  - cbn [turns map app publish_loop t_running t_wait t_read negb]. destruct (Z.ltb_spec INT_MAX (i * 1000)) as [X|X]; [unfold INT_MAX in X; lia|]. fold (turns i reads). cbn [length] in L. rewrite Nat2Z.inj_succ in L.
    assert (LT : forall now, Z.of_nat (length (read_times i now reads)) <= Z.of_nat (length reads)).
    { clear. induction reads as [|b l IH]; intros now; cbn; [lia|]. destruct b; cbn [length]; specialize (IH (now + i * 1000)); lia. }
    assert (ADV : now + i * 1000 * Z.of_nat (S (length reads)) = now + i * 1000 + i * 1000 * Z.of_nat (length reads)) by lia.
    destruct r; cbn [negb read_times].
    + destruct (Z.eqb_spec i 0) as [Z0|_]; [lia|]. rewrite andb_false_r. rewrite Z.quot_div_nonneg by lia.
      destruct (Z.eqb_spec d 0) as [D|D]; cbn [negb andb].
      * destruct (Z.eqb_spec count INT_MAX) as [Y|Y]; [lia|]. rewrite IH by lia. cbv zeta. cbn [obind map app length]. rewrite ADV, Nat2Z.inj_succ.
        replace (count + Z.succ (Z.of_nat (length (read_times i (now + i * 1000) reads)))) with (count + 1 + Z.of_nat (length (read_times i (now + i * 1000) reads))) by lia.
        destruct (publish_loop _ _ _ _ _) as [[l e]|[]|]; reflexivity.
      * specialize (B D). destruct (Z.leb_spec (d / i) count) as [Y|Y].
        -- assert (d / i - count = 0) as -> by lia. reflexivity.
        -- destruct (Z.eqb_spec count INT_MAX) as [W|W]; [lia|]. rewrite IH by lia. cbv zeta. replace (Z.to_nat (d / i - count)) with (S (Z.to_nat (d / i - (count + 1)))) by lia. cbn [nth_error firstn map app length].
           rewrite ADV, Nat2Z.inj_succ. replace (count + Z.succ (Z.of_nat (length (read_times i (now + i * 1000) reads)))) with (count + 1 + Z.of_nat (length (read_times i (now + i * 1000) reads))) by lia.
           destruct (nth_error _ _); cbn [obind]; [reflexivity|]. destruct (publish_loop _ _ _ _ _) as [[l e]|[]|]; reflexivity.
    + rewrite IH by (auto; lia). cbv zeta. cbn [length]. rewrite ADV. reflexivity.
Qed.
(** For every interval and duration and every pattern of failing reads: the events are exactly those the
    subscription should get, at the times of the successful reads, and the thread ends when and only
    when it has told that the duration is over. *)
Theorem C39_events_partial : forall i d reads, 0 < i <= 2147483 -> 0 <= d -> Z.of_nat (length reads) <= INT_MAX ->
  publishing i d (turns i reads) = Ok (delivered i d (read_times i 0 reads), over i d (read_times i 0 reads)).
Proof.
  intros i d reads HI HD L. unfold publishing. rewrite <- (app_nil_r (turns i reads)). rewrite loop_spec by (auto; try lia; intros; apply Z.div_pos; lia). cbv zeta. cbn [publish_loop obind]. rewrite app_nil_r. unfold delivered, over.
  destruct (Z.eqb_spec d 0) as [D|D]; [reflexivity|]. rewrite Z.sub_0_r. assert (P : 0 <= d / i) by (apply Z.div_pos; lia). cbn [negb andb].
  destruct (nth_error _ _) as [t|] eqn:N.
  - f_equal. f_equal. symmetry. apply Z.ltb_lt. assert (Z.to_nat (d / i) < length (read_times i 0 reads))%nat by (apply nth_error_Some; congruence). lia.
  - apply nth_error_None in N. rewrite app_nil_r, firstn_all2 by exact N. f_equal. f_equal. symmetry. apply Z.ltb_ge. lia.
Qed.
Print Assumptions C39_events_partial.
(** When it is stopped: the same up to the turn that sees the flag, and then nothing. *)
Theorem C39_stopped_partial : forall i d reads w r ts, 0 < i <= 2147483 -> 0 <= d -> Z.of_nat (length reads) <= INT_MAX ->
  publishing i d (turns i reads ++ mkTurn false w r :: ts) = Ok (delivered i d (read_times i 0 reads), true).
Proof.
  intros i d reads w r ts HI HD L. unfold publishing. rewrite loop_spec by (auto; try lia; intros; apply Z.div_pos; lia). cbv zeta. cbn [publish_loop t_running negb obind]. rewrite app_nil_r. unfold delivered.
  destruct (Z.eqb_spec d 0) as [D|D]; [reflexivity|]. rewrite Z.sub_0_r. destruct (nth_error _ _) as [t|] eqn:N; [reflexivity|]. apply nth_error_None in N. now rewrite app_nil_r, firstn_all2 by exact N.
Qed.
Print Assumptions C39_stopped_partial.
(** With every read succeeding: events at i, 2i, ... and the end one interval after the last of them. *)
Theorem C39_times_partial : forall i q n, 0 < i <= 2147483 -> (0 < q)%nat -> Z.of_nat (q + S n) <= INT_MAX ->
  publishing i (i * Z.of_nat q) (turns i (repeat true (q + S n))) =
  Ok (map (fun k => (1000 * i * Z.of_nat k, Interval)) (List.seq 1 q) ++ [(1000 * i * Z.of_nat (S q), Complete)], true).
Proof.
  intros i q n HI HQ L. rewrite C39_events_partial; [|lia|nia|rewrite repeat_length; lia].
  assert (RT : forall m now, read_times i now (repeat true m) = map (fun k => now + 1000 * i * Z.of_nat k) (List.seq 1 m)).
  { induction m as [|m IH]; intros now; [reflexivity|]. cbn [repeat read_times List.seq map]. rewrite IH. f_equal; [lia|]. rewrite <- (seq_shift m 1), map_map. apply map_ext. intros k. lia. }
  rewrite RT. unfold delivered, over. assert (DV : i * Z.of_nat q / i = Z.of_nat q) by (rewrite Z.mul_comm; apply Z.div_mul; lia). rewrite DV, Nat2Z.id. destruct (Z.eqb_spec (i * Z.of_nat q) 0) as [X|X]; [nia|]. cbn [negb andb].
  rewrite map_length, seq_length. f_equal. f_equal; [|apply Z.ltb_lt; lia]. rewrite seq_app, map_app. cbn [List.seq map Nat.add].
  rewrite firstn_app, map_length, seq_length, Nat.sub_diag, firstn_O, app_nil_r, firstn_all2 by (rewrite map_length, seq_length; lia).
  rewrite nth_error_app2 by (rewrite map_length, seq_length; lia). rewrite map_length, seq_length, Nat.sub_diag. cbn [nth_error]. rewrite map_map. f_equal.
Qed.
Print Assumptions C39_times_partial.
Example C39_witness : publishing 10 35 (turns 10 [true; false; true; true; true; true]) = Ok ([(10000, Interval); (30000, Interval); (40000, Interval); (50000, Complete)], true) /\
  publishing 10 0 (turns 10 [true; false; true]) = Ok ([(10000, Interval); (30000, Interval)], false) /\ publishing 10 5 (turns 10 [false; true]) = Ok ([(20000, Complete)], true).
Proof. vm_compute. repeat split. Qed.
(** The flag is looked at only before the wait: the signal that is to stop the thread makes it publish
    once more, before the interval is over; with the duration just over, it even reports that. *)
Theorem C39_unsubscribe_refuted : publishing 10 0 [mkTurn true 10000 true; mkTurn true 1 true; mkTurn false 0 true] = Ok ([(10000, Interval); (10001, Interval)], true) /\
  publishing 10 10 [mkTurn true 10000 true; mkTurn true 1 true] = Ok ([(10000, Interval); (10001, Complete)], true).
Proof. vm_compute. split; reflexivity. Qed.
Print Assumptions C39_unsubscribe_refuted.
(** An interval of 2147484 seconds or more overflows. *)
Theorem C39_overflow_refuted : forall d t ts, t_running t = true -> publishing 2147484 d (t :: ts) = UB.
Proof. intros d t ts H. unfold publishing. cbn [publish_loop]. rewrite H. reflexivity. Qed.
Print Assumptions C39_overflow_refuted.
