From Verif Require Import Common CommonFacts Bytes BytesFacts TimeModel TimeSpec.
Local Open Scope Z_scope.
Ltac Zify.zify_post_hook ::= Z.div_mod_to_equations.

Lemma later_ns t ms : time_wf t = true -> 0 <= ms ->
  time_ns (rtTime_Later t ms) = time_ns t + ms * 1000000 /\ time_wf (rtTime_Later t ms) = true.
Proof.
  unfold time_wf, rtTime_Later, time_ns. intros W Hm.
  destruct (Z.leb_spec 1000000000 (tv_nsec t + ms mod 1000 * 1000000)); cbn [tv_sec tv_nsec]; lia.
Qed.

Lemma elapsed_ns s e : time_wf s = true -> time_wf e = true ->
  - 2147483648 <= (time_ns e - time_ns s) / 1000000 < 2147483648 ->
  rtTime_Elapsed s e = (time_ns e - time_ns s) / 1000000.
Proof.
  unfold time_wf, rtTime_Elapsed, time_ns. intros Ws We R.
  match goal with |- to_signed 32 (to_unsigned 32 ?x) = _ => assert (E : x =
    (tv_sec e * 1000000000 + tv_nsec e - (tv_sec s * 1000000000 + tv_nsec s)) / 1000000) end.
  { destruct (Z.leb_spec (tv_nsec s) (tv_nsec e)); lia. }
  rewrite E. apply to_signed_unsigned; [lia|]. change (2 ^ (32 - 1)) with 2147483648. exact R.
Qed.

Lemma elapsed_later t ms : time_wf t = true -> 0 <= ms < 2147483648 ->
  rtTime_Elapsed t (rtTime_Later t ms) = ms.
Proof.
  intros W Hm. destruct (later_ns t ms W ltac:(lia)) as [E W'].
  rewrite elapsed_ns; auto; rewrite E;
  replace (time_ns t + ms * 1000000 - time_ns t) with (ms * 1000000) by lia;
  rewrite Z.div_mul by lia; lia.
Qed.

Lemma compare_ns a b : time_wf a = true -> time_wf b = true ->
  rtTime_Compare a b = Z.sgn (time_ns a - time_ns b).
Proof.
  unfold time_wf, rtTime_Compare, time_ns. intros Wa Wb.
  destruct (_ || _) eqn:E1; [|destruct ((tv_sec a >? tv_sec b) || _) eqn:E2]; lia.
Qed.

Lemma elapsed_later_wraps :
  exists t ms, time_wf t = true /\ 0 <= ms < 4294967296 /\ rtTime_Elapsed t (rtTime_Later t ms) < 0.
Proof. exists (mkTime 0 0), 2147483648. repeat split; vm_compute; congruence. Qed.
