(** C53: time arithmetic. *)
From Verif Require Import Common TimeModel TimeSpec TimeProofs.
Local Open Scope Z_scope.

Theorem C53_later_adds_exactly : forall t ms,
  time_wf t = true -> 0 <= ms ->
  time_ns (rtTime_Later t ms) = time_ns t + ms * 1000000 /\ time_wf (rtTime_Later t ms) = true.
Proof. exact later_ns. Qed.
Print Assumptions C53_later_adds_exactly.

(** Elapsed is the floor of the difference in milliseconds, whenever it fits in an int. *)
Theorem C53_elapsed_is_floor : forall s e,
  time_wf s = true -> time_wf e = true ->
  - 2147483648 <= (time_ns e - time_ns s) / 1000000 < 2147483648 ->
  rtTime_Elapsed s e = (time_ns e - time_ns s) / 1000000.
Proof. exact elapsed_ns. Qed.
Print Assumptions C53_elapsed_is_floor.

Theorem C53_elapsed_later_partial : forall t ms,
  time_wf t = true -> 0 <= ms < 2147483648 ->
  rtTime_Elapsed t (rtTime_Later t ms) = ms.
Proof. exact elapsed_later. Qed.
Print Assumptions C53_elapsed_later_partial.

Theorem C53_compare_chronological : forall a b,
  time_wf a = true -> time_wf b = true ->
  rtTime_Compare a b = Z.sgn (time_ns a - time_ns b).
Proof. exact compare_ns. Qed.
Print Assumptions C53_compare_chronological.

Example C53_witness :
  time_wf (mkTime 5 999999999) = true /\
  rtTime_Later (mkTime 5 999999999) 2001 = mkTime 8 999999 /\
  rtTime_Elapsed (mkTime 5 999999999) (mkTime 8 999999) = 2001 /\
  rtTime_Compare (mkTime 5 999999999) (mkTime 8 999999) = -1.
Proof. repeat split. Qed.

(** rtTime_Later accepts any unsigned int, but from 2^31 ms (24.8 days) on the
    int result of rtTime_Elapsed wraps and is negative. *)
Theorem C53_elapsed_later_refuted :
  exists t ms, time_wf t = true /\ 0 <= ms < 4294967296 /\ rtTime_Elapsed t (rtTime_Later t ms) < 0.
Proof. exact elapsed_later_wraps. Qed.
Print Assumptions C53_elapsed_later_refuted.
