(** What an interval subscription should deliver. *)
From Verif Require Import Common IntervalModel.
Local Open Scope list_scope.
Local Open Scope Z_scope.

(** the times of the successful reads when a turn takes [i] seconds *)
Fixpoint read_times (i now : Z) (reads : list bool) : list Z :=
  match reads with [] => [] | r :: reads => if r then (now + i * 1000) :: read_times i (now + i * 1000) reads else read_times i (now + i * 1000) reads end.
(** one event for each successful read; with a duration, floor(d/i) of them and then one that tells that
    the duration is over *)
Definition delivered (i d : Z) (times : list Z) : list (Z * ievent) :=
  if d =? 0 then map (fun t => (t, Interval)) times
  else map (fun t => (t, Interval)) (firstn (Z.to_nat (d / i)) times) ++
       match nth_error times (Z.to_nat (d / i)) with Some t => [(t, Complete)] | None => [] end.
Definition over (i d : Z) (times : list Z) : bool := negb (d =? 0) && (d / i <? Z.of_nat (length times)).
(** turns of a thread nobody stops: [reads] says which reads succeed *)
Definition turns (i : Z) (reads : list bool) : list turn := map (fun r => mkTurn true (i * 1000) r) reads.
