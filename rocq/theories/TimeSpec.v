(** A time as a single number of nanoseconds. *)
From Verif Require Import Common TimeModel.
Local Open Scope Z_scope.

Definition time_ns (t : rtTime) : Z := tv_sec t * 1000000000 + tv_nsec t.
Definition time_wf (t : rtTime) : bool := (0 <=? tv_nsec t) && (tv_nsec t <? 1000000000).
