(** Model of the thread that serves one interval subscription,
    src/rbus/rbus_intervalsubscription.c:105-214 PublishingThreadFunc.  Times are milliseconds since the
    thread started; reading and publishing take no time. *)
From Verif Require Import Common.
Local Open Scope list_scope.
Local Open Scope Z_scope.

(** One turn of the loop: the flag as the loop head sees it (117), how long the timed wait took (125-129;
    the whole interval unless it was signalled), and whether the values could be read (142-159). *)
Record turn := mkTurn { t_running : bool; t_wait : Z; t_read : bool }.
(** rbus_intervalsubscription.c:105-214, continued *)
Inductive ievent := Interval | Complete.
(** rbus_intervalsubscription.c:105-214, continued *)
Definition INT_MAX : Z := 2147483647.
(** [count] as in the code; the result is the events with their times, and whether the thread ended; rbus_intervalsubscription.c:105-214 *)
Fixpoint publish_loop (i d count now : Z) (ts : list turn) : outcome unit (list (Z * ievent) * bool) :=
  match ts with
  | [] => Ok ([], false)
  | t :: ts =>
      if negb (t_running t) then Ok ([], true) else
      if INT_MAX <? i * 1000 then UB else
      let now := now + t_wait t in
      if negb (t_read t) then publish_loop i d count now ts else
      if negb (d =? 0) && (i =? 0) then UB else
      if negb (d =? 0) && (Z.quot d i <=? count) then Ok ([(now, Complete)], true) else
      if count =? INT_MAX then UB else
      do (l, e) <- publish_loop i d (count + 1) now ts; Ok ((now, Interval) :: l, e)
  end.
(** rbus_intervalsubscription.c:105-214, continued *)
Definition publishing (i d : Z) (ts : list turn) := publish_loop i d 0 0 ts.
