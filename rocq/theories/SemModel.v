(** Model of src/rtmessage/rtSemaphore.c under interleaving.  Every critical section is one
    step; condition-variable waits end by a signal, by the clock or spuriously. *)
From Verif Require Import Common.
Local Open Scope Z_scope.

(** where a thread is: outside; blocked in pthread_cond_(timed)wait; woken and about to take
    the mutex again; rtSemaphore.c:95-135 *)
Inductive place := Idle | Blocked (timed : bool) | Woken.
(** [value]: sem->v; [unsent]: posts whose pthread_cond_signal is still to come; rtSemaphore.c:39-44; the counters are ghosts *)
Record state := mkState { value : Z; unsent : nat; at_ : nat -> place; posts : Z; taken : Z; succeeded : Z; timeouts : Z }.
(** rtSemaphore.c:46-70 *)
Definition init : state := mkState 0 0 (fun _ => Idle) 0 0 0 0.

(** the critical sections of rtSemaphore.c:75-135 *)
Inductive action :=
| Post                        (* rtSemaphore.c:79-81: lock, v++, unlock *)
| Signal (j : option nat)     (* rtSemaphore.c:82: the signal wakes one of the blocked threads, or none is blocked *)
| Wait (i : nat) (timed : bool) (* rtSemaphore.c:102-112: take a post, or block *)
| Spurious (i : nat)          (* POSIX allows pthread_cond_wait to return on its own *)
| Clock (i : nat)             (* rtSemaphore.c:118-123,130: pthread_cond_timedwait gave ETIMEDOUT *)
| Resume (i : nat).           (* rtSemaphore.c:113-117,130: the wait returned 0 *)

(** helper, no code of its own *)
Definition set_at (s : state) (i : nat) (p : place) : nat -> place := fun k => if Nat.eqb k i then p else at_ s k.
(** One operation of a history: calls the functions modelled above; no code of its own. *)
Definition step (s : state) (a : action) : state :=
  match a with
  | Post => mkState (value s + 1) (S (unsent s)) (at_ s) (posts s + 1) (taken s) (succeeded s) (timeouts s)
  | Signal j =>
    match unsent s with
    | O => s
    | S n =>
      let where_ := match j with
                    | Some i => match at_ s i with Blocked _ => set_at s i Woken | _ => at_ s end
                    | None => at_ s
                    end in
      mkState (value s) n where_ (posts s) (taken s) (succeeded s) (timeouts s)
    end
  | Wait i timed =>
    match at_ s i with
    | Idle =>
      if 0 <? value s
      then mkState (value s - 1) (unsent s) (at_ s) (posts s) (taken s + 1) (succeeded s + 1) (timeouts s)
      else mkState (value s) (unsent s) (set_at s i (Blocked timed)) (posts s) (taken s) (succeeded s) (timeouts s)
    | _ => s
    end
  | Spurious i =>
    match at_ s i with
    | Blocked _ => mkState (value s) (unsent s) (set_at s i Woken) (posts s) (taken s) (succeeded s) (timeouts s)
    | _ => s
    end
  | Clock i =>
    match at_ s i with
    | Blocked true => mkState (value s) (unsent s) (set_at s i Idle) (posts s) (taken s) (succeeded s) (timeouts s + 1)
    | _ => s
    end
  | Resume i =>
    match at_ s i with
    | Woken =>
      if 0 <? value s
      then mkState (value s - 1) (unsent s) (set_at s i Idle) (posts s) (taken s + 1) (succeeded s + 1) (timeouts s)
      else mkState (value s) (unsent s) (set_at s i Idle) (posts s) (taken s) (succeeded s + 1) (timeouts s)
    | _ => s
    end
  end.
(** A history: one operation after the other; no code of its own. *)
Definition run (l : list action) : state := fold_left step l init.
