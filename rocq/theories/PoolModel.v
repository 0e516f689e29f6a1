(** Model of the thread pool: src/rtmessage/rtThreadPool.c.
    A step is what one thread does from taking the pool's mutex to giving it up.  Simplifications:
    memory is not exhausted; which waiting thread a signal wakes is an input; the passing of time is
    the step [Expire] of a waiting thread, and the end of a bounded wait may come at any moment. *)
From Verif Require Import Common.
Local Open Scope list_scope.
Local Open Scope Z_scope.

(** where a worker is: created but not yet running (157-174); running a task (128); waiting for one
    (140); woken, or timed out, and waiting for the mutex; after its last turn (151, 152), with the
    test of 75 still to be made or made with result true; gone *)
Inductive phase := Starting | Busy (t : Z) | Waiting | Woken | Expired | Leaving | Freeing | Gone.
(** 35-49 *)
Record pool := mkPool {
  queue : list Z; workers : list phase; count : Z; busy : Z; most : Z;
  running : bool; shutdown : bool; freed : bool;
  owner : phase (* of the destroying thread: Waiting (has not called), Leaving, Freeing, Gone *) }.
(** rtThreadPool.c:35-49, continued *)
Inductive event := Submitted (t : Z) (code : Z) | Began (t : Z) | Ended (t : Z) | Cancelled (n : nat).
(** rtThreadPool.h:28 *)
Definition RT_OK := 0.
(** rtThreadPool.h:28, continued *)
Definition TASK_PENDING := 3001.
(** 176-207 *)
Definition create (max : Z) : pool := mkPool [] [] 0 0 max true false false Waiting.

(** helper, no code of its own *)
Definition with_queue (p : pool) (q : list Z) : pool := mkPool q (workers p) (count p) (busy p) (most p) (running p) (shutdown p) (freed p) (owner p).
(** helper, no code of its own *)
Definition with_worker (p : pool) (i : nat) (x : phase) : pool := mkPool (queue p) (upd (workers p) i x) (count p) (busy p) (most p) (running p) (shutdown p) (freed p) (owner p).
(** helper, no code of its own *)
Definition with_counts (p : pool) (c b : Z) : pool := mkPool (queue p) (workers p) c b (most p) (running p) (shutdown p) (freed p) (owner p).
(** helper, no code of its own *)
Definition with_owner (p : pool) (x : phase) : pool := mkPool (queue p) (workers p) (count p) (busy p) (most p) (running p) (shutdown p) (freed p) x.
(** helper, no code of its own *)
Definition with_freed (p : pool) : pool := mkPool (queue p) (workers p) (count p) (busy p) (most p) (running p) (shutdown p) true (owner p).
(** helper, no code of its own *)
Definition is_waiting (x : phase) : bool := match x with Waiting => true | _ => false end.

(** 149-151: a worker's end *)
Definition leave (p : pool) (i : nat) : pool := with_worker (with_counts p (count p - 1) (busy p)) i Leaving.
(** 89-113, 122-148: worker [i] holds the mutex at the head of the loop *)
Definition turn (p : pool) (i : nat) : pool * list event :=
  if running p then
    match queue p with
    | t :: q => (with_worker (with_counts (with_queue p q) (count p) (busy p + 1)) i (Busy t), [Began t])
    | [] => (with_worker p i Waiting, [])
    end
  else (leave p i, []).
(** 71-78: the test; true if the caller goes on to free the pool *)
Definition should_destroy (p : pool) : bool := (count p =? 0) && shutdown p.

(** The operations a history consists of, one for each function modelled above; no code of its own. *)
Inductive op :=
| Submit (t : Z) (w : option nat) (made : bool)  (* made: pthread_create succeeds *)
| Enter (i : nat) | Return (i : nat) | Wake (i : nat) | Expire (i : nat) | Spurious (i : nat)
| Stop (all : bool)  (* all: waitTimeMS is negative *)
| Shut | Check (i : option nat) | Free (i : option nat).
(** the worker that an operation of one is about, or the destroying thread; helper, no code of its own *)
Definition at_ (p : pool) (i : option nat) : option phase := match i with Some i => nth_error (workers p) i | None => Some (owner p) end.
(** helper, no code of its own *)
Definition move (p : pool) (i : option nat) (x : phase) : pool := match i with Some i => with_worker p i x | None => with_owner p x end.
(** Err: not possible in this state; each case cites its lines in rtThreadPool.c *)
Definition act (p : pool) (o : op) : outcome unit (pool * list event) :=
  match o with
  | Submit t w made => (* 293-342 *)
      let p1 := with_queue p (queue p ++ [t]) in
      if busy p <? count p then
        match w with (* 320: one of those that wait is woken *)
        | Some i => match nth_error (workers p) i with Some Waiting => Ok (with_worker p1 i Woken, [Submitted t RT_OK]) | _ => Err tt end
        | None => if existsb is_waiting (workers p) then Err tt else Ok (p1, [Submitted t RT_OK])
        end
      else if count p <? most p then (* 157-174: the result of pthread_create is not looked at *)
        Ok (if made then mkPool (queue p1) (workers p ++ [Starting]) (count p) (busy p) (most p) (running p) (shutdown p) (freed p) (owner p) else p1, [Submitted t RT_OK])
      else Ok (p1, [Submitted t TASK_PENDING])
  | Enter i => match nth_error (workers p) i with Some Starting => Ok (turn (with_counts p (count p + 1) (busy p)) i) | _ => Err tt end (* 120-121 *)
  | Return i => match nth_error (workers p) i with
                | Some (Busy t) => let (p1, e) := turn (with_counts p (count p) (busy p - 1)) i in Ok (p1, Ended t :: e) (* 129-131 *)
                | _ => Err tt end
  | Wake i => match nth_error (workers p) i with
              | Some Woken => Ok (turn p i)
              | Some Expired => Ok (leave p i, []) (* 142-146 *)
              | _ => Err tt end
  | Expire i => match nth_error (workers p) i with Some Waiting => Ok (with_worker p i Expired, []) | _ => Err tt end
  | Spurious i => match nth_error (workers p) i with Some Waiting => Ok (with_worker p i Woken, []) | _ => Err tt end
  | Stop all => (* 237-278 *)
      if (all && (0 <? busy p))%bool then Err tt else
      Ok (mkPool (queue p) (map (fun x => if is_waiting x then Woken else x) (workers p)) (count p) (busy p) (most p) false (shutdown p) (freed p) (owner p), [Cancelled (length (queue p))])
  | Shut => match owner p with (* 285-287 *)
            | Waiting => if running p then Err tt else Ok (mkPool (queue p) (workers p) (count p) (busy p) (most p) (running p) true (freed p) Leaving, [])
            | _ => Err tt end
  | Check i => match at_ p i with Some Leaving => Ok (move p i (if should_destroy p then Freeing else Gone), []) | _ => Err tt end (* 74-78 *)
  | Free i => match at_ p i with Some Freeing => Ok (with_freed (move p i Gone), []) | _ => Err tt end (* 80-85 *)
  end.
(** every step uses the pool; once it is freed that is UB; no code of its own *)
Definition step (p : pool) (o : op) : outcome unit (pool * list event) :=
  do r <- act p o ; if freed p then UB else Ok r.
(** the trace, oldest first; no code of its own *)
Fixpoint run (p : pool) (ops : list op) : outcome unit (pool * list event) :=
  match ops with
  | [] => Ok (p, [])
  | o :: ops => do (p1, e) <- step p o ; do (p2, tr) <- run p1 ops ; Ok (p2, e ++ tr)
  end.
