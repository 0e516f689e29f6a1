(** C52: the semaphore. *)
From Verif Require Import Common SemModel SemSpec SemProofs.
Local Open Scope Z_scope.
Local Open Scope list_scope.

(** Posts are neither lost nor used twice: each is still in the value or was taken once. *)
Theorem C52_posts_accounted : forall l, let s := run l in
  0 <= value s /\ posts s = value s + taken s /\ 0 <= taken s <= succeeded s.
Proof. exact accounting. Qed.
Print Assumptions C52_posts_accounted.

(** A semaphore on which there is a single wait (the way a pending request uses it): the wait
    succeeds only after a post, unless the condition variable wakes up spuriously. *)
Theorem C52_single_wait_partial : forall l, existsb is_spurious l = false -> waits l <= 1 ->
  succeeded (run l) <= posts (run l).
Proof. exact single_wait. Qed.
Print Assumptions C52_single_wait_partial.

(** A single spurious wakeup makes a wait succeed without any post. *)
Theorem C52_spurious_refuted : succeeded (run [Wait 0 false; Spurious 0; Resume 0]) = 1 /\
  posts (run [Wait 0 false; Spurious 0; Resume 0]) = 0.
Proof. split; reflexivity. Qed.
Print Assumptions C52_spurious_refuted.

(** Even without one, a second waiter can take the post before the woken one gets the mutex:
    one post, two successful waits. *)
Theorem C52_stolen_wakeup_refuted :
  let l := [Wait 0 false; Post; Signal (Some 0%nat); Wait 1 false; Resume 0] in
  existsb is_spurious l = false /\ succeeded (run l) = 2 /\ posts (run l) = 1.
Proof. repeat split. Qed.
Print Assumptions C52_stolen_wakeup_refuted.

Example C52_witness :
  succeeded (run [Wait 3 true; Post; Signal (Some 3%nat); Resume 3]) = 1 /\
  waits [Wait 3 true; Post; Signal (Some 3%nat); Resume 3] = 1 /\
  timeouts (run [Wait 3 true; Clock 3; Post]) = 1 /\ value (run [Wait 3 true; Clock 3; Post]) = 1.
Proof. repeat split. Qed.
