(** C50: shared reference counts. *)
From Verif Require Import Common RetainModel RetainSpec RetainProofs.
Local Open Scope Z_scope.

(** Any number of threads, any schedule that does not touch freed memory: the destructor runs
    at most once, only after the last release, and once all releases have returned it has run
    exactly if no reference is left. *)
Theorem C50_destroy_once_partial : forall n l s, run (init n) l = Ok s ->
  (destroyed s <= 1)%nat /\
  (destroyed s = 1%nat -> total (threads s) = 0%nat) /\
  (quiescent s -> (destroyed s = 1%nat <-> total (threads s) = 0%nat)).
Proof. exact exactly_once. Qed.
Print Assumptions C50_destroy_once_partial.

(** If no release starts while another one is between its two steps, no freed memory is touched. *)
Theorem C50_serialized_safe_partial : forall n l, serialized (init n) l -> exists s, run (init n) l = Ok s.
Proof. exact serialized_ok. Qed.
Print Assumptions C50_serialized_safe_partial.

(** Two threads that release the last two references at once: both subtract, the first to
    test destroys the object, the second reads the freed counter. *)
Theorem C50_concurrent_release_refuted :
  run (init 1) [Retain 0; Give 0 1; Sub 0; Sub 1; Test 0; Test 1] = UB.
Proof. reflexivity. Qed.
Print Assumptions C50_concurrent_release_refuted.

Example C50_witness : exists s,
  run (init 2) [Retain 0; Give 0 1; Retain 1; Give 1 2; Sub 1; Test 1; Sub 0; Test 0; Sub 2; Test 2] = Ok s /\
  destroyed s = 1%nat /\ quiescent s /\
  serialized (init 2) [Retain 0; Give 0 1; Retain 1; Give 1 2; Sub 1; Test 1; Sub 0; Test 0; Sub 2; Test 2].
Proof.
  eexists. split; [vm_compute; reflexivity|]. split; [reflexivity|]. split; [|vm_compute; repeat (split; [exact I || reflexivity|]); exact I].
  intros t H. cbn [threads In] in H. destruct H as [<-|[<-|[<-|[]]]]; reflexivity.
Qed.
