(** C48: at most one session is open. *)
From Verif Require Import Common Errors SessionModel SessionSpec SessionProofs.
Local Open Scope Z_scope.

(** C48: in every history, every answer is the one due in view of the session that
    is open according to the earlier answers: a session is granted only when none is
    open, it ends only through a close with its id, the query and the published
    event report the open one. *)
Theorem C48_sessions : forall ops h1 e h2, fst (run manager_init ops) = h1 ++ e :: h2 ->
  right_answer (open_after h1) e.
Proof. exact sessions. Qed.
Print Assumptions C48_sessions.
Example C48_sessions_ex : map (fun e => r_code (snd e)) (fst (run manager_init [Create; Create; Close 7; Current; Close 1; Create]))
  = [E_SUCCESS; E_SESSION_ALREADY_EXIST; E_SESSION_ALREADY_EXIST; E_SUCCESS; E_SUCCESS; E_SUCCESS].
Proof. vm_compute. reflexivity. Qed.
(** C48: between two grants there is a successful close. *)
Theorem C48_one_at_a_time : forall ops h1 r1 h2 r2 h3,
  fst (run manager_init ops) = h1 ++ (Create, r1) :: h2 ++ (Create, r2) :: h3 -> r_code r1 = E_SUCCESS -> r_code r2 = E_SUCCESS ->
  exists id r, In (Close id, r) h2 /\ id = r_id r1 /\ r_code r = E_SUCCESS.
Proof. exact one_at_a_time. Qed.
Print Assumptions C48_one_at_a_time.
(** C48: the session id is always the same, so a close sent late, for a session that
    is already over, ends the session another component has opened since.  In the
    history below the second component's session is ended by the first's second close. *)
Theorem C48_stale_close_refuted :
  exists h, fst (run manager_init [Create; Close 1; Create; Close 1]) = h /\
    map (fun e => r_code (snd e)) h = [E_SUCCESS; E_SUCCESS; E_SUCCESS; E_SUCCESS] /\
    map (fun e => r_id (snd e)) h = [1; 0; 1; 0] /\ open_after h = None.
Proof. eexists. split; [vm_compute; reflexivity|]. vm_compute. repeat split. Qed.
Print Assumptions C48_stale_close_refuted.
(** C48: closing session 0 reports success and ends nothing. *)
Theorem C48_close_zero : forall m, step m (Close 0) = (mkRes E_SUCCESS 0 None, m).
Proof. reflexivity. Qed.
Print Assumptions C48_close_zero.
