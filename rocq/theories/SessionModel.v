(** Model of the session manager (src/session_manager/session_manager.c) and the
    client functions that use it (src/rbus/rbus.c:6240-6388).  Simplifications: the
    method calls are answered (communication failures are not modelled) and the
    manager handles one request at a time, as its callback thread does. *)
From Verif Require Import Common Errors.
Local Open Scope Z_scope.

(** session_manager.c:31: g_current_session_id *)
Definition manager := Z.
(** session_manager.c:31, continued *)
Definition manager_init : manager := 0.
(** src/core/rbuscore_types.h:31 *)
Definition CORE_INVALID_STATE : Z := 4.

(** session_manager.c:44-58: (return_value, sessionid) *)
Definition get_current (m : manager) : Z * option Z := (0, Some m).
(** 60-86: the reply and the state; [None] when the reply has no "sessionid" *)
Definition request_session (m : manager) : Z * option Z * manager :=
  if m =? 0 then (0, Some 1, 1) else (CORE_INVALID_STATE, None, m).
(** 110-139: [None] when the request carries no property *)
Definition end_session (m : manager) (id : option Z) : Z * manager :=
  match id with
  | Some id => if negb (id =? 0) then if id =? m then (E_SUCCESS, 0) else (E_SESSION_ALREADY_EXIST, m)
               else (E_INVALID_INPUT, m)
  | None => (E_INVALID_INPUT, m)
  end.

(** The client functions; [published] is the session id in the event the manager
    publishes (87-108, 141-163), if it publishes one. *)
Inductive op := Create | Current | Close (id : Z).
(** session_manager.c:87-108, 141-163, continued *)
Record result := mkRes { r_code : Z; r_id : Z; r_published : option Z }.
(** rbus.c:6240-6283, 6285-6327, 6329-6381 *)
Definition step (m : manager) (o : op) : result * manager :=
  match o with
  | Create =>
      let '(rv, id, m') := request_session m in
      (if negb (rv =? 0) then mkRes E_SESSION_ALREADY_EXIST 0 (Some m')
       else mkRes E_SUCCESS (match id with Some i => i | None => 0 end) (Some m'), m')
  | Current =>
      let '(rv, id) := get_current m in
      (if negb (rv =? 0) then mkRes E_SESSION_ALREADY_EXIST 0 None
       else mkRes E_SUCCESS (match id with Some i => i | None => 0 end) None, m)
  | Close id =>
      if id =? 0 then (mkRes E_SUCCESS 0 None, m)
      else let '(rv, m') := end_session m (Some id) in
           (mkRes (if rv =? 0 then E_SUCCESS else E_SESSION_ALREADY_EXIST) 0 (Some m'), m')
  end.
(** A history: one operation after the other; no code of its own. *)
Fixpoint run (m : manager) (ops : list op) : list (op * result) * manager :=
  match ops with
  | [] => ([], m)
  | o :: ops => let '(r, m1) := step m o in let '(rs, m2) := run m1 ops in ((o, r) :: rs, m2)
  end.
