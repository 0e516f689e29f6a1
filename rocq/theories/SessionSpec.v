(** Which session is open, from what the clients saw: the id of the last successful
    create that was not followed by a successful close of a non-zero id. *)
From Verif Require Import Common Errors SessionModel.
Local Open Scope Z_scope.

Definition after (open : option Z) (e : op * result) : option Z :=
  match e with
  | (Create, r) => if r_code r =? 0 then Some (r_id r) else open
  | (Close id, r) => if (r_code r =? 0) && negb (id =? 0) then None else open
  | (Current, _) => open
  end.
Definition open_after (h : list (op * result)) : option Z := fold_left after h None.

(** What each operation must answer when [open] is the open session. *)
Definition right_answer (open : option Z) (e : op * result) : Prop :=
  match e with
  | (Create, r) =>
      match open with
      | None => r_code r = E_SUCCESS /\ r_id r <> 0 /\ r_published r = Some (r_id r)
      | Some i => r_code r = E_SESSION_ALREADY_EXIST /\ r_id r = 0 /\ r_published r = Some i
      end
  | (Current, r) => r_code r = E_SUCCESS /\ r_id r = match open with Some i => i | None => 0 end
  | (Close id, r) =>
      if id =? 0 then r_code r = E_SUCCESS
      else match open with
           | Some i => if id =? i then r_code r = E_SUCCESS /\ r_published r = Some 0
                       else r_code r = E_SESSION_ALREADY_EXIST /\ r_published r = Some i
           | None => r_code r = E_SESSION_ALREADY_EXIST /\ r_published r = Some 0
           end
  end.
