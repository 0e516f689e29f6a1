(** Specification of listeners (C30) and of the delivery order (C29). *)
From Verif Require Import Common ListenModel.
From Coq Require Import List ZArith Bool.
Import ListNotations.
Local Open Scope Z_scope.

(** ** delivery: which messages are accepted, from the events alone *)
Definition dones (l : list event) : nat := length (filter (fun e => match e with Done => true | _ => false end) l).
Definition arrivals (l : list event) : list Z := flat_map (fun e => match e with Arrive c => [c] | _ => [] end) l.
(** [backlog] accepted and not yet handled; a message is refused while there are more than 25 *)
Fixpoint accepted (l : list event) (n backlog : nat) : list (nat * Z) :=
  match l with
  | [] => []
  | Arrive c :: l => if Nat.leb backlog 25 then (n, c) :: accepted l (S n) (S backlog) else accepted l (S n) backlog
  | Done :: l => accepted l n (Nat.pred backlog)
  | _ :: l => accepted l n backlog
  end.

(** ** listeners: a finite map from ids *)
Record ideal := mkIdeal { table : list listener; counter : Z }.
Definition ideal_init : ideal := mkIdeal [] 10000.
Definition by_id (id : Z) (t : list listener) : option listener := find (fun x => l_id x =? id) t.
Definition by_expr (e : list Z) (t : list listener) : option listener := find (fun x => bytes_eqb (l_expr x) e) t.
Definition drop_id (id : Z) (t : list listener) : list listener := filter (fun x => negb (l_id x =? id)) t.
Definition ideal_add (i : ideal) (e : list Z) (id cl : Z) : ideal * Z * list wire_msg :=
  if Nat.leb 128 (length (table i)) then (i, RT_ENOMEM, []) else (mkIdeal (table i ++ [mkListener id e cl]) (counter i), 0, [mkWire true e id]).
Definition ideal_remove (i : ideal) (x : option listener) (e : list Z) : ideal * Z * list wire_msg :=
  match x with
  | None => (i, RT_ERROR_INVALID_ARG, [])
  | Some x => (mkIdeal (drop_id (l_id x) (table i)) (counter i), 0, [mkWire false e (l_id x)])
  end.
Definition ideal_step (i : ideal) (ev : event) : ideal * Z * list wire_msg :=
  match ev with
  | AddNew e cl => ideal_add (mkIdeal (table i) ((counter i + 1) mod 4294967296)) e (counter i) cl
  | AddWithId e id cl => ideal_add i e id cl
  | Remove e => ideal_remove i (by_expr e (table i)) e
  | RemoveWithId e id => ideal_remove i (by_id id (table i)) e
  | _ => (i, 0, [])
  end.
Fixpoint ideal_run (i : ideal) (l : list event) : ideal * list Z * list wire_msg :=
  match l with
  | [] => (i, [], [])
  | e :: l => let '(i, r, w) := ideal_step i e in let '(i, rs, ws) := ideal_run i l in (i, r :: rs, w ++ ws)
  end.
(** no id and no expression is added while it is active *)
Definition proper_step (i : ideal) (ev : event) : Prop :=
  match ev with
  | AddNew e _ => by_id (counter i) (table i) = None /\ by_expr e (table i) = None
  | AddWithId e id _ => by_id id (table i) = None /\ by_expr e (table i) = None
  | _ => True
  end.
Fixpoint proper (i : ideal) (l : list event) : Prop :=
  match l with [] => True | e :: l => proper_step i e /\ proper (fst (fst (ideal_step i e))) l end.

(** ** dispatch: the callback thread takes the accepted messages in order, looks each id up in the
    table as it is then, and calls what it found *)
Record server := mkServer { sv_table : ideal; sv_next : list (nat * Z); sv_found : option (nat * Z); sv_calls : list (nat * Z) }.
Definition serve (v : server) (e : event) : server :=
  match e with
  | Look =>
    match sv_next v with
    | [] => v
    | (n, id) :: q => mkServer (sv_table v) q (option_map (fun x => (n, l_closure x)) (by_id id (table (sv_table v)))) (sv_calls v)
    end
  | Call => mkServer (sv_table v) (sv_next v) None (sv_calls v ++ match sv_found v with Some x => [x] | None => [] end)
  | e => mkServer (fst (fst (ideal_step (sv_table v) e))) (sv_next v) (sv_found v) (sv_calls v)
  end.
Definition served (l : list event) : list (nat * Z) := sv_calls (fold_left serve l (mkServer ideal_init (accepted l 0 0) None [])).
