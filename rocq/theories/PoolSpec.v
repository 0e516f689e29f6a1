(** What a pool does with its tasks (C51, C66). *)
From Verif Require Import Common PoolModel.
Local Open Scope list_scope.
Local Open Scope Z_scope.

Definition submitted (tr : list event) : list Z := flat_map (fun e => match e with Submitted t _ => [t] | _ => [] end) tr.
Definition began (tr : list event) : list Z := flat_map (fun e => match e with Began t => [t] | _ => [] end) tr.
Definition ended (tr : list event) : list Z := flat_map (fun e => match e with Ended t => [t] | _ => [] end) tr.
(** the tasks that are being executed *)
Definition tasks (l : list phase) : list Z := flat_map (fun x => match x with Busy t => [t] | _ => [] end) l.
(** threads that exist *)
Definition lives (x : phase) : bool := match x with Starting | Busy _ | Waiting | Woken | Expired => true | _ => false end.
Definition threads (p : pool) : list phase := List.filter lives (workers p).
Definition is_starting (x : phase) : bool := match x with Starting => true | _ => false end.
Definition is_expired (x : phase) : bool := match x with Expired => true | _ => false end.

(** ** the schedules for which the pool does what it should *)
(** no submission while a worker that has timed out waits for the mutex; threads can be created; the
    pool is not stopped *)
Definition calm (p : pool) (o : op) : bool :=
  match o with
  | Submit _ _ made => made && negb (existsb is_expired (workers p))
  | Stop _ | Shut | Free _ => false
  | _ => true
  end.
(** no submission while a worker that has been created is not running *)
Definition settled (p : pool) (o : op) : bool := match o with Submit _ _ _ => negb (existsb is_starting (workers p)) | _ => true end.
Fixpoint all_steps (f : pool -> op -> bool) (p : pool) (ops : list op) : bool :=
  match ops with
  | [] => true
  | o :: ops => f p o && match step p o with Ok (p1, _) => all_steps f p1 ops | _ => true end
  end.
(** what the workers do by themselves *)
Definition worker_step (o : op) : bool := match o with Enter _ | Return _ | Wake _ => true | _ => false end.
Definition at_rest (p : pool) : Prop := forall o, worker_step o = true -> step p o = Err tt.
