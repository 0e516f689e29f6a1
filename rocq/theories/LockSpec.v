(** When nothing blocks for ever. *)
From Verif Require Import Common LockModel.
Local Open Scope list_scope.

Definition finished (s : sys) : Prop := forall p, In p (progs s) -> p = [].
(** Every schedule comes to an end, and only when every thread has finished. *)
Definition never_blocks (s : sys) : Prop :=
  forall sched s', gos s sched = Some s' -> finished s' \/ exists i s'', go s' i = Some s''.
Definition work (s : sys) : nat := list_sum (map (@length act) (progs s)).
(** the tokens of the threads are their own *)
Definition tokens (l : list thread) : list nat := flat_map (fun x => match token x with Some t => [t] | None => [] end) l.
(** No set handler publishes, no poll finds a change, no duration is over. *)
Definition calm_request (r : request) : bool :=
  match r with SetValue _ p => negb p | _ => true end.
Definition calm (x : thread) : bool :=
  match x with
  | Api _ l => forallb (calm_request) l
  | Poller _ polls => forallb (forallb (fun p => match snd p with None => true | Some _ => false end)) polls
  | Publisher _ _ _ c => negb c
  end.
