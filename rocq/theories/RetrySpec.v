(** When a subscription should be tried and what its caller should be told. *)
From Verif Require Import Common Errors RetryModel.
Local Open Scope list_scope.
Local Open Scope Z_scope.

(** the waits: 1, 2, 4, … seconds up to a minute *)
Definition wait_s (k : nat) : Z := Z.min (2 ^ Z.of_nat k) 60.
Fixpoint sum (l : list Z) : Z := match l with [] => 0 | x :: l => x + sum l end.
(** the waits before attempt [k] when [t] seconds may be spent in all *)
Fixpoint waits (k : nat) (t : Z) : list Z :=
  match k with O => [] | S k => waits k t ++ [Z.min (wait_s k) (t - sum (waits k t))] end.

(** Asynchronously, newest attempt first: the time from which the next attempt may be made. *)
Definition due (st tmo : Z) (h : list (Z * answer)) : Z :=
  match h with [] => st | (t, _) :: r => Z.min (t + 1000 * wait_s (length r)) (st + tmo) end.
(** every attempt is due, and follows attempts that found no provider before the timeout *)
Fixpoint paced (st tmo : Z) (h : list (Z * answer)) : Prop :=
  match h with
  | [] => True
  | (t, a) :: r => due st tmo r <= t /\ Forall (fun x => snd x = NotFound /\ fst x - st < tmo) r /\ paced st tmo r
  end.
Definition history (id : nat) (tr : list event) : list (Z * answer) :=
  flat_map (fun e => match e with Sent i t a => if Nat.eqb i id then [(t, a)] else [] | _ => [] end) tr.
Definition callbacks (id : nat) (tr : list event) : list (Z * Z) :=
  flat_map (fun e => match e with Callback i c t => if Nat.eqb i id then [(c, t)] else [] | _ => [] end) tr.
(** the answers after which there is nothing more to try, and what they mean *)
Inductive definitive (st tmo : Z) : Z -> answer -> Z -> Prop :=
| def_ok t : definitive st tmo t Accepted E_SUCCESS
| def_refused t c : definitive st tmo t (Refused c) c
| def_expired t : st + tmo <= t -> definitive st tmo t NotFound E_TIMEOUT.
