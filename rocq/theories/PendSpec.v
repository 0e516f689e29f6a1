(** Specification of request and response matching (C28), in terms of the calls made and the
    messages that came in. *)
From Verif Require Import Common PendModel.
From Coq Require Import List ZArith Bool.
Import ListNotations.
Local Open Scope Z_scope.

(** the sequence number of the n-th call *)
Definition number (n : nat) : Z := (1 + Z.of_nat n) mod 2 ^ 32.
Definition responses (l : list event) : list resp := flat_map (fun e => match e with Arrive m => [m] | _ => [] end) l.
Definition begun (l : list event) : nat := length (filter (fun e => match e with Begin _ => true | _ => false end) l).
(** who got a message *)
Definition given (l : list (nat * result)) : list nat := flat_map (fun x => match snd x with Completed n _ => [n] | _ => [] end) l.
