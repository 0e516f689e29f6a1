(** What is left on a socket after a message was dropped. *)
From Verif Require Import Common SkipModel.
Local Open Scope Z_scope.

(** recv never fails *)
Definition steady (ev : list rx) : Prop := forall e, ~ In (Fails e) ev.
(** how often recv gives something *)
Fixpoint given (ev : list rx) : nat := match ev with [] => O | Gives _ :: ev => S (given ev) | _ :: ev => given ev end.
