(** Specification for the semaphore (C52). *)
From Verif Require Import Common SemModel.
Local Open Scope Z_scope.
Definition is_wait (a : action) : bool := match a with Wait _ _ => true | _ => false end.
Definition is_spurious (a : action) : bool := match a with Spurious _ => true | _ => false end.
Definition waits (l : list action) : Z := Z.of_nat (length (filter is_wait l)).
