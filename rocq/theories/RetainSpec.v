(** Specification for shared reference counts (C50). *)
From Verif Require Import Common RetainModel.
Local Open Scope Z_scope.

Fixpoint total (l : list thread) : nat := match l with [] => 0%nat | t :: l => (refs t + total l)%nat end.
Definition quiescent (s : state) : Prop := forall t, In t (threads s) -> checking t = false.
Definition checkers (s : state) : nat := length (filter checking (threads s)).
(** no thread starts a release while another is between its subtraction and its test *)
Fixpoint serialized (s : state) (l : list action) : Prop :=
  match l with
  | [] => True
  | a :: l =>
    match a with Sub i => checkers s = 0%nat | _ => True end /\
    match step s a with Ok s' => serialized s' l | _ => True end
  end.
