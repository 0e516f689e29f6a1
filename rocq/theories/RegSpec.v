(** Specification of registration (C44): when it fails nothing new is served. *)
From Coq Require Import String.
From Verif Require Import Common RouteModel RouteSpec RouterModel RouterSpec RegModel.
From Verif Require ElemModel.
Local Open Scope string_scope.
Local Open Scope list_scope.
Local Open Scope Z_scope.

(** the names a call asks the broker for, by the client's subscription (c, id) *)
Definition asked (c id : Z) (els : list element) : list req := map (fun e => Sub c (fst e) id) els.
(** the client has the listener, and no element is called like one of its listeners *)
Definition listening (v : view) (c id : Z) (els : list element) : Prop :=
  In (c, id) (map fst (subs_of v)) /\ forall s, In s (subs_of v) -> fst (fst s) = c -> ~ In (snd s) (map fst els).
(** all requests get an answer or do not reach the broker *)
Definition answered (fs : nat -> fate) : Prop := forall i, fs i <> NoAnswer.
(** nobody has registered anything that lies below a name of the list *)
Definition none_below (v : view) (els : list element) : Prop :=
  forall u o e r, In (u, o) (names_of v) -> In e els -> u = split (fst e) ++ r -> r = [].
(** the registrations a component has made of the first [k] elements *)
Definition registrations_of (els : list element) (k : nat) : list ElemModel.op := map (fun e => ElemModel.Register (fst e) (snd e)) (firstn k els).
