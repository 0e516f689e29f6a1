(** Specification of the broker with several senders and registrations in between (C89). *)
From Verif Require Import Common Bytes HeaderModel HeaderSpec FramingModel FramingSpec RouteModel RouteSpec RouterModel RouterSpec LinkModel LinkSpec CrowdModel.
Local Open Scope Z_scope.

(** what happened: a message of a client was taken, or a request was answered *)
Notation fact := ((Z * msg) + (req * Z))%type.
(** what is delivered in its course: every message by the registrations of its moment *)
Fixpoint replay (v : view) (L : list fact) : list delivery :=
  match L with
  | [] => []
  | inl (_, m) :: L => expected v m ++ replay v L
  | inr o :: L => replay (record v o) L
  end.
(** the messages of client [c], the requests *)
Definition sent_by (c : Z) (L : list fact) : list msg := flat_map (fun f => match f with inl (x, m) => if x =? c then [m] else [] | inr _ => [] end) L.
Definition answers_in (L : list fact) : list (req * Z) := flat_map (fun f => match f with inr o => [o] | inl _ => [] end) L.
Definition requests_in (L : list fact) : list req := map fst (answers_in L).
Definition requests_of (l : list moment) : list req := flat_map (fun x => match x with Serves r => [r] | Reads _ _ => [] end) l.
(** the turns in which client [c] is read from, up to its leaving *)
Fixpoint turns (c : Z) (l : list moment) : list nat :=
  match l with
  | [] => []
  | Reads x k :: l => if x =? c then k :: turns c l else turns c l
  | Serves (Leave x) :: l => if x =? c then [] else turns c l
  | Serves _ :: l => turns c l
  end.
(** a message that is not for the broker itself *)
Definition not_broker (q : list Z) : Prop := forall n, In n builtin -> serves (split q) (split n) = false.
(** messages that can be sent while the names of [l] are in use (see C78) *)
Definition mailable (l : list req) (m : msg) : Prop :=
  letter m = true /\ m_payload m <> [] /\ plain l (m_topic m) /\ not_broker (m_topic m) /\
  (Z.testbit (m_flags m) 0 = true -> plain l (m_reply m) /\ not_broker (m_reply m)).
