(** What value change detection should do, told from what can be seen of it. *)
From Coq Require Import QArith.
From Verif Require Import Common Value CompareModel CompareSpec WatchModel.
Local Open Scope list_scope.
Local Open Scope Z_scope.

(** Values whose comparison is exact: numbers a double can hold, and strings. *)
Definition plain (v : value) : bool :=
  match v with
  | VString (Some _) => true
  | _ => match real_of v with Some _ => exactly_representable v | None => false end
  end.
(** The same number, or the same string. *)
Definition same (v w : value) : Prop :=
  match real_of v, real_of w with
  | Some x, Some y => (x == y)%Q
  | None, None => v = w
  | _, _ => False
  end.
Definition about (n : nat) (l : note) : bool :=
  match l with Watch m _ | Unwatch m | Polled m _ | Sent m _ _ _ => Nat.eqb m n end.
(** The notes about a node [n] that is watched with value [cur] (or not watched); [due] is an event that
    must come next.  Reads happen while it is watched.  A read that gives another value than the
    current one is followed by one event with exactly the two values, and is then the current one;
    any other read is followed by none; there are no other events. *)
Fixpoint follows (n : nat) (cur : option value) (due : option (value * value)) (tr : list note) : Prop :=
  match tr with
  | [] => due = None
  | l :: tr =>
      if about n l then
        match l with
        | Watch _ v => due = None /\ cur = None /\ follows n (Some v) None tr
        | Unwatch _ => due = None /\ cur <> None /\ follows n None None tr
        | Polled _ v => due = None /\ exists old, cur = Some old /\ (same v old /\ follows n cur None tr \/ ~ same v old /\ follows n (Some v) (Some (v, old)) tr)
        | Sent _ v old _ => due = Some (v, old) /\ follows n cur None tr
        end
      else follows n cur due tr
  end.

(** Objects handed out by the provider keep their content and hold plain values. *)
Definition frozen (st0 : store) (o : vop) : Prop :=
  match o with
  | AddRead _ _ _ got => match got with Some None => False | Some (Some a) => plain (st0 a) = true | None => True end
  | AddPush st _ => forall a, st a = st0 a
  | PollOne st got _ => (forall a, st a = st0 a) /\ match got with Some None => False | Some (Some a) => plain (st0 a) = true | None => True end
  | _ => True
  end.
(** While a node is being added, nobody else adds it or takes it away; the detector is not freed. *)
Definition orderly (s : vc) (o : vop) : Prop :=
  match o with
  | AddRead _ _ n _ | RemoveNode n => vc_find n (pending s) = None
  | CloseHandle _ => pending s = []
  | _ => True
  end.
Fixpoint orderly_run (s : vc) (l : list vop) : Prop :=
  match l with [] => True | o :: l => orderly s o /\ forall s' a, vstep s o = Ok (s', a) -> orderly_run s' l end.
(** the component that set [n] last *)
Fixpoint last_setter (n : nat) (l : list vop) : option (list Z) :=
  match l with
  | [] => None
  | SetBy m c _ :: l => match last_setter n l with Some d => Some d | None => if Nat.eqb m n then Some c else None end
  | _ :: l => last_setter n l
  end.
(** [c] is the name of the provider of [n] *)
Definition provided_by (n : nat) (c : list Z) (o : vop) : Prop :=
  match o with AddRead _ d m _ => m = n -> d = c | _ => True end.
