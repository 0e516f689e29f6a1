(** Specification of the broker's routing (C24-C26, C58): the list of registrations. *)
From Coq Require Import String.
From Verif Require Import Common RouteModel.
Local Open Scope string_scope.
Local Open Scope list_scope.
Local Open Scope Z_scope.

(** who registered which name, in order of time *)
Definition registrations := list (list (list Z) * Z).
(** [p] is [u] or lies below it *)
Fixpoint below (u p : list (list Z)) : bool :=
  match u, p with
  | [], _ => true
  | x :: u, y :: p => bytes_eqb x y && below u p
  | _ :: _, [] => false
  end.
Definition note (m : registrations) (o : op * Z) : registrations :=
  match o with
  | (Add n d _, e) => if (e =? 0) && match split n with [] => false | _ => true end then m ++ [(split n, d)] else m
  | (RemoveRoute d, _) => filter (fun x => negb (snd x =? d)) m
  | (RemoveTopic n, _) => match split n with [] => m | u => filter (fun x => negb (below u (fst x))) m end
  end.
Definition registered (h : list (op * Z)) : registrations := fold_left note h [].

(** a registered name answers for a name that differs from it only where it has a placeholder *)
Fixpoint covers (u p : list (list Z)) : bool :=
  match u, p with
  | [], [] => true
  | x :: u, y :: p => (bytes_eqb x y || brace x) && covers u p
  | _, _ => false
  end.
(** a table also answers for its name without the placeholder at the end *)
Definition serves (p u : list (list Z)) : bool :=
  covers u p || (brace (last u []) && covers (removelast u) p).
Definition lookup (m : registrations) (p : list (list Z)) : list Z := map snd (filter (fun x => serves p (fst x)) m).
(** strictly below a name *)
Fixpoint inside (p u : list (list Z)) : bool :=
  match u, p with
  | x :: u, y :: p => (bytes_eqb x y || brace x) && inside p u
  | _ :: _, [] => true
  | [], _ => false
  end.
Fixpoint distinct (l : list Z) : list Z :=
  match l with [] => [] | x :: l => x :: filter (fun y => negb (y =? x)) (distinct l) end.
Definition lookup_below (m : registrations) (p : list (list Z)) : list Z := distinct (map snd (filter (fun x => inside p (fst x)) m)).

(** ** histories in which names are used consistently *)
Definition accepted (h : list (op * Z)) : list (list (list Z)) :=
  flat_map (fun o => match o with (Add n _ _, e) => if e =? 0 then [split n] else [] | _ => [] end) h.
(** two names, one with a placeholder where the other ends or has something else *)
Fixpoint clash (a b : list (list Z)) : bool :=
  match a, b with
  | [], [] => false
  | [], t :: _ | t :: _, [] => brace t
  | x :: a, y :: b => if bytes_eqb x y then clash a b else brace x || brace y
  end.
Definition tidy (A : list (list (list Z))) : Prop := forall a b, In a A -> In b A -> clash a b = false.
(** a question that has a placeholder where a registered name has none *)
Fixpoint vague (a q : list (list Z)) : bool :=
  match a, q with
  | x :: a, y :: q => if bytes_eqb x y || brace x then vague a q else brace y
  | _, _ => false
  end.
Definition askable (A : list (list (list Z))) (q : list (list Z)) : Prop := forall a, In a A -> vague a q = false.
(** a name that no registered placeholder could stand for *)
Fixpoint loose (a p : list (list Z)) : bool :=
  match a, p with
  | x :: a, y :: p => if bytes_eqb x y then loose a p else brace x || brace y
  | _, _ => false
  end.
Definition literal (A : list (list (list Z))) (p : list (list Z)) : Prop := forall a, In a A -> loose a p = false.
Definition removals_literal (A : list (list (list Z))) (l : list op) : Prop :=
  forall n, In (RemoveTopic n) l -> literal A (split n).
(** how rtrouted.c uses the tree: a route is new when it is added without the duplicate check
    (rtRouted_AddRoute, 366-379), the check is on for every further name of it (rtRouted_AddAlias,
    409-421), and the one name exempt from the check is not used as a further name *)
Fixpoint careful (used : list Z) (l : list op) : Prop :=
  match l with
  | [] => True
  | Add n d false :: l => ~ In d used /\ careful (d :: used) l
  | Add n d true :: l => n <> ADVISORY /\ careful (d :: used) l
  | RemoveRoute d :: l => careful (remove Z.eq_dec d used) l
  | RemoveTopic _ :: l => careful used l
  end.
(** names that fit the broker's buffers *)
Definition fits (s : list Z) : Prop := (length s <= 511)%nat /\ (dots s <= 31)%nat.
Definition op_fits (o : op) : Prop := match o with Add n _ _ | RemoveTopic n => fits n | RemoveRoute _ => True end.
(** a row named by number, alias or wildcard *)
Definition row_name (n : list Z) : bool := match n with c :: _ => ((48 <=? c) && (c <=? 57)) || (c =? 91) || (c =? 42) | [] => false end.
(** [p] names a row (or the element itself) of the element registered as [u] *)
Fixpoint stands_for (u p : list (list Z)) : bool :=
  match u, p with
  | [], [] => true
  | x :: u, y :: p => (bytes_eqb x y || (brace x && row_name y)) && stands_for u p
  | _, _ => false
  end.
