(** Specification of the broker towards its clients (C24, C26, C27, C58): who has registered
    which names. *)
From Coq Require Import String.
From Verif Require Import Common RouteModel RouteSpec RouterModel.
Local Open Scope string_scope.
Local Open Scope list_scope.
Local Open Scope Z_scope.

(** an owner is a client's subscription, or the broker itself *)
Notation owner := (option (Z * Z)).
Definition owner_eqb (a b : owner) : bool :=
  match a, b with Some (x, y), Some (x', y') => (x =? x') && (y =? y') | None, None => true | _, _ => false end.
Definition of_client (c : Z) (o : owner) : bool := match o with Some (x, _) => x =? c | None => false end.
(** names with their owners, oldest first, and the subscriptions with their first names *)
Record view := mkView { names_of : list (list (list Z) * owner); subs_of : list ((Z * Z) * list Z) }.
Definition at_start : view := mkView (map (fun n => (split n, None)) builtin) [].
Definition record (v : view) (o : req * Z) : view :=
  match o with
  | (Sub c e id, 0) =>
    mkView (match split e with [] => names_of v | p => names_of v ++ [(p, Some (c, id))] end)
           (if existsb (fun s => (fst (fst s) =? c) && (snd (fst s) =? id)) (subs_of v) then subs_of v else subs_of v ++ [((c, id), e)])
  | (Unsub c e, 0) =>
    match find (fun s => bytes_eqb (snd s) e && (fst (fst s) =? c)) (subs_of v) with
    | Some s => mkView (filter (fun x => negb (owner_eqb (snd x) (Some (fst s)))) (names_of v))
                       (filter (fun x => negb (owner_eqb (Some (fst x)) (Some (fst s)))) (subs_of v))
    | None => mkView (match split e with [] => names_of v | u => filter (fun x => negb (below u (fst x))) (names_of v) end) (subs_of v)
    end
  | (Leave c, _) => mkView (filter (fun x => negb (of_client c (snd x))) (names_of v)) (filter (fun x => negb (fst (fst x) =? c)) (subs_of v))
  | _ => v
  end.
Definition view_of (h : list (req * Z)) : view := fold_left record h at_start.
(** the owners that serve a name *)
Definition owners (v : view) (p : list (list Z)) : list owner := map snd (filter (fun x => serves p (fst x)) (names_of v)).

(** who gets what *)
Definition deliver_to (m : msg) (o : owner) : delivery :=
  match o with Some (c, id) => ToClient c (mkMsg (m_seq m) (m_flags m) (m_topic m) (m_reply m) (m_payload m) id) | None => ToBroker m end.
Definition undeliverable (m : msg) : msg :=
  mkMsg (m_seq m) (Z.lor (Z.land (m_flags m) (Z.lnot 1)) 6) (m_reply m) (m_reply m) [] (m_control m).
Definition expected (v : view) (m : msg) : list delivery :=
  match owners v (split (m_topic m)) with
  | [] => if Z.testbit (m_flags m) 0 then map (deliver_to (undeliverable m)) (owners v (split (m_reply m))) else []
  | os => map (deliver_to m) os
  end.

(** ** histories in which names are used consistently *)
Definition requested (l : list req) : list (list (list Z)) :=
  map split builtin ++ flat_map (fun r => match r with Sub _ e _ => [split e] | _ => [] end) l.
Definition good_name (e : list Z) : Prop := (dots e <= 31)%nat /\ double_dot e = false.
(** the advisory topic is not a further name of a subscription *)
Fixpoint advisory_first (seen : list (Z * Z)) (l : list req) : Prop :=
  match l with
  | [] => True
  | Sub c e id :: l => (e = ADVISORY -> ~ In (c, id) seen) /\ advisory_first ((c, id) :: seen) l
  | _ :: l => advisory_first seen l
  end.
Record consistent (l : list req) : Prop := {
  k_tidy : tidy (requested l);
  k_names : forall c e id, In (Sub c e id) l -> good_name e;
  k_removed : forall c e, In (Unsub c e) l -> (dots e <= 31)%nat /\ literal (requested l) (split e);
  k_advisory : advisory_first [] l }.
(** a topic that can be asked for *)
Definition plain (l : list req) (q : list Z) : Prop := fits q /\ q <> [] /\ ends_dot q = false /\ askable (requested l) (split q).
