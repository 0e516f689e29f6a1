(** What a provider polls (C75). *)
From Coq Require Import String.
From Verif Require Import Common Value TokenModel SubsModel SubsSpec.
Local Open Scope list_scope.
Local Open Scope Z_scope.

Definition property (s : state) (n : nat) : Prop := exists q p, In (n, q :: p) (all_nodes s) /\ ntype q = PROPERTY.
(** a subscription that is to be told of the changes of its properties *)
Definition on_change (x : sub) : bool := s_auto x && (k_interval (s_key x) =? 0).
Definition wanted (s : state) (n : nat) : Prop := exists x, In x (subs s) /\ targets x n = true /\ on_change x = true.
(** the elements an event name stands for are properties if and only if the element it leads to is one *)
Definition kin (s : state) (e : nat) (k : key) : Prop :=
  forall up t n q p, find_top e (tops s) = Some (up, t) -> In (n, q :: p) (all_nodes s) -> event_matches (k_event k) (el_node t :: up) (q :: p) = Ok true ->
  (ntype q = PROPERTY <-> ntype (el_node t) = PROPERTY).
(** the operation [o] from [s] to [s'] leads names to elements of the right kind *)
Definition apt (s : state) (o : op) (s' : state) : Prop :=
  match o with
  | Subscribe (Some e) k => kin s' e k
  | AddRow look _ _ => forall k e, In k (keys s) -> look (k_event k) = Some e -> kin s' e k
  | Registered name e => forall k, In k (keys s) -> kin s' e k
  | _ => True
  end.
Inductive reach_apt (ans : answers) (s0 : state) : state -> Prop :=
  | apt_init : reach_apt ans s0 s0
  | apt_step : forall s o s' r, reach_apt ans s0 s -> fair s o -> step ans s o = Ok (s', r) -> apt s o s' -> reach_apt ans s0 s'.
(** ... and no row is removed, no live subscription is renewed, and a name leads to the same element
    as long as there is a subscription for it *)
Definition steady (s : state) (o : op) (s' : state) : Prop :=
  apt s o s' /\
  match o with
  | Subscribe _ _ | Registered _ _ => True
  | Unsubscribe (Some e) k => forall x, In x (subs s) -> k_event (s_key x) = k_event k -> s_el x = Some e \/ s_el x = None
  | Unsubscribe None _ => True
  | AddRow look t row =>
    (forall x e, In x (subs s) -> s_el x = Some e -> kin s' e (s_key x)) /\
    (forall x up u, In x (subs s) -> find_top t (tops s) = Some (up, u) -> is_prefix (full_name (i_node (sh_info row) :: el_node u :: up)) (k_event (s_key x)) = true -> s_el x = None)
  | RemoveRow _ => False
  | Disconnect _ _ => forall x y e, In x (subs s) -> In y (subs s) -> k_event (s_key x) = k_event (s_key y) -> s_el x = Some e -> s_el y = Some e \/ s_el y = None
  end.
Inductive reach_steady (ans : answers) (s0 : state) : state -> Prop :=
  | steady_init : reach_steady ans s0 s0
  | steady_step : forall s o s' r, reach_steady ans s0 s -> fair s o -> step ans s o = Ok (s', r) -> steady s o s' -> reach_steady ans s0 s'.
