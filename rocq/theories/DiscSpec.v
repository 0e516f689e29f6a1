(** Specification of discovery (C71-C74): what is found, in terms of who has registered which
    names. *)
From Coq Require Import String.
From Verif Require Import Common RouteModel RouteSpec RouterModel RouterSpec.
Local Open Scope string_scope.
Local Open Scope list_scope.
Local Open Scope Z_scope.

(** the name of a component is the first name of its subscription *)
Definition component (v : view) (o : owner) : list Z :=
  match o with
  | None => bs "_RTROUTED.>"
  | Some s => match find (fun x => owner_eqb (Some (fst x)) (Some s)) (subs_of v) with Some x => snd x | None => [] end
  end.
(** the components serving the elements of a list, element by element *)
Definition serving (v : view) (names : list (list Z)) : list (list Z) :=
  flat_map (fun n => map (component v) (owners v (split n))) names.
(** a path written with dots *)
Definition dotted (p : list (list Z)) : list Z :=
  match p with [] => [] | t :: p => t ++ flat_map (fun t => 46 :: t) p end.
(** a component's name, as opposed to the names of the broker's own subscriptions *)
Definition public (n : list Z) : bool := match hd_error n with Some c => negb (c =? 95) | None => false end.
(** in this history names are withdrawn only by taking back whole subscriptions *)
Fixpoint whole (v : view) (h : list (req * Z)) : Prop :=
  match h with
  | [] => True
  | (r, rc) :: h =>
    match r with
    | Unsub c e => exists id, In ((c, id), e) (subs_of v)
    | _ => True
    end /\ whole (record v (r, rc)) h
  end.
