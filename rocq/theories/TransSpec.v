(** What the properties of set and get requests over several parameters say, apart from how the
    code proceeds. *)
From Verif Require Import Common Errors TransModel.
Local Open Scope list_scope.
Local Open Scope Z_scope.

(** the value that setting the items one after the other leaves at a name *)
Fixpoint final (l : list item) (n : list Z) (v : option Z) : option Z :=
  match l with [] => v | (m, x) :: l => final l n (if bytes_eqb n m then x else v) end.
(** the names a component owns, and their items, in the order given *)
Definition part {A} (E : env) (name : A -> list Z) (c : list Z) (l : list A) : list A :=
  filter (fun x => match owner E (name x) with Some d => bytes_eqb d c | None => false end) l.
(** components in the order in which a list of names first mentions them *)
Fixpoint firsts (seen : list (list Z)) (l : list (list Z)) : list (list Z) :=
  match l with
  | [] => []
  | c :: l => if existsb (bytes_eqb c) seen then firsts seen l else c :: firsts (c :: seen) l
  end.
Definition owners (E : env) (l : list (list Z)) : list (list Z) :=
  firsts [] (flat_map (fun n => match owner E n with Some c => [c] | None => [] end) l).

(** requests and calls that were made since [w] *)
Definition since (w w' : world) : list event := skipn (length (log w)) (log w').
Definition set_reqs (l : list event) : list event := filter (fun e => match e with SetReq _ _ _ _ _ => true | _ => false end) l.
Definition get_reqs (l : list event) : list event := filter (fun e => match e with GetReq _ _ _ => true | _ => false end) l.

(** a parameter whose values can be read and written *)
Definition plain (E : env) (c n : list Z) : bool := match elem E c n with Some k => k_get k && k_set k | None => false end.
Definition writable (E : env) (c n : list Z) : bool := match elem E c n with Some k => k_set k | None => false end.
Definition readable (E : env) (c n : list Z) : bool := match elem E c n with Some k => k_get k | None => false end.
(** the providers' handlers return codes of the API only *)
Definition api_codes (E : env) : Prop := (forall k, set_code E k <> LEGACY_SUCCESS) /\ (forall k, get_code E k <> LEGACY_SUCCESS).
(** every request is answered *)
Definition connected (E : env) : Prop := forall k, fates E k = Arrives.
(** get handlers succeed *)
Definition gets_work (E : env) : Prop := forall k, get_code E k = E_SUCCESS.
(** from now on at most one call of a set handler is refused *)
Definition one_refusal (E : env) (k : nat) : Prop := forall i j, (k <= i)%nat -> (i < j)%nat -> set_code E i <> E_SUCCESS -> set_code E j = E_SUCCESS.
(** the calls of set handlers for items that are all accepted: the commit flag comes with the last *)
Fixpoint calls (c who : list Z) (commit : bool) (l : list item) : list event :=
  match l with [] => [] | (n, v) :: l => SetCall c who n v (commit && match l with [] => true | _ => false end) E_SUCCESS :: calls c who commit l end.
(** the items with the values that a store holds for them *)
Definition olds (st : list Z -> option Z) (l : list item) : list item := map (fun x => (fst x, st (fst x))) l.
(** requests of a call that asks the providers to remember values *)
Definition rolled (l : list event) : list event := filter (fun e => match e with SetReq _ _ roll _ _ => roll | _ => false end) l.
(** what the providers are told about who asks *)
Definition told (who : list Z) (e : event) : bool :=
  match e with SetReq _ x _ _ _ | SetCall _ x _ _ _ _ | GetReq _ x _ => bytes_eqb x who end.
(** what a component has for a wildcard query *)
Definition found (E : env) (n d : list Z) : list item := if fst (walk E d n) =? E_SUCCESS then snd (walk E d n) else [].
