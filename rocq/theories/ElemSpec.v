(** Specification of the element registry (C22, C23): a map from paths to element
    descriptions. *)
From Coq Require Import String.
From Verif Require Import Common TextModel Errors ElemModel.
Local Open Scope string_scope.
Local Open Scope list_scope.
Local Open Scope Z_scope.

Definition registry := list name -> option info.
Fixpoint path_eqb (a b : list name) : bool :=
  match a, b with
  | [], [] => true
  | x :: a, y :: b => bytes_eqb x y && path_eqb a b
  | _, _ => false
  end.
(** what is left of [q] below [p] *)
Fixpoint below (p q : list name) : option (list name) :=
  match p, q with
  | [], _ => Some q
  | x :: p, y :: q => if bytes_eqb x y then below p q else None
  | _ :: _, [] => None
  end.
(** registering [p]: missing ancestors become objects; a table loses what was below it and
    gets an empty row template *)
Definition reg (p : list name) (i : info) (m : registry) : registry := fun q =>
  if path_eqb q p then Some i
  else match below q p with
       | Some _ => match m q with Some x => Some x | None => Some object end
       | None => match below p q with
                 | Some r => if typ i =? TABLE then (if path_eqb r [TEMPLATE] then Some object else None) else m q
                 | None => m q
                 end
       end.
Definition table_at (m : registry) (p : list name) : bool :=
  match m p with Some i => typ i =? TABLE | None => false end.
(** the path a name stands for: a row stands for the row template of its table *)
Fixpoint norm (m : registry) (pre rest : list name) : list name :=
  match rest with
  | [] => pre
  | tok :: rest => norm m (pre ++ [match pre with [] => tok | _ => if table_at m pre then TEMPLATE else tok end]) rest
  end.
Definition lookup (m : registry) (s : list Z) : option info :=
  match tokens s with [] => None | l => m (norm m [] l) end.
Definition start : registry := fun q => match q with [] => Some object | _ => None end.

(** rows do not matter for the registrations *)
Definition reg_op (m : registry) (o : op) : registry :=
  match o with Register s i => match s with [] => m | _ => reg (tokens (strip (typ i) s)) i m end | _ => m end.
Definition registered (l : list op) : registry := fold_left reg_op l start.

(** the path of a node and of everything below it, first match first *)
Fixpoint sub (t : tree) (p : list name) : option tree :=
  match p with
  | [] => Some t
  | n :: p => match find_kid n (kids t) 0 with Some (_, c) => sub c p | None => None end
  end.
Definition get (t : tree) (p : list name) : option info := option_map inf (sub t p).

(** The histories considered: names are not empty, tables stay tables, rows are added to
    tables, and only rows are removed as rows. *)
Fixpoint node_at (t : tree) (pos : list nat) : option (name * tree * bool) :=
  match pos with
  | [] => None
  | [j] => match nth_error (kids t) j with Some (n, c) => Some (n, c, is_table t) | None => None end
  | j :: pos => match nth_error (kids t) j with Some (_, c) => node_at c pos | None => None end
  end.
Definition orderly_op (t : tree) (o : op) : Prop :=
  match o with
  | Register s i => tokens (strip (typ i) s) <> [] /\
      (table_at (get t) (tokens (strip (typ i) s)) = true -> typ i = TABLE)
  | RegisterRow tb _ _ | AddRequest tb _ _ =>
      forall pos x, retrieve_instance t tb = Some (pos, x) -> is_table x = true
  | UnregisterRow row | RemoveRequest row _ =>
      forall pos x, retrieve_instance t row = Some (pos, x) -> exists n c, node_at t pos = Some (n, c, true) /\ n <> TEMPLATE
  end.
Fixpoint orderly (t : tree) (l : list op) : Prop :=
  match l with
  | [] => True
  | o :: l => orderly_op t o /\
      match step t o with Ok (t', _) => orderly t' l | _ => True end
  end.

Definition names_unique (t : tree) : Prop := forall p u, sub t p = Some u -> NoDup (map fst (kids u)).
(** a name that says nothing about aliases and wildcards *)
Definition plain_tok (n : name) : bool := negb (bytes_eqb n (bs "*")) && match n with 91 :: _ => false | _ => true end.
(** no table has a get handler of its own *)
Definition getterless (t : tree) : Prop := forall p u, sub t p = Some u -> is_table u = true -> getter (inf u) = false.
(** joining with dots *)
Fixpoint dotted (p : list name) : list Z := match p with [] => [] | n :: p => n ++ bs "." ++ dotted p end.
Definition good_name (n : name) : bool := match n with [] => false | _ => true end && forallb (fun c => negb (c =? 46)) n.

(** every row is added under a number its table does not use yet *)
Definition fresh_op (t : tree) (o : op) : Prop :=
  match o with
  | RegisterRow tb n _ | AddRequest tb _ (Some n) =>
      forall pos x, retrieve_instance t tb = Some (pos, x) -> get x [print_dec n] = None
  | _ => True
  end.
Fixpoint fresh (t : tree) (l : list op) : Prop :=
  match l with
  | [] => True
  | o :: l => fresh_op t o /\ match step t o with Ok (t', _) => fresh t' l | _ => True end
  end.

(** what leaves the registration at [p] alone *)
Definition spares (p : list name) (o : op) : Prop :=
  match o with
  | Register [] _ => True
  | Register s i => let q := tokens (strip (typ i) s) in q <> p /\ (typ i = TABLE -> below q p = None)
  | _ => True
  end.
