(** Specification of partial path and wildcard queries (C69, C70): which elements of a data
    model answer, in which order and under which name. *)
From Coq Require Import String Sorted.
From Verif Require Import Common Errors ElemModel ElemSpec ElemProofs WalkModel.
Local Open Scope string_scope.
Local Open Scope list_scope.
Local Open Scope Z_scope.

(** the order of a data model: the earlier sibling first *)
Inductive before : list nat -> list nat -> Prop :=
| before_here : forall i j a b, (i < j)%nat -> before (i :: a) (j :: b)
| before_below : forall i a b, before a b -> before (i :: a) (i :: b).

(** the element at [pos] below [u] answers a query for [u]: it has a get handler, nothing on
    the way to it (the place asked for included, if it is a table) has one, and it does not lie
    inside a row template *)
Definition answers (u : tree) (pos : list nat) : Prop :=
  exists x, node_of u pos = Some x /\ getter (inf x) = true /\
    (pos = [] -> is_table x = true) /\
    (pos <> [] -> is_table x = true -> kids x <> []) /\
    (forall a b y, pos = a ++ b -> b <> [] -> node_of u a = Some y -> getter (inf y) = true -> a = [] /\ is_table y = false) /\
    (forall a j b y n c, pos = a ++ j :: b -> b <> [] -> node_of u a = Some y -> is_table y = true ->
       nth_error (kids y) j = Some (n, c) -> n = TEMPLATE -> False).
(** what it answers under the name [nm]: a property its value unless its handler fails, a table
    what its handler gives for the name with a dot (cut to 254 bytes) *)
Definition reply {V} (h : handlers V) (x : option tree) (nm : name) : list (name * V) :=
  match x with
  | Some x =>
    if is_table x then match table_get h (hid (inf x)) (firstn 254 (nm ++ bs ".")) with Some l => l | None => [] end
    else if fst (prop_get h (hid (inf x)) nm) =? E_SUCCESS then [(nm, snd (prop_get h (hid (inf x)) nm))] else []
  | None => []
  end.
(** the answer to a query for [u] when its name is given as the path [P] *)
Definition answered {V} (h : handlers V) (u : tree) (P : list name) (l : list (name * V)) : Prop :=
  exists L, StronglySorted before L /\ (forall pos, In pos L <-> answers u pos) /\
    l = flat_map (fun pos => reply h (node_of u pos) (full (P ++ path_of u pos))) L.

(** a name begins with a brace only if it is that of a row template, which has no get handler
    of its own *)
Definition tidy (u : tree) : Prop := forall pos y n c, node_of u pos = Some y -> In (n, c) (kids y) ->
  n <> [] /\ (hd 0 n <> 123 \/ (n = TEMPLATE /\ is_table y = true /\ getter (inf c) = false)).
(** names that can be asked for one by one *)
Definition askable (u : tree) : Prop := forall pos y n c, node_of u pos = Some y -> In (n, c) (kids y) ->
  good_name n = true /\ plain_tok n = true /\ ~ In 42 n.
