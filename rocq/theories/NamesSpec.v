(** Specification of the names of rows (C79) and elements (C80). *)
From Coq Require Import String Sorted.
From Verif Require Import Common TextModel Errors ElemModel ElemSpec ElemProofs WalkModel NamesModel.
Local Open Scope string_scope.
Local Open Scope list_scope.
Local Open Scope Z_scope.

(** ** rows: a table is the list of its rows' numbers and aliases *)
(** calls that name tables and rows by their paths *)
Inductive call :=
| CRegister (s : list Z) (i : info)
| CAddRow (T : list name) (n : Z) (a : option name)
| CRequestRow (T : list name) (a : option name) (answer : option Z)
| CRemoveRow (T : list name) (n : Z)
| CRequestRemove (T : list name) (n : Z) (accepted : bool).
Definition op_of (c : call) : op :=
  match c with
  | CRegister s i => Register s i
  | CAddRow T n a => RegisterRow (dotted T) n a
  | CRequestRow T a ans => AddRequest (dotted T) a ans
  | CRemoveRow T n => UnregisterRow (dotted T ++ print_dec n)
  | CRequestRemove T n ok => RemoveRequest (dotted T ++ print_dec n) ok
  end.
(** the table [T] after a call that returned [rc] *)
Definition listed (T : list name) (l : list (Z * option name)) (c : call) (rc : Z) : list (Z * option name) :=
  if rc =? E_SUCCESS then
    match c with
    | CAddRow T' n a | CRequestRow T' a (Some n) => if path_eqb T' T then l ++ [(n, a)] else l
    | CRemoveRow T' n | CRequestRemove T' n _ => if path_eqb T' T then filter (fun r => negb (fst r =? n)) l else l
    | _ => l
    end
  else l.
(** the calls considered, for a table [T] with rows [l]: tables have no get handlers of their own,
    [T] is not registered anew, nor what is above it as a table, nothing but rows is put directly
    into [T], no row that [T] lies in is removed, row numbers are below 2^31 and a provider does
    not answer a request with a number in use *)
Definition path_ok (T : list name) : Prop := T <> [] /\ forallb good_name T = true /\ forallb plain_tok T = true.
Definition call_ok (T : list name) (l : list (Z * option name)) (c : call) : Prop :=
  match c with
  | CRegister s i => let p := tokens (strip (typ i) s) in p <> T /\
      (typ i = TABLE -> getter i = false /\ below p T = None) /\
      (forall n r, below T p = Some (n :: r) -> n = TEMPLATE)
  | CAddRow T' n _ => path_ok T' /\ 0 <= n < 2 ^ 31
  | CRequestRow T' _ (Some n) => path_ok T' /\ 0 <= n < 2 ^ 31 /\ (T' = T -> ~ In n (map fst l))
  | CRequestRow T' _ None => path_ok T'
  | CRemoveRow T' n | CRequestRemove T' n _ => path_ok T' /\ 0 <= n < 2 ^ 31 /\ below (T' ++ [print_dec n]) T = None
  end.
(** a run of calls from the tree [t], with [l] the rows of [T]: where it ends *)
Fixpoint history (T : list name) (t : tree) (l : list (Z * option name)) (cs : list call) (t' : tree) (l' : list (Z * option name)) : Prop :=
  match cs with
  | [] => t' = t /\ l' = l
  | c :: cs => call_ok T l c /\ exists t1 rc, step t (op_of c) = Ok (t1, rc) /\ history T t1 (listed T l c rc) cs t' l'
  end.
(** the element at [T] is a table with the rows [l], in this order *)
Definition holds (t : tree) (T : list name) (l : list (Z * option name)) : Prop :=
  exists x, sub t T = Some x /\ is_table x = true /\
    map (fun kc => (fst kc, alias (snd kc))) (filter (fun kc => negb (bytes_eqb (fst kc) TEMPLATE)) (kids x))
    = map (fun r => (print_dec (fst r), snd r)) l /\
    NoDup (map fst l) /\ Forall (fun r => 0 <= fst r < 2 ^ 31) l.
(** no table anywhere has a get handler of its own *)
Inductive quiet : tree -> Prop :=
| Q i a k : (typ i = TABLE -> getter i = false) -> Forall (fun nc => quiet (snd nc)) k -> quiet (Node i a k).
(** what the consumer is shown for a row *)
Definition shown_row (T : list name) (r : Z * option name) : row :=
  mkRow (fst r) (match snd r with Some [] => None | a => a end) (dotted T ++ print_dec (fst r) ++ bs ".").
Definition text_ok (s : list Z) : Prop := is_cstr s = true /\ Z.of_nat (length s) < 2 ^ 31 - 1.

(** ** elements *)
(** parents first, then the earlier sibling *)
Inductive precedes : list nat -> list nat -> Prop :=
| pre_up : forall j b, precedes [] (j :: b)
| pre_here : forall i j a b, (i < j)%nat -> precedes (i :: a) (j :: b)
| pre_below : forall i a b, precedes a b -> precedes (i :: a) (i :: b).
(** the element at [pos] below [u] is part of the answer: it is at most [depth] levels down
    (exactly, for a negative depth), it is not in a row template and neither it nor anything
    between is a table with its own get handler *)
Definition listed_at (u : tree) (depth : Z) (pos : list nat) : Prop :=
  exists x, node_of u pos = Some x /\
    (0 <= depth -> Z.of_nat (length pos) <= depth) /\ (depth < 0 -> Z.of_nat (length pos) = - depth) /\
    (forall a b y, pos = a ++ b -> a <> [] -> node_of u a = Some y -> is_table y = true -> getter (inf y) = false) /\
    (forall a j b y n c, pos = a ++ j :: b -> node_of u a = Some y -> is_table y = true -> nth_error (kids y) j = Some (n, c) -> n <> TEMPLATE).
(** the entry of the element at [pos] below [u], which is at path [P] and in a table or not *)
Definition in_table_at (u : tree) (in_table : bool) (pos : list nat) : bool :=
  match pos with [] => in_table | _ => match node_of u (removelast pos) with Some y => is_table y | None => false end end.
Definition entry_at (other : Z -> Z) (u : tree) (in_table : bool) (P : list name) (pos : list nat) (e : entry) : Prop :=
  exists x, node_of u pos = Some x /\ e_type e = typ (inf x) /\
    e_name e = full (P ++ path_of u pos) ++ (if (typ (inf x) =? 0) || (typ (inf x) =? TABLE) then bs "." else []) /\
    (forall b, 0 <= b -> Z.testbit (e_access e) b =
       (getter (inf x) && (b =? 0)) || Z.testbit (other (hid (inf x))) b ||
       ((typ (inf x) =? 0) && in_table_at u in_table pos && ((b =? 0) || (b =? 1)))).
(** the entries: parents first, siblings in the order of the tree *)
Definition described (other : Z -> Z) (u : tree) (in_table : bool) (P : list name) (depth : Z) (l : list entry) : Prop :=
  exists L, StronglySorted precedes L /\ (forall pos, In pos L <-> listed_at u depth pos) /\
    Forall2 (entry_at other u in_table P) L l.
(** the names, types and access bits of the elements below [u] fit into their fields *)
Definition sendable (other : Z -> Z) (u : tree) (P : list name) : Prop :=
  forall pos x, node_of u pos = Some x -> is_cstr (full (P ++ path_of u pos)) = true /\
    (length (full (P ++ path_of u pos)) < 255)%nat /\ 0 <= typ (inf x) < 2 ^ 31 /\ 0 <= other (hid (inf x)) < 2 ^ 31.
(** no table on the way to [Q] has a get handler of its own *)
Definition open_path (t : tree) (Q : list name) : Prop :=
  forall a b y, Q = a ++ b -> a <> [] -> b <> [] -> sub t a = Some y -> is_table y = true -> getter (inf y) = false.
Definition table_above (t : tree) (Q : list name) : bool :=
  match sub t (removelast Q) with Some y => is_table y | None => false end.
(** a component that can be asked for [Q]: it fails, or its elements fit into the answer *)
Definition ready (Q : list name) (depth : Z) (d : destination) : Prop :=
  match d with
  | Fails _ => True
  | Answers other t => open_path t Q /\ forall u, sub t Q = Some u -> sendable other u Q /\
      forall l, described other u (table_above t Q) Q depth l -> Z.of_nat (length l) < 2 ^ 31
  end.
(** what a component adds to the answer for the path [Q], and the code that stands after it *)
Inductive told (Q : list name) (depth : Z) : destination -> Z -> list entry -> Prop :=
| told_fail err : told Q depth (Fails err) (bus_error err) []
| told_none other t : sub t Q = None -> told Q depth (Answers other t) E_ELEMENT_DOES_NOT_EXIST []
| told_own other t u : sub t Q = Some u -> is_table u && getter (inf u) = true -> told Q depth (Answers other t) E_SUCCESS []
| told_some other t u l : sub t Q = Some u -> is_table u && getter (inf u) = false ->
    described other u (table_above t Q) Q depth l -> told Q depth (Answers other t) E_SUCCESS l.
(** all components, in turn *)
Fixpoint told_all (Q : list name) (depth : Z) (code : Z) (ds : list (name * destination)) (code' : Z) (es : list (name * entry)) : Prop :=
  match ds with
  | [] => code' = code /\ es = []
  | (comp, d) :: ds => exists c l es', told Q depth d c l /\ told_all Q depth c ds code' es' /\ es = map (fun e => (comp, e)) l ++ es'
  end.
