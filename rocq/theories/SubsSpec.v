(** What subscriptions are (C31-C33, C35-C37, C56, C57). *)
From Coq Require Import String QArith.
From Verif Require Import Common Value CompareSpec TokenModel SubsModel Errors.
Local Open Scope string_scope.
Local Open Scope list_scope.
Local Open Scope Z_scope.

(** constants: numbers that a double can hold, and strings *)
Definition plain_const (v : value) : bool :=
  match v with
  | VString (Some _) => true
  | _ => exactly_representable v && is_some (real_of v)
  end.
Fixpoint plain_filter (f : filter) : bool :=
  match f with FNull => true | FRel _ v => plain_const v | FLogic _ l r => plain_filter l && plain_filter r end.
(** the same number, whatever its type, or the same string *)
Definition text_of (v : value) : option (list Z) := match v with VString s => s | _ => None end.
Definition same_const (v w : value) : bool :=
  match text_of v, text_of w with
  | Some a, Some b => bytes_eqb a b
  | None, None => match real_of v, real_of w with Some x, Some y => Qeq_bool x y | _, _ => false end
  | _, _ => false
  end.
Fixpoint same_filter (f g : filter) : bool :=
  match f, g with
  | FNull, FNull => true
  | FRel o v, FRel o' v' => (o =? o') && same_const v v'
  | FLogic o l r, FLogic o' l' r' => (o =? o') && same_filter l l' && same_filter r r'
  | _, _ => false
  end.
Definition same_key (a b : key) : bool :=
  bytes_eqb (k_listener a) (k_listener b) && (k_comp a =? k_comp b) && bytes_eqb (k_event a) (k_event b) &&
  same_filter (k_filter a) (k_filter b) && (k_interval a =? k_interval b) && (k_duration a =? k_duration b) && eqb (k_raw a) (k_raw b).
Fixpoint distinct (l : list key) : Prop :=
  match l with [] => True | k :: l => (forall j, In j l -> same_key k j = false) /\ distinct l end.

Definition keys (s : state) : list key := map s_key (subs s).
(** the registry as a list of keys *)
Definition holds (l : list key) (k : key) : bool := existsb (same_key k) l.
Definition without (l : list key) (k : key) : list key := List.filter (fun j => negb (same_key k j)) l.

(** ** well-formed operations *)
Definition untyped (i : einfo) : bool := ntype (i_node i) =? 0.
Definition is_template (i : einfo) : bool := bytes_eqb (nname (i_node i)) TEMPLATE.
Definition sh_info (s : shape) := let 'Sh i _ := s in i.
(** elements with a type have no children, except the row template of a table *)
Fixpoint flat (s : shape) : bool :=
  match s with
  | Sh i ks => if untyped i then forallb flat ks
               else forallb (fun k => (ntype (i_node i) =? TABLE) && is_template (sh_info k) && untyped (sh_info k)) ks
  end.
Definition sound_row (s : shape) : bool :=
  match s with Sh i ks => untyped i && negb (is_template i) && forallb flat ks end.
(** a table that is not (below) a row template; a row, which is not itself an element *)
Definition fair (s : state) (o : op) : Prop :=
  match o with
  | Subscribe _ k | Unsubscribe _ k => plain_filter (k_filter k) = true
  | AddRow _ t r => sound_row r = true /\ exists p, In (t, p) (all_nodes s) /\ match p with n :: _ => bytes_eqb (nname n) TEMPLATE = false | [] => False end
  | RemoveRow r => forall up t, find_top r (tops s) = Some (up, t) -> untyped (el_info t) = true
  | Registered _ _ | Disconnect _ _ => True
  end.
Inductive reach (ans : answers) (s0 : state) : state -> Prop :=
  | reach_init : reach ans s0 s0
  | reach_step : forall s o s' r, reach ans s0 s -> fair s o -> step ans s o = Ok (s', r) -> reach ans s0 s'.
Definition good_cache (c : list (key * bool * Z)) : Prop :=
  distinct (map (fun x => fst (fst x)) c) /\ forall k a i, In (k, a, i) c -> plain_filter (k_filter k) = true.

(** ** what subscribers are *)
(** the element subscribed to, as registered; the elements of the tree with their ancestors are [all_nodes] *)
Definition reg_of (s : state) (x : sub) : option path :=
  match s_el x with
  | Some e => match find_top e (tops s) with Some (up, t) => Some (el_node t :: up) | None => None end
  | None => None
  end.
Definition path_of (s : state) (n : nat) : option path := option_map snd (find (fun q => Nat.eqb (fst q) n) (all_nodes s)).
(** the subscriber's event name is a name of the element (C21) *)
Definition aims (s : state) (x : sub) (n : nat) : bool :=
  match reg_of s x, path_of s n with
  | Some reg, Some p => match event_matches (k_event (s_key x)) reg p with Ok b => b | _ => false end
  | _, _ => false
  end.
(** no subscription is older than the deletion of its element *)
Definition sound_refs (s : state) : Prop := forall x e, In x (subs s) -> s_el x = Some e -> alive e s = true.
Definition targets (x : sub) (n : nat) : bool := existsb (Nat.eqb n) (s_insts x).

Fixpoint take_while {A} (f : A -> bool) (l : list A) : list A :=
  match l with [] => [] | x :: l => if f x then x :: take_while f l else [] end.

(** ** a handler's view: the keys it believes subscribed *)
Fixpoint replay (l : list call) (ks : list key) : list key :=
  match l with
  | [] => ks
  | c :: l =>
    if negb (c_err c =? 0) then replay l ks
    else match c_action c with SUBSCRIBE => replay l (ks ++ [c_key c]) | UNSUBSCRIBE => replay l (without ks (c_key c)) end
  end.

(** ** publishing *)
Definition result_of (sent : nat -> Z) (count : nat) : Z := if forallb (fun i => sent i =? 0) (seq 0 count) then E_SUCCESS else E_BUS_ERROR.
(** [h]: whether a value satisfies a filter; a filtered subscriber is told of a change of that *)
Definition fires (h : filter -> value -> bool) (vn vo : value) (f : filter) : bool :=
  match f with FNull => true | _ => negb (eqb (h f vn) (h f vo)) end.
Definition told_by (k : key) (m : message) : list bool :=
  if same_key k (m_to m) then match get_prop (bs "filter") (m_data m) with Some (VBool b) => [b] | _ => [] end else [].
Definition change (name : list Z) (vo vn : value) : event := mkEvent name true [(bs "value", vn); (bs "oldValue", vo)].
(** a property that goes through these values: the messages sent *)
Fixpoint changes (s : state) (sent : nat -> Z) (n : nat) (name : list Z) (vo : value) (vs : list value) : outcome unit (list message) :=
  match vs with
  | [] => Ok []
  | vn :: vs => do (ms, r) <- publish s sent (Some n) (change name vo vn) ; do ms' <- changes s sent n name vn vs ; Ok (ms ++ ms')
  end.
(** the values at which it changes *)
Fixpoint turns (b : bool) (l : list bool) : list bool :=
  match l with [] => [] | c :: l => if eqb b c then turns b l else c :: turns c l end.
Fixpoint alternates (b : bool) (l : list bool) : Prop :=
  match l with [] => True | c :: l => c = negb b /\ alternates c l end.
