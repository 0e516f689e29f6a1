(** Specification of message listeners (C85): who listens to what, as a list. *)
From Verif Require Import Common TextModel Errors TapModel.
Local Open Scope list_scope.
Local Open Scope Z_scope.

(** a listener: the connection it listens on (0 is that of the handle), the expression and the id it
    was added with, its handler *)
Record entry := mkEntry { i_conn : nat; i_expr : list Z; i_id : Z; i_handler : Z }.
Record ideal := mkIdeal { entries : list entry; names : list (list Z * nat); closed : bool }.
Definition nobody : ideal := mkIdeal [] [] false.
Definition on (c : nat) (id : Z) (x : entry) : bool := Nat.eqb (i_conn x) c && (i_id x =? id).
Definition where_is (i : ideal) (e : list Z) : option nat := option_map snd (find (fun p => bytes_eqb (fst p) e) (names i)).
Definition without (f : entry -> bool) (i : ideal) : ideal := mkIdeal (filter (fun x => negb (f x)) (entries i)) (names i) (closed i).
Definition ideal_step (i : ideal) (o : op) : ideal * list effect :=
  match o with
  | AddListener e id h => (mkIdeal (entries i ++ [mkEntry 0 e id h]) (names i) (closed i), [Code E_SUCCESS])
  | RemoveListener e id => (without (on 0 id) i, [Code (if existsb (on 0 id) (entries i) then E_SUCCESS else E_BUS_ERROR)])
  | AddPrivate e id h =>
    match where_is i e with
    | Some c => (mkIdeal (entries i ++ [mkEntry c e id h]) (names i) (closed i), [Code E_SUCCESS])
    | None => (i, [Code E_DIRECT_CON_NOT_EXIST])
    end
  | RemovePrivate e id =>
    match where_is i e with
    | Some c => (without (on c id) i, [Code (if existsb (on c id) (entries i) then E_SUCCESS else E_BUS_ERROR)])
    | None => (i, [Code E_DIRECT_CON_NOT_EXIST])
    end
  | RemoveAll => (mkIdeal [] (names i) true, [Code E_SUCCESS])
  | HasListener e => (i, [Answer (existsb (fun x => bytes_eqb (i_expr x) e) (entries i))])
  | Message c id request =>
    match find (on c id) (entries i) with
    | Some x => (i, (if request then [Receipt c] else []) ++ [Called (i_handler x)])
    | None => (i, [])
    end
  | Open e c => (mkIdeal (entries i) (names i ++ [(e, S c)]) (closed i), [])
  | Close e =>
    match where_is i e with
    | Some c =>
      let l := drop_name e (names i) in
      (if existsb (fun p => Nat.eqb (snd p) c) l then mkIdeal (entries i) l (closed i)
       else mkIdeal (filter (fun x => negb (Nat.eqb (i_conn x) c)) (entries i)) l (closed i), [])
    | None => (i, [])
    end
  | Drop c => (mkIdeal (filter (fun x => negb (Nat.eqb (i_conn x) (S c))) (entries i)) (filter (fun p => negb (Nat.eqb (snd p) (S c))) (names i)) (closed i), [])
  end.
Fixpoint ideal_run (i : ideal) (l : list op) : list (list effect) :=
  match l with [] => [] | o :: l => let (i, r) := ideal_step i o in r :: ideal_run i l end.

(** the calls considered.  [isp] says which expressions are used for private connections; no
    expression is shared by two listeners of the handle's connection, no id by two of one
    connection; a listener is removed with the expression and the id it was added with; there are
    at most 128 on a connection; nothing is asked about expressions of private connections; and
    removing all listeners comes last, when private connections have none *)
Definition room (i : ideal) (c : nat) : Prop := (length (filter (fun x => Nat.eqb (i_conn x) c) (entries i)) < 128)%nat.
Definition proper_step (isp : list Z -> bool) (i : ideal) (o : op) : Prop :=
  match o with
  | AddListener e id _ => closed i = false /\ isp e = false /\ (forall x, In x (entries i) -> i_expr x <> e /\ on 0 id x = false) /\ room i 0
  | RemoveListener e id => closed i = false /\ isp e = false /\ forall x, In x (entries i) -> i_conn x = 0%nat -> (i_expr x = e <-> i_id x = id)
  | AddPrivate e id _ => closed i = false /\ isp e = true /\ forall c, where_is i e = Some c -> (forall x, In x (entries i) -> on c id x = false) /\ room i c
  | RemovePrivate e id => closed i = false /\ isp (raw_topic e id) = false /\ forall x, In x (entries i) -> i_expr x <> raw_topic e id
  | RemoveAll => closed i = false /\ forall x, In x (entries i) -> i_conn x = 0%nat
  | HasListener e => closed i = false /\ isp e = false
  | _ => True
  end.
Fixpoint proper (isp : list Z -> bool) (i : ideal) (l : list op) : Prop :=
  match l with [] => True | o :: l => proper_step isp i o /\ proper isp (fst (ideal_step i o)) l end.
