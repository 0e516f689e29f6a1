(** What the data model library is for, without its code. *)
From Coq Require Import String.
From Verif Require Import Common DmModel.
Local Open Scope string_scope.
Local Open Scope list_scope.
Local Open Scope Z_scope.

(** words with a character between them *)
Fixpoint join (c : Z) (l : list name) : name :=
  match l with [] => [] | [w] => w | w :: l => w ++ c :: join c l end.
(** a word without a character *)
Definition without (c : Z) (w : name) : Prop := ~ In c w.

(** A name of an instance: the parts of the name of its object, each with the number of an item if
    it is that of a list. *)
Notation step := (name * option name)%type.
(** the parts of an instance name *)
Definition parts (l : list step) : list name :=
  flat_map (fun s => fst s :: match snd s with Some k => [k] | None => [] end) l.
(** the name of the object *)
Definition object_of (l : list step) : name := join 46 (map fst l).
(** the name of the instance *)
Definition instance_of (l : list step) : name := join 46 (parts l).
(** whether the last part is the number of an item *)
Definition is_item (l : list step) : bool := last (map (fun s => is_some (snd s)) l) false.

(** the database has an object *)
Definition declared (db : database) (o : name) (i : info) : Prop := In i db /\ i_object i = o.
(** it has one of that name *)
Definition known (db : database) (o : name) : Prop := exists i, declared db o i.
(** each step after [d]: only a list has items, a list that is gone through has one, and below an
    object there are only objects *)
Definition legs (db : database) (d l : list step) : Prop := forall a s b, l = a ++ s :: b ->
  (snd s <> None -> exists j, declared db (object_of (d ++ a ++ [s])) j /\ i_list j = true) /\
  (b <> [] -> forall j, declared db (object_of (d ++ a ++ [s])) j -> i_list j = true -> snd s <> None) /\
  (d ++ a <> [] -> known db (object_of (d ++ a)) -> known db (object_of (d ++ a ++ [s]))).
(** parts are parts: they have no dot, and the first is not empty *)
Definition proper (l : list step) : Prop := Forall (without 46) (parts l) /\ match l with (t, _) :: _ => t <> [] | [] => False end.
(** [l] leads to the object [i] *)
Definition leads (db : database) (l : list step) (i : info) : Prop := proper l /\ legs db [] l /\ declared db (object_of l) i.
(** no two objects have the same name (the database is a map) *)
Definition distinct (db : database) : Prop := NoDup (map i_object db).

(** a property of an object, by a name that can be asked for *)
Definition offers (i : info) (n : name) (w : bool) : Prop := In (n, w) (i_props i) /\ NoDup (map fst (i_props i)) /\ without 46 n /\ n <> [].
(** text that survives being a C string *)
Definition plain (s : name) : Prop := without 0 s.
(** the name of a property of an object *)
Definition under (o n : name) : name := o ++ [46] ++ n.
(** what is written to set a property, and several *)
Definition assign (n v : name) : name := n ++ [61] ++ v.
(** a list of settings *)
Definition braces (l : list (name * name)) : name := [123] ++ join 44 (map (fun x => assign (fst x) (snd x)) l) ++ [125].
(** names and values that can be in such a list *)
Definition listable (l : list (name * name)) : Prop :=
  Forall (fun x => without 44 (fst x) /\ without 61 (fst x) /\ without 44 (snd x) /\ without 61 (snd x)) l.

(** what a get makes of a property *)
Definition asked (P : provider) (p : prop) : event := match getter P (p_name p) with Some _ => EGet (p_name p) | None => EOwnGet p end.
(** what a set makes of a property: nothing unless it can be written *)
Definition told (P : provider) (x : prop * dvalue) : list event :=
  if p_writable (fst x) then [if setter P (p_name (fst x)) then ESet (p_name (fst x)) (snd x) else EOwnSet (fst x) (snd x)] else [].
(** several are set in a transaction *)
Definition transaction {A} (l : list A) (e : list event) : list event := match l with _ :: _ :: _ => [EBegin] ++ e ++ [EEnd] | _ => e end.
