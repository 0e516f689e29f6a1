(** Specification of event names (C21): a name is a list of segments, last one first. *)
From Coq Require Import String.
From Verif Require Import Common TextModel TokenModel.
Local Open Scope string_scope.
Local Open Scope list_scope.
Local Open Scope Z_scope.

Inductive seg := SName (s : list Z) | SNum (s : list Z) | SAlias (a : list Z) | SAny.
Definition text (p : seg) : list Z :=
  match p with SName s => s | SNum s => s | SAlias a => bs "[" ++ a ++ bs "]" | SAny => bs "*" end.
Fixpoint render (l : list seg) : list Z :=
  match l with [] => [] | [p] => text p | p :: l => render l ++ bs "." ++ text p end.

Definition lacks (c : Z) (s : list Z) : bool := forallb (fun x => negb (x =? c)) s.
Definition plain (s : list Z) : bool := is_cstr s && lacks 46 s && match s with [] => false | _ => true end.
Definition digits (s : list Z) : bool := forallb (fun c => (48 <=? c) && (c <=? 57)) s.
Definition wf (p : seg) : bool :=
  match p with
  | SName s => plain s
  | SNum s => plain s && digits s && (0 <? atoi s)
  | SAlias a => plain a && lacks 93 a
  | SAny => true
  end.
(** rows are named by number, alias or wildcard, other elements by name *)
Fixpoint fits (l : list seg) (reg : path) : bool :=
  match l, reg with
  | p :: l, _ :: up => eqb (match p with SName _ => false | _ => true end) (in_table up) && fits l up
  | _, _ => true
  end.
Definition seg_matches (p : seg) (n : node) (row : bool) : bool :=
  match p with
  | SName s => bytes_eqb s (nname n)
  | SNum s => row && bytes_eqb s (nname n)
  | SAlias a => row && match nalias n with Some b => bytes_eqb a b | None => false end
  | SAny => row
  end.
Fixpoint matches (l : list seg) (reg inst : path) : bool :=
  match l, reg, inst with
  | [], [], [] => true
  | p :: l, r :: reg, n :: inst => (ntype r =? ntype n) && seg_matches p n (in_table inst) && matches l reg inst
  | _, _, _ => false
  end.
(** rows that are compared with an alias have one *)
Fixpoint aliased (l : list seg) (inst : path) : bool :=
  match l, inst with
  | SAlias _ :: l, n :: inst => is_some (nalias n) && aliased l inst
  | _ :: l, _ :: inst => aliased l inst
  | _, _ => true
  end.
