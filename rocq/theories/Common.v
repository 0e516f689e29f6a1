(** Shared vocabulary of the model: bytes, C strings, outcomes. *)
From Coq Require Export List Arith ZArith Lia Bool.
From Coq Require Import String Ascii.
From Coq Require Export ZifyBool ZifyNat.
Export ListNotations.

(** Outcome of a modelled C function.  [UB] stands for undefined behaviour
    (out-of-bounds access, NULL or dangling dereference, read of an
    uninitialised variable): it is never a normal result. *)
Inductive outcome (E A : Type) : Type :=
| Ok (a : A)
| Err (e : E)
| UB.
Arguments Ok {E A} a.
Arguments Err {E A} e.
Arguments UB {E A}.

Definition obind {E A B} (x : outcome E A) (f : A -> outcome E B) : outcome E B :=
  match x with Ok a => f a | Err e => Err e | UB => UB end.

Notation "'do' x <- e ; f" := (obind e (fun x => f))
  (at level 200, x pattern, e at level 100, f at level 200).

(** A byte is an integer in [0,256). *)
Definition is_byte (b : Z) : bool := (0 <=? b)%Z && (b <? 256)%Z.
Definition bytes_ok (l : list Z) : bool := forallb is_byte l.

(** A C string is the list of its bytes before the terminating NUL. *)
Definition is_cstr (l : list Z) : bool := forallb (fun b => (1 <=? b)%Z && (b <? 256)%Z) l.

Fixpoint bytes_eqb (a b : list Z) : bool :=
  match a, b with
  | [], [] => true
  | x :: a', y :: b' => (x =? y)%Z && bytes_eqb a' b'
  | _, _ => false
  end.

(** Text literals, for examples only. *)
Definition bs (s : string) : list Z :=
  map (fun a => Z.of_N (N_of_ascii a)) (list_ascii_of_string s).

Definition is_some {A} (o : option A) : bool := match o with Some _ => true | None => false end.

(** Array access: out of range is [None], which callers turn into [UB]. *)
Definition rd {A} (l : list A) (i : nat) : option A := nth_error l i.

Fixpoint upd {A} (l : list A) (i : nat) (x : A) : list A :=
  match l, i with
  | [], _ => []
  | _ :: t, O => x :: t
  | y :: t, S i' => y :: upd t i' x
  end.

(* [length] is always the list length, also in files that import String. *)
Notation length := Datatypes.length.

(** The C string starting at the first byte; [None] when no NUL follows. *)
Fixpoint c_str (l : list Z) : option (list Z) :=
  match l with
  | [] => None
  | c :: l' => if (c =? 0)%Z then Some [] else match c_str l' with Some s => Some (c :: s) | None => None end
  end.
