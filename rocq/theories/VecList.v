(** rtVector seen as a list (justified by C17_vector_is_list): the operations the other
    modules use. *)
From Verif Require Import Common.

(** rtVector.c:184-201 rtVector_Find: the first item for which the comparison gives 0 *)
Fixpoint vfind {A} (p : A -> bool) (l : list A) : option A :=
  match l with [] => None | x :: l => if p x then Some x else vfind p l end.
(** rtVector.c:126-158 rtVector_RemoveItemByCompare: the first matching item goes *)
Fixpoint vremove {A} (p : A -> bool) (l : list A) : list A :=
  match l with [] => [] | x :: l => if p x then l else x :: vremove p l end.
(** assignment through the pointer that rtVector_Find returned *)
Fixpoint vupdate {A} (p : A -> bool) (f : A -> A) (l : list A) : list A :=
  match l with [] => [] | x :: l => if p x then f x :: l else x :: vupdate p f l end.
(** rtVector_HasItem *)
Definition vhas {A} (p : A -> bool) (l : list A) : bool := is_some (vfind p l).

(** strncmp(a, b, n) == 0 on NUL-free strings *)
Definition strneq (n : Z) (a b : list Z) : bool := bytes_eqb (firstn (Z.to_nat n) a) (firstn (Z.to_nat n) b).
