(** The ideal behaviour of a vector: a mathematical list. *)
From Verif Require Import Common VectorModel.

(** Remove the first element satisfying [p], keeping the others in order. *)
Fixpoint remove_first {A} (p : A -> bool) (l : list A) : list A :=
  match l with
  | [] => []
  | x :: l' => if p x then l' else x :: remove_first p l'
  end.

Definition or_null (o : option Z) : Z := match o with Some x => x | None => 0%Z end.

Definition list_step (l : list Z) (o : vop) : list Z * vres :=
  match o with
  | VPush x => (l ++ [x], VOk)
  | VRemove x => if existsb (Z.eqb x) l then (remove_first (Z.eqb x) l, VOk) else (l, VFail)
  | VRemoveBy p => if existsb p l then (remove_first p l, VOk) else (l, VFail)
  | VAt i => (l, VPtr (or_null (nth_error l i)))
  | VSize => (l, VNum (length l))
  | VFind p => (l, VPtr (or_null (find p l)))
  | VHas p => (l, VBool (negb (or_null (find p l) =? 0)%Z))
  end.

Fixpoint list_run (l : list Z) (ops : list vop) : list vres :=
  match ops with
  | [] => []
  | o :: ops' => let '(l', r) := list_step l o in r :: list_run l' ops'
  end.
