(** Model of src/rtmessage/rtVector.c.  Items are pointers, i.e. integers with
    NULL = 0.  Simplification: memory allocation always succeeds
    (rt_try_calloc / rt_try_realloc), and the destroyer callback is not modelled
    (it does not touch the vector). *)
From Verif Require Import Common.

Definition RTVECT_BLOCKSIZE : nat := 16. (* rtVector.c:27 *)

(** rtVector.c:29-34: [v_data] is NULL ([None]) or an array of [capacity] cells;
    a cell is [None] while it holds the indeterminate bytes left by realloc. *)
Record vec := mkVec { v_data : option (list (option Z)); v_capacity : nat; v_count : nat }.

(** rtError.h RT_FAIL *)
Inductive verr := RT_FAIL.

(** rtVector.c:36-46 rtVector_Create *)
Definition rtVector_Create : vec := mkVec None 0 0.

(** v->data[i] = x; [UB] outside the allocation. rtVector.c:29-34 *)
Definition cell_write (d : list (option Z)) (i : nat) (x : option Z) : outcome verr (list (option Z)) :=
  if i <? length d then Ok (upd d i x) else UB.
(** v->data[i] as a possibly indeterminate value; [UB] outside the allocation. rtVector.c:29-34 *)
Definition cell_copy (d : list (option Z)) (i : nat) : outcome verr (option Z) :=
  match nth_error d i with Some c => Ok c | None => UB end.
(** v->data[i] used as a pointer: an indeterminate value is [UB]. rtVector.c:29-34 *)
Definition cell_use (d : list (option Z)) (i : nat) : outcome verr Z :=
  match nth_error d i with Some (Some x) => Ok x | _ => UB end.

(** rtVector.c:68-90 rtVector_PushBack (v non-NULL) *)
Definition rtVector_PushBack (v : vec) (item : Z) : outcome verr vec :=
  let '(d, cap) :=
    match v_data v with
    | None => (repeat (Some 0%Z) RTVECT_BLOCKSIZE, RTVECT_BLOCKSIZE)        (* calloc: zeroed *)
    | Some d => if v_capacity v <=? v_count v + 1
                then (d ++ repeat None RTVECT_BLOCKSIZE, v_capacity v + RTVECT_BLOCKSIZE)
                else (d, v_capacity v)
    end in
  do d' <- cell_write d (v_count v) (Some item);
  Ok (mkVec (Some d') cap (v_count v + 1)).

(** The search loop of RemoveItem / RemoveItemByCompare / Find
    (rtVector.c:96-104, 129-137, 188-199): first index in [i, i+n) whose item
    satisfies [p]. *)
Fixpoint vec_search (p : Z -> bool) (d : list (option Z)) (i n : nat) : outcome verr (option nat) :=
  match n with
  | O => Ok None
  | S n' => do x <- cell_use d i; if p x then Ok (Some i) else vec_search p d (S i) n'
  end.

(** rtVector.c:109-113: while (i < count) { data[i] = data[i+1]; i++; } *)
Fixpoint vec_shift (d : list (option Z)) (i n : nat) : outcome verr (list (option Z)) :=
  match n with
  | O => Ok d
  | S n' => do c <- cell_copy d (i + 1); do d' <- cell_write d i c; vec_shift d' (S i) n'
  end.

(** rtVector.c:117-121: while (i < capacity) { data[i] = NULL; i++; } *)
Fixpoint vec_clear (d : list (option Z)) (i n : nat) : outcome verr (list (option Z)) :=
  match n with
  | O => Ok d
  | S n' => do d' <- cell_write d i (Some 0%Z); vec_clear d' (S i) n'
  end.

(** rtVector.c:126-158 rtVector_RemoveItemByCompare with compare = [p];
    rtVector.c:92-124 rtVector_RemoveItem is the case p x := (x == item). *)
Definition rtVector_RemoveBy (v : vec) (p : Z -> bool) : outcome verr vec :=
  let d := match v_data v with Some d => d | None => [] end in
  do r <- vec_search p d 0 (v_count v);
  match r with
  | None => Err RT_FAIL
  | Some i =>
      do d1 <- vec_shift d i (v_count v - i);
      do d2 <- vec_clear d1 (v_count v) (v_capacity v - v_count v);
      Ok (mkVec (Some d2) (v_capacity v) (v_count v - 1))
  end.
(** rtVector.c:126-158, continued *)
Definition rtVector_RemoveItem (v : vec) (item : Z) : outcome verr vec :=
  rtVector_RemoveBy v (Z.eqb item).

(** rtVector.c:160-166 rtVector_At *)
Definition rtVector_At (v : vec) (i : nat) : outcome verr Z :=
  if v_count v <=? i then Ok 0%Z
  else cell_use (match v_data v with Some d => d | None => [] end) i.
(** rtVector.c:168-173 rtVector_Size *)
Definition rtVector_Size (v : vec) : nat := v_count v.
(** rtVector.c:184-201 rtVector_Find; NULL when nothing matches *)
Definition rtVector_Find (v : vec) (p : Z -> bool) : outcome verr Z :=
  let d := match v_data v with Some d => d | None => [] end in
  do r <- vec_search p d 0 (v_count v);
  match r with None => Ok 0%Z | Some i => cell_use d i end.
(** rtVector.c:175-182 rtVector_HasItem *)
Definition rtVector_HasItem (v : vec) (p : Z -> bool) : outcome verr bool :=
  do x <- rtVector_Find v p; Ok (negb (x =? 0)%Z).

(** Operations and their observable results, for histories. no code of its own *)
Inductive vop :=
| VPush (x : Z) | VRemove (x : Z) | VRemoveBy (p : Z -> bool)
| VAt (i : nat) | VSize | VFind (p : Z -> bool) | VHas (p : Z -> bool).
(** what the operations return; no code of its own *)
Inductive vres := VOk | VFail | VPtr (x : Z) | VNum (n : nat) | VBool (b : bool).

(** One operation of a history: calls the functions modelled above; no code of its own. *)
Definition vec_step (v : vec) (o : vop) : outcome verr (vec * vres) :=
  match o with
  | VPush x => do v' <- rtVector_PushBack v x; Ok (v', VOk)
  | VRemove x => match rtVector_RemoveItem v x with
                 | Ok v' => Ok (v', VOk) | Err _ => Ok (v, VFail) | UB => UB end
  | VRemoveBy p => match rtVector_RemoveBy v p with
                 | Ok v' => Ok (v', VOk) | Err _ => Ok (v, VFail) | UB => UB end
  | VAt i => do x <- rtVector_At v i; Ok (v, VPtr x)
  | VSize => Ok (v, VNum (rtVector_Size v))
  | VFind p => do x <- rtVector_Find v p; Ok (v, VPtr x)
  | VHas p => do b <- rtVector_HasItem v p; Ok (v, VBool b)
  end.

(** A history: one operation after the other; no code of its own. *)
Fixpoint vec_run (v : vec) (ops : list vop) : outcome verr (list vres) :=
  match ops with
  | [] => Ok []
  | o :: ops' => do (v', r) <- vec_step v o; do rs <- vec_run v' ops'; Ok (r :: rs)
  end.
