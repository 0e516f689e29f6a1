(** Model of src/rtmessage/rtList.c with an explicit heap of nodes.
    An rtListItem is an address: [None] is NULL, [Some i] the i-th allocated node.
    Nodes are never returned to the allocator before rtList_Destroy, so an address
    stays valid.  Data are pointers (NULL = 0).  Simplifications: allocation
    always succeeds; a destroyer is a flag (it frees what data points to, which
    the list never looks at again); RT_LIST_ERROR_CHECKING is off. *)
From Verif Require Import Common.

(** rtList.c:30-35 *)
Record lnode := mkN { n_data : Z; n_next : option nat; n_prev : option nat }.
(** rtList.c:37-43 *)
Record rlist := mkL { l_heap : list lnode; l_front : option nat; l_back : option nat;
                      l_free : option nat; l_size : nat }.
(** rtList.c:37-43, continued *)
Inductive lerr := RT_ERROR_INVALID_ARG | RT_ERROR.

(** p->field read and p->field = v; NULL or an address never allocated is UB; any access in rtList.c:45-330 *)
Definition deref (h : list lnode) (p : option nat) : outcome lerr lnode :=
  match p with None => UB | Some i => match nth_error h i with Some n => Ok n | None => UB end end.
(** any assignment in rtList.c:45-330 *)
Definition store (h : list lnode) (p : option nat) (f : lnode -> lnode) : outcome lerr (list lnode) :=
  match p with
  | None => UB
  | Some i => match nth_error h i with Some n => Ok (upd h i (f n)) | None => UB end
  end.
(** helper, no code of its own *)
Definition with_next v (n : lnode) := mkN (n_data n) v (n_prev n).
(** helper, no code of its own *)
Definition with_prev v (n : lnode) := mkN (n_data n) (n_next n) v.
(** helper, no code of its own *)
Definition with_data v (n : lnode) := mkN v (n_next n) (n_prev n).

(** rtList.c:45-61 rtList_GetFreeItem.  The links of a fresh node are indeterminate
    until the caller sets them; every caller sets both before reading them. *)
Definition getFreeItem (l : rlist) : outcome lerr (rlist * option nat) :=
  match l_free l with
  | Some i => do n <- deref (l_heap l) (Some i);
              Ok (mkL (l_heap l) (l_front l) (l_back l) (n_next n) (l_size l), Some i)
  | None => Ok (mkL (l_heap l ++ [mkN 0 None None]) (l_front l) (l_back l) None (l_size l),
                Some (length (l_heap l)))
  end.

(** rtList.c:63-77 rtList_SetFreeItem *)
Definition setFreeItem (h : list lnode) (free item : option nat) : outcome lerr (list lnode * option nat) :=
  match free with
  | Some _ => do h <- store h free (with_prev item);
              do h <- store h item (with_next free);
              do h <- store h item (with_prev None);
              Ok (h, item)
  | None => do h <- store h item (with_next None);
            do h <- store h item (with_prev None);
            Ok (h, item)
  end.

(** rtList.c:85-95 rtList_Create *)
Definition rtList_Create : rlist := mkL [] None None None 0.

(** "if(data != rtListReuseData) item->data = data": [None] is rtListReuseData; rtList.c:136, 158, 181, 204 *)
Definition set_data (h : list lnode) (item : option nat) (data : option Z) :=
  match data with Some d => store h item (with_data d) | None => Ok h end.

(** comparison of pointers *)
Definition opt_eqb (a b : option nat) : bool :=
  match a, b with Some x, Some y => x =? y | None, None => true | _, _ => false end.

(** rtList.c:128-149 rtList_PushFront *)
Definition rtList_PushFront (l : rlist) (data : option Z) : outcome lerr (rlist * option nat) :=
  do (l, item) <- getFreeItem l;
  do h <- set_data (l_heap l) item data;
  do h <- store h item (with_prev None);
  do h <- store h item (with_next (l_front l));
  do h <- (if is_some (l_front l) then store h (l_front l) (with_prev item) else Ok h);
  Ok (mkL h item (if is_some (l_back l) then l_back l else item) (l_free l) (S (l_size l)), item).

(** rtList.c:150-171 rtList_PushBack *)
Definition rtList_PushBack (l : rlist) (data : option Z) : outcome lerr (rlist * option nat) :=
  do (l, item) <- getFreeItem l;
  do h <- set_data (l_heap l) item data;
  do h <- store h item (with_next None);
  do h <- store h item (with_prev (l_back l));
  do h <- (if is_some (l_back l) then store h (l_back l) (with_next item) else Ok h);
  Ok (mkL h (if is_some (l_front l) then l_front l else item) item (l_free l) (S (l_size l)), item).

(** rtList.c:172-194 rtList_InsertBefore *)
Definition rtList_InsertBefore (l : rlist) (data : option Z) (at_ : option nat) : outcome lerr (rlist * option nat) :=
  if negb (is_some at_) then Err RT_ERROR_INVALID_ARG else
  do (l, item) <- getFreeItem l;
  do h <- set_data (l_heap l) item data;
  do h <- store h item (with_next at_);
  do a <- deref h at_;
  do h <- store h item (with_prev (n_prev a));
  do h <- store h at_ (with_prev item);
  if opt_eqb at_ (l_front l)
  then Ok (mkL h item (l_back l) (l_free l) (S (l_size l)), item)
  else do n <- deref h item;
       do h <- store h (n_prev n) (with_next item);
       Ok (mkL h (l_front l) (l_back l) (l_free l) (S (l_size l)), item).

(** rtList.c:195-217 rtList_InsertAfter *)
Definition rtList_InsertAfter (l : rlist) (data : option Z) (at_ : option nat) : outcome lerr (rlist * option nat) :=
  if negb (is_some at_) then Err RT_ERROR_INVALID_ARG else
  do (l, item) <- getFreeItem l;
  do h <- set_data (l_heap l) item data;
  do a <- deref h at_;
  do h <- store h item (with_next (n_next a));
  do h <- store h item (with_prev at_);
  do h <- store h at_ (with_next item);
  if opt_eqb at_ (l_back l)
  then Ok (mkL h (l_front l) item (l_free l) (S (l_size l)), item)
  else do n <- deref h item;
       do h <- store h (n_next n) (with_prev item);
       Ok (mkL h (l_front l) (l_back l) (l_free l) (S (l_size l)), item).

(** rtList.c:218-245 rtList_RemoveItem; [destroy] = a destroyer was passed *)
Definition rtList_RemoveItem (l : rlist) (item : option nat) (destroy : bool) : outcome lerr rlist :=
  if negb (is_some item) then Err RT_ERROR_INVALID_ARG else
  do n <- deref (l_heap l) item;
  do h <- (if is_some (n_prev n) then store (l_heap l) (n_prev n) (with_next (n_next n)) else Ok (l_heap l));
  do n <- deref h item;
  do h <- (if is_some (n_next n) then store h (n_next n) (with_prev (n_prev n)) else Ok h);
  do n <- deref h item;
  let front := if opt_eqb (l_front l) item then n_next n else l_front l in
  let back := if opt_eqb (l_back l) item then n_prev n else l_back l in
  do h <- (if destroy && negb (n_data n =? 0)%Z then store h item (with_data 0%Z) else Ok h);
  do (h, free) <- setFreeItem h (l_free l) item;
  Ok (mkL h front back free (l_size l - 1)).

(** The walk "item = list->front; while(item && !p(item->data)) item = item->next"
    (rtList.c:250-252, 264-276, 319-325).  [fuel] bounds the walk; running out
    means the walk does not terminate, reported as [UB]. *)
Fixpoint walk (h : list lnode) (p : Z -> bool) (item : option nat) (fuel : nat) : outcome lerr (option nat) :=
  match item with
  | None => Ok None
  | Some i =>
      match fuel with
      | O => UB
      | S fuel' => do n <- deref h item; if p (n_data n) then Ok item else walk h p (n_next n) fuel'
      end
  end.

(** rtList.c:262-281 rtList_RemoveItemByCompare; compare(data, comparison)==0 is [p] *)
Definition rtList_RemoveItemByCompare (l : rlist) (p : Z -> bool) (destroy : bool) : outcome lerr rlist :=
  do item <- walk (l_heap l) p (l_front l) (length (l_heap l));
  match item with None => Err RT_ERROR | Some _ => rtList_RemoveItem l item destroy end.

(** rtList.c:246-261 rtList_RemoveItemWithData *)
Definition rtList_RemoveItemWithData (l : rlist) (d : Z) (destroy : bool) : outcome lerr rlist :=
  do item <- walk (l_heap l) (Z.eqb d) (l_front l) (length (l_heap l));
  match item with None => Err RT_ERROR_INVALID_ARG | Some _ => rtList_RemoveItem l item destroy end.

(** rtList.c:283-302 rtList_RemoveAllItems: the loop (288-298) *)
Fixpoint removeAllLoop (h : list lnode) (free item : option nat) (destroy : bool) (fuel : nat)
  : outcome lerr (list lnode * option nat) :=
  match item with
  | None => Ok (h, free)
  | Some _ =>
      match fuel with
      | O => UB
      | S fuel' =>
          do n <- deref h item;
          let next := n_next n in
          do h <- (if destroy && negb (n_data n =? 0)%Z then store h item (with_data 0%Z) else Ok h);
          do (h, free) <- setFreeItem h free item;
          removeAllLoop h free next destroy fuel'
      end
  end.
(** rtList.c:283-302, continued *)
Definition rtList_RemoveAllItems (l : rlist) (destroy : bool) : outcome lerr rlist :=
  do (h, free) <- removeAllLoop (l_heap l) (l_free l) (l_front l) destroy (length (l_heap l));
  Ok (mkL h None None free 0).

(** rtList.c:314-327 rtList_Find: the data of the first match or NULL *)
Definition rtList_Find (l : rlist) (p : Z -> bool) : outcome lerr Z :=
  do item <- walk (l_heap l) p (l_front l) (length (l_heap l));
  match item with None => Ok 0%Z | Some _ => do n <- deref (l_heap l) item; Ok (n_data n) end.

(** Operations of a history.  [at_]/[it] are the addresses the caller holds. no code of its own *)
Inductive lop :=
| LPushFront (d : option Z) | LPushBack (d : option Z)
| LInsertBefore (d : option Z) (at_ : nat) | LInsertAfter (d : option Z) (at_ : nat)
| LRemove (it : nat) (destroy : bool) | LRemoveData (d : Z) (destroy : bool)
| LRemoveBy (p : Z -> bool) (destroy : bool) | LRemoveAll (destroy : bool)
| LSize | LFind (p : Z -> bool) | LFront | LBack
| LNext (it : nat) | LPrev (it : nat) | LGetData (it : nat) | LSetData (it : nat) (d : Z).
(** what the operations return; no code of its own *)
Inductive lres := LDone | LError | LItem (i : option nat) | LPtr (d : Z) | LNum (n : nat).

(** helper, no code of its own *)
Definition of_unit (l : rlist) (r : outcome lerr rlist) : outcome lerr (rlist * lres) :=
  match r with Ok l' => Ok (l', LDone) | Err _ => Ok (l, LError) | UB => UB end.
(** helper, no code of its own *)
Definition of_item (l : rlist) (r : outcome lerr (rlist * option nat)) : outcome lerr (rlist * lres) :=
  match r with Ok (l', i) => Ok (l', LItem i) | Err _ => Ok (l, LError) | UB => UB end.

(** rtList.c:329-382: the accessors (GetSize, GetFront, GetBack, item GetData,
    SetData, GetNext, GetPrev) are the last cases *)
Definition rl_step (l : rlist) (o : lop) : outcome lerr (rlist * lres) :=
  match o with
  | LPushFront d => of_item l (rtList_PushFront l d)
  | LPushBack d => of_item l (rtList_PushBack l d)
  | LInsertBefore d a => of_item l (rtList_InsertBefore l d (Some a))
  | LInsertAfter d a => of_item l (rtList_InsertAfter l d (Some a))
  | LRemove i dz => of_unit l (rtList_RemoveItem l (Some i) dz)
  | LRemoveData d dz => of_unit l (rtList_RemoveItemWithData l d dz)
  | LRemoveBy p dz => of_unit l (rtList_RemoveItemByCompare l p dz)
  | LRemoveAll dz => of_unit l (rtList_RemoveAllItems l dz)
  | LSize => Ok (l, LNum (l_size l))
  | LFind p => do d <- rtList_Find l p; Ok (l, LPtr d)
  | LFront => Ok (l, LItem (l_front l))
  | LBack => Ok (l, LItem (l_back l))
  | LNext i => do n <- deref (l_heap l) (Some i); Ok (l, LItem (n_next n))
  | LPrev i => do n <- deref (l_heap l) (Some i); Ok (l, LItem (n_prev n))
  | LGetData i => do n <- deref (l_heap l) (Some i); Ok (l, LPtr (n_data n))
  | LSetData i d => do h <- store (l_heap l) (Some i) (with_data d);
                    Ok (mkL h (l_front l) (l_back l) (l_free l) (l_size l), LDone)
  end.
