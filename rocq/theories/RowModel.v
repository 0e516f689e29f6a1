(** Model of adding and removing table rows from another component: the provider's handlers
    src/rbus/rbus.c:2336-2449 (_table_add_row_callback_handler,
    _table_remove_row_callback_handler) over the element tree of ElemModel, and the callers
    rbusTable_addRow (4455-4535) and rbusTable_removeRow (4537-4597), with the messages between
    them.
    Simplifications: a handler is a function of what it is called with; what registering and
    unregistering a row does to subscriptions is left to SubsModel; table sync handlers are
    absent; allocation does not fail; arguments are not NULL; what a program receives is the
    content the other one wrote (see LinkModel for the transport). *)
From Coq Require Import String.
From Verif Require Import Common Bytes TextModel Errors ElemModel MsgModel WireModel NamesModel.
From Verif Require TransModel.
Local Open Scope string_scope.
Local Open Scope list_scope.
Local Open Scope Z_scope.

(** a call of a tableAddRowHandler: its number, the table, the alias; include/rbus.h:446-450 *)
Record add_call := mkAdd { a_hid : Z; a_table : name; a_alias : option name }.
(** a call of a tableRemoveRowHandler; include/rbus.h:473-475 *)
Record remove_call := mkRemove { d_hid : Z; d_row : name }.
(** the calls a program gets; no code of its own *)
Inductive called := Adds (c : add_call) | Removes (c : remove_call).
(** the row handlers of a program: an add handler returns a code and leaves the number of the row;
    include/rbus.h:446-475 *)
Record program := mkProgram { on_add : Z -> option (add_call -> Z * Z); on_remove : Z -> option (remove_call -> Z) }.

(** ** the provider *)
(** the element retrieveElement finds, and its parent; rbus_element.c:388-478, elementNode.parent *)
Fixpoint pair_loop (t : tree) (first : name) (rest : list name) : option (tree * tree) :=
  match find_kid first (kids t) 0 with
  | None => None
  | Some (_, c) =>
    match rest with
    | [] => Some (t, c)
    | tok :: rest => match kids c with [] => None | _ => pair_loop c (if is_table c then TEMPLATE else tok) rest end
    end
  end.
(** rbus_element.c:388-478, continued *)
Definition retrieve_pair (t : tree) (s : list Z) : option (tree * tree) :=
  match tokens s with [] => None | tok :: rest => pair_loop t tok rest end.
(** rbus.c:2347-2351: the alias of a request, if there is one *)
Definition alias_of (m : msg) : outcome unit (option name) :=
  match get_string m with Ok ([], _) => Ok None | Ok (a, _) => Ok (Some a) | Err _ => Ok None | UB => UB end.
(** rbus.c:2355-2386: the code, the number, the tree after it and the calls of handlers *)
Definition add_one (P : program) (t : tree) (table : name) (a : option name) : outcome unit (Z * Z * tree * list called) :=
  match retrieve t table, retrieve_instance t table with
  | Some reg, Some (pos, x) =>
    match on_add P (hid (inf reg)) with
    | Some f =>
      let c := mkAdd (hid (inf reg)) table a in
      let (rc, num) := f c in
      if rc =? E_SUCCESS then do t <- add_row pos x num a t ; Ok (rc, num, t, [Adds c]) else Ok (rc, num, t, [Adds c])
    | None => Ok (E_INVALID_OPERATION, 0, t, [])
    end
  | _, _ => Ok (E_ELEMENT_DOES_NOT_EXIST, 0, t, [])
  end.
(** rbus.c:2336-2392 _table_add_row_callback_handler *)
Definition add_handler (P : program) (t : tree) (req : msg) : outcome unit (msg * tree * list called) :=
  do (_, m) <- need (get_int32 req) ;
  do (table, m) <- need (get_string m) ;
  do a <- alias_of m ;
  do r <- add_one P t table a ;
  let '(rc, num, t, cs) := r in
  Ok (set_int32 (set_int32 msg_init rc) (as_int num), t, cs).
(** rbus.c:2407-2446: the handler is that of the parent of the registered element *)
Definition remove_one (P : program) (t : tree) (row : name) : Z * tree * list called :=
  match retrieve_pair t row, retrieve_instance t row with
  | Some (table, _), Some (pos, _) =>
    match on_remove P (hid (inf table)) with
    | Some f =>
      let c := mkRemove (hid (inf table)) row in
      let rc := f c in
      (rc, if rc =? E_SUCCESS then delete pos t else t, [Removes c])
    | None => (E_INVALID_OPERATION, t, [])
    end
  | _, _ => (E_ELEMENT_DOES_NOT_EXIST, t, [])
  end.
(** rbus.c:2394-2449 _table_remove_row_callback_handler *)
Definition remove_handler (P : program) (t : tree) (req : msg) : outcome unit (msg * tree * list called) :=
  do (_, m) <- need (get_int32 req) ;
  do (row, _) <- need (get_string m) ;
  let '(rc, t, cs) := remove_one P t row in
  Ok (set_int32 msg_init rc, t, cs).

(** ** the callers *)
(** what becomes of a request: it is answered, the answer is lost, or it does not arrive; then
    rbus_invokeRemoteMethod2 gives an error; rbuscore.c:1111-1189 *)
Inductive fate := Answered | NoAnswer (err : Z) | Lost (err : Z).
(** rbuscore.c:478-510, 1111-1189 *)
Definition ask (f : fate) (h : msg -> outcome unit (msg * tree * list called)) (t : tree) (req : msg) : outcome unit (msg + Z) * (tree * list called) :=
  match f with
  | Lost err => (Ok (inr err), (t, []))
  | NoAnswer err => match h (msg_from_bytes (m_data req)) with Ok (_, t, cs) => (Ok (inr err), (t, cs)) | _ => (UB, (t, [])) end
  | Answered => match h (msg_from_bytes (m_data req)) with Ok (r, t, cs) => (Ok (inl (msg_from_bytes (m_data r))), (t, cs)) | _ => (UB, (t, [])) end
  end.
(** a field that stays 0 when it is not there; rbus.c:4507-4508, 4574 *)
Definition int_or_zero (m : msg) : outcome unit (Z * msg) := match get_int32 m with Ok x => Ok x | Err _ => Ok (0, m) | UB => UB end.
(** rbus.c:4513-4528, 4577-4591 *)
Definition code (rc : Z) : Z := if TransModel.good rc then E_SUCCESS else TransModel.code_of rc.
(** rbus.c:4455-4535 rbusTable_addRow: the code, the number if it is written, the provider after
    it; the empty name is read at index -1 *)
Definition rbusTable_addRow (f : fate) (P : program) (t : tree) (table : name) (a : option name) : outcome unit (Z * option Z) * (tree * list called) :=
  match table with
  | [] => (UB, (t, []))
  | _ =>
    if negb (last table 0 =? 46) then (Ok (E_INVALID_INPUT, None), (t, [])) else
    let req := set_string (set_string (set_int32 msg_init 0) (Some table)) (Some (match a with Some a => a | None => [] end)) in
    let (r, w) := ask f (add_handler P t) t req in
    (do r <- r ;
     match r with
     | inr err => Ok (bus_error err, None)
     | inl m => do (rc, m) <- int_or_zero m ; do (num, _) <- int_or_zero m ; Ok (code rc, Some (to_unsigned 32 num))
     end, w)
  end.
(** rbus.c:4537-4597 rbusTable_removeRow *)
Definition rbusTable_removeRow (f : fate) (P : program) (t : tree) (row : name) : outcome unit Z * (tree * list called) :=
  let req := set_string (set_int32 msg_init 0) (Some row) in
  let (r, w) := ask f (remove_handler P t) t req in
  (do r <- r ; match r with inr err => Ok (bus_error err) | inl m => do (rc, _) <- int_or_zero m ; Ok (code rc) end, w).
