(** Model of the handle list (src/rbus/rbus_handle.c) and of rbus_open / rbus_close
    (src/rbus/rbus.c) as far as handles, component ids and the broker connection go.
    Not modelled here: what closing does to subscriptions, elements and listeners. *)
From Verif Require Import Common VecList CoreModel Errors.
Local Open Scope Z_scope.

(** a handle is a block of memory; addresses may be reused after it is freed; rbus_handle.h:106-126 *)
Record handle := mkHandle { h_addr : Z; h_name : name; h_id : Z }.
(** gHandleList (an absent vector is the empty list), sLastComponentId, whether g_connection is open; rbus_handle.c:25, rbuscore.c:323 *)
Record state := mkState { handles : list handle; last : Z; conn : bool }.
(** the state of a fresh process; rbus_handle.c:25 *)
Definition init : state := mkState [] 0 false.

(** rbus_handle.h:46 *)
Definition RBUS_MAX_HANDLES : Z := 16.
(** rbus_handle.c:49-70 rbusHandleList_IsValidHandle *)
Definition valid_handle (s : state) (a : Z) : bool := existsb (fun h => h_addr h =? a) (handles s).
(** rbus_handle.c:99-103 rbusHandleList_IsFull *)
Definition is_full (s : state) : bool := RBUS_MAX_HANDLES <=? Z.of_nat (length (handles s)).
(** rbus_handle.c:131-149 rbusHandleList_GetByComponentID: [handle] keeps the last element
    looked at when the loop ends without a match *)
Fixpoint by_id_loop (id : Z) (cur : option handle) (l : list handle) : option handle :=
  match l with
  | [] => cur
  | h :: l => if h_id h =? id then Some h else by_id_loop id (Some h) l
  end.
(** rbus_handle.c:131-149, continued *)
Definition get_by_id (s : state) (id : Z) : option handle := by_id_loop id None (handles s).
(** rbus_handle.c:151-172 rbusHandleList_GetByName *)
Definition get_by_name (s : state) (n : name) : option handle := vfind (fun h => bytes_eqb (h_name h) n) (handles s).

(** rbus.c:3164-3273 rbus_close: INVALID_HANDLE unless the handle is in the list; the list
    is searched by address (rbus_handle.c:81-92); the last one out closes the connection *)
Definition close (s : state) (a : Z) : Z * state :=
  if valid_handle s a then
    let l := vremove (fun h => h_addr h =? a) (handles s) in
    (0, mkState l (last s) (match l with [] => false | _ => conn s end))
  else (E_INVALID_HANDLE, s).

(** rbus.c:2942-3075 rbus_open.  [addr]: where the new handle is allocated; [broker_ok]: the
    broker connection can be opened; [register_ok]: rbus_registerObj succeeds.  On the error
    path before the allocation the local variable still holds the handle of the component
    that was just closed, and it is freed a second time. *)
Definition open (s : state) (n : name) (addr : Z) (broker_ok register_ok : bool) : outcome unit (Z * option handle * state) :=
  let tmp := get_by_name s n in
  let s1 := match tmp with Some h => snd (close s (h_addr h)) | None => s end in
  let error1 (code : Z) : outcome unit (Z * option handle * state) :=
    match tmp with None => Ok (code, None, s1) | Some _ => UB end in
  if is_full s1 then error1 E_OUT_OF_RESOURCES
  else if negb (conn s1) && negb broker_ok then error1 E_BUS_ERROR
  else if negb register_ok then
    Ok (E_BUS_ERROR, None, mkState (handles s1) (last s1) (match handles s1 with [] => false | _ => true end))
  else if last s1 =? 2147483647 then UB (* ++ on the largest int32_t *)
  else
    let h := mkHandle addr n (last s1 + 1) in
    Ok (0, Some h, mkState (handles s1 ++ [h]) (last s1 + 1) true).

(** The operations a history consists of, one for each function modelled above; no code of its own. *)
Inductive op :=
| Open (n : name) (addr : Z) (broker_ok register_ok : bool)
| Close (addr : Z).
(** the state after a history, and the handles given out, oldest first; no code of its own *)
Fixpoint run (s : state) (ops : list op) : outcome unit (state * list handle) :=
  match ops with
  | [] => Ok (s, [])
  | Close a :: ops => run (snd (close s a)) ops
  | Open n a b r :: ops =>
    do x <- open s n a b r ;
    let '(_, oh, s') := x in
    do y <- run s' ops ;
    Ok (fst y, match oh with Some h => h :: snd y | None => snd y end)
  end.
