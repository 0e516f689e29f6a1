(** Model of rbus_regDataElements and rbus_unregDataElements (src/rbus/rbus.c) with
    rbus_addElement and rbus_removeElement (src/core/rbuscore.c) and the alias requests of
    src/rtmessage/rtConnection.c, on top of the broker (RouterModel) and of the component's own
    element tree (ElemModel).
    Left out: the checks of the handle and of the component's name (3281-3291), the restoring of
    cached subscriptions after an insertion (3341-3343, see CacheModel), and the case that the
    component has no listener (rtConnection.c:1398-1400). *)
From Coq Require Import String.
From Verif Require Import Common Errors RouteModel RouterModel.
From Verif Require ElemModel.
Local Open Scope string_scope.
Local Open Scope list_scope.
Local Open Scope Z_scope.

Definition RT_ERROR_TIMEOUT : Z := 1000.             (* rtError.h:59 *)
Definition MAX_OBJECT_NAME_LENGTH : nat := 256.      (* rbuscore.h:28 *)
(** core/rbuscore_types.h, as far as rbus_addElement uses them; rbuscore_types.h:25-46 *)
Inductive core_error := CoreSuccess | CoreInvalidParam | CoreDuplicate | CoreUnsupported | CoreGeneral.

(** what becomes of a request to the broker: it is answered; it is served but the answer does not
    come within the timeout; it does not arrive; rtConnection.c, as in PendModel *)
Inductive fate := Answered | NoAnswer | Lost.
(** rtConnection.c:1361-1403 rtConnection_AddAlias for the listener [id] of the client [c] *)
Definition add_alias (b : broker) (c id : Z) (s : list Z) (f : fate) : outcome unit (broker * Z) :=
  match f with
  | Lost => Ok (b, RT_ERROR_TIMEOUT)
  | NoAnswer => do (b, _) <- subscribe b c s id ; Ok (b, RT_ERROR_TIMEOUT)
  | Answered => subscribe b c s id
  end.
(** rbuscore.c:988-1027 rbus_addElement *)
Definition bad_name (s : list Z) : bool := Nat.leb MAX_OBJECT_NAME_LENGTH (length s) || Nat.eqb 0 (length s).
(** rbuscore.c:988-1027, continued *)
Definition add_element (b : broker) (c id : Z) (s : list Z) (f : fate) : outcome unit (broker * core_error) :=
  if bad_name s then Ok (b, CoreInvalidParam) else
  do (b, rc) <- add_alias b c id s f ;
  Ok (b, if rc =? RT_OK then CoreSuccess else if rc =? RT_ERROR_DUPLICATE_ENTRY then CoreDuplicate
         else if rc =? RT_ERROR_PROTOCOL_ERROR then CoreUnsupported else CoreGeneral).
(** rbuscore.c:1029-1055 rbus_removeElement with rtConnection_RemoveAlias (rtConnection.c:1404-1435):
    the message is sent without waiting for an answer *)
Definition remove_element (b : broker) (c : Z) (s : list Z) : outcome unit broker :=
  if bad_name s then Ok b else do (b, _) <- unsubscribe b c s ; Ok b.

(** an rbusDataElement_t: the name (empty also for NULL) and what is registered for it *)
Notation element := (list Z * ElemModel.info)%type.
(** rbus.c:3293-3349, the loop; [fs i] is the fate of the request for element number [i] *)
Fixpoint reg_loop (c id : Z) (fs : nat -> fate) (i : nat) (els : list element) (b : broker) (t : ElemModel.tree) : outcome unit (broker * ElemModel.tree * nat * Z) :=
  match els with
  | [] => Ok (b, t, i, E_SUCCESS)
  | (s, x) :: els =>
    match s with
    | [] => Ok (b, t, i, E_INVALID_INPUT)
    | _ =>
      do (b, e) <- add_element b c id s (fs i) ;
      match e with
      | CoreSuccess => reg_loop c id fs (S i) els b (ElemModel.insert_element s x t)
      | CoreUnsupported => Ok (b, t, i, E_INVALID_NAMESPACE)
      | _ => Ok (b, t, i, E_ELEMENT_NAME_DUPLICATE)
      end
    end
  end.
(** rbus.c:3376-3408 rbus_unregDataElements: the element tree is left alone *)
Fixpoint unreg_loop (c : Z) (els : list element) (b : broker) : outcome unit broker :=
  match els with [] => Ok b | (s, _) :: els => do b <- remove_element b c s ; unreg_loop c els b end.
(** rbus.c:3376-3408, continued *)
Definition unreg_elements (c : Z) (els : list element) (b : broker) : outcome unit (broker * Z) :=
  match els with [] => Ok (b, E_INVALID_INPUT) | _ => do b <- unreg_loop c els b ; Ok (b, E_SUCCESS) end.
(** rbus.c:3275-3374 rbus_regDataElements *)
Definition reg_elements (c id : Z) (fs : nat -> fate) (els : list element) (b : broker) (t : ElemModel.tree) : outcome unit (broker * ElemModel.tree * Z) :=
  match els with
  | [] => Ok (b, t, E_INVALID_INPUT)
  | _ =>
    do (r, rc) <- reg_loop c id fs 0 els b t ;
    let '(b, t, i) := r in
    if negb (rc =? E_SUCCESS) && Nat.ltb 0 i then do (b, _) <- unreg_elements c (firstn i els) b ; Ok (b, t, rc)
    else Ok (b, t, rc)
  end.
