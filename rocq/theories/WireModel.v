(** Model of the serializers of src/rbus/rbus.c that put values, property lists,
    objects, filters and events into an rbusMessage and take them out again.
    The readers ignore the result of the message getters and go on with whatever
    the variable held; a failed getter is therefore [UB] here (simplification for
    the few variables that are initialised, where the reader would go on out of
    step).  A failing assert is [UB] too.  Lists longer than an int can count are
    excluded by the hypotheses of the theorems. *)
From Coq Require Import String.
From Verif Require Import Common Bytes Value BufferModel MsgModel.
Local Open Scope string_scope.
Local Open Scope list_scope.
Local Open Scope Z_scope.

(** (double)f for a float: exact; a signalling NaN becomes quiet (as the x86-64 and
    AArch64 conversion instructions do; the C standard leaves this open). *)
Definition widen (b : Z) : Z :=
  let s := b / 2 ^ 31 in
  let e := b / 2 ^ 23 mod 2 ^ 8 in
  let f := b mod 2 ^ 23 in
  s * 2 ^ 63 +
  (if e =? 255 then
     2047 * 2 ^ 52 + (if f =? 0 then 0 else (if f <? 2 ^ 22 then f + 2 ^ 22 else f) * 2 ^ 29)
   else if e =? 0 then
     if f =? 0 then 0
     else let k := Z.log2 f in (k + 874) * 2 ^ 52 + (f - 2 ^ k) * 2 ^ (52 - k)
   else (e + 896) * 2 ^ 52 + f * 2 ^ 29).
(** (float)d for a double: round to nearest, ties to even. C11 6.3.1.5 with IEEE 754 *)
Definition rne (m s : Z) : Z :=
  let q := m / 2 ^ s in
  let r := m mod 2 ^ s in
  if (2 ^ (s - 1) <? r) || ((r =? 2 ^ (s - 1)) && Z.odd q) then q + 1 else q.
(** the same for all doubles: C11 6.3.1.5 with IEEE 754 *)
Definition narrow (b : Z) : Z :=
  let s := b / 2 ^ 63 in
  let e := b / 2 ^ 52 mod 2 ^ 11 in
  let f := b mod 2 ^ 52 in
  s * 2 ^ 31 +
  (if e =? 2047 then
     255 * 2 ^ 23 + (if f =? 0 then 0 else let p := f / 2 ^ 29 in if p <? 2 ^ 22 then p + 2 ^ 22 else p)
   else if 897 <=? e then Z.min (255 * 2 ^ 23) ((e - 897) * 2 ^ 23 + rne (2 ^ 52 + f) 29)
   else if e =? 0 then 0
   else rne (2 ^ 52 + f) (926 - e)).

(** Length of a property list, number of children. rbus_property.c:204 rbusProperty_Count *)
Fixpoint nprops (p : property) : Z := match p with PNil => 0 | PCons _ _ n => 1 + nprops n end.
(** rbus.c, the counting loop over children *)
Fixpoint nobjs (o : object) : Z := match o with ONull => 0 | Obj _ _ _ _ n => 1 + nobjs n end.

(** rbus_value.c:628-666 rbusValue_GetV and rbusValue_GetL: the bytes sent for the
    types of the default branch (little-endian machine; the padding of
    rbusDateTime_t is zero, simplification) *)
Definition tlv_bytes (v : value) : outcome unit (list Z) :=
  match v with
  | VBool b => Ok [if b then 1 else 0]
  | VChar n | VInt8 n => Ok [to_unsigned 8 n]
  | VByte n | VUInt8 n => Ok [n]
  | VDateTime d => Ok (datetime_bytes d)
  | VString (Some s) => Ok (s ++ [0])
  | VBytes (Some s) => Ok s
  | VString None | VBytes None => UB            (* v->d.bytes is NULL *)
  | _ => Ok []
  end.

(** rbus.c:760-838 rbusValue_appendToMessage, 633-652 rbusPropertyList_appendToMessage
    ([append_props] is its second loop), 679-714 rbusObject_appendToMessage
    ([siblings] says whether the loop over the following siblings, run by the parent
    at 708-713, is included) *)
Fixpoint append_value (name : option (list Z)) (v : value) (m : msg) {struct v} : outcome unit msg :=
  let m := set_int32 (set_string m name) (vtype v) in
  match v with
  | VObject o => append_object false o m
  | VProperty p => append_props p (set_int32 m (nprops p))
  | VInt16 n | VUInt16 n | VInt32 n => Ok (set_int32 m n)
  | VUInt32 n => Ok (set_int32 m (to_signed 32 n))
  | VInt64 n => Ok (set_int64 m n)
  | VUInt64 n => Ok (set_int64 m (to_signed 64 n))
  | VSingle b => Ok (set_double m (widen b))
  | VDouble b => Ok (set_double m b)
  | _ => do s <- tlv_bytes v; Ok (set_bytes m s)
  end
with append_props (p : property) (m : msg) {struct p} : outcome unit msg :=
  match p with
  | PNil => Ok m
  | PCons name v next => do m <- append_value name v m; append_props next m
  end
with append_object (siblings : bool) (o : object) (m : msg) {struct o} : outcome unit msg :=
  match o with
  | ONull => Ok m
  | Obj name otype props children next =>
      let m := set_int32 (set_string m name) otype in
      do m <- append_props props (set_int32 m (nprops props));
      do m <- append_object true children (set_int32 m (nobjs children));
      if siblings then append_object true next m else Ok m
  end.
(** rbus.c:760-838, continued *)
Definition append_plist (p : property) (m : msg) : outcome unit msg := append_props p (set_int32 m (nprops p)).

(** A getter whose failure the caller does not notice. helper, no code of its own *)
Definition need {A} (o : outcome unit A) : outcome unit A := match o with Err _ => UB | _ => o end.

(** rbus_value.c:668-689 rbusValue_SetTLV after rbusMessage_GetBytes: [at_ptr] is the
    message from the first data byte on (a string is read up to its NUL wherever
    that is), [s] the bytes of the field.  A length that differs from the size of
    the type makes memcpy overrun the value or the assert fail.  Unknown type codes
    with length zero build a value of that type: not representable, [Err]. *)
Definition set_tlv (type : Z) (at_ptr s : list Z) : outcome unit value :=
  let one k := match s with [n] => k n | _ => UB end in
  if type =? RBUS_STRING then
    match c_str at_ptr with
    | Some t => if Z.of_nat (length t) + 1 =? Z.of_nat (length s) then Ok (VString (Some t)) else UB
    | None => UB
    end
  else if type =? RBUS_BYTES then Ok (VBytes (Some s))
  else if type =? RBUS_BOOLEAN then one (fun n => if n =? 0 then Ok (VBool false) else if n =? 1 then Ok (VBool true) else UB)
  else if type =? RBUS_CHAR then one (fun n => Ok (VChar (to_signed 8 n)))
  else if type =? RBUS_BYTE then one (fun n => Ok (VByte n))
  else if type =? RBUS_INT8 then one (fun n => Ok (VInt8 (to_signed 8 n)))
  else if type =? RBUS_UINT8 then one (fun n => Ok (VUInt8 n))
  else if type =? RBUS_DATETIME then if (length s =? 48)%nat then Ok (VDateTime (datetime_of s)) else UB
  else match s with
       | [] => if type =? RBUS_NONE then Ok VNone else Err tt
       | _ => UB
       end.

(** rbus.c:496-607 rbusValue_initFromMessage, 609-631 rbusProperty_initFromMessage,
    654-677 rbusPropertyList_initFromMessage, 716-758 rbusObject_initFromMessage.
    Fuel is the recursion depth allowed; every call consumes a byte, so the number of
    bytes in the message suffices ([read_fuel]).  Type codes 0 to 11 (values in the legacy text format)
    are not modelled: [Err]. *)
Fixpoint init_value (fuel : nat) (m : msg) : outcome unit (value * msg) :=
  match fuel with
  | O => UB
  | S fuel =>
    do (type, m) <- need (get_int32 m);
    if (0 <=? type) && (type <=? 11) then Err tt
    else if type =? RBUS_OBJECT then do (o, m) <- init_object fuel m; Ok (VObject o, m)
    else if type =? RBUS_PROPERTY then do (p, m) <- init_plist fuel m; Ok (VProperty p, m)
    else if type =? RBUS_INT16 then do (n, m) <- need (get_int32 m); Ok (VInt16 (to_signed 16 (to_unsigned 16 n)), m)
    else if type =? RBUS_UINT16 then do (n, m) <- need (get_int32 m); Ok (VUInt16 (to_unsigned 16 n), m)
    else if type =? RBUS_INT32 then do (n, m) <- need (get_int32 m); Ok (VInt32 n, m)
    else if type =? RBUS_UINT32 then do (n, m) <- need (get_int32 m); Ok (VUInt32 (to_unsigned 32 n), m)
    else if type =? RBUS_INT64 then do (n, m) <- need (get_int64 m); Ok (VInt64 n, m)
    else if type =? RBUS_UINT64 then do (n, m) <- need (get_int64 m); Ok (VUInt64 (to_unsigned 64 n), m)
    else if type =? RBUS_SINGLE then do (b, m) <- need (get_double m); Ok (VSingle (narrow b), m)
    else if type =? RBUS_DOUBLE then do (b, m) <- need (get_double m); Ok (VDouble b, m)
    else
      do (s, m) <- need (get_msg_bytes m);
      do v <- set_tlv type (skipn (Z.to_nat (m_read m) - length s) (m_data m)) s;
      Ok (v, m)
  end
with init_plist (fuel : nat) (m : msg) : outcome unit (property * msg) :=
  match fuel with
  | O => UB
  | S fuel => do (n, m) <- need (get_int32 m); init_props fuel n m
  end
with init_props (fuel : nat) (n : Z) (m : msg) : outcome unit (property * msg) :=
  match fuel with
  | O => UB
  | S fuel =>
    if n <=? 0 then Ok (PNil, m)
    else
      do (name, m) <- need (get_string m);
      do (v, m) <- init_value fuel m;
      do (rest, m) <- init_props fuel (n - 1) m;
      Ok (PCons (Some name) v rest, m)
  end
with init_object (fuel : nat) (m : msg) : outcome unit (object * msg) :=
  match fuel with
  | O => UB
  | S fuel =>
    do (name, m) <- need (get_string m);
    do (type, m) <- need (get_int32 m);
    do (props, m) <- init_plist fuel m;
    do (n, m) <- need (get_int32 m);
    do (children, m) <- init_objects fuel n m;
    Ok (Obj (Some name) (if type =? 1 then 1 else 0) props children ONull, m)
  end
with init_objects (fuel : nat) (n : Z) (m : msg) : outcome unit (object * msg) :=
  match fuel with
  | O => UB
  | S fuel =>
    if n <=? 0 then Ok (ONull, m)
    else
      do (o, m) <- init_object fuel m;
      do (rest, m) <- init_objects fuel (n - 1) m;
      match o with
      | Obj name t props children _ => Ok (Obj name t props children rest, m)
      | ONull => UB
      end
  end.
(** Each of the functions above except [init_props] and [init_objects] at a zero
    count reads a field, so this is more than the calls any message can cause. helper, no code of its own *)
Definition read_fuel (m : msg) : nat := S (2 * length (m_data m)).
(** rbus.c:496-607, continued *)
Definition value_from_message (m : msg) : outcome unit (value * msg) := init_value (read_fuel m) m.
(** rbus.c:496-607, continued *)
Definition property_from_message (m : msg) : outcome unit (property * msg) :=
  do (name, m') <- need (get_string m);
  do (v, m') <- init_value (read_fuel m) m';
  Ok (PCons (Some name) v PNil, m').
(** rbus.c:496-607, continued *)
Definition plist_from_message (m : msg) : outcome unit (property * msg) := init_plist (read_fuel m) m.
(** rbus.c:496-607, continued *)
Definition object_from_message (m : msg) : outcome unit (object * msg) := init_object (read_fuel m) m.

(** rbus.c:840-858 rbusFilter_AppendToMessage; rbus_filter.c:178-183: the type of a
    NULL filter is -1 *)
Fixpoint append_filter (f : filter) (m : msg) : outcome unit msg :=
  match f with
  | FNull => Ok (set_int32 m (-1))
  | FRel op v => append_value (Some (bs "filter")) v (set_int32 (set_int32 m EXPRESSION_RELATION) op)
  | FLogic op l r =>
      do m <- append_filter l (set_int32 (set_int32 m EXPRESSION_LOGIC) op);
      if op =? OP_NOT then Ok m else append_filter r m
  end.
(** rbus.c:860-886 rbusFilter_InitFromMessage: [init] is what the caller's variable
    held, kept for other type codes *)
Fixpoint init_filter (fuel : nat) (init : outcome unit filter) (m : msg) : outcome unit (filter * msg) :=
  match fuel with
  | O => UB
  | S fuel =>
    do (type, m) <- need (get_int32 m);
    if type =? EXPRESSION_RELATION then
      do (op, m) <- need (get_int32 m);
      do (_, m) <- need (get_string m);
      do (v, m) <- init_value (read_fuel m) m;
      Ok (FRel op v, m)
    else if type =? EXPRESSION_LOGIC then
      do (op, m) <- need (get_int32 m);
      do (l, m) <- init_filter fuel (Ok FNull) m;
      if op =? OP_NOT then Ok (FLogic op l FNull, m)
      else do (r, m) <- init_filter fuel (Ok FNull) m; Ok (FLogic op l r, m)
    else do f <- init; Ok (f, m)
  end.
(** The callers' variable is not initialised. rbus.c, the callers of the filter reader *)
Definition filter_from_message (m : msg) : outcome unit (filter * msg) := init_filter (read_fuel m) UB m.

(** include/rbus.h rbusEvent_t; a NULL data object is [ONull]; include/rbus.h:227-232 *)
Record event := mkEvent { ev_name : option (list Z); ev_type : Z; ev_data : object }.
(** rbus.c:919-951 rbusEventData_appendToMessage *)
Definition append_event (e : event) (f : filter) (interval duration component : Z) (m : msg) : outcome unit msg :=
  let m := set_int32 (set_string m (ev_name e)) (ev_type e) in
  do m <- (match ev_data e with ONull => Ok (set_int32 m 0) | _ => append_object false (ev_data e) (set_int32 m 1) end);
  do m <- (match f with FNull => Ok (set_int32 m 0) | _ => append_filter f (set_int32 m 1) end);
  Ok (set_int32 (set_int32 (set_int32 m (to_signed 32 interval)) (to_signed 32 duration)) component).
(** rbus.c:888-917 rbusEventData_updateFromMessage *)
Definition event_from_message (m : msg) : outcome unit (event * filter * Z * Z * Z * msg) :=
  do (name, m) <- need (get_string m);
  do (type, m) <- need (get_int32 m);
  do (has_data, m) <- need (get_int32 m);
  do (data, m) <- (if has_data =? 0 then Ok (ONull, m) else object_from_message m);
  do (has_filter, m) <- need (get_int32 m);
  do (f, m) <- (if has_filter =? 0 then Ok (FNull, m) else filter_from_message m);
  do (interval, m) <- need (get_uint32 m);
  do (duration, m) <- need (get_uint32 m);
  do (component, m) <- need (get_int32 m);
  Ok (mkEvent (Some name) type data, f, interval, duration, component, m).
