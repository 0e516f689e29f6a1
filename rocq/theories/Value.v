(** The data types shared by the codecs: rbusValue_t, rbusProperty_t,
    rbusObject_t, rbusFilter_t. *)
From Verif Require Import Common Bytes.
Local Open Scope Z_scope.

(** include/rbus_value.h:85-108 rbusDateTime_t *)
Record datetime := mkDT {
  dt_sec : Z; dt_min : Z; dt_hour : Z; dt_mday : Z; dt_mon : Z; dt_year : Z;
  dt_wday : Z; dt_yday : Z; dt_isdst : Z; dt_tzhour : Z; dt_tzmin : Z; dt_west : bool }.

(** src/rbus/rbus_value.c:43-67 struct _rbusValue, src/rbus/rbus_property.c
    struct _rbusProperty and src/rbus/rbus_object.c struct _rbusObject.
    - [VNull], [PNil] and [ONull] are NULL pointers;
    - signed types carry their integer value, floating point types their IEEE 754
      bit pattern;
    - a string is the list of its bytes without the terminating NUL, [None] is a
      value of type RBUS_STRING (RBUS_BYTES) whose buffer is NULL;
    - the linked lists are not shared and not cyclic (simplification: sharing of
      one property between two lists is not represented). *)
Inductive value : Type :=
| VNull
| VBool (b : bool) | VChar (n : Z) | VByte (n : Z)
| VInt8 (n : Z) | VUInt8 (n : Z) | VInt16 (n : Z) | VUInt16 (n : Z)
| VInt32 (n : Z) | VUInt32 (n : Z) | VInt64 (n : Z) | VUInt64 (n : Z)
| VSingle (bits : Z) | VDouble (bits : Z)
| VDateTime (d : datetime)
| VString (s : option (list Z)) | VBytes (s : option (list Z))
| VProperty (p : property) | VObject (o : object)
| VNone
with property : Type :=
| PNil
| PCons (name : option (list Z)) (v : value) (next : property)
with object : Type :=
| ONull
| Obj (name : option (list Z)) (otype : Z) (props : property) (children : object) (next : object).

Scheme value_ind2 := Induction for value Sort Prop
  with property_ind2 := Induction for property Sort Prop
  with object_ind2 := Induction for object Sort Prop.
Combined Scheme value_mutind from value_ind2, property_ind2, object_ind2.

(** include/rbus_value.h:54-75 rbusValueType_t *)
Definition RBUS_BOOLEAN : Z := 1280.  Definition RBUS_CHAR : Z := 1281.
Definition RBUS_BYTE : Z := 1282.     Definition RBUS_INT8 : Z := 1283.
Definition RBUS_UINT8 : Z := 1284.    Definition RBUS_INT16 : Z := 1285.
Definition RBUS_UINT16 : Z := 1286.   Definition RBUS_INT32 : Z := 1287.
Definition RBUS_UINT32 : Z := 1288.   Definition RBUS_INT64 : Z := 1289.
Definition RBUS_UINT64 : Z := 1290.   Definition RBUS_SINGLE : Z := 1291.
Definition RBUS_DOUBLE : Z := 1292.   Definition RBUS_DATETIME : Z := 1293.
Definition RBUS_STRING : Z := 1294.   Definition RBUS_BYTES : Z := 1295.
Definition RBUS_PROPERTY : Z := 1296. Definition RBUS_OBJECT : Z := 1297.
Definition RBUS_NONE : Z := 1298.

(** rbus_value.c:424-429 rbusValue_GetType (NULL gives RBUS_NONE) *)
Definition vtype (v : value) : Z :=
  match v with
  | VNull => RBUS_NONE
  | VBool _ => RBUS_BOOLEAN | VChar _ => RBUS_CHAR | VByte _ => RBUS_BYTE
  | VInt8 _ => RBUS_INT8 | VUInt8 _ => RBUS_UINT8 | VInt16 _ => RBUS_INT16 | VUInt16 _ => RBUS_UINT16
  | VInt32 _ => RBUS_INT32 | VUInt32 _ => RBUS_UINT32 | VInt64 _ => RBUS_INT64 | VUInt64 _ => RBUS_UINT64
  | VSingle _ => RBUS_SINGLE | VDouble _ => RBUS_DOUBLE | VDateTime _ => RBUS_DATETIME
  | VString _ => RBUS_STRING | VBytes _ => RBUS_BYTES
  | VProperty _ => RBUS_PROPERTY | VObject _ => RBUS_OBJECT | VNone => RBUS_NONE
  end.

(** Ranges of the C types. *)
Definition in_s (bits n : Z) : bool := (- 2 ^ (bits - 1) <=? n) && (n <? 2 ^ (bits - 1)).
Definition in_u (bits n : Z) : bool := (0 <=? n) && (n <? 2 ^ bits).
Definition datetime_wf (d : datetime) : bool :=
  in_s 32 (dt_sec d) && in_s 32 (dt_min d) && in_s 32 (dt_hour d) && in_s 32 (dt_mday d) &&
  in_s 32 (dt_mon d) && in_s 32 (dt_year d) && in_s 32 (dt_wday d) && in_s 32 (dt_yday d) &&
  in_s 32 (dt_isdst d) && in_s 32 (dt_tzhour d) && in_s 32 (dt_tzmin d).
(** The contents a C value of the given type can have (scalars, strings, byte arrays). *)
Definition scalar_wf (v : value) : bool :=
  match v with
  | VBool _ => true | VChar n => in_s 8 n | VByte n => in_u 8 n
  | VInt8 n => in_s 8 n | VUInt8 n => in_u 8 n | VInt16 n => in_s 16 n | VUInt16 n => in_u 16 n
  | VInt32 n => in_s 32 n | VUInt32 n => in_u 32 n | VInt64 n => in_s 64 n | VUInt64 n => in_u 64 n
  | VSingle n => in_u 32 n | VDouble n => in_u 64 n | VDateTime d => datetime_wf d
  | VString (Some s) => is_cstr s | VBytes (Some s) => bytes_ok s
  | VString None | VBytes None => true
  | VNull | VProperty _ | VObject _ | VNone => false
  end.

(** src/rbus/rbus_filter.c:30-53 struct _rbusFilter; [FNull] is a NULL pointer. *)
Inductive filter : Type :=
| FNull
| FRel (op : Z) (v : value)
| FLogic (op : Z) (l r : filter).

(** include/rbus_filter.h:53-81 *)
Definition OP_GREATER_THAN : Z := 0.  Definition OP_GREATER_THAN_OR_EQUAL : Z := 1.
Definition OP_LESS_THAN : Z := 2.     Definition OP_LESS_THAN_OR_EQUAL : Z := 3.
Definition OP_EQUAL : Z := 4.         Definition OP_NOT_EQUAL : Z := 5.
Definition OP_AND : Z := 0.  Definition OP_OR : Z := 1.  Definition OP_NOT : Z := 2.
Definition EXPRESSION_RELATION : Z := 0.  Definition EXPRESSION_LOGIC : Z := 1.
