(** Model of the typed setters and getters of values and of an object's properties
    (src/rbus/rbus_value.c, rbus_object.c, rbus_property.c).
    Simplifications: a 64-bit little-endian machine whose char is signed; floating point numbers are
    their bit patterns, a date its 48 bytes as one number, properties and objects their addresses
    (who holds them is in OwnModel); memory never runs out. *)
From Verif Require Import Common Bytes Value.
Local Open Scope Z_scope.

(** rbus_value.c:1332-1344 and 490-556: the types kept in the union itself *)
Inductive kind := KBoolean | KChar | KByte | KInt8 | KUInt8 | KInt16 | KUInt16 | KInt32 | KUInt32 | KInt64 | KUInt64 | KSingle | KDouble | KTime | KProperty | KObject.
(** rbus_value.c:1332-1344 (third argument), 490-556 *)
Definition ktype (k : kind) : Z :=
  match k with
  | KBoolean => RBUS_BOOLEAN | KChar => RBUS_CHAR | KByte => RBUS_BYTE | KInt8 => RBUS_INT8 | KUInt8 => RBUS_UINT8
  | KInt16 => RBUS_INT16 | KUInt16 => RBUS_UINT16 | KInt32 => RBUS_INT32 | KUInt32 => RBUS_UINT32
  | KInt64 => RBUS_INT64 | KUInt64 => RBUS_UINT64 | KSingle => RBUS_SINGLE | KDouble => RBUS_DOUBLE
  | KTime => RBUS_DATETIME | KProperty => RBUS_PROPERTY | KObject => RBUS_OBJECT
  end.
(** rbus_value.c:46-65: the sizes of the members of the union, in bits *)
Definition kbits (k : kind) : Z :=
  match k with
  | KBoolean | KChar | KByte | KInt8 | KUInt8 => 8
  | KInt16 | KUInt16 => 16
  | KInt32 | KUInt32 | KSingle => 32
  | KInt64 | KUInt64 | KDouble | KProperty | KObject => 64
  | KTime => 384
  end.
(** rbus_value.c:46-65: the signed members *)
Definition ksigned (k : kind) : bool := match k with KChar | KInt8 | KInt16 | KInt32 | KInt64 => true | _ => false end.
(** rbus_value.c:43-67 struct _rbusValue: the type, the bytes of the union as one number, and what is
    written in the buffer d.bytes points to *)
Record cell := mkCell { c_type : Z; c_d : Z; c_buf : option (list Z) }.
(** rbus_value.c:46-65: writing the first bits of the union, leaving the rest *)
Definition poke (bits n d : Z) : Z := n mod 2 ^ bits + d / 2 ^ bits * 2 ^ bits.
(** rbus_value.c:46-65: reading the first bits of the union as a number *)
Definition peek (bits : Z) (signed : bool) (d : Z) : Z :=
  let m := d mod 2 ^ bits in if signed && (2 ^ (bits - 1) <=? m) then m - 2 ^ bits else m.

(** rbus_value.c:119-127 rbusValue_Init *)
Definition init : cell := mkCell RBUS_NONE 0 None.
(** rbus_value.c:100-116 rbusValue_FreeInternal: d.bytes = NULL *)
Definition free_internal (c : cell) : cell := mkCell (c_type c) (poke 64 0 (c_d c)) None.
(** rbus_value.c:1325-1330 rbusValue_Set##T1; 550-556 rbusValue_SetTime; 608-626 rbusValue_SetProperty, rbusValue_SetObject *)
Definition set_kind (k : kind) (n : Z) (c : cell) : cell := mkCell (ktype k) (poke (kbits k) n (c_d (free_internal c))) (c_buf (free_internal c)).
(** v->type == RBUS_STRING || v->type == RBUS_BYTES; rbus_value.c:102, 451, 484, 561 *)
Definition texty (c : cell) : bool := (c_type c =? RBUS_STRING) || (c_type c =? RBUS_BYTES).
(** rbus_value.c:558-573 rbusValue_SetBufferData; [q]: the address of a new buffer *)
Definition set_buffer (q : Z) (data : list Z) (ty : Z) (c : cell) : cell :=
  if texty c && negb (peek 64 false (c_d c) =? 0) then mkCell ty (c_d c) (Some data)
  else mkCell ty (poke 64 q (c_d c)) (Some data).
(** rbus_value.c:575-592 rbusValue_SetString; [None]: NULL *)
Definition set_string (q : Z) (s : option (list Z)) (c : cell) : cell :=
  match s with
  | None => let c := free_internal c in mkCell RBUS_STRING (c_d c) (c_buf c)
  | Some s => set_buffer q (s ++ [0]) RBUS_STRING c
  end.
(** rbus_value.c:595-606 rbusValue_SetBytes; [None]: NULL *)
Definition set_bytes (q : Z) (s : option (list Z)) (c : cell) : cell :=
  match s with
  | None => let c := free_internal c in mkCell RBUS_BYTES (c_d c) (c_buf c)
  | Some s => set_buffer q s RBUS_BYTES c
  end.

(** include/rbus_value.h:77-83 rbusValueError_t *)
Inductive verr := Success | EType | ENotFound | ENull.
(** the functions of rbus_value.c that check a NULL value: 496-504, 512-520, 538-548; not 1316-1324 *)
Definition checks_null (k : kind) : bool := match k with KTime | KProperty | KObject => true | _ => false end.
(** rbus_value.c:1316-1324 rbusValue_Get##T1##Ex and the Ex functions of times, properties and objects
    (496-504, 512-520, 538-548); the number is what is written to *data *)
Definition get_ex (k : kind) (v : option cell) : outcome unit (verr * option Z) :=
  match v with
  | None => if checks_null k then Ok (ENull, None) else UB
  | Some c => if c_type c =? ktype k then Ok (Success, Some (peek (kbits k) (ksigned k) (c_d c))) else Ok (EType, None)
  end.
(** rbus_value.c:1311-1315 rbusValue_Get##T1, 490-494, 506-510, 530-536; [Err tt]: the assertion fails *)
Definition get_plain (k : kind) (c : cell) : outcome unit Z :=
  if c_type c =? ktype k then Ok (peek (kbits k) (ksigned k) (c_d c)) else Err tt.
(** rbus_value.c:461-478 rbusValue_GetBytes: the bytes at the pointer ([None]: NULL) and what is
    written to *len ([None]: nothing) *)
Definition get_bytes (v : option cell) : outcome unit (option (list Z) * option Z) :=
  match v with
  | None => Ok (None, None)
  | Some c =>
    if peek 64 false (c_d c) =? 0 then Ok (None, Some 0)
    else if texty c then match c_buf c with Some b => Ok (Some b, Some (Z.of_nat (length b))) | None => UB end
    else UB (* the contents of the union are no pointer *)
  end.
(** rbus_value.c:436-445 rbusValue_GetString *)
Definition get_string (v : option cell) : outcome unit (option (list Z) * option Z) :=
  match v with
  | None => Ok (None, None)
  | Some c =>
    do r <- get_bytes v ;
    Ok (match r with
        | (Some b, Some n) => if c_type c =? RBUS_STRING then (Some b, Some (n - 1)) else r
        | _ => r
        end)
  end.
(** rbus_value.c:447-455 rbusValue_GetStringEx *)
Definition get_string_ex (v : option cell) : outcome unit (verr * option (option (list Z) * option Z)) :=
  match v with
  | None => Ok (ENull, None)
  | Some c => if texty c then do r <- get_string v ; Ok (Success, Some r) else Ok (EType, None)
  end.
(** rbus_value.c:480-488 rbusValue_GetBytesEx *)
Definition get_bytes_ex (v : option cell) : outcome unit (verr * option (option (list Z) * option Z)) :=
  match v with
  | None => Ok (ENull, None)
  | Some c => if texty c then do r <- get_bytes v ; Ok (Success, Some r) else Ok (EType, None)
  end.

(** rbus_object.c:30-42: the properties of an object, with their values ([None]: NULL) *)
Notation props := (list (list Z * option cell)).
(** rbus_object.c:273-281 rbusObject_GetProperty, and rbusProperty_GetValue of what it finds; names are not NULL *)
Fixpoint get_property (ps : props) (n : list Z) : option (option cell) :=
  match ps with
  | [] => None
  | (m, v) :: ps => if bytes_eqb m n then Some v else get_property ps n
  end.
(** rbus_object.c:362-384 rbusObject_SetPropertyValue *)
Fixpoint set_property_value (ps : props) (n : list Z) (c : cell) : props :=
  match ps with
  | [] => [(n, Some c)]
  | (m, v) :: ps => if bytes_eqb m n then (m, Some c) :: ps else (m, v) :: set_property_value ps n c
  end.
(** rbus_object.c:466-477 rbusObject_GetProperty##T1 *)
Definition object_get (k : kind) (ps : props) (n : list Z) : outcome unit (verr * option Z) :=
  match get_property ps n with
  | None => Ok (ENotFound, None)
  | Some None => Ok (ENull, None)
  | Some (Some c) => get_ex k (Some c)
  end.
(** rbus_object.c:502-512 rbusObject_GetPropertyString *)
Definition object_get_string (ps : props) (n : list Z) : outcome unit (verr * option (option (list Z) * option Z)) :=
  match get_property ps n with
  | None => Ok (ENotFound, None)
  | Some None => Ok (ENull, None)
  | Some (Some c) => get_string_ex (Some c)
  end.
(** rbus_object.c:521-531 rbusObject_GetPropertyBytes *)
Definition object_get_bytes (ps : props) (n : list Z) : outcome unit (verr * option (option (list Z) * option Z)) :=
  match get_property ps n with
  | None => Ok (ENotFound, None)
  | Some None => Ok (ENull, None)
  | Some (Some c) => get_bytes_ex (Some c)
  end.

(** the setters, rbus_value.c:550-626, 1325-1330 *)
Inductive setting := SKind (k : kind) (n : Z) | SString (q : Z) (s : option (list Z)) | SBytes (q : Z) (s : option (list Z)).
(** one call of a setter; rbus_value.c:550-626, 1325-1330 *)
Definition set (c : cell) (s : setting) : cell :=
  match s with SKind k n => set_kind k n c | SString q t => set_string q t c | SBytes q t => set_bytes q t c end.
(** rbus_value.c:119-127, then setters *)
Definition sets (l : list setting) : cell := fold_left set l init.
(** rbus_object.c:478-483, 513-519, 532-538 rbusObject_SetProperty##T1: a new value, given to the object *)
Definition object_set (ps : props) (x : list Z * setting) : props := set_property_value ps (fst x) (set init (snd x)).
(** rbus_object.c:44-58 rbusObject_Init, then typed setters *)
Definition object_sets (l : list (list Z * setting)) : props := fold_left object_set l [].

(** rbus_value.c:642-666 rbusValue_GetL: the lengths of the types kept in the union *)
Definition sizes : list (Z * Z) :=
  [(RBUS_BOOLEAN, 1); (RBUS_INT32, 4); (RBUS_UINT32, 4); (RBUS_CHAR, 1); (RBUS_BYTE, 1); (RBUS_INT8, 1); (RBUS_UINT8, 1); (RBUS_INT16, 2); (RBUS_UINT16, 2);
   (RBUS_INT64, 8); (RBUS_UINT64, 8); (RBUS_SINGLE, 4); (RBUS_DOUBLE, 8); (RBUS_DATETIME, 48)].
(** rbus_value.c:642-666 rbusValue_GetL of a value that is not NULL *)
Definition get_l (c : cell) : outcome unit Z :=
  if texty c then
    if peek 64 false (c_d c) =? 0 then UB (* v->d.bytes->posWrite of NULL *)
    else match c_buf c with Some b => Ok (Z.of_nat (length b)) | None => UB end
  else match find (fun x => fst x =? c_type c) sizes with Some x => Ok (snd x) | None => Ok 0 end.
(** rbus_value.c:628-640 rbusValue_GetV of a value that is not NULL: the buffer's bytes, or the union *)
Definition get_v (c : cell) : outcome unit (list Z + Z) :=
  if texty c then
    if peek 64 false (c_d c) =? 0 then UB (* v->d.bytes->data of NULL *)
    else match c_buf c with Some b => Ok (inl b) | None => UB end
  else Ok (inr (c_d c)).
(** rbus_value.c:668-689 rbusValue_SetTLV; [q]: the address of a new buffer; [Err tt]: the assertion
    fails; numbers as bytes and bytes as numbers are left out (UB) *)
Definition set_tlv (q : Z) (c : cell) (ty len : Z) (v : list Z + Z) : outcome unit cell :=
  do c <- (if ty =? RBUS_STRING then
             match v with
             | inl b => match c_str b with Some s => Ok (set_string q (Some s) c) | None => UB end
             | inr _ => UB
             end
           else if ty =? RBUS_BYTES then
             match v with inl b => if len <=? Z.of_nat (length b) then Ok (set_bytes q (Some (firstn (Z.to_nat len) b)) c) else UB | inr _ => UB end
           else match v with
                | inl _ => UB
                | inr d => let c := free_internal c in Ok (mkCell ty (poke (8 * len) d (c_d c)) (c_buf c))
                end) ;
  do n <- get_l c ; if n =? len then Ok c else Err tt.
(** rbus_value.c:424-429, 628-689: the type, length and contents of one value given to another, as the
    message codecs do with the message between (rbus.c:815-830, 590-597) *)
Definition copy (q : Z) (src dst : cell) : outcome unit cell := do n <- get_l src ; do v <- get_v src ; set_tlv q dst (c_type src) n v.
