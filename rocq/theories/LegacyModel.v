(** Model of values in the legacy (CCSP) text format, in the messages of reads and sets:
    src/rbus/rbus.c:77-95 (the type codes), 408-477 (_parse_rbusData_to_value), 496-526
    (rbusValue_initFromMessage), 609-631 (rbusProperty_initFromMessage), and the three places that
    read values another component sent: rbus_get (3509-3558), _getExt_response_parser (3562-3618)
    and _set_callback_handler (1496-1672).  Everything else is that of ParamModel.
    Simplifications: legacy values inside property lists and objects stay outside the model
    ([Err]), as does a message that ends in the middle of a text; what strtof, strtod and strptime
    make of a text is a parameter. *)
From Coq Require Import String.
From Verif Require Import Common Bytes TextModel Errors ElemModel MsgModel WireModel WalkModel NamesModel Value ParamModel.
From Verif Require TransModel.
Local Open Scope string_scope.
Local Open Scope list_scope.
Local Open Scope Z_scope.

(** rbus.c:77-95 rbusLegacyDataType_t *)
Definition L_STRING : Z := 0.
(** rbus.c:77-95, continued *)
Definition L_INT : Z := 1.
(** rbus.c:77-95, continued *)
Definition L_UNSIGNEDINT : Z := 2.
(** rbus.c:77-95, continued *)
Definition L_BOOLEAN : Z := 3.
(** rbus.c:77-95, continued *)
Definition L_DATETIME : Z := 4.
(** rbus.c:77-95, continued *)
Definition L_BASE64 : Z := 5.
(** rbus.c:77-95, continued *)
Definition L_LONG : Z := 6.
(** rbus.c:77-95, continued *)
Definition L_UNSIGNEDLONG : Z := 7.
(** rbus.c:77-95, continued *)
Definition L_FLOAT : Z := 8.
(** rbus.c:77-95, continued *)
Definition L_DOUBLE : Z := 9.
(** rbus.c:77-95, continued *)
Definition L_BYTE : Z := 10.
(** rbus.c:77-95, continued *)
Definition L_NONE : Z := 11.

(** what the C library makes of a text: bit patterns of strtof and strtod, the time of strptime
    (rbus_value.c:1216-1268); no code of its own *)
Record clib := mkClib { single_of : list Z -> option Z; double_of : list Z -> option Z; time_of : list Z -> option datetime }.

(** rbus.c:408-477 _parse_rbusData_to_value, with rbus_value.c:1065-1273 rbusValue_SetFromString.
    The text of a byte is scanned with %c (rbus_value.c:1112-1115): nothing is stored for the empty
    text and what follows the first character is not looked at *)
Definition read_text (C : clib) (code : Z) (s : list Z) : option value :=
  if code =? L_STRING then set_from_string RBUS_STRING s
  else if code =? L_INT then set_from_string RBUS_INT32 s
  else if code =? L_UNSIGNEDINT then set_from_string RBUS_UINT32 s
  else if code =? L_BOOLEAN then set_from_string RBUS_BOOLEAN s
  else if code =? L_LONG then set_from_string RBUS_INT64 s
  else if code =? L_UNSIGNEDLONG then set_from_string RBUS_UINT64 s
  else if code =? L_FLOAT then option_map VSingle (single_of C s)
  else if code =? L_DOUBLE then option_map VDouble (double_of C s)
  else if code =? L_BYTE then Some (VByte (hd 0 s))
  else if code =? L_DATETIME then option_map VDateTime (time_of C s)
  else if code =? L_BASE64 then Some (VBytes (Some s))
  else None.

(** rbuscore_message.c:30-51: where a getter leaves the message whatever it finds; the end of a
    message that breaks off in the middle of a field is outside the model *)
Definition past_field (m : msg) : outcome unit msg :=
  match unpack_next m with Some (_, m) => Ok m | None => if msg_size m <=? m_read m then Ok m else Err tt end.
(** rbus.c:496-607 rbusValue_initFromMessage: whether it succeeds, and the value, which is there in
    any case (510).  A field that is not a text is skipped and leaves the buffer NULL (518) *)
Definition take_value (C : clib) (m : msg) : outcome unit (bool * value * msg) :=
  do (code, m1) <- need (get_int32 m) ;
  if (L_STRING <=? code) && (code <=? L_NONE) then
    match unpack_next m1 with
    | Some (IStr _, _) =>
      do (s, m2) <- get_string m1 ;
      match read_text C code s with Some v => Ok (true, v, m2) | None => Ok (false, VNone, m2) end
    | _ => do m2 <- past_field m1 ; Ok (false, VNone, m2)
    end
  else do (v, m) <- value_from_message m ; Ok (true, v, m).
(** rbus.c:609-631 rbusProperty_initFromMessage *)
Definition take_property (C : clib) (m : msg) : outcome unit (bool * (name * value) * msg) :=
  do (nm, m) <- need (get_string m) ;
  do (okv, m) <- take_value C m ;
  Ok (fst okv, (nm, snd okv), m).

(** rbus.c:3509-3558: what rbus_get makes of the answer; whether the value could be read is not
    looked at (3540), and without a name the answer is refused (3538) *)
Definition get_answer (C : clib) (nm : name) (r : msg + Z) : outcome unit (Z * option value) :=
  match r with
  | inr err => Ok (bus_error err, None)
  | inl m =>
    do (rc, m) <- match get_int32 m with Ok x => Ok x | Err _ => Ok (-1, m) | UB => UB end ;
    if TransModel.good rc then
      do m <- past_field m ;
      match get_string m with
      | Ok (nm', m) => if bytes_eqb nm nm' then do (okv, _) <- take_value C m ; Ok (E_SUCCESS, Some (snd okv)) else Ok (E_INVALID_RESPONSE_FROM_DESTINATION, None)
      | Err _ => Ok (E_INVALID_RESPONSE_FROM_DESTINATION, None)
      | UB => UB
      end
    else Ok (TransModel.code_of rc, None)
  end.
(** rbus.c:3586-3606: the values of an answer; what rbusProperty_initFromMessage returns is not
    looked at (3594, 3600) *)
Fixpoint read_values (C : clib) (n : nat) (m : msg) : outcome unit (list (name * value)) :=
  match n with
  | O => Ok []
  | S n => do (p, m) <- take_property C m ; do l <- read_values C n m ; Ok (snd p :: l)
  end.
(** rbus.c:3562-3618 _getExt_response_parser *)
Definition values_answer (C : clib) (r : msg + Z) : outcome unit (Z * list (name * value)) :=
  match r with
  | inr err => Ok (bus_error err, [])
  | inl m =>
    do (rc, m) <- match get_int32 m with Ok x => Ok x | Err _ => Ok (-1, m) | UB => UB end ;
    if TransModel.good rc then
      do (n, m) <- match get_int32 m with Ok x => Ok x | Err _ => Ok (0, m) | UB => UB end ;
      do l <- read_values C (Z.to_nat n) m ; Ok (E_SUCCESS, l)
    else Ok (TransModel.code_of rc, [])
  end.
(** rbus.c:1531-1535: the properties of a set request; the code is that of the last one *)
Fixpoint read_props (C : clib) (n : nat) (last : bool) (m : msg) : outcome unit (bool * list (name * value) * msg) :=
  match n with
  | O => Ok (last, [], m)
  | S n =>
    do (p, m) <- take_property C m ;
    do (r, m) <- read_props C n (fst p) m ;
    Ok (fst r, snd p :: snd r, m)
  end.
(** rbus.c:1496-1672 _set_callback_handler; 1536-1537 *)
Definition set_handler (C : clib) (P : program) (t : tree) (req : msg) : outcome unit (msg * list set_call) :=
  do (session, m) <- need (get_int32 req) ;
  do (who, m) <- need (get_string m) ;
  do (roll, m) <- need (get_int32 m) ;
  do (n, m) <- need (get_int32 m) ;
  if roll =? 1 then Err tt else
  if n >? 0 then
    do (r, m) <- read_props C (Z.to_nat n) true m ;
    if fst r then
      do (commit, _) <- need (get_string m) ;
      let '(rc, failed, cs) := set_loop P t (to_unsigned 32 session) who (is_true commit) (snd r) in
      Ok (set_response rc failed, cs)
    else Ok (set_response E_INVALID_INPUT None, [])
  else Ok (set_response E_INVALID_INPUT (Some who), []).
