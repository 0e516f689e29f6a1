(** C07 (values), C08 (objects), C09 (filters) and C10 (events) on the wire.
    In each theorem the sender appends to a message [m0] that already has contents,
    [r] is appended later, and the receiver's message has the same bytes with the
    read position behind the contents of [m0]. *)
From Coq Require Import String.
From Verif Require Import Common Bytes Value MsgModel MsgSpec WireModel WireSpec WireProofs.
Local Open Scope string_scope.
Local Open Scope list_scope.
Local Open Scope Z_scope.

(** C07: a named value (a property, as in a get response) arrives as sent, NULL names
    and values excepted, and reading stops exactly at the following field. *)
Theorem C07_value_on_wire : forall name v m0 r, name_ok name = true -> sendable_value v = true ->
  exists m1, append_value name v m0 = Ok m1 /\
    property_from_message (mkMsg (m_data m1 ++ r) (msg_size m0) (m_meta m0)) =
    Ok (PCons (Some (the_name name)) (seen_value v) PNil, mkMsg (m_data m1 ++ r) (msg_size m1) (m_meta m0)).
Proof. exact property_roundtrip. Qed.
Print Assumptions C07_value_on_wire.
(** C07: a value without NULLs is received identical. *)
Theorem C07_value_exact : forall name v m0 r, name_ok (Some name) = true -> sendable_value v = true -> complete_value v = true ->
  exists m1 m2, append_value (Some name) v m0 = Ok m1 /\
    property_from_message (mkMsg (m_data m1 ++ r) (msg_size m0) (m_meta m0)) = Ok (PCons (Some name) v PNil, m2).
Proof. exact property_exact. Qed.
Print Assumptions C07_value_exact.
Definition sample_object : object :=
  Obj (Some (bs "o")) 1
    (PCons (Some (bs "f")) (VSingle 1069547520) (PCons (Some (bs "u")) (VUInt32 4294967295) (PCons (Some (bs "s")) (VString (Some (bs "x"))) PNil)))
    (Obj (Some (bs "c1")) 0 PNil ONull (Obj (Some (bs "c2")) 0 (PCons (Some []) (VDateTime (mkDT 1 2 3 4 5 6 7 8 (-1) 5 30 true)) PNil) ONull ONull))
    ONull.
Example C07_value_exact_ex : name_ok (Some (bs "Device.A")) = true /\
  sendable_value (VProperty (PCons (Some (bs "p")) (VObject sample_object) PNil)) = true /\
  complete_value (VProperty (PCons (Some (bs "p")) (VObject sample_object) PNil)) = true.
Proof. vm_compute. repeat split. Qed.
(** C07: property lists, order included. *)
Theorem C07_property_list : forall p m0 r, sendable_props p = true -> pcount p < 2147483648 ->
  exists m1, append_plist p m0 = Ok m1 /\
    plist_from_message (mkMsg (m_data m1 ++ r) (msg_size m0) (m_meta m0)) =
    Ok (seen_props p, mkMsg (m_data m1 ++ r) (msg_size m1) (m_meta m0)).
Proof. exact plist_roundtrip. Qed.
Print Assumptions C07_property_list.
(** C07: what cannot be sent: a string value without contents crashes the sender; a
    signalling NaN float arrives as another bit pattern; an object value without an
    object is followed by nothing, and the receiver takes the next field for it. *)
Theorem C07_unsendable_refuted :
  (forall name m, append_value name (VString None) m = UB) /\
  (forall name m, append_value name (VBytes None) m = UB) /\
  narrow (widen 2139095041) = 2143289345 /\
  (exists m1, append_value (Some (bs "a")) (VObject ONull) msg_init = Ok m1 /\
     property_from_message (msg_from_bytes (m_data m1)) = UB /\
     exists m2 m3, append_value (Some (bs "b")) (VProperty PNil) m1 = Ok m2 /\
       property_from_message (msg_from_bytes (m_data (set_int32 m2 0))) =
         Ok (PCons (Some (bs "a")) (VObject (Obj (Some (bs "b")) 0 PNil ONull ONull)) PNil, m3)).
Proof. exact unsendable. Qed.
Print Assumptions C07_unsendable_refuted.
(** C07: a received BOOLEAN, CHAR, BYTE, INT8, UINT8 or DATETIME field whose length
    is not the size of its type is copied over the value or stops the process: the
    receiver does not check it. *)
Theorem C07_length_unchecked_refuted : forall s, length s <> 1%nat -> MsgSpec.field_ok (MsgSpec.FBin s) = true ->
  value_from_message (msg_from_bytes (m_data (set_bytes (set_int32 msg_init RBUS_BOOLEAN) s))) = UB.
Proof. exact length_unchecked. Qed.
Print Assumptions C07_length_unchecked_refuted.

(** C08: name, type, properties and children arrive, and nothing of the following
    contents is consumed. *)
Theorem C08_object_on_wire : forall o m0 r, sendable_object o = true -> o <> ONull ->
  exists m1, append_object false o m0 = Ok m1 /\
    object_from_message (mkMsg (m_data m1 ++ r) (msg_size m0) (m_meta m0)) =
    Ok (seen_object false o, mkMsg (m_data m1 ++ r) (msg_size m1) (m_meta m0)).
Proof. exact object_roundtrip. Qed.
Print Assumptions C08_object_on_wire.
Theorem C08_object_exact : forall name t props children m0 r,
  sendable_object (Obj name t props children ONull) = true -> complete_object (Obj name t props children ONull) = true ->
  exists m1 m2, append_object false (Obj name t props children ONull) m0 = Ok m1 /\
    object_from_message (mkMsg (m_data m1 ++ r) (msg_size m0) (m_meta m0)) = Ok (Obj name t props children ONull, m2).
Proof. exact object_exact. Qed.
Print Assumptions C08_object_exact.
Example C08_object_exact_ex : sendable_object sample_object = true /\ complete_object sample_object = true.
Proof. vm_compute. repeat split. Qed.

(** C09: the provider reconstructs the expression. *)
Theorem C09_filter_on_wire : forall f m0 r, sendable_filter f = true -> f <> FNull ->
  exists m1, append_filter f m0 = Ok m1 /\
    filter_from_message (mkMsg (m_data m1 ++ r) (msg_size m0) (m_meta m0)) =
    Ok (seen_filter f, mkMsg (m_data m1 ++ r) (msg_size m1) (m_meta m0)).
Proof. exact filter_roundtrip. Qed.
Print Assumptions C09_filter_on_wire.
Theorem C09_filter_exact : forall f m0 r, sendable_filter f = true -> f <> FNull -> complete_filter f = true ->
  exists m1 m2, append_filter f m0 = Ok m1 /\
    filter_from_message (mkMsg (m_data m1 ++ r) (msg_size m0) (m_meta m0)) = Ok (f, m2).
Proof. exact filter_exact. Qed.
Print Assumptions C09_filter_exact.
Definition sample_filter : filter :=
  FLogic OP_OR (FLogic OP_NOT (FRel OP_EQUAL (VInt32 (-7))) FNull) (FRel OP_GREATER_THAN (VString (Some (bs "m")))).
Example C09_filter_exact_ex : sendable_filter sample_filter = true /\ complete_filter sample_filter = true /\ sample_filter <> FNull.
Proof. split; [vm_compute; reflexivity|]. split; [vm_compute; reflexivity|discriminate]. Qed.

(** C10: the consumer sees the event and the subscription's parameters. *)
Theorem C10_event_on_wire : forall e f i d c m0 r,
  name_ok (ev_name e) = true -> in_s 32 (ev_type e) = true -> sendable_object (ev_data e) = true -> sendable_filter f = true ->
  in_u 32 i = true -> in_u 32 d = true -> in_s 32 c = true ->
  exists m1, append_event e f i d c m0 = Ok m1 /\
    event_from_message (mkMsg (m_data m1 ++ r) (msg_size m0) (m_meta m0)) =
    Ok (mkEvent (Some (the_name (ev_name e))) (ev_type e) (seen_object false (ev_data e)), seen_filter f, i, d, c,
        mkMsg (m_data m1 ++ r) (msg_size m1) (m_meta m0)).
Proof. exact event_roundtrip. Qed.
Print Assumptions C10_event_on_wire.
Example C10_event_on_wire_ex :
  name_ok (Some (bs "Device.E!")) = true /\ in_s 32 3 = true /\ sendable_object sample_object = true /\
  sendable_filter sample_filter = true /\ in_u 32 4294967295 = true /\ in_s 32 (-5) = true.
Proof. vm_compute. repeat split. Qed.
