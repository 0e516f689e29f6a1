(** C05 (typed message fields) and C06 (call metadata). *)
From Coq Require Import String.
From Verif Require Import Common Bytes MsgModel MsgSpec MsgProofs.
Local Open Scope string_scope.
Local Open Scope list_scope.
Local Open Scope Z_scope.

(** C05: every sequence of fields is read back in order, ends at the end of the
    message, and nothing more can be read. *)
Theorem C05_message_roundtrip : forall fs, forallb field_ok fs = true ->
  exists m', read_all msg read_field fs (msg_from_bytes (m_data (write_all msg write_field msg_init fs)))
               = Ok (map read_back fs, m') /\
             m_read m' = msg_size m' /\ forall f, read_field f m' = Err tt.
Proof. exact message_roundtrip. Qed.
Print Assumptions C05_message_roundtrip.
Example C05_message_roundtrip_ex : forallb field_ok
  [FStr (Some (bs "Device.X")); FI32 (-1); FU32 4000000000; FI64 (- 2 ^ 63); FDbl (2 ^ 63); FBin [0;255]; FStr None; FMsg [161;0]] = true.
Proof. vm_compute. reflexivity. Qed.
(** C05: the same on a message that is extended and read in pieces. *)
Theorem C05_message_pieces : forall old fs more, forallb field_ok old = true -> forallb field_ok fs = true ->
  exists m1 m2,
    read_all msg read_field old (write_all msg write_field (write_all msg write_field (write_all msg write_field msg_init old) fs) more)
      = Ok (map read_back old, m1) /\
    read_all msg read_field fs m1 = Ok (map read_back fs, m2).
Proof. exact message_roundtrip_append. Qed.
Print Assumptions C05_message_pieces.
(** C05: a getter of another kind fails. *)
Theorem C05_wrong_kind : forall fs f g more, forallb field_ok fs = true -> field_ok f = true -> kind_of g <> kind_of f ->
  exists m, read_all msg read_field fs (write_all msg write_field (write_field (write_all msg write_field msg_init fs) f) more)
              = Ok (map read_back fs, m) /\
            read_field g m = Err tt.
Proof. exact wrong_kind_msg. Qed.
Print Assumptions C05_wrong_kind.
Example C05_wrong_kind_ex : kind_of (FI32 0) <> kind_of (FStr None) /\
  get_int32 (msg_from_bytes (m_data (set_string msg_init (Some (bs "5"))))) = Err tt.
Proof. vm_compute. split; [discriminate|reflexivity]. Qed.
(** C05: the integer getters are one kind, so a 32-bit getter returns a truncated
    value for a wider field instead of failing. *)
Theorem C05_truncation_refuted : exists m,
  get_int32 (msg_from_bytes (m_data (set_int64 msg_init 4294967301))) = Ok (5, m).
Proof. eexists. vm_compute. reflexivity. Qed.
Print Assumptions C05_truncation_refuted.
(** C05: a string field that is not NUL-terminated (possible in a message received
    from another process) is read past its end. *)
Theorem C05_unterminated_refuted :
  get_string (msg_from_bytes [161; 65]) = UB /\ (* "A" without NUL, end of message *)
  exists m, get_string (msg_from_bytes [161; 65; 162; 66; 0]) = Ok ([65; 162; 66], m).
Proof. split; [vm_compute; reflexivity|]. eexists. vm_compute. reflexivity. Qed.
Print Assumptions C05_unterminated_refuted.

(** C06: the callee obtains the three strings, and then reads the payload from its
    first field as if nothing had been appended. *)
Theorem C06_call_metadata : forall fs method parent state, forallb field_ok fs = true ->
  Z.of_nat (length (m_data (write_all msg write_field msg_init fs))) < 2 ^ 31 - 32768 ->
  field_ok (FStr method) = true -> field_ok (FStr parent) = true -> field_ok (FStr state) = true ->
  exists m1 m2,
    get_meta_info (msg_from_bytes (m_data (set_meta_info (write_all msg write_field msg_init fs) method parent state)))
      = Ok (Some (text method), Some (text parent), Some (text state), m1) /\
    read_all msg read_field fs m1 = Ok (map read_back fs, m2).
Proof. exact call_payload. Qed.
Print Assumptions C06_call_metadata.
(** C06 for payloads that are arbitrary bytes. *)
Theorem C06_any_payload : forall payload method parent state,
  Z.of_nat (length payload) < 2 ^ 31 - 32768 ->
  field_ok (FStr method) = true -> field_ok (FStr parent) = true -> field_ok (FStr state) = true ->
  exists m', get_meta_info (msg_from_bytes (m_data (set_meta_info (msg_from_bytes payload) method parent state)))
               = Ok (Some (text method), Some (text parent), Some (text state), m') /\
             m_read m' = 0 /\ exists rest, m_data m' = payload ++ rest.
Proof. exact call_metadata. Qed.
Print Assumptions C06_any_payload.
Example C06_ex : exists m, get_meta_info (msg_from_bytes (m_data
    (set_meta_info (set_int32 msg_init 7) (Some (bs "METHOD_GETPARAMETERVALUES")) None (Some (bs "s=1")))))
  = Ok (Some (bs "METHOD_GETPARAMETERVALUES"), Some [], Some (bs "s=1"), m) /\ m_read m = 0.
Proof. eexists. split; vm_compute; reflexivity. Qed.
(** C06: the size bound is needed: at 2^31 - 32768 bytes the trailer is no longer
    five bytes long. *)
Theorem C06_bound_tight : forall off, 2 ^ 31 - 32768 <= off < 2 ^ 31 ->
  length (pack_int (off - 2147483648)) <> 5%nat.
Proof. exact meta_bound. Qed.
Print Assumptions C06_bound_tight.
(** C06: a message without metadata yields no method name (a NULL the dispatcher
    then passes to strncmp). *)
Theorem C06_no_metadata : get_meta_info (msg_from_bytes [1; 2]) = Ok (None, None, None, msg_from_bytes [1; 2]).
Proof. vm_compute. reflexivity. Qed.
Print Assumptions C06_no_metadata.
