(** Model of src/rbus/rbus_buffer.c, and of the binary codecs built on it:
    rbusValue_Encode/Decode (src/rbus/rbus_value.c) and rbusFilter_Encode/Decode
    (src/rbus/rbus_filter.c).  The host is little-endian; allocation succeeds;
    positions stay below 2^31 (simplifications). *)
From Verif Require Import Common Bytes Value.
Local Open Scope Z_scope.

Definition BUFFER_BLOCK_SIZE : Z := 64. (* rbus_buffer.c:30 *)

(** include rbus_buffer.h struct _rbusBuffer.  [b_data] holds the bytes written so
    far (posWrite is its length); the rest of the allocation, up to [b_alloc],
    is uninitialised memory. include/rbus_buffer.h:29-36 *)
Record buffer := mkB { b_alloc : Z; b_data : list Z; b_read : Z }.
(** include/rbus_buffer.h:32 posWrite *)
Definition b_write_pos (b : buffer) : Z := Z.of_nat (length (b_data b)).

(** rbus_buffer.c:87-94 *)
Definition buffer_create : buffer := mkB BUFFER_BLOCK_SIZE [] 0.

(** rbus_buffer.c:116-135 rbusBuffer_Reserve *)
Definition buffer_reserve (b : buffer) (len : Z) : buffer :=
  let posNext := b_write_pos b + len in
  if b_alloc b <? posNext
  then mkB ((posNext / BUFFER_BLOCK_SIZE + 1) * BUFFER_BLOCK_SIZE) (b_data b) (b_read b)
  else b.

(** rbus_buffer.c:107-114 rbusBuffer_Write *)
Definition buffer_write (b : buffer) (data : list Z) : buffer :=
  let b' := buffer_reserve b (Z.of_nat (length data)) in
  mkB (b_alloc b') (b_data b' ++ data) (b_read b').

(** rbus_buffer.c:256-268 rbusBuffer_Read.  The check is against the allocation,
    not against what was written: bytes past the written ones are
    indeterminate, which is [UB] here. *)
Definition buffer_read (b : buffer) (len : Z) : outcome unit (list Z * buffer) :=
  if negb (b_read b + len <? b_alloc b) then Err tt
  else match get_bytes (Z.to_nat len) (skipn (Z.to_nat (b_read b)) (b_data b)) with
       | Some (x, _) => Ok (x, mkB (b_alloc b) (b_data b) (b_read b + len))
       | None => UB
       end.

(** rbus_buffer.c:137-148 rbusBuffer_WriteTypeLengthValue: [length] is a uint16_t,
    so only the low 16 bits of the caller's length survive *)
Definition write_tlv (b : buffer) (type len : Z) (data : list Z) : buffer :=
  let len16 := len mod 65536 in
  buffer_write (buffer_write (buffer_write b (le16 type)) (le16 len16)) (firstn (Z.to_nat len16) data).

(** rbus_buffer.c:231-249: the twelve 32-bit fields; m_isWest is a bool followed
    by three bytes of zero padding *)
Definition datetime_bytes (d : datetime) : list Z :=
  let f n := le32 (to_unsigned 32 n) in
  f (dt_sec d) ++ f (dt_min d) ++ f (dt_hour d) ++ f (dt_mday d) ++ f (dt_mon d) ++ f (dt_year d) ++
  f (dt_wday d) ++ f (dt_yday d) ++ f (dt_isdst d) ++ f (dt_tzhour d) ++ f (dt_tzmin d) ++
  [if dt_west d then 1 else 0; 0; 0; 0].

(** rbus_value.c:805-870 rbusValue_Encode (rbus_buffer.c:150-254 for the writers).
    A NULL buffer of a string or bytes value is dereferenced; other types hit
    assert(false). *)
Definition value_encode (v : value) (b : buffer) : outcome unit buffer :=
  match v with
  | VNull => Ok b
  | VString (Some s) => Ok (write_tlv b RBUS_STRING (Z.of_nat (length s) + 1) (s ++ [0]))
  | VBytes (Some s) => Ok (write_tlv b RBUS_BYTES (Z.of_nat (length s)) s)
  | VBool x => Ok (write_tlv b RBUS_BOOLEAN 1 [if x then 1 else 0])
  | VInt32 n => Ok (write_tlv b RBUS_INT32 4 (le32 (to_unsigned 32 n)))
  | VUInt32 n => Ok (write_tlv b RBUS_UINT32 4 (le32 n))
  | VChar n => Ok (write_tlv b RBUS_CHAR 1 [to_unsigned 8 n])
  | VByte n => Ok (write_tlv b RBUS_BYTE 1 [n])
  | VInt8 n => Ok (write_tlv b RBUS_INT8 1 [to_unsigned 8 n])
  | VUInt8 n => Ok (write_tlv b RBUS_UINT8 1 [n])
  | VInt16 n => Ok (write_tlv b RBUS_INT16 2 (le16 (to_unsigned 16 n)))
  | VUInt16 n => Ok (write_tlv b RBUS_UINT16 2 (le16 n))
  | VInt64 n => Ok (write_tlv b RBUS_INT64 8 (le64 (to_unsigned 64 n)))
  | VUInt64 n => Ok (write_tlv b RBUS_UINT64 8 (le64 n))
  | VSingle n => Ok (write_tlv b RBUS_SINGLE 4 (le32 n))
  | VDouble n => Ok (write_tlv b RBUS_DOUBLE 8 (le64 n))
  | VDateTime d => Ok (write_tlv b RBUS_DATETIME 48 (datetime_bytes d))
  | VString None | VBytes None | VProperty _ | VObject _ | VNone => UB
  end.

(** Reading fixed-width integers (rbus_buffer.c:279-369). *)
Definition le_val (bs : list Z) : Z := fold_right (fun x acc => x + 256 * acc) 0 bs.
(** rbus_buffer.c:279-369, continued *)
Definition read_u (b : buffer) (bytes : Z) : outcome unit (Z * buffer) :=
  do (x, b') <- buffer_read b bytes; Ok (le_val x, b').
(** rbus_buffer.c:279-369, continued *)
Definition read_s (b : buffer) (bytes : Z) : outcome unit (Z * buffer) :=
  do (n, b') <- read_u b bytes; Ok (to_signed (8 * bytes) n, b').

(** rbus_buffer.c:371-390 rbusBuffer_ReadDateTime *)
Definition datetime_of (x : list Z) : datetime :=
  let f i := to_signed 32 (le_val (firstn 4 (skipn (4 * i) x))) in
  mkDT (f 0%nat) (f 1%nat) (f 2%nat) (f 3%nat) (f 4%nat) (f 5%nat) (f 6%nat) (f 7%nat) (f 8%nat) (f 9%nat) (f 10%nat)
       (negb (nth 44 x 0 =? 0)).

(** rbus_value.c:691-803 rbusValue_Decode *)
Definition value_decode (b : buffer) : outcome unit (value * buffer) :=
  do (type, b) <- read_u b 2;
  do (len, b) <- read_u b 2;
  if type =? RBUS_STRING then
    if negb (b_read b + len <=? b_alloc b) then Err tt
    else match c_str (skipn (Z.to_nat (b_read b)) (b_data b)) with
         | None => UB                          (* strlen runs into uninitialised bytes *)
         | Some s => if Z.of_nat (length s) + 1 =? len
                     then Ok (VString (Some s), mkB (b_alloc b) (b_data b) (b_read b + len))
                     else UB                   (* assert fails *)
         end
  else if type =? RBUS_BYTES then
    if negb (b_read b + len <=? b_alloc b) then Err tt
    else match get_bytes (Z.to_nat len) (skipn (Z.to_nat (b_read b)) (b_data b)) with
         | None => UB
         | Some (x, _) => Ok (VBytes (Some x), mkB (b_alloc b) (b_data b) (b_read b + len))
         end
  else if type =? RBUS_BOOLEAN then do (n, b) <- read_u b 1; Ok (VBool (negb (n =? 0)), b)
  else if type =? RBUS_INT32 then do (n, b) <- read_s b 4; Ok (VInt32 n, b)
  else if type =? RBUS_UINT32 then do (n, b) <- read_u b 4; Ok (VUInt32 n, b)
  else if type =? RBUS_CHAR then do (n, b) <- read_s b 1; Ok (VChar n, b)
  else if type =? RBUS_BYTE then do (n, b) <- read_u b 1; Ok (VByte n, b)
  else if type =? RBUS_INT8 then do (n, b) <- read_s b 1; Ok (VInt8 n, b)
  else if type =? RBUS_UINT8 then do (n, b) <- read_u b 1; Ok (VUInt8 n, b)
  else if type =? RBUS_INT16 then do (n, b) <- read_s b 2; Ok (VInt16 n, b)
  else if type =? RBUS_UINT16 then do (n, b) <- read_u b 2; Ok (VUInt16 n, b)
  else if type =? RBUS_INT64 then do (n, b) <- read_s b 8; Ok (VInt64 n, b)
  else if type =? RBUS_UINT64 then do (n, b) <- read_u b 8; Ok (VUInt64 n, b)
  else if type =? RBUS_SINGLE then do (n, b) <- read_u b 4; Ok (VSingle n, b)
  else if type =? RBUS_DOUBLE then do (n, b) <- read_u b 8; Ok (VDouble n, b)
  else if type =? RBUS_DATETIME then do (x, b) <- buffer_read b 48; Ok (VDateTime (datetime_of x), b)
  else UB.                                     (* assert(false) *)

(** rbus_filter.c:220-235 rbusFilter_Encode *)
Fixpoint filter_encode (f : filter) (b : buffer) : outcome unit buffer :=
  match f with
  | FNull => Ok b
  | FRel op v =>
      let b := write_tlv b RBUS_UINT32 4 (le32 EXPRESSION_RELATION) in
      let b := write_tlv b RBUS_UINT32 4 (le32 op) in
      value_encode v b
  | FLogic op l r =>
      let b := write_tlv b RBUS_UINT32 4 (le32 EXPRESSION_LOGIC) in
      let b := write_tlv b RBUS_UINT32 4 (le32 op) in
      do b <- filter_encode l b;
      filter_encode r b
  end.

(** The repeated type/length/value check of rbus_filter.c:248-258, 262-272, 281-291 *)
Definition read_uint32_tlv (b : buffer) : outcome unit (Z * buffer) :=
  do (type, b) <- read_u b 2;
  do (len, b) <- read_u b 2;
  if (type =? RBUS_UINT32) && (len =? 4) then read_u b 4 else Err tt.

(** rbus_filter.c:237-303 rbusFilter_Decode.  The recursion is unbounded in the
    code; [fuel] bounds it here and running out is [UB]. *)
Fixpoint filter_decode (fuel : nat) (b : buffer) : outcome unit (filter * buffer) :=
  match fuel with
  | O => UB
  | S fuel =>
    do (ftype, b) <- read_uint32_tlv b;
    if ftype =? EXPRESSION_RELATION then
      do (op, b) <- read_uint32_tlv b;
      do (v, b) <- value_decode b;
      Ok (FRel op v, b)
    else if ftype =? EXPRESSION_LOGIC then
      do (op, b) <- read_uint32_tlv b;
      do (l, b) <- filter_decode fuel b;
      do (r, b) <- filter_decode fuel b;
      Ok (FLogic op l r, b)
    else UB                                    (* *filterOut = filter, never assigned *)
  end.
