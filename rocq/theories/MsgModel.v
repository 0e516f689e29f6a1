(** Model of rbusMessage (src/core/rbuscore_message.c) on top of the MessagePack
    format as implemented by msgpack-c's packer and msgpack_unpack_next.
    Simplifications: packing never fails (sbuffer allocation failure is not
    modelled); the bytes of arrays, maps, extensions, nil and booleans are
    recognised but not parsed, since every getter rejects them; 32-bit floats,
    which rbus never writes, are treated the same way.  After a failed getter the
    read position is not modelled (failure is [Err]). *)
From Verif Require Import Common Bytes.
Local Open Scope Z_scope.

(** msgpack/pack_template.h: msgpack_pack_int32 and msgpack_pack_int64 choose the
    shortest encoding. *)
Definition pack_int (d : Z) : list Z :=
  if d <? -32 then
    if d <? -32768 then
      if d <? -2147483648 then 211 :: be64 (to_unsigned 64 d) else 210 :: be32 (to_unsigned 32 d)
    else if d <? -128 then 209 :: be16 (to_unsigned 16 d) else [208; to_unsigned 8 d]
  else if d <? 128 then [to_unsigned 8 d]
  else if d <? 65536 then
    if d <? 256 then [204; d] else 205 :: be16 d
  else if d <? 4294967296 then 206 :: be32 d else 207 :: be64 d.
(** msgpack_pack_double, from the bits of the double; as used in rbuscore_message.c *)
Definition pack_double (bits : Z) : list Z := 203 :: be64 bits.
(** msgpack_pack_str, msgpack_pack_str_body; as used in rbuscore_message.c *)
Definition pack_str (s : list Z) : list Z :=
  let l := Z.of_nat (length s) in
  (if l <? 32 then [160 + l] else if l <? 256 then [217; l]
   else if l <? 65536 then 218 :: be16 l else 219 :: be32 l) ++ s.
(** msgpack_pack_bin, msgpack_pack_bin_body; as used in rbuscore_message.c *)
Definition pack_bin (s : list Z) : list Z :=
  let l := Z.of_nat (length s) in
  (if l <? 256 then [196; l] else if l <? 65536 then 197 :: be16 l else 198 :: be32 l) ++ s.

(** msgpack_object, as far as rbuscore_message.c tells the types apart *)
Inductive item := IStr (s : list Z) | IBin (s : list Z) | IInt (n : Z) | IFloat (bits : Z) | IOther.

(** helper, no code of its own of the unpacker *)
Definition raw (mk : list Z -> item) (l : option (Z * list Z)) : option (item * list Z) :=
  match l with
  | None => None
  | Some (n, r) => match get_bytes (Z.to_nat n) r with Some (s, r') => Some (mk s, r') | None => None end
  end.
(** helper, no code of its own of the unpacker *)
Definition get_u8 (l : list Z) : option (Z * list Z) := match l with a :: r => Some (a, r) | [] => None end.
(** helper, no code of its own of the unpacker *)
Definition int_of (f : Z -> Z) (l : option (Z * list Z)) : option (item * list Z) :=
  match l with None => None | Some (n, r) => Some (IInt (f n), r) end.
(** One object from the front of the data.  via.i64 of an object of type
    POSITIVE_INTEGER is its 64-bit pattern read as signed. *)
Definition unpack (l : list Z) : option (item * list Z) :=
  match l with
  | [] => None
  | t :: r =>
    if t <? 128 then Some (IInt t, r)
    else if t <? 160 then Some (IOther, r)
    else if t <? 192 then raw IStr (Some (t - 160, r))
    else if t =? 196 then raw IBin (get_u8 r)
    else if t =? 197 then raw IBin (get_be16 r)
    else if t =? 198 then raw IBin (get_be32 r)
    else if t =? 203 then match get_be64 r with Some (b, r') => Some (IFloat b, r') | None => None end
    else if t =? 204 then int_of (fun n => n) (get_u8 r)
    else if t =? 205 then int_of (fun n => n) (get_be16 r)
    else if t =? 206 then int_of (fun n => n) (get_be32 r)
    else if t =? 207 then int_of (to_signed 64) (get_be64 r)
    else if t =? 208 then int_of (to_signed 8) (get_u8 r)
    else if t =? 209 then int_of (to_signed 16) (get_be16 r)
    else if t =? 210 then int_of (to_signed 32) (get_be32 r)
    else if t =? 211 then int_of (to_signed 64) (get_be64 r)
    else if t =? 217 then raw IStr (get_u8 r)
    else if t =? 218 then raw IStr (get_be16 r)
    else if t =? 219 then raw IStr (get_be32 r)
    else if 224 <=? t then Some (IInt (t - 256), r)
    else Some (IOther, r)
  end.

(** rbuscore_message.c:74-82 struct _rbusMessage; the read offset is a size_t *)
Record msg := mkMsg { m_data : list Z; m_read : Z; m_meta : Z }.
(** rbuscore_message.c:74-82, continued *)
Definition msg_size (m : msg) : Z := Z.of_nat (length (m_data m)).
(** 84-94 *)
Definition msg_init : msg := mkMsg [] 0 0.
(** 116-126; 128-132 is the projection [m_data] *)
Definition msg_from_bytes (l : list Z) : msg := mkMsg l 0 0.
(** rbuscore_message.c:116-126, continued *)
Definition append (m : msg) (l : list Z) : msg := mkMsg (m_data m ++ l) (m_read m) (m_meta m).
(** 30-35 msgpack_unpack_next: fails at or past the end *)
Definition unpack_next (m : msg) : option (item * msg) :=
  if msg_size m <=? m_read m then None
  else match unpack (skipn (Z.to_nat (m_read m)) (m_data m)) with
       | None => None
       | Some (i, r) => Some (i, mkMsg (m_data m) (msg_size m - Z.of_nat (length r)) (m_meta m))
       end.

(** 183-190; [None] is a NULL pointer *)
Definition set_string (m : msg) (s : option (list Z)) : msg :=
  append m (pack_str (match s with Some s => s | None => [] end ++ [0])).
(** 192-197: the caller receives a pointer to the first byte of the string and
    reads it as a C string, beyond the object if it contains no NUL *)
Definition get_string (m : msg) : outcome unit (list Z * msg) :=
  match unpack_next m with
  | Some (IStr s, m') =>
      match c_str (skipn (Z.to_nat (m_read m') - length s) (m_data m)) with
      | Some s => Ok (s, m')
      | None => UB
      end
  | _ => Err tt
  end.
(** 199-210 *)
Definition set_bytes (m : msg) (s : list Z) : msg := append m (pack_bin s).
(** rbuscore_message.c:199-210, continued *)
Definition get_msg_bytes (m : msg) : outcome unit (list Z * msg) :=
  match unpack_next m with Some (IBin s, m') => Ok (s, m') | _ => Err tt end.
(** 212-215; the argument is an int32_t *)
Definition set_int32 (m : msg) (n : Z) : msg := append m (pack_int n).
(** 217-229: (int32_t) and (uint32_t) conversions *)
Definition get_int32 (m : msg) : outcome unit (Z * msg) :=
  match unpack_next m with Some (IInt n, m') => Ok (to_signed 32 (to_unsigned 32 n), m') | _ => Err tt end.
(** rbuscore_message.c:217-229, continued *)
Definition get_uint32 (m : msg) : outcome unit (Z * msg) :=
  match unpack_next m with Some (IInt n, m') => Ok (to_unsigned 32 n, m') | _ => Err tt end.
(** 231-241 *)
Definition set_int64 (m : msg) (n : Z) : msg := append m (pack_int n).
(** rbuscore_message.c:231-241, continued *)
Definition get_int64 (m : msg) : outcome unit (Z * msg) :=
  match unpack_next m with Some (IInt n, m') => Ok (n, m') | _ => Err tt end.
(** 243-253 *)
Definition set_double (m : msg) (bits : Z) : msg := append m (pack_double bits).
(** rbuscore_message.c:243-253, continued *)
Definition get_double (m : msg) : outcome unit (Z * msg) :=
  match unpack_next m with Some (IFloat b, m') => Ok (b, m') | _ => Err tt end.
(** 255-265 *)
Definition set_message (m item : msg) : msg := append m (pack_bin (m_data item)).
(** rbuscore_message.c:255-265, continued *)
Definition get_message (m : msg) : outcome unit (msg * msg) :=
  match unpack_next m with Some (IBin s, m') => Ok (msg_from_bytes s, m') | _ => Err tt end.

(** 267-270 rbusMessage_BeginMetaSectionWrite *)
Definition begin_meta_write (m : msg) : msg := mkMsg (m_data m) (m_read m) (msg_size m).
(** 272-276: the offset with the top bit set is packed as an int32, then the top
    bit of the first of the last four bytes is cleared *)
Definition clear_top (l : list Z) : list Z :=
  let k := (length l - 4)%nat in
  match nth_error l k with Some b => upd l k (b mod 128) | None => l end.
(** rbuscore_message.c:272-276, continued *)
Definition end_meta_write (m : msg) : msg :=
  let m' := append m (pack_int (m_meta m - 2147483648)) in
  mkMsg (clear_top (m_data m')) (m_read m') (m_meta m').
(** 278-285: the result of GetInt32 is not checked; the subtraction wraps *)
Definition begin_meta_read (m : msg) : msg :=
  let m1 := mkMsg (m_data m) ((msg_size m - 5) mod 2 ^ 64) (m_read m) in
  match get_int32 m1 with
  | Ok (n, _) => mkMsg (m_data m) (n mod 2 ^ 64) (m_read m)
  | _ => mkMsg (m_data m) 0 (m_read m)
  end.
(** 287-290 *)
Definition end_meta_read (m : msg) : msg := mkMsg (m_data m) (m_meta m) (m_meta m).

(** src/core/rbuscore.c:424-441 _rbusMessage_SetMetaInfo *)
Definition set_meta_info (m : msg) (method parent state : option (list Z)) : msg :=
  end_meta_write (set_string (set_string (set_string (begin_meta_write m) method) parent) state).
(** src/core/rbuscore.c:443-460 _rbusMessage_GetMetaInfo: a string that cannot be
    read leaves the caller's NULL, and the reads after it are modelled as failing
    too (simplification: see the header comment) *)
Definition get_meta_info (m : msg) : outcome unit (option (list Z) * option (list Z) * option (list Z) * msg) :=
  let m0 := begin_meta_read m in
  match get_string m0 with
  | UB => UB | Err _ => Ok (None, None, None, end_meta_read m0)
  | Ok (s1, m1) =>
    match get_string m1 with
    | UB => UB | Err _ => Ok (Some s1, None, None, end_meta_read m0)
    | Ok (s2, m2) =>
      match get_string m2 with
      | UB => UB | Err _ => Ok (Some s1, Some s2, None, end_meta_read m0)
      | Ok (s3, m3) => Ok (Some s1, Some s2, Some s3, end_meta_read m3)
      end
    end
  end.
