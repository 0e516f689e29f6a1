(** Model of src/rtmessage/rtBase64.c.  Bytes and characters are numbers from
    0 to 255; a buffer is the list of what it holds.  Simplification: malloc
    succeeds; logging is left out. *)
From Coq Require Import String.
From Verif Require Import Common.
Local Open Scope string_scope.
Local Open Scope list_scope.
Local Open Scope Z_scope.

(** rtBase64.h 30 RBUS_BINARY_DATA_SIZE_LIMIT *)
Definition BINARY_LIMIT : Z := 1026.
(** rtBase64.h 31 RBUS_BASE64_DATA_SIZE_LIMIT *)
Definition TEXT_LIMIT : Z := BINARY_LIMIT * 4 / 3.
(** rtBase64.c 30 base64_lookup_table *)
Definition table : list Z := bs "ABCDEFGHIJKLMNOPQRSTUVWXYZabcdefghijklmnopqrstuvwxyz0123456789+/".
(** rtBase64.c 91: reading the table; its 65th byte is the terminator and
    reading behind that is undefined *)
Definition lookup (i : Z) : outcome unit Z :=
  match nth_error (table ++ [0]) (Z.to_nat i) with Some c => Ok c | None => UB end.
(** the '=' of rtBase64.c 111-112, 121, 148, 153 *)
Definition PAD : Z := 61.
(** conversion to unsigned char on assignment; C11 6.3.1.3 *)
Definition uchar (x : Z) : Z := x mod 256.

(** rtBase64.c 32-60 decode_base64_char: the sextet, and whether the error
    flag is raised *)
Definition decode_char (c : Z) : Z * bool :=
  if (65 <=? c) && (c <=? 90) then (c - 65, false)
  else if (97 <=? c) && (c <=? 122) then (26 + c - 97, false)
  else if (48 <=? c) && (c <=? 57) then (52 + c - 48, false)
  else if c =? 43 then (62, false)
  else if c =? 47 then (63, false)
  else (0, true).

(** rtBase64.c 85-100 and 102-126: the loop over full groups, then the switch *)
Fixpoint encode_groups (l : list Z) : outcome unit (list Z) :=
  match l with
  | [] => Ok []
  | [a] =>
      do c0 <- lookup (Z.shiftr a 2);
      do c1 <- lookup (Z.shiftl (Z.land a 3) 4);
      Ok [c0; c1; PAD; PAD]
  | [a; b] =>
      do c0 <- lookup (Z.shiftr a 2);
      do c1 <- lookup (Z.lor (Z.shiftl (Z.land a 3) 4) (Z.shiftr b 4));
      do c2 <- lookup (Z.shiftl (Z.land b 15) 2);
      Ok [c0; c1; c2; PAD]
  | a :: b :: c :: l =>
      do c0 <- lookup (Z.shiftr a 2);
      do c1 <- lookup (Z.lor (Z.shiftl (Z.land a 3) 4) (Z.shiftr b 4));
      do c2 <- lookup (Z.lor (Z.shiftl (Z.land b 15) 2) (Z.shiftr c 6));
      do c3 <- lookup (Z.land c 63);
      do r <- encode_groups l;
      Ok (c0 :: c1 :: c2 :: c3 :: r)
  end.

(** rtBase64.c 71-76 the size given to malloc and to the caller *)
Definition encode_size (n : Z) : Z := n * 4 / 3 + 1 + (if n mod 3 =? 0 then 0 else 4).

(** rtBase64.c 62-130 rtBase64_encode: the text, without its terminator, and
    the size reported.  Writing more than was allocated is [UB]. *)
Definition encode (l : list Z) : outcome unit (list Z * Z) :=
  if BINARY_LIMIT <? Z.of_nat (length l) then Err tt else
  do t <- encode_groups l;
  let n := encode_size (Z.of_nat (length l)) in
  if Z.of_nat (length t) + 1 <=? n then Ok (t, n) else UB.

(** a sextet pair put together: rtBase64.c 175-177, first, second and third
    byte of a group *)
Definition byte0 (x y : Z) : Z := uchar (Z.lor (Z.shiftl x 2) (Z.shiftr y 4)).
(** rtBase64.c 176 *)
Definition byte1 (x y : Z) : Z := uchar (Z.lor (Z.shiftl x 4) (Z.shiftr y 2)).
(** rtBase64.c 177 *)
Definition byte2 (x y : Z) : Z := uchar (Z.lor (Z.shiftl x 6) (Z.land y 63)).

(** rtBase64.c 168-179: the loop over full groups; the bytes and the error
    flag.  A group cut short would be read beyond the end: [UB]. *)
Fixpoint decode_groups (l : list Z) : outcome unit (list Z * bool) :=
  match l with
  | [] => Ok ([], false)
  | a :: b :: c :: d :: l =>
      let (a, ea) := decode_char a in let (b, eb) := decode_char b in
      let (c, ec) := decode_char c in let (d, ed) := decode_char d in
      do (r, e) <- decode_groups l;
      Ok (byte0 a b :: byte1 b c :: byte2 c d :: r, ea || eb || ec || ed || e)
  | _ => UB
  end.

(** rtBase64.c 181-189: the last, padded group *)
Definition decode_last (pad : nat) (l : list Z) : outcome unit (list Z * bool) :=
  match pad, l with
  | O, [] => Ok ([], false)
  | 2%nat, a :: b :: _ =>
      let (a, ea) := decode_char a in let (b, eb) := decode_char b in
      Ok ([byte0 a b], ea || eb)
  | 1%nat, a :: b :: c :: _ =>
      let (a, ea) := decode_char a in let (b, eb) := decode_char b in let (c, ec) := decode_char c in
      Ok ([byte0 a b; byte1 b c], ea || eb || ec)
  | _, _ => UB
  end.

(** rtBase64.c 147-158: the padding is read off the last two characters;
    with no characters these are read 4 GB further on. *)
Definition padding (l : list Z) : outcome unit nat :=
  match rev l with
  | y :: x :: _ => Ok (if x =? PAD then 2%nat else if y =? PAD then 1%nat else 0%nat)
  | _ => UB
  end.

(** rtBase64.c 132-201 rtBase64_decode; [Err]: refused.  Writing more or less
    than was allocated would be [UB]. *)
Definition decode (l : list Z) : outcome unit (list Z) :=
  let n := Z.of_nat (length l) in
  if TEXT_LIMIT <? n then Err tt else
  if negb (n mod 4 =? 0) then Err tt else
  do pad <- padding l;
  let full := (length l - (match pad with O => 0 | _ => 4 end))%nat in
  do (r, e) <- decode_groups (firstn full l);
  do (r', e') <- decode_last pad (skipn full l);
  if e || e' then Err tt
  else if Z.of_nat (length (r ++ r')) =? n * 3 / 4 - Z.of_nat pad then Ok (r ++ r') else UB.
