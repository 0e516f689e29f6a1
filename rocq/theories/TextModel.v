(** Model of the text conversions of integers, booleans, strings and byte arrays:
    rbusValue_ToString (src/rbus/rbus_value.c:224-403) with buf = NULL and
    rbusValue_SetFromString (src/rbus/rbus_value.c:1065-1273), with the C library's
    strtol, strtoul, strtoll, strtoull and snprintf on an LP64 machine (long is 64
    bits).  Not modelled: CHAR, BYTE, SINGLE, DOUBLE, DATETIME. *)
From Coq Require Import String.
From Verif Require Import Common Value.
Local Open Scope string_scope.
Local Open Scope list_scope.
Local Open Scope Z_scope.

(** snprintf %d, %u, %hd, %hu, PRIi64, PRIu64: at most 20 digits are needed *)
Fixpoint dec_digits (fuel : nat) (n : Z) (acc : list Z) : list Z :=
  match fuel with
  | O => acc
  | S f => let acc' := (48 + n mod 10) :: acc in
           if n / 10 =? 0 then acc' else dec_digits f (n / 10) acc'
  end.
(** libc snprintf with %d, %u, %ld: decimal digits *)
Definition print_dec (n : Z) : list Z :=
  if n <? 0 then 45 :: dec_digits 20 (- n) [] else dec_digits 20 n [].
(** sprintf "%02X" *)
Definition hex_digit (d : Z) : Z := if d <? 10 then 48 + d else 55 + d.
(** libc snprintf with %02X, as used in rbus_value.c:224-403 *)
Definition print_hex2 (b : Z) : list Z := [hex_digit (b / 16); hex_digit (b mod 16)].

(** rbus_value.c:224-403, for the types in scope; [None] is outside the scope *)
Definition to_string (v : value) : option (list Z) :=
  match v with
  | VString s => s
  | VBytes (Some s) => Some (flat_map print_hex2 s)
  | VBool b => Some (if b then bs "true" else bs "false")
  | VInt8 n | VUInt8 n | VInt16 n | VUInt16 n | VInt32 n | VUInt32 n | VInt64 n | VUInt64 n => Some (print_dec n)
  | _ => None
  end.

(** The C library. ctype *)
Definition isspace (c : Z) : bool := (c =? 32) || ((9 <=? c) && (c <=? 13)).
(** libc: the digits of strtol *)
Definition digit_val (c : Z) : option Z :=
  if (48 <=? c) && (c <=? 57) then Some (c - 48)
  else if (97 <=? c) && (c <=? 122) then Some (c - 87)
  else if (65 <=? c) && (c <=? 90) then Some (c - 55)
  else None.
(** libc: the digits of strtol *)
Definition is_digit (base c : Z) : bool := match digit_val c with Some d => d <? base | None => false end.
(** libc: the white space strtol skips *)
Fixpoint skip_ws (s : list Z) : list Z :=
  match s with c :: r => if isspace c then skip_ws r else s | [] => [] end.
(** libc: the digits strtol reads *)
Fixpoint scan_digits (base : Z) (s : list Z) (acc : Z) : Z * list Z :=
  match s with
  | c :: r => match digit_val c with
              | Some d => if d <? base then scan_digits base r (acc * base + d) else (acc, s)
              | None => (acc, s)
              end
  | [] => (acc, s)
  end.
(** base 0: 0x prefix is hexadecimal (only when a hexadecimal digit follows), a
    leading 0 is octal *)
Definition pick_base (base : Z) (s : list Z) : Z * list Z :=
  if base =? 0 then
    match s with
    | 48 :: x :: d :: _ =>
        if ((x =? 120) || (x =? 88)) && is_digit 16 d then (16, skipn 2 s) else (8, s)
    | 48 :: _ => (8, s)
    | _ => (10, s)
    end
  else (base, s).
(** sign, magnitude and the rest; [None] when no conversion is possible (endptr =
    the input); libc *)
Definition strto (base : Z) (s : list Z) : option (bool * Z * list Z) :=
  let s := skip_ws s in
  let '(neg, s) := match s with 45 :: r => (true, r) | 43 :: r => (false, r) | _ => (false, s) end in
  let '(b, s) := pick_base base s in
  match s with
  | c :: _ => if is_digit b c then let '(m, rest) := scan_digits b s 0 in Some (neg, m, rest) else None
  | [] => None
  end.
(** (value, ERANGE); libc strtol, strtoll *)
Definition strtol_value (neg : bool) (m : Z) : Z * bool :=
  let n := if neg then - m else m in
  if n <? - 2 ^ 63 then (- 2 ^ 63, true) else if 2 ^ 63 - 1 <? n then (2 ^ 63 - 1, true) else (n, false).
(** libc strtoul, strtoull: (value, ERANGE) *)
Definition strtoul_value (neg : bool) (m : Z) : Z * bool :=
  if 2 ^ 64 - 1 <? m then (2 ^ 64 - 1, true) else ((if neg then (- m) mod 2 ^ 64 else m), false).

(** libc tolower *)
Definition lower (c : Z) : Z := if (65 <=? c) && (c <=? 90) then c + 32 else c.
(** libc strcasecmp is 0 *)
Definition strcaseeq (a b : list Z) : bool := bytes_eqb (map lower a) (map lower b).

(** 1118-1142 and 1161-1197: the signed types *)
Definition parse_signed (base lo hi : Z) (erange_only : bool) (s : list Z) : option Z :=
  match strto base s with
  | None => None
  | Some (neg, m, rest) =>
      let '(n, er) := strtol_value neg m in
      if is_some (hd_error rest) || (er && (erange_only || (n =? 2 ^ 63 - 1) || (n =? - 2 ^ 63)))
         || (n <? lo) || (hi <? n)
      then None else Some n
  end.
(** 1129-1139 and 1200-1240: the unsigned types *)
Definition parse_unsigned (base hi : Z) (erange_only : bool) (s : list Z) : option Z :=
  let minus := match s with 45 :: _ => true | _ => false end in
  match strto base s with
  | None => None
  | Some (neg, m, rest) =>
      let '(n, er) := strtoul_value neg m in
      if is_some (hd_error rest) || (minus && negb (n =? 0))
         || (er && (erange_only || (n =? 2 ^ 64 - 1) || (n =? 0))) || (hi <? n)
      then None else Some n
  end.

(** rbus_value.c:1065-1273; [s] is the input without its terminating NUL *)
Definition set_from_string (type : Z) (s : list Z) : option value :=
  if type =? RBUS_STRING then Some (VString (Some s))
  else if type =? RBUS_BYTES then Some (VBytes (Some s))
  else if type =? RBUS_BOOLEAN then
    (if strcaseeq s (bs "true") || bytes_eqb s (bs "1") then Some (VBool true)
     else if strcaseeq s (bs "false") || bytes_eqb s (bs "0") then Some (VBool false) else None)
  else if type =? RBUS_INT8 then option_map VInt8 (parse_signed 0 (- 2 ^ 7) (2 ^ 7 - 1) true s)
  else if type =? RBUS_UINT8 then option_map VUInt8 (parse_unsigned 0 (2 ^ 8 - 1) true s)
  else if type =? RBUS_INT16 then option_map VInt16 (parse_signed 10 (- 2 ^ 15) (2 ^ 15 - 1) false s)
  else if type =? RBUS_INT32 then option_map VInt32 (parse_signed 10 (- 2 ^ 31) (2 ^ 31 - 1) false s)
  else if type =? RBUS_INT64 then option_map VInt64 (parse_signed 10 (- 2 ^ 63) (2 ^ 63 - 1) false s)
  else if type =? RBUS_UINT16 then option_map VUInt16 (parse_unsigned 10 (2 ^ 16 - 1) false s)
  else if type =? RBUS_UINT32 then option_map VUInt32 (parse_unsigned 10 (2 ^ 32 - 1) false s)
  else if type =? RBUS_UINT64 then option_map VUInt64 (parse_unsigned 10 (2 ^ 64 - 1) false s)
  else None.
