(** Fixed-width integers as bytes (network and little-endian order).
    htons/htonl and memcpy of integers are modelled by these functions. *)
From Verif Require Import Common.
Local Open Scope Z_scope.

Definition be16 (n : Z) : list Z := [n / 256 mod 256; n mod 256].
Definition be32 (n : Z) : list Z :=
  [n / 16777216 mod 256; n / 65536 mod 256; n / 256 mod 256; n mod 256].
Definition be64 (n : Z) : list Z := be32 (n / 4294967296) ++ be32 n.
Definition le16 (n : Z) : list Z := [n mod 256; n / 256 mod 256].
Definition le32 (n : Z) : list Z :=
  [n mod 256; n / 256 mod 256; n / 65536 mod 256; n / 16777216 mod 256].
Definition le64 (n : Z) : list Z := le32 n ++ le32 (n / 4294967296).

(** Readers: value and remaining bytes, or [None] when too few bytes are left. *)
Definition get_be16 (l : list Z) : option (Z * list Z) :=
  match l with a :: b :: r => Some (a * 256 + b, r) | _ => None end.
Definition get_be32 (l : list Z) : option (Z * list Z) :=
  match l with
  | a :: b :: c :: d :: r => Some (a * 16777216 + b * 65536 + c * 256 + d, r)
  | _ => None end.
Definition get_be64 (l : list Z) : option (Z * list Z) :=
  match get_be32 l with
  | Some (h, r) => match get_be32 r with Some (lo, r') => Some (h * 4294967296 + lo, r') | None => None end
  | None => None
  end.
Definition get_le16 (l : list Z) : option (Z * list Z) :=
  match l with a :: b :: r => Some (a + b * 256, r) | _ => None end.
Definition get_le32 (l : list Z) : option (Z * list Z) :=
  match l with
  | a :: b :: c :: d :: r => Some (a + b * 256 + c * 65536 + d * 16777216, r)
  | _ => None end.
Definition get_le64 (l : list Z) : option (Z * list Z) :=
  match get_le32 l with
  | Some (lo, r) => match get_le32 r with Some (h, r') => Some (h * 4294967296 + lo, r') | None => None end
  | None => None
  end.
Definition get_bytes (n : nat) (l : list Z) : option (list Z * list Z) :=
  if (n <=? length l)%nat then Some (firstn n l, skipn n l) else None.

(** Two's complement reinterpretation of an unsigned [bits]-bit number. *)
Definition to_signed (bits n : Z) : Z :=
  if n <? 2 ^ (bits - 1) then n else n - 2 ^ bits.
Definition to_unsigned (bits n : Z) : Z := n mod 2 ^ bits.
