(** Decimal numerals. *)
From Verif Require Import Common Value.
Local Open Scope Z_scope.

Definition dec_char (c : Z) : Prop := 48 <= c <= 57.
Definition space_char (c : Z) : Prop := c = 32 \/ 9 <= c <= 13.
Definition numeral_value (ds : list Z) : Z := fold_left (fun a c => a * 10 + (c - 48)) ds 0.

(** [s] is, after optional white space, a decimal numeral with optional sign
    denoting [n]. *)
Definition denotes (s : list Z) (n : Z) : Prop :=
  exists ws sg ds, s = ws ++ sg ++ ds /\ Forall space_char ws /\ Forall dec_char ds /\ ds <> [] /\
    ((sg = [] \/ sg = [43]) /\ n = numeral_value ds \/ sg = [45] /\ n = - numeral_value ds).

Definition starts_with_space (s : list Z) : Prop := exists c r, s = c :: r /\ space_char c.

(** The integer types with decimal input: type code, constructor, bounds. *)
Inductive signed_type : Z -> (Z -> value) -> Z -> Z -> Prop :=
| st16 : signed_type RBUS_INT16 VInt16 (-32768) 32767
| st32 : signed_type RBUS_INT32 VInt32 (-2147483648) 2147483647
| st64 : signed_type RBUS_INT64 VInt64 (-9223372036854775808) 9223372036854775807.
Inductive unsigned_type : Z -> (Z -> value) -> Z -> Prop :=
| ut16 : unsigned_type RBUS_UINT16 VUInt16 65535
| ut32 : unsigned_type RBUS_UINT32 VUInt32 4294967295
| ut64 : unsigned_type RBUS_UINT64 VUInt64 18446744073709551615.

Definition textual (v : value) : bool :=
  match v with
  | VBool _ | VInt8 _ | VUInt8 _ | VInt16 _ | VUInt16 _ | VInt32 _ | VUInt32 _ | VInt64 _ | VUInt64 _ => scalar_wf v
  | VString (Some _) => true
  | _ => false
  end.
