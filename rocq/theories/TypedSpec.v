(** What typed reads should give, from what was written. *)
From Verif Require Import Common Bytes Value TypedModel.
Local Open Scope Z_scope.

(** what a C variable of the type can hold *)
Definition fits (k : kind) (n : Z) : Prop :=
  match k with
  | KBoolean => n = 0 \/ n = 1
  | KChar | KInt8 => -128 <= n < 128
  | KByte | KUInt8 => 0 <= n < 256
  | KInt16 => -32768 <= n < 32768
  | KUInt16 => 0 <= n < 65536
  | KInt32 => -2147483648 <= n < 2147483648
  | KUInt32 | KSingle => 0 <= n < 4294967296
  | KInt64 => -9223372036854775808 <= n < 9223372036854775808
  | KUInt64 | KDouble | KProperty | KObject => 0 <= n < 18446744073709551616
  | KTime => 0 <= n < 2 ^ 384
  end.
(** a setting a program can make; new buffers have an address that is not NULL,
    texts are C strings, and lengths are ints *)
Definition fine (s : setting) : Prop :=
  match s with
  | SKind k n => fits k n
  | SString q s => 0 < q < 18446744073709551616 /\ match s with Some t => is_cstr t = true /\ Z.of_nat (length t) < 2147483647 | None => True end
  | SBytes q s => 0 < q < 18446744073709551616 /\ match s with Some t => bytes_ok t = true /\ Z.of_nat (length t) < 2147483648 | None => True end
  end.
(** whether two types are the same *)
Definition same (a b : kind) : {a = b} + {a <> b}.
Proof. decide equality. Defined.
(** what reading a number says *)
Definition read_says (s : option setting) (k : kind) : verr * option Z :=
  match s with
  | Some (SKind k' n) => if same k' k then (Success, Some n) else (EType, None)
  | _ => (EType, None)
  end.
(** what reading a text says: its bytes with the final zero, and its length without *)
Definition string_says (s : option setting) : verr * option (option (list Z) * option Z) :=
  match s with
  | Some (SString _ (Some t)) => (Success, Some (Some (t ++ [0]), Some (Z.of_nat (length t))))
  | Some (SBytes _ (Some t)) => (Success, Some (Some t, Some (Z.of_nat (length t))))
  | Some (SString _ None) | Some (SBytes _ None) => (Success, Some (None, Some 0))
  | _ => (EType, None)
  end.
(** what reading bytes says *)
Definition bytes_says (s : option setting) : verr * option (option (list Z) * option Z) :=
  match s with
  | Some (SString _ (Some t)) => (Success, Some (Some (t ++ [0]), Some (Z.of_nat (length t) + 1)))
  | Some (SBytes _ (Some t)) => (Success, Some (Some t, Some (Z.of_nat (length t))))
  | Some (SString _ None) | Some (SBytes _ None) => (Success, Some (None, Some 0))
  | _ => (EType, None)
  end.
(** [s] was the last thing written, if anything was *)
Definition last_written (l : list setting) (s : option setting) : Prop :=
  match s with None => l = [] | Some x => exists l', l = l' ++ [x] end.
(** [s] was the last thing written to the property [n] *)
Definition last_for (l : list (list Z * setting)) (n : list Z) (s : option setting) : Prop :=
  match s with
  | None => ~ In n (map fst l)
  | Some x => exists a b, l = a ++ (n, x) :: b /\ ~ In n (map fst b)
  end.
(** settings whose type, length and contents say everything: no NULL texts, no properties or objects *)
Definition flat (s : setting) : Prop :=
  match s with
  | SKind KProperty _ | SKind KObject _ => False
  | SKind _ _ => True
  | SString _ t | SBytes _ t => t <> None
  end.
