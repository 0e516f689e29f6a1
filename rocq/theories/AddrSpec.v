(** Texts that name sockets. *)
From Coq Require Import String.
From Verif Require Import Common TextSpec TextModel.
From Coq Require Import List ZArith Bool.
Import ListNotations.
Local Open Scope string_scope.
Local Open Scope list_scope.
Local Open Scope Z_scope.

Definition octet (a : Z) : Prop := 0 <= a <= 255.

(** What a well written text names. *)
Inductive names : list Z -> (list Z + Z * Z * Z * Z * Z) -> Prop :=
| name_unix p : (List.length p <= 107)%nat -> names (bs "unix://" ++ p) (inl p)
| name_tcp a b c d n : octet a -> octet b -> octet c -> octet d -> 0 <= n <= 65535 ->
    names (bs "tcp://" ++ print_dec a ++ bs "." ++ print_dec b ++ bs "." ++ print_dec c ++ bs "." ++ print_dec d ++ bs ":" ++ print_dec n)
          (inr (a, b, c, d, n)).
