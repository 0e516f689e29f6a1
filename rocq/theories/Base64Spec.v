(** Base 64 as RFC 4648 describes it: the bits of the data, cut into groups
    of six, each group a character; said without the model's arithmetic. *)
From Coq Require Import String.
From Verif Require Import Common.
Local Open Scope string_scope.
Local Open Scope list_scope.
Local Open Scope Z_scope.

(** The characters, in order. *)
Definition alphabet : list Z := bs "ABCDEFGHIJKLMNOPQRSTUVWXYZabcdefghijklmnopqrstuvwxyz0123456789+/".

(** The bits of a number, most significant first. *)
Definition bits8 (b : Z) : list bool := map (Z.testbit b) [7; 6; 5; 4; 3; 2; 1; 0].
Definition bits6 (b : Z) : list bool := map (Z.testbit b) [5; 4; 3; 2; 1; 0].

(** Data is a sequence of bytes. *)
Definition data (l : list Z) : Prop := Forall (fun b => 0 <= b < 256) l.

(** The character [c] stands for the number [s]. *)
Definition stands (c s : Z) : Prop := 0 <= s < 64 /\ nth_error alphabet (Z.to_nat s) = Some c.

(** [t] writes the data [l]: characters for the six-bit groups of its bits,
    filled up with zero bits, then filled up with '=' to a multiple of four. *)
Definition writes (t l : list Z) : Prop :=
  exists cs ss k p, t = cs ++ repeat 61 p /\ Forall2 stands cs ss /\
    flat_map bits6 ss = flat_map bits8 l ++ repeat false k /\ (k < 6)%nat /\
    (p < 3)%nat /\ (length t mod 4 = 0)%nat.
