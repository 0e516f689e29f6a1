(** C14 (comparison) and C16 (filter evaluation). *)
From Coq Require Import QArith String.
From Verif Require Import Common Value CompareModel CompareSpec CompareProofs.
Local Open Scope Z_scope.

(** C14, numbers: all numeric types together are ordered by magnitude.  Missing:
    64-bit integers beyond 2^53 (see the two theorems below), NaN. *)
Theorem C14_numbers_partial : forall v w x y, real_of v = Some x -> real_of w = Some y ->
  exactly_representable v = true -> exactly_representable w = true ->
  value_compare v w = Ok (sgn (x ?= y)%Q).
Proof. exact numbers_exact. Qed.
Print Assumptions C14_numbers_partial.
Example C14_numbers_ex :
  real_of (VSingle 0x40200000) <> None /\ exactly_representable (VSingle 0x40200000) = true /\
  value_compare (VSingle 0x40200000) (VInt32 3) = Ok (-1) /\ (* 2.5 < 3 *)
  value_compare (VDouble 0x4004000000000000) (VSingle 0x40200000) = Ok 0 /\
  value_compare (VInt64 (-5)) (VUInt8 4) = Ok (-1).
Proof. vm_compute. repeat split; discriminate. Qed.

(** C14, wide integers: for all 64-bit integers the order is never reversed, and
    different integers are confused only if they are at most 2048 apart. *)
Theorem C14_wide_integers_partial : forall v w n m, integer_of v = Some n -> integer_of w = Some m ->
  n <= m -> Z.abs n <= 2 ^ 64 -> Z.abs m <= 2 ^ 64 ->
  (value_compare v w = Ok 0 /\ m - n <= 2 ^ 11) \/ value_compare v w = Ok (-1).
Proof. exact wide_integers. Qed.
Print Assumptions C14_wide_integers_partial.
Example C14_wide_integers_ex :
  value_compare (VUInt64 (2 ^ 63)) (VUInt64 (2 ^ 63 + 5000)) = Ok (-1).
Proof. vm_compute. reflexivity. Qed.
(** ... so "0 exactly for the same content" is false. *)
Theorem C14_wide_integers_refuted :
  value_compare (VUInt64 (2 ^ 53)) (VUInt64 (2 ^ 53 + 1)) = Ok 0 /\
  value_compare (VInt64 (2 ^ 63 - 1)) (VInt64 (2 ^ 63 - 512)) = Ok 0.
Proof. vm_compute. split; reflexivity. Qed.
Print Assumptions C14_wide_integers_refuted.

(** C14, all numbers (infinities and wide integers included, NaN excluded): the
    comparison is antisymmetric and transitive. *)
Theorem C14_numbers_antisymmetric_partial : forall v w, is_number v = true -> is_number w = true ->
  exists c, value_compare v w = Ok c /\ value_compare w v = Ok (- c).
Proof. exact numbers_antisym. Qed.
Print Assumptions C14_numbers_antisymmetric_partial.
Theorem C14_numbers_transitive_partial : forall u v w a b,
  is_number u = true -> is_number v = true -> is_number w = true ->
  value_compare u v = Ok a -> value_compare v w = Ok b -> a <= 0 -> b <= 0 ->
  exists c, value_compare u w = Ok c /\ c <= 0 /\ (a < 0 \/ b < 0 -> c < 0).
Proof. exact numbers_trans. Qed.
Print Assumptions C14_numbers_transitive_partial.
Example C14_numbers_transitive_ex :
  is_number (VDouble 0xfff0000000000000) = true /\ is_number (VInt16 (-3)) = true /\ is_number (VUInt64 (2 ^ 60)) = true /\
  value_compare (VDouble 0xfff0000000000000) (VInt16 (-3)) = Ok (-1) /\
  value_compare (VInt16 (-3)) (VUInt64 (2 ^ 60)) = Ok (-1).
Proof. vm_compute. repeat split. Qed.
(** NaN is greater than everything including itself. *)
Theorem C14_nan_refuted : forall w, is_numeric w = true ->
  value_compare (VDouble 0x7ff8000000000000) w = Ok 1 /\ value_compare w (VDouble 0x7ff8000000000000) = Ok 1.
Proof.
  intros w H. rewrite !value_compare_num by (assumption || reflexivity).
  change (coerce (VDouble 0x7ff8000000000000)) with NaN. cbn [fl_compare]. split; [reflexivity|].
  destruct (coerce w); reflexivity.
Qed.
Print Assumptions C14_nan_refuted.

(** C14, strings: lexicographic order, 0 exactly for equal strings. *)
Theorem C14_strings : forall s t, exists c,
  value_compare (VString (Some s)) (VString (Some t)) = Ok c /\ reports_lex c s t.
Proof. exact strings_lex. Qed.
Print Assumptions C14_strings.
Theorem C14_lexicographic_is_strict : forall s, ~ lex_lt s s.
Proof. exact lex_irrefl. Qed.
Print Assumptions C14_lexicographic_is_strict.
Example C14_strings_ex :
  value_compare (VString (Some (bs "Device.A"))) (VString (Some (bs "Device.AB"))) = Ok (-1).
Proof. vm_compute. reflexivity. Qed.
(** C14, byte arrays: the same while the first is not the longer one ... *)
Theorem C14_bytes_partial : forall s t, (length s <= length t)%nat -> exists c,
  value_compare (VBytes (Some s)) (VBytes (Some t)) = Ok c /\ reports_lex c s t.
Proof. exact bytes_lex. Qed.
Print Assumptions C14_bytes_partial.
Example C14_bytes_ex : value_compare (VBytes (Some [1;2])) (VBytes (Some [1;1;9])) = Ok 1.
Proof. vm_compute. reflexivity. Qed.
(** ... otherwise it reads bytes that were never written to the second. *)
Theorem C14_bytes_refuted : forall s, s <> [] -> value_compare (VBytes (Some s)) (VBytes (Some [])) = UB.
Proof. intros [|x s] H; [congruence|reflexivity]. Qed.
Print Assumptions C14_bytes_refuted.

(** C14, date-times: all of them compare equal. *)
Theorem C14_datetime_refuted : forall d1 d2, value_compare (VDateTime d1) (VDateTime d2) = Ok 0.
Proof. reflexivity. Qed.
Print Assumptions C14_datetime_refuted.
Example C14_datetime_ex : mkDT 0 0 0 1 0 100 0 0 0 0 0 false <> mkDT 59 59 23 31 11 130 0 0 0 0 0 false.
Proof. discriminate. Qed.

(** C14, values of different non-numeric types are ordered by type. *)
Theorem C14_types : forall v w, v <> VNull -> w <> VNull -> is_numeric v && is_numeric w = false ->
  vtype v <> vtype w -> value_compare v w = Ok (if vtype v <? vtype w then -1 else 1).
Proof. exact types_ordered. Qed.
Print Assumptions C14_types.
Example C14_types_ex : value_compare (VString (Some (bs "1"))) (VInt32 1) = Ok 1.
Proof. vm_compute. reflexivity. Qed.

(** C14, every value (nested ones included) compares equal to a copy of itself. *)
Theorem C14_copy_equal_partial : forall v, well_named v -> value_compare v v = Ok 0.
Proof. exact compare_refl. Qed.
Print Assumptions C14_copy_equal_partial.
Example C14_copy_equal_ex : well_named
  (VObject (Obj (Some (bs "o")) 0 (PCons (Some (bs "a")) (VInt32 1) (PCons (Some (bs "b")) (VString (Some (bs "x"))) PNil))
     (Obj (Some (bs "c1")) 0 PNil ONull (Obj (Some (bs "c2")) 0 PNil ONull ONull)) ONull)).
Proof. vm_compute. repeat split; try discriminate; intuition discriminate. Qed.
(** C14, objects: not antisymmetric; both of two objects are "greater". *)
Theorem C14_objects_refuted :
  let o n := VObject (Obj (Some (bs "o")) 0 (PCons (Some (bs n)) (VInt32 1) PNil) ONull ONull) in
  value_compare (o "a"%string) (o "b"%string) = Ok 1 /\ value_compare (o "b"%string) (o "a"%string) = Ok 1.
Proof. vm_compute. split; reflexivity. Qed.
Print Assumptions C14_objects_refuted.

(** C16: filter evaluation is the reading of the expression, [cmp] being how the
    value compares with the constants of the filter. *)
Theorem C16_filter_meaning : forall v cmp f,
  (forall k, In k (constants f) -> value_compare v k = Ok (cmp k)) ->
  exists b, filter_apply f v = Ok b /\ if (b : bool) then holds cmp f else fails cmp f.
Proof. exact filter_apply_holds. Qed.
Print Assumptions C16_filter_meaning.
Theorem C16_reading_unambiguous : forall cmp f, ~ (holds cmp f /\ fails cmp f).
Proof. exact holds_fails_excl. Qed.
Print Assumptions C16_reading_unambiguous.
(** C16 for integers up to 2^53: relations are the relations on numbers, whatever
    integer types the value and the constants have. *)
Theorem C16_integer_filters : forall f v n, integer_of v = Some n -> Z.abs n <= 2 ^ 53 ->
  int_filter f = true -> filter_apply f v = Ok (int_filter_holds f n).
Proof. exact filter_apply_int. Qed.
Print Assumptions C16_integer_filters.
Example C16_ex :
  let f := FLogic OP_AND (FRel OP_GREATER_THAN (VInt32 5)) (FLogic OP_NOT (FRel OP_EQUAL (VUInt8 7)) FNull) in
  int_filter f = true /\ filter_apply f (VInt64 6) = Ok true /\ filter_apply f (VInt64 7) = Ok false /\
  constants f = [VInt32 5; VUInt8 7].
Proof. vm_compute. repeat split. Qed.
