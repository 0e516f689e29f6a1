(** Model of rbusValue_Compare (src/rbus/rbus_value.c:872-1010),
    rbusProperty_Compare (src/rbus/rbus_property.c:133-147), rbusObject_Compare
    (src/rbus/rbus_object.c:113-238) and rbusFilter_Apply
    (src/rbus/rbus_filter.c:116-176).  The two operands are different objects in
    memory (the pointer equality shortcut only fires for two NULLs); results of
    strcmp and memcmp are represented by their sign. *)
From Verif Require Import Common Value.
Local Open Scope Z_scope.

(** IEEE 754 numbers: [Fin m e] is m * 2^e. *)
Inductive fl := NaN | Inf (neg : bool) | Fin (m e : Z).

(** (double)n for an integer n with |n| < 2^64: round to 53 bits, ties to even. *)
Definition round_nonneg (n : Z) : Z :=
  if n <? 2 ^ 53 then n
  else
    let s := Z.log2 n + 1 - 53 in
    let q := n / 2 ^ s in
    let r := n mod 2 ^ s in
    let half := 2 ^ (s - 1) in
    let up := (half <? r) || ((r =? half) && Z.odd q) in
    (if up then q + 1 else q) * 2 ^ s.
(** rbus_value.c:872-903, the conversions (double)n *)
Definition double_of_int (n : Z) : fl :=
  Fin (if n <? 0 then - round_nonneg (- n) else round_nonneg n) 0.

(** The number denoted by a bit pattern with [eb] exponent and [mb] mantissa bits.
    A float is converted to double exactly, so both are compared by value. IEEE 754, for rbus_value.c:894-900 *)
Definition float_of_bits (eb mb : Z) (bits : Z) : fl :=
  let neg := 2 ^ (eb + mb) <=? bits in
  let e := bits / 2 ^ mb mod 2 ^ eb in
  let m := bits mod 2 ^ mb in
  let bias := 2 ^ (eb - 1) - 1 in
  let sg x := if neg then - x else x in
  if e =? 2 ^ eb - 1 then (if m =? 0 then Inf neg else NaN)
  else if e =? 0 then Fin (sg m) (1 - bias - mb)
  else Fin (sg (m + 2 ^ mb)) (e - bias - mb).

(** rbus_value.c:872-903 rbusValue_CoerceNumericToDouble *)
Definition coerce (v : value) : fl :=
  match v with
  | VBool b => double_of_int (if b then 1 else 0)
  | VChar n | VByte n | VInt8 n | VUInt8 n | VInt16 n | VUInt16 n
  | VInt32 n | VUInt32 n | VInt64 n | VUInt64 n => double_of_int n
  | VSingle b => float_of_bits 8 23 b
  | VDouble b => float_of_bits 11 52 b
  | _ => NaN
  end.

(** The C operators == and < on doubles. as used in rbus_value.c:905-1010 *)
Definition fin_compare (m1 e1 m2 e2 : Z) : comparison :=
  if e1 <=? e2 then m1 ?= m2 * 2 ^ (e2 - e1) else m1 * 2 ^ (e1 - e2) ?= m2.
(** the C comparison of doubles, with NaN unordered, as used in rbus_value.c:905-1010 *)
Definition fl_compare (a b : fl) : option comparison :=
  match a, b with
  | NaN, _ | _, NaN => None
  | Inf n1, Inf n2 => Some (if Bool.eqb n1 n2 then Eq else if n1 then Lt else Gt)
  | Inf n, Fin _ _ => Some (if n then Lt else Gt)
  | Fin _ _, Inf n => Some (if n then Gt else Lt)
  | Fin m1 e1, Fin m2 e2 => Some (fin_compare m1 e1 m2 e2)
  end.

(** strcmp; libc, as used in rbus_value.c:905-1010 and rbus_object.c:113-238 *)
Fixpoint c_strcmp (a b : list Z) : Z :=
  match a, b with
  | [], [] => 0
  | [], _ :: _ => -1
  | _ :: _, [] => 1
  | x :: a', y :: b' => if x <? y then -1 else if y <? x then 1 else c_strcmp a' b'
  end.
(** memcmp of [n] bytes, [None] if it reads past the end of either array; libc, as used in rbus_value.c:905-1010 *)
Fixpoint c_memcmp (n : nat) (a b : list Z) : option Z :=
  match n with
  | O => Some 0
  | S n => match a, b with
           | x :: a', y :: b' =>
               match c_memcmp n a' b' with
               | None => None
               | Some r => Some (if x <? y then -1 else if y <? x then 1 else r)
               end
           | _, _ => None
           end
  end.
(** strcmp of pointers: NULL is UB; rbus_value.c:905-1010 *)
Definition strcmp_opt (a b : option (list Z)) : outcome unit Z :=
  match a, b with Some a, Some b => Ok (c_strcmp a b) | _, _ => UB end.

(** the types rbusValue_CoerceNumericToDouble accepts, rbus_value.c:872-903 *)
Definition is_numeric (v : value) : bool := match v with VNull => false | _ => vtype v <=? RBUS_DOUBLE end.

(** Linear searches used by rbusObject_Compare: strcmp with a NULL name is UB. rbus_object.c:129-187 *)
Fixpoint find_prop (name : list Z) (ps : property) : outcome unit (option value) :=
  match ps with
  | PNil => Ok None
  | PCons None _ _ => UB
  | PCons (Some n) v nx => if c_strcmp name n =? 0 then Ok (Some v) else find_prop name nx
  end.
(** rbus_object.c:188-237 *)
Fixpoint find_obj (name : list Z) (os : object) : outcome unit (option object) :=
  match os with
  | ONull => Ok None
  | Obj None _ _ _ _ => UB
  | Obj (Some n) _ _ _ nx => if c_strcmp name n =? 0 then Ok (Some os) else find_obj name nx
  end.
(** rbus_object.c:165-187: a property of [ps2] that is not in [ps1] *)
Fixpoint extra_prop (ps2 ps1 : property) : outcome unit bool :=
  match ps2 with
  | PNil => Ok false
  | PCons None _ _ => match ps1 with PNil => Ok true | _ => UB end
  | PCons (Some n) _ nx => do f <- find_prop n ps1; match f with None => Ok true | Some _ => extra_prop nx ps1 end
  end.
(** rbus_object.c:165-187, continued *)
Fixpoint extra_obj (os2 os1 : object) : outcome unit bool :=
  match os2 with
  | ONull => Ok false
  | Obj None _ _ _ _ => match os1 with ONull => Ok true | _ => UB end
  | Obj (Some n) _ _ _ nx => do f <- find_obj n os1; match f with None => Ok true | Some _ => extra_obj nx os1 end
  end.

(** rbus_object.c:129-237, given the results of the two loops over object1's own
    properties and children *)
Definition object_result (n1 n2 : option (list Z)) (ps1 ps2 : property) (ch1 ch2 : object)
  (loop_props loop_children : outcome unit Z) : outcome unit Z :=
  do rc <- strcmp_opt n1 n2;
  if negb (rc =? 0) then Ok rc else
  do rc <- loop_props;
  if negb (rc =? 0) then Ok rc else
  do ex <- extra_prop ps2 ps1;
  if (ex : bool) then Ok (-1) else
  do rc <- loop_children;
  if negb (rc =? 0) then Ok rc else
  do ex <- extra_obj ch2 ch1;
  if (ex : bool) then Ok (-1) else Ok 0.

(** rbus_value.c:905-1010 *)
Fixpoint value_compare (v1 v2 : value) {struct v1} : outcome unit Z :=
  match v1, v2 with
  | VNull, VNull => Ok 0
  | VNull, _ | _, VNull => Ok (-1)
  | _, _ =>
    if is_numeric v1 && is_numeric v2 then
      match fl_compare (coerce v1) (coerce v2) with
      | Some Eq => Ok 0
      | Some Lt => Ok (-1)
      | _ => Ok 1
      end
    else if negb (vtype v1 =? vtype v2) then (if vtype v1 <? vtype v2 then Ok (-1) else Ok 1)
    else match v1, v2 with
    | VString a, VString b => strcmp_opt a b
    | VBytes (Some a), VBytes (Some b) =>
        match c_memcmp (length a) a b with
        | None => UB
        | Some c => Ok (if (c =? 0) && (length a <? length b)%nat then -1
                        else if (c =? 0) && (length b <? length a)%nat then 1 else c)
        end
    | VBytes _, VBytes _ => UB
    (* 949-953: if the two differ, 0 is returned; if they are the same, the
       computed difference is 0 *)
    | VDateTime _, VDateTime _ => Ok 0
    | VProperty p1, VProperty p2 =>
        match p1, p2 with
        | PCons n1 w1 _, PCons n2 w2 _ =>
            do rc <- strcmp_opt n1 n2;
            if negb (rc =? 0) then Ok rc else value_compare w1 w2
        | PCons _ _ _, PNil => Ok 1
        | PNil, _ => Ok (-1)
        end
    | VObject o1, VObject o2 =>
        match o1, o2 with
        | Obj n1 _ ps1 ch1 _, Obj n2 _ ps2 ch2 _ =>
            object_result n1 n2 ps1 ps2 ch1 ch2 (props_vs ps1 ps2) (children_vs ch1 ch2)
        | Obj _ _ _ _ _, ONull => Ok 1
        | ONull, _ => Ok (-1)
        end
    | _, _ => Ok 0
    end
  end
(** rbus_object.c:135-163: each property of the first list against the second *)
with props_vs (ps1 ps2 : property) {struct ps1} : outcome unit Z :=
  match ps1 with
  | PNil => Ok 0
  | PCons None _ _ => match ps2 with PNil => Ok 1 | _ => UB end
  | PCons (Some n) v nx =>
      do f <- find_prop n ps2;
      match f with
      | None => Ok 1
      | Some v2 => do rc <- value_compare v v2; if negb (rc =? 0) then Ok rc else props_vs nx ps2
      end
  end
(** rbus_object.c:189-237: each child of the first list against the second *)
with children_vs (os1 os2 : object) {struct os1} : outcome unit Z :=
  match os1 with
  | ONull => Ok 0
  | Obj None _ _ _ _ => match os2 with ONull => Ok 1 | _ => UB end
  | Obj (Some n) t ps ch nx =>
      do f <- find_obj n os2;
      match f with
      | None => Ok 1
      | Some ONull => UB
      | Some (Obj n2 _ ps2 ch2 _) =>
          do rc <- object_result (Some n) n2 ps ps2 ch ch2 (props_vs ps ps2) (children_vs ch ch2);
          if negb (rc =? 0) then Ok rc else children_vs nx os2
      end
  end.

(** rbus_filter.c:116-139 rbusFilter_RelationApply *)
Definition relation_apply (op : Z) (fv v : value) : outcome unit bool :=
  do c <- value_compare v fv;
  if op =? OP_GREATER_THAN then Ok (0 <? c)
  else if op =? OP_GREATER_THAN_OR_EQUAL then Ok (0 <=? c)
  else if op =? OP_LESS_THAN then Ok (c <? 0)
  else if op =? OP_LESS_THAN_OR_EQUAL then Ok (c <=? 0)
  else if op =? OP_EQUAL then Ok (c =? 0)
  else if op =? OP_NOT_EQUAL then Ok (negb (c =? 0))
  else Ok false.

(** rbus_filter.c:141-176 rbusFilter_LogicApply, rbusFilter_Apply *)
Fixpoint filter_apply (f : filter) (v : value) : outcome unit bool :=
  match f with
  | FNull => Ok false
  | FRel op fv => relation_apply op fv v
  | FLogic op l r =>
      do lft <- filter_apply l v;
      do rgt <- (if negb (op =? OP_NOT) then filter_apply r v else Ok false);
      if op =? OP_AND then Ok (lft && rgt)
      else if op =? OP_OR then Ok (lft || rgt)
      else if op =? OP_NOT then Ok (negb lft)
      else Ok false
  end.
