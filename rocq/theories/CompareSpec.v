(** What comparison and filters mean: numbers are rationals, strings are ordered
    lexicographically, filters denote predicates. *)
From Coq Require Import QArith Qpower.
From Verif Require Import Common Value.
Local Open Scope Z_scope.

Definition integer_of (v : value) : option Z :=
  match v with
  | VBool b => Some (if b then 1 else 0)
  | VChar n | VByte n | VInt8 n | VUInt8 n | VInt16 n | VUInt16 n
  | VInt32 n | VUInt32 n | VInt64 n | VUInt64 n => Some n
  | _ => None
  end.

(** IEEE 754-2008 section 3.4: (-1)^S * 2^(E-bias) * (1 + T * 2^-mb), or
    (-1)^S * 2^(1-bias) * (T * 2^-mb) when E = 0; not a number or infinite when E is
    all ones. *)
Definition ieee_value (eb mb bits : Z) : option Q :=
  let S := bits / 2 ^ (eb + mb) in
  let E := (bits / 2 ^ mb) mod 2 ^ eb in
  let T := bits mod 2 ^ mb in
  let bias := 2 ^ (eb - 1) - 1 in
  let frac := (inject_Z T * 2 ^ (- mb))%Q in
  let sign := if S =? 0 then 1%Q else (-1)%Q in
  if E =? 2 ^ eb - 1 then None
  else if E =? 0 then Some (sign * 2 ^ (1 - bias) * frac)%Q
  else Some (sign * 2 ^ (E - bias) * (1 + frac))%Q.
Definition ieee_nan (eb mb bits : Z) : bool :=
  ((bits / 2 ^ mb) mod 2 ^ eb =? 2 ^ eb - 1) && negb (bits mod 2 ^ mb =? 0).

(** The number a value stands for, if it is finite. *)
Definition real_of (v : value) : option Q :=
  match v with
  | VSingle b => ieee_value 8 23 b
  | VDouble b => ieee_value 11 52 b
  | _ => option_map inject_Z (integer_of v)
  end.
Definition is_number (v : value) : bool :=
  match v with
  | VSingle b => in_u 32 b && negb (ieee_nan 8 23 b)
  | VDouble b => in_u 64 b && negb (ieee_nan 11 52 b)
  | _ => match integer_of v with Some _ => true | None => false end
  end.
Definition exactly_representable (v : value) : bool :=
  match v with
  | VSingle b => in_u 32 b
  | VDouble b => in_u 64 b
  | _ => match integer_of v with Some n => Z.abs n <=? 2 ^ 53 | None => false end
  end.

Definition sgn (c : comparison) : Z := match c with Lt => -1 | Eq => 0 | Gt => 1 end.

(** Lexicographic order on byte strings. *)
Definition lex_lt (s t : list Z) : Prop :=
  (exists c r, t = s ++ c :: r) \/
  (exists p a b s' t', s = p ++ a :: s' /\ t = p ++ b :: t' /\ a < b).

(** [c] reports the position of [s] relative to [t]. *)
Definition reports_lex (c : Z) (s t : list Z) : Prop :=
  (c = 0 /\ s = t) \/ (c < 0 /\ lex_lt s t) \/ (c > 0 /\ lex_lt t s).

(** Nested values for which comparison is meaningful: names present and different
    within one list, every buffer present, no NaN. *)
Fixpoint prop_names (p : property) : list (option (list Z)) :=
  match p with PNil => [] | PCons n _ nx => n :: prop_names nx end.
Fixpoint obj_names (o : object) : list (option (list Z)) :=
  match o with ONull => [] | Obj n _ _ _ nx => n :: obj_names nx end.
Fixpoint well_named (v : value) : Prop :=
  match v with
  | VSingle _ | VDouble _ => is_number v = true
  | VString None | VBytes None => False
  | VProperty p => p <> PNil /\ well_named_props p
  | VObject o => o <> ONull /\ well_named_objs o
  | _ => True
  end
with well_named_props (p : property) : Prop :=
  match p with
  | PNil => True
  | PCons n v nx => n <> None /\ ~ In n (prop_names nx) /\ well_named v /\ well_named_props nx
  end
with well_named_objs (o : object) : Prop :=
  match o with
  | ONull => True
  | Obj n _ ps ch nx => n <> None /\ ~ In n (obj_names nx) /\ well_named_props ps /\
                        well_named_objs ch /\ well_named_objs nx
  end.

(** The predicate on integers a filter expression stands for, when all its
    constants are integers. *)
Definition rel_holds (op n k : Z) : bool :=
  match op with
  | 0 => k <? n | 1 => k <=? n | 2 => n <? k | 3 => n <=? k | 4 => n =? k | 5 => negb (n =? k)
  | _ => false
  end.
Fixpoint int_filter_holds (f : filter) (n : Z) : bool :=
  match f with
  | FNull => false
  | FRel op v => match integer_of v with Some k => rel_holds op n k | None => false end
  | FLogic 0 l r => int_filter_holds l n && int_filter_holds r n
  | FLogic 1 l r => int_filter_holds l n || int_filter_holds r n
  | FLogic 2 l _ => negb (int_filter_holds l n)
  | FLogic _ _ _ => false
  end.
Fixpoint int_filter (f : filter) : bool :=
  match f with
  | FNull => true
  | FRel _ v => match integer_of v with Some k => Z.abs k <=? 2 ^ 53 | None => false end
  | FLogic op l r => int_filter l && ((op =? OP_NOT) || int_filter r)
  end.

(** The general reading: [cmp] says how the value compares with a constant. *)
Definition rel_reading (op : Z) (c : Z) : Prop :=
  (op = 0 /\ c > 0) \/ (op = 1 /\ c >= 0) \/ (op = 2 /\ c < 0) \/ (op = 3 /\ c <= 0) \/
  (op = 4 /\ c = 0) \/ (op = 5 /\ c <> 0).
Inductive holds (cmp : value -> Z) : filter -> Prop :=
| h_rel : forall op k, rel_reading op (cmp k) -> holds cmp (FRel op k)
| h_and : forall l r, holds cmp l -> holds cmp r -> holds cmp (FLogic 0 l r)
| h_or_l : forall l r, holds cmp l -> holds cmp (FLogic 1 l r)
| h_or_r : forall l r, holds cmp r -> holds cmp (FLogic 1 l r)
| h_not : forall l r, fails cmp l -> holds cmp (FLogic 2 l r)
with fails (cmp : value -> Z) : filter -> Prop :=
| f_null : fails cmp FNull
| f_rel : forall op k, ~ rel_reading op (cmp k) -> fails cmp (FRel op k)
| f_and_l : forall l r, fails cmp l -> fails cmp (FLogic 0 l r)
| f_and_r : forall l r, fails cmp r -> fails cmp (FLogic 0 l r)
| f_or : forall l r, fails cmp l -> fails cmp r -> fails cmp (FLogic 1 l r)
| f_not : forall l r, holds cmp l -> fails cmp (FLogic 2 l r)
| f_other : forall op l r, op <> 0 -> op <> 1 -> op <> 2 -> fails cmp (FLogic op l r).

(** The constants of a filter that are compared with the value. *)
Fixpoint constants (f : filter) : list value :=
  match f with
  | FNull => []
  | FRel _ v => [v]
  | FLogic op l r => constants l ++ (if op =? OP_NOT then [] else constants r)
  end.
