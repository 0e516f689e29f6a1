(** What the receiver of a value, object or filter must see, and which ones can be sent. *)
From Verif Require Import Common Value.
Local Open Scope Z_scope.

Definition the_name (s : option (list Z)) : list Z := match s with Some s => s | None => [] end.
(** A NULL name arrives as the empty name, a NULL value as a value of type NONE, an
    object arrives without its siblings and any object type other than
    multi-instance arrives as single-instance. *)
Fixpoint seen_value (v : value) : value :=
  match v with
  | VNull => VNone
  | VProperty p => VProperty (seen_props p)
  | VObject o => VObject (seen_object false o)
  | _ => v
  end
with seen_props (p : property) : property :=
  match p with
  | PNil => PNil
  | PCons name v next => PCons (Some (the_name name)) (seen_value v) (seen_props next)
  end
with seen_object (siblings : bool) (o : object) : object :=
  match o with
  | ONull => ONull
  | Obj name t props children next =>
      Obj (Some (the_name name)) (if t =? 1 then 1 else 0) (seen_props props) (seen_object true children)
          (if siblings then seen_object true next else ONull)
  end.
(** The second operand of NOT is not part of the expression. *)
Fixpoint seen_filter (f : filter) : filter :=
  match f with
  | FNull => FNull
  | FRel op v => FRel op (seen_value v)
  | FLogic op l r => FLogic op (seen_filter l) (if op =? 2 then FNull else seen_filter r)
  end.

(** Length limits: texts and byte arrays below 2^31 bytes, lists below 2^31 entries. *)
Definition short {A} (l : list A) : bool := Z.of_nat (length l) <? 2147483646.
Definition name_ok (s : option (list Z)) : bool := match s with Some s => is_cstr s && short s | None => true end.
Fixpoint pcount (p : property) : Z := match p with PNil => 0 | PCons _ _ n => 1 + pcount n end.
Fixpoint ocount (o : object) : Z := match o with ONull => 0 | Obj _ _ _ _ n => 1 + ocount n end.
(** A float bit pattern that is a signalling NaN. *)
Definition signalling (b : Z) : bool :=
  (b / 2 ^ 23 mod 2 ^ 8 =? 255) && (1 <=? b mod 2 ^ 23) && (b mod 2 ^ 23 <? 2 ^ 22).

(** Sendable: contents in the range of their C types, no string or bytes value
    without contents, no object value without an object, no signalling NaN. *)
Fixpoint sendable_value (v : value) : bool :=
  match v with
  | VNull | VNone => true
  | VProperty p => sendable_props p && (pcount p <? 2147483648)
  | VObject ONull => false
  | VObject o => sendable_object o
  | VString None | VBytes None => false
  | VString (Some s) | VBytes (Some s) => scalar_wf v && short s
  | VSingle b => scalar_wf v && negb (signalling b)
  | _ => scalar_wf v
  end
with sendable_props (p : property) : bool :=
  match p with
  | PNil => true
  | PCons name v next => name_ok name && sendable_value v && sendable_props next
  end
with sendable_object (o : object) : bool :=
  match o with
  | ONull => true
  | Obj name t props children next =>
      name_ok name && in_s 32 t && sendable_props props && (pcount props <? 2147483648) &&
      sendable_object children && (ocount children <? 2147483648) && sendable_object next
  end.
Fixpoint sendable_filter (f : filter) : bool :=
  match f with
  | FNull => true
  | FRel op v => in_s 32 op && sendable_value v
  | FLogic op l r => in_s 32 op && sendable_filter l && sendable_filter r
  end.

(** Complete: every name and value is present and objects have one of the two types. *)
Definition present {A} (s : option A) : bool := match s with Some _ => true | None => false end.
Fixpoint complete_value (v : value) : bool :=
  match v with
  | VNull => false
  | VProperty p => complete_props p
  | VObject o => complete_object o && match o with Obj _ _ _ _ (Obj _ _ _ _ _) => false | _ => true end
  | _ => true
  end
with complete_props (p : property) : bool :=
  match p with PNil => true | PCons name v next => present name && complete_value v && complete_props next end
with complete_object (o : object) : bool :=
  match o with
  | ONull => true
  | Obj name t props children next =>
      present name && ((t =? 0) || (t =? 1)) && complete_props props && complete_object children && complete_object next
  end.
Fixpoint complete_filter (f : filter) : bool :=
  match f with
  | FNull => true
  | FRel _ v => complete_value v
  | FLogic op l r => complete_filter l && complete_filter r && (negb (op =? 2) || match r with FNull => true | _ => false end)
  end.
