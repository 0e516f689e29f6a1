(** Specification of method calls (C81): what goes in and what comes back. *)
From Coq Require Import String.
From Verif Require Import Common TextModel Errors ElemModel ElemSpec Value WireSpec MethodModel.
Local Open Scope string_scope.
Local Open Scope list_scope.
Local Open Scope Z_scope.

(** the first property of this name *)
Fixpoint value_in (p : property) (nm : list Z) : option value :=
  match p with
  | PNil => None
  | PCons n v next => if bytes_eqb (the_name n) nm then Some v else value_in next nm
  end.
Definition value_of (o : Value.object) (nm : list Z) : option value := match o with ONull => None | Obj _ _ p _ _ => value_in p nm end.
(** everything but the properties *)
Definition frame_of (o : Value.object) : list Z * Z * Value.object :=
  match o with ONull => ([], 0, ONull) | Obj n t _ c _ => (the_name n, t, c) end.
(** the in parameters the handler sees; none are seen as an empty object *)
Definition arrives (inp : Value.object) : Value.object := match inp with ONull => Obj None 0 PNil ONull ONull | _ => seen_object false inp end.
Fixpoint named (p : property) : bool := match p with PNil => true | PCons (Some _) _ next => named next | PCons None _ _ => false end.
(** out parameters a handler may leave *)
Definition proper (o : Value.object) : Prop :=
  match o with
  | ONull => False
  | Obj _ _ p _ _ => named p = true /\ sendable_object o = true /\ pcount p + 2 < 2147483648
  end.
(** what the caller finds in its out parameters about an error [e] *)
Definition tells (e : Z) (text : list Z) (o : Value.object) : Prop :=
  value_of o (bs "error_code") = Some (VInt32 e) /\ value_of o (bs "error_string") = Some (VString (Some text)).
(** the texts of the codes, in their order *)
Definition texts : list (list Z) := map bs
  ["ok"; "generic error"; "invalid input"; "not initialized"; "out of resources"; "destination not found"; "destination not reachable";
   "destination response failure"; "invalid response from destination"; "invalid operation"; "invalid event"; "invalid handle";
   "session already exists"; "duplicate component name"; "duplicate element name"; "name missing"; "component does not exist";
   "element name does not exist"; "access denied"; "invalid context"; "timeout"; "async operation in progress"].
Definition text_of (e : Z) : list Z := if e <? 0 then bs "unknown error" else nth (Z.to_nat e) texts (bs "unknown error").
(** the out parameters [o] of a call whose handler returned [rc] and left [out] *)
Definition carries (rc : Z) (out o : Value.object) : Prop :=
  (rc = E_SUCCESS \/ value_of out (bs "error_code") <> None -> o = seen_object false out) /\
  (rc <> E_SUCCESS -> value_of out (bs "error_code") = None ->
     frame_of o = frame_of (seen_object false out) /\ tells rc (text_of rc) o /\
     forall nm, nm <> bs "error_code" -> nm <> bs "error_string" -> value_of o nm = option_map seen_value (value_of out nm)).
