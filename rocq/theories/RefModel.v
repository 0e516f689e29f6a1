(** Reference-counted values, properties and objects in memory:
    src/rtmessage/rtRetainable.c, src/rbus/rbus_property.c, src/rbus/rbus_object.c. *)
From Verif Require Import Common.
Local Open Scope Z_scope.

(** What a heap cell holds.
    rbus_value.c:43-67 struct _rbusValue: [data] stands for the scalar, string or
      byte contents, [ref] for the property or object a value of those types holds;
    rbus_property.c:29-35 struct _rbusProperty;
    rbus_object.c:29-42 struct _rbusObject (simplification: the type and the parent
      pointer, which is not counted as a reference, are left out). *)
Inductive cell : Type :=
| CVal (data : Z) (ref : option nat)
| CProp (name : option (list Z)) (val next : option nat)
| CObj (name : option (list Z)) (props children next : option nat).

(** rtRetainable.h:30-33: every cell starts with a reference count. *)
Record node := mkNode { rc : Z; body : cell }.

(** The heap: address -> node; [None] is freed memory.  Addresses are not reused
    (simplification: an access to freed memory is then always visible as [UB]). malloc and free *)
Definition heap := list (option node).

(** helper, no code of its own *)
Definition get (h : heap) (p : nat) : option node :=
  match nth_error h p with Some (Some n) => Some n | _ => None end.
(** reading through a pointer *)
Definition load (h : heap) (p : nat) : outcome unit cell :=
  match get h p with Some n => Ok (body n) | None => UB end.
(** assignment to a field of the struct at [p] (the count is untouched); no code of its own *)
Definition store (h : heap) (p : nat) (c : cell) : outcome unit heap :=
  match get h p with Some n => Ok (upd h p (Some (mkNode (rc n) c))) | None => UB end.

(** helper, no code of its own *)
Definition olist (o : option nat) : list nat := match o with Some p => [p] | None => [] end.
(** The references a cell owns, in the order in which its destructor releases them:
    rbus_value.c rbusValue_FreeInternal, rbus_property.c:50-68 rbusProperty_Destroy
    (value, then next), rbus_object.c:66-85 rbusObject_Destroy (properties, children, next). *)
Definition outs (c : cell) : list nat :=
  match c with
  | CVal _ r => olist r
  | CProp _ v n => olist v ++ olist n
  | CObj _ p c n => olist p ++ olist c ++ olist n
  end.

(** rtRetainable.c:23-26 rtRetainable_retainInternal *)
Definition retain (h : heap) (p : nat) : outcome unit heap :=
  match get h p with
  | Some n => Ok (upd h p (Some (mkNode (rc n + 1) (body n))))
  | None => UB
  end.

(** rtRetainable.c:28-36 rtRetainable_releaseInternal together with the destructors:
    decrement, and when the count is zero release everything the cell owns.  The
    recursion of the destructors is an explicit work list, depth first.
    Simplification: the cell is freed before, not after, the references it owns are
    released; any later access to it is then [UB], so this only makes the model
    stricter.  Single threaded (the interleavings are in RetainModel). *)
Fixpoint release_all (fuel : nat) (h : heap) (work : list nat) : outcome unit heap :=
  match work with
  | [] => Ok h
  | p :: rest =>
    match fuel with
    | O => UB
    | S fuel =>
      match get h p with
      | None => UB
      | Some n =>
        if rc n - 1 =? 0
        then release_all fuel (upd h p None) (outs (body n) ++ rest)
        else release_all fuel (upd h p (Some (mkNode (rc n - 1) (body n)))) rest
      end
    end
  end.
(** the number of references stored in the heap: enough steps for any release; helper, no code of its own *)
Definition stored (h : heap) : nat :=
  fold_right (fun o k => match o with Some n => length (outs (body n)) + k | None => k end)%nat 0%nat h.
(** rtRetainable.c:28-36, continued *)
Definition release (h : heap) (p : nat) : outcome unit heap :=
  release_all (S (stored h)) h [p].

(** `if(x) release(x)` / `if(x) retain(x)`; rtRetainable.h:35-36 *)
Definition release_opt (h : heap) (o : option nat) : outcome unit heap :=
  match o with Some p => release h p | None => Ok h end.
(** rtRetainable.h:35 *)
Definition retain_opt (h : heap) (o : option nat) : outcome unit heap :=
  match o with Some p => retain h p | None => Ok h end.

(** a fresh cell, rt_calloc + refCount = 1 *)
Definition alloc (h : heap) (c : cell) : heap * nat := (h ++ [Some (mkNode 1 c)], length h).

(** rbus_value.c rbusValue_Init and rbusValue_SetXxx of a fresh value; rbus_value.c:119-131 *)
Definition value_init (h : heap) (d : Z) : heap * nat := alloc h (CVal d None).

(** rbus_property.c:170-178 rbusProperty_SetValue: the old value is released first *)
Definition property_set_value (h : heap) (p : nat) (v : option nat) : outcome unit heap :=
  do c <- load h p;
  match c with
  | CProp nm old nx =>
    do h <- release_opt h old;
    do h <- store h p (CProp nm v nx);
    retain_opt h v
  | _ => UB
  end.

(** rbus_property.c:37-48 rbusProperty_Init *)
Definition property_init (h : heap) (nm : option (list Z)) (v : option nat) : outcome unit (heap * nat) :=
  let (h, p) := alloc h (CProp nm None None) in
  do h <- (match v with Some _ => property_set_value h p v | None => Ok h end);
  Ok (h, p).

(** rbus_property.c:185-193 rbusProperty_SetNext: the old next is released first *)
Definition property_set_next (h : heap) (p : nat) (nx : option nat) : outcome unit heap :=
  do c <- load h p;
  match c with
  | CProp nm v old =>
    do h <- release_opt h old;
    do h <- store h p (CProp nm v nx);
    retain_opt h nx
  | _ => UB
  end.

(** rbus_property.c:195-202 rbusProperty_Append: `while(last->next) last = last->next;`.
    A cyclic list makes the loop endless; that is [UB] here. *)
Fixpoint property_last (fuel : nat) (h : heap) (p : nat) : outcome unit nat :=
  match fuel with
  | O => UB
  | S fuel =>
    do c <- load h p;
    match c with
    | CProp _ _ None => Ok p
    | CProp _ _ (Some q) => property_last fuel h q
    | _ => UB
    end
  end.
(** rbus_property.c:195-202, continued *)
Definition property_append (h : heap) (p : nat) (back : option nat) : outcome unit heap :=
  do last <- property_last (S (length h)) h p;
  property_set_next h last back.

(** rbus_object.c:44-55 rbusObject_Init *)
Definition object_init (h : heap) (nm : option (list Z)) : heap * nat := alloc h (CObj nm None None None).

(** rbus_object.c:263-271 rbusObject_SetProperties: the old list is released first *)
Definition object_set_properties (h : heap) (o : nat) (p : option nat) : outcome unit heap :=
  do c <- load h o;
  match c with
  | CObj nm old ch nx =>
    do h <- release_opt h old;
    do h <- store h o (CObj nm p ch nx);
    retain_opt h p
  | _ => UB
  end.

(** strcmp(a, b) == 0; a NULL name is dereferenced *)
Definition names_equal (a b : option (list Z)) : outcome unit bool :=
  match a, b with Some x, Some y => Ok (bytes_eqb x y) | _, _ => UB end.

(** rbus_object.c:273-281 rbusObject_GetProperty: the loop from [prop] *)
Fixpoint find_property (fuel : nat) (h : heap) (prop : option nat) (name : option (list Z)) : outcome unit (option nat) :=
  match prop with
  | None => Ok None
  | Some p =>
    match fuel with
    | O => UB
    | S fuel =>
      do c <- load h p;
      match c with
      | CProp nm _ nx =>
        do e <- names_equal nm name;
        if e then Ok (Some p) else find_property fuel h nx name
      | _ => UB
      end
    end
  end.
(** rbus_object.c:273-281, continued *)
Definition object_properties (h : heap) (o : nat) : outcome unit (option nat) :=
  do c <- load h o;
  match c with CObj _ p _ _ => Ok p | _ => UB end.
(** rbus_object.c:273-281, continued *)
Definition object_get_property (h : heap) (o : nat) (name : option (list Z)) : outcome unit (option nat) :=
  do ps <- object_properties h o;
  find_property (S (length h)) h ps name.

(** rbus_property.c:165 rbusProperty_GetValue *)
Definition property_value (h : heap) (p : nat) : outcome unit (option nat) :=
  do c <- load h p;
  match c with CProp _ v _ => Ok v | _ => UB end.
(** rbus_property.c:149 rbusProperty_GetName *)
Definition property_name (h : heap) (p : nat) : outcome unit (option (list Z)) :=
  do c <- load h p;
  match c with CProp nm _ _ => Ok nm | _ => UB end.
(** rbus_property.c:180 rbusProperty_GetNext *)
Definition property_next (h : heap) (p : nat) : outcome unit (option nat) :=
  do c <- load h p;
  match c with CProp _ _ nx => Ok nx | _ => UB end.

(** rbus_object.c:342-355 rbusObject_GetPropertyValue (name == NULL: the first property) *)
Definition object_get_value (h : heap) (o : nat) (name : option (list Z)) : outcome unit (option nat) :=
  do p <- (match name with Some _ => object_get_property h o name | None => object_properties h o end);
  match p with Some p => property_value h p | None => Ok None end.

(** rbus_object.c:293-306: the search of rbusObject_SetProperty, giving (lastProp, oldProp) *)
Fixpoint find_slot (fuel : nat) (h : heap) (last : option nat) (old : option nat) (newp : nat)
  : outcome unit (option nat * option nat) :=
  match old with
  | None => Ok (last, None)
  | Some q =>
    match fuel with
    | O => UB
    | S fuel =>
      do nq <- property_name h q;
      do np <- property_name h newp;
      do e <- names_equal nq np;
      if e then Ok (last, Some q)
      else do nx <- property_next h q; find_slot fuel h (Some q) nx newp
    end
  end.

(** rbus_object.c:283-335 rbusObject_SetProperty *)
Definition object_set_property (h : heap) (o newp : nat) : outcome unit heap :=
  do ps <- object_properties h o;
  match ps with
  | None => object_set_properties h o (Some newp)
  | Some first =>
    do (last, old) <- find_slot (S (length h)) h None (Some first) newp;
    match old with
    | Some q =>
      do nx <- property_next h q;
      do h <- (match nx with Some n => property_append h newp (Some n) | None => Ok h end);
      match last with
      | Some l => property_set_next h l (Some newp)
      | None => object_set_properties h o (Some newp)
      end
    | None =>
      match last with
      | Some l => property_set_next h l (Some newp)
      | None => UB
      end
    end
  end.

(** rbus_object.c:357-385 rbusObject_SetPropertyValue / rbusObject_SetValue *)
Definition object_set_value (h : heap) (o : nat) (name : option (list Z)) (v : option nat) : outcome unit heap :=
  match name, v with
  | Some _, Some _ =>
    do p <- object_get_property h o name;
    match p with
    | Some p => property_set_value h p v
    | None =>
      do (h, p) <- property_init h name v;
      do ps <- object_properties h o;
      do h <- (match ps with
               | None => object_set_properties h o (Some p)
               | Some first => property_append h first (Some p)
               end);
      release h p
    end
  | _, _ => Ok h
  end.

(** rbus_object.c:413-421 rbusObject_SetChildren, 430-438 rbusObject_SetNext *)
Definition object_set_children (h : heap) (o : nat) (c' : option nat) : outcome unit heap :=
  do c <- load h o;
  match c with
  | CObj nm ps old nx =>
    do h <- release_opt h old;
    do h <- store h o (CObj nm ps c' nx);
    retain_opt h c'
  | _ => UB
  end.
(** rbus_object.c:413-421, continued *)
Definition object_set_next (h : heap) (o : nat) (n' : option nat) : outcome unit heap :=
  do c <- load h o;
  match c with
  | CObj nm ps ch old =>
    do h <- release_opt h old;
    do h <- store h o (CObj nm ps ch n');
    retain_opt h n'
  | _ => UB
  end.
