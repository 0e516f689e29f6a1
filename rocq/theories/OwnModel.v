(** Values, properties, objects and filters in memory: who points to whom,
    how often each is referenced, and when it is given back to malloc. *)
From Verif Require Import Common.
Local Open Scope Z_scope.

(** An address.  Simplification: malloc never hands out an address twice, so
    a dangling pointer stays recognisable for ever. *)
Notation ptr := nat.

(** The union of rbus_value.c 30-60 (struct _rbusValue: type and d): nothing
    (RBUS_NONE), a number of some type, a string or byte buffer or its NULL,
    a property, an object.  Simplification: the numeric types, dates
    included, are one constructor holding the type code and the payload; the
    buffer is its contents (its own allocation belongs to this value alone). *)
Inductive datum :=
| Nothing
| Number (t bits : Z)
| Buffer (t : Z) (b : option (list Z))
| PropertyRef (q : option ptr)
| ObjectRef (q : option ptr).

(** The four kinds of cells: rbus_value.c struct _rbusValue, rbus_property.c
    29-35 struct _rbusProperty, rbus_object.c 30-43 struct _rbusObject,
    rbus_filter.c 31-54 struct _rbusFilter (relation and logic). *)
Inductive body :=
| Value (d : datum)
| Property (nm : option (list Z)) (v nx : option ptr)
| Object (nm : option (list Z)) (multi : bool) (pr ch nx parent : option ptr)
| Relation (op : Z) (v : option ptr)
| Logic (op : Z) (l r : option ptr).

(** rtRetainable.h 30-33: the counter that heads every cell.
    Simplification: it does not wrap around. *)
Record cell := mkCell { rc : Z; bd : body }.

(** The memory; [None] is a cell that was freed.  No code of its own. *)
Definition heap := list (option cell).

(** The pointer of a datum, if it holds one: rbus_value.c 106-113. *)
Definition ref_of (d : datum) : option ptr :=
  match d with PropertyRef q | ObjectRef q => q | _ => None end.

(** An optional pointer as a list.  No code of its own. *)
Definition opt (o : option ptr) : list ptr := match o with Some q => [q] | None => [] end.

(** What a destructor releases, in its order: rbusValue_FreeInternal
    (rbus_value.c 100-116), rbusProperty_Destroy (rbus_property.c 50-69),
    rbusObject_Destroy (rbus_object.c 68-88: properties, children, next; the
    parent is not counted), rbusFilter_Destroy (rbus_filter.c 84-102). *)
Definition slots (b : body) : list ptr :=
  match b with
  | Value d => opt (ref_of d)
  | Property _ v nx => opt v ++ opt nx
  | Object _ _ pr ch nx _ => opt pr ++ opt ch ++ opt nx
  | Relation _ v => opt v
  | Logic _ l r => opt l ++ opt r
  end.

(** A memory access through a pointer; touching a freed cell is undefined
    behaviour.  No code of its own. *)
Definition get (h : heap) (p : ptr) : outcome unit cell :=
  match nth_error h p with Some (Some c) => Ok c | _ => UB end.

(** Writing a cell.  No code of its own. *)
Definition put (h : heap) (p : ptr) (c : cell) : heap := upd h p (Some c).

(** free(): the cell is gone.  No code of its own. *)
Definition free (h : heap) (p : ptr) : heap := upd h p None.

(** malloc() and refCount = 1: rbus_value.c 118-126, rbus_property.c 39-40,
    rbus_object.c 48-50, rbus_filter.c 58-63. *)
Definition alloc (h : heap) (b : body) : heap * ptr := (h ++ [Some (mkCell 1 b)], length h).

(** rtRetainable.c 22-25 rtRetainable_retainInternal. *)
Definition retain (h : heap) (p : ptr) : outcome unit heap :=
  do c <- get h p; Ok (put h p (mkCell (rc c + 1) (bd c))).

(** `if(x) retain(x)` as every setter does.  No code of its own. *)
Definition retain_opt (h : heap) (o : option ptr) : outcome unit heap :=
  match o with Some p => retain h p | None => Ok h end.

(** rtRetainable.c 27-35 rtRetainable_releaseInternal with the destructors:
    decrement; at zero release what the cell points to and free it.  The
    depth of the recursion is bounded by [n], the callers give enough (the
    C stack is not modelled). *)
Fixpoint release (n : nat) (h : heap) (p : ptr) : outcome unit heap :=
  match n with
  | O => UB
  | S n' =>
      do c <- get h p;
      let h1 := put h p (mkCell (rc c - 1) (bd c)) in
      if rc c - 1 =? 0
      then do h2 <- (fix all (l : list ptr) (h : heap) : outcome unit heap :=
                       match l with
                       | [] => Ok h
                       | q :: l' => do h' <- release n' h q; all l' h'
                       end) (slots (bd c)) h1;
           Ok (free h2 p)
      else Ok h1
  end.

(** Enough depth for any release.  No code of its own. *)
Definition deep (h : heap) : nat := S (length h).

(** `if(x) release(x)`: rbus_value.c 170-174, rbus_property.c 78-82. *)
Definition release_opt (h : heap) (o : option ptr) : outcome unit heap :=
  match o with Some p => release (deep h) h p | None => Ok h end.

(** Storing into a field of a cell, which must still be there.  No code of
    its own. *)
Definition write (h : heap) (p : ptr) (f : body -> body) : outcome unit heap :=
  do c <- get h p; Ok (put h p (mkCell (rc c) (f (bd c)))).

(** The pattern of every setter of a counted pointer: release the old one,
    store the new one, retain the new one; rbus_property.c 164-172, 179-187. *)
Definition assign (h : heap) (p : ptr) (old : option ptr) (f : body -> body) (new : option ptr)
  : outcome unit heap :=
  do h1 <- release_opt h old;
  do h2 <- write h1 p f;
  retain_opt h2 new.

(** rbus_value.c 1325-1330 (numbers), 550-556 (SetTime), 575-606 (SetString,
    SetBytes with 558-573 SetBufferData), 608-626 (SetProperty, SetObject).
    A non-NULL buffer goes through SetBufferData, which reuses the old buffer
    when there is one and otherwise creates one without looking at what the
    value held.  [Err] where the C compiler would reject the handle. *)
Definition set_datum (h : heap) (v : ptr) (d : datum) : outcome unit heap :=
  do c <- get h v;
  match bd c with
  | Value d0 =>
      match d with
      | Buffer t (Some b) => write h v (fun _ => Value d)
      | _ => assign h v (ref_of d0) (fun _ => Value d) (ref_of d)
      end
  | _ => Err tt
  end.

(** rbus_value.c 118-159 rbusValue_Init and the typed Init functions. *)
Definition new_value (h : heap) (d : datum) : outcome unit (heap * ptr) :=
  let (h1, v) := alloc h (Value Nothing) in
  match d with
  | Nothing => Ok (h1, v)
  | _ => do h2 <- set_datum h1 v d; Ok (h2, v)
  end.

(** rbus_value.c 1028-1062 rbusValue_Copy: the destination is emptied first
    and the source read afterwards; properties and objects are not supported
    and fail the assertion at the end ([Err]). *)
Definition copy_value (h : heap) (dst src : ptr) : outcome unit heap :=
  if Nat.eqb dst src then Ok h else
  do c <- get h dst;
  match bd c with
  | Value d0 =>
      do h1 <- release_opt h (ref_of d0);
      do s <- get h1 src;
      match bd s with
      | Value (PropertyRef _) | Value (ObjectRef _) => Err tt
      | Value d => write h1 dst (fun _ => Value d)
      | _ => Err tt
      end
  | _ => Err tt
  end.

(** rbus_property.c 164-172 rbusProperty_SetValue. *)
Definition set_value (h : heap) (p : ptr) (v : option ptr) : outcome unit heap :=
  do c <- get h p;
  match bd c with
  | Property nm old nx =>
      assign h p old (fun b => match b with Property nm _ nx => Property nm v nx | b => b end) v
  | _ => Err tt
  end.

(** rbus_property.c 37-48 rbusProperty_Init. *)
Definition new_property (h : heap) (nm : option (list Z)) (v : option ptr) : outcome unit (heap * ptr) :=
  let (h1, p) := alloc h (Property nm None None) in
  match v with
  | None => Ok (h1, p)
  | Some _ => do h2 <- set_value h1 p v; Ok (h2, p)
  end.

(** rbus_property.c 147-156 rbusProperty_SetName. *)
Definition set_prop_name (h : heap) (p : ptr) (nm : option (list Z)) : outcome unit heap :=
  do c <- get h p;
  match bd c with
  | Property _ v nx => write h p (fun _ => Property nm v nx)
  | _ => Err tt
  end.

(** rbus_property.c 179-187 rbusProperty_SetNext. *)
Definition set_next (h : heap) (p : ptr) (n : option ptr) : outcome unit heap :=
  do c <- get h p;
  match bd c with
  | Property nm v old =>
      assign h p old (fun b => match b with Property nm v _ => Property nm v n | b => b end) n
  | _ => Err tt
  end.

(** The loop of rbus_property.c 191-194: the last property of a list.  A
    list that runs into a circle is never left; [UB] then. *)
Fixpoint last_of (n : nat) (h : heap) (p : ptr) : outcome unit ptr :=
  match n with
  | O => UB
  | S n' =>
      do c <- get h p;
      match bd c with
      | Property _ _ None => Ok p
      | Property _ _ (Some q) => last_of n' h q
      | _ => Err tt
      end
  end.

(** rbus_property.c 189-196 rbusProperty_Append. *)
Definition append (h : heap) (p : ptr) (back : option ptr) : outcome unit heap :=
  do l <- last_of (deep h) h p;
  set_next h l back.

(** rbus_property.c 267-282, 316-321: SetString, SetBytes and the typed
    setters of a property: the old value is released and a fresh one stored,
    whose first reference is the property's.  [d] holds no pointer here. *)
Definition set_prop_data (h : heap) (p : ptr) (d : datum) : outcome unit heap :=
  do c <- get h p;
  match bd c with
  | Property nm old nx =>
      do h1 <- release_opt h old;
      do (h2, v) <- new_value h1 d;
      write h2 p (fun b => match b with Property nm _ nx => Property nm (Some v) nx | b => b end)
  | _ => Err tt
  end.

(** rbus_property.c 217-231, 300-306: InitString, InitBytes and the typed
    ones: the value's own reference is dropped again. *)
Definition new_prop_data (h : heap) (nm : option (list Z)) (d : datum) : outcome unit (heap * ptr) :=
  do (h1, v) <- new_value h d;
  do (h2, p) <- new_property h1 nm (Some v);
  do h3 <- release (deep h2) h2 v;
  Ok (h3, p).

(** rbus_property.c 284-302, 322-331: AppendString, AppendBytes and the
    typed ones, on a property (not NULL). *)
Definition append_data (h : heap) (p : ptr) (nm : option (list Z)) (d : datum)
  : outcome unit (heap * ptr) :=
  do (h1, q) <- new_prop_data h nm d;
  do h2 <- append h1 p (Some q);
  do h3 <- release (deep h2) h2 q;
  Ok (h3, q).

(** rbus_object.c 45-66 rbusObject_Init, rbusObject_InitMultiInstance. *)
Definition new_object (h : heap) (nm : option (list Z)) (multi : bool) : heap * ptr :=
  alloc h (Object nm multi None None None None).

(** rbus_object.c 245-254 rbusObject_SetName. *)
Definition set_obj_name (h : heap) (o : ptr) (nm : option (list Z)) : outcome unit heap :=
  do c <- get h o;
  match bd c with
  | Object _ m pr ch nx pa => write h o (fun _ => Object nm m pr ch nx pa)
  | _ => Err tt
  end.

(** rbus_object.c 263-271 rbusObject_SetProperties. *)
Definition set_properties (h : heap) (o : ptr) (ps : option ptr) : outcome unit heap :=
  do c <- get h o;
  match bd c with
  | Object _ _ old _ _ _ =>
      assign h o old (fun b => match b with Object nm m _ ch nx pa => Object nm m ps ch nx pa | b => b end) ps
  | _ => Err tt
  end.

(** rbus_object.c 395-403 rbusObject_SetChildren. *)
Definition set_children (h : heap) (o : ptr) (cs : option ptr) : outcome unit heap :=
  do c <- get h o;
  match bd c with
  | Object _ _ _ old _ _ =>
      assign h o old (fun b => match b with Object nm m pr _ nx pa => Object nm m pr cs nx pa | b => b end) cs
  | _ => Err tt
  end.

(** rbus_object.c 412-420 rbusObject_SetNext. *)
Definition set_sibling (h : heap) (o : ptr) (n : option ptr) : outcome unit heap :=
  do c <- get h o;
  match bd c with
  | Object _ _ _ _ old _ =>
      assign h o old (fun b => match b with Object nm m pr ch _ pa => Object nm m pr ch n pa | b => b end) n
  | _ => Err tt
  end.

(** rbus_object.c 375-386 rbusObject_SetParent: the parent is not counted. *)
Definition set_parent (h : heap) (o : ptr) (pa : option ptr) : outcome unit heap :=
  do c <- get h o;
  match bd c with
  | Object nm m pr ch nx _ => write h o (fun _ => Object nm m pr ch nx pa)
  | _ => Err tt
  end.

(** The search loops of rbus_object.c 278-280 and 296-309: the first property
    of the list with this name, and the one before it.  strcmp of a NULL name
    is [UB]. *)
Fixpoint search (n : nat) (h : heap) (cur last : option ptr) (nm : list Z)
  : outcome unit (option ptr * option ptr) :=
  match n, cur with
  | _, None => Ok (None, last)
  | O, _ => UB
  | S n', Some p =>
      do c <- get h p;
      match bd c with
      | Property (Some m) _ nx =>
          if bytes_eqb m nm then Ok (Some p, last) else search n' h nx (Some p) nm
      | Property None _ _ => UB
      | _ => Err tt
      end
  end.

(** rbus_object.c 285-339 rbusObject_SetProperty (newProp not NULL). *)
Definition set_property (h : heap) (o np : ptr) : outcome unit heap :=
  do c <- get h o;
  match bd c with
  | Object _ _ None _ _ _ => set_properties h o (Some np)
  | Object _ _ (Some first) _ _ _ =>
      do n <- get h np;
      match bd n with
      | Property (Some nm) _ _ =>
          do (old, last) <- search (deep h) h (Some first) None nm;
          match old with
          | Some op =>
              do oc <- get h op;
              match bd oc with
              | Property _ _ nx =>
                  do h1 <- (match nx with Some q => append h np (Some q) | None => Ok h end);
                  match last with
                  | Some lp => set_next h1 lp (Some np)
                  | None => set_properties h1 o (Some np)
                  end
              | _ => Err tt
              end
          | None => match last with Some lp => set_next h lp (Some np) | None => UB end
          end
      | Property None _ _ => UB
      | _ => Err tt
      end
  | _ => Err tt
  end.

(** rbus_object.c 347-371 rbusObject_SetPropertyValue (arguments not NULL). *)
Definition set_property_value (h : heap) (o : ptr) (nm : list Z) (v : ptr) : outcome unit heap :=
  do c <- get h o;
  match bd c with
  | Object _ _ pr _ _ _ =>
      do (found, _) <- search (deep h) h pr None nm;
      match found with
      | Some p => set_value h p (Some v)
      | None =>
          do (h1, p) <- new_property h (Some nm) (Some v);
          do h2 <- (match pr with
                    | None => set_properties h1 o (Some p)
                    | Some first => append h1 first (Some p)
                    end);
          release (deep h2) h2 p
      end
  | _ => Err tt
  end.

(** rbus_object.c 443-448, 472-478, 493-499: the typed setters of an object's
    property. *)
Definition set_property_data (h : heap) (o : ptr) (nm : list Z) (d : datum) : outcome unit heap :=
  do (h1, v) <- new_value h d;
  do h2 <- set_property_value h1 o nm v;
  release (deep h2) h2 v.

(** rbus_filter.c 56-66 rbusFilter_InitRelation. *)
Definition new_relation (h : heap) (op : Z) (v : option ptr) : outcome unit (heap * ptr) :=
  let (h1, f) := alloc h (Relation op v) in
  do h2 <- retain_opt h1 v; Ok (h2, f).

(** rbus_filter.c 68-83 rbusFilter_InitLogic. *)
Definition new_logic (h : heap) (op : Z) (l r : option ptr) : outcome unit (heap * ptr) :=
  let (h1, f) := alloc h (Logic op l r) in
  do h2 <- retain_opt h1 l;
  do h3 <- retain_opt h2 r; Ok (h3, f).

(** The calls a program makes; each names the function it stands for.  No
    code of its own. *)
Inductive op :=
| ONewValue (d : datum)
| OSetDatum (v : ptr) (d : datum)
| OCopy (dst src : ptr)
| ONewProperty (nm : option (list Z)) (v : option ptr)
| OSetPropName (p : ptr) (nm : option (list Z))
| OSetValue (p : ptr) (v : option ptr)
| OSetNext (p : ptr) (n : option ptr)
| OAppend (p : ptr) (back : option ptr)
| OSetPropData (p : ptr) (d : datum)
| ONewPropData (nm : option (list Z)) (d : datum)
| OAppendData (p : ptr) (nm : option (list Z)) (d : datum)
| ONewObject (nm : option (list Z)) (multi : bool)
| OSetObjName (o : ptr) (nm : option (list Z))
| OSetProperties (o : ptr) (ps : option ptr)
| OSetProperty (o p : ptr)
| OSetPropertyValue (o : ptr) (nm : list Z) (v : ptr)
| OSetPropertyData (o : ptr) (nm : list Z) (d : datum)
| OSetChildren (o : ptr) (cs : option ptr)
| OSetSibling (o : ptr) (n : option ptr)
| OSetParent (o : ptr) (pa : option ptr)
| ONewRelation (op : Z) (v : option ptr)
| ONewLogic (op : Z) (l r : option ptr)
| ORetain (p : ptr)
| ORelease (p : ptr).

(** The memory, and the references the program holds: one for every Init and
    Retain of its own, minus its Releases.  The second field is bookkeeping of
    the model, no code reads it. *)
Record state := mkState { hp : heap; held : list ptr }.

(** Removes one occurrence.  No code of its own. *)
Fixpoint drop (p : ptr) (l : list ptr) : list ptr :=
  match l with [] => [] | q :: t => if Nat.eqb q p then t else q :: drop p t end.

(** A call that changes what cells hold.  No code of its own. *)
Definition changed (s : state) (x : outcome unit heap) : outcome unit state :=
  do h <- x; Ok (mkState h (held s)).

(** A call that returns a new handle.  No code of its own. *)
Definition created (s : state) (x : outcome unit (heap * ptr)) : outcome unit state :=
  do (h, p) <- x; Ok (mkState h (p :: held s)).

(** One call of the program; the functions are cited where they are defined.
    The typed Append functions give the caller no reference of its own. *)
Definition step (s : state) (o : op) : outcome unit state :=
  let h := hp s in
  match o with
  | ONewValue d => created s (new_value h d)
  | OSetDatum v d => changed s (set_datum h v d)
  | OCopy d v => changed s (copy_value h d v)
  | ONewProperty nm v => created s (new_property h nm v)
  | OSetPropName p nm => changed s (set_prop_name h p nm)
  | OSetValue p v => changed s (set_value h p v)
  | OSetNext p n => changed s (set_next h p n)
  | OAppend p b => changed s (append h p b)
  | OSetPropData p d => changed s (set_prop_data h p d)
  | ONewPropData nm d => created s (new_prop_data h nm d)
  | OAppendData p nm d => changed s (do (h', _) <- append_data h p nm d; Ok h')
  | ONewObject nm m => created s (Ok (new_object h nm m))
  | OSetObjName o nm => changed s (set_obj_name h o nm)
  | OSetProperties o ps => changed s (set_properties h o ps)
  | OSetProperty o p => changed s (set_property h o p)
  | OSetPropertyValue o nm v => changed s (set_property_value h o nm v)
  | OSetPropertyData o nm d => changed s (set_property_data h o nm d)
  | OSetChildren o cs => changed s (set_children h o cs)
  | OSetSibling o n => changed s (set_sibling h o n)
  | OSetParent o pa => changed s (set_parent h o pa)
  | ONewRelation op v => created s (new_relation h op v)
  | ONewLogic op l r => created s (new_logic h op l r)
  | ORetain p => do h' <- retain h p; Ok (mkState h' (p :: held s))
  | ORelease p => do h' <- release (deep h) h p; Ok (mkState h' (drop p (held s)))
  end.

(** A program: its calls one after the other.  Simplification: one thread;
    several threads on one counter are Retain (C50). *)
Fixpoint run (s : state) (l : list op) : outcome unit state :=
  match l with [] => Ok s | o :: l' => do s' <- step s o; run s' l' end.

(** Nothing allocated, nothing held.  No code of its own. *)
Definition start : state := mkState [] [].
