(** What a program may rely on for the lifetime of values, properties,
    objects and filters, said without the model's own helpers. *)
From Verif Require Import Common OwnModel.
Local Open Scope nat_scope.

(** The things a cell owns a share of: the property or object in a value, the
    value and the next one of a property, the properties, children and next
    sibling of an object (not its parent), the parts of a filter. *)
Inductive owns : body -> ptr -> Prop :=
| own_property q : owns (Value (PropertyRef (Some q))) q
| own_object q : owns (Value (ObjectRef (Some q))) q
| own_value nm q nx : owns (Property nm (Some q) nx) q
| own_next nm v q : owns (Property nm v (Some q)) q
| own_properties nm m q ch nx pa : owns (Object nm m (Some q) ch nx pa) q
| own_children nm m pr q nx pa : owns (Object nm m pr (Some q) nx pa) q
| own_sibling nm m pr ch q pa : owns (Object nm m pr ch (Some q) pa) q
| own_operand op q : owns (Relation op (Some q)) q
| own_left op q r : owns (Logic op (Some q) r) q
| own_right op l q : owns (Logic op l (Some q)) q.

(** Address [p] holds [b]. *)
Definition holds (h : heap) (p : ptr) (b : body) : Prop :=
  exists k, nth_error h p = Some (Some (mkCell k b)).

(** Address [p] has not been given back. *)
Definition exists_at (h : heap) (p : ptr) : Prop := exists b, holds h p b.

(** [q] is [p] or part of what [p] owns, at any depth. *)
Inductive inside (h : heap) : ptr -> ptr -> Prop :=
| inside_self p : inside h p p
| inside_part p b q x : holds h p b -> owns b q -> inside h q x -> inside h p x.

(** The kinds of handles the C types tell apart. *)
Inductive kind := KValue | KProperty | KObject | KFilter.

Definition kind_of (b : body) : kind :=
  match b with
  | Value _ => KValue
  | Property _ _ _ => KProperty
  | Object _ _ _ _ _ _ => KObject
  | _ => KFilter
  end.

Definition is (h : heap) (p : ptr) (k : kind) : Prop := exists b, holds h p b /\ kind_of b = k.
Definition maybe (h : heap) (o : option ptr) (k : kind) : Prop := forall q, o = Some q -> is h q k.

(** A datum whose pointer, if any, is of the type it says. *)
Definition good_datum (h : heap) (d : datum) : Prop :=
  match d with
  | PropertyRef q => maybe h q KProperty
  | ObjectRef q => maybe h q KObject
  | _ => True
  end.

(** The pointer of a datum. *)
Definition pointer (d : datum) : option ptr :=
  match d with PropertyRef q => q | ObjectRef q => q | _ => None end.

(** [x] is [p] or follows it in its list of properties. *)
Inductive inlist (h : heap) : ptr -> ptr -> Prop :=
| inlist_here p : inlist h p p
| inlist_next p nm v q x : holds h p (Property nm v (Some q)) -> inlist h q x -> inlist h p x.

(** Storing [new] in [p] where [old] was: [new] must not contain [p] (that
    would be a circle) and must not be part of [old] (which is let go of
    before [new] is taken). *)
Definition replaces (h : heap) (p : ptr) (old new : option ptr) : Prop :=
  forall n, new = Some n -> ~ inside h n p /\ forall o, old = Some o -> ~ inside h o n.

Definition named (h : heap) (p : ptr) : Prop := exists nm v nx, holds h p (Property (Some nm) v nx).

(** The calls a careful program makes: it uses handles that are still there
    and of the right type, releases only references it holds, closes no
    circle, and does not put back what it is taking out. *)
Definition fine (s : state) (o : op) : Prop :=
  let h := hp s in
  match o with
  | ONewValue d => good_datum h d
  | OSetDatum v d =>
      exists d0, holds h v (Value d0) /\ good_datum h d /\ replaces h v (pointer d0) (pointer d)
  | OCopy dst src =>
      exists d0 d, holds h dst (Value d0) /\ holds h src (Value d) /\
        (forall q, d <> PropertyRef q /\ d <> ObjectRef q) /\
        (forall o, pointer d0 = Some o -> ~ inside h o src)
  | ONewProperty nm v => maybe h v KValue
  | OSetPropName p nm => is h p KProperty
  | OSetValue p v =>
      exists nm old nx, holds h p (Property nm old nx) /\ maybe h v KValue /\ replaces h p old v
  | OSetNext p n =>
      exists nm v old, holds h p (Property nm v old) /\ maybe h n KProperty /\ replaces h p old n
  | OAppend p back =>
      is h p KProperty /\ maybe h back KProperty /\
      forall n x, back = Some n -> inlist h p x -> ~ inside h n x
  | OSetPropData p d =>
      exists nm old nx, holds h p (Property nm old nx) /\ good_datum h d /\ replaces h p old (pointer d)
  | ONewPropData nm d => good_datum h d
  | OAppendData p nm d =>
      is h p KProperty /\ good_datum h d /\
      forall n x, pointer d = Some n -> inlist h p x -> ~ inside h n x
  | ONewObject nm m => True
  | OSetObjName o nm => is h o KObject
  | OSetProperties o ps =>
      exists nm m old ch nx pa, holds h o (Object nm m old ch nx pa) /\
        maybe h ps KProperty /\ replaces h o old ps
  | OSetProperty o p =>
      exists nm m pr ch nx pa, holds h o (Object nm m pr ch nx pa) /\ is h p KProperty /\
        ~ inside h p o /\
        (forall f, pr = Some f -> named h p) /\
        (forall f x, pr = Some f -> inlist h f x ->
           named h x /\ ~ inside h p x /\ forall y, inlist h p y -> ~ inside h x y)
  | OSetPropertyValue o n v =>
      exists nm m pr ch nx pa, holds h o (Object nm m pr ch nx pa) /\ is h v KValue /\
        ~ inside h v o /\
        (forall f x, pr = Some f -> inlist h f x -> named h x /\ ~ inside h v x) /\
        (forall f x old nx, pr = Some f -> inlist h f x -> holds h x (Property (Some n) (Some old) nx) ->
           ~ inside h old v)
  | OSetPropertyData o n d =>
      exists nm m pr ch nx pa, holds h o (Object nm m pr ch nx pa) /\ good_datum h d /\
        (forall f x, pr = Some f -> inlist h f x -> named h x) /\
        (forall q, pointer d = Some q -> ~ inside h q o) /\
        (forall q f x, pointer d = Some q -> pr = Some f -> inlist h f x -> ~ inside h q x)
  | OSetChildren o cs =>
      exists nm m pr old nx pa, holds h o (Object nm m pr old nx pa) /\
        maybe h cs KObject /\ replaces h o old cs
  | OSetSibling o n =>
      exists nm m pr ch old pa, holds h o (Object nm m pr ch old pa) /\
        maybe h n KObject /\ replaces h o old n
  | OSetParent o pa => is h o KObject
  | ONewRelation op v => maybe h v KValue
  | ONewLogic op l r => maybe h l KFilter /\ maybe h r KFilter
  | ORetain p => exists_at h p
  | ORelease p => In p (held s)
  end.

(** The calls the headers allow: every handle is one that is still there and
    of the right type, and only references of one's own are released. *)
Definition legal (s : state) (o : op) : Prop :=
  let h := hp s in
  match o with
  | ONewValue d | ONewPropData _ d => good_datum h d
  | OSetDatum v d => is h v KValue /\ good_datum h d
  | OCopy dst src => is h dst KValue /\ is h src KValue
  | ONewProperty _ v | ONewRelation _ v => maybe h v KValue
  | OSetPropName p _ => is h p KProperty
  | OSetValue p v => is h p KProperty /\ maybe h v KValue
  | OSetNext p n | OAppend p n => is h p KProperty /\ maybe h n KProperty
  | OSetPropData p d | OAppendData p _ d => is h p KProperty /\ good_datum h d
  | ONewObject _ _ => True
  | OSetObjName o _ => is h o KObject
  | OSetProperties o ps => is h o KObject /\ maybe h ps KProperty
  | OSetProperty o p => is h o KObject /\ is h p KProperty
  | OSetPropertyValue o _ v => is h o KObject /\ is h v KValue
  | OSetPropertyData o _ d => is h o KObject /\ good_datum h d
  | OSetChildren o n | OSetSibling o n | OSetParent o n => is h o KObject /\ maybe h n KObject
  | ONewLogic _ l r => maybe h l KFilter /\ maybe h r KFilter
  | ORetain p => exists_at h p
  | ORelease p => In p (held s)
  end.

(** The one call that loses a share: a string or bytes stored into a value
    that holds a property or an object. *)
Definition keeps (s : state) (o : op) : Prop :=
  match o with
  | OSetDatum v (Buffer _ (Some _)) =>
      forall d0, holds (hp s) v (Value d0) -> pointer d0 = None
  | _ => True
  end.

(** A history all of whose calls satisfy [also]. *)
Fixpoint careful (also : state -> op -> Prop) (s : state) (l : list op) : Prop :=
  match l with
  | [] => True
  | o :: l' => fine s o /\ also s o /\ forall s', step s o = Ok s' -> careful also s' l'
  end.

(** A history all of whose calls are legal. *)
Fixpoint lawful (s : state) (l : list op) : Prop :=
  match l with
  | [] => True
  | o :: l' => legal s o /\ forall s', step s o = Ok s' -> lawful s' l'
  end.

(** What the program can reach from the references it holds. *)
Definition reachable (s : state) (p : ptr) : Prop :=
  exists r, In r (held s) /\ inside (hp s) r p.

(** The properties from [o] on are [l]. *)
Inductive sequence (h : heap) : option ptr -> list ptr -> Prop :=
| sequence_end : sequence h None []
| sequence_more p nm v nx l :
    holds h p (Property nm v nx) -> sequence h nx l -> sequence h (Some p) (p :: l).

(** Whatever is still there and is none of [t] is as it was. *)
Definition others (h h' : heap) (t : list ptr) : Prop :=
  forall q b, ~ In q t -> holds h' q b -> holds h q b.

(** [p] now holds [b] and nothing else is different, but for what is gone. *)
Definition changes (h h' : heap) (p : ptr) (b : body) : Prop :=
  holds h' p b /\ others h h' [p] /\ length h' = length h.

(** There is one more cell, it holds [b], and nothing else is different. *)
Definition adds (h h' : heap) (b : body) : Prop :=
  holds h' (length h) b /\ length h' = S (length h) /\
  forall q b', q <> length h -> (holds h' q b' <-> holds h q b').

(** The property [p] is called [n]; none of [l] is. *)
Definition titled (h : heap) (n : list Z) (p : ptr) : Prop :=
  exists v nx, holds h p (Property (Some n) v nx).
Definition nottitled (h : heap) (n : list Z) (l : list ptr) : Prop :=
  forall x, In x l -> exists m, titled h m x /\ m <> n.

(** The properties of [l] that are still there have their name and value. *)
Definition intact (h h' : heap) (l : list ptr) : Prop :=
  forall x nm v nx, In x l -> holds h' x (Property nm v nx) -> exists nx0, holds h x (Property nm v nx0).

(** [back] hangs behind the last property of the list of [p]. *)
Definition appended (h h' : heap) (p : ptr) (back : option ptr) : Prop :=
  exists l z nm v, sequence h (Some p) (l ++ [z]) /\ holds h z (Property nm v None) /\
    changes h h' z (Property nm v back).

(** The list of [p] takes the place of the first property of [o] with the
    name of [p], or comes after the properties of [o] if there is none. *)
Definition property_set (h h' : heap) (o p : ptr) : Prop :=
  exists nm m pr ch nx pa pr' l lp l',
    holds h o (Object nm m pr ch nx pa) /\ sequence h pr l /\ sequence h (Some p) lp /\
    holds h' o (Object nm m pr' ch nx pa) /\ sequence h' pr' l' /\
    others h h' (o :: l ++ lp) /\ intact h h' (l ++ lp) /\
    ((l = [] /\ l' = lp) \/
     exists n, titled h n p /\
       ((nottitled h n l /\ l' = l ++ lp) \/
        exists pre q post, l = pre ++ q :: post /\ nottitled h n pre /\ titled h n q /\ l' = pre ++ lp ++ post)).

(** The first property of [o] called [n] gets the value [v], or a new one of
    that name and value comes after the properties of [o]. *)
Definition value_set (h h' : heap) (o : ptr) (n : list Z) (v : ptr) : Prop :=
  exists nm m pr ch nx pa pr' l l',
    holds h o (Object nm m pr ch nx pa) /\ sequence h pr l /\
    holds h' o (Object nm m pr' ch nx pa) /\ sequence h' pr' l' /\
    ((exists pre p post vo nx', l = pre ++ p :: post /\ nottitled h n pre /\
        holds h p (Property (Some n) vo nx') /\ l' = l /\
        holds h' p (Property (Some n) (Some v) nx') /\ others h h' [p]) \/
     (nottitled h n l /\ l' = l ++ [length h] /\ holds h' (length h) (Property (Some n) (Some v) None) /\
      others h h' (length h :: o :: l) /\ intact h h' l)).

(** What each call does. *)
Definition effect (s : state) (o : op) (s' : state) : Prop :=
  let h := hp s in let h' := hp s' in
  match o with
  | ONewValue d => adds h h' (Value d) /\ held s' = length h :: held s
  | OSetDatum v d => changes h h' v (Value d) /\ held s' = held s
  | OCopy dst src => exists d, holds h src (Value d) /\ changes h h' dst (Value d) /\ held s' = held s
  | ONewProperty nm v => adds h h' (Property nm v None) /\ held s' = length h :: held s
  | OSetPropName p nm =>
      exists old v nx, holds h p (Property old v nx) /\ changes h h' p (Property nm v nx) /\ held s' = held s
  | OSetValue p v =>
      exists nm old nx, holds h p (Property nm old nx) /\ changes h h' p (Property nm v nx) /\ held s' = held s
  | OSetNext p n =>
      exists nm v old, holds h p (Property nm v old) /\ changes h h' p (Property nm v n) /\ held s' = held s
  | OAppend p back => appended h h' p back /\ held s' = held s
  | OSetPropData p d =>
      exists nm old nx, holds h p (Property nm old nx) /\ holds h' p (Property nm (Some (length h)) nx) /\
        holds h' (length h) (Value d) /\ others h h' [p; length h] /\ length h' = S (length h) /\ held s' = held s
  | ONewPropData nm d =>
      exists h1, adds h h1 (Value d) /\ adds h1 h' (Property nm (Some (length h)) None) /\
        held s' = S (length h) :: held s
  | OAppendData p nm d =>
      exists h1 h2, adds h h1 (Value d) /\ adds h1 h2 (Property nm (Some (length h)) None) /\
        appended h2 h' p (Some (S (length h))) /\ held s' = held s
  | ONewObject nm m => adds h h' (Object nm m None None None None) /\ held s' = length h :: held s
  | OSetObjName o nm =>
      exists old m pr ch nx pa, holds h o (Object old m pr ch nx pa) /\
        changes h h' o (Object nm m pr ch nx pa) /\ held s' = held s
  | OSetProperties o ps =>
      exists nm m old ch nx pa, holds h o (Object nm m old ch nx pa) /\
        changes h h' o (Object nm m ps ch nx pa) /\ held s' = held s
  | OSetProperty o p => property_set h h' o p /\ held s' = held s
  | OSetPropertyValue o n v => value_set h h' o n v /\ held s' = held s
  | OSetPropertyData o n d =>
      exists h1, adds h h1 (Value d) /\ value_set h1 h' o n (length h) /\ held s' = held s
  | OSetChildren o cs =>
      exists nm m pr old nx pa, holds h o (Object nm m pr old nx pa) /\
        changes h h' o (Object nm m pr cs nx pa) /\ held s' = held s
  | OSetSibling o n =>
      exists nm m pr ch old pa, holds h o (Object nm m pr ch old pa) /\
        changes h h' o (Object nm m pr ch n pa) /\ held s' = held s
  | OSetParent o pa =>
      exists nm m pr ch nx old, holds h o (Object nm m pr ch nx old) /\
        changes h h' o (Object nm m pr ch nx pa) /\ held s' = held s
  | ONewRelation op v => adds h h' (Relation op v) /\ held s' = length h :: held s
  | ONewLogic op l r => adds h h' (Logic op l r) /\ held s' = length h :: held s
  | ORetain p => (forall q b, holds h' q b <-> holds h q b) /\ held s' = p :: held s
  | ORelease p => others h h' [] /\ exists l1 l2, held s = l1 ++ p :: l2 /\ held s' = l1 ++ l2
  end.
