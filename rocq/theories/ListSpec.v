(** The ideal behaviour of an rtList: a mathematical list of items, each with an
    identity and a data pointer.  [pool] is the stack of data pointers left in
    removed items, visible only through rtListReuseData ([None]). *)
From Verif Require Import Common ListModel.

Definition slist := list (nat * Z).
Definition sstate := (slist * list Z)%type.
Definition ids (l : slist) : list nat := map fst l.

(** data of a newly inserted item *)
Definition new_data (d : option Z) (pool : list Z) : Z :=
  match d with Some x => x | None => hd 0%Z pool end.
(** what a removed item leaves behind: NULL if a destroyer was passed *)
Definition left_behind (destroy : bool) (d : Z) : Z := if destroy then 0%Z else d.
Definition first_id (l : slist) : option nat := match l with [] => None | (i, _) :: _ => Some i end.

(** [l] splits at its first item satisfying [p] *)
Definition splits_at (p : nat * Z -> bool) (l a : slist) (x : nat * Z) (b : slist) : Prop :=
  l = a ++ x :: b /\ p x = true /\ forall y, In y a -> p y = false.

(** Arguments naming an item must name one that is in the list. *)
Definition llegal (l : slist) (o : lop) : Prop :=
  match o with
  | LInsertBefore _ i | LInsertAfter _ i | LRemove i _ | LNext i | LPrev i | LGetData i | LSetData i _ => In i (ids l)
  | _ => True
  end.

Inductive sl_step : sstate -> lop -> sstate -> lres -> Prop :=
| SPushFront l pool d i : ~ In i (ids l) ->
    sl_step (l, pool) (LPushFront d) ((i, new_data d pool) :: l, tl pool) (LItem (Some i))
| SPushBack l pool d i : ~ In i (ids l) ->
    sl_step (l, pool) (LPushBack d) (l ++ [(i, new_data d pool)], tl pool) (LItem (Some i))
| SInsertBefore a x b pool d i : ~ In i (ids (a ++ x :: b)) ->
    sl_step (a ++ x :: b, pool) (LInsertBefore d (fst x)) (a ++ (i, new_data d pool) :: x :: b, tl pool) (LItem (Some i))
| SInsertAfter a x b pool d i : ~ In i (ids (a ++ x :: b)) ->
    sl_step (a ++ x :: b, pool) (LInsertAfter d (fst x)) (a ++ x :: (i, new_data d pool) :: b, tl pool) (LItem (Some i))
| SRemove a x b pool dz :
    sl_step (a ++ x :: b, pool) (LRemove (fst x) dz) (a ++ b, left_behind dz (snd x) :: pool) LDone
| SRemoveData l a x b pool d dz : splits_at (fun y => (d =? snd y)%Z) l a x b ->
    sl_step (l, pool) (LRemoveData d dz) (a ++ b, left_behind dz (snd x) :: pool) LDone
| SRemoveDataNone l pool d dz : (forall y, In y l -> snd y <> d) ->
    sl_step (l, pool) (LRemoveData d dz) (l, pool) LError
| SRemoveBy l a x b pool p dz : splits_at (fun y => p (snd y)) l a x b ->
    sl_step (l, pool) (LRemoveBy p dz) (a ++ b, left_behind dz (snd x) :: pool) LDone
| SRemoveByNone l pool p dz : (forall y, In y l -> p (snd y) = false) ->
    sl_step (l, pool) (LRemoveBy p dz) (l, pool) LError
| SRemoveAll l pool dz :
    sl_step (l, pool) (LRemoveAll dz) ([], rev (map (fun x => left_behind dz (snd x)) l) ++ pool) LDone
| SSize l pool : sl_step (l, pool) LSize (l, pool) (LNum (length l))
| SFind l a x b pool p : splits_at (fun y => p (snd y)) l a x b ->
    sl_step (l, pool) (LFind p) (l, pool) (LPtr (snd x))
| SFindNone l pool p : (forall y, In y l -> p (snd y) = false) ->
    sl_step (l, pool) (LFind p) (l, pool) (LPtr 0%Z)
| SFront l pool : sl_step (l, pool) LFront (l, pool) (LItem (first_id l))
| SBack l pool : sl_step (l, pool) LBack (l, pool) (LItem (first_id (rev l)))
| SNext a x b pool : sl_step (a ++ x :: b, pool) (LNext (fst x)) (a ++ x :: b, pool) (LItem (first_id b))
| SPrev a x b pool : sl_step (a ++ x :: b, pool) (LPrev (fst x)) (a ++ x :: b, pool) (LItem (first_id (rev a)))
| SGetData a x b pool : sl_step (a ++ x :: b, pool) (LGetData (fst x)) (a ++ x :: b, pool) (LPtr (snd x))
| SSetData a x b pool d : sl_step (a ++ x :: b, pool) (LSetData (fst x) d) (a ++ (fst x, d) :: b, pool) LDone.

(** The implementation state [l] follows the ideal state [s] for the whole history. *)
Fixpoint conforms (l : rlist) (s : sstate) (ops : list lop) : Prop :=
  match ops with
  | [] => True
  | o :: ops' => llegal (fst s) o ->
      exists l' r s', rl_step l o = Ok (l', r) /\ sl_step s o s' r /\
                      NoDup (ids (fst s')) /\ conforms l' s' ops'
  end.
