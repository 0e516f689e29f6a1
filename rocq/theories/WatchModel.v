(** Model of the value change detector, src/rbus/rbus_valuechange.c.  One step is one stretch of code
    between taking and releasing the detector's mutex (or, while the polling thread holds it, the
    treatment of one record); every interleaving of such steps is a history.  The values a provider's
    get handler hands out are objects in memory: a read gives a reference, and [store] says what the
    object holds at the moment of the step.  Times are milliseconds.  Log output is left out. *)
From Verif Require Import Common Value CompareModel.
Local Open Scope list_scope.
Local Open Scope Z_scope.

Notation store := (nat -> value).
(** A reference returned by rbusProperty_GetValue; [None] is NULL. rbus_property.c:165 *)
Definition deref (st : store) (r : option nat) : value := match r with Some a => st a | None => VNull end.
(** rbus_value.c:905-911 rbusValue_Compare: the same object is equal without being looked at *)
Definition compare_refs (st : store) (a b : option nat) : outcome unit Z :=
  match a, b with
  | Some x, Some y => if Nat.eqb x y then Ok 0 else value_compare (st x) (st y)
  | None, None => Ok 0
  | _, _ => Ok (-1)
  end.

(** rbus_valuechange.c:69-74 ValueChangeRecord; [v_comp] is the component name of the handle *)
Record vrec := mkRec { v_handle : nat; v_comp : list Z; v_node : nat; v_ref : option nat }.
(** rbus_valuechange.c:60-67 ValueChangeDetector_t.  [cursor] is the loop index of a polling thread that
    holds the mutex, [pending] the records of AddPropertyNode calls that have read the value but not yet
    pushed the record, [alive] whether gVC is allocated, [who] the changeComp and changeTime of the nodes
    (rbus_element.h:72-73). *)
Record vc := mkVc { params : list vrec; running : bool; cursor : option nat; pending : list vrec; alive : bool; who : list (nat * (list Z * Z)) }.
(** rbus_valuechange.c:60-67, continued *)
Definition vc0 : vc := mkVc [] false None [] false [].

(** What can be seen: a node begins or ceases to be watched, a read succeeds, an event is published. no code of its own *)
Inductive note := Watch (n : nat) (v : value) | Unwatch (n : nat) | Polled (n : nat) (v : value) | Sent (n : nat) (new old : value) (by_ : list Z).

(** rbus_valuechange.c:114-125 vcParams_Find *)
Fixpoint vc_find (n : nat) (l : list vrec) : option vrec :=
  match l with [] => None | r :: l => if Nat.eqb (v_node r) n then Some r else vc_find n l end.
(** rtVector_RemoveItem on the record vcParams_Find returned; rbus_valuechange.c:348, 389 *)
Fixpoint vc_drop (n : nat) (l : list vrec) : list vrec :=
  match l with [] => [] | r :: l => if Nat.eqb (v_node r) n then l else r :: vc_drop n l end.
(** rbus_valuechange.c:114-125, continued *)
Definition RBUS_VALUECHANGE_PERIOD : Z := 2000.
(** rbus_valuechange.c:114-125, continued *)
Fixpoint who_of (n : nat) (l : list (nat * (list Z * Z))) : option (list Z * Z) :=
  match l with [] => None | (m, x) :: l => if Nat.eqb m n then Some x else who_of n l end.
(** rbus_element.c:1189-1198 setPropertyChangeComponent *)
Definition set_who (n : nat) (c : list Z) (now : Z) (l : list (nat * (list Z * Z))) := (n, (c, now)) :: l.

(** rbus_valuechange.c:247-306 AddPropertyNode up to the read: [got] is what the get handler returns.
    A read that fails ends the call (lines 295-301). *)
Definition add_read (s : vc) (h : nat) (c : list Z) (n : nat) (got : option (option nat)) : outcome unit (vc * list note) :=
  match cursor s with Some _ => Err tt | None =>
    match vc_find n (params s), got with
    | None, Some r => Ok (mkVc (params s) (running s) None (pending s ++ [mkRec h c n r]) true (who s), [])
    | _, _ => Ok (mkVc (params s) (running s) None (pending s) true (who s), [])
    end
  end.
(** rbus_valuechange.c:311-326: push the record, start the thread.  If the detector was freed in between,
    the mutex is in freed memory. *)
Definition add_push (s : vc) (st : store) (n : nat) : outcome unit (vc * list note) :=
  match cursor s with Some _ => Err tt | None =>
    match vc_find n (pending s) with
    | None => Err tt
    | Some r => if alive s then Ok (mkVc (params s ++ [r]) true None (vc_drop n (pending s)) true (who s), [Watch n (deref st (v_ref r))]) else UB
    end
  end.
(** rbus_valuechange.c:330-370 RemovePropertyNode *)
Definition remove_node (s : vc) (n : nat) : outcome unit (vc * list note) :=
  if negb (alive s) then Ok (s, []) else
  match cursor s with Some _ => Err tt | None =>
    match vc_find n (params s) with
    | None => Ok (s, [])
    | Some _ =>
        let l := vc_drop n (params s) in
        Ok (mkVc l (match l with [] => false | _ => running s end) None (pending s) true (who s), [Unwatch n])
    end
  end.
(** rbus_valuechange.c:372-424 CloseHandle; the loop that removes the records of the handle keeps the
    others in order *)
Definition close_handle (s : vc) (h : nat) : outcome unit (vc * list note) :=
  if negb (alive s) then Ok (s, []) else
  match cursor s with Some _ => Err tt | None =>
    let mine r := Nat.eqb (v_handle r) h in
    let l := List.filter (fun r => negb (mine r)) (params s) in
    let notes := map (fun r => Unwatch (v_node r)) (List.filter mine (params s)) in
    match l with
    | [] => Ok (mkVc [] false None (pending s) false (who s), notes)
    | _ => Ok (mkVc l (running s) None (pending s) true (who s), notes)
    end
  end.
(** rbus_valuechange.c:132-156: the polling thread wakes up with the mutex held *)
Definition poll_start (s : vc) : outcome unit (vc * list note) :=
  match cursor s with Some _ => Err tt | None => if running s then Ok (mkVc (params s) true (Some O) (pending s) (alive s) (who s), []) else Err tt end.
(** rbus_valuechange.c:132-156, continued *)
Fixpoint vc_set (i : nat) (r : vrec) (l : list vrec) : list vrec :=
  match l, i with [], _ => [] | _ :: l, O => r :: l | x :: l, S i => x :: vc_set i r l end.
(** rbus_valuechange.c:158-239: one record; [now] is the time of the poll.  The event is published (5935-5947 of
    rbus.c) only if it has both values. *)
Definition poll_one (s : vc) (st : store) (got : option (option nat)) (now : Z) : outcome unit (vc * list note) :=
  match cursor s with None => Err tt | Some i =>
    match nth_error (params s) i with
    | None => Err tt
    | Some r =>
        let next l w := mkVc l (running s) (Some (S i)) (pending s) (alive s) w in
        match got with
        | None => Ok (next (params s) (who s), [])
        | Some a =>
            do c <- compare_refs st a (v_ref r);
            let new := deref st a in
            if c =? 0 then Ok (next (params s) (who s), [Polled (v_node r) new]) else
            let own := match who_of (v_node r) (who s) with
                       | None => true
                       | Some (c, t) => (RBUS_VALUECHANGE_PERIOD <=? now - t) && bytes_eqb (v_comp r) c
                       end in
            let w := if own then set_who (v_node r) (v_comp r) now (who s) else who s in
            let by_ := match who_of (v_node r) w with Some (c, _) => c | None => [] end in
            let old := deref st (v_ref r) in
            let sent := match new, old with VNull, _ | _, VNull => [] | _, _ => [Sent (v_node r) new old by_] end in
            Ok (next (vc_set i (mkRec (v_handle r) (v_comp r) (v_node r) a) (params s)) w, Polled (v_node r) new :: sent)
        end
    end
  end.
(** the end of the loop, and pthread_cond_timedwait (139-145) releasing the mutex *)
Definition poll_end (s : vc) : outcome unit (vc * list note) :=
  match cursor s with Some i => if (length (params s) <=? i)%nat then Ok (mkVc (params s) (running s) None (pending s) (alive s) (who s), []) else Err tt | None => Err tt end.

(** The operations a history consists of, one for each function modelled above; no code of its own. *)
Inductive vop :=
  | AddRead (h : nat) (c : list Z) (n : nat) (got : option (option nat)) | AddPush (st : store) (n : nat)
  | RemoveNode (n : nat) | CloseHandle (h : nat)
  | PollStart | PollOne (st : store) (got : option (option nat)) (now : Z) | PollEnd
  | SetBy (n : nat) (c : list Z) (now : Z).   (** a successful set by component [c], rbus.c:1603 *)
Definition vstep (s : vc) (o : vop) : outcome unit (vc * list note) :=
  match o with
  | AddRead h c n got => add_read s h c n got
  | AddPush st n => add_push s st n
  | RemoveNode n => remove_node s n
  | CloseHandle h => close_handle s h
  | PollStart => poll_start s
  | PollOne st got now => poll_one s st got now
  | PollEnd => poll_end s
  | SetBy n c now => Ok (mkVc (params s) (running s) (cursor s) (pending s) (alive s) (set_who n c now (who s)), [])
  end.
(** A history: one operation after the other; no code of its own. *)
Fixpoint vrun (s : vc) (l : list vop) : outcome unit (vc * list note) :=
  match l with
  | [] => Ok (s, [])
  | o :: l => do (s1, a) <- vstep s o; do (s2, b) <- vrun s1 l; Ok (s2, a ++ b)
  end.
