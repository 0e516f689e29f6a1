(** Model of src/rtmessage/rtRetainable.c under interleaving: threads that share one
    reference-counted object.  Each atomic access is one step; a schedule is a list of
    steps.  Sequential consistency of the atomics is assumed (the C11 default). *)
From Verif Require Import Common.
Local Open Scope Z_scope.

(** where a thread is: it owns [refs] references and is outside the functions, or it is in
    rtRetainable_releaseInternal between the subtraction and the test; rtRetainable.c:28-36 *)
Record thread := mkThread { refs : nat; checking : bool }.
(** rtRetainable.h:30-33 and the threads that use it *)
Record state := mkState { count : Z; freed : bool; destroyed : nat; threads : list thread }.
(** an object as its creator leaves it (for example rbusValue_Init): one reference; no code of its own *)
Definition init (n : nat) : state := mkState 1 false 0 (mkThread 1 false :: repeat (mkThread 0 false) n).

(** the atomic accesses of rtRetainable.c:23-36 *)
Inductive action :=
| Retain (i : nat)      (* rtRetainable.c:23-26: fetch_add *)
| Sub (i : nat)         (* rtRetainable.c:30: fetch_sub *)
| Test (i : nat)        (* rtRetainable.c:32-35: load, and the destructor, which frees the object *)
| Give (i j : nat).     (* thread i hands one of its references to thread j *)

(** helper, no code of its own *)
Definition set_thread (s : state) (i : nat) (t : thread) : list thread := upd (threads s) i t.
(** a step that its thread cannot take leaves the state alone; touching the object after it
    is freed is undefined; rtRetainable.c:23-36 *)
Definition step (s : state) (a : action) : outcome unit state :=
  match a with
  | Retain i =>
    match nth_error (threads s) i with
    | Some (mkThread (S n) false) =>
      if freed s then UB else Ok (mkState (count s + 1) (freed s) (destroyed s) (set_thread s i (mkThread (S (S n)) false)))
    | _ => Ok s
    end
  | Sub i =>
    match nth_error (threads s) i with
    | Some (mkThread (S n) false) =>
      if freed s then UB else Ok (mkState (count s - 1) (freed s) (destroyed s) (set_thread s i (mkThread n true)))
    | _ => Ok s
    end
  | Test i =>
    match nth_error (threads s) i with
    | Some (mkThread n true) =>
      if freed s then UB
      else if count s =? 0 then Ok (mkState (count s) true (S (destroyed s)) (set_thread s i (mkThread n false)))
      else Ok (mkState (count s) (freed s) (destroyed s) (set_thread s i (mkThread n false)))
    | _ => Ok s
    end
  | Give i j =>
    match nth_error (threads s) i, nth_error (threads s) j with
    | Some (mkThread (S n) false), Some (mkThread m false) =>
      if Nat.eqb i j then Ok s
      else Ok (mkState (count s) (freed s) (destroyed s) (upd (upd (threads s) i (mkThread n false)) j (mkThread (S m) false)))
    | _, _ => Ok s
    end
  end.
(** A history: one operation after the other; no code of its own. *)
Fixpoint run (s : state) (l : list action) : outcome unit state :=
  match l with [] => Ok s | a :: l => do s' <- step s a ; run s' l end.
