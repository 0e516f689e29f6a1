(** What the buffer codecs are expected to do. *)
From Verif Require Import Common Bytes Value BufferModel.
Local Open Scope Z_scope.

(** Encoded size of a value: two 16-bit fields and the contents. *)
Definition value_size (v : value) : Z :=
  4 + match v with
      | VBool _ | VChar _ | VByte _ | VInt8 _ | VUInt8 _ => 1
      | VInt16 _ | VUInt16 _ => 2
      | VInt32 _ | VUInt32 _ | VSingle _ => 4
      | VInt64 _ | VUInt64 _ | VDouble _ => 8
      | VDateTime _ => 48
      | VString (Some s) => Z.of_nat (length s) + 1
      | VBytes (Some s) => Z.of_nat (length s)
      | _ => -4
      end.

(** Values the codec is meant for: no NULL string, contents below 64 KB. *)
Definition encodable (v : value) : bool :=
  scalar_wf v &&
  match v with VString None | VBytes None => false | _ => true end &&
  (value_size v - 4 <=? 65535).

Fixpoint encode_all (vs : list value) (b : buffer) : outcome unit buffer :=
  match vs with [] => Ok b | v :: vs' => do b <- value_encode v b; encode_all vs' b end.
Fixpoint decode_all (n : nat) (b : buffer) : outcome unit (list value * buffer) :=
  match n with
  | O => Ok ([], b)
  | S n => do (v, b) <- value_decode b; do (vs, b) <- decode_all n b; Ok (v :: vs, b)
  end.
Definition total_size (vs : list value) : Z := fold_right (fun v n => value_size v + n) 0 vs.

(** Filters with nothing missing. *)
Fixpoint filter_ok (f : filter) : bool :=
  match f with
  | FNull => false
  | FRel op v => in_u 32 op && encodable v
  | FLogic op l r => in_u 32 op && filter_ok l && filter_ok r
  end.
Fixpoint filter_size (f : filter) : Z :=
  match f with
  | FNull => 0
  | FRel _ v => 16 + value_size v
  | FLogic _ l r => 16 + filter_size l + filter_size r
  end.
Fixpoint filter_depth (f : filter) : nat :=
  match f with FNull => 0 | FRel _ _ => 1 | FLogic _ l r => S (Nat.max (filter_depth l) (filter_depth r)) end%nat.

(** A byte queue: what a write-then-read buffer is. *)
Inductive bop := BWrite (data : list Z) | BRead (len : Z).
Inductive bres := RWrote | RGot (data : list Z) | RFailed.
Definition queue_step (q : list Z) (o : bop) : list Z * bres :=
  match o with
  | BWrite d => (q ++ d, RWrote)
  | BRead n => if n <=? Z.of_nat (length q) then (skipn (Z.to_nat n) q, RGot (firstn (Z.to_nat n) q)) else (q, RFailed)
  end.
Fixpoint queue_run (q : list Z) (ops : list bop) : list bres :=
  match ops with [] => [] | o :: ops' => let '(q', r) := queue_step q o in r :: queue_run q' ops' end.

Definition buffer_step (b : buffer) (o : bop) : outcome unit (buffer * bres) :=
  match o with
  | BWrite d => Ok (buffer_write b d, RWrote)
  | BRead n => match buffer_read b n with Ok (x, b') => Ok (b', RGot x) | Err _ => Ok (b, RFailed) | UB => UB end
  end.
Fixpoint buffer_run (b : buffer) (ops : list bop) : outcome unit (list bres) :=
  match ops with
  | [] => Ok []
  | o :: ops' => do (b', r) <- buffer_step b o; do rs <- buffer_run b' ops'; Ok (r :: rs)
  end.
(** Bytes written by, and asked for by, a history. *)
Definition written (ops : list bop) : Z :=
  fold_right (fun o n => match o with BWrite d => Z.of_nat (length d) | BRead _ => 0 end + n) 0 ops.
(** No read asks for more than has been written and not yet read, nor for a negative number of bytes. *)
Fixpoint no_overread (avail : Z) (ops : list bop) : bool :=
  match ops with
  | [] => true
  | BWrite d :: ops' => no_overread (avail + Z.of_nat (length d)) ops'
  | BRead n :: ops' => (0 <=? n) && (n <=? avail) && no_overread (avail - n) ops'
  end.
(** No read ends at a multiple of 64 (where the allocation may end). *)
Fixpoint read_ends_ok (pos : Z) (ops : list bop) : bool :=
  match ops with
  | [] => true
  | BWrite d :: ops' => read_ends_ok pos ops'
  | BRead n :: ops' => negb ((pos + n) mod 64 =? 0) && read_ends_ok (pos + n) ops'
  end.
