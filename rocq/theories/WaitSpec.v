(** How long the calls should wait. *)
From Coq Require Import String.
From Verif Require Import Common TextSpec WaitModel.
From Coq Require Import List ZArith Bool.
Import ListNotations.
Local Open Scope Z_scope.

(** What was last said about a kind of call: newest first. *)
Fixpoint said (k : kind) (newest_first : list op) : option Z :=
  match newest_first with
  | [] => None
  | Config j n :: l => if match j, k with KGet, KGet | KSet, KSet | KGetMulti, KGetMulti | KSetMulti, KSetMulti | KSubscribe, KSubscribe => true | _, _ => false end then Some n else said k l
  | ConfigAll v :: l => Some (v k)
  end.

(** The kind of timeout that goes with a call for which the caller gave none. *)
Inductive uses : call -> kind -> Prop :=
| u1 : uses Get KGet | u2 : uses GetExt KGet | u3 : uses RowNames KGet | u4 : uses ElementInfo KGet
| u5 : uses GetExtWild KGetMulti | u6 : uses (SetMulti 0) KSetMulti
| u7 : uses (Set_ 0) KSet | u8 : uses SetCommit KSet | u9 : uses AddRow KSet | u10 : uses RemoveRow KSet | u11 : uses Invoke KSet
| u12 : uses (Subscribe (-1)) KSubscribe.

(** A file that holds a number, possibly followed by something that is no digit. *)
Definition holds (content : list Z) (n : Z) : Prop :=
  exists s r, content = s ++ r /\ denotes s n /\ Forall (fun c => c <> 0) content /\ (length content < 25)%nat /\
    match r with [] => True | c :: _ => ~ dec_char c end.

Definition no_files : list Z -> option (list Z) := fun _ => None.
