(** C17: a vector behaves as a list. *)
From Verif Require Import Common VectorModel VectorSpec VectorProofs.

(** For every history of operations the vector never accesses memory out of
    bounds or uninitialised ([Ok], not [UB]) and every result is the list's. *)
Theorem C17_vector_is_list : forall ops,
  vec_run rtVector_Create ops = Ok (list_run [] ops).
Proof. exact (fun ops => run_ok ops rtVector_Create [] vrel_create). Qed.
Print Assumptions C17_vector_is_list.

(** Removal keeps the order of the others: what the specification's
    [remove_first] does, spelled out. *)
Theorem C17_removal_keeps_order : forall (p : Z -> bool) l, existsb p l = true ->
  exists a x b, l = a ++ x :: b /\ p x = true /\ existsb p a = false /\
    remove_first p l = a ++ b /\ find p l = Some x.
Proof. exact first_split. Qed.
Print Assumptions C17_removal_keeps_order.

Example C17_witness :
  vec_run rtVector_Create (map VPush [5; 6; 7; 6]%Z ++ [VRemove 6%Z; VAt 1; VAt 2; VAt 9; VSize; VRemove 9%Z]) =
  Ok [VOk; VOk; VOk; VOk; VOk; VPtr 7%Z; VPtr 6%Z; VPtr 0%Z; VNum 3; VFail].
Proof. reflexivity. Qed.
