(** C19: a linked list behaves as a list. *)
From Verif Require Import Common ListModel ListSpec ListProofs.

(** For every history of operations whose item arguments name items that are in
    the list: no operation dereferences NULL, loses or duplicates an item, or
    fails to terminate, and every result is the one of the ideal list. *)
Theorem C19_list_is_list : forall ops, conforms rtList_Create ([], []) ops.
Proof. exact (fun ops => conforms_ok ops rtList_Create ([], []) linv_create). Qed.
Print Assumptions C19_list_is_list.

(** A concrete history (insert at both ends and in the middle, remove from the
    middle, reuse the recycled item). *)
Fixpoint rl_run (l : rlist) (ops : list lop) : outcome lerr (list lres) :=
  match ops with
  | [] => Ok []
  | o :: ops' => do (l', r) <- rl_step l o; do rs <- rl_run l' ops'; Ok (r :: rs)
  end.
Example C19_witness :
  rl_run rtList_Create [LPushBack (Some 5%Z); LPushFront (Some 4%Z); LInsertAfter (Some 6%Z) 0; LInsertBefore (Some 7%Z) 0;
                        LNext 1; LPrev 2; LRemove 0 false; LPrev 2; LPushBack None; LGetData 0; LBack; LSize; LRemoveAll true; LFront]
  = Ok [LItem (Some 0); LItem (Some 1); LItem (Some 2); LItem (Some 3);
        LItem (Some 3); LItem (Some 0); LDone; LItem (Some 3); LItem (Some 0); LPtr 5%Z; LItem (Some 0); LNum 4; LDone; LItem None]
  /\ llegal [(0, 5%Z)] (LRemove 0 false).
Proof. split; [reflexivity|left; reflexivity]. Qed.
