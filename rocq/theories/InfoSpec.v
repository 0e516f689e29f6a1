(** What element information should hold, from what the providers answered. *)
From Verif Require Import Common InfoModel.
Local Open Scope Z_scope.

(** every provider that answers has as many names as it says *)
Definition honest (l : list (list Z * reply)) : Prop :=
  forall x code count names, In x l -> snd x = Answer code count names -> code = 0 -> count <= Z.of_nat (length names).
(** the names each provider gave, as many as it says, in order, with the provider *)
Definition listing (l : list (list Z * reply)) : list (list Z * list Z) :=
  concat (map (fun x => match snd x with Answer code count names => if code =? 0 then map (fun s => (s, fst x)) (firstn (Z.to_nat count) names) else [] | Lost _ => [] end) l).
(** nothing that was given out since [h0] is still held, and what was there before is as it was *)
Definition returned (h0 h : heap) : Prop := exists k, h = h0 ++ repeat Freed k.
