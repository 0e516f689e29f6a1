(** C20: the property set of an object, and the references behind it. *)
From Coq Require Import String.
From Verif Require Import Common CommonFacts RefModel RefSpec RefProofs RefProofs2 RefProofs3 RefProofs4 RefProofs5.
Local Open Scope string_scope.
Local Open Scope list_scope.

(** For every history of sets and of references taken and given back: no step uses
    freed memory, the object's properties are those of the specification in the same
    order, every name reads back its latest contents, references still held stay
    readable, and releasing everything frees every cell. *)
Theorem C20_object_history : forall name ops,
  exists s, client_run (new_client name) ops = Ok s /\
    api_contents (cl_heap s) (cl_obj s) = Ok (sp_contents (spec_run ops)) /\
    (forall nm, api_get (cl_heap s) (cl_obj s) nm = Ok (spec_get (sp_contents (spec_run ops)) nm)) /\
    held_ok (cl_heap s) (cl_held s) (sp_held (spec_run ops)) /\
    exists h', release_each (cl_heap s) (cl_obj s :: cl_held s) = Ok h' /\ forall p, get h' p = None.
Proof. exact object_history. Qed.
Print Assumptions C20_object_history.

(** What a set does: the name reads back the new contents, all other names read as
    before, existing names keep their positions and a new name comes last. *)
Theorem C20_set_effect : forall c nm d,
  (forall nm', spec_get (spec_set c nm d) nm' = if bytes_eqb nm nm' then Some d else spec_get c nm') /\
  map fst (spec_set c nm d) = if is_some (spec_get c nm) then map fst c else map fst c ++ [nm].
Proof. exact (fun c nm d => conj (spec_get_set c nm d) (spec_set_names c nm d)). Qed.
Print Assumptions C20_set_effect.

Theorem C20_names_unique : forall name ops,
  exists s l, client_run (new_client name) ops = Ok s /\ api_contents (cl_heap s) (cl_obj s) = Ok l /\ NoDup (map fst l).
Proof.
  exact (fun name ops => match object_history name ops with
    | ex_intro _ s (conj E (conj C _)) => ex_intro _ s (ex_intro _ _ (conj E (conj C (spec_run_nodup ops)))) end).
Qed.
Print Assumptions C20_names_unique.

(** A history that overwrites the first, the middle and the last property, by both
    functions, while an old property and an old value are still held. *)
Definition C20_ops : list op :=
  [SetProp (bs "a") 1; SetVal (bs "b") 2; SetProp (bs "c") 3; HoldProp (bs "b"); HoldVal (bs "a");
   SetProp (bs "b") 20; SetVal (bs "a") 10; SetProp (bs "c") 30; SetProp (bs "a") 100; Drop 0; SetVal (bs "d") 4]%Z.
Example C20_witness : exists s, client_run (new_client (Some (bs "obj"))) C20_ops = Ok s /\
  api_contents (cl_heap s) (cl_obj s) = Ok [(bs "a", 100); (bs "b", 20); (bs "c", 30); (bs "d", 4)]%Z /\
  map (read_value (cl_heap s)) (cl_held s) = [Ok 1%Z].
Proof. eexists. split; [vm_compute; reflexivity|]. split; vm_compute; reflexivity. Qed.

(** ** Where the promise fails *)
(** see [reset_same]: the list of the object is linked to itself and never ends *)
Theorem C20_set_same_property_refuted :
  exists h o, reset_same = Ok (h, o) /\ forall fuel, exists p, object_properties h o = Ok (Some p) /\ walk fuel h (Some p) = UB.
Proof. exact reset_same_refuted. Qed.
Print Assumptions C20_set_same_property_refuted.

(** Setting under a name the very value read from it (a borrowed reference): the old
    value is released before the new one is retained, and they are the same. *)
Definition reset_value : outcome unit heap :=
  let (h, o) := object_init [] (Some (bs "obj")) in
  let (h, v) := value_init h 1 in
  do h <- object_set_value h o (Some (bs "a")) (Some v);
  do h <- release h v;
  do v' <- object_get_value h o (Some (bs "a"));
  object_set_value h o (Some (bs "a")) v'.
(** Setting a property of an object to the value it already has frees the value and then stores it: a use after free. *)
Theorem C20_set_own_value_refuted : reset_value = UB.
Proof. exact (eq_refl : reset_value = UB). Qed.
Print Assumptions C20_set_own_value_refuted.
