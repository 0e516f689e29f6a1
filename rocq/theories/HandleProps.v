(** C49, C61: component ids and handles. *)
From Coq Require Import String.
From Verif Require Import Common CoreModel HandleModel HandleSpec HandleProofs.
Local Open Scope Z_scope.
Local Open Scope list_scope.

(** No id is ever given out twice; at most one live handle per component name; at most 16. *)
Theorem C49_ids_unique : forall ops s hs, allocs_fresh init ops -> run init ops = Ok (s, hs) ->
  NoDup (map h_id hs) /\ NoDup (map h_id (handles s)) /\ NoDup (map h_name (handles s)) /\
  (length (handles s) <= 16)%nat.
Proof. exact ids_unique. Qed.
Print Assumptions C49_ids_unique.

(** The id of a live handle resolves to it, and so does its name; an id that belongs to no
    live handle resolves to the newest handle instead of nothing. *)
Theorem C49_lookup_partial : forall ops s hs, allocs_fresh init ops -> run init ops = Ok (s, hs) ->
  (forall h, live s h -> get_by_id s (h_id h) = Some h) /\
  (forall n h, get_by_name s n = Some h <-> live s h /\ h_name h = n) /\
  (forall id, (forall h, live s h -> h_id h <> id) ->
     get_by_id s id = match rev (handles s) with [] => None | h :: _ => Some h end).
Proof. exact lookups. Qed.
Print Assumptions C49_lookup_partial.

(** Opening gives a handle that both lookups find and leaves the other components alone. *)
Theorem C49_open : forall ops s hs n a b r code h s', allocs_fresh init ops -> run init ops = Ok (s, hs) ->
  fresh_step s (Open n a b r) = true -> open s n a b r = Ok (code, Some h, s') ->
  get_by_id s' (h_id h) = Some h /\ get_by_name s' n = Some h /\
  (forall x, live s x -> h_name x <> n -> live s' x /\ h_id x <> h_id h).
Proof. exact open_result. Qed.
Print Assumptions C49_open.

(** Opening and closing never touches freed memory while the broker can be reached. *)
Theorem C61_open_safe_partial : forall ops, allocs_fresh init ops -> forallb broker_up ops = true ->
  opens ops <= 2147483647 -> exists r, run init ops = Ok r.
Proof. exact open_safe. Qed.
Print Assumptions C61_open_safe_partial.

Local Open Scope string_scope. Local Open Scope list_scope.
Definition A := bs "compA". Definition B := bs "compB".

(** After compA is closed, its id resolves to compB. *)
Theorem C49_lookup_refuted : exists ops s hs h,
  allocs_fresh init ops /\ run init ops = Ok (s, hs) /\ get_by_id s 1 = Some h /\ h_id h = 2 /\ h_name h = B.
Proof.
  exists [Open A 100 true true; Open B 200 true true; Close 100]. eexists. eexists. eexists.
  split; [cbn; auto|]. split; [reflexivity|]. split; [reflexivity|]. split; reflexivity.
Qed.
Print Assumptions C49_lookup_refuted.

(** Reopening the only component while the broker is down frees its handle twice. *)
Theorem C61_reopen_refuted : allocs_fresh init [Open A 100 true true; Open A 100 false true] /\
  run init [Open A 100 true true; Open A 100 false true] = UB.
Proof. split; [cbn; auto|reflexivity]. Qed.
Print Assumptions C61_reopen_refuted.

Example C49_witness : exists s hs,
  run init [Open A 100 true true; Open B 200 true true; Open A 300 true true; Close 200; Open B 100 true true] = Ok (s, hs) /\
  map h_id hs = [1; 2; 3; 4] /\ map h_id (handles s) = [3; 4] /\ get_by_name s B = Some (mkHandle 100 B 4) /\
  allocs_fresh init [Open A 100 true true; Open B 200 true true; Open A 300 true true; Close 200; Open B 100 true true].
Proof. eexists. eexists. split; [vm_compute; reflexivity|]. repeat split. Qed.
