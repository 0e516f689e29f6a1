(** What the subscription file is expected to do. *)
From Verif Require Import Common Bytes Value BufferModel BufferSpec SubsModel CacheModel.
Local Open Scope Z_scope.

(** names of 1 to 254 bytes without NUL *)
Definition short_name (s : list Z) : bool := is_cstr s && negb (bytes_eqb s []) && Nat.leb (length s) 254.
(** subscriptions as API calls make them, except that names are at most 254 bytes long and that
    negations are absent from the filter *)
Definition record_ok (r : record) : bool :=
  let '(k, _, id) := r in
  short_name (k_listener k) && short_name (k_event k) && in_s 32 (k_comp k) && in_s 32 (k_interval k) && in_s 32 (k_duration k) &&
  in_u 32 id && (match k_filter k with FNull => true | f => filter_ok f end).
(** those whose listener is still there *)
Definition remaining (there : list Z -> Z -> bool) (l : list record) : list record := List.filter (present there) l.
(** what a file made of a registry says *)
Definition saved_of (x : sub) : record := (s_key x, s_auto x, s_id x).
Definition synced (s : state) : Prop := map saved_of (file s) = map saved_of (subs s).
(** operations during which no held subscription is made anew: a new row or a newly registered
    element with whose name no held event name begins or agrees *)
Definition quiet (s : state) (o : op) : Prop :=
  match o with
  | AddRow _ t (Sh i _) => forall up te, find_top t (tops s) = Some (up, te) -> forall x, In x (subs s) -> is_prefix (full_name (i_node i :: el_node te :: up)) (k_event (s_key x)) = false
  | Registered n _ => forall x, In x (subs s) -> name_fits (k_event (s_key x)) n = false
  | _ => True
  end.
Fixpoint quiet_run (ans : answers) (s : state) (l : list op) : Prop :=
  match l with [] => True | o :: l => quiet s o /\ forall s' r, step ans s o = Ok (s', r) -> quiet_run ans s' l end.
