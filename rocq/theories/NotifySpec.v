(** What the subscribers of a provider are told (C90, C91). *)
From Coq Require Import String.
From Verif Require Import Common Bytes Errors Value WireModel WireSpec MsgModel.
From Verif Require SubsModel SubsSpec TokenModel NamesSpec.
From Verif Require Import ConsumeModel ConsumeSpec NotifyModel.
Local Open Scope string_scope.
Local Open Scope list_scope.
Local Open Scope Z_scope.

(** A subscription: the process and the component that made it, what it asked for, its handler. *)
Record seat := mkSeat { v_who : list Z; v_comp : Z; v_req : req; v_handler : Z }.
Definition same_seat (who : list Z) (comp : Z) (k : req) (v : seat) : bool :=
  bytes_eqb (v_who v) who && (v_comp v =? comp) && same_req (v_req v) k.
(** The subscriptions after a call with its result. *)
Definition after (V : list seat) (o : op) (rc : Z) : list seat :=
  match o with
  | Sub who comp k h _ _ => if rc =? E_SUCCESS then V ++ [mkSeat who comp k h] else V
  | Unsub who comp k => List.filter (fun v => negb (same_seat who comp k v)) V
  | Gone who => List.filter (fun v => negb (bytes_eqb (v_who v) who)) V
  | Publish _ _ _ => V
  end.
(** The name subscribed to is a name of the element [n] (C21); the elements do not change. *)
Definition wants (T : SubsModel.state) (look : list Z -> option nat) (n : nat) (v : seat) : bool :=
  match look (q_event (v_req v)) with
  | Some e =>
    match SubsModel.find_top e (SubsModel.tops T), SubsSpec.path_of T n with
    | Some (up, t), Some p =>
        match TokenModel.event_matches (q_event (v_req v)) (SubsModel.el_node t :: up) p with Ok b => b | _ => false end
    | _, _ => false
    end
  | None => false
  end.
(** what the provider keeps of a subscription *)
Definition key_of (v : seat) : SubsModel.key :=
  SubsModel.mkKey (v_who v) (v_comp v) (q_event (v_req v)) (q_filter (v_req v)) (to_signed 32 (q_interval (v_req v))) (to_signed 32 (q_duration (v_req v))) false.
(** what its handler is called with *)
Definition arrives (ev : event) : event := mkEvent (Some (the_name (ev_name ev))) (ev_type ev) (seen_object false (ev_data ev)).
Definition told (ev : event) (v : seat) : call := mkCall (v_who v) (v_comp v) (v_handler v) (arrives ev).

(** ** the histories for which this holds *)
Definition text (s : list Z) : bool := is_cstr s && (Z.of_nat (length s) <? 2 ^ 31 - 2).
(** the filter is a comparison of numbers or strings, or made of those; it can be sent *)
Definition sound_req (k : req) : bool :=
  text (q_event k) && plain k && sendable_filter (q_filter k) && complete_filter (q_filter k) && in_u 32 (q_interval k) && in_u 32 (q_duration k).
Definition sound_who (who : list Z) (comp : Z) : bool := text who && in_s 32 comp.
(** the payload of a request is a message of its own *)
Definition sound_size (k : req) (comp : Z) : Prop := forall p, payload k comp = Ok p -> msg_size p < 2 ^ 32.
(** An event that is not a change of value (the filters decide on those, C37) nor the end of a subscription. *)
Definition sound_event (ev : event) : bool :=
  name_ok (ev_name ev) && in_s 32 (ev_type ev) && sendable_object (ev_data ev) && negb (ev_type ev =? 2) && negb (ev_type ev =? 6).
(** the message to a subscriber is not too long for its metadata *)
Definition fits (ev : event) (k : SubsModel.key) : Prop :=
  forall m, append_event ev (SubsModel.k_filter k) (to_unsigned 32 (SubsModel.k_interval k)) (to_unsigned 32 (SubsModel.k_duration k)) (SubsModel.k_comp k) msg_init = Ok m -> msg_size m < 2 ^ 31 - 32768.
(** the answer of the event handler to the next request *)
Definition next_answer (E : env) (S : sys) : Z := fst (handlers E (length (SubsModel.log (prov S)))).
Definition fair (E : env) (S : sys) (o : op) : Prop :=
  match o with
  | Sub who comp k _ initial got =>
      sound_req k = true /\ sound_who who comp = true /\ sound_size k comp /\
      0 <= next_answer E S < 100 /\ next_answer E S <> E_SUBSCRIPTION_ALREADY_EXIST /\
      match got with Some (err, v) => err = E_SUCCESS /\ sendable_value v = true | None => True end
  | Unsub who comp k => sound_req k = true /\ next_answer E S = 0
  | Gone _ => True
  | Publish _ ev _ => sound_event ev = true /\ forall x, In x (SubsModel.subs (prov S)) -> fits ev (SubsModel.s_key x)
  end.
(** The states a history leads to, with the subscriptions there are then. *)
Inductive reach (E : env) (S0 : sys) : sys -> list seat -> Prop :=
| reach_start : reach E S0 S0 []
| reach_step : forall S V o S' rc cs, reach E S0 S V -> fair E S o -> step E S o = Ok (S', (rc, cs)) -> reach E S0 S' (after V o rc).
(** the components of a process have different numbers; the provider has a name *)
Definition sound_start (E : env) (comps : list Z -> list Z) : Prop := (forall who, NoDup (comps who)) /\ text (me E) = true.
