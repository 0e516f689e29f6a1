(** What a consumer's subscriptions are (C43, C65). *)
From Verif Require Import Common Value Errors.
From Verif Require SubsModel SubsSpec.
From Verif Require Import RetryModel ConsumeModel.
Local Open Scope list_scope.
Local Open Scope Z_scope.

Definition plain (k : req) : bool := SubsSpec.plain_filter (q_filter k).
(** the same subscription: name, filter, interval and duration *)
Definition same_req (a b : req) : bool :=
  bytes_eqb (q_event a) (q_event b) && SubsSpec.same_filter (q_filter a) (q_filter b) && (q_interval a =? q_interval b) && (q_duration a =? q_duration b).
(** An active subscription: what it is, whether it is for raw data, its handler. *)
Notation act := (req * bool * Z)%type.
Definition is_act (k : req) (raw : bool) (x : act) : bool := same_req (fst (fst x)) k && eqb (snd (fst x)) raw.
Definition minus (v : list act) (k : req) (raw : bool) : list act := List.filter (fun x => negb (is_act k raw x)) v.
Definition minus_all (v : list act) (ks : list req) : list act := fold_left (fun v k => minus v k false) ks v.
Definition handler_of (v : list act) (k : req) (raw : bool) : option Z := option_map snd (List.find (is_act k raw) v).
(** the active subscriptions after a call with its result *)
Definition replay (v : list act) (o : op) (r : result) : list act :=
  match o, r with
  | Subscribe k raw h _ _, Code c => if c =? E_SUCCESS then minus v k raw ++ [(k, raw, h)] else v
  | SubscribeEx raw xs _, Code c => if c =? E_SUCCESS then fold_left (fun v x => minus v (x_req x) raw ++ [(x_req x, raw, x_handler x)]) xs v else v
  | Done _ h _ _, Called k c => if c =? E_SUCCESS then minus v k false ++ [(k, false, h)] else v
  | Unsubscribe e _, Code _ => minus v (mkReq e FNull 0 0) false
  | UnsubscribeEx ks _, Code _ => minus_all v ks
  | Deliver k complete _, Ran _ => if complete then minus v k false else v
  | _, _ => v
  end.
Fixpoint replays (v : list act) (ops : list op) (rs : list result) : list act :=
  match ops, rs with o :: ops, r :: rs => replays (replay v o r) ops rs | _, _ => v end.

(** what the state holds *)
Definition act_of (x : entry) : list act := if e_dirty x then [] else match e_raw x with Some r => [(e_req x, r, e_handler x)] | None => [] end.
Definition actives (s : state) : list act := flat_map act_of (entries s).
Definition same_entry (k : req) (raw : bool) (x : entry) : bool := same_req (e_req x) k && match e_raw x with Some r => eqb r raw | None => false end.
(** withdrawn while the provider was away *)
Definition withdrawn (s : state) (k : req) (raw : bool) : bool := existsb (fun x => same_entry k raw x && e_dirty x) (entries s).

(** What the provider may hold for the consumer, from the requests it has answered. *)
Fixpoint held (l : list wire) (k : req) (raw : bool) : bool :=
  match l with
  | [] => false
  | WSub k' raw' a :: l =>
      if same_req k' k && eqb raw' raw then match a with Accepted | Lost => true | Refused c => (c =? E_SUBSCRIPTION_ALREADY_EXIST) || held l k raw | NotFound => held l k raw end else held l k raw
  | WUnsub k' raw' a :: l =>
      if same_req k' k && eqb raw' raw then match a with Accepted => false | _ => held l k raw end else held l k raw
  end.

(** ** the histories for which this holds *)
(** no provider claims to know a subscription already *)
Definition clear_ans (a : answer) : bool := match a with Refused c => negb (c =? E_SUBSCRIPTION_ALREADY_EXIST) | _ => true end.
(** a refused or lost request is not for a subscription withdrawn while the provider was away *)
Definition fresh (s : state) (k : req) (raw : bool) (a : answer) : bool := match a with Refused _ | Lost => negb (withdrawn s k raw) | _ => true end.
Definition fair (s : state) (o : op) : bool :=
  match o with
  | Subscribe k raw _ a _ => plain k && clear_ans a && fresh s k raw a
  | SubscribeEx raw xs us => negb raw && forallb (fun x => plain (x_req x) && clear_ans (x_ans x) && fresh s (x_req x) false (x_ans x)) xs && Nat.leb (length xs) (length us)
  | SubscribeAsync k => plain k && negb (withdrawn s k false)
  | SubscribeExAsync ks us => forallb (fun k => plain k && negb (withdrawn s k false)) ks && Nat.leb (length ks) (length us)
  | Done n _ a _ => match nth_error (waiting s) n with Some _ => match a with Lost => false | Refused c => negb (c =? E_SUCCESS) | _ => true end | None => false end
  | Unsubscribe _ _ => true
  | UnsubscribeEx ks us => forallb plain ks && Nat.leb (length ks) (length us)
  | Deliver k _ _ => plain k
  end.
Fixpoint fair_run (s : state) (ops : list op) : bool :=
  match ops with
  | [] => true
  | o :: ops => fair s o && match step s o with Ok (s', _) => fair_run s' ops | _ => false end
  end.
