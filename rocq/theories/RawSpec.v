(** Specification of raw data subscriptions (C100): who is subscribed to what. *)
From Coq Require Import String.
From Verif Require Import Common Bytes TextModel Errors RawModel.
From Coq Require Import List ZArith Bool.
Import ListNotations.
Local Open Scope string_scope.
Local Open Scope list_scope.
Local Open Scope Z_scope.

(** [active]: the subscriptions in force, each with its handler; [parked]: those withdrawn while the
    provider was away; [direct]: the events with a direct connection *)
Record ideal := mkIdeal { active : list (name * Z); parked : list name; direct : list name }.
Definition nothing : ideal := mkIdeal [] [] [].
Definition is (e : name) (x : name) : bool := bytes_eqb x e.
Definition for_ (e : name) (x : name * Z) : bool := is e (fst x).
Definition subscribed (i : ideal) (e : name) : bool := existsb (for_ e) (active i).
Definition away (i : ideal) (e : name) : bool := existsb (is e) (parked i).
Definition ideal_step (i : ideal) (o : op) : ideal * list effect :=
  match o with
  | Subscribe e h a =>
    if subscribed i e then (i, [Code E_SUBSCRIPTION_ALREADY_EXIST]) else
    match a with
    | Accept => (mkIdeal (active i ++ [(e, h)]) (filter (fun x => negb (is e x)) (parked i)) (direct i), [Code E_SUCCESS])
    | NoProvider => (i, [Code E_TIMEOUT])
    | Refuse c => (i, [Code c])
    | Exists_ => (i, [])
    end
  | Unsubscribe e a =>
    if subscribed i e || away i e then
      (mkIdeal (filter (fun x => negb (for_ e x)) (active i))
         (match a with NoProvider => if away i e then parked i else parked i ++ [e] | _ => filter (fun x => negb (is e x)) (parked i) end) (direct i), [Code E_SUCCESS])
    else (i, [Code E_INVALID_OPERATION])
  | OpenDirect e => if existsb (is e) (direct i) then (i, [Code E_ELEMENT_NAME_DUPLICATE]) else (mkIdeal (active i) (parked i) (direct i ++ [e]), [Code E_SUCCESS])
  | CloseDirect e => (mkIdeal (active i) (parked i) (filter (fun x => negb (is e x)) (direct i)), [Code E_SUCCESS])
  | Publish e _ => (i, map (fun x => Ran (snd x) e) (filter (for_ e) (active i)))
  end.
Fixpoint ideal_run (i : ideal) (l : list op) : list (list effect) :=
  match l with [] => [] | o :: l => let (i, r) := ideal_step i o in r :: ideal_run i l end.

(** Names of events: of at most 200 bytes, not beginning with a digit or a minus sign or with "rawdata.". *)
Definition plain (e : name) : Prop :=
  (length e <= 200)%nat /\ match e with [] => False | c :: _ => ~ (48 <= c <= 57) /\ c <> 45 end /\ firstn 8 e <> bs "rawdata.".

(** the histories considered: there are at most 128 subscriptions, the provider does not say that it has
    one already; a subscription withdrawn while the provider was away is renewed before it is refused,
    its event gets no new direct connection and is not withdrawn again over one; and a direct connection
    is closed only after the subscription was withdrawn *)
Definition proper_step (i : ideal) (o : op) : Prop :=
  match o with
  | Subscribe e _ a => plain e /\ (length (active i) < 128)%nat /\ match a with Exists_ => False | Refuse _ => away i e = false | _ => True end
  | Unsubscribe e _ => plain e /\ (away i e = true -> existsb (is e) (direct i) = false)
  | OpenDirect e => plain e /\ away i e = false
  | CloseDirect e => plain e /\ existsb (is e) (direct i) = true /\ away i e = false /\ subscribed i e = false
  | Publish e _ => plain e
  end.
Fixpoint proper (i : ideal) (l : list op) : Prop :=
  match l with [] => True | o :: l => proper_step i o /\ proper (fst (ideal_step i o)) l end.
