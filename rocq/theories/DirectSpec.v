(** What direct connections are for, said without their lists and threads. *)
From Coq Require Import String.
From Verif Require Import Common Bytes HeaderModel MsgModel LinkModel DirectModel.
Local Open Scope list_scope.
Local Open Scope Z_scope.

(** names that fit their arrays: a consumer's with the address made from it, a parameter's *)
Definition fits_consumer (E : env) (c : name) : Prop := (length (address E c) = 20 + length (prog E) + 1 + length c)%nat.
Definition fits_name (d : name) : Prop := (length d <= 255)%nat.
(** a consumer opens a direct connection only when the provider has noticed the end of its former one *)
Definition settled (E : env) (s : state) (c : name) : Prop :=
  forall t fd, nth_error (threads s) t = Some (mkThread (address E c) (Serving fd)) -> alive s fd = true.
Definition fair (E : env) (s : state) (o : op) : Prop :=
  match o with Open c d => fits_consumer E c /\ fits_name d /\ settled E s c | _ => True end.
(** the states fair histories lead to *)
Inductive reach (E : env) : state -> Prop :=
| reach_init : reach E init
| reach_step s o s' es : reach E s -> fair E s o -> step E s o = Ok (s', es) -> reach E s'.
(** consumer [c] has a direct connection, number [fd], for parameter [d] *)
Definition connected (s : state) (c d : name) (fd : nat) : Prop := In d (p_open (peers s c)) /\ p_conn (peers s c) = Some fd.
(** the message [m] is [out] seen from its beginning, perhaps with something behind it *)
Definition carries (m out : msg) : Prop := m_read m = 0 /\ exists rest, m_data m = m_data out ++ rest.
(** the same with the steps; [clean]: no consumer gives up or ends while it is connecting *)
Definition clean (s : state) (o : op) : Prop :=
  match o with
  | GiveUp _ _ => False
  | Exit c => p_conn (peers s c) <> None \/ p_open (peers s c) = []
  | _ => True
  end.
Inductive history (E : env) (also : state -> op -> Prop) : state -> list op -> state -> Prop :=
| history_nil s : history E also s [] s
| history_cons s o s1 es l s2 : fair E s o -> also s o -> step E s o = Ok (s1, es) -> history E also s1 l s2 -> history E also s (o :: l) s2.
Definition any (s : state) (o : op) : Prop := True.
(** consumer [c] neither closes [d] nor ends, and no other event is published *)
Definition stays (c d : name) (_ : state) (o : op) : Prop :=
  match o with Close x y => ~ (x = c /\ y = d) | Exit x => x <> c | PubFind _ _ | PubSend _ _ => False | _ => True end.
(** strings and messages that the metadata of a message can hold *)
Definition text_ok (s : list Z) : Prop := is_cstr s = true /\ Z.of_nat (length s) < 2 ^ 31 - 1.
Definition size_ok (m : msg) : Prop := Z.of_nat (length (m_data m)) < 2 ^ 31 - 32768.
