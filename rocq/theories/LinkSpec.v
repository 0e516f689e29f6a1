(** Specification of the connection between clients and the broker (C76 to C78): what a program that
    sends and a program that receives a message see of it. *)
From Verif Require Import Common Bytes HeaderModel HeaderSpec FramingModel FramingSpec RouteModel RouteSpec RouterModel RouterSpec LinkModel.
Local Open Scope Z_scope.

(** recv never fails other than by a lost connection / never fails at all *)
Definition no_other_error (rs : list recv_ans) : bool := forallb (fun a => match a with Failing => false | _ => true end) rs.
Definition quiet (rs : list recv_ans) : bool := forallb (fun a => match a with Data _ | Intr => true | _ => false end) rs.
(** how often recv returns something else than EINTR *)
Definition deliveries (rs : list recv_ans) : nat := length (filter (fun a => match a with Intr => false | _ => true end) rs).

(** sendmsg takes the message as a whole or not at all *)
Definition whole (n : nat) (ss : list send_ans) : bool := forallb (fun a => match a with Sent k => (n <=? k)%nat | _ => true end) ss.
(** four attempts; a lost connection is reported at once *)
Definition verdict (ss : list send_ans) : sent :=
  match find (fun a => match a with SFailing => false | _ => true end) (firstn 4 ss) with
  | Some (Sent _) => SOk | Some _ => SNoConnection | None => SFail
  end.
(** what is seen of a message: sequence number, flags, control data, length, topics and payload *)
Definition as_content (m : msg) := ((m_seq m, m_flags m, m_control m, Z.of_nat (length (m_payload m)), Some (m_topic m), Some (m_reply m)), m_payload m).
(** a message a program can send *)
Definition letter (m : msg) : bool :=
  u32 (m_seq m) && u32 (m_flags m) && (m_control m =? 0) && is_cstr (m_topic m) && is_cstr (m_reply m)
  && (Z.of_nat (length (m_topic m)) <? 256) && (Z.of_nat (length (m_reply m)) <? 256)
  && bytes_ok (m_payload m) && (Z.of_nat (length (m_payload m)) <? 1073741824).
(** the size of a message on the wire *)
Definition size (m : msg) : nat := 32 + length (m_topic m) + length (m_reply m) + length (m_payload m).

(** what client [c] is to get, of all that is delivered *)
Definition for_client (c : Z) (ds : list delivery) : list msg :=
  flat_map (fun d => match d with ToClient x m => if x =? c then [m] else [] | ToBroker _ => [] end) ds.
Definition to_clients (ds : list delivery) : Prop := forall m, ~ In (ToBroker m) ds.
(** the messages whose calls have been successful *)
Definition accepted (l : list (msg * list send_ans)) : list msg :=
  map fst (filter (fun x => match verdict (snd x) with SOk => true | _ => false end) l).
