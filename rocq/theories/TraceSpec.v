(** Specification of the trace context (C101): the context is that of the request being handled. *)
From Verif Require Import Common TraceModel.
Local Open Scope list_scope.
Local Open Scope Z_scope.

(** two texts; the empty one is none *)
Definition trace : Type := list Z * list Z.
Definition none : trace := ([], []).
(** what an array of [n] bytes has room for *)
Definition seen (s : list Z) (n : option Z) : option (list Z) := option_map (fun n => firstn (Z.to_nat (n - 1)) s) n.
(** the text given, or none *)
Definition given (s : option (list Z)) : list Z := match s with Some s => s | None => [] end.
(** What is read: each program begins with the context of the request it handles, or with none, and
    changes only its own. *)
Fixpoint ideal (c : trace) (t : nat) (a : prog) : list note :=
  match a with
  | Done => []
  | Set_ p s k => ideal (given p, given s) t k
  | Clear k => ideal none t k
  | Get n m k => mkNote t (seen (fst c) n) (seen (snd c) m) :: ideal c t k
  | Call q _ _ h _ k => ideal c q h ++ ideal c t k
  | Start q _ _ h k => ideal c q h ++ ideal c t k
  | Event q h k => ideal none q h ++ ideal c t k
  end.
(** the context a program leaves behind *)
Fixpoint last (c : trace) (a : prog) : trace :=
  match a with
  | Done => c
  | Set_ p s k => last (given p, given s) k
  | Clear k => last none k
  | Get _ _ k | Call _ _ _ _ _ k | Start _ _ _ _ k | Event _ _ k => last c k
  end.

Definition text_ok (s : option (list Z)) : Prop := is_cstr (given s) = true /\ (length (given s) <= 510)%nat.
Definition room_ok (n : option Z) : Prop := match n with Some n => 1 <= n | None => True end.
Definition request_ok (method payload : list Z) : Prop := is_cstr method = true /\ (length method <= 1000)%nat /\ Z.of_nat (length payload) < 2 ^ 31 - 32768.
(** The programs considered: texts of at most 510 bytes; arrays of at least one byte; [busy]: the threads
    at work, none of which handles another request or event meanwhile; a handler that answers later
    leaves no context, neither does an event handler; a request is started asynchronously only
    without a context. *)
Fixpoint proper (busy : list nat) (c : trace) (a : prog) : Prop :=
  match a with
  | Done => True
  | Set_ p s k => text_ok p /\ text_ok s /\ proper busy (given p, given s) k
  | Clear k => proper busy none k
  | Get n m k => room_ok n /\ room_ok m /\ proper busy c k
  | Call q method payload h later k => ~ In q busy /\ request_ok method payload /\ proper (q :: busy) c h /\ (later = true -> last c h = none) /\ proper busy c k
  | Start q method payload h k => ~ In q busy /\ request_ok method payload /\ c = none /\ proper (q :: busy) c h /\ proper busy c k
  | Event q h k => ~ In q busy /\ proper (q :: busy) none h /\ last none h = none /\ proper busy c k
  end.
