(** Specification of the notices (C103): who is up, who holds direct handles, and what each program
    is told. *)
From Coq Require Import String.
From Verif Require Import Common RouteModel RouteSpec RouterModel RouterSpec AdviceModel.
Local Open Scope string_scope.
Local Open Scope list_scope.
Local Open Scope Z_scope.

(** a program as its user sees it: the inbox while it is connected, the direct handles it holds,
    and the inboxes it has been told are gone *)
Record seen := mkSeen { up : option (list Z); holds : Z; heard : list (list Z) }.
Definition nobody : Z -> seen := fun _ => mkSeen None 0 [].
(** every other program that holds a direct handle is told *)
Definition tell (s : Z -> seen) (p : Z) (i : list Z) : Z -> seen := fun q =>
  if negb (q =? p) && is_some (up (s q)) && (0 <? holds (s q)) then mkSeen (up (s q)) (holds (s q)) (heard (s q) ++ [i]) else s q.
Definition gone (s : Z -> seen) (p : Z) : Z -> seen :=
  match up (s p) with
  | Some i => put (tell s p i) p (mkSeen None 0 (heard (s p)))
  | None => s
  end.
Definition happen (s : Z -> seen) (o : op) : Z -> seen :=
  match o with
  | Connect p i => match up (s p) with None => put s p (mkSeen (Some i) 0 (heard (s p))) | Some _ => s end
  | OpenDirect p _ => match up (s p) with Some i => put s p (mkSeen (Some i) (holds (s p) + 1) (heard (s p))) | None => s end
  | CloseDirect p => put s p (mkSeen (up (s p)) (holds (s p) - 1) (heard (s p)))
  | Close p | Die p => gone s p
  | Listen _ _ _ | Unlisten _ _ => s
  end.
Definition history (l : list op) : Z -> seen := fold_left happen l nobody.

(** ** histories in which names and handles are used properly *)
Definition named (l : list op) : list (list Z) :=
  flat_map (fun o => match o with Connect _ i => [i] | Listen _ e _ => [e] | _ => [] end) l.
Definition used (l : list op) : list (list (list Z)) := map split builtin ++ split ADVISORY :: map split (named l).
(** an inbox as rtConnection.c makes it *)
Definition proper_inbox (i : list Z) : bool := printable i RTMSG_MAX_EXPRESSION_LEN && has (bs ".INBOX.") i.
(** names do not stand for the topic of the notices *)
Record apart (l : list op) : Prop := {
  a_tidy : tidy (used l);
  a_names : forall e, In e (named l) -> good_name e /\ serves (split ADVISORY) (split e) = false;
  a_inbox : forall p i, In (Connect p i) l -> proper_inbox i = true;
  a_ids : forall p e id, In (Listen p e id) l -> id <> 2;
  a_removed : forall p e, In (Unlisten p e) l -> (dots e <= 31)%nat /\ literal (used l) (split e) /\ below (split e) (split ADVISORY) = false }.
(** handles are closed once, before the program's own; there is a free slot for the listener; less
    than 2^32 handles at a time *)
Definition orderly (s : Z -> seen) (o : op) : Prop :=
  match o with
  | OpenDirect p room => room = true /\ holds (s p) < 2 ^ 32 - 1
  | CloseDirect p => 0 < holds (s p)
  | Close p => holds (s p) = 0
  | _ => True
  end.
Fixpoint all_orderly (s : Z -> seen) (l : list op) : Prop :=
  match l with [] => True | o :: l => orderly s o /\ all_orderly (happen s o) l end.
