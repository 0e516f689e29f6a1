(** Model of requests waiting for their responses, src/rtmessage/rtConnection.c.  A request is
    named by the number of its call; its queue entry lives in the frame of
    rtConnection_SendRequestInternal, so it can be written to until that call returns.  Every
    message is named by the number of its arrival.  Steps taken under con->mutex are one step,
    except that the reader's search and its write are two, because a request that has timed out
    leaves the list without the mutex.  Nested requests made from the reader thread, reconnecting
    and destroying the connection are left out. *)
From Verif Require Import Common.
From Coq Require Import List ZArith Bool.
Import ListNotations.
Local Open Scope Z_scope.

(** the fields of a response that rtConnection.c:998-1100, 1614-1632 looks at *)
Record resp := mkResp { r_seq : Z; r_undeliverable : bool; r_payload : list Z }.
(** where a caller is: waiting for its semaphore, woken, or timed out *)
Inductive phase := Waiting | Woken | Expired.
(** rtConnection.c:151-156 pending_request *)
Record preq := mkPreq { p_no : nat; p_seq : Z; p_sem : nat; p_resp : option (nat * resp); p_phase : phase }.
(** rtConnection.c:151-156, continued *)
Inductive result := Completed (n : nat) (m : resp) | Gone | NotSent | TimedOut | NoData.
(** rtConnection.c:151-156, continued *)
Record state := mkState {
  pend : list preq; held : option (nat * nat * resp); calls : nat; next_seq : Z; arrived : nat;
  results : list (nat * result); released : list nat }.
(** rtConnection.c:555 *)
Definition init : state := mkState [] None 0 1 0 [] [].

(** the steps of the callers and the reader, each cited at [step] *)
Inductive event := Begin (sent : bool) | Arrive (m : resp) | Store | Wake (r : nat) | Expire (r : nat) | Finish (r : nat).

(** rtList walk over pending_requests_list, rtConnection.c:114 *)
Definition find_req (r : nat) (l : list preq) : option preq := find (fun p => Nat.eqb (p_no p) r) l.
(** helper, no code of its own *)
Definition change (r : nat) (f : preq -> preq) (l : list preq) : list preq := map (fun p => if Nat.eqb (p_no p) r then f p else p) l.
(** helper, no code of its own *)
Definition without (r : nat) (l : list preq) : list preq := filter (fun p => negb (Nat.eqb (p_no p) r)) l.
(** helper, no code of its own *)
Definition finish (s : state) (r : nat) (x : result) (free : list nat) : state :=
  mkState (without r (pend s)) (held s) (calls s) (next_seq s) (arrived s) (results s ++ [(r, x)]) (released s ++ free).

(** [Err tt]: the step cannot be taken now; each case cites its lines *)
Definition step (s : state) (e : event) : outcome unit state :=
  match e with
  (* rtConnection.c:990-1010: numbered, put in front of the list and sent, under the mutex *)
  | Begin sent =>
    if is_some (held s) then Err tt else
    let s' := mkState (pend s) None (S (calls s)) ((next_seq s + 1) mod 2 ^ 32) (arrived s) (results s) (released s) in
    if sent then Ok (mkState (mkPreq (calls s) (next_seq s) 0 None Waiting :: pend s) None (calls s') (next_seq s') (arrived s) (results s) (released s))
    else Ok (finish s' (calls s) NotSent [])
  (* rtConnection.c:1596-1618: the first entry with the number is found, or the message is
     released (1699-1702) *)
  | Arrive m =>
    if is_some (held s) then Err tt else
    match find (fun p => p_seq p =? r_seq m) (pend s) with
    | Some p => Ok (mkState (pend s) (Some (p_no p, arrived s, m)) (calls s) (next_seq s) (S (arrived s)) (results s) (released s))
    | None => Ok (mkState (pend s) None (calls s) (next_seq s) (S (arrived s)) (results s) (released s ++ [arrived s]))
    end
  (* rtConnection.c:1611-1613: written to the entry and posted *)
  | Store =>
    match held s with
    | None => Err tt
    | Some (r, n, m) =>
      match find_req r (pend s) with
      | None => UB
      | Some _ => Ok (mkState (change r (fun p => mkPreq (p_no p) (p_seq p) (S (p_sem p)) (Some (n, m)) (p_phase p)) (pend s)) None (calls s) (next_seq s) (arrived s) (results s) (released s))
      end
    end
  (* rtConnection.c:1013-1018: rtSemaphore_TimedWait *)
  | Wake r =>
    match find_req r (pend s) with
    | Some (mkPreq _ _ (S k) _ Waiting) => Ok (mkState (change r (fun p => mkPreq (p_no p) (p_seq p) k (p_resp p) Woken) (pend s)) (held s) (calls s) (next_seq s) (arrived s) (results s) (released s))
    | _ => Err tt
    end
  | Expire r =>
    match find_req r (pend s) with
    | Some (mkPreq _ _ O _ Waiting) => Ok (mkState (change r (fun p => mkPreq (p_no p) (p_seq p) (p_sem p) (p_resp p) Expired) (pend s)) (held s) (calls s) (next_seq s) (arrived s) (results s) (released s))
    | _ => Err tt
    end
  (* rtConnection.c:1061-1109: woken, it takes the mutex; expired, it does not *)
  | Finish r =>
    match find_req r (pend s) with
    | Some (mkPreq _ _ _ x Woken) =>
      if is_some (held s) then Err tt else
      match x with
      | Some (n, m) => if r_undeliverable m then Ok (finish s r Gone [n]) else Ok (finish s r (Completed n m) [])
      | None => Ok (finish s r NoData [])
      end
    | Some (mkPreq _ _ _ _ Expired) => Ok (finish s r TimedOut [])
    | _ => Err tt
    end
  end.
(** A history: one operation after the other; no code of its own. *)
Fixpoint run (s : state) (l : list event) : outcome unit state :=
  match l with [] => Ok s | e :: l => do s <- step s e ; run s l end.
