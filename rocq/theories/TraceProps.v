(** C101: the trace context of requests. *)
From Coq Require Import String.
From Verif Require Import Common Bytes MsgModel TraceModel TraceSpec TraceProofs.
Local Open Scope string_scope.
Local Open Scope list_scope.
Local Open Scope Z_scope.

(** Whatever tree of requests a thread begins, a handler reads exactly the context its caller had when it
    sent the request, also through several requests; the caller's own is never changed by what the
    handlers do, and event handlers begin with none. *)
Theorem C101_trace_partial : forall (t : nat) (a : prog), proper [t] none a -> exists st, exec init t a = Ok (st, ideal none t a).
Proof. exact trace_thm. Qed.
Print Assumptions C101_trace_partial.
Definition notes (a : prog) : option (list note) := match exec init 0 a with Ok (_, l) => Some l | _ => None end.
Local Notation P := (bs "00-0af7651916cd43dd8448eb211c80319c-b7ad6b7169203331-01").
Local Notation S1 := (bs "vendor=1").
Example C101_witness :
  let a := Set_ (Some P) (Some S1) (Call 1 (bs "GET") [1; 2; 3] (Get (Some 256) (Some 4) (Call 2 (bs "SET") [] (Get (Some 3) None (Set_ None (Some S1) Done)) false (Get (Some 100) (Some 100) Done))) true
             (Get (Some 256) (Some 256) (Clear (Start 1 (bs "M") [] (Get (Some 9) (Some 9) Done) (Event 2 (Get (Some 9) (Some 9) Done) Done))))) in
  ~ proper [0%nat] none a /\
  let b := Set_ (Some P) (Some S1) (Call 1 (bs "GET") [1; 2; 3] (Get (Some 256) (Some 4) (Call 2 (bs "SET") [] (Get (Some 3) None (Set_ None (Some S1) Done)) false (Get (Some 100) (Some 100) (Clear Done)))) true
             (Get (Some 256) (Some 256) (Clear (Start 1 (bs "M") [] (Get (Some 9) (Some 9) Done) (Event 2 (Get (Some 9) (Some 9) Done) Done))))) in
  proper [0%nat] none b /\
  ideal none 0 b = [mkNote 1 (Some P) (Some (bs "ven")); mkNote 2 (Some (bs "00")) None; mkNote 1 (Some P) (Some S1); mkNote 0 (Some P) (Some S1); mkNote 1 (Some []) (Some []); mkNote 2 (Some []) (Some [])].
Proof.
  intros a. split.
  - intros H. unfold a in H. cbn [proper] in H. destruct H as (_ & _ & _ & _ & _ & H & _). specialize (H eq_refl). discriminate.
  - intros b. split; [|vm_compute; reflexivity]. unfold b. cbn [proper given last]. unfold text_ok, request_ok, room_ok, none. cbn [given].
    repeat match goal with |- _ /\ _ => split end; try exact Logic.I; try reflexivity; try (cbn [In]; lia); try (cbn; lia); try (vm_compute; discriminate).
Qed.

(** A handler that answers later: its context stays on the thread, and the handler of a later event reads it. *)
Theorem C101_later_refuted : exists a, notes a = Some [mkNote 1 (Some P) (Some S1)] /\ ideal none 0 a = [mkNote 1 (Some []) (Some [])].
Proof. exists (Set_ (Some P) (Some S1) (Call 1 (bs "M") [] Done true (Event 1 (Get (Some 256) (Some 256) Done) Done))). split; vm_compute; reflexivity. Qed.
Print Assumptions C101_later_refuted.
(** An event handler that sets a context passes it on to the handlers of later events. *)
Theorem C101_event_refuted : exists a, notes a = Some [mkNote 1 (Some P) (Some S1)] /\ ideal none 0 a = [mkNote 1 (Some []) (Some [])].
Proof. exists (Event 1 (Set_ (Some P) (Some S1) Done) (Event 1 (Get (Some 256) (Some 256) Done) Done)). split; vm_compute; reflexivity. Qed.
Print Assumptions C101_event_refuted.
(** A method invoked asynchronously does not carry the context of its caller, whatever it is. *)
Theorem C101_started_refuted : forall q (p s : list Z), text_ok (Some p) -> text_ok (Some s) -> p <> [] -> q <> 0%nat ->
  let a := Set_ (Some p) (Some s) (Start q (bs "M") [] (Get (Some 512) None Done) Done) in
  notes a = Some [mkNote q (Some []) None] /\ ideal none 0 a = [mkNote q (Some p) None].
Proof.
  intros q p s TP TS NP NQ a. split.
  - unfold notes, a. cbn [exec]. destruct (set_ok init 0 none (Some p) (Some s) fresh_none TP TS) as (c & E & R). rewrite E. cbn [obind].
    assert (RO : request_ok (bs "M") []) by (split; [reflexivity|split; [cbn; lia|cbn; lia]]). destruct (carried _ _ _ _ fresh_none RO) as (b & B & _). rewrite B. cbn [obind].
    set (h := Get (Some 512) None Done).
    destruct (dispatch_ok (put init 0 c) [0%nat] q fresh (bs "M") [] b false h none fresh_none RO B) as (st & D & _).
    + intros [X|[]]. congruence.
    + intros z NZ. unfold at_. rewrite put_other; [exact fresh_none|]. intros ->. apply NZ. left. reflexivity.
    + discriminate.
    + intros st1 A I. destruct (exec_ok h st1 q [q; 0%nat] none (or_introl eq_refl) A I) as (st2 & E2 & A2 & I2 & S2); [unfold h; cbn; lia|]. exists st2. split; [exact E2|]. split; [exact A2|]. split; [exact I2|].
      intros z [<-|[]]. apply S2. apply filter_In. split; [right; left; reflexivity|]. apply negb_true_iff, Nat.eqb_neq. congruence.
    + match goal with |- context [dispatch ?x q b false ?f] => change (dispatch x q b false f) with (dispatch (put init 0 c) q b false (fun st => exec st q h)) end. rewrite D. reflexivity.
  - unfold a. cbn [ideal given seen option_map fst snd app]. f_equal. f_equal. f_equal. apply firstn_all2. destruct TP as [_ L]. cbn [given] in L. lia.
Qed.
Print Assumptions C101_started_refuted.
(** A context text of 511 bytes or more is dropped without an error. *)
Theorem C101_long_refuted : forall p, (511 <= List.length p)%nat ->
  notes (Set_ (Some p) None (Get (Some 1000) None Done)) = Some [mkNote 0 (Some []) None].
Proof.
  intros p L. assert (X : set_one (c_parent (local init 0)) (Some p) = Ok (cut (c_parent (local init 0)))).
  { unfold set_one. replace (Nat.ltb (List.length p) 511) with false by (symmetry; apply Nat.ltb_ge; lia). rewrite andb_false_r. reflexivity. }
  unfold notes. cbn [exec]. unfold set_context. rewrite X. vm_compute. reflexivity.
Qed.
Print Assumptions C101_long_refuted.
(** Reading the context into an array of length 0 writes beyond it. *)
Theorem C101_zero_refuted : forall m k, exec init 0 (Get (Some 0) m k) = UB.
Proof. intros m k. reflexivity. Qed.
Print Assumptions C101_zero_refuted.
