(** Properties of message listeners: C85. *)
From Coq Require Import String.
From Verif Require Import Common CommonFacts TextModel Errors TapModel TapSpec TapProofs.
From Coq Require Import Lia Bool.
Local Open Scope string_scope.
Local Open Scope list_scope.
Local Open Scope Z_scope.

(** C85.  After any history of calls, messages and private connections coming and going, every
    message reaches the handler of the listener that was added for it and not removed since, on
    the connection it came from, and nobody else's; every call returns what the list of listeners
    says; and no freed memory is used. *)
Theorem C85_listeners_partial : forall isp l, proper isp nobody l -> exists s, run init l = Ok (s, ideal_run nobody l).
Proof. intros isp l P. exact (run_ok isp l init nobody [] (rel_start isp) P). Qed.
Print Assumptions C85_listeners_partial.

Ltac go := repeat (progress (cbn -[bytes_eqb]; unfold add, listen, remove, unlisten, set_table, release, deref; rewrite ?bytes_eqb_refl, ?Z.eqb_refl)).
(** Two listeners with one expression and different ids, as two raw data subscriptions to one event
    with different filters make them: removing the second frees the context of the first, which a
    later message uses. *)
Theorem C85_shared_refuted : forall e id1 id2 h1 h2, id1 <> id2 ->
  run init [AddListener e id1 h1; AddListener e id2 h2; RemoveListener e id2; Message 0 id1 false] = UB.
Proof.
  intros e id1 id2 h1 h2 N. assert (E : id2 =? id1 = false) by (apply Z.eqb_neq; congruence). go. rewrite E. go. reflexivity.
Qed.
Print Assumptions C85_shared_refuted.
(** After a private listener was removed the handle still says that it has it: the expression is
    looked for under the name of the topic. *)
Theorem C85_private_refuted : exists s, run init [Open (bs "A.E") 0; AddPrivate (bs "A.E") 5 1; RemovePrivate (bs "A.E") 5; Message 1 5 false; HasListener (bs "A.E")] =
  Ok (s, [[]; [Code E_SUCCESS]; [Code E_SUCCESS]; []; [Answer true]]).
Proof. eexists. vm_compute. reflexivity. Qed.
Print Assumptions C85_private_refuted.
(** A listener that could not be added, because there are 128, is there for the handle. *)
Theorem C85_full_refuted : exists s, run init (map (fun n => AddListener [Z.of_nat n] (Z.of_nat n) 7) (seq 1 129) ++ [HasListener [129]; Message 0 129 false]) =
  Ok (s, repeat [Code E_SUCCESS] 128 ++ [[Code E_BUS_ERROR]; [Answer true]; []]).
Proof. eexists. vm_compute. reflexivity. Qed.
Print Assumptions C85_full_refuted.
(** After all listeners were removed, asking for one reads freed memory. *)
Theorem C85_closed_refuted : forall e id h e', run init [AddListener e id h; RemoveAll; HasListener e'] = UB.
Proof. intros e id h e'. go. reflexivity. Qed.
Print Assumptions C85_closed_refuted.
(** Removing all listeners frees those of private connections, which stay in use there. *)
Theorem C85_private_closed_refuted : run init [Open (bs "A.E") 0; AddPrivate (bs "A.E") 5 1; RemoveAll; Message 1 5 false] = UB.
Proof. vm_compute. reflexivity. Qed.
Print Assumptions C85_private_closed_refuted.
(** Removing a listener with another listener's id frees the one and silences the other. *)
Theorem C85_mixed_refuted : forall e1 e2 id1 id2 h1 h2, e1 <> e2 -> id1 <> id2 ->
  exists s, run init [AddListener e1 id1 h1; AddListener e2 id2 h2; RemoveListener e1 id2; Message 0 id2 true] = Ok (s, [[Code E_SUCCESS]; [Code E_SUCCESS]; [Code E_SUCCESS]; []]) /\
  step s (Message 0 id1 true) = UB.
Proof.
  intros e1 e2 id1 id2 h1 h2 NE N. assert (E : id2 =? id1 = false) by (apply Z.eqb_neq; congruence). assert (E' : id1 =? id2 = false) by (apply Z.eqb_neq; exact N). go. rewrite E. go. rewrite E'. go.
  eexists. split; [reflexivity|]. go. reflexivity.
Qed.
Print Assumptions C85_mixed_refuted.

(** the conditions of the history below, decided *)
Definition proper_stepb (isp : list Z -> bool) (i : ideal) (o : op) : bool :=
  match o with
  | AddListener e id _ => negb (closed i) && negb (isp e) && forallb (fun x => negb (bytes_eqb (i_expr x) e) && negb (on 0 id x)) (entries i) && Nat.ltb (List.length (filter (fun x => Nat.eqb (i_conn x) 0) (entries i))) 128
  | RemoveListener e id => negb (closed i) && negb (isp e) && forallb (fun x => negb (Nat.eqb (i_conn x) 0) || Bool.eqb (bytes_eqb (i_expr x) e) (i_id x =? id)) (entries i)
  | AddPrivate e id _ => negb (closed i) && isp e && match where_is i e with None => true | Some c => forallb (fun x => negb (on c id x)) (entries i) && Nat.ltb (List.length (filter (fun x => Nat.eqb (i_conn x) c) (entries i))) 128 end
  | RemovePrivate e id => negb (closed i) && negb (isp (raw_topic e id)) && forallb (fun x => negb (bytes_eqb (i_expr x) (raw_topic e id))) (entries i)
  | RemoveAll => negb (closed i) && forallb (fun x => Nat.eqb (i_conn x) 0) (entries i)
  | HasListener e => negb (closed i) && negb (isp e)
  | _ => true
  end.
Fixpoint properb (isp : list Z -> bool) (i : ideal) (l : list op) : bool :=
  match l with [] => true | o :: l => proper_stepb isp i o && properb isp (fst (ideal_step i o)) l end.
Lemma proper_stepb_ok : forall isp i o, proper_stepb isp i o = true -> proper_step isp i o.
Proof.
  intros isp i o H. destruct o; cbn [proper_stepb proper_step] in *; trivial;
    repeat match goal with X : _ && _ = true |- _ => apply andb_prop in X; destruct X | X : negb _ = true |- _ => apply negb_true_iff in X end;
    repeat split; trivial.
  - rewrite forallb_forall in H1. intros E. apply H1 in H3. apply andb_prop in H3. destruct H3 as [A _]. rewrite E, bytes_eqb_refl in A. discriminate.
  - rewrite forallb_forall in H1. apply H1 in H3. apply andb_prop in H3. now apply negb_true_iff.
  - unfold room. now apply Nat.ltb_lt.
  - rewrite forallb_forall in H0. intros E. apply H0 in H2. rewrite H3 in H2. cbn in H2. rewrite E, bytes_eqb_refl in H2. apply Bool.eqb_prop in H2. symmetry in H2. now apply Z.eqb_eq.
  - rewrite forallb_forall in H0. intros E. apply H0 in H2. rewrite H3 in H2. cbn in H2. rewrite E, Z.eqb_refl in H2. apply Bool.eqb_prop in H2. now apply bytes_eqb_eq.
  - intros x I. rewrite H2 in H0. apply andb_prop in H0. destruct H0 as [A _]. rewrite forallb_forall in A. apply negb_true_iff. now apply A.
  - rewrite H2 in H0. apply andb_prop in H0. unfold room. now apply Nat.ltb_lt.
  - intros x I E. rewrite forallb_forall in H0. apply H0 in I. rewrite E, bytes_eqb_refl in I. discriminate.
  - intros x I. rewrite forallb_forall in H0. apply Nat.eqb_eq. now apply H0.
Qed.
Lemma properb_ok : forall isp l i, properb isp i l = true -> proper isp i l.
Proof. intros isp l. induction l as [|o l IH]; intros i H; [exact I|]. cbn [properb] in H. apply andb_prop in H. destruct H. split; [now apply proper_stepb_ok|now apply IH]. Qed.
(** a history with raw data listeners, a private connection that comes and goes, and requests *)
Definition isp_ex (e : list Z) : bool := bytes_eqb e (bs "A.E") || bytes_eqb e (bs "A.F").
Definition story : list op :=
  [AddListener (bs "rawdata.A.E") 5 1; AddListener (bs "rawdata.A.G") 6 2; Message 0 5 false; Message 0 6 true; HasListener (bs "rawdata.A.E");
   AddPrivate (bs "A.E") 5 1; Open (bs "A.E") 0; Open (bs "A.F") 0; RemoveListener (bs "rawdata.A.E") 5; AddPrivate (bs "A.E") 5 1; AddPrivate (bs "A.F") 7 3; HasListener (bs "rawdata.A.E");
   Message 0 5 false; Message 1 5 true; Message 1 7 false; RemovePrivate (bs "A.F") 7; Message 1 7 false; Close (bs "A.F"); Message 1 5 false; Close (bs "A.E"); Message 1 5 false;
   AddListener (bs "rawdata.A.E") 5 1; RemoveListener (bs "rawdata.A.H") 9; Message 0 5 false; RemoveAll; Message 0 5 false].
Example C85_witness : proper isp_ex nobody story /\ ideal_run nobody story =
  [[Code 0]; [Code 0]; [Called 1]; [Receipt 0; Called 2]; [Answer true];
   [Code E_DIRECT_CON_NOT_EXIST]; []; []; [Code 0]; [Code 0]; [Code 0]; [Answer false];
   []; [Receipt 1; Called 1]; [Called 3]; [Code 0]; []; []; [Called 1]; []; [];
   [Code 0]; [Code E_BUS_ERROR]; [Called 1]; [Code 0]; []].
Proof.
  split; [apply properb_ok|]; vm_compute; reflexivity.
Qed.
