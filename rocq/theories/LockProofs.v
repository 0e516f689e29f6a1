From Coq Require Import Lia.
From Verif Require Import Common CommonFacts LockModel LockSpec.
Local Open Scope list_scope.

(** An order in which calm threads take the locks. *)
Definition rank (m : lock) : nat := match m with LSubs _ => 0 | LDone _ => 1 | LVc => 2 | LG => 2 | LRec _ => 3 | LElm _ => 4 end.
Fixpoint ordered (H : list lock) (p : list act) : Prop :=
  match p with
  | [] => H = []
  | Acq m :: p => (forall h, In h H -> rank h < rank m) /\ ordered (m :: H) p
  | Rel m :: p => In m H /\ ordered (List.remove lock_eq_dec m H) p
  end.
Definition good (s : sys) : Prop := exists H : nat -> list lock,
  (forall i p, nth_error (progs s) i = Some p -> ordered (H i) p) /\ (forall m i, owner s m = Some i <-> In m (H i)) /\ (forall i, length (progs s) <= i -> H i = []).

Lemma set_prog_nth i p l j : nth_error (set_prog i p l) j = if Nat.eqb i j then match nth_error l i with Some _ => Some p | None => None end else nth_error l j.
Proof. revert i j. induction l as [|x l IH]; intros [|i] [|j]; cbn; try reflexivity; [destruct (Nat.eqb i j); reflexivity|apply IH]. Qed.
Lemma set_prog_len i p l : length (set_prog i p l) = length l.
Proof. revert i. induction l as [|x l IH]; intros [|i]; cbn; auto. Qed.
Lemma good_step s i s' : good s -> go s i = Some s' -> good s'.
Proof.
  intros (H & G1 & G2 & G3) E. unfold go in E. destruct (nth_error (progs s) i) as [[|[m|m] p]|] eqn:N; try discriminate E.
  - destruct (owner s m) eqn:O; [discriminate E|]. injection E as <-. destruct (G1 _ _ N) as [R1 R2].
    exists (fun j => if Nat.eqb i j then m :: H j else H j). cbn [progs owner]. split; [|split; [intros m0 i0; split|]].
    + intros j q. rewrite set_prog_nth. destruct (Nat.eqb_spec i j) as [<-|D]; [rewrite N; intros Q; injection Q as <-; exact R2|apply G1].
    + unfold own. destruct (lock_eq_dec m0 m) as [->|D].
      * intros Q. injection Q as <-. rewrite Nat.eqb_refl. now left.
      * intros Q. apply G2 in Q. destruct (Nat.eqb i i0); [right|]; exact Q.
    + unfold own. intros J. destruct (lock_eq_dec m0 m) as [->|D]; (destruct (Nat.eqb_spec i i0) as [E0|D']; [subst i0|]).
      * reflexivity.
      * apply G2 in J. congruence.
      * destruct J as [J|J]; [congruence|]. now apply G2.
      * now apply G2.
    + intros j. rewrite set_prog_len. intros L. destruct (Nat.eqb_spec i j) as [<-|D]; [|auto]. apply nth_error_None in L. congruence.
  - injection E as <-. destruct (G1 _ _ N) as [R1 R2]. exists (fun j => if Nat.eqb i j then List.remove lock_eq_dec m (H j) else H j). cbn [progs owner].
    assert (OM : owner s m = Some i) by now apply G2. split; [|split; [intros m0 i0; split|]].
    + intros j q. rewrite set_prog_nth. destruct (Nat.eqb_spec i j) as [<-|D]; [rewrite N; intros Q; injection Q as <-; exact R2|apply G1].
    + unfold own. destruct (lock_eq_dec m0 m) as [->|D]; [discriminate|]. intros Q. apply G2 in Q. destruct (Nat.eqb i i0); [now apply in_in_remove|exact Q].
    + unfold own. intros J. destruct (lock_eq_dec m0 m) as [->|D]; (destruct (Nat.eqb_spec i i0) as [E0|D']; [subst i0|]).
      * exfalso. now apply remove_In in J.
      * apply G2 in J. congruence.
      * apply in_remove in J. now apply G2.
      * now apply G2.
    + intros j. rewrite set_prog_len. intros L. destruct (Nat.eqb_spec i j) as [<-|D]; [|auto]. apply nth_error_None in L. congruence.
Qed.
(** Among the threads that are not finished, one that wants a lock of highest rank can go on. *)
Definition wants (p : list act) : nat := match p with Acq m :: _ => S (rank m) | _ => 0 end.
Lemma max_exists {A} (f : A -> nat) (l : list A) : l <> [] -> exists i x, nth_error l i = Some x /\ forall j y, nth_error l j = Some y -> f y <= f x.
Proof.
  induction l as [|a l IH]; [congruence|]. intros _. destruct l as [|b l].
  - exists 0, a. split; [reflexivity|]. intros [|[|j]] y H; cbn in H; try discriminate. injection H as <-. lia.
  - destruct IH as (i & x & E & M); [discriminate|]. destruct (le_lt_dec (f a) (f x)) as [L|L].
    + exists (S i), x. split; [exact E|]. intros [|j] y H; [injection H as <-; exact L|apply (M j); exact H].
    + exists 0, a. split; [reflexivity|]. intros [|j] y H; [injection H as <-; lia|]. cbn in H. specialize (M j y H). lia.
Qed.
Lemma good_progress s : good s -> finished s \/ exists i s', go s i = Some s'.
Proof.
  intros (H & G1 & G2 & G3). destruct (forallb (fun p => match p with [] => true | _ => false end) (progs s)) eqn:FB.
  { left. intros p J. rewrite forallb_forall in FB. apply FB in J. now destruct p. }
  right. assert (NE : progs s <> []) by (intros E; rewrite E in FB; discriminate FB).
  destruct (max_exists wants (progs s) NE) as (i & p & N & M).
  assert (U : exists j q, nth_error (progs s) j = Some q /\ q <> []).
  { clear - FB. induction (progs s) as [|a l IH]; [discriminate FB|]. cbn in FB. destruct a; [destruct IH as (j & q & E & D); [exact FB|]; exists (S j), q; auto|]. exists 0. eexists. split; [reflexivity|discriminate]. }
  assert (GOR : forall j m q, nth_error (progs s) j = Some (Rel m :: q) -> exists i s', go s i = Some s') by (intros j m q E; exists j; unfold go; rewrite E; eauto).
  destruct p as [|[m|m] p]; [| |eauto].
  - destruct U as (j & q & E & D). specialize (M j q E). destruct q as [|[k|k] q]; [congruence|cbn in M; lia|eauto].
  - destruct (owner s m) as [j|] eqn:O; [|exists i; unfold go; rewrite N, O; eauto].
    assert (J : In m (H j)) by now apply G2. destruct (nth_error (progs s) j) as [q|] eqn:Nj; [|apply nth_error_None in Nj; rewrite (G3 j Nj) in J; destruct J].
    specialize (G1 j q Nj) as OR. destruct q as [|[k|k] q]; [cbn in OR; rewrite OR in J; destruct J| |eauto].
    destruct OR as [OR _]. specialize (OR m J). specialize (M j _ Nj). cbn in M. lia.
Qed.
Lemma good_gos : forall sched s s', good s -> gos s sched = Some s' -> good s'.
Proof. induction sched as [|i sched IH]; cbn; intros s s' G E; [congruence|]. destruct (go s i) eqn:Q; [|discriminate E]. eapply IH; [|exact E]. eapply good_step; eauto. Qed.
Lemma set_prog_work i p l x : nth_error l i = Some x -> list_sum (map (@length act) (set_prog i p l)) + length x = list_sum (map (@length act) l) + length p.
Proof. revert i. induction l as [|y l IH]; intros [|i] E; cbn in *; try discriminate; [injection E as ->; lia|]. apply IH in E. unfold list_sum in *. lia. Qed.
Lemma go_work s i s' : go s i = Some s' -> work s = S (work s').
Proof.
  unfold go, work. destruct (nth_error (progs s) i) as [[|[m|m] p]|] eqn:N; try discriminate.
  - destruct (owner s m); [discriminate|]. intros E. injection E as <-. cbn [progs]. pose proof (set_prog_work i p _ _ N). cbn in *. lia.
  - intros E. injection E as <-. cbn [progs]. pose proof (set_prog_work i p _ _ N). cbn in *. lia.
Qed.
Lemma gos_work : forall sched s s', gos s sched = Some s' -> work s = length sched + work s'.
Proof. induction sched as [|i sched IH]; cbn; intros s s' E; [injection E as <-; reflexivity|]. destruct (go s i) eqn:Q; [|discriminate E]. apply go_work in Q. apply IH in E. lia. Qed.
Lemma good_finishes : forall n s, work s <= n -> good s -> exists sched s', gos s sched = Some s' /\ finished s'.
Proof.
  induction n as [|n IH]; intros s L G.
  - destruct (good_progress s G) as [F|(i & s' & E)]; [exists [], s; auto|]. apply go_work in E. lia.
  - destruct (good_progress s G) as [F|(i & s' & E)]; [exists [], s; auto|]. destruct (IH s') as (sc & s2 & R & F); [apply go_work in E; lia|eapply good_step; eauto|]. exists (i :: sc), s2. cbn. rewrite E. auto.
Qed.

(** ** the threads are ordered *)
Lemma rm_head m H : ~ In m H -> List.remove lock_eq_dec m (m :: H) = H.
Proof. intros N. cbn. destruct (lock_eq_dec m m); [|congruence]. now apply notin_remove. Qed.
Lemma fresh m H : (forall h, In h H -> rank h < rank m) -> ~ In m H.
Proof. intros A J. specialize (A m J). lia. Qed.
(** a program that gives back what it takes, when locks up to rank [b] are held *)
Definition neutral (b : nat) (p : list act) : Prop := forall H q, (forall h, In h H -> rank h < b) -> ordered H q -> ordered H (p ++ q).
Lemma neutral_nil b : neutral b [].
Proof. intros H q _ O. exact O. Qed.
Lemma neutral_app b p q : neutral b p -> neutral b q -> neutral b (p ++ q).
Proof. intros A B H r L O. rewrite <- app_assoc. auto. Qed.
Lemma neutral_lock b m p : b <= rank m -> neutral (S (rank m)) p -> neutral b (with_lock m p).
Proof.
  intros L A H q LH O. unfold with_lock. cbn [app ordered]. assert (LM : forall h, In h H -> rank h < rank m) by (intros h J; specialize (LH h J); lia). split; [exact LM|].
  rewrite <- app_assoc. apply A; [intros h [<-|J]; [lia|specialize (LM h J); lia]|]. cbn [app ordered]. split; [now left|]. rewrite rm_head; [exact O|now apply fresh].
Qed.
Lemma neutral_weak a b p : b <= a -> neutral a p -> neutral b p.
Proof. intros L A H q LH O. apply A; [intros h J; specialize (LH h J); lia|exact O]. Qed.
Lemma neutral_flat {A} b (f : A -> list act) l : (forall x, In x l -> neutral b (f x)) -> neutral b (flat_map f l).
Proof. induction l as [|x l IH]; cbn; intros H; [apply neutral_nil|]. apply neutral_app; [apply H; now left|apply IH; intros y J; apply H; now right]. Qed.
Ltac neut := repeat first [apply neutral_nil | apply neutral_app | apply neutral_lock; [cbn; lia|]].
Lemma neutral_watch b n : b <= 2 -> neutral b (watch n).
Proof. intros L. unfold watch. repeat first [apply neutral_nil | apply neutral_app | apply neutral_lock; [cbn; lia|]]. Qed.
Lemma neutral_request h r : calm_request r = true -> neutral 0 (request_prog h r).
Proof.
  destruct r; cbn [calm_request request_prog]; intros C.
  - neut.
  - apply negb_true_iff in C. subst. neut.
  - neut.
  - neut; apply neutral_watch; cbn; lia.
  - unfold unwatch, join. neut. destruct last; neut.
  - unfold add_record. neut.
  - unfold remove_record, join. neut.
  - neut. apply neutral_flat. intros x _. apply neutral_watch; lia.
  - neut. apply neutral_flat. intros x _. unfold unwatch. neut.
Qed.
Lemma ordered_api h l : forallb (calm_request) l = true -> ordered [] (flat_map (request_prog h) l).
Proof.
  intros C. assert (N : neutral 0 (flat_map (request_prog h) l)) by (apply neutral_flat; intros x J; rewrite forallb_forall in C; apply neutral_request; auto).
  specialize (N [] [] ltac:(intros ? [])). rewrite app_nil_r in N. apply N. reflexivity.
Qed.
(** a loop that releases the lock it holds and takes it again *)
Lemma ordered_loop {A} (f : A -> list act) m H q : (forall h, In h H -> rank h < rank m) -> ordered (m :: H) q -> forall l, (forall x, In x l -> neutral (S (rank m)) (f x)) ->
  ordered (m :: H) (flat_map (fun x => [Rel m; Acq m] ++ f x) l ++ q).
Proof.
  intros L O. induction l as [|x l IH]; intros N; [exact O|]. cbn [flat_map]. rewrite <- !app_assoc. cbn [app ordered]. split; [now left|]. rewrite rm_head by now apply fresh. split; [exact L|].
  apply N; [now left|intros h [<-|J]; [lia|specialize (L h J); lia]|]. apply IH. intros y J. apply N. now right.
Qed.
Lemma ordered_poller t l : forallb (forallb (fun p : nat * option nat => match snd p with None => true | Some _ => false end)) l = true -> ordered [LDone t] (poll_prog t l).
Proof.
  intros C. unfold poll_prog. cbn [ordered]. assert (L : forall h, In h [LDone t] -> rank h < rank LVc) by (intros h [<-|[]]; cbn; lia). split; [exact L|]. apply ordered_loop; [exact L| |].
  - cbn [ordered]. split; [now left|]. rewrite rm_head by now apply fresh. split; [now left|]. rewrite rm_head by (intros []). reflexivity.
  - intros x J. apply neutral_flat. intros [n c] K. rewrite forallb_forall in C. apply C in J. rewrite forallb_forall in J. apply J in K. cbn in K. destruct c; [discriminate K|]. unfold poll_record. cbn [fst snd]. neut.
Qed.
Lemma ordered_publisher t h l : ordered [LDone t] (publisher_prog t h l false).
Proof.
  unfold publisher_prog. cbn [ordered]. assert (L : forall h, In h [LDone t] -> rank h < rank (LRec t)) by (intros k [<-|[]]; cbn; lia). split; [exact L|]. apply ordered_loop; [exact L| |].
  - cbn [app ordered]. split; [now left|]. rewrite rm_head by now apply fresh. split; [now left|]. rewrite rm_head by (intros []). reflexivity.
  - intros x J. apply neutral_flat. intros n _. neut.
Qed.
Definition held0 (x : thread) : list lock := match token x with Some t => [LDone t] | None => [] end.
Lemma ordered_thread x : calm x = true -> ordered (held0 x) (thread_prog x).
Proof. destruct x; cbn [calm held0 token thread_prog]; intros C; [now apply ordered_api|now apply ordered_poller|]. apply negb_true_iff in C. subst. apply ordered_publisher. Qed.
Lemma done_spec : forall l i t j, NoDup (tokens l) -> (done_owner i l t = Some j <-> exists k x, nth_error l k = Some x /\ j = i + k /\ token x = Some t).
Proof.
  induction l as [|x l IH]; intros i t j N; cbn [done_owner].
  - split; [discriminate|]. intros (k & x & E & _). now destruct k.
  - assert (N' : NoDup (tokens l)) by (unfold tokens in N; cbn in N; destruct (token x); [inversion N; assumption|exact N]).
    destruct (match token x with Some u => Nat.eqb u t | None => false end) eqn:T.
    + destruct (token x) as [u|] eqn:TX; [|discriminate T]. apply Nat.eqb_eq in T. subst u. split.
      * intros E. injection E as <-. exists 0, x. repeat split; auto; lia.
      * intros (k & y & E & -> & TY). destruct k as [|k]; [f_equal; lia|]. exfalso. unfold tokens in N. cbn in N. rewrite TX in N. inversion N as [|? ? NI _]; subst. apply NI. apply in_flat_map. exists y. split; [eapply nth_error_In; eauto|]. rewrite TY. now left.
    + rewrite (IH (S i) t j N'). split; intros (k & y & E & -> & TY).
      * exists (S k), y. repeat split; auto; lia.
      * destruct k as [|k]; [injection E as ->; rewrite TY, Nat.eqb_refl in T; discriminate T|]. exists k, y. repeat split; auto; lia.
Qed.
Lemma good_start l : NoDup (tokens l) -> forallb calm l = true -> good (start l).
Proof.
  intros N C. exists (fun i => match nth_error l i with Some x => held0 x | None => [] end). unfold start. cbn [progs owner]. split; [|split; [intros m i; split|]].
  - intros i p E. rewrite nth_error_map in E. destruct (nth_error l i) as [x|] eqn:X; [|discriminate E]. injection E as <-. apply ordered_thread. rewrite forallb_forall in C. apply C. eapply nth_error_In; eauto.
  - destruct m; try discriminate. intros E. apply done_spec in E as (k & x & E & -> & T); [|exact N]. cbn [Nat.add]. rewrite E. unfold held0. rewrite T. now left.
  - destruct (nth_error l i) as [x|] eqn:X; [|intros []]. unfold held0. destruct (token x) as [t|] eqn:T; [|intros []]. intros [<-|[]]. apply done_spec; [exact N|]. exists i, x. auto.
  - intros i L. rewrite map_length in L. apply nth_error_None in L. now rewrite L.
Qed.
