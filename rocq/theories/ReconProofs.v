From Coq Require Import List ZArith Bool Lia ZifyBool.
From Verif Require Import Common CommonFacts ListenModel ReconModel ReconSpec.
Import ListNotations.
Local Open Scope Z_scope.

Lemma steps_app r l : forall l' s, steps r s (l ++ l') = (do x <- steps r s l; steps r x l').
Proof. induction l as [|a l IH]; intros l' s; cbn [app steps]; [reflexivity|]. destruct (step r s a); cbn [obind]; auto. Qed.

(** ** One thread at a time *)
Definition owned (s : conn) : Prop :=
  fd s <> None /\
  (forall j k, renewing (threads s j) -> renewing (threads s k) -> j = k) /\
  (in_progress s = true <-> exists k, renewing (threads s k)) /\
  (forall k, match threads s k with AtSocket b | AtConnect b _ => b = false | _ => True end).

Lemma here s k p j : threads (at_place s k p) j = if Nat.eqb j k then p else threads s j.
Proof. reflexivity. Qed.

(** the thread moves on *)
Lemma owned_move s k p s' : owned s -> renewing (threads s k) -> renewing p ->
  match p with AtSocket b | AtConnect b _ => b = false | _ => True end ->
  fd s' <> None -> in_progress s' = in_progress s ->
  (forall j, threads s' j = if Nat.eqb j k then p else threads s j) -> owned s'.
Proof.
  intros (F & U & P & Q) B Bp Mp F' I T. split; [exact F'|]. split; [|split].
  - intros i j Bi Bj. rewrite T in Bi, Bj. destruct (Nat.eqb_spec i k), (Nat.eqb_spec j k); subst; auto.
  - rewrite I. split; intros H; [exists k; rewrite T, Nat.eqb_refl; exact Bp|apply P; eauto].
  - intros j. rewrite T. destruct (Nat.eqb j k); [exact Mp|apply Q].
Qed.

(** the thread is done *)
Lemma owned_done s k p s' : owned s -> renewing (threads s k) -> ~ renewing p ->
  match p with AtSocket b | AtConnect b _ => b = false | _ => True end ->
  fd s' <> None -> in_progress s' = false ->
  (forall j, threads s' j = if Nat.eqb j k then p else threads s j) -> owned s'.
Proof.
  intros (F & U & P & Q) B Bp Mp F' I T. split; [exact F'|].
  assert (N : forall j, ~ renewing (threads s' j)).
  { intros j Bj. rewrite T in Bj. destruct (Nat.eqb_spec j k) as [E|E]; [exact (Bp Bj)|]. apply E. apply U; auto. }
  split; [|split].
  - intros i j Bi. destruct (N i Bi).
  - rewrite I. split; [discriminate|]. intros (j & Bj). destruct (N j Bj).
  - intros j. rewrite T. destruct (Nat.eqb j k); [exact Mp|apply Q].
Qed.

(** a thread that does not own moves among the places outside *)
Lemma owned_outside s k p s' : owned s -> ~ renewing (threads s k) -> ~ renewing p ->
  match p with AtSocket b | AtConnect b _ => b = false | _ => True end ->
  fd s' = fd s -> in_progress s' = in_progress s ->
  (forall j, threads s' j = if Nat.eqb j k then p else threads s j) -> owned s'.
Proof.
  intros (F & U & P & Q) B Bp Mp F' I T. split; [congruence|]. split; [|split].
  - intros i j Bi Bj. rewrite T in Bi, Bj. destruct (Nat.eqb_spec i k), (Nat.eqb_spec j k); subst; try contradiction; auto.
  - rewrite I, P. split; intros (j & Bj); exists j; [|rewrite T in Bj; destruct (Nat.eqb_spec j k); [contradiction|exact Bj]].
    rewrite T. destruct (Nat.eqb_spec j k); subst; [contradiction|exact Bj].
  - intros j. rewrite T. destruct (Nat.eqb j k); [exact Mp|apply Q].
Qed.

Lemma owned_same s s' : owned s -> fd s' = fd s -> in_progress s' = in_progress s -> threads s' = threads s -> owned s'.
Proof. intros (F & U & P & Q) A B C. unfold owned. rewrite A, B, C. auto. Qed.

Ltac fin T := try rewrite T; try solve [cbn; auto | cbn; congruence].

Lemma owned_step r s a s' : owned s -> calm a -> step r s a = Ok s' -> owned s'.
Proof.
  intros O C E. pose proof O as (F & U & P & Q). destruct a as [|k t|k|k|k|k|k|k b|k|x|id|e id]; cbn [calm] in C; try contradiction; cbn [step] in E.
  - injection E as <-. apply (owned_same s); auto.
  - destruct (threads s k) eqn:T; try discriminate. destruct (clock s <? t); [discriminate|].
    destruct (fd s) as [f|] eqn:Fd; [|congruence]. destruct (in_progress s) eqn:I; cbn [negb andb] in E.
    + injection E as <-. apply (owned_outside s k Waits); fin T.
    + destruct (reconnect_time s <? t).
      * injection E as <-. assert (N : forall j, ~ renewing (threads s j)).
        { intros j Bj. assert (false = true) by (apply P; eauto). discriminate. }
        split; [cbn; congruence|]. cbn. split; [|split].
        -- intros i j Bi Bj. destruct (Nat.eqb_spec i k), (Nat.eqb_spec j k); subst; auto; exfalso; eapply N; eauto.
        -- split; [intros _; exists k; rewrite Nat.eqb_refl; exact Logic.I|reflexivity].
        -- intros j. destruct (Nat.eqb j k); [reflexivity|apply Q].
      * injection E as <-. apply (owned_outside s k Out); fin T.
  - destruct (threads s k) eqn:T; try discriminate. injection E as <-. pose proof (Q k) as X. rewrite T in X.
    apply (owned_move s k (AtConnect first 0)); fin T.
  - destruct (threads s k) as [| |b|b n|n|n] eqn:T; try discriminate. pose proof (Q k) as X. rewrite T in X. subst b. injection E as <-.
    apply (owned_move s k (AtSlot 0)); fin T.
  - destruct (threads s k) as [| |b|b n|n|n] eqn:T; try discriminate. pose proof (Q k) as X. rewrite T in X. subst b.
    destruct ((n + 1 <? r) || (r <? 0)); injection E as <-.
    + apply (owned_move s k (AtConnect false (n + 1))); fin T.
    + apply (owned_done s k Out); fin T.
  - destruct (threads s k) as [| |c|c n|n|n] eqn:T; try discriminate.
    + destruct (nth_error (lists s) n) as [[x|]|].
      * destruct b; injection E as <-.
        -- apply (owned_move s k (AtSlot (S n))); fin T.
        -- apply (owned_move s k (Caught n)); fin T.
      * injection E as <-. apply (owned_move s k (AtSlot (S n))); fin T.
      * injection E as <-. apply (owned_done s k Out); fin T.
    + destruct (in_progress s) eqn:I; [discriminate|]. exfalso. assert (false = true); [|discriminate]. apply P. exists k. rewrite T. exact Logic.I.
  - destruct (threads s k) eqn:T; try discriminate. destruct (in_progress s) eqn:I; [discriminate|]. injection E as <-.
    apply (owned_outside s k Out); fin T.
  - destruct (put x (lists s)); [|discriminate]. injection E as <-. apply (owned_same s); auto.
  - destruct (take _ (lists s)) as [(x, l)|]; [|discriminate]. injection E as <-. apply (owned_same s); auto.
  - injection E as <-. apply (owned_same s); auto.
Qed.

Lemma owned_steps r l : forall s s', owned s -> Forall calm l -> steps r s l = Ok s' -> owned s'.
Proof.
  induction l as [|a l IH]; intros s s' O C E; cbn [steps] in E; [congruence|]. inversion C; subst.
  destruct (step r s a) as [s1| |] eqn:S; try discriminate. cbn [obind] in E. eapply IH; [|eassumption|exact E]. eapply owned_step; eauto.
Qed.

Lemma reach_owned r s : reach r s -> owned s.
Proof.
  intros (l0 & w0 & t0 & l & C & E). apply (owned_steps r l _ s) with (3 := E); auto.
  split; [discriminate|]. cbn. split; [contradiction|]. split; [|auto]. split; [discriminate|]. intros (k & []).
Qed.

(** ** Sending the listeners again *)
Definition before (n : nat) (s : conn) : list wire_msg :=
  adding (flat_map (fun o => match o with Some x => [x] | None => [] end) (firstn n (lists s))).

Lemma before_S n s : before (S n) s = before n s ++
  match nth_error (lists s) n with Some (Some x) => [mkWire true (l_expr x) (l_id x)] | _ => [] end.
Proof.
  unfold before. generalize (lists s). induction n as [|n IH]; intros l.
  - destruct l as [|[x|] l]; reflexivity.
  - destruct l as [|o l]; [reflexivity|]. cbn [firstn flat_map nth_error]. unfold adding in *. rewrite !map_app, <- app_assoc. f_equal. apply IH.
Qed.


(** what a step by others leaves alone while thread [k] sends again *)
Lemma meanwhile r s a s' k : owned s -> calm a -> renewing (threads s k) ->
  (forall t, a <> Enter k t) -> (forall b, a <> Resend k b) -> a <> Connected k -> a <> Refused k -> a <> SocketOk k ->
  step r s a = Ok s' ->
  threads s' k = threads s k /\ fd s' = fd s /\ sockets s' = sockets s /\
  (lists s' = lists s /\ sent s' = sent s \/
   (exists x f, fd s = Some f /\ put x (lists s) = Some (lists s') /\ sent s' = sent s ++ [(f, mkWire true (l_expr x) (l_id x))]) \/
   (exists i x f, fd s = Some f /\ take (fun x => i =? l_id x) (lists s) = Some (x, lists s') /\ sent s' = sent s ++ [(f, mkWire false (l_expr x) (l_id x))]) \/
   (exists e i f, fd s = Some f /\ lists s' = lists s /\ sent s' = sent s ++ [(f, mkWire true e i)])).
Proof.
  intros O C B NE NR NC NF NS E. pose proof O as (F & U & P & Q). destruct (fd s) as [f|] eqn:Fd; [|congruence].
  destruct a as [|j t|j|j|j|j|j|j b|j|x|id|e id]; cbn [calm] in C; try contradiction; cbn [step] in E.
  - injection E as <-. cbn. auto 8.
  - assert (Hj : k <> j) by (intros ->; eapply NE; reflexivity). destruct (threads s j); try discriminate.
    destruct (clock s <? t); [discriminate|]. rewrite Fd in E.
    assert (in_progress s = true) as Ip by (apply P; eauto). rewrite Ip in E. cbn [negb andb] in E. injection E as <-.
    cbn. rewrite (proj2 (Nat.eqb_neq k j) Hj). auto 8.
  - destruct (threads s j) eqn:T; try discriminate. exfalso. apply NS. f_equal. apply U; [|exact B]. rewrite T. exact Logic.I.
  - destruct (threads s j) eqn:T; try discriminate; exfalso; apply NC; f_equal; (apply U; [|exact B]; rewrite T; exact Logic.I).
  - destruct (threads s j) eqn:T; try discriminate; exfalso; apply NF; f_equal; (apply U; [|exact B]; rewrite T; exact Logic.I).
  - destruct (threads s j) eqn:T; try discriminate; exfalso; apply (NR b); f_equal; (apply U; [|exact B]; rewrite T; exact Logic.I).
  - assert (Hj : k <> j) by (intros ->; destruct (threads s j); cbn in B; try contradiction; discriminate).
    destruct (threads s j); try discriminate. destruct (in_progress s); [discriminate|]. injection E as <-.
    cbn. rewrite (proj2 (Nat.eqb_neq k j) Hj). auto 8.
  - destruct (put x (lists s)) as [l|] eqn:Pt; [|discriminate]. injection E as <-. cbn. rewrite Fd. split; [reflexivity|]. split; [reflexivity|]. split; [reflexivity|].
    right. left. exists x, f. auto.
  - destruct (take _ (lists s)) as [(x, l)|] eqn:Tk; [|discriminate]. injection E as <-. cbn. rewrite Fd. split; [reflexivity|]. split; [reflexivity|]. split; [reflexivity|].
    right. right. left. exists id, x, f. auto.
  - injection E as <-. cbn. rewrite Fd. split; [reflexivity|]. split; [reflexivity|]. split; [reflexivity|]. right. right. right. exists e, id, f. auto.
Qed.

(** the thread's own steps *)
Lemma own_step r s s' k b n f : threads s k = AtSlot n -> fd s = Some f -> step r s (Resend k b) = Ok s' ->
  (exists x, nth_error (lists s) n = Some (Some x) /\ b = true /\ threads s' k = AtSlot (S n) /\ fd s' = fd s /\ sockets s' = sockets s /\
     lists s' = lists s /\ sent s' = sent s ++ [(f, mkWire true (l_expr x) (l_id x))]) \/
  (exists x, nth_error (lists s) n = Some (Some x) /\ b = false /\ threads s' k = Caught n /\ fd s' = fd s /\ sockets s' = sockets s /\ lists s' = lists s /\ sent s' = sent s) \/
  (nth_error (lists s) n = Some None /\ threads s' k = AtSlot (S n) /\ fd s' = fd s /\ sockets s' = sockets s /\ lists s' = lists s /\ sent s' = sent s) \/
  (nth_error (lists s) n = None /\ threads s' k = Out /\ fd s' = fd s /\ sockets s' = sockets s /\ lists s' = lists s /\ sent s' = sent s /\ in_progress s' = false).
Proof.
  intros T Fd E. cbn [step] in E. rewrite T in E. destruct (nth_error (lists s) n) as [[x|]|] eqn:N.
  - destruct b; injection E as <-; cbn; rewrite ?Nat.eqb_refl, ?Fd.
    + left. exists x. auto 9.
    + right. left. exists x. auto 9.
  - injection E as <-; cbn; rewrite ?Nat.eqb_refl. auto 12.
  - injection E as <-; cbn; rewrite ?Nat.eqb_refl. auto 12.
Qed.

Lemma put_nth x : forall l l' i y, put x l = Some l' -> nth_error l' i = Some (Some y) -> nth_error l i = Some (Some y) \/ y = x.
Proof.
  induction l as [|[z|] l IH]; intros l' i y E N; cbn [put] in E; try discriminate.
  - destruct (put x l) as [m|] eqn:P; [|discriminate]. injection E as <-. destruct i as [|i]; cbn in *; [auto|]. eapply IH; eauto.
  - injection E as <-. destruct i as [|i]; cbn in *; [right; congruence|auto].
Qed.

Lemma take_nth f : forall l l' x i y, take f l = Some (x, l') -> nth_error l' i = Some (Some y) -> nth_error l i = Some (Some y).
Proof.
  induction l as [|[z|] l IH]; intros l' x i y E N; cbn [take] in E; try discriminate.
  - destruct (f z).
    + injection E as <- <-. destruct i as [|i]; cbn in *; [discriminate|auto].
    + destruct (take f l) as [(w, m)|] eqn:T; [|discriminate]. injection E as <- <-. destruct i as [|i]; cbn in *; [auto|]. eapply IH; eauto.
  - destruct (take f l) as [(w, m)|] eqn:T; [|discriminate]. injection E as <- <-. destruct i as [|i]; cbn in *; [auto|]. eapply IH; eauto.
Qed.

(** every listener the loop has passed is known to the new socket *)
Definition passed (k : nat) (f : nat) (s : conn) : Prop :=
  fd s = Some f /\ exists n, (threads s k = AtSlot n \/ threads s k = Caught n) /\
  forall i x, (i < n)%nat -> nth_error (lists s) i = Some (Some x) -> In (f, mkWire true (l_expr x) (l_id x)) (sent s).

Lemma caught_stuck r s k b n s' : owned s -> threads s k = Caught n -> step r s (Resend k b) = Ok s' -> False.
Proof.
  intros (_ & _ & P & _) T E. cbn [step] in E. rewrite T in E. assert (in_progress s = true) as H; [|rewrite H in E; discriminate].
  apply P. exists k. rewrite T. exact Logic.I.
Qed.

Lemma kinds (a : act) k : (exists t, a = Enter k t) \/ (exists b, a = Resend k b) \/ a = Connected k \/ a = Refused k \/ a = SocketOk k \/
  ((forall t, a <> Enter k t) /\ (forall b, a <> Resend k b) /\ a <> Connected k /\ a <> Refused k /\ a <> SocketOk k).
Proof.
  destruct a as [|j t|j|j|j|j|j|j b|j|x|id|e id];
    try (right; right; right; right; right; repeat split; intros; discriminate);
    (destruct (Nat.eqb_spec j k) as [->|Hj];
     [eauto 9|right; right; right; right; right; repeat split; intros; intros X; try discriminate X; injection X; intros; subst; congruence]).
Qed.

Lemma passed_step r k f s a s' : owned s -> passed k f s -> calm a -> step r s a = Ok s' ->
  passed k f s' \/ (threads s' k = Out /\ fd s' = Some f /\ in_progress s' = false /\
    forall x, In x (listeners s') -> In (f, mkWire true (l_expr x) (l_id x)) (sent s')).
Proof.
  intros O (Fd & n & T & H) C E.
  assert (B : renewing (threads s k)) by (destruct T as [-> | ->]; exact Logic.I).
  destruct (kinds a k) as [(t & ->)|[(b & ->)|[->|[->|[->|(N1 & N2 & N3 & N4 & N5)]]]]].
  - cbn [step] in E. destruct T as [T|T]; rewrite T in E; discriminate.
  - destruct T as [T|T]; [|exfalso; eapply caught_stuck; eauto].
    destruct (own_step r s s' k b n f T Fd E) as [(x & Nx & Eb & T' & F' & S' & L' & W')|[(x & Nx & Eb & T' & F' & S' & L' & W')|[(Nx & T' & F' & S' & L' & W')|(Nx & T' & F' & S' & L' & W' & I')]]].
    + left. split; [congruence|]. exists (S n). split; [auto|]. intros i y Hi Ny. rewrite W', L' in *. apply in_or_app.
      destruct (Nat.eq_dec i n) as [->|]; [right; left; congruence|left; apply (H i); [lia|exact Ny]].
    + left. split; [congruence|]. exists n. split; [auto|]. rewrite W', L'. exact H.
    + left. split; [congruence|]. exists (S n). split; [auto|]. intros i y Hi Ny. rewrite W', L' in *.
      destruct (Nat.eq_dec i n) as [->|]; [congruence|apply (H i); [lia|exact Ny]].
    + right. split; [exact T'|]. split; [congruence|]. split; [exact I'|]. intros x Ix. rewrite W'. unfold listeners in Ix. rewrite L' in Ix.
      apply in_flat_map in Ix. destruct Ix as ([y|] & Iy & Ix); [|destruct Ix]. destruct Ix as [->|[]].
      apply In_nth_error in Iy. destruct Iy as (i & Ny). apply (H i); [|exact Ny].
      apply nth_error_None in Nx. assert (i < length (lists s))%nat by (apply nth_error_Some; congruence). lia.
  - cbn [step] in E. destruct T as [T|T]; rewrite T in E; discriminate.
  - cbn [step] in E. destruct T as [T|T]; rewrite T in E; discriminate.
  - cbn [step] in E. destruct T as [T|T]; rewrite T in E; discriminate.
  - destruct (meanwhile r s a s' k O C B N1 N2 N3 N4 N5 E) as (T' & F' & S' & [(L' & W')|[(x & g & Fg & Pt & W')|[(i0 & x & g & Fg & Tk & W')|(e & i0 & g & Fg & L' & W')]]]);
      left; (split; [congruence|]); exists n; rewrite T'; (split; [exact T|]); intros i y Hi Ny; rewrite W'; try (rewrite L' in Ny).
    + eauto.
    + apply in_or_app. destruct (put_nth x _ _ i y Pt Ny) as [No| ->]; [left; eauto|right; left; congruence].
    + apply in_or_app. left. apply (H i); [exact Hi|]. eapply take_nth; eauto.
    + apply in_or_app. left. eauto.
Qed.

(** the loop sends exactly the listeners when they do not change *)
Definition exactly (k : nat) (f : nat) (s0 s : conn) : Prop :=
  fd s = Some f /\ lists s = lists s0 /\ sockets s = sockets s0 /\ exists n, (threads s k = AtSlot n \/ threads s k = Caught n) /\
  sent s = sent s0 ++ map (pair f) (before n s0).

Lemma before_all n s : nth_error (lists s) n = None -> before n s = adding (listeners s).
Proof. intros N. apply nth_error_None in N. unfold before, listeners. rewrite firstn_all2 by exact N. reflexivity. Qed.

Lemma exactly_step r k f s0 s a s' : owned s -> exactly k f s0 s -> calm a -> still a -> step r s a = Ok s' ->
  exactly k f s0 s' \/ (threads s' k = Out /\ fd s' = Some f /\ in_progress s' = false /\ lists s' = lists s0 /\ sockets s' = sockets s0 /\
    sent s' = sent s0 ++ map (pair f) (adding (listeners s0))).
Proof.
  intros O (Fd & L & So & n & T & H) C St E.
  assert (B : renewing (threads s k)) by (destruct T as [-> | ->]; exact Logic.I).
  destruct (kinds a k) as [(t & ->)|[(b & ->)|[->|[->|[->|(N1 & N2 & N3 & N4 & N5)]]]]].
  - cbn [step] in E. destruct T as [T|T]; rewrite T in E; discriminate.
  - destruct T as [T|T]; [|exfalso; eapply caught_stuck; eauto].
    destruct (own_step r s s' k b n f T Fd E) as [(x & Nx & Eb & T' & F' & S' & L' & W')|[(x & Nx & Eb & T' & F' & S' & L' & W')|[(Nx & T' & F' & S' & L' & W')|(Nx & T' & F' & S' & L' & W' & I')]]].
    + left. split; [congruence|]. split; [congruence|]. split; [congruence|]. exists (S n). split; [auto|].
      rewrite W', H, before_S, <- L, Nx, map_app, app_assoc. reflexivity.
    + left. split; [congruence|]. split; [congruence|]. split; [congruence|]. exists n. split; [auto|]. congruence.
    + left. split; [congruence|]. split; [congruence|]. split; [congruence|]. exists (S n). split; [auto|].
      rewrite W', H, before_S, <- L, Nx, app_nil_r. reflexivity.
    + right. split; [exact T'|]. split; [congruence|]. split; [exact I'|]. split; [congruence|]. split; [congruence|].
      rewrite W', H, (before_all n s0); [reflexivity|congruence].
  - cbn [step] in E. destruct T as [T|T]; rewrite T in E; discriminate.
  - cbn [step] in E. destruct T as [T|T]; rewrite T in E; discriminate.
  - cbn [step] in E. destruct T as [T|T]; rewrite T in E; discriminate.
  - destruct (meanwhile r s a s' k O C B N1 N2 N3 N4 N5 E) as (T' & F' & S' & D).
    left. split; [congruence|]. split; [|split; [congruence|]]; (destruct D as [(L' & W')|D]; [|exfalso]).
    + congruence.
    + destruct a; cbn [still] in St; try contradiction; cbn [step] in E;
      repeat match type of E with match ?x with _ => _ end = _ => destruct x eqn:?; try discriminate end;
      try (injection E as <-); cbn in D;
      destruct D as [(x & g & _ & _ & W')|[(i0 & x & g & _ & _ & W')|(e & i0 & g & _ & _ & W')]];
        try (apply (f_equal (@length _)) in W'; rewrite app_length in W'; cbn in W'; lia).
      all: destruct O as (_ & U & _); match goal with HH : threads ?ss ?z = AtSlot _, BB : renewing (threads ?ss ?kk) |- _ => assert (z = kk) as -> by (apply U; [rewrite HH; exact Logic.I|exact BB]) end; eapply N2; reflexivity.
    + exists n. rewrite T'. split; [exact T|]. congruence.
    + destruct a; cbn [still] in St; try contradiction; cbn [step] in E;
      repeat match type of E with match ?x with _ => _ end = _ => destruct x eqn:?; try discriminate end;
      try (injection E as <-); cbn in D;
      destruct D as [(x & g & _ & _ & W')|[(i0 & x & g & _ & _ & W')|(e & i0 & g & _ & _ & W')]];
        try (apply (f_equal (@length _)) in W'; rewrite app_length in W'; cbn in W'; lia).
      all: destruct O as (_ & U & _); match goal with HH : threads ?ss ?z = AtSlot _, BB : renewing (threads ?ss ?kk) |- _ => assert (z = kk) as -> by (apply U; [rewrite HH; exact Logic.I|exact BB]) end; eapply N2; reflexivity.
Qed.

(** ** Renewing once *)
Definition stamps (t : Z) (a : act) : Prop := match a with Enter _ u => u <= t | _ => True end.

Definition once (s0 : conn) (t : Z) (s : conn) : Prop :=
  reconnect_time s = t /\
  (sockets s = sockets s0 /\ (exists k, threads s k = AtSocket false) \/
   sockets s = S (sockets s0) /\ forall k b, threads s k <> AtSocket b).

Lemma once_step r s0 t s a s' : owned s -> once s0 t s -> calm a -> stamps t a -> step r s a = Ok s' -> once s0 t s'.
Proof.
  intros O (R & H) C St E. pose proof O as (F & U & P & Q).
  assert (Keep : forall j p s1, reconnect_time s1 = reconnect_time s -> sockets s1 = sockets s ->
     (forall i, threads s1 i = if Nat.eqb i j then p else threads s i) ->
     (forall b, threads s j <> AtSocket b) -> (forall b, p <> AtSocket b) -> once s0 t s1).
  { intros j p s1 R1 S1 T1 Nj Np. split; [congruence|]. rewrite S1. destruct H as [(A & k & Tk)|(A & B)].
    - left. split; [exact A|]. exists k. rewrite T1. destruct (Nat.eqb_spec k j) as [->|]; [congruence|exact Tk].
    - right. split; [exact A|]. intros k b. rewrite T1. destruct (Nat.eqb k j); auto. }
  destruct a as [|k u|k|k|k|k|k|k b|k|x|id|e id]; cbn [calm] in C; try contradiction; cbn [step stamps] in *.
  - injection E as <-. split; [exact R|exact H].
  - destruct (threads s k) eqn:T; try discriminate. destruct (clock s <? u); [discriminate|].
    destruct (fd s) as [f|] eqn:Fd; [|congruence]. replace (reconnect_time s <? u) with false in E by lia. rewrite andb_false_r in E.
    destruct (in_progress s); injection E as <-; (eapply (Keep k); [reflexivity|reflexivity|cbn; reflexivity|rewrite T; discriminate|discriminate]).
  - destruct (threads s k) as [| |b|b n|n|n] eqn:T; try discriminate. injection E as <-. split; [exact R|]. destruct H as [(A & j & Tj)|(A & B)]; [|exfalso; eapply B; eauto].
    right. cbn. split; [congruence|]. intros i c. destruct (Nat.eqb_spec i k) as [|Hi]; [discriminate|]. intros Ti. apply Hi. apply U; [rewrite Ti|rewrite T]; exact Logic.I.
  - destruct (threads s k) as [| |b|b n|n|n] eqn:T; try discriminate. destruct b; injection E as <-;
      (eapply (Keep k); [reflexivity|reflexivity|cbn; reflexivity|rewrite T; discriminate|discriminate]).
  - destruct (threads s k) as [| |b|b n|n|n] eqn:T; try discriminate. destruct ((n + 1 <? r) || (r <? 0)); injection E as <-;
      (eapply (Keep k); [reflexivity|reflexivity|cbn; reflexivity|rewrite T; discriminate|discriminate]).
  - destruct (threads s k) as [| |c|c n|n|n] eqn:T; try discriminate.
    + destruct (nth_error (lists s) n) as [[x|]|]; [destruct b| |]; injection E as <-;
      (eapply (Keep k); [reflexivity|reflexivity|cbn; reflexivity|rewrite T; discriminate|discriminate]).
    + destruct (in_progress s); [discriminate|]. injection E as <-.
      (eapply (Keep k); [reflexivity|reflexivity|cbn; reflexivity|rewrite T; discriminate|discriminate]).
  - destruct (threads s k) eqn:T; try discriminate. destruct (in_progress s); [discriminate|]. injection E as <-.
      (eapply (Keep k); [reflexivity|reflexivity|cbn; reflexivity|rewrite T; discriminate|discriminate]).
  - destruct (put x (lists s)); [|discriminate]. injection E as <-. split; [exact R|exact H].
  - destruct (take _ (lists s)) as [(x, l)|]; [|discriminate]. injection E as <-. split; [exact R|exact H].
  - injection E as <-. split; [exact R|exact H].
Qed.

Lemma once_steps r s0 t l : forall s s', owned s -> once s0 t s -> Forall calm l -> Forall (stamps t) l -> steps r s l = Ok s' -> once s0 t s'.
Proof.
  induction l as [|a l IH]; intros s s' O H C St E; cbn [steps] in E; [congruence|]. inversion C; inversion St; subst.
  destruct (step r s a) as [s1| |] eqn:S; try discriminate. cbn [obind] in E.
  eapply IH; [|eapply once_step; [exact O|exact H| | |exact S]; assumption|assumption|assumption|exact E]. eapply owned_step; eauto.
Qed.

(** ** Running to the end *)
Lemma refusals r k n : forall m s b, threads s k = AtConnect b m -> (0 <= m) -> (m + Z.of_nat n < r \/ r < 0) ->
  exists s', steps r s (repeat (Refused k) n) = Ok s' /\ threads s' k = AtConnect b (m + Z.of_nat n) /\
    fd s' = fd s /\ sockets s' = sockets s /\ lists s' = lists s /\ sent s' = sent s /\ results s' = results s /\ in_progress s' = in_progress s.
Proof.
  induction n as [|n IH]; intros m s b T Hm R; cbn [repeat steps].
  - exists s. rewrite T, Z.add_0_r. auto 9.
  - cbn [step]. rewrite T. replace ((m + 1 <? r) || (r <? 0)) with true by lia. cbn [obind].
    destruct (IH (m + 1) (at_place s k (AtConnect b (m + 1))) b) as (s' & E & T' & A); [cbn; rewrite Nat.eqb_refl; reflexivity|lia|lia|].
    exists s'. rewrite E. split; [reflexivity|]. split; [rewrite T'; f_equal; lia|exact A].
Qed.

Lemma sends r k f : forall m n s s0, threads s k = AtSlot n -> fd s = Some f -> lists s = lists s0 -> sent s = sent s0 ++ map (pair f) (before n s0) ->
  (n + m = length (lists s0))%nat -> results s = results s0 -> sockets s = sockets s0 ->
  exists s', steps r s (repeat (Resend k true) (S m)) = Ok s' /\ threads s' k = Out /\ fd s' = Some f /\ lists s' = lists s0 /\
    sent s' = sent s0 ++ map (pair f) (adding (listeners s0)) /\ results s' = results s0 ++ [(k, RT_OK)] /\ in_progress s' = false /\ sockets s' = sockets s0.
Proof.
  induction m as [|m IH]; intros n s s0 T Fd L W Hn Rs So.
  - assert (N : nth_error (lists s0) n = None) by (apply nth_error_None; lia). cbn [repeat steps step]. rewrite T, L, N. cbn [obind].
    eexists. split; [reflexivity|]. cbn. rewrite Nat.eqb_refl. repeat split; auto; [|congruence]. rewrite W, before_all by exact N. reflexivity.
  - remember (S m) as m' eqn:Em. cbn [repeat steps step]. rewrite T, L. subst m'.
    destruct (nth_error (lists s0) n) as [[x|]|] eqn:N.
    + cbn [obind]. apply (IH (S n)); auto; cbn -[before]; rewrite ?Nat.eqb_refl; auto; [|lia].
      rewrite Fd, W, before_S, N, map_app, app_assoc. reflexivity.
    + cbn [obind]. apply (IH (S n)); auto; cbn -[before]; rewrite ?Nat.eqb_refl; auto; [|lia].
      rewrite W, before_S, N, app_nil_r. reflexivity.
    + apply nth_error_None in N. lia.
Qed.

(** ** Stuck *)
Definition caught (k : nat) (s : conn) : Prop :=
  (exists n, threads s k = Caught n) /\ fd s <> None /\ in_progress s = true /\ forall j, j <> k -> threads s j = Out \/ threads s j = Waits.

Lemma caught_step r k s a s' : caught k s -> step r s a = Ok s' -> caught k s'.
Proof.
  intros ((n & T) & F & I & Oth) E.
  assert (Place : forall j, threads s j = Caught n /\ j = k \/ threads s j = Out /\ j <> k \/ threads s j = Waits /\ j <> k).
  { intros j. destruct (Nat.eq_dec j k) as [->|H]; [auto|]. destruct (Oth j H); auto. }
  destruct a as [|j t|j|j|j|j|j|j b|j|x|id|e id]; cbn [step] in E;
    try (destruct (Place j) as [(Tj & Hj)|[(Tj & Hj)|(Tj & Hj)]]; rewrite Tj, ?I in E; try discriminate).
  - injection E as <-. split; [eauto|auto].
  - destruct (clock s <? t); [discriminate|]. destruct (fd s) as [f|] eqn:Fd; [|congruence]. cbn [negb andb] in E. injection E as <-.
    split; [exists n; cbn; rewrite (proj2 (Nat.eqb_neq k j)) by auto; exact T|]. split; [cbn; congruence|]. split; [exact I|].
    intros i Hi. cbn. destruct (Nat.eqb i j); auto.
  - destruct (put x (lists s)); [|discriminate]. injection E as <-. split; [eauto|]. auto.
  - destruct (take _ (lists s)) as [(x, l)|]; [|discriminate]. injection E as <-. split; [eauto|]. auto.
  - injection E as <-. split; [eauto|]. auto.
Qed.

Lemma caught_steps r k l : forall s s', caught k s -> steps r s l = Ok s' -> caught k s'.
Proof.
  induction l as [|a l IH]; intros s s' O E; cbn [steps] in E; [congruence|].
  destruct (step r s a) as [s1| |] eqn:S; try discriminate. cbn [obind] in E. eapply IH; [|exact E]. eapply caught_step; eauto.
Qed.

(** The flag is up and nobody is at work. *)
Definition deserted (s : conn) : Prop :=
  fd s <> None /\ in_progress s = true /\ forall j, threads s j = Out \/ threads s j = Waits.

Lemma deserted_step r s a s' : deserted s -> step r s a = Ok s' -> deserted s' /\ fd s' = fd s /\ results s' = results s.
Proof.
  intros (F & I & Oth) E.
  destruct a as [|j t|j|j|j|j|j|j b|j|x|id|e id]; cbn [step] in E;
    try (destruct (Oth j) as [Tj|Tj]; rewrite Tj, ?I in E; try discriminate).
  - injection E as <-. split; [split; auto|auto].
  - destruct (clock s <? t); [discriminate|]. destruct (fd s) as [f|] eqn:Fd; [|congruence]. cbn [negb andb] in E. injection E as <-.
    split; [|auto]. split; [cbn; congruence|]. split; [exact I|]. intros i. cbn. destruct (Nat.eqb i j); auto.
  - destruct (put x (lists s)); [|discriminate]. injection E as <-. split; [split; auto|auto].
  - destruct (take _ (lists s)) as [(x, l)|]; [|discriminate]. injection E as <-. split; [split; auto|auto].
  - injection E as <-. split; [split; auto|auto].
Qed.

Lemma deserted_steps r l : forall s s', deserted s -> steps r s l = Ok s' -> deserted s' /\ fd s' = fd s /\ results s' = results s.
Proof.
  induction l as [|a l IH]; intros s s' O E; cbn [steps] in E; [injection E as <-; auto|].
  destruct (step r s a) as [s1| |] eqn:S; try discriminate. cbn [obind] in E.
  destruct (deserted_step _ _ _ _ O S) as (D & A & B). destruct (IH s1 s' D E) as (D' & A' & B'). split; [exact D'|]. split; congruence.
Qed.

(** ** Staying out *)
Lemma out_step r k s a s' : ~ renewing (threads s k) -> (forall t, a <> Enter k t) -> step r s a = Ok s' -> ~ renewing (threads s' k).
Proof.
  intros N NE E. destruct a as [|j t|j|j|j|j|j|j b|j|x|id|e id]; cbn [step] in E;
    repeat match type of E with match ?x with _ => _ end = _ => destruct x eqn:?; try discriminate end;
    injection E as <-; cbn; auto; destruct (Nat.eqb_spec k j) as [<-|]; auto; try (exfalso; eapply NE; reflexivity);
    intros []; apply N; match goal with H : threads _ _ = _ |- _ => rewrite H; exact Logic.I end.
Qed.

Lemma out_steps r k l : forall s s', ~ renewing (threads s k) -> (forall t, ~ In (Enter k t) l) -> steps r s l = Ok s' -> ~ renewing (threads s' k).
Proof.
  induction l as [|a l IH]; intros s s' N NE E; cbn [steps] in E; [congruence|].
  destruct (step r s a) as [s1| |] eqn:S; try discriminate. cbn [obind] in E. eapply IH; [|intros t It; apply (NE t); right; exact It|exact E].
  eapply out_step; [exact N| |exact S]. intros t ->. apply (NE t). left. reflexivity.
Qed.

Lemma exactly_steps r k f s0 l : forall s s', owned s -> exactly k f s0 s -> Forall calm l -> Forall still l ->
  (forall t, ~ In (Enter k t) l) -> steps r s l = Ok s' -> renewing (threads s' k) -> owned s' /\ exactly k f s0 s'.
Proof.
  induction l as [|a l IH]; intros s s' O X C St NE E B; cbn [steps] in E; [injection E as <-; auto|].
  inversion C; inversion St; subst. destruct (step r s a) as [s1| |] eqn:S; try discriminate. cbn [obind] in E.
  assert (NE' : forall t, ~ In (Enter k t) l) by (intros t It; apply (NE t); right; exact It).
  destruct (exactly_step r k f s0 s a s1) as [X'|(T' & _)]; auto.
  - apply (IH s1); auto. apply (owned_step r s a); auto.
  - exfalso. eapply (out_steps r k l s1 s'); eauto. rewrite T'. exact (fun x => x).
Qed.

(** ** A fresh connection *)
Lemma put_fresh x l : forall m, put x (map Some l ++ repeat None (S m)) = Some (map Some (l ++ [x]) ++ repeat None m).
Proof. induction l as [|y l IH]; intros m; [reflexivity|]. cbn [map app put]. rewrite IH. reflexivity. Qed.

Lemma fresh_run l : forall l0 m i q a b c w, (length l <= m)%nat ->
  exists s rs, run (mkState (map Some l0 ++ repeat None m) i q a b c w) (map (fun x => AddWithId (l_expr x) (l_id x) (l_closure x)) l) = Ok (s, rs) /\
    wire s = w ++ adding l /\ Forall (eq RT_OK) rs.
Proof.
  induction l as [|x l IH]; intros l0 m i q a b c w H.
  - eexists _, _. split; [reflexivity|]. cbn. rewrite app_nil_r. auto.
  - destruct m as [|m]; [cbn in H; lia|]. cbn [map run ListenModel.step add_with_id slots]. unfold add_with_id. cbn [slots].
    replace (mkListener (l_id x) (l_expr x) (l_closure x)) with x by (destruct x; reflexivity).
    rewrite put_fresh. cbn [obind next_id queue arrived ListenModel.busy calls wire].
    destruct (IH (l0 ++ [x])%list m i q a b c (w ++ [mkWire true (l_expr x) (l_id x)])) as (s & rs & E & W & A); [cbn in H; lia|].
    rewrite E. cbn [obind]. exists s, (RT_OK :: rs). split; [reflexivity|]. split; [|auto]. rewrite W. cbn. rewrite <- app_assoc. reflexivity.
Qed.
