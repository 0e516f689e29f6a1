(** Proofs about the broker with several senders. *)
From Verif Require Import Common CommonFacts Bytes HeaderModel HeaderSpec FramingModel FramingSpec FramingProofs FramingProps RouteModel RouteSpec RouteProofs RouteInv RouteRun RouteLook RouterModel RouterSpec RouterProofs LinkModel LinkSpec LinkProofs CrowdModel CrowdSpec.
From Coq Require Import Lia ZifyBool.
Local Open Scope Z_scope.

Lemma put_same : forall st c x, put st c x c = x.
Proof. intros st c x. unfold put. rewrite Z.eqb_refl. reflexivity. Qed.
Lemma put_other : forall st c x d, d <> c -> put st c x d = st d.
Proof. intros st c x d N. unfold put. replace (d =? c) with false by lia. reflexivity. Qed.
Lemma run_empty : forall cap s ks, reader_run cap s [] ks = Ok ([], [], s, false).
Proof. intros cap s [|k ks]; reflexivity. Qed.

(** ** the broker's own names *)
Lemma own_names : forall v, (forall p, In (p, None) (names_of v) -> In p (map split builtin)) ->
  forall o p, In (p, None) (names_of (record v o)) -> In p (map split builtin).
Proof.
  intros v H (r, rc) p I. destruct r as [c e id|c e|c]; cbn [record] in I.
  - destruct rc; cbn [names_of] in I; auto. destruct (split e); auto. apply in_app_iff in I as [I|[I|[]]]; [auto|discriminate].
  - destruct rc; auto. destruct (find _ _); cbn [names_of] in I; [apply filter_In in I as [I _]; auto|]. destruct (split e); auto. apply filter_In in I as [I _]; auto.
  - destruct rc; cbn [names_of] in I; apply filter_In in I as [I _]; auto.
Qed.
Lemma no_broker : forall v q, (forall p, In (p, None) (names_of v) -> In p (map split builtin)) -> not_broker q -> ~ In None (owners v (split q)).
Proof.
  intros v q H N I. unfold owners in I. apply in_map_iff in I as ((p, o) & E & I). cbn in E. subst o. apply filter_In in I as [I S]. cbn [fst] in S.
  apply H in I. apply in_map_iff in I as (n & <- & I). rewrite (N n I) in S. discriminate.
Qed.
Lemma deliver_clients : forall m os, ~ In None os -> existsb for_broker (map (deliver_to m) os) = false.
Proof.
  intros m os N. destruct (existsb for_broker (map (deliver_to m) os)) eqn:E; [|reflexivity]. exfalso. apply existsb_exists in E as (d & I & D).
  apply in_map_iff in I as ([(c, id)|] & <- & I); [discriminate|auto].
Qed.
Lemma expected_clients : forall l v m, (forall p, In (p, None) (names_of v) -> In p (map split builtin)) -> mailable l m -> existsb for_broker (expected v m) = false.
Proof.
  intros l v m H (_ & _ & _ & NT & NR). unfold expected. destruct (owners v (split (m_topic m))) as [|o os] eqn:O.
  - destruct (Z.testbit (m_flags m) 0); [|reflexivity]. apply deliver_clients, no_broker; [exact H|]. apply NR. reflexivity.
  - apply deliver_clients. rewrite <- O. apply no_broker; assumption.
Qed.

(** ** the loop *)
Definition sources (cap : nat) (A : list req) (st : Z -> conn) (l : list moment) (outs : Z -> list message) (says : Z -> list msg) : Prop :=
  forall c, (exists rest s, reader_run cap (fst (st c)) (snd (st c)) (turns c l) = Ok (outs c, rest, s, false)) /\
    map content (outs c) = map as_content (says c) /\ Forall (mailable A) (says c).
Lemma live_ok : forall cap A l b v seen st outs says, let N := among (requested A) in
  tidyP N -> rel N b v -> (forall p, In (p, None) (names_of v) -> In p (map split builtin)) ->
  (forall s, In s (subs_of v) -> In (fst s) seen) -> (forall c e id, In (Sub c e id) (requests_of l) -> N (split e) /\ good_name e) ->
  (forall c e, In (Unsub c e) (requests_of l) -> (dots e <= 31)%nat /\ literalP N (split e)) -> advisory_first seen (requests_of l) ->
  sources cap A st l outs says ->
  exists hs b' st' L, live cap b st l = Ok (hs, b', st') /\ forwarded hs = replay v L /\ requests_in L = requests_of l /\ answered hs = answers_in L /\ forall c, sent_by c L = says c.
Proof.
  intros cap A l. induction l as [|x l IH]; intros b v seen st outs says N TA RL OWN SE GS GU AD SO.
  { exists [], b, st, []. repeat (split; [reflexivity|]). intros c. destruct (SO c) as ((rest & s & R) & M & _). cbn [turns reader_run] in R. injection R as E _ _. rewrite <- E in M.
    destruct (says c); [reflexivity|discriminate]. }
  destruct x as [c k|r]; cbn [live].
  - destruct (SO c) as ((rest & s & R) & M & FM). cbn [turns] in R. rewrite Z.eqb_refl in R. cbn [reader_run] in R.
    destruct (reader_step cap (fst (st c)) (snd (st c)) k) as [[s1 rest1 out| |]|u|] eqn:ST; cbn [obind] in R; try discriminate; cbn [obind].
    + destruct (reader_run cap s1 rest1 (turns c l)) as [(((ms, rest2), s2), cl)|u|] eqn:RR; cbn [obind] in R; try discriminate. injection R as E1 -> -> ->.
      destruct out as [m|].
      * destruct (says c) as [|m0 ls] eqn:EL; [rewrite <- E1 in M; discriminate|]. rewrite <- E1 in M. cbn [map] in M. assert (M0 : content m = as_content m0) by congruence. assert (M1 : map content ms = map as_content ls) by congruence.
        inversion FM as [|? ? MM FM']; subst. rewrite (received_spec m m0 M0). cbn [obind].
        assert (D : dispatch b m0 = Ok (expected v m0)).
        { destruct MM as (_ & _ & (P1 & P2 & P3 & P4) & _ & PR). apply (dispatch_rel N); auto. destruct (Z.testbit (m_flags m0) 0); [left|right; reflexivity].
          destruct (PR eq_refl) as (PP & _). exact PP. }
        rewrite D. cbn [obind]. rewrite (expected_clients A v m0 OWN MM).
        destruct (IH b v seen (put st c (s1, rest1)) (fun d => if d =? c then ms else outs d) (fun d => if d =? c then ls else says d) TA RL OWN SE GS GU AD) as (hs & b' & st' & L & E & F & Q & AN & SB).
        { intros d. destruct (Z.eq_dec d c) as [->|ND].
          - rewrite put_same, Z.eqb_refl. split; [exists rest, s; exact RR|]. auto.
          - rewrite put_other by exact ND. replace (d =? c) with false by lia. destruct (SO d) as (R & X). cbn [turns] in R. replace (c =? d) with false in R by lia. exact (conj R X). }
        rewrite E. cbn [obind]. exists (Forwarded c (expected v m0) :: hs), b', st', (inl (c, m0) :: L). split; [reflexivity|].
        split; [cbn [forwarded flat_map replay]; f_equal; exact F|]. split; [exact Q|]. split; [exact AN|]. intros d. cbn [sent_by flat_map]. fold (sent_by d L). rewrite SB.
        destruct (Z.eq_dec d c) as [->|ND]; [rewrite !Z.eqb_refl, EL; reflexivity|]. replace (c =? d) with false by lia. replace (d =? c) with false by lia. reflexivity.
      * destruct (IH b v seen (put st c (s1, rest1)) outs says TA RL OWN SE GS GU AD) as (hs & b' & st' & L & E & F & Q & AN & SB).
        { intros d. destruct (Z.eq_dec d c) as [->|ND].
          - rewrite put_same. split; [exists rest, s; cbn [fst snd]; rewrite RR, E1; reflexivity|]. auto.
          - rewrite put_other by exact ND. destruct (SO d) as (R & X). cbn [turns] in R. replace (c =? d) with false in R by lia. exact (conj R X). }
        exists hs, b', st', L. auto.
    + injection R as E1 <- <-. destruct (IH b v seen st outs says TA RL OWN SE GS GU AD) as (hs & b' & st' & L & E & F & Q & AN & SB); [|exists hs, b', st', L; auto].
      assert (EM : snd (st c) = []).
      { unfold reader_step in ST. destruct (snd (st c)); [reflexivity|]. cbv zeta in ST. destruct (_ <? 0); [discriminate|]. destruct (_ =? 0); [discriminate|].
        destruct (_ <=? _)%nat; [|discriminate]. destruct (process _ _) as [(?, ?)|?|]; cbn [obind] in ST; discriminate. }
      intros d. destruct (Z.eq_dec d c) as [->|ND].
      * split; [|auto]. exists [], (fst (st c)). rewrite EM, run_empty, E1. reflexivity.
      * destruct (SO d) as (R & X). cbn [turns] in R. replace (c =? d) with false in R by lia. exact (conj R X).
  - assert (ST : exists b1 rc, serve b r = Ok (b1, rc) /\ rel N b1 (record v (r, rc))).
    { destruct r as [c e id|c e|c]; cbn [serve].
      - destruct (GS c e id ltac:(left; reflexivity)) as [G1 G2]. apply subscribe_rel; auto. eapply advisory_none; eauto.
      - destruct (GU c e ltac:(left; reflexivity)) as [G1 G2]. apply unsubscribe_rel; auto. discriminate.
      - exists (leave b c), RT_OK. split; [reflexivity|]. apply leave_rel. exact RL. }
    destruct ST as (b1 & rc & ST & RL1). rewrite ST. cbn [obind]. cbv zeta.
    destruct (IH b1 (record v (r, rc)) (match r with Sub c _ id => (c, id) :: seen | _ => seen end) (match r with Leave c => put st c (fst (st c), []) | _ => st end) outs says TA RL1) as (hs & b' & st' & L & E & F & Q & AN & SB).
    + apply own_names, OWN.
    + intros s H. eapply subs_seen; eauto.
    + intros c e id H. apply (GS c e id). right. exact H.
    + intros c e H. apply (GU c e). right. exact H.
    + destruct r; [destruct AD as [_ AD]; exact AD|exact AD|exact AD].
    + intros d. specialize (SO d). destruct r as [c e id|c e|c]; cbn [turns] in SO; [exact SO|exact SO|]. destruct (Z.eq_dec d c) as [->|ND].
      * rewrite put_same. cbn [fst snd]. rewrite Z.eqb_refl in SO. destruct SO as ((rest & s & R) & X). cbn [reader_run] in R. injection R as E1 _ _. split; [|exact X]. exists [], (fst (st c)). rewrite run_empty, E1. reflexivity.
      * rewrite put_other by exact ND. replace (c =? d) with false in SO by lia. exact SO.
    + rewrite E. cbn [obind]. exists (Registered r rc :: hs), b', st', (inr (r, rc) :: L). split; [reflexivity|]. split; [exact F|]. split; [unfold requests_in in *; cbn [requests_of answers_in flat_map app map fst]; f_equal; exact Q|]. split; [cbn [answered answers_in flat_map app]; f_equal; exact AN|exact SB].
Qed.

(** ** what is delivered can be sent *)
Lemma expected_postable : forall v m, postable m -> (forall p c id, In (p, Some (c, id)) (names_of v) -> u32 id = true) -> forall x r, In (ToClient x r) (expected v m) -> postable r.
Proof.
  intros v m (U1 & U2 & U3 & C1 & C2 & L1 & L2 & B & LP) UI x r H. unfold expected in H.
  assert (P1 : forall os, In (ToClient x r) (map (deliver_to m) os) -> (forall c id, In (Some (c, id)) os -> u32 id = true) -> postable r).
  { intros os K U. apply in_map_iff in K as ([[c id]|] & E & K); cbn [deliver_to] in E; [|discriminate]. injection E as <- <-. unfold postable. cbn. pose proof (U _ _ K). repeat split; auto. }
  assert (UO : forall p c id, In (Some (c, id)) (owners v p) -> u32 id = true).
  { intros p c id K. unfold owners in K. apply in_map_iff in K as ((q, o) & E & K). cbn in E. subst o. apply filter_In in K as [K _]. eapply UI. exact K. }
  destruct (owners v (split (m_topic m))) as [|o os] eqn:EO.
  - destruct (Z.testbit (m_flags m) 0); [|contradiction]. apply in_map_iff in H as ([[c id]|] & E & K); cbn [deliver_to] in E; [|discriminate]. injection E as <- <-. unfold postable, undeliverable. cbn. pose proof (UO _ _ _ K). pose proof (bounce_flags _ U2). repeat split; auto; lia.
  - apply (P1 (o :: os)); [exact H|]. intros c id K. apply (UO (split (m_topic m)) c). rewrite EO. exact K.
Qed.
Lemma record_ids : forall v o, (forall p c id, In (p, Some (c, id)) (names_of v) -> u32 id = true) -> (forall c e id, fst o = Sub c e id -> u32 id = true) ->
  forall p c id, In (p, Some (c, id)) (names_of (record v o)) -> u32 id = true.
Proof.
  intros v (r, rc) H U p c id I. destruct r as [c' e id'|c' e|c']; cbn [record] in I.
  - destruct rc; cbn [names_of] in I; eauto. destruct (split e); eauto. apply in_app_iff in I as [I|[I|[]]]; [eauto|]. injection I as _ _ <-. eapply U. reflexivity.
  - destruct rc; eauto. destruct (find _ _); cbn [names_of] in I; [apply filter_In in I as [I _]; eauto|]. destruct (split e); eauto. apply filter_In in I as [I _]; eauto.
  - destruct rc; cbn [names_of] in I; apply filter_In in I as [I _]; eauto.
Qed.
Lemma replay_postable : forall L v, (forall p c id, In (p, Some (c, id)) (names_of v) -> u32 id = true) -> (forall c e id, In (Sub c e id) (requests_in L) -> u32 id = true) ->
  (forall c m, In m (sent_by c L) -> postable m) -> forall x r, In (ToClient x r) (replay v L) -> postable r.
Proof.
  induction L as [|[(c, m)|(q, rc)] L IH]; intros v H U P x r I; cbn [replay] in I; [contradiction| |].
  - apply in_app_iff in I as [I|I].
    + apply (expected_postable v m) with (x := x); auto. apply (P c). cbn [sent_by flat_map]. rewrite Z.eqb_refl. left. reflexivity.
    + apply (IH v) with (x := x); auto. intros d m' I'. apply (P d). cbn [sent_by flat_map]. apply in_app_iff. right. exact I'.
  - apply (IH (record v (q, rc))) with (x := x); auto.
    + apply record_ids; [exact H|]. cbn [fst]. intros c e id ->. apply (U c e id). left. reflexivity.
    + intros c e id I'. apply (U c e id). right. exact I'.
Qed.
Lemma posted_ok : forall ms, (forall m, In m ms -> postable m) -> forallb sendable (map posted ms) = true /\ map content (map posted ms) = map as_content ms.
Proof.
  induction ms as [|m ms IH]; intros P; [split; reflexivity|]. destruct (header_sendable m (P m (or_introl eq_refl))) as (S1 & S2 & _). destruct IH as [I1 I2]; [intros; apply P; right; assumption|].
  cbn [map forallb]. split; [unfold posted at 1; rewrite S1; exact I1|unfold posted at 1; rewrite S2, I2; reflexivity].
Qed.
