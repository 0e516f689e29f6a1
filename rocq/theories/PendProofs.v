(** Proofs about request and response matching. *)
From Verif Require Import Common CommonFacts PendModel PendSpec.
From Coq Require Import List ZArith Lia Bool Permutation.
Import ListNotations.
Local Open Scope Z_scope.

Definition slot (p : preq) : list nat := match p_resp p with Some (n, _) => [n] | None => [] end.
Definition hand (h : option (nat * nat * resp)) : list nat := match h with Some (_, n, _) => [n] | None => [] end.
Definition known (l : list event) (n : nat) (m : resp) : Prop := nth_error (responses l) n = Some m.
Record inv (l : list event) (s : state) : Prop := mkInv {
  i_calls : calls s = begun l;
  i_seq : next_seq s = number (calls s);
  i_arrived : arrived s = length (responses l);
  i_seqs : forall p, In p (pend s) -> p_seq p = number (p_no p) /\ (p_no p < calls s)%nat;
  i_nos : NoDup (map p_no (pend s));
  i_resp : forall p n m, In p (pend s) -> p_resp p = Some (n, m) -> known l n m /\ r_seq m = p_seq p;
  i_sem : forall p, In p (pend s) -> (p_phase p <> Waiting \/ p_sem p <> O) -> p_phase p <> Expired -> p_resp p <> None;
  i_held : forall r n m, held s = Some (r, n, m) -> known l n m /\ r_seq m = number r /\ (In r (map p_no (pend s)) \/ (In (Expire r) l /\ In (r, TimedOut) (results s)));
  i_done : forall r x, In (r, x) (results s) -> (r < calls s)%nat /\ ~ In r (map p_no (pend s));
  i_once : NoDup (map fst (results s));
  i_res : forall r x, In (r, x) (results s) -> match x with
          | Completed n m => known l n m /\ r_seq m = number r /\ r_undeliverable m = false
          | Gone => exists n m, known l n m /\ r_seq m = number r /\ r_undeliverable m = true
          | TimedOut => In (Expire r) l
          | NotSent => True
          | NoData => False
          end;
  i_exp : forall p, In p (pend s) -> p_phase p = Expired -> In (Expire (p_no p)) l;
  i_own : NoDup (released s ++ given (results s) ++ hand (held s) ++ flat_map slot (pend s));
  i_past : forall n, In n (released s ++ given (results s) ++ hand (held s) ++ flat_map slot (pend s)) -> (n < arrived s)%nat }.

Lemma number_next : forall n, (number n + 1) mod 2 ^ 32 = number (S n).
Proof. intros n. unfold number. rewrite Nat2Z.inj_succ. replace (1 + Z.succ (Z.of_nat n)) with ((1 + Z.of_nat n) + 1) by lia. rewrite Zplus_mod_idemp_l. reflexivity. Qed.
Lemma known_mono : forall l e n m, known l n m -> known (l ++ [e]) n m.
Proof. intros l e n m H. unfold known, responses in *. rewrite flat_map_app. rewrite nth_error_app1; [exact H|]. apply nth_error_Some. congruence. Qed.
Lemma find_req_some : forall r l p, find_req r l = Some p -> In p l /\ p_no p = r.
Proof. intros r l p H. apply find_some in H as [H E]. apply Nat.eqb_eq in E. auto. Qed.
Lemma find_req_none : forall r l, find_req r l = None -> ~ In r (map p_no l).
Proof. intros r l H C. apply in_map_iff in C as (p & E & I). pose proof (find_none _ _ H p I) as X. cbn in X. rewrite E, Nat.eqb_refl in X. discriminate. Qed.
Lemma find_req_in : forall l p, NoDup (map p_no l) -> In p l -> find_req (p_no p) l = Some p.
Proof.
  induction l as [|x l IH]; intros p N H; [destruct H|]. cbn in N. inversion N as [|? ? NI N']; subst. unfold find_req. cbn [find].
  destruct H as [->|H]; [rewrite Nat.eqb_refl; reflexivity|]. destruct (Nat.eqb_spec (p_no x) (p_no p)) as [E|_]; [exfalso; apply NI; rewrite E; apply in_map, H|apply IH; auto].
Qed.
Lemma change_nos : forall r f l, (forall p, p_no (f p) = p_no p) -> map p_no (change r f l) = map p_no l.
Proof. intros r f l H. unfold change. rewrite map_map. apply map_ext. intros p. destruct (Nat.eqb (p_no p) r); auto. Qed.
Lemma in_change : forall r f l q, In q (change r f l) -> exists p, In p l /\ ((p_no p = r /\ q = f p) \/ (p_no p <> r /\ q = p)).
Proof. intros r f l q H. apply in_map_iff in H as (p & E & I). exists p. split; [exact I|]. destruct (Nat.eqb_spec (p_no p) r); auto. Qed.
Lemma change_slots : forall r f l, (forall p, slot (f p) = slot p) -> flat_map slot (change r f l) = flat_map slot l.
Proof. intros r f l H. unfold change. induction l as [|p l IH]; [reflexivity|]. cbn. rewrite IH. destruct (Nat.eqb (p_no p) r); rewrite ?H; reflexivity. Qed.
Lemma without_nos : forall r l, map p_no (without r l) = filter (fun n => negb (Nat.eqb n r)) (map p_no l).
Proof. intros r l. unfold without. induction l as [|p l IH]; [reflexivity|]. cbn. destruct (Nat.eqb (p_no p) r); cbn; rewrite IH; reflexivity. Qed.
Lemma without_split : forall l p, NoDup (map p_no l) -> In p l -> Permutation (flat_map slot l) (slot p ++ flat_map slot (without (p_no p) l)).
Proof.
  induction l as [|x l IH]; intros p N H; [destruct H|]. cbn in N. inversion N as [|? ? NI N']; subst. destruct H as [->|H].
  - cbn. rewrite Nat.eqb_refl. cbn [negb]. assert (E : without (p_no p) l = l).
    { unfold without. clear - NI. induction l as [|y l IH]; [reflexivity|]. cbn in *. destruct (Nat.eqb_spec (p_no y) (p_no p)); [exfalso; apply NI; auto|]. cbn. rewrite IH; auto. }
    fold (without (p_no p) l). rewrite E. apply Permutation_refl.
  - cbn. assert (NE : p_no x <> p_no p) by (intros E; apply NI; rewrite E; apply in_map, H). destruct (Nat.eqb_spec (p_no x) (p_no p)); [contradiction|]. cbn [negb flat_map]. fold (without (p_no p) l).
    rewrite (IH p N' H) at 1. rewrite !app_assoc. apply Permutation_app_tail, Permutation_app_comm.
Qed.
Ltac perm := apply (Permutation_count_occ Nat.eq_dec); intros ?y; rewrite ?count_occ_app; lia.
Lemma nodup_perm : forall {A} (a b : list A), Permutation a b -> NoDup a -> NoDup b.
Proof. intros. eapply Permutation_NoDup; eauto. Qed.
Lemma nodup_split : forall {A} (a b : list A), NoDup (a ++ b) -> NoDup a /\ NoDup b.
Proof. induction a as [|x a IH]; intros b H; [split; [constructor|exact H]|]. cbn in H. inversion H as [|? ? NI N]; subst. apply IH in N as [N1 N2]. split; [constructor; [intros C; apply NI, in_app_iff; auto|exact N1]|exact N2]. Qed.
Lemma in_app_nil : forall l (e : event) x, In x l -> In x (l ++ [e]).
Proof. intros. apply in_app_iff. auto. Qed.

Lemma inv_init : inv [] init.
Proof.
  constructor; cbn; try reflexivity; try (intros; contradiction); try (intros; discriminate); try constructor.
Qed.
(** facts that carry over when the trace grows by an event that is not an arrival *)
Lemma responses_app : forall l e, responses (l ++ [e]) = responses l ++ match e with Arrive m => [m] | _ => [] end.
Proof. intros. unfold responses. rewrite flat_map_app. cbn. rewrite app_nil_r. reflexivity. Qed.
Lemma begun_app : forall l e, begun (l ++ [e]) = (begun l + match e with Begin _ => 1 | _ => 0 end)%nat.
Proof. intros. unfold begun. rewrite filter_app, app_length. destruct e; reflexivity. Qed.
Lemma res_mono : forall l e r x, match x with
          | Completed n m => known l n m /\ r_seq m = number r /\ r_undeliverable m = false
          | Gone => exists n m, known l n m /\ r_seq m = number r /\ r_undeliverable m = true
          | TimedOut => In (Expire r) l
          | NotSent => True
          | NoData => False
          end -> match x with
          | Completed n m => known (l ++ [e]) n m /\ r_seq m = number r /\ r_undeliverable m = false
          | Gone => exists n m, known (l ++ [e]) n m /\ r_seq m = number r /\ r_undeliverable m = true
          | TimedOut => In (Expire r) (l ++ [e])
          | NotSent => True
          | NoData => False
          end.
Proof.
  intros l e r [n m| | | |] H; auto.
  - destruct H as (A & B & C). split; [apply known_mono; exact A|auto].
  - destruct H as (n & m & A & B). exists n, m. split; [apply known_mono; exact A|auto].
  - apply in_app_nil. exact H.
Qed.
Lemma given_app : forall l r x, given (l ++ [(r, x)]) = given l ++ match x with Completed n _ => [n] | _ => [] end.
Proof. intros. unfold given. rewrite flat_map_app. cbn. rewrite app_nil_r. reflexivity. Qed.

(** finishing a call *)
Lemma finish_inv : forall l e s r x fr, inv l s -> (match e with Arrive _ | Begin _ => False | _ => True end) -> forall p, In p (pend s) -> p_no p = r ->
  (match x with
          | Completed n m => known l n m /\ r_seq m = number r /\ r_undeliverable m = false
          | Gone => exists n m, known l n m /\ r_seq m = number r /\ r_undeliverable m = true
          | TimedOut => In (Expire r) l
          | NotSent => True
          | NoData => False
          end) -> (x = TimedOut \/ held s = None) ->
  (incl (fr ++ match x with Completed n _ => [n] | _ => [] end) (slot p) /\ NoDup (fr ++ match x with Completed n _ => [n] | _ => [] end)) -> inv (l ++ [e]) (finish s r x fr).
Proof.
  intros l e s r x fr V NE p Ip Er RX HX [IN ND]. destruct V as [A1 A2 A3 A4 A5 A6 A7 A8 A9 A10 A11 A12 A13 A14].
  assert (RS : responses (l ++ [e]) = responses l) by (rewrite responses_app; destruct e; try destruct NE; apply app_nil_r).
  assert (BG : begun (l ++ [e]) = begun l) by (rewrite begun_app; destruct e; try destruct NE; lia).
  assert (SUB : forall q, In q (without r (pend s)) -> In q (pend s) /\ p_no q <> r).
  { intros q H. apply filter_In in H as [H1 H2]. split; [exact H1|]. intros E. rewrite E, Nat.eqb_refl in H2. discriminate. }
  constructor; cbn [finish pend held calls next_seq arrived results released].
  - rewrite BG. exact A1.
  - exact A2.
  - rewrite RS. exact A3.
  - intros q H. apply SUB in H as [H _]. auto.
  - rewrite without_nos. apply NoDup_filter, A5.
  - intros q n m H E. apply SUB in H as [H _]. destruct (A6 q n m H E) as [B1 B2]. split; [apply known_mono; exact B1|exact B2].
  - intros q H. apply SUB in H as [H _]. auto.
  - intros r' n m H. destruct HX as [-> |HX]; [|congruence]. destruct (A8 r' n m H) as (B1 & B2 & B3). split; [apply known_mono; exact B1|]. split; [exact B2|]. destruct (Nat.eq_dec r' r) as [->|NR].
    + right. split; [apply in_app_nil; exact RX|]. apply in_app_iff. right. left. reflexivity.
    + destruct B3 as [B3|[B3 B4]]; [left|right].
      * rewrite without_nos. apply filter_In. split; [exact B3|]. destruct (Nat.eqb_spec r' r); [contradiction|reflexivity].
      * split; [apply in_app_nil; exact B3|apply in_app_iff; left; exact B4].
  - intros r' x' H. apply in_app_iff in H as [H|[H|[]]].
    + destruct (A9 r' x' H) as [B1 B2]. split; [exact B1|]. intros C. apply B2. rewrite without_nos in C. apply filter_In in C as [C _]. exact C.
    + injection H as <- <-. split; [destruct (A4 p Ip) as [_ B]; lia|]. rewrite without_nos. intros C. apply filter_In in C as [_ C]. rewrite Nat.eqb_refl in C. discriminate.
  - rewrite map_app. cbn. apply nodup_app_intro; [exact A10|repeat constructor; intros []|]. intros y Hy [<-|[]]. apply in_map_iff in Hy as ((r', x') & E & Hy). cbn in E. subst r'. apply A9 in Hy as [_ Hy]. apply Hy. rewrite <- Er. apply in_map, Ip.
  - intros r' x' H. apply in_app_iff in H as [H|[H|[]]]; [apply res_mono, A11, H|]. injection H as <- <-. apply res_mono, RX.
  - intros q H E. apply SUB in H as [H _]. apply in_app_nil. auto.
  - rewrite given_app. assert (PM : Permutation (flat_map slot (pend s)) (slot p ++ flat_map slot (without r (pend s)))) by (rewrite <- Er; apply without_split; auto).
    set (g := match x with Completed n _ => [n] | _ => [] end) in *.
    assert (Q : NoDup (released s ++ given (results s) ++ hand (held s) ++ slot p ++ flat_map slot (without r (pend s)))).
    { eapply nodup_perm; [|exact A13]. do 3 apply Permutation_app_head. exact PM. }
    assert (Q2 : NoDup (slot p ++ (released s ++ given (results s) ++ hand (held s) ++ flat_map slot (without r (pend s))))).
    { eapply nodup_perm; [|exact Q]. perm. }
    assert (Q3 : NoDup ((fr ++ g) ++ (released s ++ given (results s) ++ hand (held s) ++ flat_map slot (without r (pend s))))).
    { apply nodup_app_intro; [exact ND|apply nodup_split in Q2; apply Q2|]. intros y Hy C. apply IN in Hy. revert Hy. assert (D : forall (a b : list nat), NoDup (a ++ b) -> forall y, In y a -> ~ In y b).
      { clear. induction a as [|z a IH]; intros b N y H; [destruct H|]. cbn in N. inversion N as [|? ? NI N']; subst. destruct H as [->|H]; [intros C; apply NI, in_app_iff; auto|eauto]. }
      intros Hy. exact (D _ _ Q2 y Hy C). }
    eapply nodup_perm; [|exact Q3]. perm.
  - rewrite given_app. intros n H. apply A14. rewrite <- !app_assoc in H. rewrite !in_app_iff in H. rewrite !in_app_iff.
    assert (X : In n (slot p) -> In n (flat_map slot (pend s))) by (intros; apply in_flat_map; eauto).
    destruct H as [H|[H|[H|[H|[H|H]]]]]; auto.
    + right. right. right. apply X, IN, in_app_iff. auto.
    + right. right. right. apply X, IN, in_app_iff. auto.
    + right. right. right. apply in_flat_map in H as (q & Hq & H). apply SUB in Hq as [Hq _]. apply in_flat_map. eauto.
Qed.
Lemma change_inv : forall l e s r f, inv l s -> (match e with Arrive _ | Begin _ => False | _ => True end) -> (forall p, p_no (f p) = p_no p) -> (forall p, p_seq (f p) = p_seq p) -> (forall p, p_resp (f p) = p_resp p) ->
  (forall p, In p (pend s) -> p_no p = r -> (p_phase (f p) <> Waiting \/ p_sem (f p) <> O) -> p_phase (f p) <> Expired -> p_resp p <> None) ->
  (forall p, In p (pend s) -> p_no p = r -> p_phase (f p) = Expired -> In (Expire r) (l ++ [e])) ->
  inv (l ++ [e]) (mkState (change r f (pend s)) (held s) (calls s) (next_seq s) (arrived s) (results s) (released s)).
Proof.
  intros l e s r f V NE F1 F2 F3 F4 F5. destruct V as [A1 A2 A3 A4 A5 A6 A7 A8 A9 A10 A11 A12 A13 A14].
  assert (RS : responses (l ++ [e]) = responses l) by (rewrite responses_app; destruct e; try destruct NE; apply app_nil_r).
  assert (BG : begun (l ++ [e]) = begun l) by (rewrite begun_app; destruct e; try destruct NE; lia).
  assert (SL : flat_map slot (change r f (pend s)) = flat_map slot (pend s)) by (apply change_slots; intros p; unfold slot; rewrite F3; reflexivity).
  constructor; cbn [pend held calls next_seq arrived results released]; rewrite ?RS, ?BG, ?(change_nos r f _ F1), ?SL; auto.
  - intros q H. apply in_change in H as (p & Ip & [[E ->]|[E ->]]); [rewrite F1, F2|]; auto.
  - intros q n m H E. apply in_change in H as (p & Ip & [[E' ->]|[E' ->]]); [rewrite F3 in E; rewrite F2|]; destruct (A6 p n m Ip E) as [B1 B2]; (split; [apply known_mono; exact B1|exact B2]).
  - intros q H C1 C2. apply in_change in H as (p & Ip & [[E' ->]|[E' ->]]); [rewrite F3; eapply F4; eauto|eauto].
  - intros r' n m H. destruct (A8 r' n m H) as (B1 & B2 & B3). split; [apply known_mono; exact B1|]. split; [exact B2|]. destruct B3 as [B3|[B3 B4]]; [left; exact B3|right; split; [apply in_app_nil; exact B3|exact B4]].
  - intros r' x H. apply res_mono, A11, H.
  - intros q H E. apply in_change in H as (p & Ip & [[E' ->]|[E' ->]]); [rewrite F1, E'; eauto|apply in_app_nil; auto].
Qed.
Lemma flat_change_store : forall r n m l p, NoDup (map p_no l) -> In p l -> p_no p = r ->
  Permutation (flat_map slot (change r (fun p => mkPreq (p_no p) (p_seq p) (S (p_sem p)) (Some (n, m)) (p_phase p)) l)) (n :: flat_map slot (without r l)).
Proof.
  intros r n m. induction l as [|x l IH]; intros p N Ip Er; [destruct Ip|]. cbn in N. inversion N as [|? ? NI N']; subst. cbn [change map flat_map without filter]. destruct Ip as [->|Ip].
  - rewrite Nat.eqb_refl. cbn [negb]. fold (without (p_no p) l). unfold slot at 1. cbn [p_resp app]. constructor.
    assert (E : change (p_no p) (fun p0 => mkPreq (p_no p0) (p_seq p0) (S (p_sem p0)) (Some (n, m)) (p_phase p0)) l = l /\ without (p_no p) l = l).
    { unfold change, without. clear - NI. induction l as [|y l IH]; [auto|]. cbn in *. destruct (Nat.eqb_spec (p_no y) (p_no p)); [exfalso; apply NI; auto|]. cbn. destruct IH as [E1 E2]; [tauto|]. rewrite E1, E2. auto. }
    destruct E as [E1 E2]. unfold change in E1. rewrite E1, E2. reflexivity.
  - assert (NE : p_no x <> p_no p) by (intros E; apply NI; rewrite E; apply in_map, Ip). destruct (Nat.eqb_spec (p_no x) (p_no p)); [contradiction|]. cbn [negb flat_map]. fold (without (p_no p) l).
    pose proof (IH p N' Ip eq_refl) as Q. unfold change in Q. rewrite Q. symmetry. apply Permutation_middle.
Qed.
Lemma step_inv : forall l e s, inv l s -> (forall s', step s e = Ok s' -> inv (l ++ [e]) s') /\ (step s e = UB -> exists r, In (Expire r) l /\ In (r, TimedOut) (results s)).
Proof.
  intros l e s V. pose proof V as [A1 A2 A3 A4 A5 A6 A7 A8 A9 A10 A11 A12 A13 A14]. destruct e as [sent|m| |r|r|r]; cbn [step].
  - destruct (held s) as [[[r0 n0] m0]|] eqn:HE; cbn [is_some]; [split; [discriminate|discriminate]|]. split; [|destruct sent; discriminate].
    assert (KN : forall n m, known l n m -> known (l ++ [Begin sent]) n m) by (intros; apply known_mono; assumption).
    assert (NF : ~ In (calls s) (map p_no (pend s))) by (intros C; apply in_map_iff in C as (p & E & Ip); destruct (A4 p Ip) as [_ B]; lia).
    intros s' E. destruct sent; injection E as <-.
    + constructor; cbn [pend held calls next_seq arrived results released map flat_map].
      * rewrite begun_app. lia.
      * rewrite A2. apply number_next.
      * rewrite responses_app, app_nil_r. exact A3.
      * intros q [<-|H]; [cbn; rewrite A2; split; [reflexivity|lia]|]. destruct (A4 q H) as [B1 B2]. split; [exact B1|lia].
      * cbn. constructor; assumption.
      * intros q n m [<-|H] E; [discriminate|]. destruct (A6 q n m H E). auto.
      * intros q [<-|H]; [cbn; intros [C|C]; congruence|auto].
      * discriminate.
      * intros r x H. destruct (A9 r x H) as [B1 B2]. split; [lia|]. intros [C|C]; [cbn in C; lia|auto].
      * exact A10.
      * intros r x H. apply res_mono, A11, H.
      * intros q [<-|H] E; [discriminate|]. apply in_app_nil. auto.
      * cbn [hand slot p_resp app]. exact A13.
      * exact A14.
    + constructor; cbn [finish pend held calls next_seq arrived results released].
      * rewrite begun_app. lia.
      * rewrite A2. apply number_next.
      * rewrite responses_app, app_nil_r. exact A3.
      * intros q H. apply filter_In in H as [H _]. destruct (A4 q H) as [B1 B2]. split; [exact B1|lia].
      * rewrite without_nos. apply NoDup_filter, A5.
      * intros q n m H E. apply filter_In in H as [H _]. destruct (A6 q n m H E). auto.
      * intros q H. apply filter_In in H as [H _]. auto.
      * discriminate.
      * intros r x H. apply in_app_iff in H as [H|[H|[]]].
        -- destruct (A9 r x H) as [B1 B2]. split; [lia|]. rewrite without_nos. intros C. apply filter_In in C as [C _]. auto.
        -- injection H as <- <-. split; [lia|]. rewrite without_nos. intros C. apply filter_In in C as [C _]. auto.
      * rewrite map_app. cbn. apply nodup_app_intro; [exact A10|repeat constructor; intros []|]. intros y Hy [<-|[]]. apply in_map_iff in Hy as ((r', x') & E & Hy). cbn in E. subst r'. apply A9 in Hy as [Hy _]. lia.
      * intros r x H. apply in_app_iff in H as [H|[H|[]]]; [apply res_mono, A11, H|]. injection H as <- <-. exact I.
      * intros q H E. apply filter_In in H as [H _]. apply in_app_nil. auto.
      * rewrite given_app, !app_nil_r. assert (W : without (calls s) (pend s) = pend s).
        { unfold without. clear - NF. induction (pend s) as [|y k IH]; [reflexivity|]. cbn in *. destruct (Nat.eqb_spec (p_no y) (calls s)); [exfalso; apply NF; auto|]. cbn. rewrite IH; auto. }
        rewrite W. exact A13.
      * rewrite given_app, !app_nil_r. intros n H. apply A14. rewrite !in_app_iff in *. destruct H as [H|[H|[H|H]]]; auto. right. right. right. apply in_flat_map in H as (q & Hq & H). apply filter_In in Hq as [Hq _]. apply in_flat_map. eauto.
  - destruct (held s) as [[[r0 n0] m0]|] eqn:HE; cbn [is_some]; [split; discriminate|].
    assert (KNEW : known (l ++ [Arrive m]) (arrived s) m) by (unfold known; rewrite responses_app, A3, nth_error_app2 by lia; rewrite Nat.sub_diag; reflexivity).
    cbn [hand app] in A13, A14. assert (NEW : ~ In (arrived s) (released s ++ given (results s) ++ flat_map slot (pend s))) by (intros C; apply A14 in C; lia).
    assert (NEWL : forall (a b : list nat), ~ In (arrived s) (a ++ b) -> NoDup (a ++ b) -> NoDup (a ++ arrived s :: b)).
    { intros a b N1 N2. eapply nodup_perm; [apply Permutation_middle|]. constructor; assumption. }
    destruct (find (fun p => p_seq p =? r_seq m) (pend s)) as [p|] eqn:FD; (split; [|discriminate]); intros s' E; injection E as <-.
    + apply find_some in FD as [Ip Eq]. apply Z.eqb_eq in Eq.
      constructor; cbn [pend held calls next_seq arrived results released]; auto.
      * rewrite begun_app. lia.
      * rewrite responses_app, app_length. cbn. lia.
      * intros q n m' H E. destruct (A6 q n m' H E) as [B1 B2]. split; [apply known_mono; exact B1|exact B2].
      * intros r n m' E. injection E as <- <- <-. split; [exact KNEW|]. split; [destruct (A4 p Ip) as [B _]; congruence|]. left. apply in_map, Ip.
      * intros r x H. apply res_mono, A11, H.
      * intros q H E. apply in_app_nil. auto.
      * cbn [hand]. rewrite app_assoc. apply NEWL; rewrite <- app_assoc; assumption.
      * cbn [hand]. intros n H. rewrite !in_app_iff in H. cbn [In] in H. destruct H as [H|[H|[[H|[]]|H]]]; [| |lia|]; (assert (n < arrived s)%nat; [apply A14; rewrite !in_app_iff; auto|lia]).
    + constructor; cbn [pend held calls next_seq arrived results released]; auto.
      * rewrite begun_app. lia.
      * rewrite responses_app, app_length. cbn. lia.
      * intros q n m' H E. destruct (A6 q n m' H E) as [B1 B2]. split; [apply known_mono; exact B1|exact B2].
      * discriminate.
      * intros r x H. apply res_mono, A11, H.
      * intros q H E. apply in_app_nil. auto.
      * cbn [hand app]. rewrite <- app_assoc. apply NEWL; assumption.
      * cbn [hand app]. intros n H. rewrite !in_app_iff in H. cbn [In] in H. destruct H as [[H|[H|[]]]|[H|H]]; [|lia| |]; (assert (n < arrived s)%nat; [apply A14; rewrite !in_app_iff; auto|lia]).
  - destruct (held s) as [[[r n] m]|] eqn:HE; [|split; discriminate]. destruct (A8 r n m eq_refl) as (B1 & B2 & B3). destruct (find_req r (pend s)) as [p|] eqn:FD.
    2: { split; [discriminate|]. intros _. apply find_req_none in FD. destruct B3 as [B3|B3]; [contradiction|]. exists r. exact B3. }
    split; [|discriminate]. intros s' E. injection E as <-. apply find_req_some in FD as [Ip Er].
    set (f := fun p => mkPreq (p_no p) (p_seq p) (S (p_sem p)) (Some (n, m)) (p_phase p)).
    assert (NOS : map p_no (change r f (pend s)) = map p_no (pend s)) by (apply change_nos; reflexivity).
    constructor; cbn [pend held calls next_seq arrived results released]; rewrite ?NOS; auto.
    + rewrite begun_app. lia.
    + rewrite responses_app, app_nil_r. exact A3.
    + intros q H. apply in_change in H as (p' & Ip' & [[E ->]|[E ->]]); exact (A4 p' Ip').
    + intros q n' m' H E. apply in_change in H as (p' & Ip' & [[E' ->]|[E' ->]]).
      * cbn in E. injection E as <- <-. split; [apply known_mono; exact B1|]. cbn. destruct (A4 p' Ip') as [C _]. rewrite C, E'. exact B2.
      * destruct (A6 p' n' m' Ip' E) as [C1 C2]. split; [apply known_mono; exact C1|exact C2].
    + intros q H C1 C2. apply in_change in H as (p' & Ip' & [[E' ->]|[E' ->]]); [discriminate|eauto].
    + discriminate.
    + intros r' x H. apply res_mono, A11, H.
    + intros q H E. apply in_change in H as (p' & Ip' & [[E' ->]|[E' ->]]); apply in_app_nil; exact (A12 p' Ip' E).
    + cbn [hand app]. cbn [hand] in A13. assert (PM := flat_change_store r n m (pend s) p A5 Ip Er).
      assert (PW : Permutation (flat_map slot (pend s)) (slot p ++ flat_map slot (without r (pend s)))) by (rewrite <- Er; apply without_split; auto).
      assert (Q : NoDup (slot p ++ (released s ++ given (results s) ++ [n] ++ flat_map slot (without r (pend s))))).
      { eapply nodup_perm; [|exact A13]. rewrite PW. perm. }
      apply nodup_split in Q as [_ Q]. eapply nodup_perm; [|exact Q]. do 2 apply Permutation_app_head. symmetry. exact PM.
    + cbn [hand app]. intros k H. apply A14. cbn [hand]. rewrite !in_app_iff in *. destruct H as [H|[H|H]]; auto. apply in_flat_map in H as (q & Hq & H). apply in_change in Hq as (p' & Ip' & [[E' ->]|[E' ->]]).
      * right. right. left. cbn in H. exact H.
      * right. right. right. apply in_flat_map. eauto.
  - destruct (find_req r (pend s)) as [[no sq sm rs [| |]]|] eqn:FD; try (split; discriminate); destruct sm as [|k]; try (split; discriminate). split; [|discriminate]. intros s' E. injection E as <-.
    apply find_req_some in FD as [Ip Er]. cbn in Er. subst no. apply change_inv; auto.
    + intros p Ip' Er' _ _. assert (p = mkPreq r sq (S k) rs Waiting) as ->.
      { pose proof (find_req_in _ _ A5 Ip') as X. pose proof (find_req_in _ _ A5 Ip) as Y. cbn in Y. rewrite Er' in X. congruence. }
      apply A7; [exact Ip'| |]; [right; discriminate|discriminate].
    + discriminate.
  - destruct (find_req r (pend s)) as [[no sq sm rs [| |]]|] eqn:FD; try (split; discriminate); destruct sm as [|k]; try (split; discriminate). split; [|discriminate]. intros s' E. injection E as <-.
    apply find_req_some in FD as [Ip Er]. cbn in Er. subst no. apply change_inv; auto.
    + intros p _ _ _. apply in_app_iff. right. left. reflexivity.
  - destruct (find_req r (pend s)) as [[no sq sm rs [| |]]|] eqn:FD; try (split; discriminate).
    + apply find_req_some in FD as [Ip Er]. cbn in Er. subst no. destruct (held s) as [[[r0 n0] m0]|] eqn:HE; cbn [is_some]; [split; discriminate|].
      destruct rs as [[n m]|].
      * destruct (A6 _ n m Ip eq_refl) as [B1 B2]. destruct (A4 _ Ip) as [B3 _]. cbn in B2, B3. assert (B4 : r_seq m = number r) by congruence.
        destruct (r_undeliverable m) eqn:U; (split; [|discriminate]); intros s' E; injection E as <-.
        -- eapply (finish_inv l (Finish r) s r Gone [n]); [exact V|exact I|exact Ip|reflexivity|exists n, m; auto|auto|]. split; [intros y H; exact H|repeat constructor; intros []].
        -- eapply (finish_inv l (Finish r) s r (Completed n m) []); [exact V|exact I|exact Ip|reflexivity|auto|auto|]. split; [intros y H; exact H|repeat constructor; intros []].
      * exfalso. apply (A7 _ Ip); [left; discriminate|discriminate|reflexivity].
    + apply find_req_some in FD as [Ip Er]. cbn in Er. subst no. split; [|discriminate]. intros s' E. injection E as <-.
      eapply (finish_inv l (Finish r) s r TimedOut []); [exact V|exact I|exact Ip|reflexivity| |left; reflexivity|].
      * apply (A12 _ Ip eq_refl).
      * split; [intros y []|constructor].
Qed.
Lemma run_inv : forall l0 l s s', inv l0 s -> run s l = Ok s' -> inv (l0 ++ l) s'.
Proof.
  intros l0 l. revert l0. induction l as [|e l IH]; intros l0 s s' V H; [injection H as <-; rewrite app_nil_r; exact V|]. cbn [run] in H. destruct (step s e) as [s1| |] eqn:ST; cbn [obind] in H; try discriminate.
  replace (l0 ++ e :: l) with ((l0 ++ [e]) ++ l) by (rewrite <- app_assoc; reflexivity). eapply IH; [|exact H]. apply (proj1 (step_inv l0 e s V)). exact ST.
Qed.
Lemma run_ub : forall l0 l s, inv l0 s -> run s l = UB -> exists l1 l2 s1 r, l = l1 ++ l2 /\ run s l1 = Ok s1 /\ In (Expire r) (l0 ++ l1) /\ In (r, TimedOut) (results s1).
Proof.
  intros l0 l. revert l0. induction l as [|e l IH]; intros l0 s V H; [discriminate|]. cbn [run] in H. destruct (step s e) as [s1| |] eqn:ST; cbn [obind] in H; try discriminate.
  - destruct (IH (l0 ++ [e]) s1 (proj1 (step_inv l0 e s V) s1 ST) H) as (l1 & l2 & s2 & r & -> & R & E & T). exists (e :: l1), l2, s2, r. split; [reflexivity|]. split; [cbn [run]; rewrite ST; exact R|]. rewrite <- app_assoc in E. auto.
  - destruct (proj2 (step_inv l0 e s V) ST) as (r & E & T). exists [], (e :: l), s, r. rewrite app_nil_r. auto.
Qed.
