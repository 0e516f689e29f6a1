(** Proofs about the retries. *)
From Verif Require Import Common CommonFacts Errors RetryModel RetrySpec.
Local Open Scope list_scope.
Local Open Scope Z_scope.

(** ** the synchronous loop *)
Lemma wait_pos k : 1 <= wait_s k <= 60.
Proof. unfold wait_s. assert (0 < 2 ^ Z.of_nat k) by (apply Z.pow_pos_nonneg; lia). lia. Qed.
Lemma wait_next k : (let w := 1000 * wait_s k * 2 in if MAXWAIT <? w then MAXWAIT else w) = 1000 * wait_s (S k).
Proof.
  cbv zeta. unfold MAXWAIT, wait_s. replace (Z.of_nat (S k)) with (Z.succ (Z.of_nat k)) by lia. rewrite Z.pow_succ_r by lia.
  assert (0 < 2 ^ Z.of_nat k) by (apply Z.pow_pos_nonneg; lia). remember (2 ^ Z.of_nat k) as p. destruct (Z.ltb_spec 60000 (1000 * Z.min p 60 * 2)); lia.
Qed.
Lemma sum_app a b : sum (a ++ b) = sum a + sum b. Proof. induction a; cbn [app sum]; lia. Qed.
Lemma sum_waits_S k t : sum (waits (S k) t) = Z.min (sum (waits k t) + wait_s k) t.
Proof. cbn [waits]. rewrite sum_app. cbn [sum]. lia. Qed.
Lemma sum_waits k t : 0 <= t -> sum (waits k t) <= t.
Proof. intros H. destruct k; [exact H|]. rewrite sum_waits_S. lia. Qed.

Lemma retry_loop_ok ans ms : 0 <= ms -> forall fuel k left,
  (0 < left -> left = ms - 1000 * sum (waits k (ms / 1000))) -> (left <= 0 -> sum (waits k (ms / 1000)) = ms / 1000) ->
  (1 <= fuel)%nat -> (0 < left -> (Z.to_nat ((left - 1) / 1000) + 2 <= fuel)%nat) ->
  exists n l, retry_loop fuel ans k left (1000 * wait_s k) = Ok (l, ans n) /\ waits k (ms / 1000) ++ l = waits n (ms / 1000) /\ (k <= n)%nat /\
    (forall j, (k <= j < n)%nat -> ans j = NotFound) /\ (ans n = NotFound -> sum (waits n (ms / 1000)) = ms / 1000) /\
    (forall j, (k <= j < n)%nat -> 1000 * sum (waits j (ms / 1000)) < ms).
Proof.
  intros P. set (t := ms / 1000). induction fuel as [|fuel IH]; intros k left A B F0 F; [lia|]. cbn [retry_loop].
  assert (D : forall a, ans k = a -> a <> NotFound -> exists n l, Ok ([], a) = Ok (E := unit) (l, ans n) /\ waits k t ++ l = waits n t /\ (k <= n)%nat /\
    (forall j, (k <= j < n)%nat -> ans j = NotFound) /\ (ans n = NotFound -> sum (waits n t) = t) /\ (forall j, (k <= j < n)%nat -> 1000 * sum (waits j t) < ms)).
  { intros a E N. exists k, []. rewrite app_nil_r, E. repeat split; auto; try congruence; intros; lia. }
  destruct (ans k) eqn:E; try (apply D; [reflexivity|discriminate]). clear D.
  destruct (Z.ltb_spec 0 left) as [L|L].
  2:{ exists k, []. rewrite app_nil_r, E. repeat split; auto; intros; lia. }
  specialize (A L). pose proof (wait_pos k) as W. pose proof (sum_waits_S k t) as SS.
  rewrite wait_next.
  assert (Hl : (if left <? 1000 * wait_s k then left else 1000 * wait_s k) / 1000 = Z.min (wait_s k) (t - sum (waits k t))).
  { subst t. destruct (Z.ltb_spec left (1000 * wait_s k)) as [H|H].
    - assert (left / 1000 = ms / 1000 - sum (waits k (ms / 1000))). { rewrite A. replace (ms - 1000 * sum (waits k (ms / 1000))) with (ms + (- sum (waits k (ms / 1000))) * 1000) by lia. rewrite Z.div_add; lia. }
      pose proof (Z.div_lt_upper_bound left 1000 (wait_s k)). lia.
    - replace (1000 * wait_s k) with (wait_s k * 1000) by lia. rewrite Z.div_mul by lia.
      assert (wait_s k <= left / 1000) by (apply Z.div_le_lower_bound; lia).
      assert (left / 1000 = ms / 1000 - sum (waits k (ms / 1000))). { rewrite A. replace (ms - 1000 * sum (waits k (ms / 1000))) with (ms + (- sum (waits k (ms / 1000))) * 1000) by lia. rewrite Z.div_add; lia. }
      lia. }
  destruct (IH (S k) (left - 1000 * wait_s k)) as (n & l & R & C & K & N & T & M).
  - intros H. rewrite SS. subst t. assert (sum (waits k (ms / 1000)) + wait_s k <= ms / 1000) by (apply Z.div_le_lower_bound; lia). lia.
  - intros H. rewrite SS. assert (t <= sum (waits k t) + wait_s k); [|lia]. subst t. assert (ms / 1000 < sum (waits k (ms / 1000)) + wait_s k + 1) by (apply Z.div_lt_upper_bound; lia). lia.
  - specialize (F L). lia.
  - intros H. specialize (F L). assert ((left - 1000 * wait_s k - 1) / 1000 = (left - 1) / 1000 - wait_s k). { replace (left - 1000 * wait_s k - 1) with (left - 1 + (- wait_s k) * 1000) by lia. rewrite Z.div_add; lia. }
    assert (0 <= (left - 1000 * wait_s k - 1) / 1000) by (apply Z.div_pos; lia). lia.
  - rewrite R. cbn [obind]. exists n, (Z.min (wait_s k) (t - sum (waits k t)) :: l). rewrite Hl. split; [reflexivity|]. split; [|split; [lia|split; [|split]]].
    + rewrite <- C. cbn [waits]. rewrite <- app_assoc. reflexivity.
    + intros j H. destruct (Nat.eq_dec j k) as [->|Q]; [exact E|apply N; lia].
    + exact T.
    + intros j H. destruct (Nat.eq_dec j k) as [->|Q]; [lia|apply M; lia].
Qed.

Lemma attempts_ok ans ms : 0 <= ms -> exists n, attempts ans ms = Ok (waits n (ms / 1000), ans n) /\ (forall j, (j < n)%nat -> ans j = NotFound) /\
  (ans n = NotFound -> sum (waits n (ms / 1000)) = ms / 1000) /\ (forall j, (j < n)%nat -> 1000 * sum (waits j (ms / 1000)) < ms).
Proof.
  intros P. unfold attempts. destruct (retry_loop_ok ans ms P (S (S (Z.to_nat (ms / 1000)))) 0 ms) as (n & l & R & C & _ & N & T & M).
  - cbn [waits sum]. lia.
  - intros H. assert (ms = 0) by lia. subst. reflexivity.
  - lia.
  - intros H. assert ((ms - 1) / 1000 <= ms / 1000) by (apply Z.div_le_mono; lia). lia.
  - exists n. change (1000 * wait_s 0) with 1000 in R. rewrite R. cbn [waits app] in C. rewrite C. repeat split; auto; intros; [apply N|apply M]; lia.
Qed.
Lemma attempts_once ans ms : ms <= 0 -> attempts ans ms = Ok ([], ans 0%nat).
Proof. intros H. unfold attempts. cbn [retry_loop]. destruct (Z.ltb_spec 0 ms); [lia|]. destruct (ans 0%nat); reflexivity. Qed.

(** ** the asynchronous retrier *)
Definition e_id (e : event) : nat := match e with Added i _ _ | Sent i _ _ | Callback i _ _ | Dropped i => i end.
Definition live (s : state) : list item := match ph s with Finishing => seen s ++ tl (rest s) | _ => seen s ++ rest s end.
Definition is_open (tmo : Z) (x : item) (h : list (Z * answer)) : Prop :=
  Forall (fun p => snd p = NotFound /\ fst p - i_start x < tmo) h /\
  i_wait x = (match h with [] => 0 | _ :: r => 1000 * wait_s (length r) end) /\ i_next x = due (i_start x) tmo h.
Definition fate (tmo : Z -> Z) (L : list item) (tr : list event) (id : nat) (h st : Z) : Prop :=
  paced st (tmo h) (history id tr) /\
  ((exists x, In x L /\ i_id x = id /\ i_handle x = h /\ i_start x = st /\ is_open (tmo h) x (history id tr) /\ callbacks id tr = [] /\ ~ In (Dropped id) tr)
   \/ (callbacks id tr = [] /\ In (Dropped id) tr /\ ~ In id (map i_id L))
   \/ (exists c t a r, callbacks id tr = [(c, t)] /\ history id tr = (t, a) :: r /\ definitive st (tmo h) t a c /\ ~ In id (map i_id L) /\ ~ In (Dropped id) tr)).
Record Inv (tmo : Z -> Z) (s : state) (tr : list event) : Prop := {
  i_nodup : NoDup (map i_id (pending s));
  i_fresh : forall x, In x (pending s) -> (i_id x < next_id s)%nat;
  i_trace : forall e, In e tr -> (e_id e < next_id s)%nat;
  i_clock : now s <= clock s;
  i_shape : match ph s with Waiting => seen s = [] | _ => rest s <> [] end;
  i_fates : forall id h st, In (Added id h st) tr -> fate tmo (live s) tr id h st }.

Lemma history_app id a b : history id (a ++ b) = history id a ++ history id b. Proof. apply flat_map_app. Qed.
Lemma callbacks_app id a b : callbacks id (a ++ b) = callbacks id a ++ callbacks id b. Proof. apply flat_map_app. Qed.
Lemma history_none id ev : (forall e, In e ev -> e_id e <> id) -> history id ev = [].
Proof.
  induction ev as [|e ev IH]; intros H; [reflexivity|]. unfold history in *. cbn [flat_map]. rewrite IH by (intros; apply H; now right).
  specialize (H e (or_introl eq_refl)). destruct e; cbn in *; try reflexivity. destruct (Nat.eqb_spec id0 id); [congruence|reflexivity].
Qed.
Lemma callbacks_none id ev : (forall e, In e ev -> e_id e <> id) -> callbacks id ev = [].
Proof.
  induction ev as [|e ev IH]; intros H; [reflexivity|]. unfold callbacks in *. cbn [flat_map]. rewrite IH by (intros; apply H; now right).
  specialize (H e (or_introl eq_refl)). destruct e; cbn in *; try reflexivity. destruct (Nat.eqb_spec id0 id); [congruence|reflexivity].
Qed.
Lemma fate_frame tmo L L' tr ev id h st : fate tmo L tr id h st -> (forall e, In e ev -> e_id e <> id) ->
  (forall x, i_id x = id -> (In x L <-> In x L')) -> fate tmo L' (ev ++ tr) id h st.
Proof.
  intros (P & F) E X. unfold fate. rewrite history_app, callbacks_app, history_none, callbacks_none by exact E. cbn [app].
  assert (D : In (Dropped id) (ev ++ tr) <-> In (Dropped id) tr).
  { rewrite in_app_iff. split; [intros [H|H]; [|exact H]|auto]. apply E in H. cbn in H. congruence. }
  assert (M : In id (map i_id L') <-> In id (map i_id L)).
  { rewrite !in_map_iff. split; intros (x & A & B); exists x; split; auto; now apply (X x A). }
  split; [exact P|]. destruct F as [(x & A & B & C & F)|[F|F]].
  - left. exists x. rewrite D. split; [now apply X|]. auto.
  - right; left. now rewrite D, M.
  - right; right. destruct F as (c & t & a & r & F). exists c, t, a, r. now rewrite D, M.
Qed.
Lemma nodup_id (L : list item) x y : NoDup (map i_id L) -> In x L -> In y L -> i_id x = i_id y -> x = y.
Proof.
  induction L as [|z L IH]; cbn [map In]; intros N; [easy|]. inversion_clear N as [|? ? N1 N2].
  intros [<-|A] [<-|B] E; auto; exfalso; apply N1; apply in_map_iff; [exists y|exists x]; auto.
Qed.
Lemma nodup_cut {A B} (f : A -> B) l x r : NoDup (map f (l ++ x :: r)) -> NoDup (map f (l ++ r)) /\ ~ In (f x) (map f (l ++ r)).
Proof. rewrite !map_app. cbn [map]. intros N. split; [exact (NoDup_remove_1 _ _ _ N)|exact (NoDup_remove_2 _ _ _ N)]. Qed.
Lemma take_some f l x l' : take f l = Some (x, l') -> exists a b, l = a ++ x :: b /\ l' = a ++ b /\ f x = true.
Proof.
  revert l'. induction l as [|y l IH]; intros l'; cbn; [discriminate|]. destruct (f y) eqn:F.
  - intros [= <- <-]. now exists [], l.
  - destruct (take f l) as [[z l0]|]; [|discriminate]. intros [= -> <-]. destruct (IH _ eq_refl) as (a & b & -> & -> & E). now exists (y :: a), b.
Qed.
Lemma take_none f l : take f l = None -> forall x, In x l -> f x = false.
Proof.
  induction l as [|y l IH]; cbn; [easy|]. destruct (f y) eqn:F; [discriminate|]. destruct (take f l) as [[]|]; [discriminate|]. intros _ x [<-|H]; auto.
Qed.
Lemma drop_ok f s y s' : drop f s = Ok (y, s') ->
  ph s' = ph s /\ now s' = now s /\ clock s' = clock s /\ next_id s' = next_id s /\ closed s' = closed s /\
  match y with
  | None => s' = s /\ forall x, In x (pending s) -> f x = false
  | Some x => f x = true /\ (exists a b, pending s = a ++ x :: b /\ pending s' = a ++ b) /\ (exists a b, live s = a ++ x :: b /\ live s' = a ++ b) /\
              match ph s with Waiting => seen s = [] -> seen s' = [] | _ => hd_error (rest s') = hd_error (rest s) end
  end.
Proof.
  unfold drop, pending, live. destruct (take f (seen s)) as [[x l]|] eqn:T.
  - intros [= <- <-]. cbn. apply take_some in T as (a & b & -> & -> & F). repeat split; auto.
    + exists a, (b ++ rest s). rewrite <- !app_assoc. auto.
    + destruct (ph s); [exists a, (b ++ rest s)|exists a, (b ++ rest s)|exists a, (b ++ tl (rest s))]; rewrite <- !app_assoc; auto.
    + destruct (ph s); auto. intros H. now destruct a.
  - pose proof (take_none _ _ T) as N. destruct (rest s) as [|x l] eqn:R.
    + cbn. assert (forall A, (match ph s with Visiting | _ => A end) = A) as -> by (now destruct (ph s)).
      intros [= <- <-]. repeat split; auto. intros x H. rewrite app_nil_r in H. auto.
    + assert (V : (if f x then UB else match take f l with Some (y0, l') => Ok (Some y0, mkState (seen s) (x :: l') (ph s) (now s) (clock s) (next_id s) (closed s)) | None => Ok (None, s) end) = Ok (E := unit) (y, s') -> ph s <> Waiting ->
         ph s' = ph s /\ now s' = now s /\ clock s' = clock s /\ next_id s' = next_id s /\ closed s' = closed s /\
         match y with None => s' = s /\ forall x0, In x0 (seen s ++ x :: l) -> f x0 = false
         | Some x0 => f x0 = true /\ (exists a b, seen s ++ x :: l = a ++ x0 :: b /\ seen s' ++ rest s' = a ++ b) /\
            (exists a b, match ph s with Finishing => seen s ++ l | _ => seen s ++ x :: l end = a ++ x0 :: b /\ match ph s' with Finishing => seen s' ++ tl (rest s') | _ => seen s' ++ rest s' end = a ++ b) /\
            match ph s with Waiting => seen s = [] -> seen s' = [] | _ => hd_error (rest s') = Some x end end).
      { destruct (f x) eqn:F; [discriminate|]. destruct (take f l) as [[z l']|] eqn:T2.
        - intros [= <- <-] NW. cbn. apply take_some in T2 as (a & b & -> & -> & G). repeat split; auto.
          + exists (seen s ++ x :: a), b. rewrite <- !app_assoc. auto.
          + destruct (ph s); [congruence|exists (seen s ++ x :: a), b|exists (seen s ++ a), b]; rewrite <- !app_assoc; auto.
          + now destruct (ph s).
        - intros [= <- <-] _. repeat split; auto. intros z. rewrite in_app_iff. intros [H|[<-|H]]; auto. now apply (take_none _ _ T2). }
      destruct (ph s) eqn:P; [clear V|intros E; apply V; [exact E|discriminate]..].
      destruct (take f (x :: l)) as [[z l']|] eqn:T2.
      * intros [= <- <-]. cbn. apply take_some in T2 as (a & b & -> & -> & G). repeat split; auto; exists (seen s ++ a), b; rewrite <- !app_assoc; auto.
      * intros [= <- <-]. repeat split; auto. intros z. rewrite in_app_iff. intros [H|H]; auto. now apply (take_none _ _ T2).
Qed.

Lemma inv_start tmo c : Inv tmo (start c) [].
Proof. constructor; cbn; try easy. constructor. Qed.
Lemma fates_frame tmo s s' tr ev : Inv tmo s tr -> (forall e, In e ev -> match e with Added _ _ _ => False | _ => True end) ->
  forall i, (forall e, In e ev -> e_id e = i) -> (forall x, i_id x <> i -> (In x (live s) <-> In x (live s'))) ->
  (forall h st, In (Added i h st) tr -> fate tmo (live s') (ev ++ tr) i h st) ->
  forall id h st, In (Added id h st) (ev ++ tr) -> fate tmo (live s') (ev ++ tr) id h st.
Proof.
  intros I A i E X F id h st. rewrite in_app_iff. intros [H|H]; [now apply A in H|]. destruct (Nat.eq_dec id i) as [->|D]; [auto|].
  eapply fate_frame; [apply (i_fates _ _ _ I _ _ _ H)|intros e G; apply E in G; congruence|]. intros x Q. apply X. congruence.
Qed.
Lemma fates_same tmo s s' tr : Inv tmo s tr -> (forall x, In x (live s) <-> In x (live s')) ->
  forall id h st, In (Added id h st) tr -> fate tmo (live s') tr id h st.
Proof. intros I X id h st H. apply (fate_frame tmo (live s) (live s') tr []); [apply (i_fates _ _ _ I _ _ _ H)|easy|intros x _; apply X]. Qed.

Lemma advance_pending a l n c i cl : pending (advance a l n c i cl) = a ++ l.
Proof. destruct l; cbn; [now rewrite app_nil_r|reflexivity]. Qed.
Lemma advance_live a l n c i cl : live (advance a l n c i cl) = a ++ l.
Proof. destruct l; cbn; [now rewrite app_nil_r|reflexivity]. Qed.
Lemma advance_shape a l n c i cl : match ph (advance a l n c i cl) with Waiting => seen (advance a l n c i cl) = [] | _ => rest (advance a l n c i cl) <> [] end.
Proof. destruct l; cbn; [reflexivity|discriminate]. Qed.
Lemma advance_fields a l n c i cl : now (advance a l n c i cl) = n /\ clock (advance a l n c i cl) = c /\ next_id (advance a l n c i cl) = i /\ closed (advance a l n c i cl) = cl.
Proof. now destruct l. Qed.

(** the live item of a fate *)
Lemma fate_live tmo s tr x h st : Inv tmo s tr -> NoDup (map i_id (live s)) -> In x (live s) -> fate tmo (live s) tr (i_id x) h st ->
  i_handle x = h /\ i_start x = st /\ is_open (tmo h) x (history (i_id x) tr) /\ callbacks (i_id x) tr = [] /\ ~ In (Dropped (i_id x)) tr.
Proof.
  intros I N X (_ & [F|[F|F]]).
  - destruct F as (y & Y & E & F). symmetry in E. apply (nodup_id _ _ _ N X Y) in E. subst y. exact F.
  - exfalso. apply F. now apply in_map.
  - destruct F as (c & t & a & r & _ & _ & _ & F & _). exfalso. apply F. now apply in_map.
Qed.
Lemma live_nodup s : NoDup (map i_id (pending s)) -> NoDup (map i_id (live s)).
Proof.
  unfold pending, live. destruct (ph s); auto. destruct (rest s) as [|x l]; auto. cbn [tl]. intros H. now apply nodup_cut in H.
Qed.
Lemma again_open tmo x h t : is_open tmo x h -> t - i_start x < tmo -> is_open tmo (again tmo x t) ((t, NotFound) :: h).
Proof.
  intros (A & B & C) T. unfold again. set (w1 := if i_wait x =? 0 then 1000 else i_wait x * 2). set (w := if MAXWAIT <? w1 then MAXWAIT else w1).
  assert (W : w = 1000 * wait_s (length h)).
  { subst w w1. rewrite B. destruct h as [|p h]; [reflexivity|]. cbn [length]. rewrite <- wait_next. pose proof (wait_pos (length h)).
    destruct (Z.eqb_spec (1000 * wait_s (length h)) 0); [lia|]. reflexivity. }
  unfold is_open. cbn [i_start i_wait i_next]. split; [constructor; [split; [reflexivity|exact T]|exact A]|]. split; [exact W|].
  unfold due. rewrite <- W. destruct (Z.ltb_spec (t - i_start x + w) tmo); lia.
Qed.

Lemma inv_drop tmo s s' f y tr : Inv tmo s tr -> drop f s = Ok (y, s') -> Inv tmo s' ((match y with Some x => [Dropped (i_id x)] | None => [] end) ++ tr).
Proof.
  intros I D. apply drop_ok in D as (P & N & C & X & _ & D). destruct y as [x|].
  2:{ destruct D as [-> _]. exact I. }
  destruct D as (_ & (a & b & P1 & P2) & (a' & b' & L1 & L2) & S).
  pose proof (i_nodup _ _ _ I) as ND. rewrite P1 in ND. apply nodup_cut in ND as [ND _].
  pose proof (live_nodup _ (i_nodup _ _ _ I)) as NL. assert (XL : In x (live s)) by (rewrite L1; apply in_elt).
  rewrite L1 in NL. apply nodup_cut in NL as [_ NL].
  constructor.
  - now rewrite P2.
  - intros z. rewrite P2, X. intros H. apply (i_fresh _ _ _ I). rewrite P1. rewrite in_app_iff in *. cbn. tauto.
  - intros e. rewrite X. intros [<-|H]; [|now apply (i_trace _ _ _ I)]. cbn. apply (i_fresh _ _ _ I). rewrite P1. apply in_elt.
  - rewrite N, C. apply (i_clock _ _ _ I).
  - pose proof (i_shape _ _ _ I) as SH. rewrite P. destruct (ph s); auto; intros E; rewrite E in S; destruct (rest s); try discriminate; now apply SH.
  - apply (fates_frame tmo s s' tr [Dropped (i_id x)] I) with (i := i_id x).
    + now intros e [<-|[]].
    + now intros e [<-|[]].
    + intros z Z. rewrite L1, L2, !in_app_iff. cbn. split; [intros [H|[H|H]]; auto; congruence|tauto].
    + intros h st H. pose proof (i_fates _ _ _ I _ _ _ H) as F. pose proof (fate_live _ _ _ _ _ _ I (live_nodup _ (i_nodup _ _ _ I)) XL F) as (_ & _ & _ & CB & _).
      destruct F as [F _]. split; [exact F|]. right; left. split; [exact CB|]. split; [now left|]. now rewrite L2.
Qed.

Lemma inv_step tmo s tr o s' ev : Inv tmo s tr -> step tmo s o = Ok (s', ev) -> Inv tmo s' (ev ++ tr).
Proof.
  intros I. pose proof (i_clock _ _ _ I) as CK. pose proof (i_shape _ _ _ I) as SH. destruct o as [h v tm|d| | |a| |h v|h]; cbn [step].
  - destruct (existsb _ _); [discriminate|]. destruct (retry_time tm (tmo h)); cbn [obind]; try discriminate. intros [= <- <-].
    set (x := mkItem (next_id s) h v 0 (clock s) (clock s)). set (s' := mkState _ _ _ _ _ _ _).
    assert (P : pending s' = pending s ++ [x]) by apply app_assoc.
    assert (L : live s' = live s ++ [x]). { unfold live. cbn. destruct (ph s); [apply app_assoc..|]. destruct (rest s); [now contradict SH|]. apply app_assoc. }
    constructor; cbn [s' now clock ph rest seen next_id].
    + rewrite P, map_app. apply nodup_app_intro; [apply (i_nodup _ _ _ I)|repeat constructor; auto|]. intros i A [<-|[]]. apply in_map_iff in A as (y & E & A).
      apply (i_fresh _ _ _ I) in A. cbn in E. lia.
    + intros y. rewrite P, in_app_iff. intros [H|[<-|[]]]; [apply (i_fresh _ _ _ I) in H; lia|cbn; lia].
    + intros e [<-|H]; [cbn; lia|apply (i_trace _ _ _ I) in H; lia].
    + exact CK.
    + destruct (ph s); [exact SH|intros E; now destruct (rest s)..].
    + assert (HN : history (next_id s) tr = [] /\ callbacks (next_id s) tr = []).
      { split; [apply history_none|apply callbacks_none]; intros e H; apply (i_trace _ _ _ I) in H; lia. } destruct HN as [HN CN].
      intros id h' st [H|H].
      * injection H as <- <- <-. split; [cbn [app history flat_map]; unfold history in HN; cbn; rewrite HN; exact Logic.I|]. left. exists x. rewrite L.
        unfold history, callbacks in *. cbn [app flat_map]. rewrite HN, CN. repeat split; auto.
        -- apply in_elt.
        -- intros [H|H]; [discriminate|]. apply (i_trace _ _ _ I) in H. cbn in H. lia.
      * eapply (fate_frame tmo (live s) (live s') tr [Added (next_id s) h (clock s)]); [apply (i_fates _ _ _ I _ _ _ H)|intros e [<-|[]]; apply (i_trace _ _ _ I) in H; cbn in *; lia|].
        intros y E. rewrite L, in_app_iff. cbn. split; [auto|]. intros [A|[<-|[]]]; [exact A|]. exfalso. apply (i_trace _ _ _ I) in H. cbn in *. lia.
  - destruct (Z.ltb_spec d 0); [discriminate|]. intros [= <- <-]. destruct I. constructor; auto. cbn. lia.
  - destruct (ph s) eqn:P; try discriminate. destruct (Z.leb_spec (next_send s) (clock s)) as [E|]; [|discriminate]. intros [= <- <-]. destruct I as [I1 I2 I3 I4 I5 I6].
    unfold pending in *. rewrite SH in *. cbn in I1, I2. constructor; auto; cbn; auto.
    + lia.
    + intros R. unfold next_send, pending in E. rewrite R, SH in E. unfold MAXWAIT in E. cbn [app fold_left] in E. lia.
    + intros id h st H. apply I6 in H. unfold live in *. rewrite P, SH in H. exact H.
  - destruct (ph s) eqn:P; try discriminate. destruct (rest s) as [|x l] eqn:R; [discriminate|]. destruct (due_at (now s) x); [discriminate|]. intros [= <- <-].
    pose proof (advance_fields (seen s ++ [x]) l (now s) (clock s) (next_id s) (closed s)) as (F1 & F2 & F3 & F4).
    constructor; rewrite ?advance_pending, ?advance_live, ?F1, ?F2, ?F3; rewrite <- ?app_assoc; cbn [app].
    + pose proof (i_nodup _ _ _ I) as H. unfold pending in H. now rewrite R in H.
    + intros y H. apply (i_fresh _ _ _ I). unfold pending. now rewrite R.
    + apply (i_trace _ _ _ I).
    + exact CK.
    + apply advance_shape.
    + intros id h st H. apply (i_fates _ _ _ I) in H. unfold live in H. rewrite P, R in H. exact H.
  - destruct (ph s) eqn:P; try discriminate. destruct (rest s) as [|x l] eqn:R; [discriminate|]. destruct (due_at (now s) x) eqn:DU; [|discriminate]. cbn [negb].
    destruct (existsb _ _); [discriminate|]. unfold due_at in DU.
    assert (PD : pending s = seen s ++ x :: l) by (unfold pending; now rewrite R). assert (LV : live s = seen s ++ x :: l) by (unfold live; now rewrite P, R).
    pose proof (i_nodup _ _ _ I) as ND. assert (XL : In x (live s)) by (rewrite LV; apply in_elt).
    assert (XF : (i_id x < next_id s)%nat) by (apply (i_fresh _ _ _ I); rewrite PD; apply in_elt).
    assert (FX : forall h st, In (Added (i_id x) h st) tr -> i_handle x = h /\ i_start x = st /\ is_open (tmo h) x (history (i_id x) tr) /\ callbacks (i_id x) tr = [] /\ ~ In (Dropped (i_id x)) tr /\ paced st (tmo h) (history (i_id x) tr)).
    { intros h st H. apply (i_fates _ _ _ I) in H as F. pose proof (fate_live _ _ _ _ _ _ I (live_nodup _ ND) XL F) as (A & B & C & D & E). destruct F as [F _]. auto 8. }
    assert (FIN : forall c, definitive (i_start x) (tmo (i_handle x)) (clock s) a c ->
      Inv tmo (mkState (seen s) (rest s) Finishing (clock s) (clock s) (next_id s) (closed s)) (Callback (i_id x) c (clock s) :: Sent (i_id x) (clock s) a :: tr)).
    { intros c D. constructor; cbn [now clock ph rest seen next_id].
      - exact ND.
      - apply (i_fresh _ _ _ I).
      - intros e [<-|[<-|H]]; auto. now apply (i_trace _ _ _ I).
      - lia.
      - rewrite R. discriminate.
      - apply (fates_frame tmo s (mkState (seen s) (rest s) Finishing (clock s) (clock s) (next_id s) (closed s)) tr [Callback (i_id x) c (clock s); Sent (i_id x) (clock s) a] I) with (i := i_id x).
        + now intros e [<-|[<-|[]]].
        + now intros e [<-|[<-|[]]].
        + intros y Y. rewrite LV. unfold live. cbn. rewrite R. cbn. rewrite !in_app_iff. cbn. split; [intros [H|[H|H]]; auto; congruence|tauto].
        + intros h st H. destruct (FX _ _ H) as (<- & <- & (O1 & O2 & O3) & CB & DR & PA).
          unfold fate, history, callbacks in *. cbn [app flat_map]. rewrite Nat.eqb_refl. cbn [app]. unfold callbacks in CB. rewrite CB. split.
          * cbn [paced]. split; [|split; [exact O1|exact PA]]. rewrite <- O3. lia.
          * right; right. exists c, (clock s), a, (history (i_id x) tr). repeat split; auto.
            -- unfold live. cbn. rewrite R. cbn. rewrite PD in ND. now apply nodup_cut in ND.
            -- intros [E|[E|E]]; [discriminate..|]. now apply DR. }
    assert (AG : clock s - i_start x < tmo (i_handle x) -> a = NotFound ->
      Inv tmo (advance (seen s ++ [again (tmo (i_handle x)) x (clock s)]) l (clock s) (clock s) (next_id s) (closed s)) (Sent (i_id x) (clock s) a :: tr)).
    { intros EL ->. set (x' := again (tmo (i_handle x)) x (clock s)). assert (XI : i_id x' = i_id x) by reflexivity.
      pose proof (advance_fields (seen s ++ [x']) l (clock s) (clock s) (next_id s) (closed s)) as (F1 & F2 & F3 & F4).
      constructor; rewrite ?advance_pending, ?F1, ?F2, ?F3; rewrite <- ?app_assoc; cbn [app].
      - rewrite PD in ND. rewrite map_app in *. exact ND.
      - intros y. rewrite in_app_iff. intros [H|[<-|H]]; [|exact XF|]; apply (i_fresh _ _ _ I); rewrite PD, in_app_iff; cbn; auto.
      - intros e [<-|H]; auto. now apply (i_trace _ _ _ I).
      - lia.
      - apply advance_shape.
      - apply (fates_frame tmo s (advance (seen s ++ [x']) l (clock s) (clock s) (next_id s) (closed s)) tr [Sent (i_id x) (clock s) NotFound] I) with (i := i_id x).
        + now intros e [<-|[]].
        + now intros e [<-|[]].
        + intros y Y. rewrite LV, advance_live. rewrite <- app_assoc. cbn [app]. rewrite !in_app_iff. cbn. split; (intros [H|[H|H]]; auto; subst; exfalso; now apply Y).
        + intros h st H. destruct (FX _ _ H) as (<- & <- & O & CB & DR & PA). pose proof O as (O1 & O2 & O3).
          unfold fate, history, callbacks in *. cbn [app flat_map]. rewrite Nat.eqb_refl. cbn [app]. unfold callbacks in CB. rewrite CB. split.
          * cbn [paced]. split; [|split; [exact O1|exact PA]]. rewrite <- O3. lia.
          * left. exists x'. rewrite advance_live, <- app_assoc. repeat split; auto; try apply in_elt; try (apply again_open; [exact O|exact EL]).
            intros [E|E]; [discriminate|]. now apply DR. }
    rewrite R in FIN. destruct a; cbn [verdict obind]; try discriminate.
    + destruct (Z.ltb_spec (clock s - i_start x) (tmo (i_handle x))); intros [= <- <-]; cbn [app]; [apply AG; auto|apply FIN; constructor; lia].
    + intros [= <- <-]. apply FIN. constructor.
    + intros [= <- <-]. apply FIN. constructor.
  - destruct (ph s) eqn:P; try discriminate. destruct (rest s) as [|x l] eqn:R; [discriminate|]. intros [= <- <-].
    pose proof (advance_fields (seen s) l (now s) (clock s) (next_id s) (closed s)) as (F1 & F2 & F3 & F4).
    constructor; rewrite ?advance_pending, ?advance_live, ?F1, ?F2, ?F3.
    + pose proof (i_nodup _ _ _ I) as H. unfold pending in H. rewrite R in H. now apply nodup_cut in H.
    + intros y H. apply (i_fresh _ _ _ I). unfold pending. rewrite R, in_app_iff in *. cbn. tauto.
    + apply (i_trace _ _ _ I).
    + exact CK.
    + apply advance_shape.
    + intros id h st H. apply (i_fates _ _ _ I) in H. unfold live in H. rewrite P, R in H. exact H.
  - destruct (drop _ s) as [[y s1]| |] eqn:D; cbn [obind]; try discriminate. intros [= <- <-]. eapply inv_drop; eauto.
  - destruct (existsb _ _); [discriminate|]. destruct (drop _ s) as [[y s1]| |] eqn:D; cbn [obind]; try discriminate. intros [= <- <-].
    pose proof (inv_drop _ _ _ _ _ _ I D) as [J1 J2 J3 J4 J5 J6]. constructor; auto.
Qed.
Lemma inv_run tmo ops : forall s tr s' tr', Inv tmo s tr -> run tmo s tr ops = Ok (s', tr') -> Inv tmo s' tr'.
Proof.
  induction ops as [|o ops IH]; cbn; intros s tr s' tr' I; [now intros [= <- <-]|]. destruct (step tmo s o) as [[s1 ev]| |] eqn:E; cbn; try discriminate.
  intros H. eapply IH; [|exact H]. eapply inv_step; eauto.
Qed.

(** *** one round through the list *)
Lemma next_send_spec s : (forall x, In x (pending s) -> next_send s <= i_next x) /\ next_send s <= clock s + 61000 /\
  (next_send s = clock s + 61000 \/ exists x, In x (pending s) /\ next_send s = i_next x).
Proof.
  unfold next_send. change (MAXWAIT + 1000) with 61000. generalize (clock s + 61000) as t. induction (pending s) as [|x l IH]; intros t; cbn [fold_left In].
  - repeat split; try easy; lia.
  - destruct (IH (if i_next x <? t then i_next x else t)) as (A & B & C). destruct (Z.ltb_spec (i_next x) t) as [D|D]; (split; [|split]).
    + intros y [<-|H]; [lia|auto].
    + lia.
    + right. destruct C as [->|(y & H & ->)]; [exists x|exists y]; auto.
    + intros y [<-|H]; [lia|auto].
    + lia.
    + destruct C as [->|(y & H & ->)]; [auto|right; exists y; auto].
Qed.
Definition todo (s : state) : list item := match ph s with Waiting => [] | Visiting => rest s | Finishing => tl (rest s) end.
Definition late (tmo : Z -> Z) (expired : bool) (c : Z) (x : item) : Prop := i_next x <= c /\ (expired = true -> i_start x + tmo (i_handle x) <= c).
Definition served (expired : bool) (id : nat) (ev : list event) : Prop :=
  In (Dropped id) ev \/ (exists t a, In (Sent id t a) ev /\ (expired = true -> exists c, In (Callback id c t) ev)).
Lemma served_app e id a b : served e id b -> served e id (a ++ b).
Proof.
  intros [H|(t & x & H & C)]; [left; apply in_app_iff; auto|right]. exists t, x. split; [apply in_app_iff; auto|]. intros E. destruct (C E) as (c & G). exists c. apply in_app_iff; auto.
Qed.
Lemma todo_advance a l n c i cl : todo (advance a l n c i cl) = l. Proof. now destruct l. Qed.
Lemma todo_drop f s y s' : drop f s = Ok (y, s') -> forall x, In x (todo s) -> In x (todo s') \/ y = Some x.
Proof.
  unfold drop, todo. destruct (take f (seen s)) as [[z l]|] eqn:T.
  - intros [= <- <-] x H. auto.
  - destruct (rest s) as [|z l] eqn:R.
    + intros E. assert (s' = s) as -> by (destruct (ph s); cbn in E; congruence). rewrite R. auto.
    + destruct (ph s) eqn:P; [intros _ x []|..];
      (destruct (f z) eqn:F; [discriminate|]; destruct (take f l) as [[w l']|] eqn:T2; intros [= <- <-] x; [|rewrite P, R; auto];
       cbn; apply take_some in T2 as (a & b & -> & -> & _); rewrite ?in_app_iff; cbn; rewrite ?in_app_iff; cbn; intuition (subst; auto)).
Qed.
Lemma round_step tmo ex s o s' ev id : now s <= clock s -> o <> Wake -> step tmo s o = Ok (s', ev) ->
  (exists x, In x (todo s) /\ i_id x = id /\ late tmo ex (now s) x) ->
  now s' <= clock s' /\ ((exists x, In x (todo s') /\ i_id x = id /\ late tmo ex (now s') x) \/ served ex id ev).
Proof.
  intros CK NW E (x & X & XI & (L1 & L2)). destruct o as [h v tm|d| | |a| |h v|h]; cbn [step] in E; [| |congruence|..].
  - destruct (existsb _ _); [discriminate|]. destruct (retry_time tm (tmo h)); cbn [obind] in E; try discriminate. injection E as <- <-. split; [exact CK|].
    left. exists x. split; [|now split]. revert X. unfold todo. cbn. destruct (ph s); auto; [intros H; apply in_app_iff; auto|]. destruct (rest s); cbn; [easy|]. intros H. apply in_app_iff; auto.
  - destruct (Z.ltb_spec d 0); [discriminate|]. injection E as <- <-. split; [cbn; lia|]. left. exists x. now split.
  - unfold todo in X. destruct (ph s) eqn:P; try discriminate. destruct (rest s) as [|y l] eqn:R; [discriminate|]. destruct (due_at (now s) y) eqn:DU; [discriminate|]. injection E as <- <-.
    pose proof (advance_fields (seen s ++ [y]) l (now s) (clock s) (next_id s) (closed s)) as (F1 & F2 & _). rewrite F1, F2, todo_advance. split; [exact CK|].
    left. exists x. destruct X as [->|X]; [|now split]. unfold due_at in DU. lia.
  - unfold todo in X. destruct (ph s) eqn:P; try discriminate. destruct (rest s) as [|y l] eqn:R; [discriminate|]. destruct (due_at (now s) y) eqn:DU; [|discriminate]. cbn [negb] in E.
    destruct (existsb _ _); [discriminate|].
    assert (K : forall s1 e1, now s1 = clock s -> clock s1 = clock s -> todo s1 = l -> In (Sent (i_id y) (clock s) a) e1 ->
       (i_start y + tmo (i_handle y) <= clock s -> exists c, In (Callback (i_id y) c (clock s)) e1) ->
       now s1 <= clock s1 /\ ((exists x0, In x0 (todo s1) /\ i_id x0 = id /\ late tmo ex (now s1) x0) \/ served ex id e1)).
    { intros s1 e1 H1 H2 H3 H4 H5. rewrite H1, H2, H3. split; [lia|]. destruct X as [->|X].
      - right. right. rewrite <- XI. exists (clock s), a. split; [exact H4|]. intros T. apply H5. specialize (L2 T). lia.
      - left. exists x. split; [exact X|]. split; [exact XI|]. split; [lia|]. intros T. specialize (L2 T). lia. }
    destruct a; cbn [verdict obind] in E; try discriminate.
    + destruct (Z.ltb_spec (clock s - i_start y) (tmo (i_handle y))); injection E as <- <-.
      * pose proof (advance_fields (seen s ++ [again (tmo (i_handle y)) y (clock s)]) l (clock s) (clock s) (next_id s) (closed s)) as (F1 & F2 & _).
        apply K; auto; [apply todo_advance|now left|lia].
      * apply K; auto; [right; now left|]. intros _. exists E_TIMEOUT. now left.
    + injection E as <- <-. apply K; auto; [right; now left|]. intros _. exists E_SUCCESS. now left.
    + injection E as <- <-. apply K; auto; [right; now left|]. intros _. exists code. now left.
  - unfold todo in X. destruct (ph s) eqn:P; try discriminate. destruct (rest s) as [|y l] eqn:R; [discriminate|]. injection E as <- <-.
    pose proof (advance_fields (seen s) l (now s) (clock s) (next_id s) (closed s)) as (F1 & F2 & _). rewrite F1, F2, todo_advance. split; [exact CK|].
    left. exists x. now split.
  - destruct (drop _ s) as [[y s1]| |] eqn:D; cbn [obind] in E; try discriminate. injection E as <- <-. pose proof (todo_drop _ _ _ _ D _ X) as T.
    apply drop_ok in D as (_ & N & C & _). rewrite N, C. split; [exact CK|]. destruct T as [T| ->]; [left; exists x; now split|right; left; rewrite <- XI; now left].
  - destruct (existsb _ _); [discriminate|]. destruct (drop _ s) as [[y s1]| |] eqn:D; cbn [obind] in E; try discriminate. injection E as <- <-. pose proof (todo_drop _ _ _ _ D _ X) as T.
    apply drop_ok in D as (_ & N & C & _). cbn [now clock]. rewrite N, C. split; [exact CK|]. destruct T as [T| ->]; [left; exists x; now split|right; left; rewrite <- XI; now left].
Qed.
Lemma run_grows tmo ops : forall s tr s' tr', run tmo s tr ops = Ok (s', tr') -> exists ev, tr' = ev ++ tr.
Proof.
  induction ops as [|o ops IH]; cbn; intros s tr s' tr'; [intros [= <- <-]; now exists []|]. destruct (step tmo s o) as [[s1 ev]| |]; cbn; try discriminate.
  intros H. destruct (IH _ _ _ _ H) as (e & ->). exists (e ++ ev). now rewrite app_assoc.
Qed.
Lemma round_run tmo ex id ops : ~ In Wake ops -> forall s tr s' tr', now s <= clock s -> run tmo s tr ops = Ok (s', tr') -> ph s' = Waiting ->
  (exists x, In x (todo s) /\ i_id x = id /\ late tmo ex (now s) x) -> exists ev, tr' = ev ++ tr /\ served ex id ev.
Proof.
  induction ops as [|o ops IH]; intros NW s tr s' tr' CK.
  - cbn. intros [= <- <-] W (x & X & _). unfold todo in X. rewrite W in X. destruct X.
  - cbn [run]. destruct (step tmo s o) as [[s1 ev]| |] eqn:E; cbn [obind]; try discriminate. intros R W X.
    destruct (round_step _ _ _ _ _ _ _ CK (fun H => NW (or_introl H)) E X) as (C1 & [Y|Y]).
    + destruct (IH (fun H => NW (or_intror H)) _ _ _ _ C1 R W Y) as (e & -> & S). exists (e ++ ev). split; [apply app_assoc|].
      destruct S as [H|(t & a & H & C)]; [left; apply in_app_iff; auto|right]. exists t, a. split; [apply in_app_iff; auto|]. intros T. destruct (C T) as (c & G). exists c. apply in_app_iff; auto.
    + destruct (run_grows _ _ _ _ _ _ R) as (e & ->). exists (e ++ ev). split; [apply app_assoc|]. now apply served_app.
Qed.
Lemma round_full tmo ex s tr ops s' tr' x : Inv tmo s tr -> run tmo s tr (Wake :: ops) = Ok (s', tr') -> ph s' = Waiting -> ~ In Wake ops ->
  In x (pending s) -> late tmo ex (clock s) x -> exists ev, tr' = ev ++ tr /\ served ex (i_id x) ev.
Proof.
  intros I. pose proof (i_shape _ _ _ I) as SH. cbn [run step]. destruct (ph s); cbn [obind]; try discriminate. destruct (Z.leb_spec (next_send s) (clock s)); cbn [obind]; [|discriminate].
  intros R W NW X L. eapply (round_run tmo ex (i_id x) ops NW _ _ _ _ _ R W). exists x. cbn. unfold pending in X. rewrite SH in X. auto. Unshelve. cbn. lia.
Qed.
Lemma step_added tmo s o s' ev : step tmo s o = Ok (s', ev) -> forall x, In x (pending s') ->
  (exists y, In y (pending s) /\ i_id y = i_id x) \/ exists h st, In (Added (i_id x) h st) ev.
Proof.
  assert (DR : forall f y s1, drop f s = Ok (y, s1) -> forall x, In x (pending s1) -> In x (pending s)).
  { intros f y s1 D x H. apply drop_ok in D as (_ & _ & _ & _ & _ & D). destruct y as [z|]; [|destruct D as [-> _]; exact H].
    destruct D as (_ & (a & b & P1 & P2) & _). rewrite P1. rewrite P2 in H. rewrite in_app_iff in *. cbn. tauto. }
  destruct o as [h v tm|d| | |a| |h v|h]; cbn [step].
  - destruct (existsb _ _); [discriminate|]. destruct (retry_time tm (tmo h)); cbn [obind]; try discriminate. intros [= <- <-] x. unfold pending. cbn [seen rest]. rewrite app_assoc, in_app_iff. intros [H|[<-|[]]]; [left; eauto|right].
    do 2 eexists. now left.
  - destruct (d <? 0); [discriminate|]. intros [= <- <-] x H. left; eauto.
  - destruct (ph s); try discriminate. destruct (_ <=? _); [|discriminate]. intros [= <- <-] x H. left. exists x. unfold pending in *. cbn in H. rewrite in_app_iff. auto.
  - destruct (ph s) eqn:P; try discriminate. destruct (rest s) as [|x l] eqn:R; [discriminate|]. destruct (due_at (now s) x); [discriminate|]. intros [= <- <-] y. rewrite advance_pending.
    unfold pending. rewrite R, <- app_assoc. left; eauto.
  - destruct (ph s) eqn:P; try discriminate. destruct (rest s) as [|x l] eqn:R; [discriminate|]. destruct (due_at (now s) x) eqn:DU; [|discriminate]. cbn [negb]. destruct (existsb _ _); [discriminate|].
    assert (PD : pending s = seen s ++ x :: l) by (unfold pending; now rewrite R).
    destruct a; cbn [verdict obind]; try discriminate; [destruct (_ <? _)|..]; intros [= <- <-] y H; left; try (exists y; rewrite PD; split; [exact H|reflexivity]).
    rewrite advance_pending, <- app_assoc, in_app_iff in H. cbn in H. rewrite PD. destruct H as [H|[<-|H]]; [exists y|exists x|exists y]; rewrite in_app_iff; cbn; auto.
  - destruct (ph s) eqn:P; try discriminate. destruct (rest s) as [|x l] eqn:R; [discriminate|]. intros [= <- <-] y. rewrite advance_pending. intros H. left. exists y. unfold pending. rewrite R, in_app_iff in *. cbn. tauto.
  - destruct (drop _ s) as [[y s1]| |] eqn:D; cbn [obind]; try discriminate. intros [= <- <-] x H. left; eauto.
  - destruct (existsb _ _); [discriminate|]. destruct (drop _ s) as [[y s1]| |] eqn:D; cbn [obind]; try discriminate. intros [= <- <-] x H. left; eauto.
Qed.
Lemma run_added tmo ops : forall s tr s' tr', (forall x, In x (pending s) -> exists h st, In (Added (i_id x) h st) tr) -> run tmo s tr ops = Ok (s', tr') ->
  forall x, In x (pending s') -> exists h st, In (Added (i_id x) h st) tr'.
Proof.
  induction ops as [|o ops IH]; cbn; intros s tr s' tr' I; [now intros [= <- <-]|]. destruct (step tmo s o) as [[s1 ev]| |] eqn:E; cbn; try discriminate.
  apply IH. intros x X. apply (step_added _ _ _ _ _ E) in X as [(y & Y & <-)|(h & st & X)].
  - destruct (I y Y) as (h & st & H). exists h, st. apply in_app_iff; auto.
  - exists h, st. apply in_app_iff; auto.
Qed.
Lemma pending_added tmo c ops s tr x : run tmo (start c) [] ops = Ok (s, tr) -> In x (pending s) -> exists h st, In (Added (i_id x) h st) tr.
Proof. intros R. eapply (run_added tmo ops (start c) []); [|exact R]. now intros y []. Qed.
