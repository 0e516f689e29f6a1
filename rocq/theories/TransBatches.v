(** Lemmas about the caller's side: splitting by component, restoring, getting. *)
From Verif Require Import Common CommonFacts Errors TransModel TransSpec TransProofs.
Local Open Scope list_scope.
Local Open Scope Z_scope.

(** ** the order of the components *)
Lemma firsts_ext : forall l s1 s2, (forall c, existsb (bytes_eqb c) s1 = existsb (bytes_eqb c) s2) -> firsts s1 l = firsts s2 l.
Proof.
  induction l as [|c l IH]; intros s1 s2 H; [reflexivity|]. cbn [firsts]. rewrite (H c). destruct (existsb (bytes_eqb c) s2); [now apply IH|]. f_equal. apply IH. intros d. cbn [existsb]. now rewrite H.
Qed.
Lemma firsts_cons c : forall l seen, firsts (c :: seen) l = firsts seen (filter (fun d => negb (bytes_eqb d c)) l).
Proof.
  induction l as [|d l IH]; intros seen; [reflexivity|]. cbn [firsts filter existsb]. destruct (bytes_eqb d c) eqn:B; cbn [orb negb].
  - apply IH.
  - cbn [firsts]. destruct (existsb (bytes_eqb d) seen); [apply IH|]. f_equal. rewrite <- IH. apply firsts_ext. intros e. cbn [existsb]. destruct (bytes_eqb e d), (bytes_eqb e c); reflexivity.
Qed.
Lemma firsts_in : forall l seen c, In c (firsts seen l) <-> In c l /\ existsb (bytes_eqb c) seen = false.
Proof.
  induction l as [|d l IH]; intros seen c; [cbn; tauto|]. cbn [firsts]. destruct (existsb (bytes_eqb d) seen) eqn:X.
  - rewrite IH. cbn [In]. split; [tauto|]. intros [[->|H] Y]; [congruence|auto].
  - cbn [In]. rewrite IH. cbn [existsb]. split.
    + intros [->|[H Y]]; [auto|]. apply orb_false_iff in Y as [_ Y]. auto.
    + intros [[->|H] Y]; [auto|]. destruct (bytes_eqb c d) eqn:B; [apply bytes_eqb_eq in B; left; now symmetry|right; cbn; auto].
Qed.
Lemma firsts_nodup : forall l seen, NoDup (firsts seen l).
Proof.
  induction l as [|d l IH]; intros seen; [constructor|]. cbn [firsts]. destruct (existsb (bytes_eqb d) seen); [apply IH|]. constructor; [|apply IH].
  rewrite firsts_in. cbn [existsb]. rewrite bytes_eqb_refl. intros [_ H]. discriminate.
Qed.
Lemma map_fst_filter {A} (f : list Z -> bool) (l : list (list Z * A)) : map fst (filter (fun x => f (fst x)) l) = filter f (map fst l).
Proof. induction l as [|[c x] l IH]; [reflexivity|]. cbn [filter map fst]. destruct (f c); cbn [map fst]; now rewrite IH. Qed.
Lemma filter_twice {A} (f g : A -> bool) l : (forall x, f x = true -> g x = true) -> filter f (filter g l) = filter f l.
Proof.
  intros H. induction l as [|x l IH]; [reflexivity|]. cbn [filter]. destruct (g x) eqn:G; cbn [filter]; [destruct (f x); now rewrite IH|].
  destruct (f x) eqn:F; [rewrite H in G by exact F; discriminate|exact IH].
Qed.
Lemma mine_rest c d l : d <> c -> mine d (rest c l) = mine d l.
Proof. intros H. apply filter_twice. intros x X. apply bytes_eqb_eq in X. apply negb_true_iff, bytes_eqb_neq. congruence. Qed.
Lemma mine_rest_n c d l : d <> c -> mine_n d (rest_n c l) = mine_n d l.
Proof. intros H. unfold mine_n. f_equal. apply filter_twice. intros x X. apply bytes_eqb_eq in X. apply negb_true_iff, bytes_eqb_neq. congruence. Qed.
Lemma filter_shorter {A} (f : A -> bool) l : (length (filter f l) <= length l)%nat.
Proof. induction l as [|x l IH]; [reflexivity|]. cbn. destruct (f x); cbn; lia. Qed.
Lemma firsts_rest {A} c (x : A) l : firsts [] (map fst ((c, x) :: l)) = c :: firsts [] (map fst (filter (fun y => negb (bytes_eqb (fst y) c)) l)).
Proof. cbn [map fst firsts existsb]. now rewrite firsts_cons, (map_fst_filter (fun d => negb (bytes_eqb d c))). Qed.
Lemma rest_head {A} c (x : A) l : filter (fun y : list Z * A => negb (bytes_eqb (fst y) c)) ((c, x) :: l) = filter (fun y => negb (bytes_eqb (fst y) c)) l.
Proof. cbn [filter fst]. now rewrite bytes_eqb_refl. Qed.

(** ** the owners *)
Lemma owned_ok E : forall l o, owned E l = Some o -> map snd o = l /\ (forall x, In x o -> owner E (fst (snd x)) = Some (fst x)).
Proof.
  induction l as [|x l IH]; intros o H; cbn [owned] in H; [injection H as <-; split; [reflexivity|intros x []]|].
  destruct (owner E (fst x)) as [c|] eqn:O; [|discriminate]. destruct (owned E l) as [r|]; [|discriminate]. injection H as <-. destruct (IH r eq_refl) as [A B].
  cbn [map snd]. rewrite A. split; [reflexivity|]. intros y [<-|Y]; [exact O|auto].
Qed.
Lemma owned_all E l : (forall x, In x l -> owner E (fst x) <> None) -> owned E l <> None.
Proof.
  induction l as [|x l IH]; intros H; [discriminate|]. cbn [owned]. destruct (owner E (fst x)) eqn:O; [|now elim (H x (or_introl eq_refl))].
  destruct (owned E l); [discriminate|]. apply IH. intros y Y. apply H. now right.
Qed.
Lemma owned_mine E o c : (forall x, In x o -> owner E (fst (snd x)) = Some (fst x)) -> map snd (mine c o) = part E fst c (map snd o).
Proof.
  unfold mine, part. induction o as [|[d x] o IH]; intros H; [reflexivity|]. cbn [map filter fst snd]. pose proof (H (d, x) (or_introl eq_refl)) as Q. cbn [fst snd] in Q. rewrite Q.
  destruct (bytes_eqb d c); cbn [map snd]; rewrite IH by (intros y Y; apply H; now right); reflexivity.
Qed.
Lemma owned_owners E (o : list (list Z * item)) : (forall x, In x o -> owner E (fst (snd x)) = Some (fst x)) -> owners E (map fst (map snd o)) = firsts [] (map fst o).
Proof.
  intros H. unfold owners. f_equal. induction o as [|[d x] o IH]; [reflexivity|]. cbn [map flat_map fst snd]. pose proof (H (d, x) (or_introl eq_refl)) as Q. cbn [fst snd] in Q. rewrite Q. cbn [app]. f_equal. apply IH. intros y Y. apply H. now right.
Qed.
Lemma owned_n_ok E : forall l o, owned_n E l = Some o -> map snd o = l /\ (forall x, In x o -> owner E (snd x) = Some (fst x)).
Proof.
  induction l as [|x l IH]; intros o H; cbn [owned_n] in H; [injection H as <-; split; [reflexivity|intros x []]|].
  destruct (owner E x) as [c|] eqn:O; [|discriminate]. destruct (owned_n E l) as [r|]; [|discriminate]. injection H as <-. destruct (IH r eq_refl) as [A B].
  cbn [map snd]. rewrite A. split; [reflexivity|]. intros y [<-|Y]; [exact O|auto].
Qed.
Lemma owned_n_mine E o c : (forall x, In x o -> owner E (snd x) = Some (fst x)) -> mine_n c o = part E (fun n => n) c (map snd o).
Proof.
  unfold mine_n, part. induction o as [|[d x] o IH]; intros H; [reflexivity|]. cbn [map filter fst snd]. pose proof (H (d, x) (or_introl eq_refl)) as Q. cbn [fst snd] in Q. rewrite Q.
  destruct (bytes_eqb d c); cbn [map snd]; rewrite IH by (intros y Y; apply H; now right); reflexivity.
Qed.
Lemma owned_n_owners E o : (forall x, In x o -> owner E (snd x) = Some (fst x)) -> owners E (map snd o) = firsts [] (map fst o).
Proof.
  intros H. unfold owners. f_equal. induction o as [|[d x] o IH]; [reflexivity|]. cbn [map flat_map fst snd]. pose proof (H (d, x) (or_introl eq_refl)) as Q. cbn [fst snd] in Q. rewrite Q. cbn [app]. f_equal. apply IH. intros y Y. apply H. now right.
Qed.

(** ** codes *)
Lemma legacy_bad r : legacy r <> E_SUCCESS.
Proof. unfold legacy, E_SUCCESS. repeat match goal with |- context [if ?b then _ else _] => destruct b end; discriminate. Qed.
Lemma code_of_bad r : good r = false -> code_of r <> E_SUCCESS.
Proof.
  unfold good, code_of. intros G. apply orb_false_iff in G as [G _]. destruct ((r <? 0) || (r >? LEGACY_SUCCESS)); [apply legacy_bad|]. now apply Z.eqb_neq.
Qed.
Lemma request_failed E w c roll l commit w' r n : api_codes E -> request E w c roll l commit = (w', Reply (Failed r n)) -> good r = false.
Proof.
  intros [A _]. unfold request. destruct (fates E (sent w)); [|discriminate|discriminate]. destruct (serve E _ c (me E) roll l commit) as [w2 rr] eqn:S. intros Q. injection Q as <- ->.
  unfold serve in S. destruct l as [|x l]; [injection S as _ <- _; reflexivity|]. apply serve_failed in S as (pre & v & post & wp & o & EQ & SL & [(_ & -> & _)|[(_ & -> & _)|(_ & N & last & wk & _ & CS & _)]]); [reflexivity|reflexivity|].
  unfold call_set in CS. injection CS as _ <-. unfold good. apply orb_false_iff. split; apply Z.eqb_neq; [exact N|apply A].
Qed.

(** ** a sequence of requests that are all accepted; [o] is what the last reply carried *)
Inductive accepted (E : env) (roll commit : bool) (it : list Z -> list item) : list item -> world -> list (list Z) -> world -> list item -> Prop :=
| acc_nil o w : accepted E roll commit it o w [] w o
| acc_cons o w c w1 o1 cs w' o' : request E w c roll (it c) commit = (w1, Reply (Done o1)) -> accepted E roll commit it o1 w1 cs w' o' -> accepted E roll commit it o w (c :: cs) w' o'.

Lemma batches_split E un commit roll (it : list Z -> list item) : connected E -> api_codes E -> forall fuel l w old code named w' r f,
  (length l <= fuel)%nat -> (forall c, In c (map fst l) -> it c = map snd (mine c l)) ->
  batches E un fuel w roll commit old code named l = (w', r, f) ->
  let cs := firsts [] (map fst l) in
  (exists old', accepted E roll commit it old w cs w' old' /\ r = (match cs with [] => code | _ => E_SUCCESS end) /\ f = None) \/
  (exists pre c post w1 w2 old1 rr n, cs = pre ++ c :: post /\ accepted E roll commit it old w pre w1 old1 /\
     request E w1 c roll (it c) commit = (w2, Reply (Failed rr n)) /\ good rr = false /\ w' = (if roll then un w2 old1 else w2) /\ r = code_of rr /\
     f = (if named && match pre with [] => true | _ => false end then Some n else None)).
Proof.
  intros CO AC. induction fuel as [|fuel IH]; intros l w old code named w' r f LE IT R.
  - destruct l; [|cbn in LE; lia]. cbn in R. injection R as <- <- <-. left. exists old. split; [constructor|auto].
  - destruct l as [|[c x] l]; [cbn in R; injection R as <- <- <-; left; exists old; split; [constructor|auto]|].
    cbv zeta. rewrite firsts_rest. cbn [batches] in R. rewrite <- (IT c (or_introl eq_refl)) in R.
    destruct (request E w c roll (it c) commit) as [w1 a] eqn:RQ. destruct a as [e|[o|rr n]].
    + unfold request in RQ. rewrite CO in RQ. destruct (serve E _ c (me E) roll (it c) commit). discriminate.
    + unfold rest in R. rewrite rest_head in R. apply IH in R.
      * cbv zeta in R. destruct R as [(old' & AA & Er & Ef)|(pre & c' & post & w3 & w4 & old1 & rr & n & EQ & AA & RQ' & G & W' & Er & Ef)].
        -- left. exists old'. split; [econstructor; eassumption|]. split; [|exact Ef]. rewrite Er. now destruct (firsts [] _).
        -- right. exists (c :: pre), c', post, w3, w4, old1, rr, n. split; [now rewrite EQ|]. split; [econstructor; eassumption|]. split; [exact RQ'|]. split; [exact G|]. split; [exact W'|]. split; [exact Er|].
           rewrite andb_false_r. exact Ef.
      * cbn [length] in LE. pose proof (filter_shorter (fun y : list Z * item => negb (bytes_eqb (fst y) c)) l). lia.
      * intros d D. rewrite (map_fst_filter (fun d => negb (bytes_eqb d c))) in D. apply filter_In in D as [D N]. apply negb_true_iff, bytes_eqb_neq in N.
        rewrite IT by (now right). f_equal. rewrite <- (rest_head c x l). symmetry. exact (mine_rest c d ((c, x) :: l) N).
    + pose proof (request_failed _ _ _ _ _ _ _ _ _ AC RQ) as G. rewrite G in R. injection R as <- <- <-. right. exists [], c, (firsts [] (map fst (filter (fun y => negb (bytes_eqb (fst y) c)) l))), w, w1, old, rr, n.
      split; [reflexivity|]. split; [constructor|]. split; [exact RQ|]. split; [exact G|]. split; [reflexivity|]. split; [reflexivity|]. now rewrite andb_true_r.
Qed.

(** what one accepted request does *)
Lemma request_done E w c roll l commit w' o : request E w c roll l commit = (w', Reply (Done o)) ->
  l <> [] /\ (forall x, In x l -> writable E c (fst x) = true) /\
  (forall d m, store w' d m = if bytes_eqb d c then final l m (store w d m) else store w d m) /\
  log w' = log w ++ SetReq c (me E) roll l commit :: calls c (me E) commit l /\ sets w' = (sets w + length l)%nat /\
  (roll = true -> gets_work E -> NoDup (map fst l) -> (forall x, In x l -> readable E c (fst x) = true) -> o = olds (store w c) l).
Proof.
  unfold request. destruct (fates E (sent w)); [|discriminate|discriminate]. destruct (serve E _ c (me E) roll l commit) as [w2 rr] eqn:S. intros Q. injection Q as <- ->.
  unfold serve in S. destruct l as [|x l]; [discriminate|]. apply serve_done in S as (A & B & C & D & F & G & H & I). cbn [ask store log sets] in *.
  split; [discriminate|]. split; [exact A|]. split; [exact B|]. split; [rewrite C, <- app_assoc; reflexivity|]. split; [exact D|]. intros R GW ND RD. now rewrite (I R GW ND RD).
Qed.
Lemma accepted_store E roll commit it : forall cs o w w' o', accepted E roll commit it o w cs w' o' -> NoDup cs ->
  forall d m, store w' d m = if existsb (bytes_eqb d) cs then final (it d) m (store w d m) else store w d m.
Proof.
  induction cs as [|c cs IH]; intros o w w' o' A ND d m; inversion A as [|o0 w0 c0 w1 o1 cs0 w2 o2 RQ A']; subst; [reflexivity|].
  inversion ND as [|? ? NI ND']; subst. rewrite (IH _ _ _ _ A' ND'). apply request_done in RQ as (_ & _ & S & _). rewrite S. cbn [existsb].
  destruct (bytes_eqb d c) eqn:B; cbn [orb]; [|reflexivity]. apply bytes_eqb_eq in B. subst d.
  destruct (existsb (bytes_eqb c) cs) eqn:X; [|reflexivity]. apply existsb_exists in X as (y & Y & Q). apply bytes_eqb_eq in Q. subst y. contradiction.
Qed.
Lemma accepted_sets E roll commit it : forall cs o w w' o', accepted E roll commit it o w cs w' o' -> (sets w <= sets w')%nat.
Proof.
  induction cs as [|c cs IH]; intros o w w' o' A; inversion A as [|o0 w0 c0 w1 o1 cs0 w2 o2 RQ A']; subst; [lia|]. apply IH in A'. apply request_done in RQ as (_ & _ & _ & _ & S & _). lia.
Qed.
Lemma accepted_log E roll commit it : forall cs o w w' o', accepted E roll commit it o w cs w' o' ->
  log w' = log w ++ flat_map (fun c => SetReq c (me E) roll (it c) commit :: calls c (me E) commit (it c)) cs.
Proof.
  induction cs as [|c cs IH]; intros o w w' o' A; inversion A as [|o0 w0 c0 w1 o1 cs0 w2 o2 RQ A']; subst; [cbn; now rewrite app_nil_r|].
  apply IH in A'. apply request_done in RQ as (_ & _ & _ & L & _). rewrite A', L. cbn [flat_map app]. now rewrite <- app_assoc.
Qed.
(** what is remembered is what the last component held before the call *)
Lemma accepted_old E commit it : gets_work E -> forall cs o w w' o', accepted E true commit it o w cs w' o' -> NoDup cs ->
  (forall c, In c cs -> NoDup (map fst (it c)) /\ (forall x, In x (it c) -> readable E c (fst x) = true)) ->
  match rev cs with [] => o' = o | c :: _ => o' = olds (store w c) (it c) end.
Proof.
  intros GW. induction cs as [|c cs IH]; intros o w w' o' A ND H; inversion A as [|o0 w0 c0 w1 o1 cs0 w2 o2 RQ A']; subst; [reflexivity|].
  inversion ND as [|? ? NI ND']; subst. pose proof (IH _ _ _ _ A' ND' (fun d D => H d (or_intror D))) as B. cbn [rev].
  apply request_done in RQ as (_ & _ & S & _ & _ & O). destruct (H c (or_introl eq_refl)) as [H1 H2]. rewrite (O eq_refl GW H1 H2) in B.
  destruct (rev cs) as [|d ds] eqn:RV; cbn [app]; [exact B|]. rewrite B. unfold olds. apply map_ext. intros x. f_equal. rewrite S.
  destruct (bytes_eqb d c) eqn:Q; [|reflexivity]. apply bytes_eqb_eq in Q. subst d. elim NI. apply in_rev. rewrite RV. now left.
Qed.

(** ** restoring *)
Lemma request_accepts E w c roll l commit : connected E -> l <> [] -> (forall x, In x l -> writable E c (fst x) = true) ->
  (forall i, (sets w <= i)%nat -> set_code E i = E_SUCCESS) -> exists w' o, request E w c roll l commit = (w', Reply (Done o)).
Proof.
  intros CO NE WR A. unfold request. rewrite CO. destruct l as [|x l]; [contradiction|]. unfold serve.
  destruct (serve_accepts E c (me E) roll commit (x :: l) (ask w (SetReq c (me E) roll (x :: l) commit)) [] WR A) as (w' & o & S). rewrite S. now exists w', o.
Qed.
Lemma firsts_same d l : l <> [] -> (forall c, In c l -> c = d) -> firsts [] l = [d].
Proof.
  intros NE H. destruct l as [|c l]; [contradiction|]. cbn [firsts existsb]. rewrite (H c (or_introl eq_refl)). f_equal. rewrite firsts_cons.
  replace (filter _ l) with (@nil (list Z)); [reflexivity|]. symmetry. assert (H' : forall e, In e l -> e = d) by (intros e I; apply H; now right). clear - H'.
  induction l as [|e l IH]; [reflexivity|]. cbn [filter]. rewrite (H' e (or_introl eq_refl)), bytes_eqb_refl. cbn [negb]. apply IH. intros f I. apply H'. now right.
Qed.
Lemma undo_nil E w : undo E w [] = w.
Proof. reflexivity. Qed.
Lemma multi_long E un w l commit roll named : (2 <= length l)%nat -> existsb (fun x => wild (fst x) || negb (is_some (snd x))) l = false ->
  multi_with E un w (length l) l commit roll named =
  match owned E l with None => (w, E_INVALID_INPUT, None) | Some o => batches E un (length o) w roll commit [] E_SUCCESS named o end.
Proof.
  intros L X. unfold multi_with. destruct l as [|[n v] [|y l]]; [cbn in L; lia|cbn in L; lia|].
  replace (firstn (length ((n, v) :: y :: l)) ((n, v) :: y :: l)) with ((n, v) :: y :: l) by (symmetry; apply firstn_all). rewrite X, Nat.ltb_irrefl. reflexivity.
Qed.
Lemma multi_bad E un w l commit roll named : (2 <= length l)%nat -> existsb (fun x => wild (fst x) || negb (is_some (snd x))) l = true ->
  multi_with E un w (length l) l commit roll named = (w, E_INVALID_INPUT, None).
Proof.
  intros L X. unfold multi_with. destruct l as [|[n v] [|y l]]; [cbn in L; lia|cbn in L; lia|].
  replace (firstn (length ((n, v) :: y :: l)) ((n, v) :: y :: l)) with ((n, v) :: y :: l) by (symmetry; apply firstn_all). now rewrite X.
Qed.
Lemma undo_ok E w d st l : connected E -> api_codes E -> l <> [] ->
  (forall x, In x l -> owner E (fst x) = Some d /\ writable E d (fst x) = true /\ wild (fst x) = false /\ st (fst x) <> None) ->
  (forall i, (sets w <= i)%nat -> set_code E i = E_SUCCESS) ->
  forall c m, store (undo E w (olds st l)) c m = if bytes_eqb c d then final (olds st l) m (store w c m) else store w c m.
Proof.
  intros CO AC NE H OK c m.
  assert (HO : forall x, In x (olds st l) -> owner E (fst x) = Some d /\ writable E d (fst x) = true /\ wild (fst x) = false /\ snd x <> None).
  { intros x X. unfold olds in X. apply in_map_iff in X as (y & <- & Y). cbn [fst snd]. now apply H. }
  assert (NO : olds st l <> []) by (destruct l; [contradiction|discriminate]).
  remember (olds st l) as u eqn:Eu. clear Eu H NE l. unfold undo. destruct u as [|[n v] [|y u]].
  - contradiction.
  - cbn [length multi_with]. destruct (HO (n, v) (or_introl eq_refl)) as (O & W & NW & SV). cbn [fst snd] in *.
    unfold single. rewrite NW. destruct v as [z|]; [|contradiction]. rewrite O.
    destruct (request_accepts E w d false [(n, Some z)] true CO) as (w' & o & RQ); [discriminate| |exact OK|].
    { intros x [<-|[]]. exact W. }
    rewrite RQ. cbn [fst]. apply request_done in RQ as (_ & _ & S & _). apply S.
  - remember ((n, v) :: y :: u) as l eqn:El. assert (L2 : (2 <= length l)%nat) by (subst l; cbn; lia). clear El.
    rewrite multi_long; [|exact L2|].
    2:{ apply not_true_is_false. intros X. apply existsb_exists in X as (x & I & B). destruct (HO x I) as (_ & _ & NW & SV). rewrite NW in B. destruct (snd x); [discriminate|contradiction]. }
    destruct (owned E l) as [o|] eqn:OW.
    2:{ elim (owned_all E l); [|exact OW]. intros x X. destruct (HO x X) as (Q & _). now rewrite Q. }
    apply owned_ok in OW as [M P].
    assert (FD : forall e, In e (map fst o) -> e = d).
    { intros e I. apply in_map_iff in I as (x & <- & X). destruct (HO (snd x)) as (Q & _); [rewrite <- M; now apply in_map|]. rewrite P in Q by exact X. now injection Q. }
    assert (CS : firsts [] (map fst o) = [d]). { apply firsts_same; [|exact FD]. destruct o; [cbn in M; subst l; cbn in L2; lia|discriminate]. }
    assert (MI : map snd (mine d o) = l).
    { rewrite <- M. f_equal. unfold mine. clear - FD. induction o as [|x o IH]; [reflexivity|]. cbn [filter]. rewrite (FD (fst x)) by (now left). rewrite bytes_eqb_refl. f_equal. apply IH. intros e I. apply FD. now right. }
    destruct (batches E (fun w _ => w) (length o) w false true [] E_SUCCESS true o) as [[w' r] f] eqn:B.
    apply (batches_split E _ true false (fun c => map snd (mine c o)) CO AC) in B; [|lia|reflexivity]. cbv zeta in B. rewrite CS in B. cbn [fst].
    destruct B as [(old' & AA & _)|(pre & c' & post & w1 & w2 & old1 & rr & nn & EQ & AA & RQ & _)].
    + rewrite (accepted_store _ _ _ _ _ _ _ _ _ AA) by (constructor; [intros []|constructor]). cbn [existsb]. rewrite orb_false_r. destruct (bytes_eqb c d) eqn:Bc; [|reflexivity]. apply bytes_eqb_eq in Bc. subst c. now rewrite MI.
    + destruct pre as [|p pre]; [|destruct pre; discriminate]. injection EQ as <- _. inversion AA; subst w1 old1.
      destruct (request_accepts E w d false (map snd (mine d o)) true CO) as (w3 & o3 & RQ'); [|rewrite MI; intros x X; apply HO; exact X|exact OK|rewrite RQ in RQ'; discriminate].
      rewrite MI. exact NO.
Qed.

(** ** what is observed of a call *)
Lemma calls_told c who es : forallb (calls_of c who) es = true -> forallb (told who) es = true /\ rolled es = [].
Proof.
  induction es as [|e es IH]; [auto|]. cbn [forallb rolled filter]. intros H. apply andb_true_iff in H as [A B]. destruct (IH B) as [C D]. destruct e; cbn in A; try discriminate. apply andb_true_iff in A as [_ A]. cbn [told]. rewrite A, C. auto.
Qed.
Lemma request_log E w c roll l commit w' a : request E w c roll l commit = (w', a) ->
  exists es, log w' = log w ++ SetReq c (me E) roll l commit :: es /\ forallb (told (me E)) es = true /\ rolled es = [].
Proof.
  unfold request. set (w1 := ask w _).
  assert (S : forall w2 r, serve E w1 c (me E) roll l commit = (w2, r) -> exists es, log w2 = log w ++ SetReq c (me E) roll l commit :: es /\ forallb (told (me E)) es = true /\ rolled es = []).
  { intros w2 r S. unfold serve in S. destruct l as [|x l].
    - injection S as <- _. exists []. auto.
    - apply serve_log in S as (es & A & B & _). apply calls_told in B as [B1 B2]. exists es. rewrite A. cbn [w1 ask log]. rewrite <- app_assoc. auto. }
  destruct (fates E (sent w)); [| |].
  - destruct (serve E w1 c (me E) roll l commit) as [w2 r] eqn:Q. intros R. injection R as <- <-. eauto.
  - intros R. injection R as <- <-. exists []. auto.
  - intros R. injection R as <- <-. destruct (serve E w1 c (me E) roll l commit) as [w2 r] eqn:Q. cbn [fst]. eauto.
Qed.
Definition quiet (E : env) (un : world -> list item -> world) : Prop :=
  forall w o, exists es, log (un w o) = log w ++ es /\ forallb (told (me E)) es = true /\ rolled es = [].
Lemma batches_log E un commit roll (it : list Z -> list item) : quiet E un -> forall fuel l w old code named w' r f,
  (length l <= fuel)%nat -> (forall c, In c (map fst l) -> it c = map snd (mine c l)) ->
  batches E un fuel w roll commit old code named l = (w', r, f) ->
  exists es k, log w' = log w ++ es /\ forallb (told (me E)) es = true /\
    rolled es = (if roll then map (fun c => SetReq c (me E) true (it c) commit) (firstn k (firsts [] (map fst l))) else []) /\
    (r = E_SUCCESS -> k = length (firsts [] (map fst l))) /\ (k <= length (firsts [] (map fst l)))%nat.
Proof.
  intros QU. induction fuel as [|fuel IH]; intros l w old code named w' r f LE IT R.
  - destruct l; [|cbn in LE; lia]. cbn in R. injection R as <- <- <-. exists [], 0%nat. rewrite app_nil_r. cbn. destruct roll; auto.
  - destruct l as [|[c x] l]; [cbn in R; injection R as <- <- <-; exists [], 0%nat; rewrite app_nil_r; cbn; destruct roll; auto|].
    rewrite firsts_rest. cbn [batches] in R. rewrite <- (IT c (or_introl eq_refl)) in R.
    destruct (request E w c roll (it c) commit) as [w1 a] eqn:RQ. apply request_log in RQ as (es1 & L1 & T1 & R1).
    assert (NEXT : forall old code named, batches E un fuel w1 roll commit old code named (rest c ((c, x) :: l)) = (w', r, f) ->
      exists es k, log w' = log w ++ es /\ forallb (told (me E)) es = true /\
      rolled es = (if roll then map (fun c => SetReq c (me E) true (it c) commit) (firstn k (c :: firsts [] (map fst (filter (fun y => negb (bytes_eqb (fst y) c)) l)))) else []) /\
      (r = E_SUCCESS -> k = length (c :: firsts [] (map fst (filter (fun y => negb (bytes_eqb (fst y) c)) l)))) /\ (k <= length (c :: firsts [] (map fst (filter (fun y => negb (bytes_eqb (fst y) c)) l))))%nat).
    { intros old2 code2 named2 R2. unfold rest in R2. rewrite rest_head in R2. apply IH in R2 as (es & k & L & T & RO & K & KL).
      - exists (SetReq c (me E) roll (it c) commit :: es1 ++ es), (S k). rewrite L, L1, <- app_assoc. split; [reflexivity|]. split.
        { cbn [forallb told]. rewrite bytes_eqb_refl, forallb_app, T1, T. reflexivity. }
        split. { cbn [rolled filter]. fold (rolled (es1 ++ es)). replace (rolled (es1 ++ es)) with (rolled es) by (unfold rolled in *; now rewrite filter_app, R1). rewrite RO. destruct roll; reflexivity. }
        split; [intros Q; cbn [length]; now rewrite K|]. cbn [length]. lia.
      - cbn [length] in LE. pose proof (filter_shorter (fun y : list Z * item => negb (bytes_eqb (fst y) c)) l). lia.
      - intros d D. rewrite (map_fst_filter (fun d => negb (bytes_eqb d c))) in D. apply filter_In in D as [D N]. apply negb_true_iff, bytes_eqb_neq in N.
        rewrite IT by (now right). f_equal. rewrite <- (rest_head c x l). symmetry. exact (mine_rest c d ((c, x) :: l) N). }
    destruct a as [e|[o|rr n]]; [eapply NEXT; exact R|eapply NEXT; exact R|]. destruct (good rr) eqn:G; [eapply NEXT; exact R|]. injection R as <- <- <-.
    destruct (QU w1 old) as (es2 & L2 & T2 & R2).
    destruct roll.
    + exists (SetReq c (me E) true (it c) commit :: es1 ++ es2), 1%nat. rewrite L2, L1, <- app_assoc. split; [reflexivity|]. split; [cbn [forallb told]; rewrite bytes_eqb_refl, forallb_app, T1, T2; reflexivity|].
      split; [cbn [rolled filter firstn map]; f_equal; unfold rolled in *; now rewrite filter_app, R1, R2|]. split; [intros Q; now apply code_of_bad in G|cbn; lia].
    + exists (SetReq c (me E) false (it c) commit :: es1), 1%nat. rewrite L1. split; [reflexivity|]. split; [cbn [forallb told]; rewrite bytes_eqb_refl, T1; reflexivity|].
      split; [exact R1|]. split; [intros Q; now apply code_of_bad in G|cbn; lia].
Qed.
Lemma multi_log E un w num l commit roll named w' r f : quiet E un -> multi_with E un w num l commit roll named = (w', r, f) ->
  exists es, log w' = log w ++ es /\ forallb (told (me E)) es = true /\ (roll = false -> rolled es = []).
Proof.
  intros QU R.
  assert (SAME : forall r0 f0, (w, r0, f0) = (w', r, f) -> exists es, log w' = log w ++ es /\ forallb (told (me E)) es = true /\ (roll = false -> rolled es = [])).
  { intros r0 f0 Q. injection Q as <- _ _. exists []. rewrite app_nil_r. auto. }
  unfold multi_with in R. destruct num as [|num]; [eauto|]. destruct l as [|[n v] l]; [eauto|].
  assert (LONG : (if existsb (fun x => wild (fst x) || negb (is_some (snd x))) (firstn (S num) ((n, v) :: l)) then (w, E_INVALID_INPUT, None)
      else if (length ((n, v) :: l) <? S num)%nat then (w, E_INVALID_INPUT, None)
      else match owned E (firstn (S num) ((n, v) :: l)) with None => (w, E_INVALID_INPUT, None) | Some o => batches E un (length o) w roll commit [] E_SUCCESS named o end) = (w', r, f) ->
      exists es, log w' = log w ++ es /\ forallb (told (me E)) es = true /\ (roll = false -> rolled es = [])).
  { clear R. intros R. destruct (existsb _ _); [eauto|]. destruct (length ((n, v) :: l) <? S num)%nat; [eauto|]. destruct (owned E _) as [o|]; [|eauto].
    apply (batches_log E un commit roll (fun c => map snd (mine c o)) QU) in R as (es & k & A & B & C & _); [|lia|reflexivity]. exists es. split; [exact A|]. split; [exact B|]. intros ->. exact C. }
  destruct l as [|y l]; [|exact (LONG R)]. clear LONG. unfold single in R. destruct (wild n); [eauto|]. destruct v as [z|]; [|eauto]. destruct (owner E n) as [c|]; [|eauto].
  destruct (request E w c false [(n, Some z)] commit) as [w1 a] eqn:RQ. apply request_log in RQ as (es & A & B & C).
  assert (W : w' = w1) by (destruct a as [e|[o|rr nn]]; congruence). subst w'. exists (SetReq c (me E) false [(n, Some z)] commit :: es). split; [exact A|]. split; [cbn [forallb told]; now rewrite bytes_eqb_refl|]. intros _. exact C.
Qed.
Lemma undo_quiet E : quiet E (undo E).
Proof.
  intros w o. unfold undo. destruct (multi_with E (fun w _ => w) w (length o) o true false true) as [[w' r] f] eqn:R. cbn [fst].
  apply multi_log in R as (es & A & B & C); [exists es; auto|]. intros w0 o0. exists []. rewrite app_nil_r. auto.
Qed.

(** ** getting *)
Lemma serve_get_plain E c : forall l w got w' r vs, api_codes E -> (forall n, In n l -> wild n = false) -> serve_get E w c got l = (w', r, vs) ->
  store w' = store w /\ log w' = log w /\ sent w' = sent w /\
  ((r = E_SUCCESS /\ vs = got ++ map (fun n => (n, store w c n)) l /\ forall n, In n l -> readable E c n = true) \/
   (r <> E_SUCCESS /\ r <> LEGACY_SUCCESS /\ vs = [] /\ (gets_work E -> exists n, In n l /\ readable E c n = false))).
Proof.
  induction l as [|n l IH]; intros w got w' r vs AC NW R.
  - cbn in R. injection R as <- <- <-. cbn [map]. rewrite app_nil_r. split; [reflexivity|]. split; [reflexivity|]. split; [reflexivity|]. left. split; [reflexivity|]. split; [reflexivity|intros n []].
  - cbn [serve_get] in R. rewrite NW in R by now left. unfold readable. destruct (elem E c n) as [k|] eqn:K.
    2:{ injection R as <- <- <-. split; [reflexivity|]. split; [reflexivity|]. split; [reflexivity|]. right. split; [discriminate|]. split; [discriminate|]. split; [reflexivity|]. intros _. exists n. split; [now left|]. now rewrite K. }
    destruct (k_get k) eqn:KG; cbn [negb] in R.
    2:{ injection R as <- <- <-. split; [reflexivity|]. split; [reflexivity|]. split; [reflexivity|]. right. split; [discriminate|]. split; [discriminate|]. split; [reflexivity|]. intros _. exists n. split; [now left|]. now rewrite K, KG. }
    unfold call_get in R. destruct (Z.eqb_spec (get_code E (gets w)) E_SUCCESS) as [Q|Q].
    + apply IH in R; [|exact AC|intros m M; apply NW; now right]. destruct R as (A & B & C & D). cbn [store log sent] in *. split; [exact A|]. split; [exact B|]. split; [exact C|].
      destruct D as [(D1 & D2 & D3)|(D1 & D2 & D3 & D4)].
      * left. split; [exact D1|]. split; [rewrite D2, <- app_assoc; reflexivity|]. intros m [<-|M]; [now rewrite K|]. now apply D3.
      * right. split; [exact D1|]. split; [exact D2|]. split; [exact D3|]. intros GW. destruct (D4 GW) as (m & M & F). exists m. split; [now right|exact F].
    + injection R as <- <- <-. cbn [store log sent]. split; [reflexivity|]. split; [reflexivity|]. split; [reflexivity|]. right. split; [exact Q|]. split; [apply AC|]. split; [reflexivity|]. intros GW. now elim Q.
Qed.
Lemma request_get_plain E w c who l w' a : connected E -> api_codes E -> l <> [] -> (forall n, In n l -> wild n = false) -> request_get E w c who l = (w', a) ->
  store w' = store w /\ log w' = log w ++ [GetReq c who l] /\
  exists r vs, a = Some (r, vs) /\
  ((r = E_SUCCESS /\ vs = map (fun n => (n, store w c n)) l /\ forall n, In n l -> readable E c n = true) \/
   (good r = false /\ vs = [] /\ (gets_work E -> exists n, In n l /\ readable E c n = false))).
Proof.
  intros CO AC NE NW R. unfold request_get in R. rewrite CO in R. destruct l as [|n l]; [contradiction|].
  destruct (serve_get E (ask w (GetReq c who (n :: l))) c [] (n :: l)) as [[w2 r] vs] eqn:S. injection R as <- <-. apply serve_get_plain in S; [|exact AC|exact NW].
  destruct S as (A & B & _ & D). cbn [ask store log] in *. split; [exact A|]. split; [exact B|]. exists r, vs. split; [reflexivity|].
  destruct D as [D|(D1 & D2 & D3 & D4)]; [left; exact D|]. right. split; [|auto]. unfold good. apply orb_false_iff. split; now apply Z.eqb_neq.
Qed.
Lemma last_cons {A} (x d : A) l : last (x :: l) d = last l x.
Proof. revert x d. induction l as [|y l IH]; intros x d; [reflexivity|]. change (last (x :: y :: l) d) with (last (y :: l) d). now rewrite !IH. Qed.
Definition answers (st : list Z -> list Z -> option Z) (it : list Z -> list (list Z)) (p : list Z * bool) : list item :=
  if snd p then map (fun n => (n, st (fst p) n)) (it (fst p)) else [].
Lemma get_batches_plain E (it : list Z -> list (list Z)) : connected E -> api_codes E -> (forall c n, In n (it c) -> wild n = false) ->
  forall fuel l w code got w' r vs, (length l <= fuel)%nat -> (forall c, In c (map fst l) -> it c = mine_n c l) ->
  get_batches E fuel w code got l = (w', r, vs) ->
  store w' = store w /\
  exists oks, length oks = length (firsts [] (map fst l)) /\ vs = got ++ flat_map (answers (store w) it) (combine (firsts [] (map fst l)) oks) /\
    (r = E_SUCCESS <-> last oks (code =? E_SUCCESS) = true) /\
    (forall c ok, In (c, ok) (combine (firsts [] (map fst l)) oks) ->
       if ok then (forall n, In n (it c) -> readable E c n = true) else gets_work E -> exists n, In n (it c) /\ readable E c n = false).
Proof.
  intros CO AC NW. induction fuel as [|fuel IH]; intros l w code got w' r vs LE IT R.
  - destruct l; [|cbn in LE; lia]. cbn in R. injection R as <- <- <-. split; [reflexivity|]. exists []. split; [reflexivity|]. split; [now rewrite app_nil_r|]. split; [cbn; symmetry; apply Z.eqb_eq|]. intros c ok [].
  - destruct l as [|[c x] l]; [cbn in R; injection R as <- <- <-; split; [reflexivity|]; exists []; split; [reflexivity|]; split; [now rewrite app_nil_r|]; split; [cbn; symmetry; apply Z.eqb_eq|intros c ok []]|].
    rewrite firsts_rest. cbn [get_batches] in R. rewrite <- (IT c (or_introl eq_refl)) in R.
    destruct (request_get E w c c (it c)) as [w1 a] eqn:RQ. apply request_get_plain in RQ; [|exact CO|exact AC| |intros n N; now apply (NW c)].
    2:{ rewrite (IT c (or_introl eq_refl)). unfold mine_n. cbn [filter fst]. rewrite bytes_eqb_refl. discriminate. }
    destruct RQ as (S1 & _ & rr & ws & -> & D).
    assert (NEXT : forall code got, get_batches E fuel w1 code got (rest_n c ((c, x) :: l)) = (w', r, vs) ->
      store w' = store w /\
      exists oks, length oks = length (firsts [] (map fst (filter (fun y => negb (bytes_eqb (fst y) c)) l))) /\ vs = got ++ flat_map (answers (store w) it) (combine (firsts [] (map fst (filter (fun y => negb (bytes_eqb (fst y) c)) l))) oks) /\
      (r = E_SUCCESS <-> last oks (code =? E_SUCCESS) = true) /\
      (forall c' ok, In (c', ok) (combine (firsts [] (map fst (filter (fun y => negb (bytes_eqb (fst y) c)) l))) oks) ->
       if ok then (forall n, In n (it c') -> readable E c' n = true) else gets_work E -> exists n, In n (it c') /\ readable E c' n = false)).
    { intros code2 got2 R2. unfold rest_n in R2. rewrite rest_head in R2. apply IH in R2.
      - rewrite S1 in R2. exact R2.
      - cbn [length] in LE. pose proof (filter_shorter (fun y : list Z * list Z => negb (bytes_eqb (fst y) c)) l). lia.
      - intros d D'. rewrite (map_fst_filter (fun d => negb (bytes_eqb d c))) in D'. apply filter_In in D' as [D' N]. apply negb_true_iff, bytes_eqb_neq in N.
        rewrite IT by (now right). rewrite <- (rest_head c x l). symmetry. exact (mine_rest_n c d ((c, x) :: l) N). }
    destruct D as [(-> & -> & RD)|(G & -> & RD)].
    + cbn [parse good E_SUCCESS Z.eqb orb] in R. apply NEXT in R as (A & oks & B & C & D & F). split; [exact A|]. exists (true :: oks). cbn [length combine flat_map answers fst snd]. split; [now rewrite B|]. split.
      { rewrite C, <- app_assoc. reflexivity. }
      split. { rewrite D, last_cons. reflexivity. }
      intros c' ok [Q|I]; [injection Q as <- <-; exact RD|now apply F].
    + unfold parse in R. rewrite G in R. apply NEXT in R as (A & oks & B & C & D & F). split; [exact A|]. exists (false :: oks). cbn [length combine flat_map answers fst snd]. split; [now rewrite B|]. split.
      { rewrite C, app_nil_r. reflexivity. }
      split. { rewrite D. apply code_of_bad, Z.eqb_neq in G. rewrite G, last_cons. reflexivity. }
      intros c' ok [Q|I]; [injection Q as <- <-; exact RD|now apply F].
Qed.
Lemma serve_get_log E c : forall l w got w' r vs, serve_get E w c got l = (w', r, vs) -> log w' = log w /\ store w' = store w.
Proof.
  induction l as [|n l IH]; intros w got w' r vs R; cbn [serve_get] in R; [injection R as <- <- <-; auto|].
  destruct (wild n); [destruct (walk E c n); injection R as <- <- <-; auto|]. destruct (elem E c n) as [k|]; [|injection R as <- <- <-; auto]. destruct (negb (k_get k)); [injection R as <- <- <-; auto|].
  unfold call_get in R. destruct (get_code E (gets w) =? E_SUCCESS); [|injection R as <- <- <-; auto]. apply IH in R. exact R.
Qed.
Lemma request_get_log E w c who l w' a : request_get E w c who l = (w', a) -> log w' = log w ++ [GetReq c who l] /\ store w' = store w /\ (fates E (sent w) = Arrives -> a <> None).
Proof.
  unfold request_get. destruct (fates E (sent w)); intros R.
  - destruct l as [|n l]; [injection R as <- <-; split; [reflexivity|split; [reflexivity|discriminate]]|]. destruct (serve_get E _ c [] (n :: l)) as [[w2 r] vs] eqn:S. injection R as <- <-. apply serve_get_log in S as [-> ->]. split; [reflexivity|split; [reflexivity|discriminate]].
  - injection R as <- <-. split; [reflexivity|split; [reflexivity|discriminate]].
  - injection R as <- <-. destruct (serve_get E _ c [] l) as [[w2 r] vs] eqn:S. apply serve_get_log in S as [Q1 Q2]. cbn [fst]. rewrite Q1, Q2. split; [reflexivity|split; [reflexivity|discriminate]].
Qed.
Lemma lost_bad E k : lost_code E k <> E_SUCCESS.
Proof. unfold lost_code. destruct (fates E k); discriminate. Qed.
Lemma get_batches_log E (it : list Z -> list (list Z)) : forall fuel l w code got w' r vs, (length l <= fuel)%nat -> (forall c, In c (map fst l) -> it c = mine_n c l) ->
  get_batches E fuel w code got l = (w', r, vs) ->
  store w' = store w /\
  exists k, (k <= length (firsts [] (map fst l)))%nat /\ log w' = log w ++ map (fun c => GetReq c c (it c)) (firstn k (firsts [] (map fst l))) /\
   (connected E \/ r = E_SUCCESS -> k = length (firsts [] (map fst l))).
Proof.
  induction fuel as [|fuel IH]; intros l w code got w' r vs LE IT R.
  - destruct l; [|cbn in LE; lia]. cbn in R. injection R as <- <- <-. split; [reflexivity|]. exists 0%nat. cbn. rewrite app_nil_r. auto.
  - destruct l as [|[c x] l]; [cbn in R; injection R as <- <- <-; split; [reflexivity|]; exists 0%nat; cbn; rewrite app_nil_r; auto|].
    rewrite firsts_rest. cbn [get_batches] in R. rewrite <- (IT c (or_introl eq_refl)) in R.
    destruct (request_get E w c c (it c)) as [w1 a] eqn:RQ. apply request_get_log in RQ as (L1 & S1 & A1). destruct a as [[rr ws]|].
    + destruct (parse rr ws) as [code2 vs2]. unfold rest_n in R. rewrite rest_head in R. apply IH in R.
      * destruct R as (S2 & k & KL & L & K). split; [congruence|]. exists (S k). cbn [length firstn map]. split; [lia|]. split; [rewrite L, L1, <- app_assoc; reflexivity|]. intros H. f_equal. auto.
      * cbn [length] in LE. pose proof (filter_shorter (fun y : list Z * list Z => negb (bytes_eqb (fst y) c)) l). lia.
      * intros d D'. rewrite (map_fst_filter (fun d => negb (bytes_eqb d c))) in D'. apply filter_In in D' as [D' N]. apply negb_true_iff, bytes_eqb_neq in N.
        rewrite IT by (now right). rewrite <- (rest_head c x l). symmetry. exact (mine_rest_n c d ((c, x) :: l) N).
    + injection R as <- <- <-. split; [exact S1|]. exists 1%nat. cbn [length firstn map]. split; [lia|]. split; [exact L1|]. intros [H|H]; [now elim A1; [apply H|]|now apply lost_bad in H].
Qed.

(** ** one query with a wildcard *)
Lemma request_get_wild E w d who n w' a : wild n = true -> request_get E w d who [n] = (w', a) ->
  (a = None /\ fates E (sent w) <> Arrives) \/ (a = Some (fst (walk E d n), found E n d)).
Proof.
  intros W R. unfold request_get in R. destruct (fates E (sent w)); [|left; injection R as _ <-; split; [reflexivity|discriminate]|left; injection R as _ <-; split; [reflexivity|discriminate]].
  right. cbn [serve_get] in R. rewrite W in R. unfold found. destruct (walk E d n) as [r vs]. injection R as _ <-. reflexivity.
Qed.
Lemma wild_loop_good E n : wild n = true -> forall ds w l0 count, exists w' code k,
  wild_loop E w n false (Some (true, l0)) (Some (true, l0)) count E_SUCCESS ds =
    Ok (w', code, Some (true, l0 ++ flat_map (found E n) (firstn k ds)), count + Z.of_nat (length (flat_map (found E n) (firstn k ds)))) /\
  (k <= length ds)%nat /\ (connected E -> (forall d, In d ds -> fst (walk E d n) = E_SUCCESS) -> k = length ds).
Proof.
  intros W. induction ds as [|d ds IH]; intros w l0 count.
  - exists w, E_SUCCESS, 0%nat. cbn. rewrite app_nil_r, Z.add_0_r. auto.
  - cbn [wild_loop]. destruct (request_get E w d (me E) [n]) as [w1 a] eqn:RQ. apply request_get_wild in RQ; [|exact W]. destruct RQ as [[-> NA] | -> ].
    + exists w1, (lost_code E (sent w)), 0%nat. cbn [firstn flat_map length Z.of_nat]. rewrite app_nil_r, Z.add_0_r. split; [reflexivity|]. split; [lia|]. intros CO _. now elim NA.
    + unfold parse. destruct (good (fst (walk E d n))) eqn:G.
      * cbn [E_SUCCESS Z.eqb negb]. destruct (found E n d) as [|v vs] eqn:F.
        -- edestruct (IH w1 l0) as (w' & code & k & Q & KL & K). rewrite Q. exists w', code, (S k). cbn [firstn flat_map]. rewrite F. cbn [app length Z.of_nat]. rewrite Z.add_0_r. split; [reflexivity|]. split; [lia|]. intros CO H. f_equal. apply K; [exact CO|]. intros e I. apply H. now right.
        -- edestruct (IH w1 (l0 ++ v :: vs)) as (w' & code & k & Q & KL & K). rewrite Q. exists w', code, (S k). cbn [firstn flat_map]. rewrite F. rewrite <- app_assoc. split; [|split; [cbn [length]; lia|]].
           ++ rewrite app_length. do 2 f_equal. lia.
           ++ intros CO H. cbn [length]. f_equal. apply K; [exact CO|]. intros e I. apply H. now right.
      * pose proof (code_of_bad _ G) as B. apply Z.eqb_neq in B. rewrite B. cbn [negb]. exists w1, (code_of (fst (walk E d n))), 0%nat. cbn [firstn flat_map length Z.of_nat]. rewrite app_nil_r, Z.add_0_r. split; [reflexivity|]. split; [lia|].
        intros _ H. rewrite (H d (or_introl eq_refl)) in G. discriminate.
Qed.
