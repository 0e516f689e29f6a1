(** Lemmas about set and get requests over several parameters. *)
From Verif Require Import Common CommonFacts Errors TransModel TransSpec.
Local Open Scope list_scope.
Local Open Scope Z_scope.

(** ** the value that setting leaves *)
Lemma final_notin l n v : ~ In n (map fst l) -> final l n v = v.
Proof.
  revert v. induction l as [|[m x] l IH]; intros v H; [reflexivity|]. cbn [final map fst In] in *. rewrite IH by tauto.
  destruct (bytes_eqb n m) eqn:B; [apply bytes_eqb_eq in B; subst; tauto|reflexivity].
Qed.
Lemma final_const l n v y : (forall x, In (n, x) l -> x = y) -> In n (map fst l) -> final l n v = y.
Proof.
  revert v. induction l as [|[m x] l IH]; intros v A H; [now destruct H|]. cbn [final map fst In] in *.
  destruct (in_dec (list_eq_dec Z.eq_dec) n (map fst l)) as [I|I].
  - apply IH; auto.
  - destruct H as [->|H]; [|contradiction]. rewrite final_notin by exact I. rewrite bytes_eqb_refl. auto.
Qed.
Lemma final_olds st l n v : final (olds st l) n v = if existsb (bytes_eqb n) (map fst l) then st n else v.
Proof.
  assert (M : map fst (olds st l) = map fst l) by (unfold olds; rewrite map_map; reflexivity).
  destruct (existsb (bytes_eqb n) (map fst l)) eqn:X.
  - apply existsb_exists in X as (m & I & B). apply bytes_eqb_eq in B. subst m. apply final_const; [|now rewrite M].
    intros x. unfold olds. rewrite in_map_iff. intros ([a b] & Q & _). now injection Q as <- <-.
  - apply final_notin. rewrite M. intros I. enough (existsb (bytes_eqb n) (map fst l) = true) by congruence. apply existsb_exists. exists n. now rewrite bytes_eqb_refl.
Qed.
Lemma final_back st l n : final (olds st l) n (final l n (st n)) = st n.
Proof.
  rewrite final_olds. destruct (existsb (bytes_eqb n) (map fst l)) eqn:X; [reflexivity|]. apply final_notin. intros I.
  enough (existsb (bytes_eqb n) (map fst l) = true) by congruence. apply existsb_exists. exists n. now rewrite bytes_eqb_refl.
Qed.
Lemma final_filter (f : item -> bool) l n v : (forall x, In (n, x) l -> f (n, x) = true) -> final (filter f l) n v = final l n v.
Proof.
  revert v. induction l as [|[m x] l IH]; intros v A; [reflexivity|]. cbn [filter final]. destruct (f (m, x)) eqn:F.
  - cbn [final]. apply IH. intros y I. apply A. now right.
  - destruct (bytes_eqb n m) eqn:B; [|apply IH; intros y I; apply A; now right].
    apply bytes_eqb_eq in B. subst m. rewrite A in F by now left. discriminate.
Qed.

(** ** one set handler *)
Lemma call_set_ok E w c who n v commit : set_code E (sets w) = E_SUCCESS ->
  call_set E w c who n v commit = (mkWorld (put (store w) c n v) (S (sets w)) (gets w) (sent w) (log w ++ [SetCall c who n v commit E_SUCCESS]), E_SUCCESS).
Proof. unfold call_set. now intros ->. Qed.
Lemma call_set_no E w c who n v commit : set_code E (sets w) <> E_SUCCESS ->
  call_set E w c who n v commit = (mkWorld (store w) (S (sets w)) (gets w) (sent w) (log w ++ [SetCall c who n v commit (set_code E (sets w))]), set_code E (sets w)).
Proof. unfold call_set. intros H. apply Z.eqb_neq in H. now rewrite H. Qed.
Lemma put_here st c n v : put st c n v c n = v.
Proof. unfold put. now rewrite !bytes_eqb_refl. Qed.
Lemma put_other st c n v m : m <> n -> put st c n v c m = st c m.
Proof. intros H. unfold put. apply bytes_eqb_neq in H. now rewrite H, andb_false_r. Qed.
Lemma put_comp st c n v d m : d <> c -> put st c n v d m = st d m.
Proof. intros H. unfold put. apply bytes_eqb_neq in H. now rewrite H. Qed.

(** ** the provider's loop *)
(** what was asked before the set handler, and the property that is kept *)
Definition look (E : env) (w : world) (c : list Z) (roll : bool) (n : list Z) : world * list item :=
  match elem E c n with
  | Some k => if roll && k_get k then let '(w1, _, v0) := call_get E w c n in (w1, [(n, v0)]) else (w, [])
  | None => (w, [])
  end.
Lemma look_same E w c roll n : store (fst (look E w c roll n)) = store w /\ sets (fst (look E w c roll n)) = sets w /\ sent (fst (look E w c roll n)) = sent w /\ log (fst (look E w c roll n)) = log w.
Proof. unfold look. destruct (elem E c n) as [k|]; [|auto]. destruct (roll && k_get k); cbn; auto. Qed.
Lemma look_off E w c n : look E w c false n = (w, []).
Proof. unfold look. now destruct (elem E c n). Qed.
Lemma look_on E w c n : readable E c n = true -> get_code E (gets w) = E_SUCCESS -> snd (look E w c true n) = [(n, store w c n)].
Proof. unfold look, readable. destruct (elem E c n) as [k|]; [|discriminate]. intros ->. cbn. intros ->. reflexivity. Qed.

Lemma serve_step E w c who roll commit old n v l :
  serve_loop E w c who roll commit old ((n, v) :: l) =
  match elem E c n with
  | None => (w, Failed E_ELEMENT_DOES_NOT_EXIST n)
  | Some k =>
      if negb (k_set k) then (w, Failed E_NOT_WRITABLE n) else
      let w1 := fst (look E w c roll n) in
      let last := commit && match l with [] => true | _ => false end in
      let '(w2, r) := call_set E w1 c who n v last in
      if r =? E_SUCCESS then serve_loop E w2 c who roll commit (old ++ snd (look E w c roll n)) l
      else (if roll then restore E w2 c who last old else w2, Failed r n)
  end.
Proof. cbn [serve_loop]. unfold look. destruct (elem E c n) as [k|]; [|reflexivity]. destruct (negb (k_set k)); [reflexivity|]. destruct (roll && k_get k); reflexivity. Qed.

Lemma serve_done E c who roll commit : forall l w old w' o, serve_loop E w c who roll commit old l = (w', Done o) ->
  (forall x, In x l -> writable E c (fst x) = true) /\
  (forall d m, store w' d m = if bytes_eqb d c then final l m (store w d m) else store w d m) /\
  log w' = log w ++ calls c who commit l /\ sets w' = (sets w + length l)%nat /\ sent w' = sent w /\
  (forall i, (sets w <= i < sets w + length l)%nat -> set_code E i = E_SUCCESS) /\
  (roll = false -> o = old) /\
  (roll = true -> gets_work E -> NoDup (map fst l) -> (forall x, In x l -> readable E c (fst x) = true) -> o = old ++ olds (store w c) l).
Proof.
  induction l as [|[n v] l IH]; intros w old w' o R.
  - cbn in R. injection R as <- <-. cbn [map length calls olds final]. rewrite !app_nil_r, Nat.add_0_r. split; [intros x []|]. split; [intros d m; now destruct (bytes_eqb d c)|].
    split; [reflexivity|]. split; [reflexivity|]. split; [reflexivity|]. split; [intros i; lia|]. auto.
  - rewrite serve_step in R. destruct (elem E c n) as [k|] eqn:K; [|discriminate]. destruct (k_set k) eqn:KS; [|discriminate]. cbn [negb] in R.
    destruct (look_same E w c roll n) as (L1 & L2 & L3 & L4). cbv zeta in R.
    destruct (Z.eq_dec (set_code E (sets (fst (look E w c roll n)))) E_SUCCESS) as [Q|Q].
    2:{ rewrite call_set_no in R by exact Q. apply Z.eqb_neq in Q. rewrite Q in R. discriminate. }
    rewrite call_set_ok in R by exact Q. cbn [Z.eqb E_SUCCESS] in R. apply IH in R as (A & B & C & D & F & G & H & I). cbn [store sets sent log] in *. rewrite L1 in B. rewrite L2 in D, G, Q. rewrite L3 in F. rewrite L4 in C.
    split.
    { intros x [<-|X]; [|auto]. unfold writable. cbn [fst]. now rewrite K. }
    split.
    { intros d m. rewrite B. cbn [final]. destruct (bytes_eqb d c) eqn:Bd.
      - apply bytes_eqb_eq in Bd. subst d. f_equal. unfold put. rewrite bytes_eqb_refl. reflexivity.
      - unfold put. now rewrite Bd. }
    split. { rewrite C. cbn [calls]. rewrite <- app_assoc. reflexivity. }
    split. { rewrite D. cbn [length]. lia. }
    split; [exact F|].
    split. { intros i Hi. cbn [length] in Hi. destruct (Nat.eq_dec i (sets w)) as [->|N]; [exact Q|]. apply G. lia. }
    split. { intros ->. rewrite H by reflexivity. now rewrite look_off, app_nil_r. }
    intros -> GW ND RD. inversion ND as [|? ? NI ND']; subst. rewrite (I eq_refl GW ND') by (intros x X; apply RD; now right).
    rewrite look_on by (try apply GW; apply (RD (n, v)); now left). rewrite <- app_assoc. cbn [app olds map fst]. do 2 f_equal.
    unfold olds. apply map_ext_in. intros x X. f_equal. rewrite L1. apply put_other. intros Q2. apply NI. rewrite <- Q2. now apply in_map.
Qed.

(** an item that is refused: those before it were accepted *)
Lemma serve_failed E c who roll commit : forall l w old w' r n, serve_loop E w c who roll commit old l = (w', Failed r n) ->
  exists pre v post wp o, l = pre ++ (n, v) :: post /\ serve_loop E w c who roll false old pre = (wp, Done o) /\
   ((elem E c n = None /\ r = E_ELEMENT_DOES_NOT_EXIST /\ w' = wp) \/
    ((exists k, elem E c n = Some k /\ k_set k = false) /\ r = E_NOT_WRITABLE /\ w' = wp) \/
    (writable E c n = true /\ r <> E_SUCCESS /\ exists last wk, last = (commit && match post with [] => true | _ => false end) /\
      call_set E (fst (look E wp c roll n)) c who n v last = (wk, r) /\ w' = if roll then restore E wk c who last o else wk)).
Proof.
  induction l as [|[n v] l IH]; intros w old w' r m R; [discriminate|].
  rewrite serve_step in R. destruct (elem E c n) as [k|] eqn:K.
  2:{ injection R as <- <- <-. exists [], v, l, w, old. split; [reflexivity|]. split; [reflexivity|]. left. auto. }
  destruct (k_set k) eqn:KS; cbn [negb] in R.
  2:{ injection R as <- <- <-. exists [], v, l, w, old. split; [reflexivity|]. split; [reflexivity|]. right. left. split; [now exists k|auto]. }
  cbv zeta in R. destruct (call_set E (fst (look E w c roll n)) c who n v (commit && match l with [] => true | _ => false end)) as [w2 r2] eqn:CS.
  destruct (Z.eqb_spec r2 E_SUCCESS) as [Q|Q].
  - apply IH in R as (pre & v' & post & wp & o & EQ & SL & CA). exists ((n, v) :: pre), v', post, wp, o. split; [now rewrite EQ|]. split; [|exact CA].
    rewrite serve_step, K, KS. cbn [negb andb]. cbv zeta.
    assert (NB : l <> []) by (rewrite EQ; destruct pre; discriminate).
    replace (commit && match l with [] => true | _ => false end) with false in CS by (destruct l; [contradiction|now rewrite andb_false_r]).
    rewrite CS. rewrite Q. cbn [Z.eqb E_SUCCESS]. exact SL.
  - injection R as <- <- <-. exists [], v, l, w, old. split; [reflexivity|]. split; [reflexivity|]. right. right. unfold writable. rewrite K. split; [exact KS|]. split; [exact Q|].
    eexists _, _. split; [reflexivity|]. split; [exact CS|reflexivity].
Qed.

Lemma serve_accepts E c who roll commit : forall l w old, (forall x, In x l -> writable E c (fst x) = true) ->
  (forall i, (sets w <= i)%nat -> set_code E i = E_SUCCESS) -> exists w' o, serve_loop E w c who roll commit old l = (w', Done o).
Proof.
  induction l as [|[n v] l IH]; intros w old A B; [eexists _, _; reflexivity|]. rewrite serve_step. pose proof (A (n, v) (or_introl eq_refl)) as W. unfold writable in W. cbn [fst] in W.
  destruct (elem E c n) as [k|]; [|discriminate]. rewrite W. cbn [negb]. cbv zeta. destruct (look_same E w c roll n) as (L1 & L2 & L3 & L4).
  rewrite call_set_ok by (apply B; rewrite L2; lia). cbn [Z.eqb E_SUCCESS]. apply IH; [intros x X; apply A; now right|]. cbn [sets]. intros i Hi. apply B. lia.
Qed.

Lemma restore_ok E c who commit : forall l w, (forall i, (sets w <= i)%nat -> set_code E i = E_SUCCESS) ->
  (forall d m, store (restore E w c who commit l) d m = if bytes_eqb d c then final l m (store w d m) else store w d m) /\
  sets (restore E w c who commit l) = (sets w + length l)%nat.
Proof.
  induction l as [|[n v] l IH]; intros w A.
  - split; [intros d m; now destruct (bytes_eqb d c)|cbn; lia].
  - cbn [restore]. rewrite call_set_ok by (apply A; lia). cbn [fst]. edestruct IH as [B C].
    2:{ split; [|rewrite C; cbn [sets length]; lia]. intros d m. rewrite B. cbn [store final]. destruct (bytes_eqb d c) eqn:Bd.
        - apply bytes_eqb_eq in Bd. subst d. f_equal. unfold put. now rewrite bytes_eqb_refl.
        - unfold put. now rewrite Bd. }
    cbn [sets]. intros i Hi. apply A. lia.
Qed.
(** restoring touches nothing else, whatever the handlers answer *)
Lemma restore_frame E c who commit : forall l w d m, d <> c \/ ~ In m (map fst l) -> store (restore E w c who commit l) d m = store w d m.
Proof.
  induction l as [|[n v] l IH]; intros w d m H; [reflexivity|]. cbn [restore map fst In] in *. rewrite IH by tauto. unfold call_set. cbn [fst store].
  destruct (set_code E (sets w) =? E_SUCCESS); [|reflexivity]. destruct H as [H|H]; [now apply put_comp|].
  unfold put. destruct (bytes_eqb d c && bytes_eqb m n) eqn:B; [|reflexivity]. apply andb_true_iff in B as [_ B]. apply bytes_eqb_eq in B. subst. tauto.
Qed.
Definition other_than_req (e : event) : bool := match e with SetCall _ _ _ _ _ _ => true | _ => false end.
(** a provider only calls handlers, in the name of the component it was asked by *)
Definition calls_of (c who : list Z) (e : event) : bool := match e with SetCall d x _ _ _ _ => bytes_eqb d c && bytes_eqb x who | _ => false end.
Lemma restore_log E c who commit : forall l w, exists es, log (restore E w c who commit l) = log w ++ es /\ forallb (calls_of c who) es = true /\
  sent (restore E w c who commit l) = sent w /\ (sets w <= sets (restore E w c who commit l))%nat /\ gets (restore E w c who commit l) = gets w.
Proof.
  induction l as [|[n v] l IH]; intros w; [exists []; cbn; rewrite app_nil_r; auto|]. cbn [restore]. edestruct IH as (es & A & B & C & D & F). rewrite A.
  exists (SetCall c who n v commit (set_code E (sets w)) :: es). unfold call_set in *. cbn [fst log sent sets gets] in *. rewrite <- app_assoc. split; [reflexivity|]. split; [|split; [exact C|split; [lia|exact F]]].
  cbn [forallb calls_of]. now rewrite !bytes_eqb_refl, B.
Qed.
Lemma serve_log E c who roll commit : forall l w old w' r, serve_loop E w c who roll commit old l = (w', r) ->
  exists es, log w' = log w ++ es /\ forallb (calls_of c who) es = true /\ sent w' = sent w /\ (sets w <= sets w')%nat.
Proof.
  induction l as [|[n v] l IH]; intros w old w' r R.
  - cbn in R. injection R as <- <-. exists []. rewrite app_nil_r. auto.
  - rewrite serve_step in R. destruct (elem E c n) as [k|]; [|injection R as <- <-; exists []; rewrite app_nil_r; auto].
    destruct (negb (k_set k)); [injection R as <- <-; exists []; rewrite app_nil_r; auto|]. cbv zeta in R. destruct (look_same E w c roll n) as (L1 & L2 & L3 & L4).
    unfold call_set in R. rewrite L2 in R. destruct (set_code E (sets w) =? E_SUCCESS).
    + apply IH in R as (es & A & B & C & D). cbn [log sent sets] in *. rewrite L4 in A. rewrite L3 in C. eexists (_ :: es). rewrite A, <- app_assoc. split; [reflexivity|]. split; [|split; [exact C|lia]].
      cbn [forallb calls_of]. now rewrite !bytes_eqb_refl, B.
    + injection R as <- _. destruct roll.
      * match goal with |- context [restore E ?w2 c who ?cm ?ol] => pose proof (restore_log E c who cm ol w2) as Q; set (W := restore E w2 c who cm ol) in *; clearbody W; destruct Q as (es & A & B & C & D & F) end.
        cbn [log sent sets] in *. eexists (_ :: es). rewrite A, L4, <- app_assoc. split; [reflexivity|]. split; [|split; [rewrite C; exact L3|lia]].
        cbn [forallb calls_of]. now rewrite !bytes_eqb_refl, B.
      * cbn [log sent sets]. rewrite L4, L3. eexists [_]. split; [reflexivity|]. split; [|split; [reflexivity|lia]]. cbn [forallb calls_of]. now rewrite !bytes_eqb_refl.
Qed.
Lemma final_app a b n v : final (a ++ b) n v = final b n (final a n v).
Proof. revert v. induction a as [|[m x] a IH]; intros v; [reflexivity|]. cbn. apply IH. Qed.

(** a refused request whose values can all be read and put back leaves nothing *)
Lemma serve_undone E w c who commit l w' r n : NoDup (map fst l) -> (forall x, In x l -> writable E c (fst x) = true) ->
  (forall pre v post, l = pre ++ (n, v) :: post -> forall x, In x pre -> readable E c (fst x) = true) -> gets_work E -> one_refusal E (sets w) ->
  serve_loop E w c who true commit [] l = (w', Failed r n) ->
  (forall d m, store w' d m = store w d m) /\ exists i, (sets w <= i < sets w')%nat /\ set_code E i <> E_SUCCESS /\ r = set_code E i.
Proof.
  intros ND WR RD GW OR R. destruct (serve_failed _ _ _ _ _ _ _ _ _ _ _ R) as (pre & v & post & wp & o & EQ & SL & CA).
  apply serve_done in SL as (S1 & S2 & S3 & S4 & S5 & S6 & S7 & S8).
  assert (IN : writable E c n = true) by (apply (WR (n, v)); rewrite EQ; apply in_app_iff; right; now left).
  unfold writable in IN. destruct CA as [(Q & _)|[((k & Q & Q') & _)|(W & NR & last & wk & EL & CS & ->)]]; [rewrite Q in IN; discriminate|rewrite Q, Q' in IN; discriminate|].
  destruct (look_same E wp c true n) as (L1 & L2 & L3 & L4).
  assert (SC : set_code E (sets wp) = r /\ wk = mkWorld (store wp) (S (sets wp)) (gets (fst (look E wp c true n))) (sent wp) (log wp ++ [SetCall c who n v last r])).
  { unfold call_set in CS. rewrite L1, L2, L3, L4 in CS. injection CS as Q <-. rewrite <- Q. split; [reflexivity|]. destruct (Z.eqb_spec (set_code E (sets wp)) E_SUCCESS); [contradict NR; assumption|reflexivity]. }
  destruct SC as [SC ->].
  assert (LATER : forall i, (S (sets wp) <= i)%nat -> set_code E i = E_SUCCESS).
  { intros i Hi. apply (OR (sets wp) i); [lia|lia|]. rewrite SC. exact NR. }
  destruct (restore_ok E c who last o (mkWorld (store wp) (S (sets wp)) (gets (fst (look E wp c true n))) (sent wp) (log wp ++ [SetCall c who n v last r])) LATER) as [RS RN].
  split.
  - intros d m. rewrite RS. cbn [store]. rewrite S2. destruct (bytes_eqb d c) eqn:B; [|reflexivity]. apply bytes_eqb_eq in B. subst d.
    rewrite S8; [|reflexivity|exact GW| |].
    + cbn [app]. rewrite final_back. reflexivity.
    + rewrite EQ, map_app in ND. now apply nodup_app_l in ND.
    + now apply (RD pre v post).
  - exists (sets wp). rewrite RN. cbn [sets]. rewrite S4. split; [lia|]. split; [rewrite <- S4, SC; exact NR|]. rewrite <- S4. now symmetry.
Qed.
