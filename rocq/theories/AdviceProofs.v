(** Proofs about the notices. *)
From Coq Require Import String.
From Verif Require Import Common CommonFacts RouteModel RouteSpec RouteProofs RouteInv RouteRun RouteLook RouterModel RouterSpec RouterProofs RouterProps JsonModel AdviceModel AdviceSpec.
From Coq Require Import Lia.
Local Open Scope string_scope.
Local Open Scope list_scope.
Local Open Scope Z_scope.

Lemma put_same : forall {A} (f : Z -> A) k x, put f k x k = x.
Proof. intros. unfold put. rewrite Z.eqb_refl. reflexivity. Qed.
Lemma put_other : forall {A} (f : Z -> A) k x y, y <> k -> put f k x y = f y.
Proof. intros A f k x y N. unfold put. destruct (Z.eqb_spec y k); [contradiction|reflexivity]. Qed.

(** ** names *)
Lemma clash_loose : forall a p, clash a p = false -> loose a p = false.
Proof. induction a as [|x a IH]; intros [|y p] H; cbn in *; try reflexivity. destruct (bytes_eqb x y); [auto|exact H]. Qed.
Lemma clash_vague : forall a p, clash a p = false -> vague a p = false.
Proof.
  induction a as [|x a IH]; intros [|y p] H; cbn in *; try reflexivity. destruct (bytes_eqb x y); cbn [orb]; [auto|].
  apply orb_false_elim in H as [-> ->]. reflexivity.
Qed.
Lemma adv_serves : serves (split ADVISORY) (split ADVISORY) = true.
Proof. vm_compute. reflexivity. Qed.
Lemma adv_below : below (split ADVISORY) (split ADVISORY) = true.
Proof. vm_compute. reflexivity. Qed.
Lemma adv_printable : printable ADVISORY RTMSG_MAX_EXPRESSION_LEN = true.
Proof. vm_compute. reflexivity. Qed.
Lemma adv_good : good_name ADVISORY.
Proof. split; [apply Nat.leb_le; vm_compute; reflexivity|vm_compute; reflexivity]. Qed.
Lemma adv_get : forall A b v, tidyP A -> A (split ADVISORY) -> rel A b v -> exists ds, get (tree_of b) ADVISORY = Ok ds /\ map (own (entries b)) ds = owners v (split ADVISORY) /\
  (forall d, In d ds -> In d (map e_id (entries b))) /\ NoDup (map e_id (entries b)).
Proof.
  intros A b v TA AA (m & C & NM & SB & _). destruct C as [I W MA N O FS K]. exists (lookup m (split ADVISORY)). split; [|split; [|split]].
  - apply (get_lookup A); auto; [split; apply Nat.leb_le; vm_compute; reflexivity|vm_compute; discriminate|]. intros a Ha. apply clash_vague, TA; assumption.
  - symmetry. apply owners_shown. exact NM.
  - intros d H. apply in_map_iff in H as ((u, d') & Hd & H). cbn in Hd. subst d'. apply filter_In in H as [H _]. eauto.
  - exact N.
Qed.
Definition others (c : Z) (W : list Z) : list Z := filter (fun x => negb (x =? c)) W.
Definition pairs (W : list Z) : list (Z * Z) := map (fun c => (c, 2)) W.
Lemma send_all : forall es skip ds W, (forall d, In d ds -> In d (map e_id es)) -> NoDup (map e_id es) -> map (own es) ds = map (fun c => Some (c, 2)) W ->
  send_routes es skip ds = Ok (pairs (others skip W)).
Proof.
  intros es skip. induction ds as [|d ds IH]; intros [|c W] K N E; try discriminate; [reflexivity|]. cbn [map] in E. injection E as E1 E2.
  destruct (entry_of es d (K d ltac:(left; reflexivity))) as (r & Hr & <-). rewrite (own_in _ _ N Hr) in E1. cbn [send_routes]. rewrite (find_entry _ _ N Hr), E1.
  rewrite (IH W); [|intros; apply K; right; assumption|exact N|exact E2]. cbn [obind]. unfold others. cbn [filter]. destruct (c =? skip); reflexivity.
Qed.
Lemma others_in : forall c W x, In x (others c W) <-> In x W /\ x <> c.
Proof. intros. unfold others. rewrite filter_In. destruct (Z.eqb_spec x c); cbn; intuition congruence. Qed.
Lemma others_nodup : forall c W, NoDup W -> NoDup (others c W).
Proof. intros. apply NoDup_filter. assumption. Qed.

(** ** notices reach who listens *)
Lemma on_connect : forall x i, on_notice x (notice ADVISE_CONNECT i) = x.
Proof. intros x i. unfold on_notice. destruct (callback x); reflexivity. Qed.
Lemma on_disconnect : forall x i, callback x = true -> on_notice x (notice ADVISE_DISCONNECT i) = mkProg (conn x) (inbox x) (listens x) (installed x) (callback x) (count x) (direct x) (told x ++ [i]).
Proof. intros x i H. unfold on_notice. rewrite H. reflexivity. Qed.
Definition hears (W : list Z) (x : prog) : bool := match conn x with Some c => existsb (Z.eqb c) W | None => false end.
Lemma hears_in : forall W x c, conn x = Some c -> (hears W x = true <-> In c W).
Proof.
  intros W x c E. unfold hears. rewrite E, existsb_exists. split; [intros (y & Hy & Q); apply Z.eqb_eq in Q; subst; assumption|intros H; exists c; split; [exact H|apply Z.eqb_refl]].
Qed.
Lemma on_same : forall x m, conn (on_notice x m) = conn x /\ listens (on_notice x m) = listens x.
Proof.
  intros x m. unfold on_notice. destruct (negb (callback x)); [auto|]. destruct (get_int32 m _); auto. destruct (_ =? _); auto. destruct (get_string m _) as [[l|]| |]; auto.
Qed.
Lemma on_inbox : forall x m, inbox (on_notice x m) = inbox x.
Proof.
  intros x m. unfold on_notice. destruct (negb (callback x)); [auto|]. destruct (get_int32 m _); auto. destruct (_ =? _); auto. destruct (get_string m _) as [[l|]| |]; auto.
Qed.
Lemma hear_all : forall m W w, NoDup W -> (forall c, In c W -> conn (progs w (who w c)) = Some c /\ listens (progs w (who w c)) = true) -> (forall p c, conn (progs w p) = Some c -> who w c = p) ->
  let w' := fold_left (hear m) (pairs W) w in
  brk w' = brk w /\ box w' = box w /\ who w' = who w /\ next w' = next w /\ forall q, progs w' q = if hears W (progs w q) then on_notice (progs w q) m else progs w q.
Proof.
  intros m. induction W as [|c W IH]; intros w N L U; cbn [pairs map fold_left].
  - repeat (split; [reflexivity|]). intros q. unfold hears. destruct (conn (progs w q)); reflexivity.
  - inversion N as [|? ? NI NW]; subst. destruct (L c ltac:(left; reflexivity)) as [LC LL].
    assert (E : hear m w (c, 2) = with_prog w (who w c) (on_notice (progs w (who w c)) m)) by (unfold hear; rewrite LC, Z.eqb_refl, LL; reflexivity).
    rewrite E. set (x := who w c) in *.
    assert (PX : forall p, conn (progs (with_prog w x (on_notice (progs w x) m)) p) = conn (progs w p) /\ listens (progs (with_prog w x (on_notice (progs w x) m)) p) = listens (progs w p)).
    { intros p. cbn [with_prog progs]. unfold put. destruct (Z.eqb_spec p x) as [->|]; [apply on_same|auto]. }
    destruct (IH (with_prog w x (on_notice (progs w x) m))) as (H1 & H2 & H3 & H4 & H5).
    + exact NW.
    + intros d Hd. destruct (PX (who w d)) as [P1 P2]. cbn [with_prog who] in *. rewrite P1, P2. apply L. right. exact Hd.
    + intros p d Hd. rewrite (proj1 (PX p)) in Hd. apply U. exact Hd.
    + fold (pairs W). rewrite H1, H2, H3, H4. repeat (split; [reflexivity|]). intros q. rewrite H5.
      assert (HQ : hears W (progs (with_prog w x (on_notice (progs w x) m)) q) = hears W (progs w q)) by (unfold hears; rewrite (proj1 (PX q)); reflexivity).
      rewrite HQ. cbn [with_prog progs]. unfold put. destruct (Z.eqb_spec q x) as [->|NQ].
      * unfold hears. rewrite LC. cbn [existsb]. rewrite Z.eqb_refl. cbn [orb].
        destruct (existsb (Z.eqb c) W) eqn:EX; [|reflexivity]. apply existsb_exists in EX as (y & Hy & Q). apply Z.eqb_eq in Q. subst y. contradiction.
      * unfold hears. destruct (conn (progs w q)) as [c'|] eqn:EC; [|reflexivity]. cbn [existsb]. destruct (Z.eqb_spec c' c) as [->|]; [|reflexivity].
        exfalso. apply NQ. symmetry. apply U. exact EC.
Qed.

(** ** the invariant *)
Record knows (A : names) (v : view) (W : list Z) (nx : Z) : Prop := {
  n_own : owners v (split ADVISORY) = map (fun c => Some (c, 2)) W;
  n_names : forall u o, In (u, o) (names_of v) -> serves (split ADVISORY) u = true -> u = split ADVISORY;
  n_nodup : NoDup W;
  n_subs : forall c id e, In ((c, id), e) (subs_of v) -> c < nx /\ (id = 2 -> e = ADVISORY /\ In c W) /\ (e = ADVISORY -> id = 2);
  n_find : forall c, In c W -> In ((c, 2), ADVISORY) (subs_of v) }.

Lemma knows_sub : forall A v W nx c e id rc, knows A v W nx -> c < nx -> id <> 2 -> serves (split ADVISORY) (split e) = false -> knows A (record v (Sub c e id, rc)) W nx.
Proof.
  intros A v W nx c e id rc [O NM ND SU FI] L NI NS. destruct rc; [|constructor; assumption|constructor; assumption]. cbn [record].
  assert (NE : e <> ADVISORY) by (intros ->; rewrite adv_serves in NS; discriminate).
  constructor; cbn [names_of subs_of]; auto.
  - rewrite <- O. unfold owners. cbn [names_of]. destruct (split e) as [|t ts] eqn:E; [reflexivity|]. rewrite <- E in *. rewrite filter_app. cbn [filter fst]. rewrite NS, app_nil_r. reflexivity.
  - intros u o H S. destruct (split e) as [|t ts] eqn:E; [eauto|]. rewrite <- E in *. apply in_app_iff in H as [H|[H|[]]]; [eauto|]. injection H as <- <-. congruence.
  - intros c' id' e' H. destruct (existsb _ (subs_of v)); [auto|]. apply in_app_iff in H as [H|[H|[]]]; [auto|]. injection H as <- <- <-. split; [exact L|]. split; intros; [lia|contradiction].
  - intros c' H. destruct (existsb _ (subs_of v)); [auto|]. apply in_app_iff. left. auto.
Qed.
Lemma knows_adv : forall A v W nx c, knows A v W nx -> c < nx -> ~ In c W -> knows A (record v (Sub c ADVISORY 2, 0)) (W ++ [c]) nx.
Proof.
  intros A v W nx c [O NM ND SU FI] L NI. cbn [record].
  assert (EX : existsb (fun s => (fst (fst s) =? c) && (snd (fst s) =? 2)) (subs_of v) = false).
  { apply not_true_is_false. intros H. apply existsb_exists in H as (((x, y), t) & Hs & Q). cbn in Q. apply andb_prop in Q as [Q1 Q2]. apply Z.eqb_eq in Q1, Q2. subst. apply NI. apply (SU _ _ _ Hs). reflexivity. }
  rewrite EX.
  assert (EN : match split ADVISORY with [] => names_of v | p => names_of v ++ [(p, Some (c, 2))] end = names_of v ++ [(split ADVISORY, Some (c, 2))]) by (destruct (split ADVISORY) eqn:E; [vm_compute in E; discriminate|reflexivity]).
  rewrite EN. constructor; cbn [names_of subs_of].
  - unfold owners. cbn [names_of]. rewrite filter_app. cbn [filter fst]. rewrite adv_serves. rewrite !map_app. cbn [map snd]. f_equal. exact O.
  - intros u o H S. apply in_app_iff in H as [H|[H|[]]]; [eauto|]. injection H as <- <-. reflexivity.
  - apply (NoDup_Add (Add_app c W [])). rewrite app_nil_r. auto.
  - intros c' id' e' H. apply in_app_iff in H as [H|[H|[]]].
    + destruct (SU _ _ _ H) as (S1 & S2 & S3). split; [exact S1|]. split; [|exact S3]. intros Q. destruct (S2 Q). split; [assumption|apply in_app_iff; left; assumption].
    + injection H as <- <- <-. split; [exact L|]. split; [|reflexivity]. intros _. split; [reflexivity|apply in_app_iff; right; left; reflexivity].
  - intros c' H. apply in_app_iff. apply in_app_iff in H as [H|[->|[]]]; [left; auto|right; left; reflexivity].
Qed.
Lemma owners_filter : forall l p (f : list (list Z) * owner -> bool), (forall x, In x l -> serves p (fst x) = true -> f x = true) ->
  map snd (filter (fun x => serves p (fst x)) (filter f l)) = map snd (filter (fun x => serves p (fst x)) l).
Proof.
  induction l as [|x l IH]; intros p f H; [reflexivity|]. cbn [filter]. pose proof (H x ltac:(left; reflexivity)) as HX. assert (HL : forall y, In y l -> serves p (fst y) = true -> f y = true) by (intros; apply H; [right; assumption|assumption]).
  destruct (serves p (fst x)) eqn:S.
  - rewrite HX by reflexivity. cbn [filter]. rewrite S. cbn [map]. f_equal. apply IH. exact HL.
  - destruct (f x); cbn [filter]; rewrite ?S; apply IH; exact HL.
Qed.
Lemma knows_owner : forall A v W nx x o, knows A v W nx -> In x (names_of v) -> serves (split ADVISORY) (fst x) = true -> snd x = o -> exists c, o = Some (c, 2) /\ In c W.
Proof.
  intros A v W nx x o K H S <-. assert (IN : In (snd x) (owners v (split ADVISORY))) by (unfold owners; apply in_map, filter_In; split; assumption).
  rewrite (n_own _ _ _ _ K) in IN. apply in_map_iff in IN as (c & <- & HC). exists c. auto.
Qed.
Lemma knows_unsub : forall A v W nx c e rc, knows A v W nx -> below (split e) (split ADVISORY) = false -> knows A (record v (Unsub c e, rc)) W nx.
Proof.
  intros A v W nx c e rc K NB. pose proof K as [O NM ND SU FI]. destruct rc; [|constructor; assumption|constructor; assumption]. cbn [record].
  assert (NE : e <> ADVISORY) by (intros ->; rewrite adv_below in NB; discriminate).
  destruct (find _ (subs_of v)) as [((x, id), t)|] eqn:F; cbn [fst].
  - apply find_some in F as [HS Q]. cbn [fst snd] in Q. apply andb_prop in Q as [Q1 Q2]. apply bytes_eqb_eq in Q1. apply Z.eqb_eq in Q2. subst t x.
    assert (N2 : id <> 2) by (intros ->; destruct (SU _ _ _ HS) as (_ & S2 & _); destruct (S2 eq_refl); contradiction).
    constructor; cbn [names_of subs_of]; auto.
    + unfold owners. cbn [names_of]. rewrite owners_filter; [exact O|]. intros y Hy SY. destruct (knows_owner _ _ _ _ _ _ K Hy SY eq_refl) as (c' & EO & _). rewrite EO. cbn [owner_eqb].
      apply negb_true_iff. destruct (Z.eqb_spec 2 id); [congruence|]. apply andb_false_r.
    + intros u o H S. apply filter_In in H as [H _]. eauto.
    + intros c' id' e' H. apply filter_In in H as [H _]. auto.
    + intros c' H. apply filter_In. split; [auto|]. cbn [fst owner_eqb]. apply negb_true_iff. destruct (Z.eqb_spec 2 id); [congruence|]. apply andb_false_r.
  - constructor; cbn [names_of subs_of]; auto.
    + unfold owners. cbn [names_of]. destruct (split e) as [|t ts] eqn:E; [exact O|]. rewrite <- E in *. rewrite owners_filter; [exact O|]. intros (u, o) Hy SY. cbn [fst] in *. rewrite (NM u o Hy SY), NB. reflexivity.
    + intros u o H S. destruct (split e); [eauto|]. apply filter_In in H as [H _]. eauto.
Qed.
Lemma filter_owner : forall l p c, (forall x, In x l -> serves p (fst x) = true -> exists c', snd x = Some (c', 2)) ->
  forall f : list (list Z) * owner -> bool, (forall x c', In x l -> snd x = Some (c', 2) -> f x = negb (c' =? c)) -> forall W, map snd (filter (fun x => serves p (fst x)) l) = map (fun c => Some (c, 2)) W ->
  map snd (filter (fun x => serves p (fst x)) (filter f l)) = map (fun c => Some (c, 2)) (others c W).
Proof.
  induction l as [|x l IH]; intros p c H f HF W E; [destruct W; [reflexivity|discriminate]|]. cbn [filter] in *.
  assert (H' : forall y, In y l -> serves p (fst y) = true -> exists c', snd y = Some (c', 2)) by (intros; apply H; [right; assumption|assumption]).
  assert (HF' : forall y c', In y l -> snd y = Some (c', 2) -> f y = negb (c' =? c)) by (intros; apply HF; [right; assumption|assumption]).
  destruct (serves p (fst x)) eqn:S.
  - destruct (H x ltac:(left; reflexivity) S) as (c' & EX). destruct W as [|d W]; [discriminate|]. cbn [map] in E. rewrite EX in E. injection E as <- E. rewrite (HF x c' ltac:(left; reflexivity) EX). unfold others. cbn [filter].
    destruct (c' =? c); cbn [negb]; [apply IH; assumption|]. cbn [filter]. rewrite S. cbn [map]. rewrite EX. f_equal. apply IH; assumption.
  - destruct (f x); cbn [filter]; rewrite ?S; apply IH; assumption.
Qed.
Lemma knows_unadv : forall A v W nx c, knows A v W nx -> In c W -> knows A (record v (Unsub c ADVISORY, 0)) (others c W) nx.
Proof.
  intros A v W nx c K HC. pose proof K as [O NM ND SU FI]. cbn [record].
  destruct (find (fun s => bytes_eqb (snd s) ADVISORY && (fst (fst s) =? c)) (subs_of v)) as [((x, id), t)|] eqn:F; cbn [fst].
  2: { exfalso. pose proof (find_none _ _ F _ (FI c HC)) as X. cbn [fst snd] in X. rewrite Z.eqb_refl, andb_true_r in X. rewrite (proj2 (bytes_eqb_eq ADVISORY ADVISORY) eq_refl) in X. discriminate. }
  apply find_some in F as [HS Q]. cbn [fst snd] in Q. apply andb_prop in Q as [Q1 Q2]. apply bytes_eqb_eq in Q1. apply Z.eqb_eq in Q2. subst t x. destruct (SU _ _ _ HS) as (_ & _ & S3). rewrite (S3 eq_refl) in *.
  constructor; cbn [names_of subs_of].
  - unfold owners. cbn [names_of]. apply filter_owner; [|intros y c' _ EY; rewrite EY; cbn [owner_eqb]; rewrite Z.eqb_refl, andb_true_r; reflexivity|exact O].
    intros y Hy SY. destruct (knows_owner _ _ _ _ _ _ K Hy SY eq_refl) as (c' & EO & _). exists c'. exact EO.
  - intros u o H S. apply filter_In in H as [H _]. eauto.
  - apply others_nodup. exact ND.
  - intros c' id' e' H. apply filter_In in H as [H Q]. destruct (SU _ _ _ H) as (T1 & T2 & T3). split; [exact T1|]. split; [|exact T3]. intros ->. destruct (T2 eq_refl) as [T4 T5]. split; [exact T4|]. apply others_in. split; [exact T5|].
    intros ->. cbn [fst owner_eqb] in Q. rewrite !Z.eqb_refl in Q. discriminate.
  - intros c' H. apply others_in in H as [H N]. apply filter_In. split; [auto|]. cbn [fst owner_eqb]. destruct (Z.eqb_spec c' c); [contradiction|reflexivity].
Qed.
Lemma knows_leave : forall A v W nx c rc, knows A v W nx -> knows A (record v (Leave c, rc)) (others c W) nx.
Proof.
  intros A v W nx c rc K. pose proof K as [O NM ND SU FI].
  assert (E : record v (Leave c, rc) = mkView (filter (fun x => negb (of_client c (snd x))) (names_of v)) (filter (fun x => negb (fst (fst x) =? c)) (subs_of v))) by (destruct rc; reflexivity).
  rewrite E. constructor; cbn [names_of subs_of].
  - unfold owners. cbn [names_of]. apply filter_owner; [|intros y c' _ EY; rewrite EY; reflexivity|exact O].
    intros y Hy SY. destruct (knows_owner _ _ _ _ _ _ K Hy SY eq_refl) as (c' & EO & _). exists c'. exact EO.
  - intros u o H S. apply filter_In in H as [H _]. eauto.
  - apply others_nodup. exact ND.
  - intros c' id' e' H. apply filter_In in H as [H Q]. destruct (SU _ _ _ H) as (T1 & T2 & T3). split; [exact T1|]. split; [|exact T3]. intros ->. destruct (T2 eq_refl) as [T4 T5]. split; [exact T4|]. apply others_in. split; [exact T5|].
    intros ->. cbn [fst] in Q. rewrite !Z.eqb_refl in Q. discriminate.
  - intros c' H. apply others_in in H as [H N]. apply filter_In. split; [auto|]. cbn [fst]. destruct (Z.eqb_spec c' c); [contradiction|reflexivity].
Qed.

Definition fits_prog (x : prog) (y : seen) : Prop :=
  up y = (match conn x with Some _ => Some (inbox x) | None => None end) /\ holds y = direct x /\ direct x = count x /\ 0 <= count x < 2 ^ 32 /\
  listens x = installed x /\ installed x = (0 <? count x) /\ (installed x = true -> callback x = true) /\ told x = heard y /\ (conn x = None -> count x = 0).
Record good (A : names) (w : world) (W : list Z) (v : view) (s : Z -> seen) : Prop := {
  g_rel : rel A (brk w) v;
  g_knows : knows A v W (next w);
  g_w : forall c, In c W <-> exists p, conn (progs w p) = Some c /\ listens (progs w p) = true;
  g_who : forall p c, conn (progs w p) = Some c -> who w c = p /\ c < next w /\ box w c = inbox (progs w p) /\ inbox (progs w p) <> [];
  g_prog : forall p, fits_prog (progs w p) (s p) }.

Lemma not_owned : forall A b v c id, rel A b v -> (forall e, ~ In ((c, id), e) (subs_of v)) -> find (owned_by c id) (entries b) = None.
Proof.
  intros A b v c id (m & C & NM & SB & _) H. destruct (find (owned_by c id) (entries b)) as [r|] eqn:FD; [|reflexivity]. exfalso.
  pose proof (subs_existsb (entries b) c id) as X. rewrite FD in X. cbn in X. apply existsb_exists in X as (((x, y), t) & Hs & Q). cbn in Q. apply andb_prop in Q as [Q1 Q2]. apply Z.eqb_eq in Q1, Q2. subst.
  rewrite <- SB in Hs. apply (H t Hs).
Qed.
Lemma advise_ok : forall A w v W nx c ev, tidyP A -> A (split ADVISORY) -> rel A (brk w) v -> knows A v W nx ->
  (forall c', In c' W -> c' <> c -> conn (progs w (who w c')) = Some c' /\ listens (progs w (who w c')) = true) -> (forall p c', conn (progs w p) = Some c' -> who w c' = p) ->
  exists w', advise w c ev = Ok w' /\ brk w' = brk w /\ box w' = box w /\ who w' = who w /\ next w' = next w /\
    forall q, progs w' q = if hears (others c W) (progs w q) then on_notice (progs w q) (notice ev (box w c)) else progs w q.
Proof.
  intros A w v W nx c ev TA AA RL K L U. destruct (adv_get A _ _ TA AA RL) as (ds & G & MO & IN & ND). unfold advise. rewrite G. cbn [obind].
  rewrite (send_all _ c ds W IN ND) by (rewrite MO; apply (n_own _ _ _ _ K)). cbn [obind]. eexists. split; [reflexivity|].
  apply hear_all; [apply others_nodup, (n_nodup _ _ _ _ K)| |exact U]. intros c' H. apply others_in in H as [H N]. apply L; assumption.
Qed.
Lemma good_put : forall A w W v s p x y, good A w W v s -> conn x = conn (progs w p) -> inbox x = inbox (progs w p) -> listens x = listens (progs w p) -> fits_prog x y -> good A (with_prog w p x) W v (put s p y).
Proof.
  intros A w W v s p x y [RL K GW GH GP] E1 E2 E3 F. constructor; cbn [with_prog brk box progs who next]; auto.
  - intros c. rewrite GW. split; intros (q & Q1 & Q2); exists q; unfold put in *; destruct (Z.eqb_spec q p) as [EQ|NQ]; try subst q; rewrite ?E1, ?E3 in *; auto.
  - intros q c. unfold put. destruct (Z.eqb_spec q p) as [->|]; rewrite ?E1, ?E2; auto.
  - intros q. unfold put. destruct (Z.eqb_spec q p); auto.
Qed.
Lemma knows_next : forall A v W nx nx', knows A v W nx -> nx <= nx' -> knows A v W nx'.
Proof. intros A v W nx nx' [O NM ND SU FI] L. constructor; auto. intros c id e H. destruct (SU _ _ _ H) as (S1 & S2 & S3). split; [lia|auto]. Qed.

Lemma drop_ok : forall A w W v s p c x, tidyP A -> A (split ADVISORY) -> good A w W v s -> conn (progs w p) = Some c -> conn x = None -> fits_prog x (mkSeen None 0 (heard (s p))) ->
  exists w', drop (with_prog w p x) c = Ok w' /\ good A w' (others c W) (record v (Leave c, 0)) (gone s p).
Proof.
  intros A w W v s p c x TA AA [RL K GW GH GP] CP CX FX. destruct (GH p c CP) as (W1 & W2 & W3 & W4).
  assert (LX : listens x = false) by (destruct FX as (_ & _ & _ & _ & F5 & F6 & _ & _ & F9); rewrite F5, F6, (F9 CX); reflexivity).
  assert (NP : forall q, conn (progs w q) = Some c -> q = p) by (intros q H; destruct (GH q c H) as (H1 & _); congruence).
  destruct (advise_ok A (with_prog w p x) v W (next w) c ADVISE_DISCONNECT TA AA RL K) as (w1 & E & H1 & H2 & H3 & H4 & H5).
  - intros c' Hc N. apply GW in Hc as (q & Q1 & Q2). destruct (GH q c' Q1) as (Q3 & _). cbn [with_prog who progs]. rewrite Q3. unfold put. destruct (Z.eqb_spec q p) as [->|]; [congruence|auto].
  - intros q c'. cbn [with_prog who progs]. unfold put. destruct (Z.eqb_spec q p); [congruence|]. intros H. apply (GH q c' H).
  - cbn [with_prog brk box who next progs] in *. unfold drop. rewrite E. cbn [obind]. eexists. split; [reflexivity|].
    assert (PQ : forall q, q <> p -> progs w1 q = if hears (others c W) (progs w q) then on_notice (progs w q) (notice ADVISE_DISCONNECT (box w c)) else progs w q) by (intros q N; rewrite H5; unfold put; destruct (Z.eqb_spec q p); [contradiction|reflexivity]).
    assert (PP : progs w1 p = x) by (rewrite H5, put_same; unfold hears; rewrite CX; reflexivity).
    assert (SC : forall q, q <> p -> conn (progs w1 q) = conn (progs w q) /\ listens (progs w1 q) = listens (progs w q) /\ inbox (progs w1 q) = inbox (progs w q)).
    { intros q N. rewrite PQ by exact N. destruct (hears _ _); [|auto]. split; [apply on_same|]. split; [apply on_same|apply on_inbox]. }
    constructor; cbn [with_brk brk box progs who next].
    + rewrite H1. apply leave_rel. exact RL.
    + rewrite H4. apply knows_leave. exact K.
    + intros c'. rewrite others_in, GW. split.
      * intros [(q & Q1 & Q2) N]. exists q. assert (NQ : q <> p) by (intros ->; congruence). destruct (SC q NQ) as (-> & -> & _). auto.
      * intros (q & Q1 & Q2). assert (NQ : q <> p) by (intros ->; rewrite PP in Q1; congruence). destruct (SC q NQ) as (T1 & T2 & _). rewrite T1 in Q1. rewrite T2 in Q2. split; [exists q; auto|]. intros ->. apply NQ, NP. exact Q1.
    + intros q c' Q. assert (NQ : q <> p) by (intros ->; rewrite PP in Q; congruence). destruct (SC q NQ) as (T1 & _ & T3). rewrite T1 in Q. rewrite H2, H3, H4, T3. apply GH. exact Q.
    + intros q. unfold gone. destruct (GP p) as (F1 & _). rewrite CP in F1. rewrite F1. unfold put. destruct (Z.eqb_spec q p) as [->|N]; [rewrite PP; exact FX|].
      rewrite (PQ q N). unfold tell. destruct (Z.eqb_spec q p); [contradiction|]. cbn [negb andb]. pose proof (GP q) as FQ. destruct FQ as (Q1 & Q2 & Q3 & Q4 & Q5 & Q6 & Q7 & Q8 & Q9).
      assert (HQ : hears (others c W) (progs w q) = is_some (up (s q)) && (0 <? holds (s q))).
      { rewrite Q1, Q2, Q3, <- Q6, <- Q5. unfold hears. destruct (conn (progs w q)) as [c'|] eqn:EC; [|reflexivity]. cbn [is_some andb]. apply bool_eq. rewrite existsb_exists. split.
        - intros (y & Hy & T). apply Z.eqb_eq in T. subst y. apply others_in in Hy as [Hy _]. apply GW in Hy as (r & R1 & R2). destruct (GH r c' R1) as (R3 & _). destruct (GH q c' EC) as (R4 & _). congruence.
        - intros LI. exists c'. split; [|apply Z.eqb_refl]. apply others_in. split; [apply GW; exists q; auto|]. intros ->. apply N, NP. exact EC. }
      rewrite HQ. destruct (is_some (up (s q)) && (0 <? holds (s q))) eqn:BQ; [|unfold fits_prog; auto 10].
      apply andb_prop in BQ as [B1 B2]. rewrite on_disconnect by (apply Q7; rewrite Q6, <- Q3, <- Q2; exact B2). unfold fits_prog. cbn [conn inbox listens installed callback count direct told up holds heard]. rewrite W3. repeat (split; [assumption|]). split; [congruence|assumption].
Qed.

(** what a history does step by step *)
Definition allowed (A : names) (o : op) : Prop :=
  match o with
  | Connect _ i => A (split i) /\ good_name i /\ serves (split ADVISORY) (split i) = false /\ proper_inbox i = true
  | Listen _ e id => A (split e) /\ good_name e /\ serves (split ADVISORY) (split e) = false /\ id <> 2
  | Unlisten _ e => (dots e <= 31)%nat /\ literalP A (split e) /\ below (split e) (split ADVISORY) = false
  | _ => True
  end.
Lemma sub_plain : forall A w W v s p c e id, tidyP A -> good A w W v s -> conn (progs w p) = Some c -> A (split e) -> good_name e -> (e = ADVISORY -> find (owned_by c id) (entries (brk w)) = None) ->
  exists b rc, sub w c e id = Ok (with_brk w b) /\ subscribe (brk w) c e id = Ok (b, rc) /\ rel A b (record v (Sub c e id, rc)).
Proof.
  intros A w W v s p c e id TA G CP AE GN AD. destruct (subscribe_rel false A (brk w) v c e id TA (g_rel _ _ _ _ _ G) AE GN AD) as (b & rc & E & R). exists b, rc. split; [|auto].
  unfold sub. rewrite E. cbn [obind with_brk box]. destruct (g_who _ _ _ _ _ G p c CP) as (_ & _ & B & NB). rewrite B. destruct (inbox (progs w p)); [contradiction|reflexivity].
Qed.
Lemma good_brk : forall A w W v s b W' v', good A w W v s -> rel A b v' -> knows A v' W' (next w) -> (forall c, In c W' <-> In c W) -> good A (with_brk w b) W' v' s.
Proof.
  intros A w W v s b W' v' [RL K GW GH GP] R K' E. constructor; cbn [with_brk brk box progs who next]; auto. intros c. rewrite E. apply GW.
Qed.
Lemma connect_ok : forall A w W v s p i, tidyP A -> A (split ADVISORY) -> good A w W v s -> conn (progs w p) = None -> allowed A (Connect p i) ->
  exists w' v', step w (Connect p i) = Ok w' /\ good A w' W v' (happen s (Connect p i)).
Proof.
  intros A w W v s p i TA AA [RL K GW GH GP] CP (AI & GI & SI & PI). apply andb_prop in PI as [PR HA]. cbn [step happen]. rewrite CP.
  destruct (GP p) as (F1 & F2 & F3 & F4 & F5 & F6 & F7 & F8 & F9). rewrite CP in F1. rewrite F1. specialize (F9 CP).
  set (c := next w). set (x := mkProg (Some c) i false (installed (progs w p)) (callback (progs w p)) (count (progs w p)) 0 (told (progs w p))).
  assert (NC : forall q, conn (progs w q) <> Some c) by (intros q Q; destruct (GH q c Q) as (_ & L & _); unfold c in L; lia).
  assert (NE : i <> ADVISORY) by (intros ->; rewrite adv_serves in SI; discriminate).
  destruct (subscribe_rel false A (brk w) v c i INBOX_ID TA RL AI GI) as (b & rc & E & R); [intros; contradiction|].
  assert (NO : find (owned_by c INBOX_ID) (entries (brk w)) = None).
  { eapply not_owned; [exact RL|]. intros e H. destruct (n_subs _ _ _ _ K _ _ _ H) as (L & _). unfold c in L. lia. }
  assert (K' : knows A (record v (Sub c i INBOX_ID, rc)) W (c + 1)) by (apply knows_sub; [apply (knows_next _ _ _ (next w)); [exact K|unfold c; lia]|lia|discriminate|exact SI]).
  assert (FI : firstn (TOPIC_MAX - 1) i = i) by (pose proof (printable_length _ _ PR) as LP; apply firstn_all2; unfold TOPIC_MAX, RTMSG_MAX_EXPRESSION_LEN in *; lia).
  assert (IN : i <> []) by (intros ->; vm_compute in HA; discriminate).
  unfold sub. cbn [brk]. rewrite PR, NO, E. cbn [obind with_brk box is_some negb andb]. rewrite put_same, HA, FI.
  set (w1 := with_box _ _ _).
  destruct (advise_ok A w1 (record v (Sub c i INBOX_ID, rc)) W (c + 1) c ADVISE_CONNECT TA AA) as (w' & EA & H1 & H2 & H3 & H4 & H5).
  - exact R.
  - exact K'.
  - intros c' Hc N. apply GW in Hc as (q & Q1 & Q2). destruct (GH q c' Q1) as (Q3 & _). unfold w1. cbn [with_box with_brk progs who brk box next]. rewrite (put_other (who w)) by exact N. rewrite Q3. rewrite put_other by (intros ->; congruence). auto.
  - intros q c'. unfold w1. cbn [with_box with_brk progs who brk box next]. unfold put. destruct (Z.eqb_spec q p) as [->|NQ].
    + unfold x. cbn [conn]. intros Q. injection Q as <-. rewrite Z.eqb_refl. reflexivity.
    + intros Q. destruct (Z.eqb_spec c' c) as [->|]; [destruct (NC q Q)|]. apply (GH q c' Q).
  - rewrite EA. exists w', (record v (Sub c i INBOX_ID, rc)). split; [reflexivity|].
    assert (PQ : forall q, progs w' q = put (progs w) p x q) by (intros q; rewrite H5; destruct (hears _ _); [apply on_connect|reflexivity]).
    constructor.
    + rewrite H1. exact R.
    + rewrite H4. exact K'.
    + intros c'. rewrite GW. split; intros (q & Q1 & Q2); exists q; rewrite PQ in *; unfold put in *; destruct (Z.eqb_spec q p) as [EQ|NQ]; auto.
      * subst q. congruence.
      * unfold x in Q2. discriminate Q2.
    + intros q c'. rewrite PQ, H2, H3, H4. unfold w1. cbn [with_box with_brk progs who brk box next]. unfold put. destruct (Z.eqb_spec q p) as [->|NQ].
      * unfold x. cbn [conn inbox]. intros Q. injection Q as <-. rewrite !Z.eqb_refl. split; [reflexivity|]. split; [lia|]. split; [reflexivity|exact IN].
      * intros Q. destruct (Z.eqb_spec c' c) as [->|N]; [destruct (NC q Q)|]. destruct (GH q c' Q) as (Q1 & Q2 & Q3 & Q4). split; [exact Q1|]. split; [unfold c; lia|]. auto.
    + intros q. rewrite PQ. unfold put. destruct (Z.eqb_spec q p) as [->|NQ]; [|apply GP]. unfold fits_prog, x. cbn [conn inbox listens installed callback count direct told up holds heard]. rewrite F9 in *.
      split; [reflexivity|]. split; [reflexivity|]. split; [reflexivity|]. split; [exact F4|]. split; [rewrite F6; reflexivity|]. split; [exact F6|]. split; [exact F7|]. split; [exact F8|reflexivity].
Qed.
Lemma put_off : forall q p, q <> p -> forall {A} (f : Z -> A) x, put f p x q = f q.
Proof. intros. apply put_other. assumption. Qed.
Ltac off N := rewrite ?(put_off _ _ N) in *.
Lemma open_ok : forall A w W v s p room, tidyP A -> A (split ADVISORY) -> good A w W v s -> orderly s (OpenDirect p room) ->
  exists w' W' v', step w (OpenDirect p room) = Ok w' /\ good A w' W' v' (happen s (OpenDirect p room)).
Proof.
  intros A w W v s p room TA AA G (-> & LT). cbn [step happen]. pose proof (g_prog _ _ _ _ _ G p) as F. destruct F as (F1 & F2 & F3 & F4 & F5 & F6 & F7 & F8 & F9).
  destruct (conn (progs w p)) as [c|] eqn:CP; rewrite F1; [|exists w, W, v; auto].
  rewrite F2, F3 in *. assert (MD : (count (progs w p) + 1) mod 2 ^ 32 = count (progs w p) + 1) by (apply Z.mod_small; lia).
  destruct (Z.eqb_spec (count (progs w p)) 0) as [C0|C0].
  - rewrite C0 in *. change (0 <? 0) with false in F6. unfold register. rewrite F6.
    set (w0 := with_prog w p _). assert (NI : ~ In c W).
    { intros H. apply (g_w _ _ _ _ _ G) in H as (q & Q1 & Q2). destruct (g_who _ _ _ _ _ G q c Q1) as (Q3 & _). destruct (g_who _ _ _ _ _ G p c CP) as (Q4 & _). congruence. }
    assert (NO : find (owned_by c 2) (entries (brk w)) = None).
    { eapply not_owned; [apply (g_rel _ _ _ _ _ G)|]. intros e H. destruct (n_subs _ _ _ _ (g_knows _ _ _ _ _ G) _ _ _ H) as (_ & S2 & _). apply NI. apply S2. reflexivity. }
    destruct (subscribe_rel false A (brk w) v c ADVISORY 2 TA (g_rel _ _ _ _ _ G) AA adv_good (fun _ => NO)) as (b & rc & E & R).
    assert (RC : rc = 0). { unfold subscribe in E. rewrite adv_printable, NO in E. cbn [negb] in E. destruct (add _ _ _ _) as [(t, r)| |]; try discriminate. cbn [obind] in E. injection E as _ <-. reflexivity. }
    subst rc. destruct (g_who _ _ _ _ _ G p c CP) as (H1 & H2 & H3 & H4).
    assert (ES : sub w0 c ADVISORY ADVISORY_ID = Ok (with_brk w0 b)).
    { unfold sub. replace (brk w0) with (brk w) by reflexivity. change ADVISORY_ID with 2. rewrite E. cbn [obind with_brk box]. replace (box w0 c) with (box w c) by reflexivity. rewrite H3. destruct (inbox (progs w p)); [contradiction|reflexivity]. }
    rewrite ES. cbn [obind]. eexists _, (W ++ [c]), _. split; [reflexivity|].
    assert (PP : progs w0 p = mkProg (conn (progs w p)) (inbox (progs w p)) true (installed (progs w p)) (callback (progs w p)) 0 (direct (progs w p)) (told (progs w p))) by (unfold w0; cbn [with_prog progs]; rewrite put_same, C0, ?F6; reflexivity).
    cbn [with_brk with_prog brk box progs who next]. rewrite !put_same, PP. cbn [conn inbox listens installed callback count direct told].
    unfold w0. clear ES PP. clearbody w0. clear w0.
    constructor; cbn [with_brk with_prog brk box progs who next].
    + exact R.
    + apply knows_adv; [apply (g_knows _ _ _ _ _ G)|exact H2|exact NI].
    + intros c'. rewrite in_app_iff, (g_w _ _ _ _ _ G). cbn [In]. split.
      * intros [(q & Q1 & Q2)|[<-|[]]].
        -- exists q. destruct (Z.eq_dec q p) as [->|N]; [congruence|]. off N. auto.
        -- exists p. rewrite put_same. cbn [conn listens]. auto.
      * intros (q & Q1 & Q2). destruct (Z.eq_dec q p) as [->|N]; [rewrite put_same in Q1; cbn [conn] in Q1; right; left; congruence|]. off N. left. exists q. auto.
    + intros q c'. destruct (Z.eq_dec q p) as [->|N]; [rewrite put_same; cbn [conn inbox]|off N]; apply (g_who _ _ _ _ _ G).
    + intros q. destruct (Z.eq_dec q p) as [->|N]; [rewrite !put_same|off N; apply (g_prog _ _ _ _ _ G)].
      unfold fits_prog. cbn [conn inbox listens installed callback count direct told up holds heard]. rewrite CP, F3. change ((0 + 1) mod 2 ^ 32) with 1. repeat (split; [reflexivity|]). split; [lia|]. repeat (split; [reflexivity|]). split; [exact F8|discriminate].
  - cbn [obind]. eexists _, W, v. split; [reflexivity|]. apply good_put; [exact G|reflexivity|reflexivity|reflexivity|].
    unfold fits_prog. cbn [conn inbox listens installed callback count direct told up holds heard]. rewrite CP, MD, F3. split; [reflexivity|]. split; [reflexivity|]. split; [reflexivity|]. split; [lia|]. split; [exact F5|].
    split; [rewrite F6; transitivity true; [|symmetry]; apply Z.ltb_lt; lia|]. split; [exact F7|]. split; [exact F8|discriminate].
Qed.
Lemma close_direct_ok : forall A w W v s p, tidyP A -> A (split ADVISORY) -> good A w W v s -> orderly s (CloseDirect p) ->
  exists w' W' v', step w (CloseDirect p) = Ok w' /\ good A w' W' v' (happen s (CloseDirect p)).
Proof.
  intros A w W v s p TA AA G LT. cbn [step happen orderly] in *. pose proof (g_prog _ _ _ _ _ G p) as F. destruct F as (F1 & F2 & F3 & F4 & F5 & F6 & F7 & F8 & F9).
  rewrite F2, F3 in *. destruct (conn (progs w p)) as [c|] eqn:CP; [|rewrite (F9 eq_refl) in LT; lia]. rewrite F1.
  destruct (Z.eqb_spec (count (progs w p)) 0); [lia|]. assert (MD : (count (progs w p) - 1) mod 2 ^ 32 = count (progs w p) - 1) by (apply Z.mod_small; lia).
  destruct (Z.eqb_spec (count (progs w p)) 1) as [C1|C1].
  - assert (IT : installed (progs w p) = true) by (rewrite F6, C1; reflexivity). unfold register, unregister. rewrite IT, F5, IT.
    destruct (g_who _ _ _ _ _ G p c CP) as (H1 & H2 & H3 & H4).
    assert (IW : In c W) by (apply (g_w _ _ _ _ _ G); exists p; split; [exact CP|congruence]).
    assert (LA : literalP A (split ADVISORY)) by (intros a Ha; apply clash_loose, TA; assumption).
    destruct (unsubscribe_rel false A (brk w) v c ADVISORY TA (g_rel _ _ _ _ _ G) ltac:(apply adv_good) LA ltac:(discriminate)) as (b & rc & E & R).
    assert (RC : rc = 0). { unfold unsubscribe in E. rewrite adv_printable in E. cbn [negb] in E. destruct (find _ _) as [r|]; [injection E as _ <-; reflexivity|]. destruct (remove_topic _ _); try discriminate. cbn [obind] in E. injection E as _ <-. reflexivity. }
    subst rc. unfold unsub. rewrite E. cbn [obind]. eexists _, (others c W), _. split; [reflexivity|]. cbn [with_brk with_prog brk box progs who next]. rewrite !put_same. cbn [conn inbox listens installed callback count direct told].
    constructor; cbn [with_brk with_prog brk box progs who next].
    + exact R.
    + apply knows_unadv; [apply (g_knows _ _ _ _ _ G)|exact IW].
    + intros c'. rewrite others_in, (g_w _ _ _ _ _ G). split.
      * intros [(q & Q1 & Q2) NC]. exists q. destruct (Z.eq_dec q p) as [->|N]; [congruence|]. off N. auto.
      * intros (q & Q1 & Q2). destruct (Z.eq_dec q p) as [->|N]; [rewrite put_same in Q2; discriminate|]. off N. split; [exists q; auto|]. intros ->. destruct (g_who _ _ _ _ _ G q c Q1) as (Q3 & _). congruence.
    + intros q c'. destruct (Z.eq_dec q p) as [->|N]; [rewrite put_same; cbn [conn inbox]|off N]; apply (g_who _ _ _ _ _ G).
    + intros q. destruct (Z.eq_dec q p) as [->|N]; [rewrite !put_same|off N; apply (g_prog _ _ _ _ _ G)].
      unfold fits_prog. cbn [conn inbox listens installed callback count direct told up holds heard]. rewrite CP, C1, F3, C1. change ((1 - 1) mod 2 ^ 32) with 0. repeat (split; [reflexivity|]). split; [lia|]. repeat (split; [reflexivity|]). split; [discriminate|]. split; [exact F8|discriminate].
  - cbn [obind]. eexists _, W, v. split; [reflexivity|]. apply good_put; [exact G|reflexivity|reflexivity|reflexivity|].
    unfold fits_prog. cbn [conn inbox listens installed callback count direct told up holds heard]. rewrite CP, MD, F3. split; [reflexivity|]. split; [reflexivity|]. split; [reflexivity|]. split; [lia|]. split; [exact F5|].
    split; [rewrite F6; transitivity true; [|symmetry]; apply Z.ltb_lt; lia|]. split; [exact F7|]. split; [exact F8|discriminate].
Qed.
Lemma step_ok : forall A w W v s o, tidyP A -> A (split ADVISORY) -> good A w W v s -> allowed A o -> orderly s o ->
  exists w' W' v', step w o = Ok w' /\ good A w' W' v' (happen s o).
Proof.
  intros A w W v s o TA AA G AL OR. pose proof (g_prog _ _ _ _ _ G) as GP. destruct o as [p i|p e id|p e|p room|p|p|p].
  - destruct (conn (progs w p)) as [c|] eqn:CP.
    + exists w, W, v. cbn [step happen]. rewrite CP. destruct (GP p) as (F1 & _). rewrite CP in F1. rewrite F1. auto.
    + destruct (connect_ok A w W v s p i TA AA G CP AL) as (w' & v' & E & G'). exists w', W, v'. auto.
  - cbn [step happen]. destruct (conn (progs w p)) as [c|] eqn:CP; [|exists w, W, v; auto]. destruct AL as (A1 & A2 & A3 & A4).
    destruct (sub_plain A w W v s p c e id TA G CP A1 A2) as (b & rc & E & _ & R); [intros ->; rewrite adv_serves in A3; discriminate|]. rewrite E. eexists _, W, _. split; [reflexivity|].
    eapply good_brk; [exact G|exact R| |reflexivity]. apply knows_sub; auto; [apply (g_knows _ _ _ _ _ G)|apply (g_who _ _ _ _ _ G p c CP)].
  - cbn [step happen]. destruct (conn (progs w p)) as [c|] eqn:CP; [|exists w, W, v; auto]. destruct AL as (A1 & A2 & A3).
    destruct (unsubscribe_rel false A (brk w) v c e TA (g_rel _ _ _ _ _ G) A1 A2 ltac:(discriminate)) as (b & rc & E & R). unfold unsub. rewrite E. cbn [obind]. eexists _, W, _. split; [reflexivity|].
    eapply good_brk; [exact G|exact R| |reflexivity]. apply knows_unsub; [apply (g_knows _ _ _ _ _ G)|exact A3].
  - eapply open_ok; eassumption.
  - eapply close_direct_ok; eassumption.
  - cbn [step happen orderly] in *. destruct (GP p) as (F1 & F2 & F3 & F4 & F5 & F6 & F7 & F8 & F9). destruct (conn (progs w p)) as [c|] eqn:CP.
    + rewrite F2, F3 in OR. destruct (drop_ok A w W v s p c (mkProg None [] false (installed (progs w p)) (callback (progs w p)) (count (progs w p)) 0 (told (progs w p))) TA AA G CP eq_refl) as (w' & E & G').
      * unfold fits_prog. cbn [conn inbox listens installed callback count direct told up holds heard]. rewrite OR in *. repeat (split; [reflexivity|]). split; [exact F4|]. split; [symmetry; exact F6|]. auto.
      * exists w', (others c W), (record v (Leave c, 0)). auto.
    + exists w, W, v. split; [reflexivity|]. unfold gone. rewrite F1. exact G.
  - cbn [step happen orderly] in *. destruct (GP p) as (F1 & F2 & F3 & F4 & F5 & F6 & F7 & F8 & F9).
    destruct (conn (progs w p)) as [c|] eqn:CP.
    + destruct (drop_ok A w W v s p c (fresh_prog (told (progs w p))) TA AA G CP eq_refl) as (w' & E & G').
      * unfold fits_prog, fresh_prog. cbn [conn inbox listens installed callback count direct told up holds heard]. repeat (split; [reflexivity|]). split; [lia|]. repeat (split; [reflexivity|]). split; [discriminate|]. auto.
      * exists w', (others c W), (record v (Leave c, 0)). auto.
    + eexists _, W, v. split; [reflexivity|]. unfold gone. rewrite F1. destruct G as [RL K GW GH _]. specialize (F9 eq_refl). rewrite F9 in *.
      constructor; cbn [with_prog brk box progs who next]; auto.
      * intros c. rewrite GW. split; intros (q & Q1 & Q2); exists q; unfold put in *; destruct (Z.eqb_spec q p) as [EQ|NQ]; auto; [subst q; congruence|discriminate].
      * intros q c. unfold put. destruct (Z.eqb_spec q p) as [EQ|NQ]; [discriminate|auto].
      * intros q. unfold put. destruct (Z.eqb_spec q p) as [->|NQ]; [|auto]. unfold fits_prog, fresh_prog. cbn [conn inbox listens installed callback count direct told]. rewrite F1, F2, F3. repeat (split; [reflexivity|]). split; [lia|]. repeat (split; [reflexivity|]). split; [discriminate|]. auto.
Qed.
Lemma run_ok : forall A l w W v s, tidyP A -> A (split ADVISORY) -> good A w W v s -> (forall o, In o l -> allowed A o) -> all_orderly s l ->
  exists w' W' v', run w l = Ok w' /\ good A w' W' v' (fold_left happen l s).
Proof.
  intros A. induction l as [|o l IH]; intros w W v s TA AA G AL OR; [exists w, W, v; auto|]. destruct OR as [O1 O2].
  destruct (step_ok A w W v s o TA AA G (AL o ltac:(left; reflexivity)) O1) as (w1 & W1 & v1 & E & G1). cbn [run fold_left]. rewrite E. cbn [obind].
  apply (IH w1 W1 v1); auto. intros; apply AL; right; assumption.
Qed.
Lemma apart_allowed : forall l o, apart l -> In o l -> allowed (among (used l)) o.
Proof.
  intros l o AP H. assert (NA : forall e, In e (named l) -> among (used l) (split e)).
  { intros e He. unfold among, used. apply in_app_iff. right. right. apply in_map. exact He. }
  destruct o as [p i|p e id|p e|p room|p|p|p]; cbn [allowed]; auto.
  - assert (HN : In i (named l)) by (apply in_flat_map; exists (Connect p i); split; [exact H|left; reflexivity]). destruct (a_names _ AP i HN). split; [auto|]. split; [assumption|]. split; [assumption|]. apply (a_inbox _ AP p i H).
  - assert (HN : In e (named l)) by (apply in_flat_map; exists (Listen p e id); split; [exact H|left; reflexivity]). destruct (a_names _ AP e HN). split; [auto|]. split; [assumption|]. split; [assumption|]. apply (a_ids _ AP p e id H).
  - apply (a_removed _ AP p e H).
Qed.
Lemma init_good : forall A b0, tidyP A -> A (split ADVISORY) -> (forall n, In n builtin -> A (split n)) -> start = Ok b0 -> good A (init b0) [] at_start nobody.
Proof.
  intros A b0 TA AA HB E. destruct (start_rel A TA HB) as (b & E' & R). rewrite E in E'. injection E' as <-. constructor; cbn [init brk box progs who next].
  - eapply rel_weak. exact R.
  - constructor.
    + vm_compute. reflexivity.
    + intros u o H S. exfalso. revert S. apply in_map_iff in H as (n & Hn & H). injection Hn as <- _. unfold builtin in H. cbn [In] in H. repeat destruct H as [<-|H]; try (vm_compute; discriminate). destruct H.
    + constructor.
    + intros c id e [].
    + intros c [].
  - intros c. split; [intros []|intros (p & H & _); discriminate].
  - intros p c H. discriminate.
  - intros p. unfold fits_prog, fresh_prog, nobody. cbn [conn inbox listens installed callback count direct told up holds heard]. repeat (split; [reflexivity|]). split; [lia|]. repeat (split; [reflexivity|]). split; [discriminate|]. auto.
Qed.

(** ** a program that opens no direct connection *)
Definition deaf (w : world) (p : Z) : Prop := listens (progs w p) = false /\ told (progs w p) = [].
Lemma hear_deaf : forall m l w p, deaf w p -> deaf (fold_left (hear m) l w) p.
Proof.
  intros m. induction l as [|(c, id) l IH]; intros w p D; [exact D|]. cbn [fold_left]. apply IH. unfold hear. destruct (conn (progs w (who w c))) as [c'|]; [|exact D].
  destruct ((c' =? c) && (id =? ADVISORY_ID) && listens (progs w (who w c))) eqn:Q; [|exact D]. apply andb_prop in Q as [_ Q]. unfold deaf in *. cbn [with_prog progs]. unfold put. destruct (Z.eqb_spec p (who w c)) as [->|]; [destruct D; congruence|exact D].
Qed.
Lemma advise_deaf : forall w c ev w' p, advise w c ev = Ok w' -> deaf w p -> deaf w' p.
Proof.
  intros w c ev w' p E D. unfold advise in E. destruct (get _ _); try discriminate. cbn [obind] in E. destruct (send_routes _ _ _); try discriminate. cbn [obind] in E. injection E as <-. apply hear_deaf. exact D.
Qed.
Lemma sub_deaf : forall w c e id w' p, sub w c e id = Ok w' -> deaf w p -> deaf w' p.
Proof.
  intros w c e id w' p E D. unfold sub in E. destruct (subscribe _ _ _ _) as [(b, rc)| |]; try discriminate. cbn [obind] in E. destruct (box _ c); [|injection E as <-; exact D].
  destruct (_ && has _ e); [|injection E as <-; exact D]. eapply advise_deaf; [exact E|exact D].
Qed.
Lemma drop_deaf : forall w c w' p, drop w c = Ok w' -> deaf w p -> deaf w' p.
Proof.
  intros w c w' p E D. unfold drop in E. destruct (advise w c _) as [w1| |] eqn:A; try discriminate. cbn [obind] in E. injection E as <-. apply (advise_deaf _ _ _ _ _ A D).
Qed.
Lemma step_deaf : forall w o w' p, step w o = Ok w' -> (forall room, o <> OpenDirect p room) -> deaf w p -> deaf w' p.
Proof.
  intros w o w' p E N D. destruct o as [q i|q e id|q e|q room|q|q|q]; cbn [step] in E.
  - destruct (conn (progs w q)); [injection E as <-; exact D|]. eapply sub_deaf; [exact E|]. unfold deaf in *. cbn [progs]. unfold put. destruct (Z.eqb_spec p q) as [->|]; [cbn [listens told]; split; [reflexivity|apply D]|exact D].
  - destruct (conn (progs w q)); [|injection E as <-; exact D]. eapply sub_deaf; eauto.
  - destruct (conn (progs w q)); [|injection E as <-; exact D]. unfold unsub in E. destruct (unsubscribe _ _ _) as [(b, rc)| |]; try discriminate. injection E as <-. exact D.
  - assert (NQ : p <> q) by (intros ->; apply (N room); reflexivity). destruct (conn (progs w q)) as [c|]; [|injection E as <-; exact D].
    assert (WP : forall w x, deaf w p -> deaf (with_prog w q x) p) by (intros w0 x0 D0; unfold deaf in *; cbn [with_prog progs]; rewrite put_other by exact NQ; exact D0).
    destruct (count (progs w q) =? 0); cbn [obind] in E; [|injection E as <-; apply WP; exact D]. unfold register in E. destruct (installed (progs w q)); cbn [obind] in E; [injection E as <-; apply WP; exact D|].
    destruct room; cbn [obind] in E; [|injection E as <-; apply WP; exact D]. destruct (sub _ c ADVISORY ADVISORY_ID) as [w1| |] eqn:S; try discriminate. cbn [obind] in E. injection E as <-. apply WP, WP. eapply sub_deaf; [exact S|]. apply WP. exact D.
  - destruct (conn (progs w q)) as [c|]; [|discriminate]. destruct (direct (progs w q) =? 0); [discriminate|].
    assert (PR : forall w1 x, deaf w1 p -> told x = told (progs w1 q) -> (listens x = true -> listens (progs w1 q) = true) -> deaf (with_prog w1 q x) p).
    { intros w1 x [D1 D2] T L. unfold deaf. cbn [with_prog progs]. unfold put. destruct (Z.eqb_spec p q) as [->|]; [|split; assumption]. split; [|congruence]. destruct (listens x); [rewrite L in D1 by reflexivity; discriminate|reflexivity]. }
    destruct (count (progs w q) =? 1); cbn [obind] in E; [|injection E as <-; apply PR; auto]. unfold unregister in E. destruct (installed (progs w q)); cbn [obind] in E; [|injection E as <-; apply PR; auto].
    destruct (listens (progs w q)); cbn [obind] in E.
    + unfold unsub in E. destruct (unsubscribe _ _ _) as [(b, rc)| |]; try discriminate. cbn [obind] in E. injection E as <-. apply PR; [apply PR; [exact D|reflexivity|discriminate]|reflexivity|auto].
    + injection E as <-. apply PR; [apply PR; [exact D|reflexivity|discriminate]|reflexivity|auto].
  - destruct (conn (progs w q)); [|injection E as <-; exact D]. eapply drop_deaf; [exact E|]. unfold deaf in *. cbn [with_prog progs]. unfold put. destruct (Z.eqb_spec p q) as [->|]; [cbn [listens told]; split; [reflexivity|apply D]|exact D].
  - assert (D' : deaf (with_prog w q (fresh_prog (told (progs w q)))) p).
    { unfold deaf in *. cbn [with_prog progs]. unfold put. destruct (Z.eqb_spec p q) as [->|]; [cbn [fresh_prog listens told]; split; [reflexivity|apply D]|exact D]. }
    destruct (conn (progs w q)); [|injection E as <-; exact D']. eapply drop_deaf; [exact E|exact D'].
Qed.
Lemma run_deaf : forall l w w' p, run w l = Ok w' -> (forall room, ~ In (OpenDirect p room) l) -> deaf w p -> deaf w' p.
Proof.
  induction l as [|o l IH]; intros w w' p E N D; [injection E as <-; exact D|]. cbn [run] in E. destruct (step w o) as [w1| |] eqn:S; try discriminate. cbn [obind] in E.
  apply (IH w1 w' p E); [intros room H; apply (N room); right; exact H|]. eapply step_deaf; [exact S| |exact D]. intros room ->. apply (N room). left. reflexivity.
Qed.
