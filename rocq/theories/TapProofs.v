(** Proofs about message listeners (C85). *)
From Verif Require Import Common CommonFacts TextModel Errors.
From Verif Require Import ListenModel ListenProofs TapModel TapSpec.
From Coq Require Import Lia Bool Permutation.
Local Open Scope list_scope.
Local Open Scope Z_scope.

(** ** lists *)
Lemma perm_filter : forall {A} (f : A -> bool) a b, Permutation a b -> Permutation (List.filter f a) (List.filter f b).
Proof.
  intros A f a b P. induction P as [|x a b P IH|x y a|a b c P1 IH1 P2 IH2]; cbn; [constructor| | |etransitivity; eassumption].
  - destruct (f x); [constructor|]; exact IH.
  - destruct (f x), (f y); try reflexivity. apply perm_swap.
Qed.
Lemma filter_map : forall {A B} (f : A -> B) (g : B -> bool) l, List.filter g (map f l) = map f (List.filter (fun x => g (f x)) l).
Proof. intros A B f g. induction l as [|x l IH]; cbn; [reflexivity|]. destruct (g (f x)); cbn; rewrite IH; reflexivity. Qed.
Lemma filter_all : forall {A} (f : A -> bool) l, (forall x, In x l -> f x = true) -> List.filter f l = l.
Proof. intros A f. induction l as [|x l IH]; intros H; cbn; [reflexivity|]. rewrite (H x (or_introl eq_refl)), IH; [reflexivity|]. intros y I. apply H. right. exact I. Qed.
Lemma filter_none : forall {A} (f : A -> bool) l, (forall x, In x l -> f x = false) -> List.filter f l = [].
Proof. intros A f. induction l as [|x l IH]; intros H; cbn; [reflexivity|]. rewrite (H x (or_introl eq_refl)), IH; [reflexivity|]. intros y I. apply H. right. exact I. Qed.
Lemma filter_swap : forall {A} (f g : A -> bool) l, List.filter f (List.filter g l) = List.filter g (List.filter f l).
Proof. intros A f g. induction l as [|x l IH]; cbn; [reflexivity|]. destruct (g x) eqn:G, (f x) eqn:F; cbn; rewrite ?G, ?F, IH; reflexivity. Qed.
Lemma filter_ext' : forall {A} (f g : A -> bool) l, (forall x, In x l -> f x = g x) -> List.filter f l = List.filter g l.
Proof. intros A f g. induction l as [|x l IH]; intros H; cbn; [reflexivity|]. rewrite (H x (or_introl eq_refl)), IH; [reflexivity|]. intros y I. apply H. right. exact I. Qed.
Lemma nodup_filter : forall {A B} (f : A -> B) g l, NoDup (map f l) -> NoDup (map f (List.filter g l)).
Proof.
  intros A B f g. induction l as [|x l IH]; intros N; cbn in *; [constructor|]. inversion N as [|? ? NI N']; subst. destruct (g x); cbn; [|auto]. constructor; [|auto].
  intros H. apply in_map_iff in H as (y & E & H). apply filter_In in H as [H _]. apply NI. rewrite <- E. apply in_map, H.
Qed.
Lemma existsb_none_iff : forall {A} (f : A -> bool) l, existsb f l = false <-> forall x, In x l -> f x = false.
Proof.
  intros A f l. split.
  - intros E x I. destruct (f x) eqn:F; [|reflexivity]. assert (existsb f l = true) by (apply existsb_exists; exists x; auto). congruence.
  - intros H. destruct (existsb f l) eqn:E; [|reflexivity]. apply existsb_exists in E as (x & I & F). rewrite H in F; [discriminate|exact I].
Qed.

Lemma nodup_end : forall {A} (l : list A) x, NoDup l -> ~ In x l -> NoDup (l ++ [x]).
Proof. intros A l x N I. apply NoDup_rev in N. rewrite <- (rev_involutive (l ++ [x])). apply NoDup_rev. rewrite rev_app_distr. cbn. constructor; [rewrite <- in_rev; exact I|exact N]. Qed.

(** ** the heap *)
Lemma deref_ok : forall h p c, nth_error h p = Some (Some c) -> deref h p = Ok c.
Proof. intros h p c E. unfold deref. rewrite E. reflexivity. Qed.
Definition freed (h : list (option context)) (p : nat) : list (option context) := firstn p h ++ None :: skipn (S p) h.
Lemma release_ok : forall h p c, nth_error h p = Some (Some c) -> release h p = Ok (freed h p).
Proof. intros h p c E. unfold release. rewrite (deref_ok _ _ _ E). reflexivity. Qed.
Lemma freed_other : forall h p q, q <> p -> nth_error h p <> None -> nth_error (freed h p) q = nth_error h q.
Proof.
  unfold freed. induction h as [|x h IH]; intros p q N E; [destruct p; cbn in E; congruence|]. destruct p as [|p]; cbn [firstn skipn app].
  - destruct q as [|q]; [congruence|]. reflexivity.
  - destruct q as [|q]; [reflexivity|]. cbn [nth_error]. apply IH; [congruence|exact E].
Qed.
Lemma app_old : forall {A} (l : list A) x p y, nth_error l p = Some y -> nth_error (l ++ [x]) p = Some y.
Proof. intros A l x p y E. rewrite nth_error_app1; [exact E|]. apply nth_error_Some. congruence. Qed.
Lemma app_new : forall {A} (l : list A) x, nth_error (l ++ [x]) (length l) = Some x.
Proof. intros A l x. rewrite nth_error_app2 by lia. rewrite Nat.sub_diag. reflexivity. Qed.
(** every context is there *)
Definition alive (h : list (option context)) (l : list nat) : Prop := forall p, In p l -> exists k, nth_error h p = Some (Some k).
Definition carries (h : list (option context)) (e : list Z) (p : nat) : Prop := exists k, nth_error h p = Some (Some k) /\ c_expr k = e.
Lemma drop_spec : forall e l h, alive h l -> NoDup l ->
  (drop_context h l e = Ok (h, l) /\ forall p, In p l -> ~ carries h e p) \/
  (exists p, In p l /\ carries h e p /\ drop_context h l e = Ok (freed h p, List.filter (fun q => negb (Nat.eqb q p)) l)).
Proof.
  intros e. induction l as [|p l IH]; intros h A N; [left; split; [reflexivity|intros p []]|]. inversion N as [|? ? NI N']; subst. cbn [drop_context].
  destruct (A p (or_introl eq_refl)) as (k & E). rewrite (deref_ok _ _ _ E). cbn [obind]. destruct (bytes_eqb (c_expr k) e) eqn:B.
  - apply bytes_eqb_eq in B. right. exists p. split; [left; reflexivity|]. split; [exists k; auto|]. rewrite (release_ok _ _ _ E). cbn [obind filter]. rewrite Nat.eqb_refl. cbn [negb].
    rewrite (filter_all _ l); [reflexivity|]. intros q I. apply negb_true_iff, Nat.eqb_neq. congruence.
  - assert (NB : c_expr k <> e) by (intros X; rewrite X, bytes_eqb_refl in B; discriminate).
    destruct (IH h (fun q I => A q (or_intror I)) N') as [[D F]|(q & I & C & D)].
    + left. rewrite D. split; [reflexivity|]. intros q [<-|I]; [|now apply F]. intros (k' & E' & X). rewrite E in E'. injection E' as <-. congruence.
    + right. exists q. split; [right; exact I|]. split; [exact C|]. rewrite D. cbn [obind filter]. destruct (Nat.eqb_spec p q) as [->|NE]; [exfalso; exact (NI I)|]. reflexivity.
Qed.
Lemma has_spec : forall e l h, alive h l -> exists b, has h l e = Ok b /\ (b = true <-> exists p, In p l /\ carries h e p).
Proof.
  intros e. induction l as [|p l IH]; intros h A; [exists false; split; [reflexivity|split; [discriminate|intros (p & [] & _)]]|]. cbn [has].
  destruct (A p (or_introl eq_refl)) as (k & E). rewrite (deref_ok _ _ _ E). cbn [obind]. destruct (bytes_eqb (c_expr k) e) eqn:B.
  - apply bytes_eqb_eq in B. exists true. split; [reflexivity|]. split; [|reflexivity]. intros _. exists p. split; [left; reflexivity|exists k; auto].
  - destruct (IH h (fun q I => A q (or_intror I))) as (b & R & H). exists b. split; [exact R|]. rewrite H. split.
    + intros (q & I & C). exists q. split; [right; exact I|exact C].
    + intros (q & [<-|I] & C); [|exists q; auto]. exfalso. destruct C as (k' & E' & X). rewrite E in E'. injection E' as <-. rewrite X, bytes_eqb_refl in B. discriminate.
Qed.

(** ** the listeners of the connections *)
Definition lst (x : entry * nat) : listener :=
  mkListener (i_id (fst x)) (match i_conn (fst x) with O => i_expr (fst x) | S _ => raw_topic (i_expr (fst x)) (i_id (fst x)) end) (Z.of_nat (snd x)).
Definition at_conn (c : nat) (x : entry * nat) : bool := Nat.eqb (i_conn (fst x)) c.
Definition key (x : entry * nat) : nat * Z := (i_conn (fst x), i_id (fst x)).
Definition keyed (c : nat) (id : Z) (x : entry * nat) : bool := on c id (fst x).
Record tables (t : nat -> list (option listener)) (es : list (entry * nat)) : Prop := mkTables {
  t_len : forall c, length (t c) = RTMSG_LISTENERS_MAX;
  t_perm : forall c, Permutation (active (t c)) (map lst (List.filter (at_conn c) es));
  t_keys : NoDup (map key es) }.
Lemma keyed_key : forall c id x, keyed c id x = true <-> key x = (c, id).
Proof. intros c id [x p]. unfold keyed, on, key. cbn [fst]. rewrite andb_true_iff, Nat.eqb_eq, Z.eqb_eq. split; [intros [-> ->]; reflexivity|intros E; injection E as -> ->; auto]. Qed.
Lemma ids_unique : forall es c, NoDup (map key es) -> NoDup (map l_id (map lst (List.filter (at_conn c) es))).
Proof.
  induction es as [|x es IH]; intros c N; cbn in *; [constructor|]. inversion N as [|? ? NI N']; subst. destruct (at_conn c x) eqn:A; [|now apply IH]. cbn [map]. constructor; [|now apply IH].
  intros H. rewrite map_map in H. apply in_map_iff in H as (y & E & H). apply filter_In in H as [H B]. apply NI. apply in_map_iff. exists y. split; [|exact H].
  unfold at_conn in A, B. apply Nat.eqb_eq in A. apply Nat.eqb_eq in B. unfold key. cbn [lst l_id] in E. rewrite A, B, E. reflexivity.
Qed.
Lemma first_is : forall t es c id, tables t es -> first (fun x => l_id x =? id) (t c) = option_map lst (find (keyed c id) es).
Proof.
  intros t es c id [L P K]. rewrite first_find.
  rewrite (find_perm _ _ _ (P c)).
  - clear. induction es as [|x es IH]; cbn; [reflexivity|]. unfold at_conn at 1, keyed at 1, on. destruct (Nat.eqb (i_conn (fst x)) c); cbn; [|exact IH]. destruct (i_id (fst x) =? id); [reflexivity|exact IH].
  - intros x y X Y FX FY. apply Z.eqb_eq in FX. apply Z.eqb_eq in FY. pose proof (ids_unique es c K) as N.
    apply (map_inj l_id (map lst (List.filter (at_conn c) es))); [exact N|eapply Permutation_in; [apply P|exact X]|eapply Permutation_in; [apply P|exact Y]|congruence].
Qed.
Lemma set_same : forall t c l, set_table t c l c = l.
Proof. intros. unfold set_table. rewrite Nat.eqb_refl. reflexivity. Qed.
Lemma set_other : forall t c l k, k <> c -> set_table t c l k = t k.
Proof. intros t c l k N. unfold set_table. apply Nat.eqb_neq in N. rewrite N. reflexivity. Qed.
Lemma at_conn_map : forall c es, length (List.filter (fun x => Nat.eqb (i_conn x) c) (map fst es)) = length (List.filter (at_conn c) es).
Proof. intros c. induction es as [|x es IH]; cbn; [reflexivity|]. unfold at_conn at 1. destruct (Nat.eqb (i_conn (fst x)) c); cbn; rewrite IH; reflexivity. Qed.
Lemma listen_ok : forall t es x p, tables t es -> (forall y, In y es -> key y <> (i_conn x, i_id x)) -> (length (List.filter (at_conn (i_conn x)) es) < 128)%nat ->
  exists t', listen t (i_conn x) (match i_conn x with O => i_expr x | S _ => raw_topic (i_expr x) (i_id x) end) (i_id x) p = (t', true) /\ tables t' (es ++ [(x, p)]).
Proof.
  intros t es x p [L P K] F R. unfold listen. set (c := i_conn x) in *.
  destruct (put (mkListener (i_id x) (match c with O => i_expr x | S _ => raw_topic (i_expr x) (i_id x) end) (Z.of_nat p)) (t c)) as [l|] eqn:E.
  - destruct (put_some _ _ _ E) as (L' & P' & _). eexists. split; [reflexivity|]. constructor.
    + intros k. destruct (Nat.eq_dec k c) as [->|N]; [rewrite set_same; rewrite L'; apply L|rewrite set_other by exact N; apply L].
    + intros k. rewrite filter_app, map_app. cbn [List.filter]. unfold at_conn at 2. cbn [fst]. fold c. destruct (Nat.eq_dec k c) as [->|N].
      * rewrite set_same, Nat.eqb_refl. cbn [map]. rewrite P', (P c). assert (LE : lst (x, p) = mkListener (i_id x) (match c with O => i_expr x | S _ => raw_topic (i_expr x) (i_id x) end) (Z.of_nat p)) by reflexivity.
        rewrite LE. apply Permutation_cons_append.
      * rewrite set_other by exact N. assert (B : Nat.eqb c k = false) by (apply Nat.eqb_neq; congruence). rewrite B. cbn [map]. rewrite app_nil_r. apply P.
    + rewrite map_app. cbn [map]. apply nodup_end; [exact K|]. intros H. apply in_map_iff in H as (y & EY & H). apply (F y H). rewrite EY. reflexivity.
  - exfalso. pose proof (put_none _ _ E) as N. rewrite L in N. rewrite (Permutation_length (P c)), map_length in N. change RTMSG_LISTENERS_MAX with 128%nat in N. lia.
Qed.
Lemma unlisten_ok : forall t es c id, tables t es ->
  exists t', unlisten t c id = (t', existsb (keyed c id) es) /\ tables t' (List.filter (fun x => negb (keyed c id x)) es).
Proof.
  intros t es c id [L P K]. unfold unlisten. pose proof (ids_unique es c K) as U. destruct (take (fun x => id =? l_id x) (t c)) as [[x l]|] eqn:E.
  - destruct (take_some _ _ _ _ E) as (L' & F & P'). apply Z.eqb_eq in F.
    assert (I : exists y, In y es /\ keyed c id y = true).
    { assert (IX : In x (map lst (List.filter (at_conn c) es))) by (eapply Permutation_in; [apply P|]; eapply Permutation_in; [symmetry; exact P'|left; reflexivity]).
      apply in_map_iff in IX as (y & <- & IX). apply filter_In in IX as [IX B]. exists y. split; [exact IX|]. apply keyed_key. unfold at_conn in B. apply Nat.eqb_eq in B. unfold key. cbn [lst l_id] in F. rewrite B, F. reflexivity. }
    assert (X : existsb (keyed c id) es = true) by (destruct I as (y & I & B); apply existsb_exists; exists y; auto). rewrite X. eexists. split; [reflexivity|]. constructor.
    + intros k. destruct (Nat.eq_dec k c) as [->|N]; [rewrite set_same, L'; apply L|rewrite set_other by exact N; apply L].
    + intros k. rewrite filter_swap. destruct (Nat.eq_dec k c) as [->|N].
      * rewrite set_same. pose proof (perm_filter (fun y => negb (l_id y =? id)) _ _ (Permutation_trans (Permutation_sym P') (P c))) as Q. cbn [List.filter] in Q. rewrite F, Z.eqb_refl in Q. cbn [negb] in Q.
        rewrite (filter_all _ (active l)) in Q.
        -- rewrite Q, filter_map. rewrite (filter_ext' _ (fun x0 => negb (keyed c id x0)) (List.filter (at_conn c) es)); [reflexivity|].
           intros y IY. apply filter_In in IY as [_ B]. unfold keyed, on. unfold at_conn in B. rewrite B. cbn [andb lst l_id]. rewrite F. reflexivity.
        -- intros y IY. apply negb_true_iff, Z.eqb_neq. intros EQ. assert (N : NoDup (map l_id (x :: active l))) by (eapply Permutation_NoDup; [|exact U]; apply Permutation_map; eapply Permutation_trans; [symmetry; apply P|exact P']).
           cbn [map] in N. inversion N as [|? ? NI _]; subst. apply NI. rewrite <- EQ. apply in_map, IY.
      * rewrite set_other by exact N. rewrite (filter_all _ (List.filter (at_conn k) es)); [apply P|]. intros y IY. apply filter_In in IY as [_ B]. unfold at_conn in B. apply Nat.eqb_eq in B. unfold keyed, on. rewrite B.
        assert (NE : Nat.eqb k c = false) by now apply Nat.eqb_neq. rewrite NE. reflexivity.
    + apply nodup_filter, K.
  - assert (X : forall y, In y es -> keyed c id y = false).
    { intros y IY. destruct (keyed c id y) eqn:KY; [|reflexivity]. exfalso. apply keyed_key in KY. unfold key in KY. injection KY as EC EI.
      assert (IN : In (lst y) (active (t c))) by (eapply Permutation_in; [symmetry; apply P|]; apply in_map, filter_In; split; [exact IY|apply Nat.eqb_eq; exact EC]).
      pose proof (take_none _ _ E _ IN) as B. cbn [lst l_id] in B. rewrite EI, Z.eqb_refl in B. discriminate. }
    assert (XB : existsb (keyed c id) es = false) by now apply existsb_none_iff. rewrite XB. exists t. split; [reflexivity|]. rewrite filter_all; [constructor; assumption|]. intros y IY. rewrite X by exact IY. reflexivity.
Qed.
Lemma empty_ok : forall t es c, tables t es -> tables (set_table t c (repeat None RTMSG_LISTENERS_MAX)) (List.filter (fun x => negb (at_conn c x)) es).
Proof.
  intros t es c [L P K]. constructor.
  - intros k. destruct (Nat.eq_dec k c) as [->|N]; [rewrite set_same; reflexivity|rewrite set_other by exact N; apply L].
  - intros k. rewrite filter_swap. destruct (Nat.eq_dec k c) as [->|N].
    + rewrite set_same. rewrite (filter_none _ (List.filter (at_conn c) es)); [reflexivity|]. intros y IY. apply filter_In in IY as [_ B]. rewrite B. reflexivity.
    + rewrite set_other by exact N. rewrite (filter_all _ (List.filter (at_conn k) es)); [apply P|]. intros y IY. apply filter_In in IY as [_ B]. unfold at_conn in *. apply Nat.eqb_eq in B. rewrite B. apply Nat.eqb_neq in N. rewrite N. reflexivity.
  - apply nodup_filter, K.
Qed.

(** ** the relation *)
Record open_rel (isp : list Z -> bool) (s : state) (es : list (entry * nat)) : Prop := mkOpen {
  o_nodup : NoDup (callbacks s);
  o_alive : forall p, In p (callbacks s) -> exists k, nth_error (heap s) p = Some (Some k) /\ (isp (c_expr k) = false -> exists e, In (e, p) es);
  o_entry : forall e p, In (e, p) es -> In p (callbacks s) /\ nth_error (heap s) p = Some (Some (mkContext (i_expr e) (i_handler e) (i_conn e) (i_id e))) /\ isp (i_expr e) = negb (Nat.eqb (i_conn e) 0);
  o_expr : forall a b, In a es -> In b es -> i_conn (fst a) = 0%nat -> i_conn (fst b) = 0%nat -> i_expr (fst a) = i_expr (fst b) -> a = b }.
Record rel (isp : list Z -> bool) (s : state) (i : ideal) (es : list (entry * nat)) : Prop := mkRel {
  r_fst : map fst es = entries i;
  r_names : private s = names i;
  r_npos : forall p, In p (names i) -> snd p <> 0%nat;
  r_tab : tables (TapModel.table s) es;
  r_open : closed i = false -> open_rel isp s es;
  r_closed : closed i = true -> es = [] }.
Lemma rel_start : forall isp, rel isp init nobody [].
Proof.
  intros isp. constructor; cbn; try reflexivity; try (intros p []); try discriminate.
  - constructor; [reflexivity|intros c; reflexivity|constructor].
  - intros _. constructor; [constructor|intros p []|intros e p []|intros a b []].
Qed.
Lemma found : forall isp s i es, rel isp s i es -> forall e, connection_of s e = where_is i e.
Proof. intros isp s i es R e. unfold connection_of, where_is. rewrite (r_names _ _ _ _ R). reflexivity. Qed.
Lemma where_pos : forall isp s i es e c, rel isp s i es -> where_is i e = Some c -> c <> 0%nat.
Proof.
  intros isp s i es e c R W. unfold where_is in W. destruct (find (fun p => bytes_eqb (fst p) e) (names i)) as [p|] eqn:F; [|discriminate]. apply find_some in F as [I _]. injection W as <-. exact (r_npos _ _ _ _ R p I).
Qed.
Lemma filter_fst : forall (f : entry -> bool) es, List.filter f (map fst es) = map fst (List.filter (fun x : entry * nat => f (fst x)) es).
Proof. intros f es. apply filter_map. Qed.
Lemma existsb_fst : forall (f : entry -> bool) es, existsb f (map fst es) = existsb (fun x : entry * nat => f (fst x)) es.
Proof. intros f. induction es as [|x es IH]; cbn; [reflexivity|]. rewrite IH. reflexivity. Qed.
Lemma find_fst : forall (f : entry -> bool) es, find f (map fst es) = option_map fst (find (fun x : entry * nat => f (fst x)) es).
Proof. intros f. induction es as [|x es IH]; cbn; [reflexivity|]. destruct (f (fst x)); [reflexivity|exact IH]. Qed.

(** adding *)
Lemma add_ok : forall isp s i es x, rel isp s i es -> closed i = false -> isp (i_expr x) = negb (Nat.eqb (i_conn x) 0) ->
  (forall y, In y (entries i) -> on (i_conn x) (i_id x) y = false) -> (i_conn x = 0%nat -> forall y, In y (entries i) -> i_expr y <> i_expr x) -> room i (i_conn x) ->
  exists s', add s (i_conn x) (i_expr x) (match i_conn x with O => i_expr x | S _ => raw_topic (i_expr x) (i_id x) end) (i_id x) (i_handler x) = (s', E_SUCCESS) /\
  rel isp s' (mkIdeal (entries i ++ [x]) (names i) (closed i)) (es ++ [(x, length (heap s))]).
Proof.
  intros isp s i es x R CL IP NK NE RM. destruct R as [FS NM NP TB OP CO]. specialize (OP CL). destruct OP as [ON OA OE OX].
  assert (FR : forall y, In y es -> key y <> (i_conn x, i_id x)).
  { intros y IY KE. assert (B : on (i_conn x) (i_id x) (fst y) = true) by (apply keyed_key in KE; exact KE). rewrite NK in B; [discriminate|]. rewrite <- FS. apply in_map, IY. }
  unfold room in RM. rewrite <- FS, at_conn_map in RM.
  destruct (listen_ok (TapModel.table s) es x (length (heap s)) TB FR RM) as (t' & LI & TB'). unfold add. rewrite LI. eexists. split; [reflexivity|]. constructor; cbn [entries names closed heap callbacks TapModel.table private].
  - rewrite map_app, FS. reflexivity.
  - exact NM.
  - exact NP.
  - exact TB'.
  - intros _. assert (NL : ~ In (length (heap s)) (callbacks s)).
    { intros I. destruct (OA _ I) as (k & E & _). assert (length (heap s) < length (heap s))%nat by (apply nth_error_Some; congruence). lia. }
    constructor; cbn [callbacks heap].
    + apply nodup_end; assumption.
    + intros p I. apply in_app_iff in I as [I|[<-|[]]].
      * destruct (OA p I) as (k & E & H). exists k. split; [apply app_old; exact E|]. intros F. destruct (H F) as (e & IE). exists e. apply in_app_iff. left. exact IE.
      * exists (mkContext (i_expr x) (i_handler x) (i_conn x) (i_id x)). split; [apply app_new|]. intros _. exists x. apply in_app_iff. right. left. reflexivity.
    + intros e p I. apply in_app_iff in I as [I|[E|[]]].
      * destruct (OE e p I) as (A & B & C). split; [apply in_app_iff; left; exact A|]. split; [apply app_old; exact B|exact C].
      * injection E as <- <-. split; [apply in_app_iff; right; left; reflexivity|]. split; [apply app_new|exact IP].
    + intros a b IA IB CA CB EE. apply in_app_iff in IA. apply in_app_iff in IB. destruct IA as [IA|[<-|[]]], IB as [IB|[<-|[]]]; [apply OX; assumption| | |reflexivity]; cbn [fst] in *; exfalso.
      * apply (NE CB (fst a)); [rewrite <- FS; apply in_map, IA|exact EE].
      * apply (NE CA (fst b)); [rewrite <- FS; apply in_map, IB|congruence].
  - congruence.
Qed.

(** removing *)
Lemma key_unique : forall es a b, NoDup (map key es) -> In a es -> In b es -> key a = key b -> a = b.
Proof. intros es a b N A B E. exact (map_inj key es a b N A B E). Qed.
(** the listener [id] of connection [c] goes; the context that goes is its own, or none *)
Lemma remove_ok : forall isp s i es c topic id, rel isp s i es -> closed i = false ->
  (forall p, In p (callbacks s) -> carries (heap s) topic p -> exists e, In (e, p) es /\ on c id e = true) ->
  (c = 0%nat -> forall e, In e (entries i) -> on c id e = true -> i_expr e = topic) ->
  exists s' es', remove s c topic id = Ok (s', if existsb (on c id) (entries i) then E_SUCCESS else E_BUS_ERROR) /\ rel isp s' (without (on c id) i) es'.
Proof.
  intros isp s i es c topic id R CL OWN MAIN. destruct R as [FS NM NP TB OP CO]. specialize (OP CL). destruct OP as [ON OA OE OX]. pose proof (t_keys _ _ TB) as KU.
  destruct (unlisten_ok (TapModel.table s) es c id TB) as (t' & UL & TB'). unfold remove.
  set (es' := List.filter (fun x => negb (keyed c id x)) es) in *.
  assert (FS' : map fst es' = entries (without (on c id) i)) by (cbn [without entries]; rewrite <- FS, filter_fst; reflexivity).
  assert (EX : existsb (keyed c id) es = existsb (on c id) (entries i)) by (rewrite <- FS, existsb_fst; reflexivity).
  assert (AL : alive (heap s) (callbacks s)) by (intros p I; destruct (OA p I) as (k & E & _); exists k; exact E).
  destruct (drop_spec topic (callbacks s) (heap s) AL ON) as [[D F]|(p & I & C & D)]; rewrite D; cbn [obind]; rewrite UL, EX.
  - eexists. exists es'. split; [reflexivity|]. constructor; cbn [without entries names closed heap callbacks TapModel.table private]; try assumption; [|congruence].
    intros _. constructor; cbn [callbacks heap]; [exact ON| | |].
    + intros p I. destruct (OA p I) as (k & E & H). exists k. split; [exact E|]. intros X. destruct (H X) as (e & IE). exists e. apply filter_In. split; [exact IE|].
      destruct (keyed c id (e, p)) eqn:KE; [|reflexivity]. exfalso. unfold keyed in KE. cbn [fst] in KE. destruct (OE e p IE) as (_ & E' & IP). rewrite E in E'. injection E' as ->. cbn [c_expr] in X.
      rewrite X in IP. symmetry in IP. apply negb_false_iff, Nat.eqb_eq in IP.
      assert (C0 : c = 0%nat) by (unfold on in KE; apply andb_prop in KE as [KE _]; apply Nat.eqb_eq in KE; congruence).
      apply (F p I). eexists. split; [exact E|]. cbn [c_expr]. apply (MAIN C0 e); [rewrite <- FS; change e with (fst (e, p)); apply in_map, IE|exact KE].
    + intros e p I. apply filter_In in I as [I _]. apply OE, I.
    + intros a b IA IB. apply filter_In in IA as [IA _]. apply filter_In in IB as [IB _]. apply OX; assumption.
  - destruct (OWN p I C) as (e0 & IE0 & ON0). eexists. exists es'. split; [reflexivity|]. constructor; cbn [without entries names closed heap callbacks TapModel.table private]; try assumption; [|congruence].
    assert (HP : nth_error (heap s) p <> None) by (destruct (AL p I) as (k & E); congruence).
    intros _. constructor; cbn [callbacks heap].
    + apply NoDup_filter, ON.
    + intros q IQ. apply filter_In in IQ as [IQ NQ]. apply negb_true_iff, Nat.eqb_neq in NQ. destruct (OA q IQ) as (k & E & H). exists k. rewrite freed_other by assumption. split; [exact E|]. intros X. destruct (H X) as (e & IE). exists e.
      apply filter_In. split; [exact IE|]. destruct (keyed c id (e, q)) eqn:KE; [|reflexivity]. exfalso. apply NQ.
      assert (EQ : (e, q) = (e0, p)) by (apply (key_unique es); try assumption; apply keyed_key in KE; assert (K0 : keyed c id (e0, p) = true) by exact ON0; apply keyed_key in K0; congruence). congruence.
    + intros e q IQ. apply filter_In in IQ as [IQ NQ]. destruct (OE e q IQ) as (A & B & IP). apply negb_true_iff in NQ.
      assert (QP : q <> p).
      { intros ->. destruct (OE e0 p IE0) as (_ & B0 & _). rewrite B in B0. injection B0 as _ _ E1 E2. unfold keyed in NQ. cbn [fst] in NQ. unfold on in *. rewrite E1, E2 in NQ. congruence. }
      split; [apply filter_In; split; [exact A|apply negb_true_iff, Nat.eqb_neq; exact QP]|]. split; [rewrite freed_other by assumption; exact B|exact IP].
    + intros a b IA IB. apply filter_In in IA as [IA _]. apply filter_In in IB as [IB _]. apply OX; assumption.
Qed.
(** all go *)
Lemma remove_all_ok : forall l h t es, tables t es -> alive h l -> NoDup l ->
  exists h' t' es', remove_all h t l = Ok (h', t') /\ tables t' es' /\ (forall x, In x es' -> In x es /\ forall p k, In p l -> nth_error h p = Some (Some k) -> keyed 0 (c_id k) x = false).
Proof.
  induction l as [|p l IH]; intros h t es T A N; cbn [remove_all].
  - exists h, t, es. split; [reflexivity|]. split; [exact T|]. intros x I. split; [exact I|]. intros p k [].
  - destruct (A p (or_introl eq_refl)) as (k & E). rewrite (deref_ok _ _ _ E). cbn [obind]. destruct (unlisten_ok t es 0 (c_id k) T) as (t1 & -> & T1). rewrite (release_ok _ _ _ E). cbn [obind].
    inversion N as [|? ? NI N']; subst. assert (HP : nth_error h p <> None) by congruence.
    assert (A1 : alive (freed h p) l) by (intros q I; destruct (A q (or_intror I)) as (k' & E'); exists k'; rewrite freed_other; [exact E'| |exact HP]; intros ->; exact (NI I)).
    destruct (IH (freed h p) t1 _ T1 A1 N') as (h' & t' & es' & R & T' & H). exists h', t', es'. split; [exact R|]. split; [exact T'|].
    intros x I. destruct (H x I) as [I1 K]. apply filter_In in I1 as [I1 NK]. split; [exact I1|]. intros q k' [<-|IQ] EQ.
    + rewrite E in EQ. injection EQ as <-. apply negb_true_iff in NK. exact NK.
    + apply (K q k' IQ). rewrite freed_other; [exact EQ| |exact HP]. intros ->. exact (NI IQ).
Qed.

(** ** one step *)
Lemma step_ok : forall isp s i es o, rel isp s i es -> proper_step isp i o ->
  exists s' es', step s o = Ok (s', snd (ideal_step i o)) /\ rel isp s' (fst (ideal_step i o)) es'.
Proof.
  intros isp s i es o R P. destruct o as [e id h|e id|e id h|e id| |e|c id q|e c|e|c]; cbn [proper_step] in P; cbn [step ideal_step].
  - destruct P as (CL & IP & NE & RM). destruct (add_ok isp s i es (mkEntry 0 e id h) R CL) as (s' & A & R'); cbn [i_expr i_conn i_id]; auto.
    + intros y I. exact (proj2 (NE y I)).
    + intros _ y I. exact (proj1 (NE y I)).
    + cbn [i_conn i_expr i_id i_handler] in A. rewrite A. exists s'. eexists. split; [reflexivity|exact R'].
  - destruct P as (CL & IP & EQ). destruct (remove_ok isp s i es 0 e id R CL) as (s' & es' & A & R').
    + intros p I (k & E & X). destruct R as [FS NM NP TB OP CO]. specialize (OP CL). destruct OP as [ON OA OE OX]. destruct (OA p I) as (k' & E' & H). rewrite E in E'. injection E' as <-.
      destruct H as (x & IX); [congruence|]. exists x. split; [exact IX|]. destruct (OE x p IX) as (_ & E2 & IP2). rewrite E in E2. injection E2 as ->. cbn [c_expr] in X. rewrite X, IP in IP2. symmetry in IP2. apply negb_false_iff, Nat.eqb_eq in IP2.
      unfold on. rewrite IP2, Nat.eqb_refl. cbn [andb]. apply Z.eqb_eq. apply EQ; [rewrite <- FS; change x with (fst (x, p)); apply in_map, IX|exact IP2|exact X].
    + intros _ x I O. unfold on in O. apply andb_prop in O as [O1 O2]. apply Nat.eqb_eq in O1. apply Z.eqb_eq in O2. apply EQ; assumption.
    + rewrite A. cbn [obind]. exists s', es'. split; [reflexivity|exact R'].
  - destruct P as (CL & IP & C). rewrite (found _ _ _ _ R). destruct (where_is i e) as [c|] eqn:W; [|exists s, es; split; [reflexivity|exact R]].
    destruct (C c eq_refl) as [NK RM]. pose proof (where_pos _ _ _ _ _ _ R W) as C0.
    destruct (add_ok isp s i es (mkEntry c e id h) R CL) as (s' & A & R'); cbn [i_expr i_conn i_id]; auto.
    + rewrite IP. apply Nat.eqb_neq in C0. rewrite C0. reflexivity.
    + cbn [i_conn i_expr i_id i_handler] in A. destruct c as [|c]; [congruence|]. rewrite A. exists s'. eexists. split; [reflexivity|exact R'].
  - destruct P as (CL & IP & NE). rewrite (found _ _ _ _ R). destruct (where_is i e) as [c|] eqn:W; [|exists s, es; split; [reflexivity|exact R]]. pose proof (where_pos _ _ _ _ _ _ R W) as C0.
    destruct (remove_ok isp s i es c (raw_topic e id) id R CL) as (s' & es' & A & R').
    + intros p I (k & E & X). exfalso. destruct R as [FS NM NP TB OP CO]. specialize (OP CL). destruct OP as [ON OA OE OX]. destruct (OA p I) as (k' & E' & H). rewrite E in E'. injection E' as <-.
      destruct H as (x & IX); [congruence|]. destruct (OE x p IX) as (_ & E2 & _). rewrite E in E2. injection E2 as ->. cbn [c_expr] in X. apply (NE x); [rewrite <- FS; change x with (fst (x, p)); apply in_map, IX|exact X].
    + congruence.
    + rewrite A. cbn [obind]. exists s', es'. split; [reflexivity|exact R'].
  - destruct P as (CL & MN). destruct R as [FS NM NP TB OP CO]. specialize (OP CL). destruct OP as [ON OA OE OX].
    assert (AL : alive (heap s) (callbacks s)) by (intros p I; destruct (OA p I) as (k & E & _); exists k; exact E).
    destruct (remove_all_ok (callbacks s) (heap s) (TapModel.table s) es TB AL ON) as (h' & t' & es' & RA & TB' & H). rewrite RA. cbn [obind].
    assert (EN : es' = []).
    { destruct es' as [|x es']; [reflexivity|]. exfalso. destruct (H x (or_introl eq_refl)) as [I K]. destruct x as [x p]. destruct (OE x p I) as (IC & E & _). specialize (K p _ IC E). cbn [c_id] in K.
      assert (C0 : i_conn x = 0%nat) by (apply MN; rewrite <- FS; change x with (fst (x, p)); apply in_map, I). unfold keyed, on in K. cbn [fst] in K. rewrite C0, Nat.eqb_refl, Z.eqb_refl in K. discriminate. }
    subst es'. eexists. exists []. split; [reflexivity|]. constructor; cbn [fst entries names closed heap callbacks TapModel.table private]; try assumption; try reflexivity; congruence.
  - destruct P as [CL IP]. pose proof R as RR. destruct R as [FS NM NP TB OP CO]. specialize (OP CL). destruct OP as [ON OA OE OX].
    assert (AL : alive (heap s) (callbacks s)) by (intros p I; destruct (OA p I) as (k & E & _); exists k; exact E).
    destruct (has_spec e (callbacks s) (heap s) AL) as (b & HB & HE). rewrite HB. cbn [obind]. exists s, es. split; [|exact RR]. cbn [snd]. repeat f_equal.
    apply eq_iff_eq_true. rewrite HE, existsb_exists. split.
    + intros (p & I & k & E & X). destruct (OA p I) as (k' & E' & H). rewrite E in E'. injection E' as <-. destruct H as (x & IX); [congruence|]. exists x. split; [rewrite <- FS; change x with (fst (x, p)); apply in_map, IX|].
      destruct (OE x p IX) as (_ & E2 & _). rewrite E in E2. injection E2 as ->. cbn [c_expr] in X. rewrite X. apply bytes_eqb_refl.
    + intros (x & I & X). apply bytes_eqb_eq in X. rewrite <- FS in I. apply in_map_iff in I as ((x' & p) & EX & I). cbn [fst] in EX. subst x'. destruct (OE x p I) as (A & E & _). exists p. split; [exact A|]. eexists. split; [exact E|exact X].
  - pose proof R as RR. destruct R as [FS NM NP TB OP CO]. rewrite (first_is (TapModel.table s) es c id TB). rewrite <- FS, find_fst.
    change (fun x : entry * nat => on c id (fst x)) with (keyed c id). destruct (find (keyed c id) es) as [[x p]|] eqn:F; cbn [option_map].
    + apply find_some in F as [I K]. destruct (closed i) eqn:CL; [specialize (CO eq_refl); subst es; destruct I|]. specialize (OP eq_refl). destruct (o_entry _ _ _ OP x p I) as (_ & E & _).
      cbn [lst l_closure snd]. rewrite Nat2Z.id, (deref_ok _ _ _ E). cbn [obind c_conn c_handler fst]. exists s, es. unfold keyed, on in K. cbn [fst] in K. apply andb_prop in K as [K _]. apply Nat.eqb_eq in K. rewrite K. split; [reflexivity|exact RR].
    + exists s, es. split; [reflexivity|exact RR].
  - destruct R as [FS NM NP TB OP CO]. eexists. exists es. split; [reflexivity|]. constructor; cbn [fst entries names closed heap callbacks TapModel.table private]; try assumption.
    + rewrite NM. reflexivity.
    + intros p I. apply in_app_iff in I as [I|[<-|[]]]; [exact (NP p I)|discriminate].
    + intros CL. specialize (OP CL). destruct OP. constructor; assumption.
  - rewrite (found _ _ _ _ R). destruct (where_is i e) as [c|] eqn:W; [|exists s, es; split; [reflexivity|exact R]].
    assert (SUB : forall p, In p (drop_name e (names i)) -> In p (names i)).
    { generalize (names i). clear. induction l as [|x l IH]; intros p I; cbn in *; [exact I|]. destruct (bytes_eqb (fst x) e); [right; exact I|]. destruct I as [->|I]; [left; reflexivity|right; apply IH, I]. }
    destruct R as [FS NM NP TB OP CO]. rewrite NM. destruct (existsb (fun p => Nat.eqb (snd p) c) (drop_name e (names i))) eqn:EX.
    + eexists. exists es. split; [reflexivity|]. constructor; cbn [fst entries names closed heap callbacks TapModel.table private]; try assumption; [reflexivity|intros p I; apply NP, SUB, I|].
      intros CL. specialize (OP CL). destruct OP. constructor; assumption.
    + eexists. exists (List.filter (fun x => negb (at_conn c x)) es). split; [reflexivity|]. constructor; cbn [fst entries names closed heap callbacks TapModel.table private]; [|reflexivity|intros p I; apply NP, SUB, I|apply empty_ok, TB| |].
      * rewrite <- FS, filter_fst. reflexivity.
      * intros CL. specialize (OP CL). destruct OP as [ON OA OE OX]. assert (C0 : c <> 0%nat) by (unfold where_is in W; destruct (find (fun p => bytes_eqb (fst p) e) (names i)) as [p|] eqn:F; [|discriminate]; apply find_some in F as [I _]; injection W as <-; exact (NP p I)).
        constructor; [exact ON| | |].
        -- intros p I. destruct (OA p I) as (k & E & H). exists k. split; [exact E|]. intros X. destruct (H X) as (x & IX). exists x. apply filter_In. split; [exact IX|]. destruct (OE x p IX) as (_ & E2 & IP). rewrite E in E2. injection E2 as ->. cbn [c_expr] in X. rewrite X in IP. symmetry in IP. apply negb_false_iff, Nat.eqb_eq in IP.
           unfold at_conn. cbn [fst]. rewrite IP. apply negb_true_iff, Nat.eqb_neq. congruence.
        -- intros x p I. apply filter_In in I as [I _]. apply OE, I.
        -- intros a b IA IB. apply filter_In in IA as [IA _]. apply filter_In in IB as [IB _]. apply OX; assumption.
      * intros CL. rewrite (CO CL). reflexivity.
  - destruct R as [FS NM NP TB OP CO]. eexists. exists (List.filter (fun x => negb (at_conn (S c) x)) es). split; [reflexivity|]. constructor; cbn [fst entries names closed heap callbacks TapModel.table private].
    + rewrite <- FS, filter_fst. reflexivity.
    + rewrite NM. reflexivity.
    + intros p I. apply filter_In in I as [I _]. exact (NP p I).
    + apply empty_ok, TB.
    + intros CL. specialize (OP CL). destruct OP as [ON OA OE OX]. constructor; [exact ON| | |].
      * intros p I. destruct (OA p I) as (k & E & H). exists k. split; [exact E|]. intros X. destruct (H X) as (x & IX). exists x. apply filter_In. split; [exact IX|]. destruct (OE x p IX) as (_ & E2 & IP). rewrite E in E2. injection E2 as ->. cbn [c_expr] in X. rewrite X in IP. symmetry in IP. apply negb_false_iff, Nat.eqb_eq in IP.
        unfold at_conn. cbn [fst]. rewrite IP. reflexivity.
      * intros x p I. apply filter_In in I as [I _]. apply OE, I.
      * intros a b IA IB. apply filter_In in IA as [IA _]. apply filter_In in IB as [IB _]. apply OX; assumption.
    + intros CL. rewrite (CO CL). reflexivity.
Qed.
Lemma run_ok : forall isp l s i es, rel isp s i es -> proper isp i l -> exists s', run s l = Ok (s', ideal_run i l).
Proof.
  intros isp. induction l as [|o l IH]; intros s i es R P; [exists s; reflexivity|]. destruct P as [P1 P2]. destruct (step_ok isp s i es o R P1) as (s1 & es1 & ST & R1). cbn [run ideal_run]. rewrite ST. cbn [obind].
  destruct (ideal_step i o) as [i1 r1]. cbn [fst snd] in *. destruct (IH s1 i1 es1 R1 P2) as (s' & RU). exists s'. rewrite RU. reflexivity.
Qed.
