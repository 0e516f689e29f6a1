(** Proofs about DirectModel. *)
From Coq Require Import String Lia ZifyBool.
From Verif Require Import VecFacts Common CommonFacts Bytes HeaderModel HeaderSpec HeaderProofs MsgModel MsgSpec MsgProofs VecList LinkModel DirectModel DirectSpec.
Local Open Scope list_scope.
Local Open Scope Z_scope.

(** ** names *)
Lemma short_eq a b : (length a <= 255)%nat -> (length b <= 255)%nat -> strneq 256 a b = true <-> a = b.
Proof.
  intros A B. unfold strneq. rewrite bytes_eqb_eq.
  change (Z.to_nat 256) with 256%nat. rewrite !firstn_all2 by lia. reflexivity.
Qed.
Lemma short_neq a b : (length a <= 255)%nat -> (length b <= 255)%nat -> strneq 256 a b = false <-> a <> b.
Proof.
  intros A B. pose proof (short_eq a b A B) as H. destruct (strneq 256 a b).
  - split; [discriminate|]. intros N. destruct N. now apply H.
  - split; [|reflexivity]. intros _ e. apply H in e. discriminate.
Qed.
Lemma copied_len s : (length (copied s) <= 255)%nat.
Proof. unfold copied. rewrite firstn_length. lia. Qed.
Lemma copied_id s : (length s <= 255)%nat -> copied s = s.
Proof. intros H. unfold copied. now rewrite firstn_all2 by lia. Qed.
Lemma address_len E c : (length (address E c) <= 255)%nat.
Proof. unfold address. rewrite firstn_length. lia. Qed.
Lemma fits_full E c : fits_consumer E c -> address E c = bs "unix:///tmp/.direct_" ++ prog E ++ bs "_" ++ c.
Proof.
  intros F. pose proof (address_len E c) as L. unfold fits_consumer in F. unfold address in *.
  apply firstn_all2. rewrite !app_length. change (length (bs "unix:///tmp/.direct_")) with 20%nat. change (length (bs "_")) with 1%nat. lia.
Qed.
Lemma fits_len E c : fits_consumer E c -> (length c <= 255)%nat.
Proof. intros F. pose proof (address_len E c). unfold fits_consumer in F. lia. Qed.
Lemma address_inj E c d : fits_consumer E c -> fits_consumer E d -> address E c = address E d -> c = d.
Proof.
  intros A B e. rewrite (fits_full E c A), (fits_full E d B) in e.
  apply app_inv_head in e. apply app_inv_head in e. now apply app_inv_head in e.
Qed.

(** ** the heap *)
Lemma deref_lt h p e : deref h p = Ok e -> (p < length h)%nat.
Proof. unfold deref. intros D. apply nth_error_Some. intros N. now rewrite N in D. Qed.
Lemma deref_store h p e q : (p < length h)%nat ->
  deref (store h p e) q = if Nat.eqb q p then match e with Some e => Ok e | None => UB end else deref h q.
Proof.
  intros L. unfold deref, store. destruct (Nat.eqb_spec q p) as [->|N].
  - rewrite upd_nth_eq by exact L. now destruct e.
  - now rewrite upd_nth_neq by (intros X; apply N; now symmetry).
Qed.
Lemma store_len h p e : (p < length h)%nat -> length (store h p e) = length h.
Proof. intros L. apply upd_length. Qed.
Lemma deref_app h e q : deref (h ++ [Some e]) q = if Nat.eqb q (length h) then Ok e else deref h q.
Proof.
  unfold deref. destruct (Nat.eqb_spec q (length h)) as [->|N].
  - now rewrite nth_error_app2, Nat.sub_diag by lia.
  - destruct (Nat.ltb_spec q (length h)).
    + now rewrite nth_error_app1.
    + rewrite nth_error_app2 by lia. assert (X : nth_error h q = None) by (apply nth_error_None; lia). rewrite X.
      destruct (q - length h)%nat eqn:K; [lia|]. cbn. now destruct n.
Qed.
Definition valid (h : list (option entry)) (v : list nat) : Prop := forall p, In p v -> exists e, deref h p = Ok e.
Lemma first_item_spec h q v : valid h v -> exists o, first_item h q v = Ok o /\
  match o with
  | Some p => In p v /\ exists e, deref h p = Ok e /\ q e = true
  | None => forall p e, In p v -> deref h p = Ok e -> q e = false
  end.
Proof.
  induction v as [|p v IH]; intros V; cbn [first_item].
  - exists None. split; [reflexivity|]. intros p e [].
  - destruct (V p (or_introl eq_refl)) as [e D]. rewrite D. cbn [obind].
    destruct (q e) eqn:Q.
    + exists (Some p). split; [reflexivity|]. split; [now left|]. now exists e.
    + destruct IH as (o & F & S). { intros x I. apply V. now right. }
      exists o. split; [exact F|]. destruct o as [x|].
      * destruct S as [I S]. split; [now right|exact S].
      * intros x f [<-|I] G; [congruence|now apply (S x)].
Qed.
Lemma drop_item_in p v x : NoDup v -> In x (drop_item p v) <-> In x v /\ x <> p.
Proof.
  induction v as [|y v IH]; intros N; cbn [drop_item]; [cbn; tauto|]. inversion N as [|? ? M N']. subst.
  destruct (Nat.eqb_spec y p) as [->|K].
  - split; [intros I; split; [now right|intros ->; contradiction]|]. intros [[<-|I] Q]; [contradiction|exact I].
  - cbn [In]. rewrite (IH N'). split; [intros [<-|[I Q]]; [split; [now left|exact K]|split; [now right|exact Q]]|].
    intros [[<-|I] Q]; [now left|right; now split].
Qed.
Lemma drop_item_nodup p v : NoDup v -> NoDup (drop_item p v).
Proof.
  induction v as [|y v IH]; intros N; cbn [drop_item]; [constructor|]. inversion N as [|? ? M N']. subst.
  destruct (Nat.eqb y p); [exact N'|]. constructor; [|now apply IH]. rewrite drop_item_in by exact N'. tauto.
Qed.
Lemma drop_addr_spec a v : forall h, NoDup v -> valid h v -> exists h' v', drop_addr h a v = Ok (h', v') /\ NoDup v' /\ length h' = length h /\
  (forall p, In p v' <-> In p v /\ exists e, deref h p = Ok e /\ at_addr a e = false) /\
  (forall p, ~ In p v \/ In p v' -> deref h' p = deref h p).
Proof.
  induction v as [|p v IH]; intros h N V; cbn [drop_addr].
  - exists h, []. split; [reflexivity|]. split; [constructor|]. split; [reflexivity|]. split; [cbn; tauto|]. reflexivity.
  - inversion N as [|? ? M N']. subst. destruct (V p (or_introl eq_refl)) as [e D]. rewrite D. cbn [obind].
    destruct (IH h N') as (h' & v' & F & N2 & L & I & K). { intros x X. apply V. now right. }
    rewrite F. cbn [obind]. pose proof (deref_lt _ _ _ D) as Lt. destruct (at_addr a e) eqn:A.
    + exists (store h' p None), v'. split; [reflexivity|]. split; [exact N2|]. split; [rewrite store_len; lia|]. split.
      * intros q. rewrite I. cbn [In]. split; [intros [X Y]; split; [now right|exact Y]|]. intros [[<-|X] (f & G & B)]; [congruence|]. split; [exact X|]. now exists f.
      * intros q Q. rewrite deref_store by lia. destruct (Nat.eqb_spec q p) as [->|Z].
        -- destruct Q as [Q|Q]; [destruct Q; now left|]. apply I in Q. destruct Q. contradiction.
        -- apply K. destruct Q as [Q|Q]; [left; intros X; apply Q; now right|now right].
    + exists h', (p :: v'). split; [reflexivity|]. split; [constructor; [rewrite I; tauto|exact N2]|]. split; [exact L|]. split.
      * intros q. cbn [In]. rewrite I. split.
        -- intros [<-|[X Y]]; [split; [now left|now exists e]|split; [now right|exact Y]].
        -- intros [[<-|X] Y]; [now left|]. right. now split.
      * intros q Q. apply K. destruct Q as [Q|[<-|Q]]; [left; intros X; apply Q; now right|now left|now right].
Qed.
Definition told (i : info) (e : entry) : entry := if strneq 256 (n_consumer e) (i_topic i) then mkEntry (n_addr e) (n_consumer e) (n_dml e) (n_handler e) i else e.
Lemma told_twice i e : told i (told i e) = told i e.
Proof. unfold told. destruct (strneq 256 (n_consumer e) (i_topic i)) eqn:S; cbn [n_consumer n_addr n_dml n_handler]; now rewrite S. Qed.
Lemma tell_info_spec i v : forall h, valid h v -> exists h', tell_info h i v = Ok h' /\ length h' = length h /\
  (forall p, In p v -> exists e, deref h p = Ok e /\ deref h' p = Ok (told i e)) /\
  (forall p, ~ In p v -> deref h' p = deref h p).
Proof.
  induction v as [|p v IH]; intros h V; cbn [tell_info].
  - exists h. repeat split; try reflexivity. intros p [].
  - destruct (V p (or_introl eq_refl)) as [e D]. rewrite D. cbn [obind]. pose proof (deref_lt _ _ _ D) as Lt.
    set (h1 := if strneq 256 (n_consumer e) (i_topic i) then _ else h).
    assert (H1 : length h1 = length h /\ forall q, deref h1 q = if Nat.eqb q p then Ok (told i e) else deref h q).
    { unfold h1, told. destruct (strneq 256 (n_consumer e) (i_topic i)).
      - split; [now apply store_len|]. intros q. now apply deref_store.
      - split; [reflexivity|]. intros q. destruct (Nat.eqb_spec q p) as [->|]; [exact D|reflexivity]. }
    destruct H1 as [L1 H1]. clearbody h1.
    destruct (IH h1) as (h' & F & L & I & K).
    { intros x X. rewrite H1. destruct (Nat.eqb x p); [eauto|]. apply V. now right. }
    exists h'. split; [exact F|]. split; [lia|]. split.
    + intros q [<-|X].
      * exists e. split; [exact D|]. destruct (in_dec Nat.eq_dec p v) as [Y|Y].
        -- destruct (I p Y) as (f & A & B). rewrite H1, Nat.eqb_refl in A. injection A as <-. now rewrite B, told_twice.
        -- rewrite K by exact Y. now rewrite H1, Nat.eqb_refl.
      * destruct (I q X) as (f & A & B). rewrite H1 in A. destruct (Nat.eqb_spec q p) as [->|].
        -- injection A as <-. exists e. split; [exact D|]. now rewrite B, told_twice.
        -- now exists f.
    + intros q Q. rewrite K by (intros X; apply Q; now right). rewrite H1. destruct (Nat.eqb_spec q p) as [->|]; [destruct Q; now left|reflexivity].
Qed.

(** ** the invariant *)
Local Opaque address copied.
Lemma set_peer_same P c x : set_peer P c x c = x.
Proof. unfold set_peer. now rewrite bytes_eqb_refl. Qed.
Lemma set_peer_other P c x d : d <> c -> set_peer P c x d = P d.
Proof. intros N. unfold set_peer. apply bytes_eqb_neq in N. now rewrite N. Qed.
Lemma set_phase_nth ts t x y q : nth_error ts t = Some y ->
  nth_error (set_phase ts t x) q = if Nat.eqb q t then Some (mkThread (t_addr y) x) else nth_error ts q.
Proof.
  intros N. unfold set_phase. rewrite N. assert (L : (t < length ts)%nat) by (apply nth_error_Some; congruence).
  destruct (Nat.eqb_spec q t) as [->|Q]; [now rewrite upd_nth_eq|]. now rewrite upd_nth_neq by (intros X; apply Q; now symmetry).
Qed.
Definition item (s : state) (p : nat) (e : entry) : Prop := In p (vec s) /\ deref (heap s) p = Ok e.
Definition runs (s : state) (t : nat) (a : name) (x : phase) : Prop := nth_error (threads s) t = Some (mkThread a x).
Definition busy (s : state) (x : phase) : Prop := match x with Waiting => True | Serving fd => alive s fd = true | Ended => False end.
Record Inv (E : env) (s : state) : Prop := {
  v_nodup : NoDup (vec s);
  v_valid : valid (heap s) (vec s);
  v_item : forall p e, item s p e -> n_addr e = address E (n_consumer e) /\ n_handler e = owner E (n_dml e) /\ fits_consumer E (n_consumer e) /\ fits_name (n_dml e) /\
             forall fd, p_conn (peers s (n_consumer e)) = Some fd -> n_info e = mkInfo fd 1 (n_consumer e);
  v_open : forall c d, In d (p_open (peers s c)) -> fits_consumer E c /\ fits_name d /\ exists p e, item s p e /\ n_consumer e = c /\ n_dml e = d;
  v_one : forall t u a x y, runs s t a x -> runs s u a y -> x <> Ended -> y <> Ended -> t = u;
  v_conn : forall c fd, p_conn (peers s c) = Some fd -> p_open (peers s c) <> [] /\ alive s fd = true /\ exists t, runs s t (address E c) (Serving fd);
  v_wait : forall c, p_conn (peers s c) = None -> p_open (peers s c) <> [] -> exists t, runs s t (address E c) Waiting;
  v_thread : forall p e, item s p e -> exists t x, runs s t (n_addr e) x /\ x <> Ended;
  v_used : forall t a x, runs s t a x -> busy s x -> exists p e, item s p e /\ n_addr e = a;
  v_fd : forall t a fd, runs s t a (Serving fd) -> (0 < fd <= conns s)%nat;
  v_fds : forall t u a b fd, runs s t a (Serving fd) -> runs s u b (Serving fd) -> t = u;
  v_alive : forall t a fd, runs s t a (Serving fd) -> alive s fd = true -> exists c, p_conn (peers s c) = Some fd /\ address E c = a;
  v_nodupo : forall c, NoDup (p_open (peers s c)) }.

Lemma Inv_init E : Inv E init.
Proof.
  assert (R : forall t a x, ~ runs init t a x) by (intros [|t] a x H; discriminate).
  constructor; unfold item; cbn [vec heap init peers p_open p_conn In].
  - constructor.
  - intros p [].
  - tauto.
  - tauto.
  - intros t u a x y H. now destruct (R t a x).
  - discriminate.
  - intros c _ N. now destruct N.
  - tauto.
  - intros t a x H. now destruct (R t a x).
  - intros t a x H. now destruct (R t a (Serving x)).
  - intros t u a b x H. now destruct (R t a (Serving x)).
  - intros t a x H. now destruct (R t a (Serving x)).
  - intros c. constructor.
Qed.
Lemma conn_fits E s c fd : Inv E s -> p_conn (peers s c) = Some fd -> fits_consumer E c.
Proof.
  intros I C. destruct (v_conn E s I c fd C) as (N & _). destruct (p_open (peers s c)) as [|d l] eqn:P; [now destruct N|].
  apply (v_open E s I c d). rewrite P. now left.
Qed.
Lemma open_fits E s c : Inv E s -> p_open (peers s c) <> [] -> fits_consumer E c.
Proof.
  intros I N. destruct (p_open (peers s c)) as [|d l] eqn:P; [now destruct N|]. apply (v_open E s I c d). rewrite P. now left.
Qed.
Lemma conn_inj E s c d fd : Inv E s -> p_conn (peers s c) = Some fd -> p_conn (peers s d) = Some fd -> c = d.
Proof.
  intros I C D. destruct (v_conn E s I c fd C) as (_ & _ & t & T). destruct (v_conn E s I d fd D) as (_ & _ & u & U).
  pose proof (v_fds E s I t u _ _ fd T U) as X. subst u. unfold runs in *. assert (e : address E c = address E d) by congruence.
  apply (address_inj E); [now apply (conn_fits E s c fd)|now apply (conn_fits E s d fd)|exact e].
Qed.
Lemma item_here E s p e : Inv E s -> item s p e -> (length (n_consumer e) <= 255)%nat /\ (length (n_dml e) <= 255)%nat /\ (length (n_addr e) <= 255)%nat.
Proof.
  intros I H. destruct (v_item E s I p e H) as (A & _ & F & G & _). split; [now apply (fits_len E)|]. split; [exact G|]. rewrite A. apply address_len.
Qed.

Lemma Inv_open E s c d s1 : Inv E s -> fits_consumer E c -> fits_name d -> settled E s c -> ~ In d (p_open (peers s c)) ->
  start_listener s (address E c) c d (owner E d) = Ok s1 ->
  Inv E (mkState (heap s1) (vec s1) (threads s1) (set_peer (peers s1) c (mkPeer (p_open (peers s c) ++ [d]) (p_conn (peers s c)))) (alive s1) (conns s1) (found s1)).
Proof.
  intros I Fc Fd Se Nd. unfold start_listener.
  destruct (first_item_spec (heap s) (at_addr (address E c)) (vec s) (v_valid E s I)) as (o & F & S). rewrite F. cbn [obind].
  rewrite (copied_id c) by now apply (fits_len E). rewrite (copied_id d) by exact Fd. rewrite (copied_id (address E c)) by apply address_len.
  (* the information that is copied *)
  assert (W : exists i, match o with None => Ok no_info | Some p => do e <- deref (heap s) p ; Ok (n_info e) end = @Ok unit info i /\
              (forall fd, p_conn (peers s c) = Some fd -> i = mkInfo fd 1 c) /\ (o <> None -> exists p e, item s p e /\ n_addr e = address E c)).
  { destruct o as [p|].
    - destruct S as (Ip & e & D & Q). rewrite D. cbn [obind]. exists (n_info e). split; [reflexivity|].
      assert (It : item s p e) by (split; assumption). destruct (item_here E s p e I It) as (_ & _ & L).
      apply short_eq in Q; [|exact L|apply address_len]. destruct (v_item E s I p e It) as (A & _ & G & _ & H).
      assert (X : n_consumer e = c) by (apply (address_inj E); congruence). rewrite X in H. split; [exact H|]. intros _. now exists p, e.
    - exists no_info. split; [reflexivity|]. split; [|congruence]. intros fd C. exfalso.
      destruct (v_conn E s I c fd C) as (N & _). destruct (p_open (peers s c)) as [|x l] eqn:P; [now destruct N|].
      destruct (v_open E s I c x) as (_ & _ & p & e & It & Ec & _); [rewrite P; now left|].
      destruct (v_item E s I p e It) as (A & _). pose proof (item_here E s p e I It) as (_ & _ & L). destruct It as [Ip D].
      pose proof (S p e Ip D) as Q. apply short_neq in Q; [|exact L|apply address_len]. apply Q. rewrite A. now rewrite Ec. }
  destruct W as (i & Wi & Wc & Wo). rewrite Wi. cbn [obind]. intros R. injection R as <-. cbn [heap vec threads peers alive conns found].
  set (e0 := mkEntry (address E c) c d (owner E d) i).
  (* threads *)
  set (ts := match o with None => threads s ++ [mkThread (address E c) Waiting] | Some _ => threads s end).
  assert (T1 : forall t a x, nth_error (threads s) t = Some (mkThread a x) -> nth_error ts t = Some (mkThread a x)).
  { intros t a x H. unfold ts. destruct o; [exact H|]. rewrite nth_error_app1; [exact H|]. apply nth_error_Some. congruence. }
  assert (T2 : forall t a x, nth_error ts t = Some (mkThread a x) -> nth_error (threads s) t = Some (mkThread a x) \/
             (o = None /\ t = length (threads s) /\ a = address E c /\ x = Waiting)).
  { intros t a x H. unfold ts in H. destruct o as [p|]; [now left|].
    destruct (Nat.ltb_spec t (length (threads s))); [left; now rewrite nth_error_app1 in H|]. right.
    rewrite nth_error_app2 in H by lia. destruct (t - length (threads s))%nat eqn:K; [|now destruct n].
    cbn in H. injection H as <- <-. repeat split; lia. }
  assert (T3 : o = None -> forall t x, runs s t (address E c) x -> x = Ended).
  { intros -> t x H. destruct x as [|fd|]; [| |reflexivity]; exfalso.
    - destruct (v_used E s I t _ Waiting H Logic.I) as (p & e & It & A). destruct (item_here E s p e I It) as (_ & _ & L). destruct It as [Ip D].
      pose proof (S p e Ip D) as Q. apply short_neq in Q; [now apply Q|exact L|apply address_len].
    - destruct (v_used E s I t _ _ H (Se t fd H)) as (p & e & It & A). destruct (item_here E s p e I It) as (_ & _ & L). destruct It as [Ip D].
      pose proof (S p e Ip D) as Q. apply short_neq in Q; [now apply Q|exact L|apply address_len]. }
  assert (V1 : forall p, In p (vec s) -> (p < length (heap s))%nat).
  { intros p Ip. destruct (v_valid E s I p Ip) as [e D]. now apply deref_lt in D. }
  (* items *)
  set (s2 := mkState (heap s ++ [Some e0]) (vec s ++ [length (heap s)]) ts (set_peer (peers s) c (mkPeer (p_open (peers s c) ++ [d]) (p_conn (peers s c)))) (alive s) (conns s) (found s)).
  assert (I1 : forall p e, item s p e -> item s2 p e).
  { intros p e [Ip D]. split; [apply in_or_app; now left|]. cbn. rewrite deref_app. pose proof (V1 p Ip). destruct (Nat.eqb_spec p (length (heap s))); [lia|exact D]. }
  assert (I2 : forall p e, item s2 p e -> item s p e \/ (p = length (heap s) /\ e = e0)).
  { intros p e [Ip D]. cbn in Ip, D. rewrite deref_app in D. apply in_app_or in Ip. destruct Ip as [Ip|[<-|[]]].
    - left. split; [exact Ip|]. pose proof (V1 p Ip). destruct (Nat.eqb_spec p (length (heap s))); [lia|exact D].
    - right. rewrite Nat.eqb_refl in D. now injection D as <-. }
  assert (I0 : item s2 (length (heap s)) e0).
  { split; [apply in_or_app; right; now left|]. cbn. now rewrite deref_app, Nat.eqb_refl. }
  assert (Pc : forall x, p_conn (peers s2 x) = p_conn (peers s x)).
  { intros x. cbn. unfold set_peer. destruct (bytes_eqb x c) eqn:X; [apply bytes_eqb_eq in X; now subst|reflexivity]. }
  constructor; fold s2.
  - cbn. apply nodup_app_intro; [apply (v_nodup E s I)|repeat constructor; tauto|]. intros x X [<-|[]]. specialize (V1 _ X). lia.
  - intros p Ip. cbn in Ip. apply in_app_or in Ip. destruct Ip as [Ip|[<-|[]]].
    + destruct (v_valid E s I p Ip) as [e D]. destruct (I1 p e (conj Ip D)) as [_ D2]. now exists e.
    + exists e0. apply I0.
  - intros p e It. destruct (I2 p e It) as [Old|[-> ->]].
    + destruct (v_item E s I p e Old) as (A & B & C & D & G). repeat (split; [assumption|]). intros fd. rewrite Pc. apply G.
    + cbn [n_addr n_consumer n_dml n_handler n_info e0]. repeat (split; [reflexivity || assumption|]). intros fd. rewrite Pc. apply Wc.
  - intros x y Iy. destruct (bytes_eqb x c) eqn:X.
    + apply bytes_eqb_eq in X. subst x. cbn in Iy. rewrite set_peer_same in Iy. cbn [p_open] in Iy. apply in_app_or in Iy. destruct Iy as [Iy|[<-|[]]].
      * destruct (v_open E s I c y Iy) as (A & B & p & e & It & C). split; [exact A|]. split; [exact B|]. exists p, e. split; [now apply I1|exact C].
      * split; [exact Fc|]. split; [exact Fd|]. now exists (length (heap s)), e0.
    + apply bytes_eqb_neq in X. cbn in Iy. rewrite set_peer_other in Iy by exact X.
      destruct (v_open E s I x y Iy) as (A & B & p & e & It & C). split; [exact A|]. split; [exact B|]. exists p, e. split; [now apply I1|exact C].
  - intros t u a x y Ht Hu Nx Ny. unfold runs in Ht, Hu. cbn in Ht, Hu.
    destruct (T2 t a x Ht) as [Ot|(On & -> & -> & ->)]; destruct (T2 u _ y Hu) as [Ou|(On' & Eu & Ea & Ey)].
    + now apply (v_one E s I t u a x y).
    + subst a. destruct Nx. now apply (T3 On' t).
    + destruct Ny. now apply (T3 On u).
    + now subst.
  - intros x fd C. rewrite Pc in C. destruct (v_conn E s I x fd C) as (N & Al & t & T). split; [|split; [exact Al|exists t; now apply T1]].
    cbn. unfold set_peer. destruct (bytes_eqb x c); [|exact N]. cbn. intros X. now apply app_eq_nil in X.
  - intros x C N. rewrite Pc in C. destruct (bytes_eqb x c) eqn:X.
    + apply bytes_eqb_eq in X. subst x. destruct o as [p0|] eqn:Eo.
      * destruct (Wo ltac:(discriminate)) as (p & e & It & A). destruct (v_thread E s I p e It) as (t & ph & R & NE). rewrite A in R.
        destruct ph as [|fd|]; [exists t; now apply T1| |congruence]. exfalso.
        destruct (v_alive E s I t _ fd R (Se t fd R)) as (c' & C' & A'). assert (c' = c) by (apply (address_inj E); [now apply (conn_fits E s c' fd)|exact Fc|exact A']). congruence.
      * exists (length (threads s)). unfold runs, s2, ts. cbn [threads]. rewrite nth_error_app2 by lia. now rewrite Nat.sub_diag.
    + apply bytes_eqb_neq in X. cbn in N. rewrite set_peer_other in N by exact X. destruct (v_wait E s I x C N) as [t T]. exists t. now apply T1.
  - intros p e It. destruct (I2 p e It) as [Old|[-> ->]].
    + destruct (v_thread E s I p e Old) as (t & x & R & N). exists t, x. split; [now apply T1|exact N].
    + cbn [n_addr e0]. destruct o as [p0|] eqn:Eo.
      * destruct (Wo ltac:(discriminate)) as (p & e & It' & A). destruct (v_thread E s I p e It') as (t & x & R & N). rewrite A in R. exists t, x. split; [now apply T1|exact N].
      * exists (length (threads s)), Waiting. split; [|discriminate]. unfold runs, s2, ts. cbn [threads]. rewrite nth_error_app2 by lia. now rewrite Nat.sub_diag.
  - intros t a x R B. unfold runs in R. cbn in R. destruct (T2 t a x R) as [Ot|(On & -> & -> & ->)].
    + destruct (v_used E s I t a x Ot B) as (p & e & It & A). exists p, e. split; [now apply I1|exact A].
    + now exists (length (heap s)), e0.
  - intros t a fd R. unfold runs in R. cbn in R. destruct (T2 t a _ R) as [Ot|(On & -> & -> & X)]; [now apply (v_fd E s I t a)|discriminate].
  - intros t u a b fd Rt Ru. unfold runs in Rt, Ru. cbn in Rt, Ru.
    destruct (T2 t a _ Rt) as [Ot|(_ & _ & _ & X)]; [|discriminate]. destruct (T2 u b _ Ru) as [Ou|(_ & _ & _ & X)]; [|discriminate].
    now apply (v_fds E s I t u a b fd).
  - intros t a fd R Al. unfold runs in R. cbn in R, Al. destruct (T2 t a _ R) as [Ot|(_ & _ & _ & X)]; [|discriminate].
    destruct (v_alive E s I t a fd Ot Al) as (x & C & A). exists x. rewrite Pc. now split.
  - intros x. cbn. unfold set_peer. destruct (bytes_eqb x c); [|apply (v_nodupo E s I)]. cbn.
    apply nodup_app_intro; [apply (v_nodupo E s I)|repeat constructor; tauto|]. intros y Y [<-|[]]. contradiction.
Qed.

Lemma told_at i e : (length (n_consumer e) <= 255)%nat -> (length (i_topic i) <= 255)%nat ->
  told i e = if bytes_eqb (n_consumer e) (i_topic i) then mkEntry (n_addr e) (n_consumer e) (n_dml e) (n_handler e) i else e.
Proof.
  intros A B. unfold told. destruct (strneq 256 (n_consumer e) (i_topic i)) eqn:S.
  - apply short_eq in S; [|exact A|exact B]. now rewrite S, bytes_eqb_refl.
  - apply short_neq in S; [|exact A|exact B]. apply bytes_eqb_neq in S. now rewrite S.
Qed.

Lemma Inv_attach E s c t h : Inv E s -> runs s t (address E c) Waiting -> p_conn (peers s c) = None -> p_open (peers s c) <> [] ->
  tell_info (heap s) (mkInfo (S (conns s)) 1 (copied c)) (vec s) = Ok h ->
  Inv E (mkState h (vec s) (set_phase (threads s) t (Serving (S (conns s)))) (set_peer (peers s) c (mkPeer (p_open (peers s c)) (Some (S (conns s)))))
              (fun n => if Nat.eqb n (S (conns s)) then true else alive s n) (S (conns s)) (found s)).
Proof.
  intros I Rt Cn No T. pose proof (open_fits E s c I No) as Fc. rewrite (copied_id c) in T by now apply (fits_len E).
  set (fd := S (conns s)) in *.
  destruct (tell_info_spec (mkInfo fd 1 c) (vec s) (heap s) (v_valid E s I)) as (h' & T' & L & K & _). rewrite T in T'. injection T' as <-.
  set (s2 := mkState _ _ _ _ _ _ _).
  set (tell := fun e => if bytes_eqb (n_consumer e) c then mkEntry (n_addr e) (n_consumer e) (n_dml e) (n_handler e) (mkInfo fd 1 c) else e).
  assert (I1 : forall p e, item s p e -> item s2 p (tell e)).
  { intros p e [Ip D]. split; [exact Ip|]. destruct (K p Ip) as (f & A & B). cbn. rewrite B. rewrite A in D. injection D as ->.
    destruct (item_here E s p e I (conj Ip A)) as (X & _). rewrite told_at; [reflexivity|exact X|now apply (fits_len E)]. }
  assert (I2 : forall p e, item s2 p e -> exists e', item s p e' /\ e = tell e').
  { intros p e [Ip D]. cbn in Ip, D. destruct (K p Ip) as (f & A & B). exists f. split; [now split|]. rewrite B in D. injection D as <-.
    destruct (item_here E s p f I (conj Ip A)) as (X & _). rewrite told_at; [reflexivity|exact X|now apply (fits_len E)]. }
  assert (F1 : forall e, n_addr (tell e) = n_addr e /\ n_consumer (tell e) = n_consumer e /\ n_dml (tell e) = n_dml e /\ n_handler (tell e) = n_handler e).
  { intros e. unfold tell. destruct (bytes_eqb (n_consumer e) c); repeat split. }
  assert (R : forall u a x, runs s2 u a x <-> (u = t /\ a = address E c /\ x = Serving fd) \/ (u <> t /\ runs s u a x)).
  { intros u a x. unfold runs, s2. cbn [threads]. rewrite (set_phase_nth _ _ _ _ u Rt). cbn [t_addr]. destruct (Nat.eqb_spec u t) as [->|N].
    - split; [intros H; left; repeat split; congruence|]. intros [(_ & -> & ->)|[N _]]; [reflexivity|now destruct N].
    - split; [intros H; right; now split|]. intros [(N' & _)|[_ H]]; [contradiction|exact H]. }
  assert (Po : forall x, p_open (peers s2 x) = p_open (peers s x)).
  { intros x. cbn. unfold set_peer. destruct (bytes_eqb x c) eqn:X; [apply bytes_eqb_eq in X; now subst|reflexivity]. }
  assert (Al : forall f, (f <= conns s)%nat -> alive s2 f = alive s f).
  { intros f Lf. cbn. destruct (Nat.eqb_spec f fd); [unfold fd in *; lia|reflexivity]. }
  assert (Old : forall u a f, runs s2 u a (Serving f) -> u <> t -> (0 < f <= conns s)%nat /\ runs s u a (Serving f)).
  { intros u a f H N. apply R in H. destruct H as [(X & _)|[_ H]]; [contradiction|]. split; [now apply (v_fd E s I u a)|exact H]. }
  constructor.
  - apply (v_nodup E s I).
  - intros p Ip. destruct (v_valid E s I p Ip) as [e D]. destruct (I1 p e (conj Ip D)) as [_ D2]. eauto.
  - intros p e It. destruct (I2 p e It) as (e' & It' & ->). destruct (F1 e') as (A1 & A2 & A3 & A4). rewrite A1, A2, A3, A4.
    destruct (v_item E s I p e' It') as (B1 & B2 & B3 & B4 & B5). repeat (split; [assumption|]). intros f. cbn. unfold tell.
    destruct (bytes_eqb (n_consumer e') c) eqn:X.
    + apply bytes_eqb_eq in X. rewrite X, set_peer_same. cbn. congruence.
    + apply bytes_eqb_neq in X. rewrite set_peer_other by exact X. apply B5.
  - intros x y Iy. rewrite Po in Iy. destruct (v_open E s I x y Iy) as (A & B & p & e & It & C1 & C2). split; [exact A|]. split; [exact B|].
    exists p, (tell e). destruct (F1 e) as (A1 & A2 & A3 & A4). split; [now apply I1|]. split; congruence.
  - intros u w a x y Hu Hw Nx Ny. apply R in Hu. apply R in Hw. destruct Hu as [(-> & -> & ->)|[Nu Hu]]; destruct Hw as [(-> & Ea & ->)|[Nw Hw]].
    + reflexivity.
    + apply (v_one E s I t w _ Waiting y Rt Hw); [discriminate|exact Ny].
    + subst a. apply (v_one E s I u t _ x Waiting Hu Rt Nx). discriminate.
    + now apply (v_one E s I u w a x y).
  - intros x f C. destruct (bytes_eqb x c) eqn:X.
    + apply bytes_eqb_eq in X. subst x. rewrite Po. cbn in C. rewrite set_peer_same in C. injection C as <-. split; [exact No|]. split; [cbn; now rewrite Nat.eqb_refl|].
      exists t. apply R. left. repeat split.
    + apply bytes_eqb_neq in X. rewrite Po. cbn in C. rewrite set_peer_other in C by exact X. destruct (v_conn E s I x f C) as (N & A & u & U). split; [exact N|].
      pose proof (v_fd E s I u _ f U) as Lf. split; [rewrite Al by lia; exact A|]. exists u. apply R. right. split; [|exact U]. intros ->. unfold runs in *. congruence.
  - intros x C N. rewrite Po in N. destruct (bytes_eqb x c) eqn:X.
    + apply bytes_eqb_eq in X. subst x. cbn in C. rewrite set_peer_same in C. discriminate.
    + apply bytes_eqb_neq in X. cbn in C. rewrite set_peer_other in C by exact X. destruct (v_wait E s I x C N) as (u & U). exists u. apply R. right. split; [|exact U].
      intros ->. apply X. apply (address_inj E); [now apply (open_fits E s)|exact Fc|]. unfold runs in *. congruence.
  - intros p e It. destruct (I2 p e It) as (e' & It' & ->). destruct (F1 e') as (A1 & _). rewrite A1.
    destruct (v_thread E s I p e' It') as (u & x & U & N). destruct (Nat.eq_dec u t) as [->|Nu].
    + exists t, (Serving fd). split; [|discriminate]. apply R. left. repeat split. unfold runs in *. congruence.
    + exists u, x. split; [|exact N]. apply R. right. now split.
  - intros u a x H B. apply R in H. destruct H as [(-> & -> & ->)|[Nu H]].
    + destruct (v_used E s I t _ Waiting Rt Logic.I) as (p & e & It & A). exists p, (tell e). split; [now apply I1|]. destruct (F1 e) as (A1 & _). congruence.
    + assert (B' : busy s x). { destruct x as [|f|]; [exact Logic.I| |exact B]. cbn in B |- *. pose proof (v_fd E s I u a f H) as Lf. now rewrite <- (Al f) by lia. }
      destruct (v_used E s I u a x H B') as (p & e & It & A). exists p, (tell e). split; [now apply I1|]. destruct (F1 e) as (A1 & _). congruence.
  - intros u a f H. apply R in H. cbn. destruct H as [(_ & _ & X)|[_ H]]; [injection X as ->; unfold fd; lia|]. pose proof (v_fd E s I u a f H). unfold fd. lia.
  - intros u w a b f Hu Hw. destruct (Nat.eq_dec u t) as [->|Nu]; destruct (Nat.eq_dec w t) as [->|Nw]; [reflexivity| | |].
    + destruct (Old w b f Hw Nw) as [Lf _]. apply R in Hu. destruct Hu as [(_ & _ & X)|[X _]]; [injection X as ->; unfold fd in *; lia|now destruct X].
    + destruct (Old u a f Hu Nu) as [Lf _]. apply R in Hw. destruct Hw as [(_ & _ & X)|[X _]]; [injection X as ->; unfold fd in *; lia|now destruct X].
    + destruct (Old u a f Hu Nu) as [_ A]. destruct (Old w b f Hw Nw) as [_ B]. now apply (v_fds E s I u w a b f).
  - intros u a f H A. apply R in H. destruct H as [(_ & -> & X)|[Nu H]].
    + injection X as ->. exists c. split; [cbn; now rewrite set_peer_same|reflexivity].
    + pose proof (v_fd E s I u a f H) as Lf. rewrite Al in A by lia. destruct (v_alive E s I u a f H A) as (x & C & D). exists x. split; [|exact D].
      cbn. rewrite set_peer_other; [exact C|]. intros ->. congruence.
  - intros x. rewrite Po. apply (v_nodupo E s I).
Qed.

(* a consumer loses its parameters and its connection; the list of the provider stays *)
Lemma Inv_leave E s c : Inv E s ->
  Inv E (mkState (heap s) (vec s) (threads s) (set_peer (peers s) c (mkPeer [] None)) (hang_up (alive s) (p_conn (peers s c))) (conns s) (found s)).
Proof.
  intros I. set (s2 := mkState _ _ _ _ _ _ _).
  assert (Pp : forall x, x <> c -> peers s2 x = peers s x) by (intros x N; cbn; now apply set_peer_other).
  assert (Pc : peers s2 c = mkPeer [] None) by (cbn; apply set_peer_same).
  assert (D1 : forall x, x = c \/ x <> c). { intros x. destruct (bytes_eqb x c) eqn:X; [left; now apply bytes_eqb_eq|right; now apply bytes_eqb_neq]. }
  assert (Al : forall f, alive s2 f = true -> alive s f = true /\ p_conn (peers s c) <> Some f).
  { intros f. cbn. unfold hang_up. destruct (p_conn (peers s c)) as [k|]; [|split; [assumption|discriminate]].
    destruct (Nat.eqb_spec f k); [discriminate|]. split; [assumption|congruence]. }
  assert (Al2 : forall f, alive s f = true -> p_conn (peers s c) <> Some f -> alive s2 f = true).
  { intros f A N. cbn. unfold hang_up. destruct (p_conn (peers s c)) as [k|]; [|exact A]. destruct (Nat.eqb_spec f k); [congruence|exact A]. }
  constructor.
  - apply (v_nodup E s I).
  - apply (v_valid E s I).
  - intros p e It. destruct (v_item E s I p e It) as (B1 & B2 & B3 & B4 & B5). repeat (split; [assumption|]). intros f C.
    destruct (D1 (n_consumer e)) as [X|X]; [rewrite X, Pc in C; discriminate|]. rewrite Pp in C by exact X. now apply B5.
  - intros x y Iy. destruct (D1 x) as [->|X]; [rewrite Pc in Iy; destruct Iy|]. rewrite Pp in Iy by exact X. now apply (v_open E s I).
  - apply (v_one E s I).
  - intros x f C. destruct (D1 x) as [->|X]; [rewrite Pc in C; discriminate|]. rewrite Pp in C |- * by exact X. destruct (v_conn E s I x f C) as (N & A & t & T).
    split; [exact N|]. split; [|now exists t]. apply Al2; [exact A|]. intros Y. apply X. now apply (conn_inj E s x c f).
  - intros x C N. destruct (D1 x) as [->|X]; [rewrite Pc in N; now destruct N|]. rewrite Pp in C, N by exact X. now apply (v_wait E s I).
  - apply (v_thread E s I).
  - intros t a x R B. apply (v_used E s I t a x R). destruct x as [|f|]; [exact Logic.I| |exact B]. cbn. now apply Al in B.
  - apply (v_fd E s I).
  - apply (v_fds E s I).
  - intros t a f R A. apply Al in A. destruct A as [A N]. destruct (v_alive E s I t a f R A) as (x & C & D). exists x. split; [|exact D].
    rewrite Pp; [exact C|]. intros ->. contradiction.
  - intros x. destruct (D1 x) as [->|X]; [rewrite Pc; constructor|]. rewrite Pp by exact X. apply (v_nodupo E s I).
Qed.

Lemma Inv_close E s c d fd s1 : Inv E s -> p_conn (peers s c) = Some fd -> In d (p_open (peers s c)) ->
  update_listener s c d = Ok s1 ->
  let l := List.filter (fun n => negb (bytes_eqb n d)) (p_open (peers s c)) in
  let last := match l with [] => true | _ => false end in
  Inv E (mkState (heap s1) (vec s1) (threads s1) (set_peer (peers s1) c (mkPeer l (if last then None else Some fd)))
            (if last then hang_up (alive s1) (Some fd) else alive s1) (conns s1) (found s1)).
Proof.
  intros I C Id U. cbv zeta. unfold update_listener in U.
  destruct (v_open E s I c d Id) as (Fc & Fd & p0 & e0 & It0 & Ec0 & Ed0).
  destruct (first_item_spec (heap s) (for_both d c) (vec s) (v_valid E s I)) as (o & F & S). rewrite F in U. cbn [obind] in U.
  assert (Lc : (length c <= 255)%nat) by now apply (fits_len E).
  destruct o as [p|]; [|exfalso; destruct It0 as [Ip0 D0]; pose proof (S p0 e0 Ip0 D0) as Q; unfold for_both in Q; rewrite Ec0, Ed0, !strneq_eq, !bytes_eqb_refl in Q by (unfold fits_name in *; lia); discriminate].
  injection U as <-. cbn [heap vec threads peers alive conns found].
  destruct S as (Ip & e & De & Q). apply andb_prop in Q. destruct Q as [Q1 Q2]. destruct (item_here E s p e I (conj Ip De)) as (L1 & L2 & _).
  apply short_eq in Q1; [|exact L2|exact Fd]. apply short_eq in Q2; [|exact L1|exact Lc].
  set (l := List.filter _ _). set (last := match l with [] => true | _ => false end). set (s2 := mkState _ _ _ _ _ _ _).
  assert (D1 : forall x, x = c \/ x <> c). { intros x. destruct (bytes_eqb x c) eqn:X; [left; now apply bytes_eqb_eq|right; now apply bytes_eqb_neq]. }
  assert (Pp : forall x, x <> c -> peers s2 x = peers s x) by (intros x N; cbn; now apply set_peer_other).
  assert (Pc : peers s2 c = mkPeer l (if last then None else Some fd)) by (cbn; apply set_peer_same).
  assert (Il : forall y, In y l <-> In y (p_open (peers s c)) /\ y <> d).
  { intros y. unfold l. rewrite filter_In. rewrite Bool.negb_true_iff. now rewrite bytes_eqb_neq. }
  assert (La : last = true <-> l = []). { unfold last. destruct l; split; congruence. }
  assert (Lt : (p < length (heap s))%nat) by now apply deref_lt in De.
  assert (It2 : forall q f, item s2 q f <-> item s q f /\ q <> p).
  { intros q f. unfold item, s2. cbn [vec heap]. rewrite drop_item_in by apply (v_nodup E s I). rewrite deref_store by exact Lt.
    destruct (Nat.eqb_spec q p); [split; [intros [[_ X] _]|intros [_ X]]; contradiction|tauto]. }
  assert (Al : forall f, alive s2 f = true -> alive s f = true /\ (last = true -> f <> fd)).
  { intros f. cbn. destruct last; [|split; [assumption|discriminate]]. cbn. destruct (Nat.eqb_spec f fd); [discriminate|]. now split. }
  assert (Al2 : forall f, alive s f = true -> (last = true -> f <> fd) -> alive s2 f = true).
  { intros f A N. cbn. destruct last; [|exact A]. cbn. destruct (Nat.eqb_spec f fd); [now destruct (N eq_refl)|exact A]. }
  assert (Op : forall x y, In y (p_open (peers s2 x)) -> In y (p_open (peers s x)) /\ (x = c -> y <> d)).
  { intros x y Iy. destruct (D1 x) as [->|X]; [rewrite Pc in Iy; cbn in Iy; apply Il in Iy; tauto|]. rewrite Pp in Iy by exact X. split; [exact Iy|]. contradiction. }
  destruct (v_conn E s I c fd C) as (No & Afd & tc & Tc).
  constructor.
  - cbn. apply drop_item_nodup, (v_nodup E s I).
  - intros q Iq. cbn in Iq. rewrite drop_item_in in Iq by apply (v_nodup E s I). destruct Iq as [Iq N]. destruct (v_valid E s I q Iq) as [f Df]. exists f.
    cbn. rewrite deref_store by exact Lt. now destruct (Nat.eqb_spec q p).
  - intros q f It. apply It2 in It. destruct It as [It _]. destruct (v_item E s I q f It) as (B1 & B2 & B3 & B4 & B5). repeat (split; [assumption|]). intros g G.
    apply B5. destruct (D1 (n_consumer f)) as [X|X]; [rewrite X, Pc in G; cbn in G; rewrite X; destruct last; congruence|]. now rewrite Pp in G by exact X.
  - intros x y Iy. apply Op in Iy. destruct Iy as [Iy N]. destruct (v_open E s I x y Iy) as (A & B & q & f & It & C1 & C2). split; [exact A|]. split; [exact B|].
    exists q, f. split; [|now split]. apply It2. split; [exact It|]. intros ->. assert (f = e) by (destruct It; congruence). subst f.
    apply N; congruence.
  - apply (v_one E s I).
  - intros x f Cf. destruct (D1 x) as [->|X].
    + rewrite Pc in Cf |- *. cbn in Cf |- *. destruct last eqn:El; [discriminate|]. injection Cf as <-. split; [intros Y; apply La in Y; congruence|].
      split; [exact Afd|now exists tc].
    + rewrite Pp in Cf |- * by exact X. destruct (v_conn E s I x f Cf) as (N & A & t & T). split; [exact N|]. split; [|now exists t].
      apply Al2; [exact A|]. intros _ ->. apply X. now apply (conn_inj E s x c fd).
  - intros x Cx N. destruct (D1 x) as [->|X].
    + rewrite Pc in Cx, N. cbn in Cx, N. destruct last eqn:El; [|discriminate]. destruct N. now apply La.
    + rewrite Pp in Cx, N by exact X. now apply (v_wait E s I).
  - intros q f It. apply It2 in It. now apply (v_thread E s I q f).
  - intros t a x R B.
    assert (B' : busy s x) by (destruct x as [|f|]; [exact Logic.I| |exact B]; cbn in *; now apply Al in B).
    destruct (v_used E s I t a x R B') as (q & f & It & A). destruct (Nat.eq_dec q p) as [->|N]; [|exists q, f; split; [now apply It2|exact A]].
    assert (f = e) by (destruct It; congruence). subst f. destruct (v_item E s I p e It) as (A' & _). rewrite Q2 in A'. assert (Ea : a = address E c) by congruence.
    destruct l as [|y l'] eqn:El.
    + exfalso. rewrite Ea in R. pose proof (v_one E s I t tc _ x (Serving fd) R Tc) as X.
      assert (t = tc) by (apply X; [intros ->; exact B|discriminate]). subst t. assert (Ex : Some (mkThread (address E c) x) = Some (mkThread (address E c) (Serving fd))) by (rewrite <- R; exact Tc).
      assert (x = Serving fd) by congruence. subst x.
      cbn in B. rewrite Nat.eqb_refl in B. discriminate.
    + destruct (proj1 (Il y) (or_introl eq_refl)) as [Iy Ny].
      destruct (v_open E s I c y Iy) as (_ & _ & q & f & Itq & C1 & C2). exists q, f. split.
      * apply It2. split; [exact Itq|]. intros ->. assert (f = e) by (destruct Itq; congruence). subst f. congruence.
      * destruct (v_item E s I q f Itq) as (Aq & _). congruence.
  - apply (v_fd E s I).
  - apply (v_fds E s I).
  - intros t a f R A. apply Al in A. destruct A as [A N]. destruct (v_alive E s I t a f R A) as (x & Cx & Dx). exists x. split; [|exact Dx].
    destruct (D1 x) as [->|X]; [|now rewrite Pp by exact X]. rewrite Pc. cbn. destruct last; [|congruence]. exfalso. apply (N eq_refl). congruence.
  - intros x. destruct (D1 x) as [->|X]; [rewrite Pc; cbn; apply NoDup_filter, (v_nodupo E s I)|]. rewrite Pp by exact X. apply (v_nodupo E s I).
Qed.

Lemma Inv_end E s t a fd h v : Inv E s -> runs s t a (Serving fd) -> alive s fd = false -> drop_addr (heap s) a (vec s) = Ok (h, v) ->
  Inv E (mkState h v (set_phase (threads s) t Ended) (peers s) (alive s) (conns s) (found s)).
Proof.
  intros I Rt Dead Dr. destruct (drop_addr_spec a (vec s) (heap s) (v_nodup E s I) (v_valid E s I)) as (h' & v' & Dr' & Nd & L & Iv & K).
  rewrite Dr in Dr'. injection Dr' as <- <-. set (s2 := mkState _ _ _ _ _ _ _).
  assert (Ad : forall q f, item s q f -> at_addr a f = false <-> n_addr f <> a).
  { intros q f It. destruct (item_here E s q f I It) as (_ & _ & L1). unfold at_addr. rewrite strneq_eq by lia. apply bytes_eqb_neq. }
  assert (It2 : forall q f, item s2 q f <-> item s q f /\ n_addr f <> a).
  { intros q f. unfold item, s2. cbn [vec heap]. rewrite Iv. split.
    - intros [[Iq (f' & D & Z)] D2]. assert (In q v) by (apply Iv; split; [exact Iq|now exists f']). rewrite K in D2 by now right.
      assert (f' = f) by congruence. subst f'. split; [now split|]. now apply (Ad q f).
    - intros [[Iq D] N]. assert (X : at_addr a f = false) by now apply (Ad q f). split; [split; [exact Iq|now exists f]|].
      rewrite K; [exact D|]. right. apply Iv. split; [exact Iq|now exists f]. }
  assert (R : forall u b x, runs s2 u b x <-> (u = t /\ b = a /\ x = Ended) \/ (u <> t /\ runs s u b x)).
  { intros u b x. unfold runs, s2. cbn [threads]. rewrite (set_phase_nth _ _ _ _ u Rt). cbn [t_addr]. destruct (Nat.eqb_spec u t) as [->|N].
    - split; [intros H; left; repeat split; congruence|]. intros [(_ & -> & ->)|[N _]]; [reflexivity|now destruct N].
    - split; [intros H; right; now split|]. intros [(N' & _)|[_ H]]; [contradiction|exact H]. }
  assert (Nt : forall c, p_open (peers s c) <> [] -> address E c <> a).
  { intros c N e. subst a. destruct (p_conn (peers s c)) as [f|] eqn:C.
    - destruct (v_conn E s I c f C) as (_ & A & u & U). assert (u = t) by (apply (v_one E s I u t _ _ _ U Rt); discriminate). subst u. unfold runs in *. congruence.
    - destruct (v_wait E s I c C N) as (u & U). assert (u = t) by (apply (v_one E s I u t _ _ _ U Rt); discriminate). subst u. unfold runs in *. congruence. }
  constructor.
  - exact Nd.
  - intros q Iq. cbn in Iq |- *. rewrite K by now right. apply Iv in Iq. destruct Iq as [_ (f & D & _)]. now exists f.
  - intros q f It. apply It2 in It. now apply (v_item E s I q f).
  - intros c d Id. destruct (v_open E s I c d Id) as (A & B & q & f & It & C1 & C2). split; [exact A|]. split; [exact B|]. exists q, f. split; [|now split].
    apply It2. split; [exact It|]. destruct (v_item E s I q f It) as (Af & _). rewrite Af, C1. apply Nt. cbn in Id. intros X. rewrite X in Id. destruct Id.
  - intros u w b x y Hu Hw Nx Ny. apply R in Hu. apply R in Hw. destruct Hu as [(_ & _ & X)|[_ Hu]]; [contradiction|]. destruct Hw as [(_ & _ & X)|[_ Hw]]; [contradiction|].
    now apply (v_one E s I u w b x y).
  - intros c f C. destruct (v_conn E s I c f C) as (N & A & u & U). split; [exact N|]. split; [exact A|]. exists u. apply R. right. split; [|exact U].
    intros ->. apply (Nt c N). unfold runs in *. congruence.
  - intros c C N. destruct (v_wait E s I c C N) as (u & U). exists u. apply R. right. split; [|exact U]. intros ->. unfold runs in *. congruence.
  - intros q f It. apply It2 in It. destruct It as [It N]. destruct (v_thread E s I q f It) as (u & x & U & Nx). exists u, x. split; [|exact Nx].
    apply R. right. split; [|exact U]. intros ->. apply N. unfold runs in *. congruence.
  - intros u b x H B. apply R in H. destruct H as [(_ & _ & ->)|[Nu H]]; [destruct B|]. destruct (v_used E s I u b x H B) as (q & f & It & A). exists q, f.
    split; [|exact A]. apply It2. split; [exact It|]. rewrite A. intros ->. apply Nu. apply (v_one E s I u t a x (Serving fd) H Rt); [intros ->; exact B|discriminate].
  - intros u b f H. apply R in H. destruct H as [(_ & _ & X)|[_ H]]; [discriminate|]. now apply (v_fd E s I u b).
  - intros u w b b' f Hu Hw. apply R in Hu. apply R in Hw. destruct Hu as [(_ & _ & X)|[_ Hu]]; [discriminate|]. destruct Hw as [(_ & _ & X)|[_ Hw]]; [discriminate|].
    now apply (v_fds E s I u w b b' f).
  - intros u b f H A. apply R in H. destruct H as [(_ & _ & X)|[_ H]]; [discriminate|]. now apply (v_alive E s I u b f).
  - apply (v_nodupo E s I).
Qed.

Lemma Inv_found E s o : Inv E s -> Inv E (mkState (heap s) (vec s) (threads s) (peers s) (alive s) (conns s) o).
Proof. intros I. destruct I. constructor; assumption. Qed.

Lemma existsb_in d l : existsb (bytes_eqb d) l = true <-> In d l.
Proof.
  rewrite existsb_exists. split; [intros (x & I & X); apply bytes_eqb_eq in X; now subst|]. intros I. exists d. split; [exact I|apply bytes_eqb_refl].
Qed.
Lemma start_ok E s a c d k : Inv E s -> exists s1, start_listener s a c d k = Ok s1.
Proof.
  intros I. unfold start_listener. destruct (first_item_spec (heap s) (at_addr a) (vec s) (v_valid E s I)) as (o & F & S). rewrite F. cbn [obind].
  destruct o as [p|]; [destruct S as (_ & e & D & _); rewrite D|]; cbn [obind]; eauto.
Qed.
Lemma update_ok E s c d : Inv E s -> exists s1, update_listener s c d = Ok s1.
Proof.
  intros I. unfold update_listener. destruct (first_item_spec (heap s) (for_both d c) (vec s) (v_valid E s I)) as (o & F & S). rewrite F. cbn [obind].
  destruct o as [p|]; eauto.
Qed.

(* every fair step keeps the invariant *)
Lemma Inv_step E s o s' es : Inv E s -> fair E s o -> step E s o = Ok (s', es) -> Inv E s'.
Proof.
  intros I Fa St. destruct o as [c d|c t|c d|c d|c|t|c d m tp ts q out|d c|raw b]; cbn [step] in St; cbv zeta in St.
  - destruct Fa as (Fc & Fd & Se). destruct (existsb (bytes_eqb d) (p_open (peers s c))) eqn:X; [injection St as <- _; exact I|].
    destruct (has E d); cbn [negb] in St; [|injection St as <- _; exact I].
    destruct (start_ok E s (address E c) c d (owner E d) I) as [s1 S1]. rewrite S1 in St. cbn [obind] in St.
    assert (s' = _) by (symmetry; exact (f_equal fst (f_equal (fun r => match r with Ok x => x | _ => (s, []) end) St))). subst s'. cbn [fst].
    apply Inv_open; try assumption. rewrite <- existsb_in. congruence.
  - destruct (nth_error (threads s) t) as [[a ph]|] eqn:N; [|discriminate]. destruct ph; try discriminate.
    destruct (p_conn (peers s c)) eqn:C; [discriminate|]. destruct (p_open (peers s c)) as [|d0 l0] eqn:P; [discriminate|].
    destruct (bytes_eqb a (address E c)) eqn:A; [|discriminate]. apply bytes_eqb_eq in A. subst a.
    destruct (tell_info (heap s) _ (vec s)) as [h| |] eqn:T; try discriminate. cbn [obind] in St.
    assert (s' = _) by (symmetry; exact (f_equal fst (f_equal (fun r => match r with Ok x => x | _ => (s, []) end) St))). subst s'. cbn [fst].
    rewrite <- P. apply Inv_attach; try assumption. rewrite P. discriminate.
  - destruct (p_conn (peers s c)) eqn:C; [discriminate|]. destruct (p_open (peers s c)) as [|x [|y l]] eqn:P; try discriminate.
    destruct (bytes_eqb x d); [|discriminate]. injection St as <- _. pose proof (Inv_leave E s c I) as J. rewrite C in J. exact J.
  - destruct (p_conn (peers s c)) as [fd|] eqn:C; [|discriminate]. destruct (existsb (bytes_eqb d) (p_open (peers s c))) eqn:X; [|discriminate]. cbn [negb] in St.
    destruct (update_ok E s c d I) as [s1 S1]. rewrite S1 in St. cbn [obind] in St.
    assert (s' = _) by (symmetry; exact (f_equal fst (f_equal (fun r => match r with Ok x => x | _ => (s, []) end) St))). subst s'. cbn [fst].
    apply (Inv_close E s c d fd s1 I C); [now apply existsb_in|exact S1].
  - assert (s' = _) by (symmetry; exact (f_equal fst (f_equal (fun r => match r with Ok x => x | _ => (s, []) end) St))). subst s'. now apply Inv_leave.
  - destruct (nth_error (threads s) t) as [[a ph]|] eqn:N; [|discriminate]. destruct ph as [|fd|]; try discriminate.
    destruct (alive s fd) eqn:A; [discriminate|]. destruct (drop_addr (heap s) a (vec s)) as [[h v]| |] eqn:D; try discriminate. cbn [obind] in St.
    assert (s' = _) by (symmetry; exact (f_equal fst (f_equal (fun r => match r with Ok x => x | _ => (s, []) end) St))). subst s'. cbn [fst].
    now apply (Inv_end E s t a fd).
  - destruct (p_conn (peers s c)); [|discriminate]. destruct (serve_direct E s (copied d) _) as [[r cs]| |]; try discriminate. cbn [obind] in St.
    assert (s' = s) by congruence. now subst.
  - destruct (first_item (heap s) (for_both d c) (vec s)) as [[p|]| |]; try discriminate; cbn [obind] in St; injection St as <- _; now apply Inv_found.
  - destruct (found s) as [p|]; [|discriminate]. destruct (deref (heap s) p) as [e| |]; try discriminate. cbn [obind] in St. injection St as <- _. now apply Inv_found.
Qed.
Lemma reach_Inv E s : reach E s -> Inv E s.
Proof. induction 1 as [|s o s' es R IH F St]; [apply Inv_init|]. now apply (Inv_step E s o s' es). Qed.
