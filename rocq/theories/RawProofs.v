(** Proofs about raw data subscriptions (C100). *)
From Coq Require Import String.
From Coq Require Import List ZArith Bool Lia ZifyBool Permutation.
From Verif Require Import Common CommonFacts Bytes TextSpec TextModel TextProofs Errors ListenModel.
From Verif Require ListenProofs TapModel TapSpec TapProofs.
From Verif Require Import RawModel RawSpec.
Import ListNotations.
Local Open Scope string_scope.
Local Open Scope list_scope.
Local Open Scope Z_scope.

(** ** names *)
Definition isp (e : name) : bool :=
  match e with [] => false | c :: _ => negb ((48 <=? c) && (c <=? 57)) && negb (c =? 45) end && negb (bytes_eqb (firstn 8 e) (bs "rawdata.")).
Lemma plain_isp e : plain e -> isp e = true.
Proof.
  intros (_ & F & N). unfold isp. destruct e as [|c e]; [contradiction|]. apply andb_true_intro. split; [lia|].
  apply negb_true_iff, bytes_eqb_neq. exact N.
Qed.
Lemma raw_isp e : isp (raw e) = false.
Proof. unfold isp. apply andb_false_intro2. reflexivity. Qed.
Lemma raw_inj a b : plain a -> plain b -> raw a = raw b -> a = b.
Proof.
  intros (LA & _) (LB & _) E. unfold raw in E. rewrite !firstn_all2 in E by (rewrite app_length; cbn; lia). now apply app_inv_head in E.
Qed.
Lemma plain_not_raw a b : plain a -> a <> raw b.
Proof. intros P E. apply plain_isp in P. rewrite E, raw_isp in P. discriminate. Qed.
Lemma topic_head e id : 0 <= id < 2 ^ 32 -> exists c r, TapModel.raw_topic e id = c :: r /\ (48 <= c <= 57 \/ c = 45).
Proof.
  intros B. unfold TapModel.raw_topic. destruct (print_dec_spec (to_signed 32 id)) as (neg & sg & ds & E & S & F & Nn & _ & _ & _ & _ & SG).
  { unfold to_signed. destruct (_ <? _); lia. }
  rewrite E. destruct ds as [|d ds]; [congruence|]. assert (D : dec_char d) by now inversion F. unfold dec_char in D.
  destruct SG as [-> | ->]; eexists; eexists; (split; [reflexivity|lia]).
Qed.
Lemma topic_isp e id : 0 <= id < 2 ^ 32 -> isp (TapModel.raw_topic e id) = false.
Proof. intros B. destruct (topic_head e id B) as (c & r & -> & H). unfold isp. apply andb_false_intro1. lia. Qed.
Lemma topic_not_raw e id b : 0 <= id < 2 ^ 32 -> TapModel.raw_topic e id <> raw b.
Proof. intros B E. destruct (topic_head e id B) as (c & r & E' & H). rewrite E' in E. injection E as E _. lia. Qed.

(** ** the listeners belong to the subscriptions *)
Definition te (p : nat) (b : bool) (y : entry) (k : nat) : TapSpec.entry :=
  TapSpec.mkEntry (if b then S p else 0%nat) (if b then e_name y else raw (e_name y)) (e_id y) (Z.of_nat k).
Record sound (p : nat) (dir : name -> bool) (cl : list (option nat * nat)) (l : list entry) (E : list TapSpec.entry) : Prop := mkSound {
  so_has : forall y, In y l -> exists k, nth_error cl k = Some (None, e_sub y) /\ In (te p (dir (e_name y)) y k) E;
  so_is : forall x, In x E -> exists y k, In y l /\ nth_error cl k = Some (None, e_sub y) /\ x = te p (dir (e_name y)) y k }.
Record wf (l : list entry) : Prop := mkWf {
  w_names : NoDup (map e_name l); w_ids : NoDup (map e_id l); w_subs : NoDup (map e_sub l);
  w_plain : forall y, In y l -> plain (e_name y); w_range : forall y, In y l -> 0 <= e_id y < 2 ^ 32 }.

Lemma nodup_map_inj {A B} (f : A -> B) l : NoDup (map f l) -> forall a b, In a l -> In b l -> f a = f b -> a = b.
Proof.
  induction l as [|x l IH]; intros N a b IA IB E; [destruct IA|]. cbn in N. inversion N as [|? ? NI N']; subst.
  destruct IA as [<-|IA], IB as [<-|IB]; [reflexivity| | |apply IH; assumption]; exfalso; apply NI; [rewrite E|rewrite <- E]; now apply in_map.
Qed.

Lemma sound_same p dir dir' cl l l' E : (forall y, In y l <-> In y l') -> (forall y, In y l -> dir (e_name y) = dir' (e_name y)) -> sound p dir cl l E -> sound p dir' cl l' E.
Proof.
  intros S D [A B]. constructor.
  - intros y I. apply S in I. rewrite <- D by exact I. apply A, I.
  - intros x I. destruct (B x I) as (y & k & IY & C & ->). exists y, k. split; [apply S, IY|]. split; [exact C|]. rewrite D by exact IY. reflexivity.
Qed.
Lemma sound_more p dir cl c l E : sound p dir cl l E -> sound p dir (cl ++ [c]) l E.
Proof.
  intros [A B]. assert (X : forall k v, nth_error cl k = Some v -> nth_error (cl ++ [c]) k = Some v).
  { intros k v H. rewrite nth_error_app1; [exact H|]. apply nth_error_Some. congruence. }
  constructor.
  - intros y I. destruct (A y I) as (k & C & H). exists k. split; [apply X, C|exact H].
  - intros x I. destruct (B x I) as (y & k & IY & C & ->). exists y, k. auto.
Qed.
Lemma sound_expr p dir cl l E e : sound p dir cl l E -> wf l -> plain e ->
  forall x, In x E -> TapSpec.i_expr x = raw e -> exists y k, In y l /\ e_name y = e /\ dir e = false /\ x = te p false y k.
Proof.
  intros [A B] W P x I X. destruct (B x I) as (y & k & IY & C & ->). pose proof (w_plain _ W y IY) as PY. exists y, k. unfold te in X. cbn in X.
  destruct (dir (e_name y)) eqn:D.
  - exfalso. exact (plain_not_raw _ _ PY X).
  - apply raw_inj in X; try assumption. subst e. auto.
Qed.
Lemma sound_has p dir cl l E e : sound p dir cl l E -> wf l -> plain e ->
  existsb (fun x => bytes_eqb (TapSpec.i_expr x) (raw e)) E = existsb (fun y => bytes_eqb (e_name y) e) l && negb (dir e).
Proof.
  intros S W P. apply eq_iff_eq_true. rewrite existsb_exists, andb_true_iff, negb_true_iff, existsb_exists. split.
  - intros (x & I & X). apply bytes_eqb_eq in X. destruct (sound_expr _ _ _ _ _ _ S W P x I X) as (y & k & IY & <- & D & _).
    split; [|exact D]. exists y. split; [exact IY|apply bytes_eqb_refl].
  - intros ((y & IY & Y) & D). apply bytes_eqb_eq in Y. subst e. destruct (so_has _ _ _ _ _ S y IY) as (k & C & H). rewrite D in H.
    eexists. split; [exact H|]. cbn. apply bytes_eqb_refl.
Qed.
Lemma sound_id p dir cl l E x : sound p dir cl l E -> In x E -> In (TapSpec.i_id x) (map e_id l).
Proof. intros S I. destruct (so_is _ _ _ _ _ S x I) as (y & k & IY & _ & ->). change (In (e_id y) (map e_id l)). apply in_map, IY. Qed.

Lemma sound_add p dir cl l E y : sound p dir cl l E -> sound p dir (cl ++ [(None, e_sub y)]) (l ++ [y]) (E ++ [te p (dir (e_name y)) y (length cl)]).
Proof.
  intros S. pose proof (sound_more _ _ _ (None, e_sub y) _ _ S) as [A B]. constructor.
  - intros z I. apply in_app_iff in I as [I|[<-|[]]].
    + destruct (A z I) as (k & C & H). exists k. split; [exact C|]. apply in_app_iff. left. exact H.
    + exists (length cl). split; [|apply in_app_iff; right; left; reflexivity]. rewrite nth_error_app2, Nat.sub_diag by lia. reflexivity.
  - intros x I. apply in_app_iff in I as [I|[<-|[]]].
    + destruct (B x I) as (z & k & IZ & C & ->). exists z, k. split; [apply in_app_iff; left; exact IZ|auto].
    + exists y, (length cl). split; [apply in_app_iff; right; left; reflexivity|]. split; [|reflexivity]. rewrite nth_error_app2, Nat.sub_diag by lia. reflexivity.
Qed.
Definition other (y z : entry) : bool := negb (Nat.eqb (e_sub z) (e_sub y)).
Lemma sound_remove p dir cl l E y c : sound p dir cl l E -> wf l -> In y l -> c = (if dir (e_name y) then S p else 0%nat) ->
  sound p dir cl (filter (other y) l) (filter (fun x => negb (TapSpec.on c (e_id y) x)) E).
Proof.
  intros [A B] W IY ->. constructor.
  - intros z I. apply filter_In in I as [I N]. destruct (A z I) as (k & C & H). exists k. split; [exact C|]. apply filter_In. split; [exact H|].
    apply negb_true_iff. unfold TapSpec.on, te. cbn. apply andb_false_iff. right. apply Z.eqb_neq. intros X. apply (nodup_map_inj e_id l (w_ids _ W)) in X; try assumption. subst z.
    unfold other in N. rewrite Nat.eqb_refl in N. discriminate.
  - intros x I. apply filter_In in I as [I N]. destruct (B x I) as (z & k & IZ & C & ->). exists z, k. split; [|auto]. apply filter_In. split; [exact IZ|].
    unfold other. apply negb_true_iff. apply Nat.eqb_neq. intros X. apply (nodup_map_inj e_sub l (w_subs _ W)) in X; try assumption. subst z.
    unfold TapSpec.on, te in N. cbn in N. rewrite Nat.eqb_refl, Z.eqb_refl in N. discriminate.
Qed.
Lemma keys_nodup i s es : TapProofs.rel isp s i es -> NoDup (map (fun x => (TapSpec.i_conn x, TapSpec.i_id x)) (TapSpec.entries i)).
Proof.
  intros R. pose proof (TapProofs.t_keys _ _ (TapProofs.r_tab _ _ _ _ R)) as K. rewrite <- (TapProofs.r_fst _ _ _ _ R), map_map. exact K.
Qed.
Lemma nodup_filter_map {A B} (f : A -> B) g l : NoDup (map f l) -> NoDup (map f (filter g l)).
Proof. apply TapProofs.nodup_filter. Qed.
Lemma sound_room p dir cl l s i es c : TapProofs.rel isp s i es -> sound p dir cl l (TapSpec.entries i) -> (length l < 128)%nat -> TapSpec.room i c.
Proof.
  intros R S L. unfold TapSpec.room. set (F := filter (fun x => Nat.eqb (TapSpec.i_conn x) c) (TapSpec.entries i)).
  assert (N : NoDup (map TapSpec.i_id F)).
  { pose proof (nodup_filter_map _ (fun x => Nat.eqb (TapSpec.i_conn x) c) _ (keys_nodup _ _ _ R)) as N. fold F in N.
    assert (X : map (fun x => (TapSpec.i_conn x, TapSpec.i_id x)) F = map (pair c) (map TapSpec.i_id F)).
    { rewrite map_map. apply map_ext_in. intros x I. apply filter_In in I as [_ I]. apply Nat.eqb_eq in I. rewrite I. reflexivity. }
    rewrite X in N. apply NoDup_map_inv in N. exact N. }
  assert (Q : (length (map TapSpec.i_id F) <= length (map e_id l))%nat).
  { apply NoDup_incl_length; [exact N|]. intros z I. apply in_map_iff in I as (x & <- & I). apply filter_In in I as [I _]. eapply sound_id; eassumption. }
  rewrite !map_length in Q. lia.
Qed.
Lemma find_unique {A} (f : A -> bool) l x : In x l -> f x = true -> (forall y, In y l -> f y = true -> y = x) -> find f l = Some x.
Proof.
  induction l as [|z l IH]; intros I T U; [destruct I|]. cbn. destruct (f z) eqn:Z.
  - f_equal. apply U; [left; reflexivity|exact Z].
  - apply IH; [destruct I as [->|I]; [congruence|exact I]|exact T|]. intros y IY. apply U. right. exact IY.
Qed.
Lemma find_none {A} (f : A -> bool) l : (forall y, In y l -> f y = false) -> find f l = None.
Proof. induction l as [|z l IH]; intros H; [reflexivity|]. cbn. rewrite H by (left; reflexivity). apply IH. intros y I. apply H. right. exact I. Qed.
Lemma sound_find p dir cl l s i es y : TapProofs.rel isp s i es -> sound p dir cl l (TapSpec.entries i) -> In y l ->
  exists k, nth_error cl k = Some (None, e_sub y) /\ find (TapSpec.on (if dir (e_name y) then S p else 0%nat) (e_id y)) (TapSpec.entries i) = Some (te p (dir (e_name y)) y k).
Proof.
  intros R S I. destruct (so_has _ _ _ _ _ S y I) as (k & C & H). exists k. split; [exact C|]. apply find_unique; [exact H| |].
  - unfold TapSpec.on, te. cbn. rewrite Nat.eqb_refl, Z.eqb_refl. reflexivity.
  - intros x IX O. apply (nodup_map_inj _ _ (keys_nodup _ _ _ R)); try assumption. unfold TapSpec.on in O. apply andb_prop in O as [O1 O2]. apply Nat.eqb_eq in O1. apply Z.eqb_eq in O2.
    cbn. rewrite O1, O2. reflexivity.
Qed.

(** ** calls *)
Definition result (r : list TapModel.effect) : Z := match r with [TapModel.Code c] => c | [TapModel.Answer b] => if b then 1 else 0 | _ => 0 end.
Lemma call_ok s i es o : TapProofs.rel isp (tap s) i es -> TapSpec.proper_step isp i o ->
  exists t es', call s o = Ok (set_tap s t, result (snd (TapSpec.ideal_step i o))) /\ TapProofs.rel isp t (fst (TapSpec.ideal_step i o)) es'.
Proof.
  intros R P. destruct (TapProofs.step_ok isp (tap s) i es o R P) as (t & es' & S & R'). unfold call. rewrite S. cbn [obind]. exists t, es'. split; [reflexivity|exact R'].
Qed.
Lemma unlisten_none s i es p dir l e id : TapProofs.rel isp (tap s) i es -> TapSpec.closed i = false -> sound p dir (closures s) l (TapSpec.entries i) -> wf l -> plain e ->
  existsb (fun y => bytes_eqb (e_name y) e) l && negb (dir e) = false -> exists t es', unlisten s e id = Ok (set_tap s t) /\ TapProofs.rel isp t i es'.
Proof.
  intros R C S W P H. destruct (call_ok s i es (TapModel.HasListener (raw e)) R) as (t & es' & E & R'); [split; [exact C|apply raw_isp]|].
  unfold unlisten. rewrite E. cbn [obind TapSpec.ideal_step snd result fst] in *. rewrite (sound_has _ _ _ _ _ _ S W P), H. cbn. exists t, es'. split; [reflexivity|exact R'].
Qed.
Lemma unlisten_some s i es p dir l y : TapProofs.rel isp (tap s) i es -> TapSpec.closed i = false -> sound p dir (closures s) l (TapSpec.entries i) -> wf l -> In y l -> dir (e_name y) = false ->
  exists t es', unlisten s (e_name y) (e_id y) = Ok (set_tap s t) /\ TapProofs.rel isp t (TapSpec.without (TapSpec.on 0 (e_id y)) i) es'.
Proof.
  intros R C S W IY D. pose proof (w_plain _ W y IY) as P.
  destruct (call_ok s i es (TapModel.HasListener (raw (e_name y))) R) as (t & es' & E & R'); [split; [exact C|apply raw_isp]|].
  unfold unlisten. rewrite E. cbn [obind TapSpec.ideal_step snd result fst] in *. rewrite (sound_has _ _ _ _ _ _ S W P), D.
  replace (existsb (fun y0 => bytes_eqb (e_name y0) (e_name y)) l) with true by (symmetry; apply existsb_exists; exists y; split; [exact IY|apply bytes_eqb_refl]). cbn [andb negb Z.eqb].
  destruct (call_ok (set_tap s t) i es' (TapModel.RemoveListener (raw (e_name y)) (e_id y)) R') as (t2 & es2 & E2 & R2).
  { split; [exact C|]. split; [apply raw_isp|]. intros x I C0. destruct (so_is _ _ _ _ _ S x I) as (z & k & IZ & _ & ->). cbn in C0. destruct (dir (e_name z)) eqn:DZ; [discriminate|]. cbn. split; intros X.
    - apply raw_inj in X; [|apply (w_plain _ W), IZ|exact P]. apply (nodup_map_inj e_name l (w_names _ W)) in X; try assumption. subst z. reflexivity.
    - apply (nodup_map_inj e_id l (w_ids _ W)) in X; try assumption. subst z. reflexivity. }
  change (1 =? 1) with true. cbn match. rewrite E2. cbn [obind fst TapSpec.ideal_step] in *. exists t2, es2. split; [reflexivity|exact R2].
Qed.
Lemma listen_ok s i es p dir l e sub id : TapProofs.rel isp (tap s) i es -> TapSpec.closed i = false -> sound p dir (closures s) l (TapSpec.entries i) -> wf l ->
  plain e -> (forall z, In z l -> e_name z <> e) -> ~ In id (map e_id l) -> (length l < 128)%nat -> TapSpec.where_is i e = (if dir e then Some (S p) else None) ->
  exists t es', (if dir e then listen_direct s e sub id else listen_broker s None e sub id) = Ok (set_tap (fst (closure s None sub)) t, E_SUCCESS) /\
  TapProofs.rel isp t (TapSpec.mkIdeal (TapSpec.entries i ++ [te p (dir e) (mkEntry e sub id false) (length (closures s))]) (TapSpec.names i) (TapSpec.closed i)) es'.
Proof.
  intros R C S W P NE NI L WH. unfold listen_direct, listen_broker, closure. cbn [fst].
  set (s1 := mkState (tap s) (closures s ++ [(None, sub)]) (subs s) (ents s) (handles s) (opened s) (next s) (held s)).
  assert (R1 : TapProofs.rel isp (tap s1) i es) by exact R.
  assert (FR : forall c x, In x (TapSpec.entries i) -> TapSpec.on c id x = false).
  { intros c x I. unfold TapSpec.on. apply andb_false_iff. right. apply Z.eqb_neq. intros X. apply NI. rewrite <- X. eapply sound_id; eassumption. }
  destruct (dir e) eqn:D.
  - destruct (call_ok s1 i es (TapModel.AddPrivate e id (Z.of_nat (length (closures s)))) R1) as (t & es' & E & R').
    { split; [exact C|]. split; [apply plain_isp, P|]. intros c _. split; [apply FR|eapply sound_room; eassumption]. }
    cbn [TapSpec.ideal_step] in *. rewrite WH in *. cbn [snd fst result] in *. exists t, es'. split; [exact E|exact R'].
  - destruct (call_ok s1 i es (TapModel.AddListener (raw e) id (Z.of_nat (length (closures s)))) R1) as (t & es' & E & R').
    { split; [exact C|]. split; [apply raw_isp|]. split; [|eapply sound_room; eassumption]. intros x I. split; [|apply FR, I].
      intros X. destruct (sound_expr _ _ _ _ _ _ S W P x I X) as (y & k & IY & Y & _). exact (NE y IY Y). }
    cbn [TapSpec.ideal_step snd fst result] in *. exists t, es'. split; [exact E|exact R'].
Qed.

(** ** the invariant *)
Definition clean (y : entry) : bool := negb (e_dirty y).
Definition dir (I : ideal) (n : name) : bool := existsb (is n) (direct I).
Definition view (h : list (option (name * Z))) (y : entry) : name * Z := (e_name y, match nth_error h (e_sub y) with Some (Some (_, f)) => f | _ => 0 end).
Record inv (p : nat) (s : state) (I : ideal) (i : TapSpec.ideal) (es : list (TapSpec.entry * nat)) : Prop := mkInv {
  v_rel : TapProofs.rel isp (tap s) i es;
  v_open : TapSpec.closed i = false;
  v_sound : sound p (dir I) (closures s) (filter clean (ents s)) (TapSpec.entries i);
  v_wf : wf (ents s);
  v_names : forall q, In q (TapSpec.names i) -> snd q = S p;
  v_direct : map fst (TapSpec.names i) = direct I;
  v_ddup : NoDup (direct I);
  v_opened : map fst (opened s) = direct I;
  v_subs : forall y, In y (ents s) -> exists h, nth_error (subs s) (e_sub y) = Some (Some (e_name y, h));
  v_active : active I = map (view (subs s)) (filter clean (ents s));
  v_parked : forall n, In n (parked I) <-> exists y, In y (ents s) /\ e_dirty y = true /\ e_name y = n;
  v_held : NoDup (map snd (held s));
  v_hnext : forall q, In q (held s) -> snd q < next s p;
  v_mine : forall y, In y (filter clean (ents s)) -> In (e_name y, e_id y) (held s);
  v_ids : forall y, In y (ents s) -> e_id y < next s p;
  v_next : 0 <= next s p }.

Lemma is_in n l : existsb (is n) l = true <-> In n l.
Proof.
  rewrite existsb_exists. split; [intros (x & I & E); unfold is in E; apply bytes_eqb_eq in E; subst; exact I|].
  intros I. exists n. split; [exact I|]. apply bytes_eqb_refl.
Qed.
Lemma where_dir p s I i es e : inv p s I i es -> TapSpec.where_is i e = (if dir I e then Some (S p) else None).
Proof.
  intros V. unfold TapSpec.where_is, dir. rewrite <- (v_direct _ _ _ _ _ V). pose proof (v_names _ _ _ _ _ V) as N. revert N.
  generalize (TapSpec.names i). induction l as [|q l IH]; intros N; [reflexivity|]. cbn [find map existsb]. unfold is at 1.
  destruct (bytes_eqb (fst q) e) eqn:E; cbn [orb option_map].
  - rewrite N by (left; reflexivity). reflexivity.
  - apply IH. intros r I0. apply N. right. exact I0.
Qed.
Lemma conn_dir p s I i es e : inv p s I i es -> TapModel.connection_of (tap s) e = (if dir I e then Some (S p) else None).
Proof. intros V. rewrite (TapProofs.found _ _ _ _ (v_rel _ _ _ _ _ V)). eapply where_dir, V. Qed.
Lemma wf_filter f l : wf l -> wf (filter f l).
Proof.
  intros [A B C D E]. constructor; try (apply nodup_filter_map; assumption); intros y I; apply filter_In in I as [I _]; auto.
Qed.
Lemma find_ent_some s e y : find_ent s e = Some y -> In y (ents s) /\ e_name y = e.
Proof. intros F. apply find_some in F as [I E]. apply bytes_eqb_eq in E. auto. Qed.
Lemma find_ent_none s e : find_ent s e = None -> forall y, In y (ents s) -> e_name y <> e.
Proof. intros F y I E. apply (List.find_none _ _ F) in I. rewrite E, bytes_eqb_refl in I. discriminate. Qed.
Lemma find_ent_in s y : wf (ents s) -> In y (ents s) -> find_ent s (e_name y) = Some y.
Proof.
  intros W I. apply find_unique; [exact I|apply bytes_eqb_refl|]. intros z IZ E. apply bytes_eqb_eq in E. exact (nodup_map_inj e_name _ (w_names _ W) _ _ IZ I E).
Qed.
Lemma subscribed_iff p s I i es e : inv p s I i es -> subscribed I e = true <-> exists y, In y (ents s) /\ e_dirty y = false /\ e_name y = e.
Proof.
  intros V. unfold subscribed. rewrite (v_active _ _ _ _ _ V), existsb_exists. split.
  - intros (x & X & E). apply in_map_iff in X as (y & <- & X). apply filter_In in X as [X D]. unfold for_, is in E. cbn in E. apply bytes_eqb_eq in E. exists y. unfold clean in D. destruct (e_dirty y); [discriminate|auto].
  - intros (y & IY & D & <-). exists (view (subs s) y). split; [apply in_map, filter_In; split; [exact IY|unfold clean; rewrite D; reflexivity]|]. unfold for_, is. cbn. apply bytes_eqb_refl.
Qed.
Lemma away_iff p s I i es e : inv p s I i es -> away I e = true <-> exists y, In y (ents s) /\ e_dirty y = true /\ e_name y = e.
Proof. intros V. unfold away. rewrite is_in. apply (v_parked _ _ _ _ _ V). Qed.

(** ** withdrawing *)
Definition unhook (s : state) (x : entry) : outcome unit (state * Z) :=
  match TapModel.connection_of (tap s) (e_name x) with
  | Some _ => call s (TapModel.RemovePrivate (e_name x) (e_id x))
  | None => do s <- unlisten s (e_name x) (e_id x) ; Ok (s, E_SUCCESS)
  end.
Lemma unhook_ok p s I i es y : inv p s I i es -> In y (ents s) -> (e_dirty y = true -> dir I (e_name y) = false) ->
  exists t i' es', unhook s y = Ok (set_tap s t, E_SUCCESS) /\ TapProofs.rel isp t i' es' /\ TapSpec.closed i' = false /\ TapSpec.names i' = TapSpec.names i /\
  sound p (dir I) (closures s) (filter (other y) (filter clean (ents s))) (TapSpec.entries i').
Proof.
  intros V IY DD. pose proof (v_rel _ _ _ _ _ V) as R. pose proof (v_open _ _ _ _ _ V) as C. pose proof (v_sound _ _ _ _ _ V) as S. pose proof (v_wf _ _ _ _ _ V) as W0.
  pose proof (wf_filter clean _ W0) as W. pose proof (w_plain _ W0 y IY) as P. pose proof (w_range _ W0 y IY) as B.
  unfold unhook. rewrite (conn_dir _ _ _ _ _ _ V). destruct (e_dirty y) eqn:DY.
  - rewrite (DD eq_refl). destruct (unlisten_none s i es p (dir I) (filter clean (ents s)) (e_name y) (e_id y) R C S W P) as (t & es' & E & R').
    { destruct (existsb (fun y0 => bytes_eqb (e_name y0) (e_name y)) (filter clean (ents s))) eqn:X; [|reflexivity]. exfalso. apply existsb_exists in X as (z & IZ & Z). apply filter_In in IZ as [IZ CZ]. apply bytes_eqb_eq in Z.
      apply (nodup_map_inj e_name _ (w_names _ W0)) in Z; try assumption. subst z. unfold clean in CZ. rewrite DY in CZ. discriminate. }
    rewrite E. cbn [obind]. exists t, i, es'. split; [reflexivity|]. split; [exact R'|]. split; [exact C|]. split; [reflexivity|].
    eapply sound_same; [|reflexivity|exact S]. intros z. split; [intros IZ|intros IZ; now apply filter_In in IZ]. apply filter_In. split; [exact IZ|]. apply filter_In in IZ as [IZ CZ].
    unfold other. apply negb_true_iff, Nat.eqb_neq. intros X. apply (nodup_map_inj e_sub _ (w_subs _ W0)) in X; try assumption. subst z. unfold clean in CZ. rewrite DY in CZ. discriminate.
  - assert (IC : In y (filter clean (ents s))) by (apply filter_In; split; [exact IY|unfold clean; rewrite DY; reflexivity]).
    destruct (dir I (e_name y)) eqn:D.
    + destruct (call_ok s i es (TapModel.RemovePrivate (e_name y) (e_id y)) R) as (t & es' & E & R').
      { split; [exact C|]. split; [apply topic_isp, B|]. intros x IX X. destruct (so_is _ _ _ _ _ S x IX) as (z & k & IZ & _ & ->). cbn [TapSpec.i_expr te] in X. destruct (dir I (e_name z)).
        - pose proof (plain_isp _ (w_plain _ W z IZ)) as Q. rewrite X, topic_isp in Q by exact B. discriminate.
        - symmetry in X. exact (topic_not_raw _ _ _ B X). }
      cbn [TapSpec.ideal_step] in *. rewrite (where_dir _ _ _ _ _ _ V), D in *. cbn [snd fst result] in *.
      assert (T : existsb (TapSpec.on (Datatypes.S p) (e_id y)) (TapSpec.entries i) = true).
      { destruct (sound_find _ _ _ _ _ _ _ _ R S IC) as (k & _ & F). rewrite D in F. apply find_some in F as [F1 F2]. apply existsb_exists. eexists. split; [exact F1|exact F2]. }
      rewrite T in E. exists t, (TapSpec.without (TapSpec.on (Datatypes.S p) (e_id y)) i), es'. split; [exact E|]. split; [exact R'|]. split; [exact C|]. split; [reflexivity|].
      apply sound_remove; try assumption. rewrite D. reflexivity.
    + destruct (unlisten_some s i es p (dir I) _ y R C S W IC D) as (t & es' & E & R'). rewrite E. cbn [obind].
      exists t, (TapSpec.without (TapSpec.on 0 (e_id y)) i), es'. split; [reflexivity|]. split; [exact R'|]. split; [exact C|]. split; [reflexivity|].
      apply sound_remove; try assumption. rewrite D. reflexivity.
Qed.
Lemma mark_clean y l : filter clean (map (fun z => if Nat.eqb (e_sub z) (e_sub y) then mkEntry (e_name z) (e_sub z) (e_id z) true else z) l) = filter (other y) (filter clean l).
Proof.
  induction l as [|z l IH]; [reflexivity|]. cbn [map filter]. destruct (Nat.eqb (e_sub z) (e_sub y)) eqn:E.
  - change (clean (mkEntry (e_name z) (e_sub z) (e_id z) true)) with false. cbn match. rewrite IH. destruct (clean z); [|reflexivity]. cbn [filter]. unfold other at 2. rewrite E. reflexivity.
  - destruct (clean z); [|exact IH]. cbn [filter]. unfold other at 1. rewrite E. cbn [negb]. rewrite IH. reflexivity.
Qed.
Lemma drop_clean y l : filter clean (filter (other y) l) = filter (other y) (filter clean l).
Proof. apply TapProofs.filter_swap. Qed.
Lemma view_other s y p I i es h : inv p s I i es -> In y (ents s) ->
  (forall z, In z (ents s) -> e_sub z <> e_sub y -> nth_error h (e_sub z) = nth_error (subs s) (e_sub z)) ->
  filter (fun x => negb (for_ (e_name y) x)) (active I) = map (view h) (filter (other y) (filter clean (ents s))).
Proof.
  intros V IY H. rewrite (v_active _ _ _ _ _ V). pose proof (v_wf _ _ _ _ _ V) as W.
  assert (Q : forall l, incl l (ents s) -> filter (fun x => negb (for_ (e_name y) x)) (map (view (subs s)) l) = map (view h) (filter (other y) l)).
  { induction l as [|z l IH]; intros L; [reflexivity|]. cbn [map filter]. assert (IZ : In z (ents s)) by (apply L; left; reflexivity).
    rewrite IH by (intros u U; apply L; right; exact U). unfold for_, is. cbn [view fst]. unfold other.
    destruct (bytes_eqb (e_name z) (e_name y)) eqn:E; cbn [negb].
    - apply bytes_eqb_eq in E. apply (nodup_map_inj e_name _ (w_names _ W)) in E; try assumption. subst z. rewrite Nat.eqb_refl. reflexivity.
    - apply bytes_eqb_neq in E. assert (N : e_sub z <> e_sub y) by (intros X; apply (nodup_map_inj e_sub _ (w_subs _ W)) in X; try assumption; subst z; congruence).
      rewrite (proj2 (Nat.eqb_neq _ _) N). cbn [negb map]. f_equal. unfold view. rewrite H by assumption. reflexivity. }
  apply Q. intros z Z. now apply filter_In in Z.
Qed.
Lemma marked_names y d l : map e_name (map (fun z => if Nat.eqb (e_sub z) (e_sub y) then mkEntry (e_name z) (e_sub z) (e_id z) d else z) l) = map e_name l /\
  map e_sub (map (fun z => if Nat.eqb (e_sub z) (e_sub y) then mkEntry (e_name z) (e_sub z) (e_id z) d else z) l) = map e_sub l /\
  map e_id (map (fun z => if Nat.eqb (e_sub z) (e_sub y) then mkEntry (e_name z) (e_sub z) (e_id z) d else z) l) = map e_id l.
Proof.
  split; [|split]; rewrite map_map; apply map_ext; intros z; destruct (Nat.eqb (e_sub z) (e_sub y)); reflexivity.
Qed.
Lemma in_marked y d l z : In z (map (fun z => if Nat.eqb (e_sub z) (e_sub y) then mkEntry (e_name z) (e_sub z) (e_id z) d else z) l) ->
  exists u, In u l /\ e_name z = e_name u /\ e_sub z = e_sub u /\ e_id z = e_id u /\ (if Nat.eqb (e_sub u) (e_sub y) then e_dirty z = d else z = u).
Proof. intros I. apply in_map_iff in I as (u & <- & I). exists u. destruct (Nat.eqb (e_sub u) (e_sub y)) eqn:E; auto. Qed.
Lemma wf_mark y d l : wf l -> wf (map (fun z => if Nat.eqb (e_sub z) (e_sub y) then mkEntry (e_name z) (e_sub z) (e_id z) d else z) l).
Proof.
  intros [A B C D E]. destruct (marked_names y d l) as (M1 & M2 & M3). constructor; rewrite ?M1, ?M2, ?M3; try assumption;
    intros z I; destruct (in_marked _ _ _ _ I) as (u & IU & E1 & _ & E3 & _); rewrite ?E1, ?E3; auto.
Qed.
Lemma free_ok s q v : nth_error (subs s) q = Some (Some v) ->
  exists h, free_sub s q = Ok (mkState (tap s) (closures s) h (ents s) (handles s) (opened s) (next s) (held s)) /\ (forall k, k <> q -> nth_error h k = nth_error (subs s) k).
Proof.
  intros E. unfold free_sub. rewrite E. eexists. split; [reflexivity|]. intros k N.
  assert (L : (q < length (subs s))%nat) by (apply nth_error_Some; congruence).
  destruct (Nat.lt_ge_cases k q) as [K|K].
  - rewrite nth_error_app1 by (rewrite firstn_length; lia). revert K L. generalize (subs s). clear. intros l K L. revert k q K L. induction l as [|x l IH]; intros [|k] [|q] K L; cbn in *; try lia; auto. apply IH; lia.
  - rewrite nth_error_app2 by (rewrite firstn_length; lia). rewrite firstn_length, Nat.min_l by lia. destruct (k - q)%nat as [|j] eqn:J; [lia|]. cbn [nth_error].
    assert (X : k = (Datatypes.S q + j)%nat) by lia. rewrite X. clear. generalize (subs s). intros l. revert l. generalize (Datatypes.S q). intros n. induction n as [|n IH]; intros l; [reflexivity|]. destruct l as [|x l]; [destruct j; reflexivity|]. cbn. apply IH.
Qed.

Lemma other_name y z l : wf l -> In y l -> In z l -> (other y z = true <-> e_name z <> e_name y).
Proof.
  intros W IY IZ. unfold other. rewrite negb_true_iff, Nat.eqb_neq. split; intros H E; apply H.
  - apply (nodup_map_inj e_name _ (w_names _ W)) in E; try assumption. subst z. reflexivity.
  - apply (nodup_map_inj e_sub _ (w_subs _ W)) in E; try assumption. subst z. reflexivity.
Qed.
Lemma drop_inv p s I i es y t i' es' h hd : inv p s I i es -> In y (ents s) ->
  TapProofs.rel isp t i' es' -> TapSpec.closed i' = false -> TapSpec.names i' = TapSpec.names i ->
  sound p (dir I) (closures s) (filter (other y) (filter clean (ents s))) (TapSpec.entries i') ->
  (forall k, k <> e_sub y -> nth_error h k = nth_error (subs s) k) ->
  NoDup (map snd hd) -> incl hd (held s) -> (forall q, In q (held s) -> fst q <> e_name y -> In q hd) ->
  inv p (mkState t (closures s) h (filter (other y) (ents s)) (handles s) (opened s) (next s) hd)
    (mkIdeal (filter (fun x => negb (for_ (e_name y) x)) (active I)) (filter (fun x => negb (is (e_name y) x)) (parked I)) (direct I)) i' es'.
Proof.
  intros V IY R C N S H D1 D2 D3. pose proof (v_wf _ _ _ _ _ V) as W. constructor; cbn [tap closures subs ents handles opened next held active parked direct].
  - exact R.
  - exact C.
  - rewrite drop_clean. exact S.
  - apply wf_filter, W.
  - rewrite N. apply (v_names _ _ _ _ _ V).
  - rewrite N. apply (v_direct _ _ _ _ _ V).
  - apply (v_ddup _ _ _ _ _ V).
  - apply (v_opened _ _ _ _ _ V).
  - intros z IZ. apply filter_In in IZ as [IZ O]. unfold other in O. apply negb_true_iff, Nat.eqb_neq in O. rewrite H by exact O. apply (v_subs _ _ _ _ _ V), IZ.
  - rewrite drop_clean. eapply view_other; try eassumption. intros z _ NE. apply H, NE.
  - intros n. rewrite filter_In, (v_parked _ _ _ _ _ V). split.
    + intros ((z & IZ & DZ & <-) & X). exists z. split; [|auto]. apply filter_In. split; [exact IZ|]. apply (other_name _ _ _ W IY IZ). unfold is in X. apply negb_true_iff, bytes_eqb_neq in X. exact X.
    + intros (z & IZ & DZ & <-). apply filter_In in IZ as [IZ O]. split; [exists z; auto|]. apply (other_name _ _ _ W IY IZ) in O. unfold is. apply negb_true_iff, bytes_eqb_neq, O.
  - exact D1.
  - intros q Q. apply (v_hnext _ _ _ _ _ V), D2, Q.
  - intros z IZ. rewrite drop_clean in IZ. apply filter_In in IZ as [IZ O]. apply D3; [apply (v_mine _ _ _ _ _ V), IZ|]. apply filter_In in IZ as [IZ _]. apply (other_name _ _ _ W IY IZ) in O. exact O.
  - intros z IZ. apply filter_In in IZ as [IZ _]. apply (v_ids _ _ _ _ _ V), IZ.
  - apply (v_next _ _ _ _ _ V).
Qed.
Lemma park_inv p s I i es y t i' es' : inv p s I i es -> In y (ents s) ->
  TapProofs.rel isp t i' es' -> TapSpec.closed i' = false -> TapSpec.names i' = TapSpec.names i ->
  sound p (dir I) (closures s) (filter (other y) (filter clean (ents s))) (TapSpec.entries i') ->
  inv p (mark (set_tap s t) y true)
    (mkIdeal (filter (fun x => negb (for_ (e_name y) x)) (active I)) (if away I (e_name y) then parked I else parked I ++ [e_name y]) (direct I)) i' es'.
Proof.
  intros V IY R C N S. pose proof (v_wf _ _ _ _ _ V) as W. unfold mark, set_ents, set_tap. cbn [tap closures subs ents handles opened next held].
  constructor; cbn [tap closures subs ents handles opened next held active parked direct].
  - exact R.
  - exact C.
  - rewrite mark_clean. exact S.
  - apply wf_mark, W.
  - rewrite N. apply (v_names _ _ _ _ _ V).
  - rewrite N. apply (v_direct _ _ _ _ _ V).
  - apply (v_ddup _ _ _ _ _ V).
  - apply (v_opened _ _ _ _ _ V).
  - intros z IZ. destruct (in_marked _ _ _ _ IZ) as (u & IU & -> & -> & _). apply (v_subs _ _ _ _ _ V), IU.
  - rewrite mark_clean. eapply view_other; try eassumption. intros z _ _. reflexivity.
  - intros n. assert (X : In n (if away I (e_name y) then parked I else parked I ++ [e_name y]) <-> In n (parked I) \/ n = e_name y).
    { destruct (away I (e_name y)) eqn:A.
      - split; [auto|]. intros [X|X]; [exact X|]. subst n. apply is_in, A.
      - rewrite in_app_iff. cbn. intuition congruence. }
    rewrite X, (v_parked _ _ _ _ _ V). clear X. split.
    + intros [(z & IZ & DZ & <-) | ->].
      * exists (if Nat.eqb (e_sub z) (e_sub y) then mkEntry (e_name z) (e_sub z) (e_id z) true else z). split; [apply in_map_iff; exists z; auto|]. destruct (Nat.eqb _ _); auto.
      * exists (mkEntry (e_name y) (e_sub y) (e_id y) true). split; [|auto]. apply in_map_iff. exists y. rewrite Nat.eqb_refl. auto.
    + intros (z & IZ & DZ & <-). destruct (in_marked _ _ _ _ IZ) as (u & IU & E1 & E2 & E3 & X). destruct (Nat.eqb (e_sub u) (e_sub y)) eqn:E.
      * right. apply Nat.eqb_eq in E. rewrite E1. apply (nodup_map_inj e_sub _ (w_subs _ W)) in E; try assumption. subst u. reflexivity.
      * left. subst z. exists u. auto.
  - apply (v_held _ _ _ _ _ V).
  - apply (v_hnext _ _ _ _ _ V).
  - intros z IZ. rewrite mark_clean in IZ. apply filter_In in IZ as [IZ _]. apply (v_mine _ _ _ _ _ V), IZ.
  - intros z IZ. destruct (in_marked _ _ _ _ IZ) as (u & IU & _ & _ & -> & _). apply (v_ids _ _ _ _ _ V), IU.
  - apply (v_next _ _ _ _ _ V).
Qed.
Definition good (home : name -> nat) (p : nat) (s : state) (I : ideal) (o : op) : Prop :=
  exists s' i' es', step home s o = Ok (s', snd (ideal_step I o)) /\ inv p s' (fst (ideal_step I o)) i' es' /\ next s' p <= next s p + 1.

Lemma unsubscribe_ok home p s I i es e a : inv p s I i es -> proper_step I (Unsubscribe e a) -> good home p s I (Unsubscribe e a).
Proof.
  intros V (P & AW). unfold good. cbn [step ideal_step]. destruct (find_ent s e) as [y|] eqn:F.
  - apply find_ent_some in F as [IY EY]. subst e.
    assert (T : subscribed I (e_name y) || away I (e_name y) = true).
    { apply orb_true_iff. destruct (e_dirty y) eqn:D; [right; apply (away_iff _ _ _ _ _ _ V)|left; apply (subscribed_iff _ _ _ _ _ _ V)]; exists y; auto. }
    rewrite T. cbn [fst snd]. destruct (unhook_ok p s I i es y V IY) as (t & i' & es' & E & R & C & N & S).
    { intros D. apply AW. apply (away_iff _ _ _ _ _ _ V). exists y. auto. }
    destruct (v_subs _ _ _ _ _ V y IY) as (f & HF).
    assert (G : forall hd, NoDup (map snd hd) -> incl hd (held s) -> (forall q, In q (held s) -> fst q <> e_name y -> In q hd) ->
      exists s' i1 es1, (do s0 <- free_sub (drop_ent (set_held (set_tap s t) hd) y) (e_sub y) ; Ok (s0, [Code E_SUCCESS])) = Ok (s', [Code E_SUCCESS]) /\
        inv p s' (mkIdeal (filter (fun x => negb (for_ (e_name y) x)) (active I)) (filter (fun x => negb (is (e_name y) x)) (parked I)) (direct I)) i1 es1 /\ next s' p <= next s p + 1).
    { intros hd D1 D2 D3. destruct (free_ok (drop_ent (set_held (set_tap s t) hd) y) (e_sub y) _ HF) as (h & EH & HH). rewrite EH. cbn [obind].
      exists (mkState t (closures s) h (filter (other y) (ents s)) (handles s) (opened s) (next s) hd), i', es'. split; [reflexivity|]. split; [|cbn; lia].
      eapply drop_inv; eassumption. }
    unfold withdraw. fold (unhook s y). rewrite E. cbn [obind]. destruct a.
    + apply (G (filter (fun q => negb (bytes_eqb (fst q) (e_name y))) (held s))).
      * apply nodup_filter_map, (v_held _ _ _ _ _ V).
      * intros q Q. now apply filter_In in Q.
      * intros q Q NE. apply filter_In. split; [exact Q|]. apply negb_true_iff, bytes_eqb_neq, NE.
    + change (E_DESTINATION_NOT_FOUND =? E_DESTINATION_NOT_FOUND) with true. cbn match. exists (mark (set_tap s t) y true), i', es'. split; [reflexivity|]. split; [|cbn; lia]. apply park_inv with (i := i) (es := es); assumption.
    + apply (G (held s)); [apply (v_held _ _ _ _ _ V)|intros q Q; exact Q|auto].
    + apply (G (held s)); [apply (v_held _ _ _ _ _ V)|intros q Q; exact Q|auto].
  - pose proof (find_ent_none _ _ F) as NE.
    assert (T : subscribed I e || away I e = false).
    { apply orb_false_iff. split; apply not_true_is_false; intros T; [apply (subscribed_iff _ _ _ _ _ _ V) in T|apply (away_iff _ _ _ _ _ _ V) in T]; destruct T as (y & IY & _ & EY); exact (NE y IY EY). }
    rewrite T. exists s, i, es. split; [reflexivity|]. split; [exact V|lia].
Qed.

Lemma nodup_snoc {A} (l : list A) x : NoDup l -> ~ In x l -> NoDup (l ++ [x]).
Proof. intros N I. apply (Permutation_NoDup (l := x :: l)); [apply Permutation_cons_append|]. constructor; assumption. Qed.
Lemma wf_snoc l y : wf l -> ~ In (e_name y) (map e_name l) -> ~ In (e_id y) (map e_id l) -> ~ In (e_sub y) (map e_sub l) -> plain (e_name y) -> 0 <= e_id y < 2 ^ 32 -> wf (l ++ [y]).
Proof.
  intros [A B C D E] N1 N2 N3 P R. constructor; try (rewrite map_app; apply nodup_snoc; assumption); intros z I; apply in_app_iff in I as [I|[<-|[]]]; auto.
Qed.
Definition added (s : state) (e : name) (h : Z) (p : nat) : state :=
  mkState (tap s) (closures s) (subs s ++ [Some (e, h)]) (ents s ++ [mkEntry e (length (subs s)) (next s p) false]) (handles s) (opened s)
    (fun n => if Nat.eqb n p then (next s p + 1) mod 2 ^ 32 else next s n) (held s ++ [(e, next s p)]).
Lemma filter_snoc {A} (f : A -> bool) l x : filter f (l ++ [x]) = filter f l ++ (if f x then [x] else []).
Proof. rewrite filter_app. cbn. destruct (f x); reflexivity. Qed.
Lemma fresh_ok p s I i es e h : inv p s I i es -> plain e -> (forall y, In y (ents s) -> e_name y <> e) -> (length (active I) < 128)%nat -> next s p + 1 < 2 ^ 32 ->
  exists s' i' es', match TapModel.connection_of (tap (added s e h p)) e with
                    | Some _ => do s0 <- unlisten (added s e h p) e (next s p) ; listen_direct s0 e (length (subs s)) (next s p)
                    | None => listen_broker (added s e h p) None e (length (subs s)) (next s p)
                    end = Ok (s', E_SUCCESS) /\ inv p s' (mkIdeal (active I ++ [(e, h)]) (parked I) (direct I)) i' es' /\ next s' p <= next s p + 1.
Proof.
  intros V P NE L B. pose proof (v_rel _ _ _ _ _ V) as R. pose proof (v_open _ _ _ _ _ V) as C. pose proof (v_sound _ _ _ _ _ V) as S. pose proof (v_wf _ _ _ _ _ V) as W0.
  pose proof (wf_filter clean _ W0) as W. pose proof (v_next _ _ _ _ _ V) as NX.
  set (s1 := added s e h p). set (y := mkEntry e (length (subs s)) (next s p) false).
  assert (LL : (length (filter clean (ents s)) < 128)%nat) by (rewrite (v_active _ _ _ _ _ V), map_length in L; exact L).
  assert (FI : forall z, In z (ents s) -> e_id z <> next s p) by (intros z IZ X; apply (v_ids _ _ _ _ _ V) in IZ; lia).
  assert (FI' : ~ In (next s p) (map e_id (filter clean (ents s)))).
  { intros X. apply in_map_iff in X as (z & X & IZ). apply filter_In in IZ as [IZ _]. exact (FI z IZ X). }
  assert (NE' : forall z, In z (filter clean (ents s)) -> e_name z <> e) by (intros z IZ; apply NE; now apply filter_In in IZ).
  assert (IL : forall z, In z (ents s) -> (e_sub z < length (subs s))%nat) by (intros z IZ; destruct (v_subs _ _ _ _ _ V z IZ) as (f & F); apply nth_error_Some; congruence).
  assert (K : exists t es', match TapModel.connection_of (tap s1) e with
                    | Some _ => do s0 <- unlisten s1 e (next s p) ; listen_direct s0 e (length (subs s)) (next s p)
                    | None => listen_broker s1 None e (length (subs s)) (next s p)
                    end = Ok (set_tap (fst (closure s1 None (length (subs s)))) t, E_SUCCESS) /\
            TapProofs.rel isp t (TapSpec.mkIdeal (TapSpec.entries i ++ [te p (dir I e) y (length (closures s))]) (TapSpec.names i) (TapSpec.closed i)) es').
  { change (tap s1) with (tap s). rewrite (conn_dir _ _ _ _ _ _ V). pose proof (where_dir _ _ _ _ _ e V) as WH. destruct (dir I e) eqn:D.
    - destruct (unlisten_none s1 i es p (dir I) (filter clean (ents s)) e (next s p) R C S W P) as (t1 & es1 & E1 & R1); [rewrite D, andb_false_r; reflexivity|].
      rewrite E1. cbn [obind]. pose proof (listen_ok (set_tap s1 t1) i es1 p (dir I) (filter clean (ents s)) e (length (subs s)) (next s p) R1 C S W P NE' FI' LL) as X. rewrite D in X. destruct (X WH) as (t & es' & E & R').
      rewrite E. exists t, es'. split; [reflexivity|exact R'].
    - pose proof (listen_ok s1 i es p (dir I) (filter clean (ents s)) e (length (subs s)) (next s p) R C S W P NE' FI' LL) as X. rewrite D in X. destruct (X WH) as (t & es' & E & R').
      rewrite E. exists t, es'. split; [reflexivity|exact R']. }
  destruct K as (t & es' & E & R'). eexists. eexists. exists es'. split; [exact E|]. unfold s1, added, closure, set_tap. cbn [fst tap closures subs ents handles opened next held].
  assert (M : (next s p + 1) mod 2 ^ 32 = next s p + 1) by (apply Z.mod_small; lia).
  split; [|rewrite Nat.eqb_refl, M; lia].
  constructor; cbn [tap closures subs ents handles opened next held active parked direct]; rewrite ?Nat.eqb_refl, ?M.
  - exact R'.
  - exact C.
  - rewrite filter_snoc. cbn [clean e_dirty negb]. apply (sound_add p (dir I) (closures s) (filter clean (ents s)) (TapSpec.entries i) y S).
  - apply wf_snoc; cbn [e_name e_id e_sub]; [exact W0| | | |exact P|lia].
    + intros X. apply in_map_iff in X as (z & X & IZ). exact (NE z IZ X).
    + intros X. apply in_map_iff in X as (z & X & IZ). exact (FI z IZ X).
    + intros X. apply in_map_iff in X as (z & X & IZ). apply IL in IZ. lia.
  - apply (v_names _ _ _ _ _ V).
  - apply (v_direct _ _ _ _ _ V).
  - apply (v_ddup _ _ _ _ _ V).
  - apply (v_opened _ _ _ _ _ V).
  - intros z IZ. apply in_app_iff in IZ as [IZ|[<-|[]]].
    + rewrite nth_error_app1 by (apply IL, IZ). apply (v_subs _ _ _ _ _ V), IZ.
    + cbn. exists h. rewrite nth_error_app2, Nat.sub_diag by lia. reflexivity.
  - rewrite filter_snoc. cbn [clean e_dirty negb]. rewrite map_app, (v_active _ _ _ _ _ V). f_equal.
    + apply map_ext_in. intros z IZ. apply filter_In in IZ as [IZ _]. unfold view. rewrite nth_error_app1 by (apply IL, IZ). reflexivity.
    + cbn. unfold view. cbn [e_sub e_name]. rewrite nth_error_app2, Nat.sub_diag by lia. reflexivity.
  - intros n. rewrite (v_parked _ _ _ _ _ V). split.
    + intros (z & IZ & X). exists z. split; [apply in_app_iff; left; exact IZ|exact X].
    + intros (z & IZ & X & Y). apply in_app_iff in IZ as [IZ|[<-|[]]]; [exists z; auto|]. discriminate.
  - rewrite map_app. apply nodup_snoc; [apply (v_held _ _ _ _ _ V)|]. intros X. apply in_map_iff in X as (q & X & Q). apply (v_hnext _ _ _ _ _ V) in Q. cbn in X. lia.
  - intros q Q. apply in_app_iff in Q as [Q|[<-|[]]]; [apply (v_hnext _ _ _ _ _ V) in Q; lia|cbn; lia].
  - intros z IZ. rewrite filter_snoc in IZ. apply in_app_iff. apply in_app_iff in IZ as [IZ|[<-|[]]]; [left; apply (v_mine _ _ _ _ _ V), IZ|right; left; reflexivity].
  - intros z IZ. apply in_app_iff in IZ as [IZ|[<-|[]]]; [apply (v_ids _ _ _ _ _ V) in IZ; lia|cbn; lia].
  - lia.
Qed.
Lemma drop_marked y d l : filter (other y) (map (fun z => if Nat.eqb (e_sub z) (e_sub y) then mkEntry (e_name z) (e_sub z) (e_id z) d else z) l) = filter (other y) l.
Proof.
  induction l as [|z l IH]; [reflexivity|]. cbn [map filter]. rewrite IH. destruct (Nat.eqb (e_sub z) (e_sub y)) eqn:E.
  - unfold other at 1. cbn [e_sub]. rewrite E. cbn [negb]. unfold other at 2. rewrite E. reflexivity.
  - reflexivity.
Qed.
Lemma mark_back s y : wf (ents s) -> In y (ents s) -> e_dirty y = true -> mark (mark s y false) y true = s.
Proof.
  intros W IY D. destruct s as [t c h l hs o n hd]. unfold mark, set_ents. cbn [tap closures subs ents handles opened next held] in *. f_equal. rewrite map_map.
  rewrite <- (map_id l) at 2. apply map_ext_in. intros z IZ. destruct (Nat.eqb (e_sub z) (e_sub y)) eqn:E.
  - cbn [e_sub]. rewrite E. cbn. apply Nat.eqb_eq in E. apply (nodup_map_inj e_sub _ (w_subs _ W)) in E; try assumption. subst z. destruct y as [n0 q0 i0 d0]. cbn in D. subst d0. reflexivity.
  - rewrite E. reflexivity.
Qed.
Lemma filter_all {A} (f : A -> bool) l : (forall x, In x l -> f x = true) -> filter f l = l.
Proof. induction l as [|x l IH]; intros H; [reflexivity|]. cbn. rewrite H by (left; reflexivity). f_equal. apply IH. intros y I. apply H. right. exact I. Qed.
Lemma not_subscribed I e : subscribed I e = false -> filter (fun x => negb (for_ e x)) (active I) = active I.
Proof.
  intros N. apply filter_all. intros x X. apply negb_true_iff. apply not_true_is_false. intros T. unfold subscribed in N. apply not_true_iff_false in N. apply N, existsb_exists. exists x. auto.
Qed.
Lemma not_away I e : away I e = false -> filter (fun x => negb (is e x)) (parked I) = parked I.
Proof.
  intros N. apply filter_all. intros x X. apply negb_true_iff. apply not_true_is_false. intros T. unfold away in N. apply not_true_iff_false in N. apply N, existsb_exists. exists x. auto.
Qed.
Lemma dirty_sound p s I i es y : inv p s I i es -> In y (ents s) -> e_dirty y = true -> sound p (dir I) (closures s) (filter (other y) (filter clean (ents s))) (TapSpec.entries i).
Proof.
  intros V IY DY. pose proof (v_wf _ _ _ _ _ V) as W0. eapply sound_same; [|reflexivity|exact (v_sound _ _ _ _ _ V)]. intros z. split; [intros IZ|intros IZ; now apply filter_In in IZ]. apply filter_In. split; [exact IZ|]. apply filter_In in IZ as [IZ CZ].
  unfold other. apply negb_true_iff, Nat.eqb_neq. intros X. apply (nodup_map_inj e_sub _ (w_subs _ W0)) in X; try assumption. subst z. unfold clean in CZ. rewrite DY in CZ. discriminate.
Qed.
Lemma subscribe_ok home p s I i es e h a : inv p s I i es -> proper_step I (Subscribe e h a) -> (forall n, home n = p) -> next s p + 1 < 2 ^ 32 -> good home p s I (Subscribe e h a).
Proof.
  intros V (P & L & A) HM B. pose proof (v_wf _ _ _ _ _ V) as W. unfold good. cbn [step ideal_step]. destruct (find_ent s e) as [y|] eqn:F.
  - apply find_ent_some in F as [IY EY]. destruct (e_dirty y) eqn:D.
    + assert (AW : away I e = true) by (apply (away_iff _ _ _ _ _ _ V); exists y; auto).
      assert (SU : subscribed I e = false).
      { apply not_true_is_false. intros T. apply (subscribed_iff _ _ _ _ _ _ V) in T as (z & IZ & DZ & EZ). rewrite <- EY in EZ. apply (nodup_map_inj e_name _ (w_names _ W)) in EZ; try assumption. subst z. congruence. }
      rewrite SU.
      assert (X : forall (T : Type) (u v : T), match y with mkEntry _ _ _ false => u | _ => v end = v) by (intros T u v; destruct y as [? ? ? []]; [reflexivity|discriminate]).
      rewrite X. clear X. destruct a; cbn [fst snd].
      * destruct (v_subs _ _ _ _ _ V y IY) as (f & HF).
        destruct (free_ok (drop_ent (mark s y false) y) (e_sub y) _ HF) as (hh & EH & HH). rewrite EH. cbn [obind].
        assert (V2 : inv p (mkState (tap s) (closures s) hh (filter (other y) (ents s)) (handles s) (opened s) (next s) (held s))
                 (mkIdeal (filter (fun x => negb (for_ (e_name y) x)) (active I)) (filter (fun x => negb (is (e_name y) x)) (parked I)) (direct I)) i es).
        { eapply drop_inv; try eassumption; [apply (v_rel _ _ _ _ _ V)|apply (v_open _ _ _ _ _ V)|reflexivity|eapply dirty_sound; eassumption|apply (v_held _ _ _ _ _ V)|intros q Q; exact Q|auto]. }
        rewrite EY in V2. rewrite (not_subscribed _ _ SU) in V2.
        cbn [drop_ent set_ents mark tap closures subs ents handles opened next held].
        replace (filter (fun z => negb (Nat.eqb (e_sub z) (e_sub y))) (map (fun z => if Nat.eqb (e_sub z) (e_sub y) then mkEntry (e_name z) (e_sub z) (e_id z) false else z) (ents s))) with (filter (other y) (ents s)) by (symmetry; apply drop_marked).
        destruct (fresh_ok _ _ _ _ _ e h V2 P) as (s' & i' & es' & E & V' & N).
        { intros z IZ. cbn [ents] in IZ. apply filter_In in IZ as [IZ O]. apply (other_name _ _ _ W IY IZ) in O. rewrite EY in O. exact O. }
        { exact L. } { exact B. }
        rewrite HM. unfold added in E. cbn [tap closures subs ents handles opened next held] in E. rewrite E. cbn [obind]. exists s', i', es'. split; [reflexivity|]. split; [exact V'|exact N].
      * rewrite (mark_back _ _ W IY D). exists s, i, es. split; [reflexivity|]. split; [exact V|lia].
      * congruence.
      * contradiction.
    + assert (SU : subscribed I e = true) by (apply (subscribed_iff _ _ _ _ _ _ V); exists y; auto). rewrite SU. destruct y as [? ? ? []]; [discriminate|]. exists s, i, es. split; [reflexivity|]. split; [exact V|lia].
  - pose proof (find_ent_none _ _ F) as NE.
    assert (SU : subscribed I e = false) by (apply not_true_is_false; intros T; apply (subscribed_iff _ _ _ _ _ _ V) in T; destruct T as (y & IY & _ & EY); exact (NE y IY EY)).
    assert (AW : away I e = false) by (apply not_true_is_false; intros T; apply (away_iff _ _ _ _ _ _ V) in T; destruct T as (y & IY & _ & EY); exact (NE y IY EY)).
    rewrite SU. destruct a; cbn [fst snd].
    + cbn [obind]. destruct (fresh_ok _ _ _ _ _ e h V P NE L B) as (s' & i' & es' & E & V' & N). rewrite HM. unfold added in E. rewrite E. cbn [obind]. exists s', i', es'. split; [reflexivity|]. split; [|exact N].
      rewrite (not_away _ _ AW). exact V'.
    + exists s, i, es. split; [reflexivity|]. split; [exact V|lia].
    + exists s, i, es. split; [reflexivity|]. split; [exact V|lia].
    + contradiction.
Qed.

(** ** direct connections *)
Lemma filter_length_le {A} (f : A -> bool) l : (length (filter f l) <= length l)%nat.
Proof. induction l as [|x l IH]; cbn; [lia|]. destruct (f x); cbn; lia. Qed.
Lemma move_in_none s l e : (forall y, In y l -> e_name y <> e) -> move_in s l e = Ok s.
Proof. induction l as [|y l IH]; intros H; [reflexivity|]. cbn [move_in]. rewrite (proj2 (bytes_eqb_neq _ _) (H y (or_introl eq_refl))). apply IH. intros z I. apply H. right. exact I. Qed.
Lemma move_in_one l1 : forall s y l2, (forall z, In z l1 -> e_name z <> e_name y) ->
  move_in s (l1 ++ y :: l2) (e_name y) = (do s <- unlisten s (e_name y) (e_id y) ; do (s, _) <- listen_direct s (e_name y) (e_sub y) (e_id y) ; move_in s l2 (e_name y)).
Proof.
  induction l1 as [|x l1 IH]; intros s y l2 H; cbn [app move_in].
  - rewrite bytes_eqb_refl. reflexivity.
  - rewrite (proj2 (bytes_eqb_neq _ _) (H x (or_introl eq_refl))). apply IH. intros z I. apply H. right. exact I.
Qed.
Lemma move_out_none s d l e : (forall y, In y l -> e_name y <> e) -> move_out s d l e = Ok s.
Proof. induction l as [|y l IH]; intros H; [reflexivity|]. cbn [move_out]. rewrite (proj2 (bytes_eqb_neq _ _) (H y (or_introl eq_refl))). apply IH. intros z I. apply H. right. exact I. Qed.
Lemma dir_app I e n : dir (mkIdeal (active I) (parked I) (direct I ++ [e])) n = dir I n || bytes_eqb e n.
Proof. unfold dir. cbn [direct]. rewrite existsb_app. cbn. rewrite orb_false_r. reflexivity. Qed.

Lemma opened_inv p s I i es e t i' es' cl : inv p s I i es -> dir I e = false -> TapProofs.rel isp t i' es' -> TapSpec.closed i' = false -> TapSpec.names i' = TapSpec.names i ++ [(e, S p)] ->
  sound p (dir (mkIdeal (active I) (parked I) (direct I ++ [e]))) cl (filter clean (ents s)) (TapSpec.entries i') ->
  inv p (mkState t cl (subs s) (ents s) (handles s ++ [true]) (opened s ++ [(e, length (handles s))]) (next s) (held s)) (mkIdeal (active I) (parked I) (direct I ++ [e])) i' es'.
Proof.
  intros V D R C N S. constructor; cbn [tap closures subs ents handles opened next held active parked direct].
  - exact R.
  - exact C.
  - exact S.
  - apply (v_wf _ _ _ _ _ V).
  - rewrite N. intros q Q. apply in_app_iff in Q as [Q|[<-|[]]]; [apply (v_names _ _ _ _ _ V), Q|reflexivity].
  - rewrite N, map_app, (v_direct _ _ _ _ _ V). reflexivity.
  - apply nodup_snoc; [apply (v_ddup _ _ _ _ _ V)|]. intros X. apply is_in in X. unfold dir in D. congruence.
  - rewrite map_app, (v_opened _ _ _ _ _ V). reflexivity.
  - apply (v_subs _ _ _ _ _ V).
  - apply (v_active _ _ _ _ _ V).
  - apply (v_parked _ _ _ _ _ V).
  - apply (v_held _ _ _ _ _ V).
  - apply (v_hnext _ _ _ _ _ V).
  - apply (v_mine _ _ _ _ _ V).
  - apply (v_ids _ _ _ _ _ V).
  - apply (v_next _ _ _ _ _ V).
Qed.
Lemma open_ok home p s I i es e : inv p s I i es -> (length (active I) <= 128)%nat -> proper_step I (OpenDirect e) -> (forall n, home n = p) -> good home p s I (OpenDirect e).
Proof.
  intros V L (P & AW) HM. pose proof (v_wf _ _ _ _ _ V) as W0. pose proof (wf_filter clean _ W0) as W. unfold good. cbn [step ideal_step]. rewrite (conn_dir _ _ _ _ _ _ V). unfold dir. destruct (existsb (is e) (direct I)) eqn:D; cbn [fst snd].
  { exists s, i, es. split; [reflexivity|]. split; [exact V|lia]. }
  fold (dir I e) in D. set (I' := mkIdeal (active I) (parked I) (direct I ++ [e])).
  assert (DI : forall n, n <> e -> dir I n = dir I' n).
  { intros n NE. unfold I'. rewrite dir_app, (proj2 (bytes_eqb_neq e n)) by congruence. rewrite orb_false_r. reflexivity. }
  assert (DE : dir I' e = true) by (unfold I'; rewrite dir_app, bytes_eqb_refl, orb_true_r; reflexivity).
  rewrite HM. destruct (call_ok s i es (TapModel.Open e p) (v_rel _ _ _ _ _ V) Logic.I) as (t & es1 & E1 & R1). rewrite E1. cbn [obind]. clear E1.
  cbn [TapSpec.ideal_step fst snd] in R1. set (i1 := TapSpec.mkIdeal (TapSpec.entries i) (TapSpec.names i ++ [(e, S p)]) (TapSpec.closed i)) in *.
  assert (C1 : TapSpec.closed i1 = false) by exact (v_open _ _ _ _ _ V).
  assert (S1 : sound p (dir I) (closures s) (filter clean (ents s)) (TapSpec.entries i1)) by exact (v_sound _ _ _ _ _ V).
  cbn [tap closures subs ents handles opened next held set_tap].
  set (s2 := mkState t (closures s) (subs s) (ents s) (handles s ++ [true]) (opened s ++ [(e, length (handles s))]) (next s) (held s)).
  destruct (find_ent s e) as [y|] eqn:F.
  - apply find_ent_some in F as [IY EY]. subst e.
    assert (CY : clean y = true).
    { unfold clean. destruct (e_dirty y) eqn:DY; [|reflexivity]. exfalso. apply not_true_iff_false in AW. apply AW. apply (away_iff _ _ _ _ _ _ V). exists y. auto. }
    assert (IC : In y (filter clean (ents s))) by (apply filter_In; auto).
    destruct (in_split _ _ IY) as (l1 & l2 & SP).
    assert (N12 : forall z, In z l1 \/ In z l2 -> e_name z <> e_name y).
    { pose proof (w_names _ W0) as N. rewrite SP, map_app in N. cbn [map] in N. apply NoDup_remove_2 in N. intros z [I0|I0] X; apply N; apply in_app_iff; [left|right]; rewrite <- X; apply in_map, I0. }
    rewrite SP. rewrite move_in_one by (intros z I0; apply N12; left; exact I0).
    destruct (unlisten_some s2 i1 es1 p (dir I) (filter clean (ents s)) y R1 C1 S1 W IC D) as (t2 & es2 & E2 & R2). rewrite E2. cbn [obind]. clear E2.
    set (i2 := TapSpec.without (TapSpec.on 0 (e_id y)) i1) in *.
    assert (S2 : sound p (dir I') (closures s) (filter (other y) (filter clean (ents s))) (TapSpec.entries i2)).
    { eapply sound_same; [reflexivity| |apply sound_remove with (dir := dir I); [exact S1|exact W|exact IC|rewrite D; reflexivity]].
      intros z IZ. apply DI. apply filter_In in IZ as [IZ O]. apply filter_In in IZ as [IZ _]. apply (other_name _ _ _ W0 IY IZ). exact O. }
    assert (LL : (length (filter (other y) (filter clean (ents s))) < 128)%nat).
    { rewrite (v_active _ _ _ _ _ V), map_length in L. destruct (in_split _ _ IC) as (k1 & k2 & K). rewrite K in *. rewrite filter_app. cbn [filter]. unfold other at 2. rewrite Nat.eqb_refl. cbn [negb].
      rewrite app_length in *. cbn [length] in L. pose proof (filter_length_le (other y) k1). pose proof (filter_length_le (other y) k2). lia. }
    pose proof (listen_ok (set_tap s2 t2) i2 es2 p (dir I') (filter (other y) (filter clean (ents s))) (e_name y) (e_sub y) (e_id y) R2 C1 S2 (wf_filter _ _ W) P) as X.
    rewrite DE in X. destruct X as (t3 & es3 & E3 & R3).
    { intros z IZ. apply filter_In in IZ as [IZ O]. apply filter_In in IZ as [IZ _]. apply (other_name _ _ _ W0 IY IZ). exact O. }
    { intros X. apply in_map_iff in X as (z & X & IZ). apply filter_In in IZ as [IZ O]. apply filter_In in IZ as [IZ _]. apply (nodup_map_inj e_id _ (w_ids _ W0)) in X; try assumption. subst z. unfold other in O. rewrite Nat.eqb_refl in O. discriminate. }
    { exact LL. }
    { unfold TapSpec.where_is. cbn [i2 TapSpec.without TapSpec.names i1]. pose proof (where_dir _ _ _ _ _ (e_name y) V) as WH. rewrite D in WH. unfold TapSpec.where_is in WH.
      revert WH. generalize (TapSpec.names i). induction l as [|q l IH]; cbn [find app]; [rewrite bytes_eqb_refl; reflexivity|]. destruct (bytes_eqb (fst q) (e_name y)); [discriminate|exact IH]. }
    rewrite E3. cbn [obind]. rewrite move_in_none by (intros z I0; apply N12; right; exact I0). cbn [obind].
    eexists. eexists. exists es3. split; [reflexivity|]. split; [|cbn; lia]. unfold closure, s2, set_tap. cbn [fst tap closures subs ents handles opened next held].
    eapply opened_inv; try eassumption; [reflexivity|].
    eapply sound_same; [|reflexivity|]; cycle 1.
    + pose proof (sound_add p (dir I') (closures s) _ _ (mkEntry (e_name y) (e_sub y) (e_id y) false) S2) as X. cbn [e_name e_sub] in X. rewrite DE in X. exact X.
    + assert (YY : mkEntry (e_name y) (e_sub y) (e_id y) false = y) by (unfold clean in CY; destruct y as [? ? ? []]; [discriminate|reflexivity]). rewrite YY. intros z. split.
      * intros IZ. apply in_app_iff in IZ as [IZ|[<-|[]]]; [now apply filter_In in IZ|exact IC].
      * intros IZ. apply in_app_iff. destruct (other y z) eqn:O; [left; apply filter_In; auto|]. right. left. unfold other in O. apply negb_false_iff, Nat.eqb_eq in O. apply filter_In in IZ as [IZ _]. apply (nodup_map_inj e_sub _ (w_subs _ W0)) in O; auto.
  - pose proof (find_ent_none _ _ F) as NE. rewrite move_in_none by exact NE. cbn [obind]. eexists. exists i1, es1. split; [reflexivity|]. split; [|cbn; lia].
    unfold s2. eapply opened_inv; try eassumption; [reflexivity|]. eapply sound_same; [reflexivity| |exact S1]. intros z IZ. apply DI, NE. now apply filter_In in IZ.
Qed.
Lemma names_drop e (l : list (name * nat)) : NoDup (map fst l) -> TapModel.drop_name e l = filter (fun q => negb (is e (fst q))) l.
Proof.
  induction l as [|q l IH]; intros N; [reflexivity|]. cbn in N. inversion N as [|? ? NI N']; subst. cbn [TapModel.drop_name filter]. unfold is at 1. destruct (bytes_eqb (fst q) e) eqn:E; cbn [negb].
  - symmetry. apply filter_all. intros r I. apply negb_true_iff, bytes_eqb_neq. apply bytes_eqb_eq in E. intros X. apply NI. rewrite E, <- X. apply in_map, I.
  - f_equal. apply IH, N'.
Qed.
Lemma map_fst_filter {A} f (l : list (name * A)) : map fst (filter (fun q => f (fst q)) l) = filter f (map fst l).
Proof. rewrite TapProofs.filter_map. reflexivity. Qed.
Lemma close_ok home p s I i es e : inv p s I i es -> proper_step I (CloseDirect e) -> good home p s I (CloseDirect e).
Proof.
  intros V (P & D & AW & SU). unfold good. cbn [step ideal_step fst snd].
  assert (O : exists d, find (fun q => bytes_eqb (fst q) e) (opened s) = Some (e, d)).
  { apply is_in in D. rewrite <- (v_opened _ _ _ _ _ V) in D. apply in_map_iff in D as ((n & d) & X & IN). cbn in X. subst n.
    destruct (find (fun q => bytes_eqb (fst q) e) (opened s)) as [[n d']|] eqn:F.
    - apply find_some in F as [_ F]. cbn in F. apply bytes_eqb_eq in F. subst n. eauto.
    - apply (List.find_none _ _ F) in IN. cbn in IN. rewrite bytes_eqb_refl in IN. discriminate. }
  destruct O as (d & O). rewrite O.
  assert (NE : forall y, In y (ents s) -> e_name y <> e).
  { intros y IY X. destruct (e_dirty y) eqn:DY; [apply not_true_iff_false in AW; apply AW, (away_iff _ _ _ _ _ _ V)|apply not_true_iff_false in SU; apply SU, (subscribed_iff _ _ _ _ _ _ V)]; exists y; auto. }
  rewrite move_out_none by exact NE. cbn [obind]. destruct (call_ok s i es (TapModel.Close e) (v_rel _ _ _ _ _ V) Logic.I) as (t & es1 & E1 & R1). rewrite E1. cbn [obind]. clear E1.
  cbn [TapSpec.ideal_step] in R1. rewrite (where_dir _ _ _ _ _ _ V) in R1. unfold dir in R1. rewrite D in R1. cbn [fst] in R1.
  assert (ND : NoDup (map fst (TapSpec.names i))) by (rewrite (v_direct _ _ _ _ _ V); apply (v_ddup _ _ _ _ _ V)).
  rewrite (names_drop _ _ ND) in R1. set (N' := filter (fun q => negb (is e (fst q))) (TapSpec.names i)) in *.
  assert (MD : map fst N' = filter (fun x => negb (is e x)) (direct I)) by (unfold N'; rewrite (map_fst_filter (fun x => negb (is e x))), (v_direct _ _ _ _ _ V); reflexivity).
  set (I' := mkIdeal (active I) (parked I) (filter (fun x => negb (is e x)) (direct I))).
  assert (DI : forall n, n <> e -> dir I n = dir I' n).
  { intros n NN. unfold I', dir. cbn [direct]. apply eq_iff_eq_true. rewrite !is_in, filter_In. unfold is. rewrite negb_true_iff, bytes_eqb_neq. intuition. }
  assert (R2 : TapProofs.rel isp t (TapSpec.mkIdeal (TapSpec.entries i) N' (TapSpec.closed i)) es1).
  { destruct (existsb (fun q => Nat.eqb (snd q) (S p)) N') eqn:X; [exact R1|].
    assert (EN : N' = []).
    { destruct N' as [|q r] eqn:Q; [reflexivity|]. exfalso. cbn in X. apply orb_false_iff in X as [X _]. apply Nat.eqb_neq in X. apply X. apply (v_names _ _ _ _ _ V).
      assert (IQ : In q (filter (fun q => negb (is e (fst q))) (TapSpec.names i))) by (unfold N' in Q; rewrite Q; left; reflexivity). now apply filter_In in IQ. }
    rewrite filter_all in R1; [exact R1|]. intros x IX. destruct (so_is _ _ _ _ _ (v_sound _ _ _ _ _ V) x IX) as (y & k & IY & _ & ->). cbn [te TapSpec.i_conn]. apply filter_In in IY as [IY _].
    rewrite (DI _ (NE y IY)). unfold I', dir. cbn [direct]. rewrite <- MD, EN. reflexivity. }
  eexists. eexists. exists es1. split; [reflexivity|]. split; [|cbn; lia]. cbn [set_tap tap closures subs ents handles opened next held].
  constructor; cbn [tap closures subs ents handles opened next held active parked direct I'].
  - exact R2.
  - exact (v_open _ _ _ _ _ V).
  - eapply sound_same; [reflexivity| |exact (v_sound _ _ _ _ _ V)]. intros z IZ. apply DI, NE. now apply filter_In in IZ.
  - apply (v_wf _ _ _ _ _ V).
  - intros q Q. apply (v_names _ _ _ _ _ V). unfold N' in Q. cbn [TapSpec.names] in Q. now apply filter_In in Q.
  - exact MD.
  - apply NoDup_filter, (v_ddup _ _ _ _ _ V).
  - rewrite <- (v_opened _ _ _ _ _ V). apply (map_fst_filter (fun x => negb (bytes_eqb x e))).
  - apply (v_subs _ _ _ _ _ V).
  - apply (v_active _ _ _ _ _ V).
  - apply (v_parked _ _ _ _ _ V).
  - apply (v_held _ _ _ _ _ V).
  - apply (v_hnext _ _ _ _ _ V).
  - apply (v_mine _ _ _ _ _ V).
  - apply (v_ids _ _ _ _ _ V).
  - apply (v_next _ _ _ _ _ V).
Qed.

(** ** publishing *)
Lemma tap_inv p s I i es t es' : inv p s I i es -> TapProofs.rel isp t i es' -> inv p (set_tap s t) I i es'.
Proof. intros [] R. constructor; cbn [set_tap tap closures subs ents handles opened next held]; assumption. Qed.
Definition out (s : state) (i : TapSpec.ideal) (e : name) (m : nat * Z) : list effect :=
  match find (TapSpec.on (fst m) (snd m)) (TapSpec.entries i) with
  | Some x => match nth_error (closures s) (Z.to_nat (TapSpec.i_handler x)) with Some (_, q) => match nth_error (subs s) q with Some (Some (_, f)) => [Ran f e] | _ => [] end | None => [] end
  | None => []
  end.
Lemma deliver_ok p I i e u l : forall s es, inv p s I i es -> exists t es', deliver s l e u = Ok (set_tap s t, flat_map (out s i e) l) /\ TapProofs.rel isp t i es'.
Proof.
  induction l as [|(c & id) l IH]; intros s es V.
  - exists (tap s), es. split; [|apply (v_rel _ _ _ _ _ V)]. destruct s. reflexivity.
  - cbn [deliver flat_map]. destruct (TapProofs.step_ok isp (tap s) i es (TapModel.Message c id false) (v_rel _ _ _ _ _ V) Logic.I) as (t & es1 & E & R). rewrite E. cbn [obind].
    assert (R1 : TapProofs.rel isp t i es1) by (cbn [TapSpec.ideal_step] in R; destruct (find _ _); exact R). pose proof (tap_inv _ _ _ _ _ _ _ V R1) as V1.
    assert (K : match snd (TapSpec.ideal_step i (TapModel.Message c id false)) with [TapModel.Called k] => handler (set_tap s t) k e u | _ => Ok (set_tap s t, []) end = Ok (set_tap s t, out s i e (c, id))).
    { cbn [TapSpec.ideal_step]. unfold out. cbn [fst snd]. destruct (find (TapSpec.on c id) (TapSpec.entries i)) as [x|] eqn:F; [|reflexivity]. cbn [snd app]. apply find_some in F as [IX _].
      destruct (so_is _ _ _ _ _ (v_sound _ _ _ _ _ V) x IX) as (y & k & IY & CL & ->). cbn [te TapSpec.i_handler]. unfold handler. cbn [set_tap closures handles subs]. rewrite Nat2Z.id, CL. cbn match.
      apply filter_In in IY as [IY CY]. destruct (v_subs _ _ _ _ _ V y IY) as (f & HF). rewrite HF.
      change (find_ent (set_tap s t) (e_name y)) with (find_ent s (e_name y)).
      rewrite (find_ent_in _ _ (v_wf _ _ _ _ _ V) IY). unfold clean in CY. apply negb_true_iff in CY. rewrite CY. reflexivity. }
    rewrite K. cbn [obind]. destruct (IH _ _ V1) as (t2 & es2 & E2 & R2). rewrite E2. cbn [obind]. exists t2, es2. split; [reflexivity|exact R2].
Qed.
Lemma out_is p s I i es e y c : inv p s I i es -> In y (filter clean (ents s)) -> c = (if dir I (e_name y) then S p else 0%nat) -> out s i e (c, e_id y) = [Ran (snd (view (subs s) y)) e].
Proof.
  intros V IY ->. destruct (sound_find _ _ _ _ _ _ _ _ (v_rel _ _ _ _ _ V) (v_sound _ _ _ _ _ V) IY) as (k & CL & F). unfold out. cbn [fst snd]. rewrite F. cbn [te TapSpec.i_handler]. rewrite Nat2Z.id, CL.
  apply filter_In in IY as [IY _]. destruct (v_subs _ _ _ _ _ V y IY) as (f & HF). unfold view. cbn [snd]. rewrite HF. reflexivity.
Qed.
Lemma flat_single {A B} (f : A -> list B) a l : NoDup l -> In a l -> (forall b, In b l -> b <> a -> f b = []) -> flat_map f l = f a.
Proof.
  induction l as [|x l IH]; intros N I H; [destruct I|]. inversion N as [|? ? NI N']; subst. cbn [flat_map].
  assert (Z : ~ In a l -> flat_map f l = []).
  { intros NA. assert (G : forall b, In b l -> f b = []) by (intros b IB; apply H; [right; exact IB|intros ->; exact (NA IB)]). revert G. clear. induction l as [|y l IH]; intros G; [reflexivity|]. cbn. rewrite G by (left; reflexivity). apply IH. intros b IB. apply G. right. exact IB. }
  destruct I as [->|I].
  - rewrite Z by exact NI. apply app_nil_r.
  - rewrite H; [|left; reflexivity|intros ->; exact (NI I)]. apply IH; [exact N'|exact I|]. intros b IB. apply H. right. exact IB.
Qed.
Lemma flat_none {A B} (f : A -> list B) l : (forall b, In b l -> f b = []) -> flat_map f l = [].
Proof. induction l as [|x l IH]; intros H; [reflexivity|]. cbn. rewrite H by (left; reflexivity). apply IH. intros b I. apply H. right. exact I. Qed.
Lemma one_active h l y : NoDup (map e_name l) -> In y l -> filter (for_ (e_name y)) (map (view h) l) = [view h y].
Proof.
  induction l as [|x l IH]; intros N I; [destruct I|]. cbn in N. inversion N as [|? ? NI N']; subst. cbn [map filter]. unfold for_ at 1, is. cbn [view fst]. destruct I as [->|I].
  - rewrite bytes_eqb_refl. f_equal. rewrite TapProofs.filter_map. rewrite TapProofs.filter_none; [reflexivity|]. intros z IZ. unfold for_, is. cbn. apply bytes_eqb_neq. intros X. apply NI. rewrite <- X. apply in_map, IZ.
  - rewrite (proj2 (bytes_eqb_neq _ _)); [apply IH; assumption|]. intros X. apply NI. rewrite X. apply in_map, I.
Qed.
Lemma no_active h l e : (forall y, In y l -> e_name y <> e) -> filter (for_ e) (map (view h) l) = [].
Proof. intros H. rewrite TapProofs.filter_map. rewrite TapProofs.filter_none; [reflexivity|]. intros z IZ. unfold for_, is. cbn. apply bytes_eqb_neq, H, IZ. Qed.
Definition to_broker (e : name) (t : list (option listener)) : list (nat * Z) :=
  flat_map (fun o => match o with Some l => if bytes_eqb (l_expr l) (raw e) then [(0%nat, l_id l)] else [] | None => [] end) t.
Lemma to_broker_active e t : to_broker e t = map (fun l => (0%nat, l_id l)) (filter (fun l => bytes_eqb (l_expr l) (raw e)) (ListenProofs.active t)).
Proof.
  unfold to_broker. induction t as [|[l|] t IH]; [reflexivity| |exact IH]. cbn [flat_map ListenProofs.active filter]. rewrite IH. destruct (bytes_eqb (l_expr l) (raw e)); reflexivity.
Qed.
Lemma broker_in s i es e m : TapProofs.rel isp (tap s) i es -> In m (to_broker e (TapModel.table (tap s) 0%nat)) <-> exists x, In x (TapSpec.entries i) /\ TapSpec.i_conn x = 0%nat /\ TapSpec.i_expr x = raw e /\ m = (0%nat, TapSpec.i_id x).
Proof.
  intros R. rewrite to_broker_active, in_map_iff. pose proof (TapProofs.t_perm _ _ (TapProofs.r_tab _ _ _ _ R) 0%nat) as PM. rewrite <- (TapProofs.r_fst _ _ _ _ R). split.
  - intros (l & <- & IL). apply filter_In in IL as [IL X]. apply (Permutation_in _ PM), in_map_iff in IL as (z & <- & IZ). apply filter_In in IZ as [IZ A]. exists (fst z). unfold TapProofs.at_conn in A. apply Nat.eqb_eq in A. apply bytes_eqb_eq in X. unfold TapProofs.lst in X. rewrite A in X. cbn [l_expr] in X. split; [apply in_map, IZ|]. auto.
  - intros (x & IX & A & X & ->). apply in_map_iff in IX as (z & <- & IZ). exists (TapProofs.lst z). split; [reflexivity|]. apply filter_In. split; [|unfold TapProofs.lst; rewrite A; cbn [l_expr]; rewrite X; apply bytes_eqb_refl].
    apply (Permutation_in _ (Permutation_sym PM)), in_map, filter_In. split; [exact IZ|]. unfold TapProofs.at_conn. rewrite A. reflexivity.
Qed.
Lemma broker_nodup s i es e : TapProofs.rel isp (tap s) i es -> NoDup (to_broker e (TapModel.table (tap s) 0%nat)).
Proof.
  intros R. rewrite to_broker_active. pose proof (TapProofs.t_perm _ _ (TapProofs.r_tab _ _ _ _ R) 0%nat) as PM. pose proof (TapProofs.ids_unique es 0 (TapProofs.t_keys _ _ (TapProofs.r_tab _ _ _ _ R))) as N.
  rewrite <- (map_map l_id (pair 0%nat)). apply FinFun.Injective_map_NoDup; [intros a b X; injection X as X; exact X|]. apply nodup_filter_map. eapply Permutation_NoDup; [|exact N]. apply Permutation_map, Permutation_sym, PM.
Qed.
Lemma publish_ok home p s I i es e u : inv p s I i es -> proper_step I (Publish e u) -> good home p s I (Publish e u).
Proof.
  intros V P. cbn [proper_step] in P. pose proof (v_wf _ _ _ _ _ V) as W0. pose proof (wf_filter clean _ W0) as W. pose proof (v_sound _ _ _ _ _ V) as SO. unfold good. cbn [step ideal_step fst snd].
  fold (to_broker e (TapModel.table (tap s) 0%nat)). rewrite (conn_dir _ _ _ _ _ _ V).
  set (L := _ ++ to_broker e _). destruct (deliver_ok p I i e u L s es V) as (t & es' & E & R). rewrite E. exists (set_tap s t), i, es'. split; [|split; [eapply tap_inv; eassumption|cbn; lia]]. f_equal. f_equal. clear E R t es'.
  rewrite (v_active _ _ _ _ _ V).
  destruct (find_ent s e) as [y|] eqn:F.
  - apply find_ent_some in F as [IY EY]. destruct (clean y) eqn:CY.
    + assert (IC : In y (filter clean (ents s))) by (apply filter_In; auto). subst e. rewrite (one_active _ _ _ (w_names _ W) IC). cbn [map]. unfold L. destruct (dir I (e_name y)) eqn:D.
      * assert (B0 : to_broker (e_name y) (TapModel.table (tap s) 0%nat) = []).
        { destruct (to_broker (e_name y) (TapModel.table (tap s) 0%nat)) as [|m r] eqn:T; [reflexivity|]. exfalso. assert (IM : In m (to_broker (e_name y) (TapModel.table (tap s) 0%nat))) by (rewrite T; left; reflexivity).
          apply (broker_in _ _ _ _ _ (v_rel _ _ _ _ _ V)) in IM as (x & IX & _ & X & _). destruct (sound_expr _ _ _ _ _ _ SO W P x IX X) as (_ & _ & _ & _ & D' & _). congruence. }
        rewrite B0, app_nil_r. rewrite (flat_single _ (S p, e_id y)).
        -- apply (out_is _ _ _ _ _ _ _ _ V IC). rewrite D. reflexivity.
        -- rewrite <- (map_map snd (pair (S p))). apply FinFun.Injective_map_NoDup; [intros a b X; injection X as X; exact X|]. apply nodup_filter_map, (v_held _ _ _ _ _ V).
        -- apply in_map_iff. exists (e_name y, e_id y). split; [reflexivity|]. apply filter_In. split; [apply (v_mine _ _ _ _ _ V), IC|apply bytes_eqb_refl].
        -- intros m IM NM. apply in_map_iff in IM as (q & <- & IQ). apply filter_In in IQ as [IQ Q]. apply bytes_eqb_eq in Q. unfold out. cbn [fst snd].
           destruct (find (TapSpec.on (S p) (snd q)) (TapSpec.entries i)) as [x|] eqn:FX; [|reflexivity]. exfalso. apply find_some in FX as [IX OX]. destruct (so_is _ _ _ _ _ SO x IX) as (z & k & IZ & _ & ->).
           unfold TapSpec.on in OX. cbn [te TapSpec.i_conn TapSpec.i_id] in OX. apply andb_prop in OX as [_ OX]. apply Z.eqb_eq in OX.
           pose proof (v_mine _ _ _ _ _ V z IZ) as MZ. assert (X : (e_name z, e_id z) = q) by (apply (nodup_map_inj snd _ (v_held _ _ _ _ _ V)); [exact MZ|exact IQ|exact OX]). subst q. cbn [fst snd] in *.
           apply (nodup_map_inj e_name _ (w_names _ W)) in Q; try assumption. subst z. apply NM. reflexivity.
      * cbn [app]. rewrite (flat_single _ (0%nat, e_id y)).
        -- apply (out_is _ _ _ _ _ _ _ _ V IC). rewrite D. reflexivity.
        -- eapply broker_nodup, (v_rel _ _ _ _ _ V).
        -- apply (broker_in _ _ _ _ _ (v_rel _ _ _ _ _ V)). destruct (so_has _ _ _ _ _ SO y IC) as (k & _ & H). rewrite D in H. eexists. split; [exact H|]. auto.
        -- intros m IM NM. exfalso. apply (broker_in _ _ _ _ _ (v_rel _ _ _ _ _ V)) in IM as (x & IX & _ & X & ->). destruct (sound_expr _ _ _ _ _ _ SO W P x IX X) as (z & k & IZ & Q & _ & ->).
           apply (nodup_map_inj e_name _ (w_names _ W)) in Q; try assumption. subst z. apply NM. reflexivity.
    + rewrite no_active.
      2: { intros z IZ X. apply filter_In in IZ as [IZ CZ]. rewrite <- EY in X. apply (nodup_map_inj e_name _ (w_names _ W0)) in X; try assumption. subst z. congruence. }
      cbn [map]. apply flat_none. intros m IM. unfold L in IM. apply in_app_iff in IM as [IM|IM].
      * destruct (dir I e) eqn:D; [|destruct IM]. apply in_map_iff in IM as (q & <- & IQ). apply filter_In in IQ as [IQ Q]. apply bytes_eqb_eq in Q. unfold out. cbn [fst snd].
        destruct (find (TapSpec.on (S p) (snd q)) (TapSpec.entries i)) as [x|] eqn:FX; [|reflexivity]. exfalso. apply find_some in FX as [IX OX]. destruct (so_is _ _ _ _ _ SO x IX) as (z & k & IZ & _ & ->).
        unfold TapSpec.on in OX. cbn [te TapSpec.i_conn TapSpec.i_id] in OX. apply andb_prop in OX as [_ OX]. apply Z.eqb_eq in OX.
        pose proof (v_mine _ _ _ _ _ V z IZ) as MZ. assert (X : (e_name z, e_id z) = q) by (apply (nodup_map_inj snd _ (v_held _ _ _ _ _ V)); [exact MZ|exact IQ|exact OX]). subst q. cbn [fst snd] in *.
        apply filter_In in IZ as [IZ CZ]. rewrite <- EY in Q. apply (nodup_map_inj e_name _ (w_names _ W0)) in Q; try assumption. subst z. congruence.
      * exfalso. apply (broker_in _ _ _ _ _ (v_rel _ _ _ _ _ V)) in IM as (x & IX & _ & X & ->). destruct (sound_expr _ _ _ _ _ _ SO W P x IX X) as (z & k & IZ & Q & _ & ->).
        apply filter_In in IZ as [IZ CZ]. rewrite <- EY in Q. apply (nodup_map_inj e_name _ (w_names _ W0)) in Q; try assumption. subst z. congruence.
  - pose proof (find_ent_none _ _ F) as NE. rewrite no_active by (intros z IZ; apply NE; now apply filter_In in IZ). cbn [map]. apply flat_none. intros m IM. unfold L in IM. apply in_app_iff in IM as [IM|IM].
    + destruct (dir I e) eqn:D; [|destruct IM]. apply in_map_iff in IM as (q & <- & IQ). apply filter_In in IQ as [IQ Q]. apply bytes_eqb_eq in Q. unfold out. cbn [fst snd].
      destruct (find (TapSpec.on (S p) (snd q)) (TapSpec.entries i)) as [x|] eqn:FX; [|reflexivity]. exfalso. apply find_some in FX as [IX OX]. destruct (so_is _ _ _ _ _ SO x IX) as (z & k & IZ & _ & ->).
      unfold TapSpec.on in OX. cbn [te TapSpec.i_conn TapSpec.i_id] in OX. apply andb_prop in OX as [_ OX]. apply Z.eqb_eq in OX.
      pose proof (v_mine _ _ _ _ _ V z IZ) as MZ. assert (X : (e_name z, e_id z) = q) by (apply (nodup_map_inj snd _ (v_held _ _ _ _ _ V)); [exact MZ|exact IQ|exact OX]). subst q. cbn [fst snd] in *.
      apply filter_In in IZ as [IZ CZ]. exact (NE z IZ Q).
    + exfalso. apply (broker_in _ _ _ _ _ (v_rel _ _ _ _ _ V)) in IM as (x & IX & _ & X & ->). destruct (sound_expr _ _ _ _ _ _ SO W P x IX X) as (z & k & IZ & Q & _ & ->).
      apply filter_In in IZ as [IZ CZ]. exact (NE z IZ Q).
Qed.

(** ** histories *)
Lemma step_ok home p s I i es o : inv p s I i es -> (length (active I) <= 128)%nat -> proper_step I o -> (forall n, home n = p) -> next s p + 1 < 2 ^ 32 -> good home p s I o.
Proof.
  intros V L P HM B. destruct o.
  - eapply subscribe_ok; eassumption.
  - eapply unsubscribe_ok; eassumption.
  - eapply open_ok; eassumption.
  - eapply close_ok; eassumption.
  - eapply publish_ok; eassumption.
Qed.
Lemma ideal_room I o : (length (active I) <= 128)%nat -> proper_step I o -> (length (active (fst (ideal_step I o))) <= 128)%nat.
Proof.
  intros L P. destruct o; cbn [ideal_step proper_step] in *.
  - destruct (subscribed I e); [exact L|]. destruct a; cbn [fst active]; try exact L. rewrite app_length. cbn. lia.
  - destruct (_ || _); cbn [fst active]; [|exact L]. pose proof (filter_length_le (fun x => negb (for_ e x)) (active I)). lia.
  - destruct (existsb _ _); exact L.
  - exact L.
  - exact L.
Qed.
Lemma run_ok home p l : forall s I i es, inv p s I i es -> (length (active I) <= 128)%nat -> proper I l -> (forall n, home n = p) -> next s p + Z.of_nat (length l) < 2 ^ 32 ->
  exists s', run home s l = Ok (s', ideal_run I l).
Proof.
  induction l as [|o l IH]; intros s I i es V L P HM B; [exists s; reflexivity|]. cbn [proper] in P. destruct P as [P1 P2]. cbn [length] in B.
  destruct (step_ok home p s I i es o V L P1 HM) as (s1 & i1 & es1 & E & V1 & N); [lia|]. cbn [run ideal_run]. rewrite E. cbn [obind].
  destruct (IH s1 _ i1 es1 V1 (ideal_room _ _ L P1) P2 HM) as (s2 & E2); [lia|]. rewrite E2. cbn [obind]. exists s2. destruct (ideal_step I o). reflexivity.
Qed.
Lemma inv_init p : inv p init nothing TapSpec.nobody [].
Proof.
  constructor.
  - apply TapProofs.rel_start.
  - reflexivity.
  - constructor; intros ? [].
  - constructor; [apply NoDup_nil|apply NoDup_nil|apply NoDup_nil|intros ? []|intros ? []].
  - intros ? [].
  - reflexivity.
  - constructor.
  - reflexivity.
  - intros ? [].
  - reflexivity.
  - intros n. split; [intros []|intros (? & [] & _)].
  - constructor.
  - intros ? [].
  - intros ? [].
  - intros ? [].
  - cbn. lia.
Qed.
Lemma raw_thm home p l : proper nothing l -> (forall n, home n = p) -> 3 + Z.of_nat (length l) < 2 ^ 32 -> exists s, run home init l = Ok (s, ideal_run nothing l).
Proof. intros P HM B. eapply run_ok; [apply inv_init|cbn; lia|exact P|exact HM|exact B]. Qed.
