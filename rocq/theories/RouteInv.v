(** Proofs for the routing tree, part 2: what the tree and the route list hold, step by step. *)
From Coq Require Import String.
From Verif Require Import Common CommonFacts RouteModel RouteSpec RouteProofs.
From Coq Require Import Lia.
Local Open Scope string_scope.
Local Open Scope list_scope.
Local Open Scope Z_scope.

(** ** names fit the buffers *)
Lemma cut_length : forall s cur, (length (cut s cur) <= dots s + 1)%nat.
Proof.
  induction s as [|c r IH]; intros cur; cbn [cut dots]; [cbn; lia|]. destruct (c =? 46); cbn [length].
  - destruct r as [|x r]; [cbn; lia|]. specialize (IH []). lia.
  - specialize (IH (cur ++ [c])). lia.
Qed.
Lemma cut_written : forall s cur, (written (cut s cur) <= length s + length cur + 1)%nat.
Proof.
  induction s as [|c r IH]; intros cur; cbn [cut].
  - cbn [written fold_right]. cbn. lia.
  - destruct (c =? 46).
    + unfold written. cbn [fold_right]. fold (written (match r with [] => [] | _ :: _ => cut r [] end)). destruct r as [|x r]; [cbn; lia|].
      specialize (IH []). cbn [length] in *. lia.
    + specialize (IH (cur ++ [c])). rewrite app_length in IH. cbn [length] in *. lia.
Qed.
Lemma fits_tokenize : forall s, fits s -> tokenize s = Ok (split s).
Proof.
  intros s [L D]. unfold tokenize. assert (A : (length (split s) <= 32)%nat /\ (written (split s) <= 512)%nat).
  { unfold split. destruct s as [|c r]; [cbn; lia|]. pose proof (cut_length (c :: r) []). pose proof (cut_written (c :: r) []). cbn [length] in *. lia. }
  destruct A as [A B]. apply Nat.leb_le in A, B. unfold MAX_TOKENS, MAX_TOKEN_BUFFER_SIZE. rewrite A, B. reflexivity.
Qed.

(** ** the live routes *)
Definition dat (l : list troute) (i : nat) : option Z := option_map tdata (find_id i l).
Lemma find_id_some : forall i l r, find_id i l = Some r -> In r l /\ tid r = i.
Proof. intros i l r H. apply find_some in H as [H1 H2]. apply Nat.eqb_eq in H2. auto. Qed.
Lemma find_id_in : forall l r, NoDup (map tid l) -> In r l -> find_id (tid r) l = Some r.
Proof.
  induction l as [|x l IH]; intros r N H; [destruct H|]. cbn in N. inversion N as [|? ? NI N']; subst. unfold find_id. cbn [find].
  destruct H as [->|H]; [rewrite Nat.eqb_refl; reflexivity|]. destruct (Nat.eqb (tid x) (tid r)) eqn:E; [|apply IH; auto].
  apply Nat.eqb_eq in E. exfalso. apply NI. rewrite E. apply in_map, H.
Qed.
Lemma dat_some : forall l i d, dat l i = Some d -> exists r, In r l /\ tid r = i /\ tdata r = d.
Proof. intros l i d H. unfold dat in H. destruct (find_id i l) as [r|] eqn:E; [|discriminate]. apply find_id_some in E as [E1 E2]. injection H as <-. eauto. Qed.
Lemma dat_in : forall l r, NoDup (map tid l) -> In r l -> dat l (tid r) = Some (tdata r).
Proof. intros l r N H. unfold dat. rewrite find_id_in by assumption. reflexivity. Qed.
Lemma data_inj : forall l r r', NoDup (map tdata l) -> In r l -> In r' l -> tdata r = tdata r' -> r = r'.
Proof.
  induction l as [|x l IH]; intros r r' N H H' E; [destruct H|]. cbn in N. inversion N as [|? ? NI N']; subst.
  destruct H as [->|H], H' as [->|H']; auto; exfalso; apply NI; [rewrite E|rewrite <- E]; apply in_map; assumption.
Qed.
Lemma id_inj : forall l r r', NoDup (map tid l) -> In r l -> In r' l -> tid r = tid r' -> r = r'.
Proof. intros l r r' N H H' E. apply find_id_in in H; [|exact N]. apply find_id_in in H'; [|exact N]. congruence. Qed.
Lemma dat_inj : forall l i j d, NoDup (map tid l) -> NoDup (map tdata l) -> dat l i = Some d -> dat l j = Some d -> i = j.
Proof.
  intros l i j d N M H H'. apply dat_some in H as (r & A & <- & B). apply dat_some in H' as (r' & A' & <- & B').
  f_equal. eapply data_inj; eauto. congruence.
Qed.
Lemma datas_dat : forall l ids ds, map (dat l) ids = map Some ds -> datas l ids = Ok ds.
Proof.
  induction ids as [|i ids IH]; intros ds H; destruct ds as [|d ds]; try discriminate; [reflexivity|]. cbn [map] in H. injection H as H1 H2.
  cbn [datas]. unfold dat in H1. destruct (find_id i l) as [r|]; [|discriminate]. rewrite (IH _ H2). cbn in *. congruence.
Qed.
Lemma find_data_some : forall d l r, find_data d l = Some r -> In r l /\ tdata r = d.
Proof. intros d l r H. apply find_some in H as [H1 H2]. apply Z.eqb_eq in H2. auto. Qed.
Lemma find_data_none : forall d l, find_data d l = None -> forall r, In r l -> tdata r <> d.
Proof. intros d l H r I E. pose proof (find_none _ _ H r I) as F. cbn in F. rewrite E, Z.eqb_refl in F. discriminate. Qed.
Lemma set_topics_ids : forall i f l, map tid (set_topics i f l) = map tid l.
Proof. intros. unfold set_topics. rewrite map_map. apply map_ext. intros r. destruct (Nat.eqb (tid r) i); reflexivity. Qed.
Lemma set_topics_datas : forall i f l, map tdata (set_topics i f l) = map tdata l.
Proof. intros. unfold set_topics. rewrite map_map. apply map_ext. intros r. destruct (Nat.eqb (tid r) i); reflexivity. Qed.
Lemma set_topics_dat : forall i f l j, dat (set_topics i f l) j = dat l j.
Proof.
  intros i f l j. unfold dat, find_id, set_topics. induction l as [|x l IH]; [reflexivity|]. cbn [map find].
  destruct (Nat.eqb (tid x) i) eqn:E; cbn [tid]; destruct (Nat.eqb (tid x) j) eqn:F; auto.
Qed.
Lemma in_set_topics : forall i f l r', In r' (set_topics i f l) ->
  exists r, In r l /\ tid r' = tid r /\ tdata r' = tdata r /\ ttopics r' = if Nat.eqb (tid r) i then f (ttopics r) else ttopics r.
Proof.
  intros i f l r' H. apply in_map_iff in H as (r & E & I). exists r. split; [exact I|]. subst r'. destruct (Nat.eqb (tid r) i); auto.
Qed.
Lemma nodup_filter_map : forall {A B} (f : A -> B) g l, NoDup (map f l) -> NoDup (map f (filter g l)).
Proof.
  induction l as [|x l IH]; intros N; cbn in *; [constructor|]. inversion N; subst. destruct (g x); cbn; [|auto]. constructor; [|auto].
  intros H. apply in_map_iff in H as (y & E & H). apply filter_In in H as [H _]. apply H1. rewrite <- E. apply in_map, H.
Qed.
Lemma filter_dat : forall i l j, j <> i -> dat (filter (fun x => negb (Nat.eqb (tid x) i)) l) j = dat l j.
Proof.
  intros i l j NE. unfold dat, find_id. induction l as [|x l IH]; [reflexivity|]. cbn [filter find]. destruct (Nat.eqb (tid x) i) eqn:E; cbn [negb find].
  - rewrite IH. apply Nat.eqb_eq in E. destruct (Nat.eqb (tid x) j) eqn:F; [apply Nat.eqb_eq in F; congruence|reflexivity].
  - destruct (Nat.eqb (tid x) j); auto.
Qed.
Lemma append_dat : forall l r i d, dat l i = Some d -> dat (l ++ [r]) i = Some d.
Proof.
  intros l r i d H. unfold dat, find_id in *. induction l as [|x l IH]; [discriminate|]. cbn [app find] in *. destruct (Nat.eqb (tid x) i); auto.
Qed.

Lemma nodup_one : forall {A} (x : A), NoDup [x].
Proof. intros. constructor; [intros []|constructor]. Qed.

(** ** what is held *)
Definition at_ (u : path) (m : registrations) : list Z := map snd (filter (fun y => path_eqb (fst y) u) m).
Record inv (s : state) (m : registrations) := mkInv {
  v_reg : forall u x, u <> [] -> R (root s) u = Some x -> map (dat (live s)) (olist x) = map Some (at_ u m);
  v_none : forall u, R (root s) u = None -> forall d, ~ In (u, d) m;
  v_root : olist (routes (root s)) = [];
  v_names : forall u ns, N (root s) u = Some ns -> NoDup ns;
  v_ids : NoDup (map tid (live s));
  v_datas : NoDup (map tdata (live s));
  v_next : forall r, In r (live s) -> (tid r < next s)%nat;
  v_topics : forall r, In r (live s) -> NoDup (ttopics r) /\ forall u, In u (ttopics r) <-> In (u, tdata r) m;
  v_nodup : NoDup m;
  v_ne : forall d, ~ In ([], d) m
}.
Lemma at_in : forall u m d, In d (at_ u m) <-> In (u, d) m.
Proof.
  intros u m d. unfold at_. rewrite in_map_iff. split.
  - intros ((v, d') & E & H). apply filter_In in H as [H1 H2]. cbn in *. apply path_eqb_eq in H2. congruence.
  - intros H. exists (u, d). split; [reflexivity|]. apply filter_In. split; [exact H|apply path_eqb_refl].
Qed.
Lemma at_nodup : forall u m, NoDup m -> NoDup (at_ u m).
Proof.
  intros u m. unfold at_. induction m as [|(v, d) m IH]; intros N; [constructor|]. inversion N as [|? ? NI N']; subst. cbn [filter fst].
  destruct (path_eqb v u) eqn:E; [|auto]. cbn [map snd]. constructor; [|auto]. intros H. apply path_eqb_eq in E. subst v. apply NI. apply at_in. exact H.
Qed.
Lemma v_held : forall s m, inv s m -> forall u d, In (u, d) m -> exists x i, R (root s) u = Some x /\ In i (olist x) /\ dat (live s) i = Some d.
Proof.
  intros s m I u d H. destruct (R (root s) u) as [x|] eqn:E; [|exfalso; eapply (v_none _ _ I); eauto].
  assert (NE : u <> []) by (intros ->; eapply (v_ne _ _ I); eauto).
  pose proof (v_reg _ _ I u x NE E) as V. apply at_in in H. apply (in_map Some) in H. rewrite <- V in H. apply in_map_iff in H as (i & Hi & Hx). eauto.
Qed.
Lemma v_owner : forall s m, inv s m -> forall u d, In (u, d) m -> exists r, In r (live s) /\ tdata r = d.
Proof. intros s m I u d H. destruct (v_held _ _ I _ _ H) as (x & i & _ & _ & D). apply dat_some in D as (r & A & _ & B). eauto. Qed.
Lemma v_listed : forall s m, inv s m -> forall u x i, u <> [] -> R (root s) u = Some x -> In i (olist x) -> exists d, dat (live s) i = Some d /\ In (u, d) m.
Proof.
  intros s m I u x i NE E H. pose proof (v_reg _ _ I u x NE E) as V. apply (in_map (dat (live s))) in H. rewrite V in H.
  apply in_map_iff in H as (d & Hd & H). exists d. split; [auto|]. apply at_in, H.
Qed.
Lemma map_some_nodup : forall {A B} (f : A -> option B) l ds, map f l = map Some ds -> NoDup ds -> NoDup l.
Proof.
  induction l as [|x l IH]; intros ds H N; [constructor|]. destruct ds as [|d ds]; [discriminate|]. cbn in H. injection H as H1 H2. inversion N as [|? ? NI N']; subst.
  constructor; [|eauto]. intros C. apply (in_map f) in C. rewrite H2, H1 in C. apply in_map_iff in C as (d' & E & C). injection E as ->. auto.
Qed.
Lemma v_ids_nodup : forall s m, inv s m -> forall u x, R (root s) u = Some x -> NoDup (olist x).
Proof.
  intros s m I u x E. destruct u as [|n u].
  - unfold R in E. cbn in E. injection E as <-. rewrite (v_root _ _ I). constructor.
  - eapply map_some_nodup; [apply (v_reg _ _ I (n :: u) x ltac:(discriminate) E)|]. apply at_nodup, (v_nodup _ _ I).
Qed.
Lemma inv_init : inv init [].
Proof.
  constructor; cbn.
  - intros u x NE H. unfold R in H. rewrite (blank_view routes) in H. destruct u; [congruence|discriminate].
  - intros u H d [].
  - reflexivity.
  - intros u ns H. unfold N in H. rewrite (blank_view (fun n => map fst (kids n))) in H. destruct u; [injection H as <-; constructor|discriminate].
  - constructor.
  - constructor.
  - intros r [].
  - intros r [].
  - constructor.
  - intros d [].
Qed.

(** ** adding *)
Lemma inv_new : forall s m d, inv s m -> find_data d (live s) = None ->
  inv (mkState (root s) (live s ++ [mkTroute (next s) d []]) (S (next s))) m.
Proof.
  intros s m d I F. pose proof (find_data_none _ _ F) as ND. destruct I as [A B C D E G H J K L]. constructor; cbn [root live next]; auto.
  - intros u x NE Hx. rewrite <- (A u x NE Hx). apply map_ext_in. intros i Hi.
    pose proof (A u x NE Hx) as V. apply (in_map (dat (live s))) in Hi as Hi'. rewrite V in Hi'. apply in_map_iff in Hi' as (d' & Hd & _). rewrite <- Hd. apply append_dat. auto.
  - rewrite map_app. cbn. apply nodup_app_intro; [exact E|apply nodup_one|]. intros i Hi [<-|[]]. apply in_map_iff in Hi as (r & Hr & Ir). apply H in Ir. lia.
  - rewrite map_app. cbn. apply nodup_app_intro; [exact G|apply nodup_one|]. intros x Hx [<-|[]]. apply in_map_iff in Hx as (r & Hr & Ir). apply (ND r Ir Hr).
  - intros r Hr. apply in_app_iff in Hr as [Hr|[<-|[]]]; [apply H in Hr; lia|cbn; lia].
  - intros r Hr. apply in_app_iff in Hr as [Hr|[<-|[]]]; [auto|]. cbn. split; [constructor|]. intros u. split; [tauto|]. intros Hu. exfalso.
    destruct (v_owner _ _ (mkInv s m A B C D E G H J K L) _ _ Hu) as (r & Ir & Er). apply (ND r Ir Er).
Qed.
Lemma add_path_once_in : forall p l u, In u (add_path_once p l) <-> In u l \/ u = p.
Proof.
  intros p l u. unfold add_path_once. destruct (existsb (path_eqb p) l) eqn:E.
  - apply existsb_exists in E as (q & Q1 & Q2). apply path_eqb_eq in Q2. subst q. split; [auto|]. intros [H| ->]; auto.
  - rewrite in_app_iff. cbn. split; intros [H|H]; auto. destruct H as [<-|[]]. auto.
Qed.
Lemma add_path_once_nodup : forall p l, NoDup l -> NoDup (add_path_once p l).
Proof.
  intros p l N. unfold add_path_once. destruct (existsb (path_eqb p) l) eqn:E; [exact N|]. apply nodup_app_intro; [exact N|apply nodup_one|].
  intros x H [<-|[]]. assert (existsb (path_eqb p) l = true) by (apply existsb_exists; exists p; split; [exact H|apply path_eqb_refl]). congruence.
Qed.
Lemma at_app : forall u m p d, at_ u (m ++ [(p, d)]) = at_ u m ++ if path_eqb p u then [d] else [].
Proof. intros. unfold at_. rewrite filter_app, map_app. cbn. destruct (path_eqb p u); reflexivity. Qed.
Lemma path_eqb_sym : forall a b, path_eqb a b = path_eqb b a.
Proof.
  intros a b. destruct (path_eqb a b) eqn:E, (path_eqb b a) eqn:F; auto; [apply path_eqb_eq in E; subst; rewrite path_eqb_refl in F; discriminate|apply path_eqb_eq in F; subst; rewrite path_eqb_refl in E; discriminate].
Qed.
Lemma below_refl : forall p, below p p = true.
Proof. intros. apply below_spec. exists []. rewrite app_nil_r. reflexivity. Qed.
Lemma inv_push : forall s m r p, inv s m -> In r (live s) -> p <> [] -> ~ In (p, tdata r) m ->
  inv (mkState (push_root p (tid r) (extend p (root s))) (set_topics (tid r) (add_path_once p) (live s)) (next s)) (m ++ [(p, tdata r)]).
Proof.
  intros s m r p I Ir NE ONCE.
  assert (RE : forall u, R (push_root p (tid r) (extend p (root s))) u = match R (root s) u with
    | Some x => Some (if path_eqb u p then Some (olist x ++ [tid r]) else x)
    | None => if below u p then Some (if path_eqb u p then Some [tid r] else None) else None end).
  { intros u. rewrite R_push_root by exact NE. rewrite R_extend. destruct (R (root s) u); [reflexivity|]. destruct (below u p); reflexivity. }
  constructor; cbn [root live next].
  - intros u x NU Hx. rewrite RE in Hx. rewrite (map_ext _ (dat (live s))) by (intros; apply set_topics_dat). rewrite at_app, map_app, (path_eqb_sym p u).
    destruct (R (root s) u) as [y|] eqn:E.
    + injection Hx as <-. pose proof (v_reg _ _ I u y NU E) as V. destruct (path_eqb u p) eqn:Q; cbn [olist].
      * rewrite map_app, V. cbn [map]. rewrite dat_in by (auto; apply (v_ids _ _ I)). reflexivity.
      * rewrite V. cbn. rewrite app_nil_r. reflexivity.
    + assert (AN : at_ u m = []). { destruct (at_ u m) as [|d l] eqn:Q; [reflexivity|]. exfalso. eapply (v_none _ _ I u E). apply at_in. rewrite Q. left. reflexivity. }
      rewrite AN. destruct (below u p); [|discriminate]. injection Hx as <-. destruct (path_eqb u p); cbn [olist map app]; [|reflexivity].
      rewrite dat_in by (auto; apply (v_ids _ _ I)). reflexivity.
  - intros u Hu d Hd. rewrite RE in Hu. destruct (R (root s) u) eqn:E; [discriminate|]. destruct (below u p) eqn:B; [discriminate|].
    apply in_app_iff in Hd as [Hd|[Hd|[]]]; [eapply (v_none _ _ I); eauto|]. injection Hd as <- _. rewrite below_refl in B. discriminate.
  - specialize (RE []). unfold R in RE. cbn [sub option_map] in RE. rewrite (proj2 (path_eqb_neq [] p)) in RE by congruence. injection RE as ->. apply (v_root _ _ I).
  - intros u ns H. rewrite N_push_root in H. eapply extend_names; [apply (v_names _ _ I)|exact H].
  - rewrite set_topics_ids. apply (v_ids _ _ I).
  - rewrite set_topics_datas. apply (v_datas _ _ I).
  - intros r' H. apply in_set_topics in H as (r0 & H & -> & _). apply (v_next _ _ I _ H).
  - intros r' H. apply in_set_topics in H as (r0 & H & E1 & E2 & ->). rewrite E2. destruct (v_topics _ _ I _ H) as [T1 T2]. destruct (Nat.eqb (tid r0) (tid r)) eqn:Q.
    + apply Nat.eqb_eq in Q. assert (r0 = r) by (eapply id_inj; eauto; apply (v_ids _ _ I)). subst r0. split; [apply add_path_once_nodup, T1|].
      intros u. rewrite add_path_once_in, T2, in_app_iff. cbn. split; intros [X|X]; auto; [subst u; auto|]. destruct X as [X|[]]. injection X as ->. auto.
    + split; [exact T1|]. intros u. rewrite T2, in_app_iff. cbn. split; [auto|]. intros [X|[X|[]]]; [exact X|]. injection X as _ X.
      exfalso. assert (r0 = r) by (eapply data_inj; eauto; apply (v_datas _ _ I)). subst r0. rewrite Nat.eqb_refl in Q. discriminate.
  - apply nodup_app_intro; [apply (v_nodup _ _ I)|apply nodup_one|]. intros x Hx [<-|[]]. auto.
  - intros d H. apply in_app_iff in H as [H|[H|[]]]; [eapply (v_ne _ _ I); eauto|]. injection H as H _. congruence.
Qed.

(** ** removing a route *)
Lemma rm_dat : forall l l' i d ids ds, NoDup (map tid l) -> NoDup (map tdata l) -> dat l i = Some d -> (forall j, j <> i -> dat l' j = dat l j) ->
  NoDup ids -> map (dat l) ids = map Some ds -> map (dat l') (rm i ids) = map Some (filter (fun x => negb (x =? d)) ds).
Proof.
  intros l l' i d ids. induction ids as [|j ids IH]; intros ds N M Hi Hl Nd V; destruct ds as [|e ds]; try discriminate; [reflexivity|].
  cbn [map] in V. injection V as V1 V2. inversion Nd as [|? ? NI Nd']; subst. cbn [rm filter]. destruct (Nat.eqb j i) eqn:E.
  - apply Nat.eqb_eq in E. subst j. rewrite Hi in V1. injection V1 as <-. rewrite Z.eqb_refl. cbn [negb].
    assert (F : map (dat l') ids = map Some ds) by (rewrite <- V2; apply map_ext_in; intros j Hj; apply Hl; intros ->; auto).
    rewrite F. f_equal. clear IH F. assert (ND : ~ In d ds). { intros C. apply (in_map Some) in C. rewrite <- V2 in C. apply in_map_iff in C as (j & Hj & C).
      assert (j = i) by (eapply dat_inj; eauto). subst. auto. }
    clear -ND. induction ds as [|x ds IH]; [reflexivity|]. cbn. destruct (x =? d) eqn:E; [apply Z.eqb_eq in E; subst; exfalso; apply ND; left; reflexivity|].
    cbn. rewrite <- IH; [reflexivity|]. intros H. apply ND. right. exact H.
  - apply Nat.eqb_neq in E. destruct (e =? d) eqn:Q.
    + apply Z.eqb_eq in Q. subst e. exfalso. apply E. eapply dat_inj; eauto.
    + cbn [negb map]. rewrite Hl, V1 by exact E. f_equal. eapply IH; eauto.
Qed.
Lemma at_filter : forall u m d, at_ u (filter (fun x => negb (snd x =? d)) m) = filter (fun x => negb (x =? d)) (at_ u m).
Proof.
  intros u m d. unfold at_. induction m as [|(v, e) m IH]; [reflexivity|]. cbn [filter snd fst]. destruct (e =? d) eqn:E; cbn [negb filter fst].
  - rewrite IH. destruct (path_eqb v u); [|reflexivity]. cbn [map snd filter]. rewrite E. reflexivity.
  - destruct (path_eqb v u); [|exact IH]. cbn [map snd filter]. rewrite E. cbn. rewrite IH. reflexivity.
Qed.
Lemma filter_none : forall {A} (f : A -> bool) l, (forall x, In x l -> f x = true) -> filter f l = l.
Proof. induction l as [|x l IH]; intros H; cbn; [reflexivity|]. rewrite (H x) by (left; reflexivity). f_equal. apply IH. intros y Y. apply H. right. exact Y. Qed.
Lemma inv_remove_route : forall s m d, inv s m -> inv (remove_route s d) (filter (fun x => negb (snd x =? d)) m).
Proof.
  intros s m d I. unfold remove_route. destruct (find_data d (live s)) as [r|] eqn:F.
  2: { rewrite filter_none; [exact I|]. intros (u, e) H. cbn. destruct (e =? d) eqn:E; [|reflexivity]. apply Z.eqb_eq in E. subst e. exfalso.
       destruct (v_owner _ _ I _ _ H) as (r & Ir & Er). eapply find_data_none; eauto. }
  apply find_data_some in F as [Ir Er]. pose proof (dat_in _ _ (v_ids _ _ I) Ir) as DI. rewrite Er in DI.
  pose proof (v_names _ _ I) as NN. constructor; cbn [root live next].
  - intros u x NU H. apply R_prune_some in H as (y & Hy & ->); [|exact NN]. rewrite olist_rm, at_filter.
    eapply rm_dat; [apply (v_ids _ _ I)|apply (v_datas _ _ I)|exact DI|intros j Hj; apply filter_dat, Hj|eapply v_ids_nodup; eauto|apply (v_reg _ _ I); auto].
  - intros u H e He. apply filter_In in He as [He He2]. cbn in He2. destruct (v_held _ _ I _ _ He) as (x & i & Hx & Hi & Di).
    pose proof (R_prune_none u (tid r) (root s) NN H [] x) as P. rewrite app_nil_r in P. specialize (P Hx).
    assert (NEi : i <> tid r). { intros ->. rewrite DI in Di. injection Di as ->. rewrite Z.eqb_refl in He2. discriminate. }
    assert (In i (rm (tid r) (olist x))) by (clear -Hi NEi; induction (olist x) as [|j l IH]; [destruct Hi|]; cbn; destruct Hi as [->|Hi];
      [rewrite (proj2 (Nat.eqb_neq i (tid r)) NEi); left; reflexivity|destruct (Nat.eqb j (tid r)); [exact Hi|right; auto]]).
    rewrite P in H0. destruct H0.
  - pose proof (v_root _ _ I) as V. destruct (root s) as [b rl rl2 k]. cbn in *. rewrite olist_rm, V. reflexivity.
  - intros u ns H. eapply N_prune; eauto.
  - apply nodup_filter_map, (v_ids _ _ I).
  - apply nodup_filter_map, (v_datas _ _ I).
  - intros x H. apply filter_In in H as [H _]. apply (v_next _ _ I _ H).
  - intros x H. apply filter_In in H as [H H2]. destruct (v_topics _ _ I _ H) as [T1 T2]. split; [exact T1|]. intros u. rewrite T2, filter_In. cbn. split; [|tauto].
    intros X. split; [exact X|]. destruct (tdata x =? d) eqn:E; [|reflexivity]. apply Z.eqb_eq in E. exfalso.
    assert (x = r) by (eapply data_inj; eauto; [apply (v_datas _ _ I)|congruence]). subst x. rewrite Nat.eqb_refl in H2. discriminate.
  - apply NoDup_filter, (v_nodup _ _ I).
  - intros e H. apply filter_In in H as [H _]. eapply (v_ne _ _ I); eauto.
Qed.

(** ** removing a topic *)
Lemma rm_path_in : forall p l u, NoDup l -> In u (rm_path p l) <-> In u l /\ u <> p.
Proof.
  induction l as [|x l IH]; intros u N; cbn [rm_path]; [cbn; tauto|]. inversion N as [|? ? NI N']; subst. destruct (path_eqb x p) eqn:E.
  - apply path_eqb_eq in E. subst x. cbn. split; [intros H; split; [auto|intros ->; auto]|]. intros [[->|H] NE]; [congruence|exact H].
  - apply path_eqb_neq in E. cbn. rewrite IH by exact N'. split; [intros [->|[H1 H2]]; auto|]. intros [[->|H] NE]; auto.
Qed.
Lemma rm_path_nodup : forall p l, NoDup l -> NoDup (rm_path p l).
Proof.
  induction l as [|x l IH]; intros N; cbn [rm_path]; [constructor|]. inversion N as [|? ? NI N']; subst. destruct (path_eqb x p); [exact N'|]. constructor; [|auto].
  intros H. apply rm_path_in in H as [H _]; auto.
Qed.
Definition after (prs : list (path * nat)) (l l' : list troute) : Prop :=
  NoDup (map tid l') /\ NoDup (map tdata l') /\
  (forall r', In r' l' -> exists r, In r l /\ tid r' = tid r /\ tdata r' = tdata r /\ NoDup (ttopics r') /\
     forall p, In p (ttopics r') <-> In p (ttopics r) /\ ~ In (p, tid r) prs) /\
  (forall r, In r l -> (exists r', In r' l' /\ tid r' = tid r) \/ (forall p, In p (ttopics r) -> In (p, tid r) prs)).
Lemma forget_one : forall p i l r, NoDup (map tid l) -> NoDup (map tdata l) -> (forall r, In r l -> NoDup (ttopics r)) -> In r l -> tid r = i -> In p (ttopics r) ->
  exists l', forget p [i] l = Ok l' /\ after [(p, i)] l l'.
Proof.
  intros p i l r N M TN Ir Er Ip. pose proof (find_id_in l r N Ir) as F. rewrite Er in F. cbn [forget]. rewrite F.
  set (l1 := set_topics i (rm_path p) l).
  assert (A1 : after [(p, i)] l l1).
  { unfold after, l1. rewrite set_topics_ids, set_topics_datas. split; [exact N|]. split; [exact M|]. split.
    - intros r' H. apply in_set_topics in H as (r0 & I0 & E1 & E2 & E3). exists r0. split; [exact I0|]. split; [exact E1|]. split; [exact E2|]. rewrite E3.
      destruct (Nat.eqb (tid r0) i) eqn:Q.
      + apply Nat.eqb_eq in Q. split; [apply rm_path_nodup; auto|]. intros q. rewrite rm_path_in by auto. rewrite Q. cbn. split; [intros [X Y]; split; [exact X|intros [Z|[]]; injection Z as ->; auto]|].
        intros [X Y]. split; [exact X|]. intros ->. apply Y. auto.
      + split; [auto|]. intros q. apply Nat.eqb_neq in Q. cbn. split; [|tauto]. intros X. split; [exact X|]. intros [Z|[]]. injection Z as _ Z. congruence.
    - intros r0 I0. left. exists (if Nat.eqb (tid r0) i then mkTroute (tid r0) (tdata r0) (rm_path p (ttopics r0)) else r0). split; [unfold set_topics; apply in_map_iff; exists r0; auto|].
      destruct (Nat.eqb (tid r0) i); reflexivity. }
  destruct (rm_path p (ttopics r)) as [|q qs] eqn:Q; [|exists l1; auto].
  exists (filter (fun x => negb (Nat.eqb (tid x) i)) l1). split; [reflexivity|]. destruct A1 as (B1 & B2 & B3 & B4). split; [apply nodup_filter_map, B1|]. split; [apply nodup_filter_map, B2|]. split.
  - intros r' H. apply filter_In in H as [H _]. auto.
  - intros r0 I0. destruct (Nat.eqb (tid r0) i) eqn:Z.
    + apply Nat.eqb_eq in Z. assert (r0 = r) by (apply (id_inj l); auto; congruence). subst r0. right. intros x Hx. left. rewrite Z. f_equal.
      destruct (list_eq_dec (list_eq_dec Z.eq_dec) p x) as [->|NE]; [reflexivity|]. exfalso. assert (C : In x (rm_path p (ttopics r))) by (apply rm_path_in; auto). rewrite Q in C. destruct C.
    + destruct (B4 _ I0) as [(r' & H & E)|H]; [|right; exact H]. left. exists r'. split; [|exact E]. apply filter_In. split; [exact H|]. rewrite E, Z. reflexivity.
Qed.
Definition pair_eq_dec : forall a b : path * nat, {a = b} + {a <> b}.
Proof. intros [p i] [q j]. destruct (list_eq_dec (list_eq_dec Z.eq_dec) p q), (Nat.eq_dec i j); [left|right|right|right]; congruence. Defined.
Lemma forget_all_ok : forall prs l, NoDup prs -> NoDup (map tid l) -> NoDup (map tdata l) -> (forall r, In r l -> NoDup (ttopics r)) ->
  (forall p i, In (p, i) prs -> exists r, In r l /\ tid r = i /\ In p (ttopics r)) -> exists l', forget_all prs l = Ok l' /\ after prs l l'.
Proof.
  induction prs as [|(p, i) prs IH]; intros l NP N M TN H.
  - exists l. split; [reflexivity|]. repeat split; auto.
    + intros r' I. exists r'. repeat split; auto; tauto.
    + intros r I. left. eauto.
  - inversion NP as [|? ? NI NP']; subst. destruct (H p i ltac:(left; reflexivity)) as (r & Ir & Er & Ip).
    destruct (forget_one p i l r N M TN Ir Er Ip) as (l1 & F1 & A1). cbn [forget_all]. rewrite F1. cbn [obind]. destruct A1 as (B1 & B2 & B3 & B4).
    destruct (IH l1 NP' B1 B2) as (l' & F' & (C1 & C2 & C3 & C4)).
    { intros r' I'. destruct (B3 _ I') as (? & ? & ? & ? & ? & ?). auto. }
    { intros p' i' Hp. destruct (H p' i' ltac:(right; exact Hp)) as (r0 & I0 & E0 & P0).
      assert (NEp : ~ In (p', i') [(p, i)]) by (intros [X|[]]; injection X as -> ->; auto).
      destruct (B4 r0 I0) as [(r' & I' & E')|X]; [|exfalso; apply NEp; rewrite <- E0; auto].
      exists r'. split; [exact I'|]. split; [congruence|]. destruct (B3 r' I') as (r1 & I1 & E1 & _ & _ & T1). assert (r1 = r0) by (apply (id_inj l); auto; congruence). subst r1.
      apply T1. split; [exact P0|]. rewrite E0. exact NEp. }
    exists l'. split; [exact F'|]. split; [exact C1|]. split; [exact C2|]. split.
    + intros r' I'. destruct (C3 r' I') as (r1 & I1 & E1 & D1 & U1 & T1). destruct (B3 r1 I1) as (r2 & I2 & E2 & D2 & U2 & T2). exists r2. split; [exact I2|].
      split; [congruence|]. split; [congruence|]. split; [exact U1|]. intros q. rewrite T1, T2. rewrite E2. cbn. split; [intros [[X Y] Z]; split; [exact X|]; intros [W|W]; auto|].
      intros [X Y]. split; [split; [exact X|intros [W|[]]; apply Y; left; exact W]|intros W; apply Y; right; exact W].
    + intros r2 I2. destruct (B4 r2 I2) as [(r1 & I1 & E1)|X]; [|right; intros q Q; destruct (X q Q) as [W|[]]; left; exact W].
      destruct (C4 r1 I1) as [(r' & I' & E')|X]; [left; exists r'; split; [exact I'|congruence]|]. right. intros q Q.
      destruct (B3 r1 I1) as (r3 & I3 & E3 & _ & _ & T3). assert (r3 = r2) by (apply (id_inj l); auto; congruence). subst r3.
      destruct (in_dec pair_eq_dec (q, tid r2) [(p, i)]) as [[W|[]]|W]; [left; exact W|right].
      rewrite <- E1. apply X. apply T3. auto.
Qed.
Lemma sub_app : forall a t b, sub t (a ++ b) = match sub t a with Some c => sub c b | None => None end.
Proof. induction a as [|n a IH]; intros t b; [reflexivity|]. cbn [app sub]. destruct (kid n (kids t)); [apply IH|reflexivity]. Qed.
Lemma inv_cutoff : forall s m p c, inv s m -> p <> [] -> sub (root s) p = Some c -> exists l, forget_tree p c (live s) = Ok l /\
  inv (mkState (cutoff p (root s)) l (next s)) (filter (fun x => negb (below p (fst x))) m).
Proof.
  intros s m p c I NE SB. pose proof (v_names _ _ I) as NN.
  assert (NC : forall w ns, N c w = Some ns -> NoDup ns). { intros w ns H. apply (NN (p ++ w)). unfold N. rewrite sub_app, SB. exact H. }
  assert (RC : forall w, R c w = R (root s) (p ++ w)). { intros w. unfold R. rewrite sub_app, SB. reflexivity. }
  assert (PI : forall v i, In (v, i) (pairs p c) <-> below p v = true /\ exists x, R (root s) v = Some x /\ In i (olist x)).
  { intros v i. rewrite in_pairs by exact NC. rewrite below_spec. split.
    - intros (w & x & -> & Hx & Hi). rewrite RC in Hx. eauto.
    - intros ((w & ->) & x & Hx & Hi). exists w, x. rewrite RC. auto. }
  assert (PM : forall r v, In r (live s) -> (In (v, tid r) (pairs p c) <-> below p v = true /\ In (v, tdata r) m)).
  { intros r v Ir. rewrite PI. pose proof (dat_in _ _ (v_ids _ _ I) Ir) as DR. split.
    - intros (B & x & Hx & Hi). split; [exact B|]. assert (NV : v <> []) by (intros ->; destruct p; [congruence|discriminate]).
      destruct (v_listed _ _ I v x _ NV Hx Hi) as (d & D & M). congruence.
    - intros (B & M). split; [exact B|]. destruct (v_held _ _ I _ _ M) as (x & i & Hx & Hi & D). exists x. split; [exact Hx|].
      assert (i = tid r) by (eapply dat_inj; eauto; [apply (v_ids _ _ I)|apply (v_datas _ _ I)]). subst. exact Hi. }
  destruct (forget_all_ok (pairs p c) (live s)) as (l & F & (A1 & A2 & A3 & A4)).
  { apply pairs_nodup; [exact NC|]. intros w x H. rewrite RC in H. eapply v_ids_nodup; eauto. }
  { apply (v_ids _ _ I). } { apply (v_datas _ _ I). } { intros r Ir. apply (v_topics _ _ I _ Ir). }
  { intros v i H. apply PI in H as (B & x & Hx & Hi). assert (NV : v <> []) by (intros ->; destruct p; [congruence|discriminate]).
    destruct (v_listed _ _ I v x _ NV Hx Hi) as (d & D & M). apply dat_some in D as (r & Ir & Er & Dr). exists r. split; [exact Ir|]. split; [exact Er|].
    apply (v_topics _ _ I _ Ir). rewrite Dr. exact M. }
  exists l. rewrite forget_tree_pairs. split; [exact F|].
  assert (RCUT : forall u, R (cutoff p (root s)) u = if below p u then None else R (root s) u) by (intros u; unfold R; apply view_cutoff; auto).
  constructor; cbn [root live next]; auto.
  - intros u x NU H. rewrite RCUT in H. destruct (below p u) eqn:B; [discriminate|].
    assert (AE : at_ u (filter (fun x => negb (below p (fst x))) m) = at_ u m).
    { clear -B. unfold at_. induction m as [|(v, d) m IH]; [reflexivity|]. cbn [filter fst]. destruct (path_eqb v u) eqn:E.
      - apply path_eqb_eq in E as E'. subst v. rewrite B. cbn [negb filter fst]. rewrite E. cbn. rewrite IH. reflexivity.
      - destruct (below p v); cbn [negb filter fst]; [|rewrite E]; exact IH. }
    rewrite AE, <- (v_reg _ _ I u x NU H). apply map_ext_in. intros i Hi. destruct (v_listed _ _ I u x i NU H Hi) as (d & D & M). rewrite D.
    apply dat_some in D as (r & Ir & Er & Dr). subst d i. destruct (A4 r Ir) as [(r' & I' & E')|X].
    + destruct (A3 r' I') as (r1 & I1 & E1 & D1 & _). assert (r1 = r) by (apply (id_inj (live s)); [apply (v_ids _ _ I)|auto|auto|congruence]). subst r1. rewrite <- D1, <- E1. apply dat_in; auto.
    + exfalso. assert (C : In (u, tid r) (pairs p c)) by (apply X; apply (v_topics _ _ I _ Ir); exact M). apply PM in C as [C _]; [congruence|exact Ir].
  - intros u H d Hd. apply filter_In in Hd as [Hd Hb]. cbn in Hb. rewrite RCUT in H. destruct (below p u); [discriminate|]. eapply (v_none _ _ I); eauto.
  - pose proof (v_root _ _ I) as VR. destruct p as [|n [|n' p]]; [congruence|exact VR|exact VR].
  - intros u ns H. exact (N_cutoff p _ NN u ns H).
  - intros r' I'. destruct (A3 r' I') as (r & Ir & -> & _). apply (v_next _ _ I _ Ir).
  - intros r' I'. destruct (A3 r' I') as (r & Ir & E1 & E2 & U & T). split; [exact U|]. intros u. rewrite T, filter_In, E2. cbn. destruct (v_topics _ _ I _ Ir) as [_ T2]. rewrite T2, PM by exact Ir.
    destruct (below p u); cbn; (split; intros [X Y]; [|try discriminate]); [exfalso; apply Y; auto|auto|split; [exact X|intros [Z _]; discriminate]].
  - apply NoDup_filter, (v_nodup _ _ I).
  - intros d H. apply filter_In in H as [H _]. eapply (v_ne _ _ I); eauto.
Qed.
