(** Proofs about the broker's clients and messages. *)
From Coq Require Import String.
From Verif Require Import Common CommonFacts RouteModel RouteSpec RouteProofs RouteInv RouteRun RouteLook RouterModel RouterSpec.
From Coq Require Import Lia.
Local Open Scope string_scope.
Local Open Scope list_scope.
Local Open Scope Z_scope.

(** ** the tree accepts consistent names *)
Lemma add_walk_some : forall ts A b t, shape A t -> (forall a, A a -> clash ts a = false) -> snd (add_walk ts b t) <> None.
Proof.
  induction ts as [|n ts IH]; intros A b t S CL; [discriminate|]. cbn [add_walk].
  assert (REC : forall j m c, hit_at (child n (kids t) 0) = Some (j, m, c) -> m = n /\ snd (add_walk ts false c) <> None).
  { intros j m c C. pose proof (child_hit _ _ _ _ _ C) as (K & _). destruct (shape_head _ _ _ _ S K) as (a & Aa).
    assert (E : m = n).
    { specialize (CL _ Aa). cbn in CL. destruct (bytes_eqb n m) eqn:Q; [apply bytes_eqb_eq in Q; congruence|]. apply orb_false_elim in CL as [C1 C2]. apply child_cases in C as [C|[C|[_ C]]]; congruence. }
    split; [exact E|]. subst m. apply (IH (under A n)); [eapply shape_kid; eauto|]. intros a' Aa'. specialize (CL _ Aa'). cbn in CL. rewrite bytes_eqb_refl in CL. exact CL. }
  destruct (child n (kids t) 0) as [j m c|j m c|j m c|] eqn:C.
  - destruct (REC j m c eq_refl) as [_ R]. destruct (add_walk ts false c) as [c' [(p, b')|]]; [discriminate|cbn in R; congruence].
  - destruct (REC j m c eq_refl) as [_ R]. destruct (add_walk ts false c) as [c' [(p, b')|]]; [discriminate|cbn in R; congruence].
  - exfalso. destruct (REC j m c eq_refl) as [E _]. subst m. clear - C. revert C. generalize 0%nat at 1. induction (kids t) as [|(x, y) k IH]; intros i C; cbn [child] in C; [discriminate|].
    destruct (bytes_eqb x n) eqn:E1; [discriminate|]. destruct (brace x && instance n); [discriminate|]. destruct (brace x || brace n); [|eauto]. injection C as _ <- _. rewrite bytes_eqb_refl in E1. discriminate.
  - assert (BL : forall ts b, snd (add_walk ts b blank) <> None).
    { clear. induction ts as [|n ts IH]; intros b; [discriminate|]. cbn. specialize (IH true). destruct (add_walk ts true blank) as [c [(p, b')|]]; [discriminate|cbn in IH; congruence]. }
    specialize (BL ts true). destruct (add_walk ts true blank) as [c [(p, b')|]]; [discriminate|cbn in BL; congruence].
Qed.
Lemma add_false_ok : forall A s n d s' e, shape A (root s) -> (forall a, A a -> clash (split n) a = false) -> validate n = true -> fits n -> add s n d false = Ok (s', e) -> e = 0.
Proof.
  intros A s n d s' e SH CL V F H. unfold add in H. rewrite V in H. cbn [negb] in H. rewrite fits_tokenize in H by exact F. cbn [obind] in H.
  destruct (split n) as [|t0 ts] eqn:TS; [injection H as _ <-; reflexivity|]. rewrite <- TS in *.
  pose proof (add_walk_some (split n) A false (root s) SH CL) as W. destruct (find_data d (live s)) as [tr|]; cbn [root] in H;
    (destruct (add_walk (split n) false (root s)) as [t [(p, cr)|]]; [|cbn in W; congruence]); cbn [andb] in H; injection H as _ <-; reflexivity.
Qed.
Lemma printable_length : forall s k, printable s k = true -> (length s < k)%nat.
Proof. induction s as [|c s IH]; intros [|k] H; cbn in *; try discriminate; [lia|]. apply andb_prop in H as [_ H]. apply IH in H. lia. Qed.
Lemma step_tidy : forall A o s m, tidyP A -> inv s m -> tree A (root s) -> (forall u d, In (u, d) m -> A u) ->
  match o with Add n d false => ~ In d (map snd m) | Add n d true => n <> ADVISORY | _ => True end -> op_fits o ->
  match o with Add n _ _ => A (split n) | RemoveTopic n => literalP A (split n) | _ => True end ->
  exists s' e, step s o = Ok (s', e) /\ inv s' (note m (o, e)) /\ tree A (root s') /\ (forall u d, In (u, d) (note m (o, e)) -> A u) /\
    (match o with RemoveTopic _ => False | _ => True end -> inv2 s m -> inv2 s' (note m (o, e))).
Proof.
  intros A o s m TA I W MA C F G.
  assert (CF : careful (map snd m) [o]) by (destruct o as [n d [|]|d|n]; cbn; auto).
  assert (U : forall u d, In (u, d) m -> In d (map snd m)) by (intros u d H; apply (in_map snd) in H; exact H).
  destruct (run_ok [o] s m (map snd m) I U CF) as (s' & h & m' & E & _); [constructor; [exact F|constructor]|].
  cbn [run] in E. destruct (step s o) as [(s1, e)| |] eqn:ST; cbn [obind] in E; try discriminate. injection E as <- <-.
  exists s1, e. split; [reflexivity|].
  assert (RN : run s [o] = Ok (s1, [(o, e)])) by (cbn [run]; rewrite ST; reflexivity).
  destruct (run_tidy A [o] s m (map snd m) s1 [(o, e)] TA I W MA U CF) as (I' & W' & MA').
  - constructor; [exact F|constructor].
  - intros n [Hn|[]]. subst o. exact G.
  - exact RN.
  - intros a Ha. unfold accepted in Ha. cbn in Ha. destruct o as [n d b|d|n]; try destruct Ha. destruct (e =? 0); [|destruct Ha]. destruct Ha as [<-|[]]. exact G.
  - refine (conj I' (conj W' (conj MA' _))). intros NR V. apply (run_inv2 A [o] s m (map snd m) s1 [(o, e)] TA I V W MA U CF); [constructor; [exact F|constructor]| |exact RN|].
    + intros n [Hn|[]]. subst o. exact NR.
    + intros a Ha. unfold accepted in Ha. cbn in Ha. destruct o as [n d b|d|n]; try destruct Ha. destruct (e =? 0); [|destruct Ha]. destruct Ha as [<-|[]]. exact G.
Qed.

(** ** entries and owners *)
Definition own (es : list entry) (d : Z) : owner := match find (fun x => e_id x =? d) es with Some r => e_owner r | None => None end.
Record core (A : names) (b : broker) (m : registrations) : Prop := mkCore {
  q_inv : inv (tree_of b) m; q_tree : tree A (root (tree_of b)); q_in : forall u d, In (u, d) m -> A u;
  q_ids : NoDup (map e_id (entries b)); q_owners : NoDup (map e_owner (entries b)); q_fresh : forall r, In r (entries b) -> e_id r < fresh b;
  q_known : forall u d, In (u, d) m -> In d (map e_id (entries b)) }.
Definition shown (es : list entry) (m : registrations) : list (list (list Z) * owner) := map (fun x => (fst x, own es (snd x))) m.
Definition subs (es : list entry) : list ((Z * Z) * list Z) := flat_map (fun r => match e_owner r with Some o => [(o, e_expr r)] | None => [] end) es.
(** with [q] also the lists of routes below are right *)
Definition relq (q : bool) (A : names) (b : broker) (v : view) : Prop :=
  exists m, core A b m /\ names_of v = shown (entries b) m /\ subs_of v = subs (entries b) /\ (q = true -> inv2 (tree_of b) m).
Definition rel : names -> broker -> view -> Prop := relq false.
Lemma rel_weak : forall q A b v, relq q A b v -> rel A b v.
Proof. intros q A b v (m & C & NM & SB & _). exists m. split; [exact C|]. split; [exact NM|]. split; [exact SB|discriminate]. Qed.

Lemma find_entry : forall es r, NoDup (map e_id es) -> In r es -> find (fun x => e_id x =? e_id r) es = Some r.
Proof.
  induction es as [|x es IH]; intros r N H; [destruct H|]. cbn in N. inversion N as [|? ? NI N']; subst. cbn [find].
  destruct H as [->|H]; [rewrite Z.eqb_refl; reflexivity|]. destruct (Z.eqb_spec (e_id x) (e_id r)) as [E|_]; [|auto]. exfalso. apply NI. rewrite E. apply in_map, H.
Qed.
Lemma own_in : forall es r, NoDup (map e_id es) -> In r es -> own es (e_id r) = e_owner r.
Proof. intros es r N H. unfold own. rewrite find_entry; auto. Qed.
Lemma entry_of : forall es d, In d (map e_id es) -> exists r, In r es /\ e_id r = d.
Proof. intros es d H. apply in_map_iff in H as (r & E & H). eauto. Qed.
Lemma owner_eqb_eq : forall a b, owner_eqb a b = true <-> a = b.
Proof.
  intros [(x, y)|] [(x', y')|]; cbn; split; intros H; try discriminate; auto.
  - apply andb_prop in H as [H1 H2]. apply Z.eqb_eq in H1, H2. congruence.
  - injection H as -> ->. rewrite !Z.eqb_refl. reflexivity.
Qed.
Lemma owner_inj : forall es r r', NoDup (map e_owner es) -> In r es -> In r' es -> e_owner r = e_owner r' -> r = r'.
Proof.
  induction es as [|x es IH]; intros r r' N H H' E; [destruct H|]. cbn in N. inversion N as [|? ? NI N']; subst.
  destruct H as [->|H], H' as [->|H']; auto; exfalso; apply NI; [rewrite E|rewrite <- E]; apply in_map; assumption.
Qed.
Lemma entry_inj : forall es r r', NoDup (map e_id es) -> In r es -> In r' es -> e_id r = e_id r' -> r = r'.
Proof.
  induction es as [|x es IH]; intros r r' N H H' E; [destruct H|]. cbn in N. inversion N as [|? ? NI N']; subst.
  destruct H as [->|H], H' as [->|H']; auto; exfalso; apply NI; [rewrite E|rewrite <- E]; apply in_map; assumption.
Qed.

(** ** leaving *)
Definition hit_by (rs : list entry) (d : Z) : bool := existsb (fun r => e_id r =? d) rs.
Lemma filter_filter : forall {A} (f g : A -> bool) l, filter f (filter g l) = filter (fun x => g x && f x) l.
Proof. induction l as [|x l IH]; [reflexivity|]. cbn. destruct (g x); cbn; [destruct (f x); rewrite IH; reflexivity|exact IH]. Qed.
Lemma clear_all : forall A rs b m, core A b m -> let b' := fold_left clear_route rs b in
  core A b' (filter (fun x => negb (hit_by rs (snd x))) m) /\ entries b' = filter (fun r => negb (hit_by rs (e_id r))) (entries b) /\ fresh b' = fresh b /\
  (inv2 (tree_of b) m -> inv2 (tree_of b') (filter (fun x => negb (hit_by rs (snd x))) m)).
Proof.
  intros A. induction rs as [|r rs IH]; intros b m C b'; subst b'.
  - cbn. rewrite !filter_none by reflexivity. auto.
  - cbn [fold_left]. assert (C1 : core A (clear_route b r) (filter (fun x => negb (snd x =? e_id r)) m)).
    { destruct C as [I W MA N O FR K]. constructor; cbn [clear_route tree_of entries fresh].
      - apply inv_remove_route, I.
      - unfold remove_route. destruct (find_data (e_id r) (live (tree_of b))); [|exact W]. cbn [root]. apply tree_prune; [apply (v_names _ _ I)|exact W].
      - intros u d H. apply filter_In in H as [H _]. eauto.
      - apply nodup_filter_map, N.
      - apply nodup_filter_map, O.
      - intros x H. apply filter_In in H as [H _]. auto.
      - intros u d H. apply filter_In in H as [H D]. cbn in D. apply K in H. apply in_map_iff in H as (x & <- & H). apply in_map. apply filter_In. auto. }
    destruct (IH _ _ C1) as (C2 & E2 & F2 & V2). split; [|split; [|split]].
    + rewrite filter_filter in C2. erewrite filter_ext; [exact C2|]. intros x. cbn [hit_by existsb]. rewrite negb_orb, (Z.eqb_sym (snd x)). reflexivity.
    + rewrite E2. cbn [clear_route entries]. rewrite filter_filter. apply filter_ext. intros x. cbn [hit_by existsb]. rewrite negb_orb, (Z.eqb_sym (e_id x)). reflexivity.
    + rewrite F2. reflexivity.
    + intros V. specialize (V2 (inv2_remove _ _ _ (q_inv _ _ _ C) V)). rewrite filter_filter in V2. erewrite filter_ext; [exact V2|]. intros x. cbn [hit_by existsb]. rewrite negb_orb, (Z.eqb_sym (snd x)). reflexivity.
Qed.
Lemma own_filter : forall es g r, NoDup (map e_id es) -> In r es -> g r = true -> own (filter g es) (e_id r) = e_owner r.
Proof. intros es g r N H G. apply own_in; [apply nodup_filter_map, N|apply filter_In; auto]. Qed.
Lemma clear_rel : forall q A b v rs (P : owner -> bool), relq q A b v -> (forall r, In r (entries b) -> hit_by rs (e_id r) = P (e_owner r)) ->
  relq q A (fold_left clear_route rs b) (mkView (filter (fun x => negb (P (snd x))) (names_of v)) (filter (fun x => negb (P (Some (fst x)))) (subs_of v))).
Proof.
  intros q A b v rs P (m & C & NM & SB & V) HP. destruct (clear_all A rs b m C) as (C' & E' & _ & V'). exists (filter (fun x => negb (hit_by rs (snd x))) m). split; [exact C'|]. cbn [names_of subs_of]. rewrite E', NM, SB.
  pose proof (q_ids _ _ _ C) as N. split; [|split; [|intros Q; apply V'; auto]].
  - unfold shown. pose proof (q_known _ _ _ C) as K. clear C C' NM E' V V'. induction m as [|(u, d) m IH]; [reflexivity|]. cbn [map filter fst snd].
    destruct (entry_of (entries b) d (K u d ltac:(left; reflexivity))) as (r & Hr & <-). rewrite (own_in _ _ N Hr), <- (HP r Hr).
    specialize (IH ltac:(intros; eapply K; right; eauto)). destruct (hit_by rs (e_id r)) eqn:HB; cbn [negb map fst snd]; [exact IH|].
    rewrite (own_filter _ _ r N Hr) by (rewrite HB; reflexivity). f_equal. exact IH.
  - clear - HP. induction (entries b) as [|r es IH]; [reflexivity|]. cbn [subs flat_map filter]. fold (subs es). rewrite HP by (left; reflexivity).
    specialize (IH ltac:(intros; apply HP; right; auto)).
    destruct (e_owner r) as [o|] eqn:EO.
    + cbn [app filter fst]. destruct (P (Some o)) eqn:EP; cbn [negb]; [exact IH|]. cbn [subs flat_map]. rewrite EO. cbn [app]. f_equal. exact IH.
    + destruct (P None); cbn [negb app]; [exact IH|]. cbn [subs flat_map]. rewrite EO. exact IH.
Qed.

Lemma subs_existsb : forall es c id, existsb (fun s => (fst (fst s) =? c) && (snd (fst s) =? id)) (subs es) = is_some (find (owned_by c id) es).
Proof.
  intros es c id. induction es as [|r es IH]; [reflexivity|]. cbn [subs flat_map]. fold (subs es). cbn [find]. unfold owned_by at 1. destruct (e_owner r) as [(x, y)|].
  - cbn [app existsb fst snd]. destruct ((x =? c) && (y =? id)); [reflexivity|]. exact IH.
  - exact IH.
Qed.
Lemma subs_find : forall es c e, match find (fun r => bytes_eqb (e_expr r) e && client_is c r) es with
  | Some r => exists o, e_owner r = Some o /\ find (fun s => bytes_eqb (snd s) e && (fst (fst s) =? c)) (subs es) = Some (o, e_expr r)
  | None => find (fun s => bytes_eqb (snd s) e && (fst (fst s) =? c)) (subs es) = None end.
Proof.
  intros es c e. induction es as [|r es IH]; [reflexivity|]. cbn [subs flat_map find]. fold (subs es). unfold client_is at 1. destruct (e_owner r) as [(x, y)|] eqn:EO.
  - cbn [app find fst snd]. destruct (bytes_eqb (e_expr r) e && (x =? c)); [exists (x, y); auto|exact IH].
  - rewrite andb_false_r. exact IH.
Qed.
Lemma shown_app : forall es m x, shown es (m ++ [x]) = shown es m ++ [(fst x, own es (snd x))].
Proof. intros. unfold shown. apply map_app. Qed.
Lemma own_grow : forall es r d, In d (map e_id es) -> own (es ++ [r]) d = own es d.
Proof.
  intros es r d H. unfold own. induction es as [|x es IH]; [destruct H|]. cbn [app find]. destruct (Z.eqb_spec (e_id x) d); [reflexivity|]. apply IH. destruct H; [contradiction|assumption].
Qed.
Lemma own_new : forall es d o e, ~ In d (map e_id es) -> own (es ++ [mkEntry d o e]) d = o.
Proof.
  intros es d o e H. unfold own. induction es as [|x es IH]; cbn [app find]; [cbn; rewrite Z.eqb_refl; reflexivity|]. cbn in H. destruct (Z.eqb_spec (e_id x) d); [tauto|]. apply IH. tauto.
Qed.
Lemma shown_grow : forall es r m, (forall u d, In (u, d) m -> In d (map e_id es)) -> shown (es ++ [r]) m = shown es m.
Proof. intros es r m H. apply map_ext_in. intros (u, d) I. cbn. rewrite own_grow; [reflexivity|eauto]. Qed.
Lemma is_nil_split : forall (A B : Type) (l : list A) (x y : B), match l with [] => x | _ => y end = if match l with [] => false | _ => true end then y else x.
Proof. intros A B [|]; reflexivity. Qed.

Lemma subscribe_rel : forall q A b v c e id, tidyP A -> relq q A b v -> A (split e) -> good_name e -> (e = ADVISORY -> find (owned_by c id) (entries b) = None) ->
  exists b' rc, subscribe b c e id = Ok (b', rc) /\ relq q A b' (record v (Sub c e id, rc)).
Proof.
  intros q A b v c e id TA (m & C & NM & SB & V2) AE [GD GN] AD. unfold subscribe. destruct (printable e RTMSG_MAX_EXPRESSION_LEN) eqn:P; cbn [negb].
  2: { exists b, RT_ERROR_INVALID_ARG. split; [reflexivity|]. exists m. auto. }
  pose proof (printable_length _ _ P) as LP. unfold RTMSG_MAX_EXPRESSION_LEN in LP. assert (F : fits e) by (split; lia).
  assert (V : validate e = true) by (unfold validate; rewrite GN; cbn [negb andb]; rewrite (proj2 (Nat.leb_le _ _)) by (unfold MAX_TOKEN_BUFFER_SIZE; lia); apply Nat.leb_le; unfold MAX_TOKENS; lia).
  destruct C as [I W MA N O FR K]. destruct (find (owned_by c id) (entries b)) as [r|] eqn:FD.
  - apply find_some in FD as FD'. destruct FD' as [Hr OW]. unfold owned_by in OW. destruct (e_owner r) as [(x, y)|] eqn:EO; [|discriminate]. apply andb_prop in OW as [O1 O2]. apply Z.eqb_eq in O1, O2. subst x y.
    destruct (step_tidy A (Add e (e_id r) true) (tree_of b) m TA I W MA) as (t & rc & ST & I' & W' & MA' & V'); [intros X; specialize (AD X); discriminate|exact F|exact AE|].
    cbn [step] in ST. rewrite ST. cbn [obind]. eexists _, rc. split; [reflexivity|]. exists (note m (Add e (e_id r) true, rc)). cbn [note] in *. split; [|split; [|split; [|intros Q; apply V'; auto]]].
    + constructor; cbn [tree_of entries fresh]; auto. intros u d H. destruct ((rc =? 0) && _); [|eauto]. apply in_app_iff in H as [H|[H|[]]]; [eauto|]. injection H as _ <-. apply in_map, Hr.
    + cbn [entries]. destruct rc as [|pz|pz]; cbn [Z.eqb andb record].
      * cbn [names_of]. rewrite NM. destruct (split e) as [|t0 ts]; [reflexivity|]. rewrite shown_app. cbn [fst snd]. rewrite (own_in _ _ N Hr), EO. reflexivity.
      * exact NM.
      * exact NM.
    + cbn [entries]. destruct rc as [|pz|pz]; cbn [record]; [|exact SB|exact SB]. cbn [subs_of]. rewrite SB, subs_existsb, FD. reflexivity.
  - assert (NF : ~ In (fresh b) (map snd m)).
    { intros H. apply in_map_iff in H as ((u, d) & Hd & H). cbn in Hd. subst d. apply K in H. apply in_map_iff in H as (r & Hr & H). apply FR in H. lia. }
    destruct (step_tidy A (Add e (fresh b) false) (tree_of b) m TA I W MA) as (t & rc & ST & I' & W' & MA' & V'); [exact NF|exact F|exact AE|].
    cbn [step] in ST. rewrite ST. cbn [obind]. eexists _, RT_OK. split; [reflexivity|].
    assert (rc = 0) as -> by (eapply (add_false_ok A); [apply (w_shape _ _ W)| |exact V|exact F|exact ST]; intros a Aa; apply TA; auto).
    exists (note m (Add e (fresh b) false, 0)). cbn [note Z.eqb andb] in *.
    assert (NID : ~ In (fresh b) (map e_id (entries b))) by (intros H; apply in_map_iff in H as (r & Hr & H); apply FR in H; lia).
    split; [|split; [|split; [|intros Q; apply V'; auto]]].
    + constructor; cbn [tree_of entries fresh]; auto.
      * rewrite map_app. cbn. apply nodup_app_intro; [exact N|apply nodup_one|]. intros x Hx [<-|[]]. auto.
      * rewrite map_app. cbn. apply nodup_app_intro; [exact O|apply nodup_one|]. intros x Hx [<-|[]]. apply in_map_iff in Hx as (r & Hr & H). pose proof (find_none _ _ FD r H) as Q. unfold owned_by in Q. rewrite Hr, !Z.eqb_refl in Q. discriminate.
      * intros r H. apply in_app_iff in H as [H|[<-|[]]]; [apply FR in H; lia|cbn; lia].
      * intros u d H. rewrite map_app. apply in_app_iff. destruct (match split e with [] => false | _ => true end); [|left; eauto].
        apply in_app_iff in H as [H|[H|[]]]; [left; eauto|]. injection H as _ <-. right. left. reflexivity.
    + cbn [record names_of RT_OK entries]. rewrite NM. destruct (split e) as [|t0 ts]; [rewrite shown_grow by exact K; reflexivity|]. rewrite shown_app, (shown_grow _ _ _ K). cbn [fst snd]. f_equal. f_equal. f_equal.
      symmetry. apply own_new. exact NID.
    + cbn [record subs_of RT_OK entries]. rewrite SB, subs_existsb, FD. cbn [is_some]. unfold subs. rewrite flat_map_app. reflexivity.
Qed.
Lemma unsubscribe_rel : forall q A b v c e, tidyP A -> relq q A b v -> (dots e <= 31)%nat -> literalP A (split e) ->
  (q = true -> find (fun s => bytes_eqb (snd s) e && (fst (fst s) =? c)) (subs_of v) <> None) ->
  exists b' rc, unsubscribe b c e = Ok (b', rc) /\ relq q A b' (record v (Unsub c e, rc)).
Proof.
  intros q A b v c e TA RL GD LT OWN. unfold unsubscribe. destruct (printable e RTMSG_MAX_EXPRESSION_LEN) eqn:P; cbn [negb].
  2: { exists b, RT_ERROR_INVALID_ARG. split; [reflexivity|exact RL]. }
  pose proof (printable_length _ _ P) as LP. unfold RTMSG_MAX_EXPRESSION_LEN in LP. assert (F : fits e) by (split; lia).
  pose proof RL as (m & C & NM & SB & V2). pose proof (subs_find (entries b) c e) as SF. destruct (find _ (entries b)) as [r|] eqn:FD.
  - destruct SF as (o & EO & SF). apply find_some in FD as [Hr _]. exists (clear_route b r), RT_OK. split; [reflexivity|]. cbn [record RT_OK]. rewrite SB, SF. cbn [fst].
    pose proof (clear_rel q A b v [r] (fun x => owner_eqb x (Some o)) RL) as CR. rewrite SB in CR. apply CR.
    intros r' H'. cbn [hit_by existsb]. rewrite orb_false_r. apply bool_eq. rewrite owner_eqb_eq, Z.eqb_eq. split.
    + intros E. rewrite (entry_inj _ _ _ (q_ids _ _ _ C) Hr H' E) in EO. exact EO.
    + intros E. f_equal. apply (owner_inj _ _ _ (q_owners _ _ _ C) Hr H'). congruence.
  - destruct C as [I W MA N O FR K]. destruct (step_tidy A (RemoveTopic e) (tree_of b) m TA I W MA Logic.I F LT) as (t & rc & ST & I' & W' & MA' & _).
    cbn [step] in ST. destruct (remove_topic (tree_of b) e) as [t'| |]; cbn [obind] in ST; try discriminate. injection ST as -> <-. cbn [obind]. eexists _, RT_OK. split; [reflexivity|].
    cbn [record RT_OK note] in *. rewrite SB, SF. eexists. split; [|split; [|split; [|intros Q; exfalso; apply (OWN Q); rewrite SB; exact SF]]].
    + constructor; cbn [tree_of entries fresh]; [exact I'|exact W'|exact MA'|exact N|exact O|exact FR|]. intros u d H. destruct (split e); [eauto|]. apply filter_In in H as [H _]. eauto.
    + cbn [names_of entries]. rewrite NM. destruct (split e) as [|t0 ts]; [reflexivity|]. unfold shown. clear. induction m as [|(u, d) m IH]; [reflexivity|]. cbn [map filter fst snd].
      destruct (below (t0 :: ts) u); cbn [negb]; [exact IH|]. cbn [map fst snd]. f_equal. exact IH.
    + reflexivity.
Qed.
Lemma leave_rel : forall q A b v c rc, relq q A b v -> relq q A (leave b c) (record v (Leave c, rc)).
Proof.
  intros q A b v c rc RL. pose proof RL as (m & C & NM & SB & _). unfold leave. cbn [record].
  pose proof (clear_rel q A b v (filter (client_is c) (entries b)) (of_client c) RL) as CR.
  assert (EQ : filter (fun x => negb (of_client c (Some (fst x)))) (subs_of v) = filter (fun x => negb (fst (fst x) =? c)) (subs_of v)).
  { apply filter_ext. intros ((x, y), e). reflexivity. }
  rewrite EQ in CR.
  apply CR. intros r Hr. apply bool_eq. unfold hit_by. rewrite existsb_exists. split.
  - intros (x & Hx & E). apply filter_In in Hx as [Hx CX]. apply Z.eqb_eq in E. rewrite <- (entry_inj _ _ _ (q_ids _ _ _ C) Hx Hr E). exact CX.
  - intros H. exists r. split; [apply filter_In; split; [exact Hr|exact H]|apply Z.eqb_refl].
Qed.

(** ** histories *)
Lemma advisory_none : forall q A b v seen c e id l, relq q A b v -> (forall s, In s (subs_of v) -> In (fst s) seen) -> advisory_first seen (Sub c e id :: l) -> e = ADVISORY -> find (owned_by c id) (entries b) = None.
Proof.
  intros q A b v seen c e id l (m & C & NM & SB & _) IN [AD _] E. destruct (find (owned_by c id) (entries b)) as [r|] eqn:FD; [|reflexivity]. exfalso. apply (AD E).
  pose proof (subs_existsb (entries b) c id) as X. rewrite FD in X. cbn in X. apply existsb_exists in X as (((x, y), t) & Hs & Q). cbn in Q. apply andb_prop in Q as [Q1 Q2]. apply Z.eqb_eq in Q1, Q2. subst.
  rewrite <- SB in Hs. apply IN in Hs. exact Hs.
Qed.
Lemma subs_seen : forall v r rc seen, (forall s, In s (subs_of v) -> In (fst s) seen) -> forall s, In s (subs_of (record v (r, rc))) ->
  In (fst s) (match r with Sub c _ id => (c, id) :: seen | _ => seen end).
Proof.
  intros v r rc seen IN s H. assert (D : forall c id, In (fst s) seen -> In (fst s) ((c, id) :: seen)) by (intros; right; assumption).
  destruct r as [c e id|c e|c]; cbn [record] in H.
  - destruct rc; [|auto|auto]. cbn [subs_of] in H. destruct (existsb _ (subs_of v)); [auto|]. apply in_app_iff in H as [H|[<-|[]]]; [auto|left; reflexivity].
  - destruct rc; [|auto|auto]. destruct (find _ (subs_of v)); cbn [subs_of] in H; [|auto]. apply filter_In in H as [H _]. auto.
  - cbn [subs_of] in H. apply filter_In in H as [H _]. auto.
Qed.
Lemma serve_rel : forall A l b v seen, tidyP A -> rel A b v -> (forall s, In s (subs_of v) -> In (fst s) seen) -> (forall c e id, In (Sub c e id) l -> A (split e) /\ good_name e) ->
  (forall c e, In (Unsub c e) l -> (dots e <= 31)%nat /\ literalP A (split e)) -> advisory_first seen l ->
  exists b' h, serve_all b l = Ok (b', h) /\ map fst h = l /\ rel A b' (fold_left record h v).
Proof.
  intros A. induction l as [|r l IH]; intros b v seen TA RL IN GS GU AD; [exists b, []; auto|].
  assert (ST : exists b1 rc, serve b r = Ok (b1, rc) /\ rel A b1 (record v (r, rc))).
  { destruct r as [c e id|c e|c]; cbn [serve].
    - destruct (GS c e id ltac:(left; reflexivity)) as [G1 G2]. apply subscribe_rel; auto. eapply advisory_none; eauto.
    - destruct (GU c e ltac:(left; reflexivity)) as [G1 G2]. apply unsubscribe_rel; auto. discriminate.
    - exists (leave b c), RT_OK. split; [reflexivity|]. apply leave_rel. exact RL. }
  destruct ST as (b1 & rc & ST & RL1). cbn [serve_all]. rewrite ST. cbn [obind].
  destruct (IH b1 (record v (r, rc)) (match r with Sub c _ id => (c, id) :: seen | _ => seen end) TA RL1) as (b' & h & E & MF & RL').
  - intros s H. eapply subs_seen; eauto.
  - intros c e id H. apply (GS c e id). right. exact H.
  - intros c e H. apply (GU c e). right. exact H.
  - destruct r; [destruct AD as [_ AD]; exact AD|exact AD|exact AD].
  - rewrite E. cbn [obind]. exists b', ((r, rc) :: h). split; [reflexivity|]. split; [cbn; rewrite MF; reflexivity|]. exact RL'.
Qed.
Definition among (l : list (list (list Z))) : names := fun a => In a l.
Lemma start_rel : forall A, tidyP A -> (forall n, In n builtin -> A (split n)) -> exists b, start = Ok b /\ relq true A b at_start.
Proof.
  intros A TA HB.
  assert (E : exists s h, run init (map (fun n => Add n 0 false) builtin) = Ok (s, map (fun n => (Add n 0 false, 0)) builtin) /\
    run init (Add (bs "_RTROUTED.INBOX.SUBSCRIBE") 0 false :: map (fun n => Add n 0 true) (tl builtin)) = Ok (s, h) /\ fold_left note h [] = map (fun n => (split n, 0)) builtin /\ accepted h = map split builtin).
  { eexists _, _. split; [vm_compute; reflexivity|]. split; [vm_compute; reflexivity|]. vm_compute. auto. }
  destruct E as (s & h & E1 & E2 & E3 & E4). exists (mkBroker s [mkEntry 0 None (bs "_RTROUTED.>")] 1). split; [unfold start; rewrite E1; reflexivity|].
  set (l := Add (bs "_RTROUTED.INBOX.SUBSCRIBE") 0 false :: map (fun n => Add n 0 true) (tl builtin)) in *.
  assert (CF : careful [] l) by (vm_compute; intuition congruence).
  assert (FF : Forall op_fits l) by (unfold l; repeat (constructor; [vm_compute; lia|]); constructor).
  assert (NR : forall n, ~ In (RemoveTopic n) l) by (intros n H; vm_compute in H; intuition discriminate).
  assert (AC : forall a, In a (accepted h) -> A a) by (intros a H; rewrite E4 in H; apply in_map_iff in H as (n & <- & H); auto).
  assert (V : inv2 s (fold_left note h [])).
  { apply (run_inv2 A l init [] [] s h TA inv_init); [|apply tree_blank|intros ? ? []|intros ? ? []|exact CF|exact FF|exact NR|exact E2|exact AC].
    intros u x NU H. unfold R2 in H. cbn [init root] in H. rewrite (blank_view routes2) in H. destruct u; [congruence|discriminate]. }
  destruct (run_tidy A l init [] [] s h TA inv_init (tree_blank _)) as (I & W & MA); [intros ? ? []|intros ? ? []|exact CF|exact FF|intros n H; destruct (NR n H)|exact E2|exact AC|].
  rewrite E3 in *. exists (map (fun n => (split n, 0)) builtin). split; [|split; [reflexivity|split; [reflexivity|intros _; exact V]]]. constructor; cbn [tree_of entries fresh]; auto.
  - apply nodup_one.
  - apply nodup_one.
  - intros r [<-|[]]. reflexivity.
  - intros u d H. apply in_map_iff in H as (n & Hn & _). injection Hn as _ <-. left. reflexivity.
Qed.
Lemma forward_shown : forall es m ds, (forall d, In d ds -> In d (map e_id es)) -> NoDup (map e_id es) -> forward_all es m ds = Ok (map (fun d => deliver_to m (own es d)) ds).
Proof.
  intros es m. induction ds as [|d ds IH]; intros K N; [reflexivity|]. cbn [forward_all map]. destruct (entry_of es d (K d ltac:(left; reflexivity))) as (r & Hr & <-).
  unfold forward, own at 1. rewrite (find_entry _ _ N Hr). destruct (e_owner r) as [(c, id)|]; cbn [obind]; rewrite IH by (auto; intros; apply K; right; assumption); reflexivity.
Qed.
Lemma owners_shown : forall es m v p, names_of v = shown es m -> owners v p = map (own es) (lookup m p).
Proof.
  intros es m v p H. unfold owners, lookup. rewrite H. unfold shown. clear. induction m as [|(u, d) m IH]; [reflexivity|]. cbn [map filter fst snd]. destruct (serves p u); cbn [map snd]; [f_equal; exact IH|exact IH].
Qed.
Lemma dispatch_rel : forall A b v m, tidyP A -> rel A b v -> fits (m_topic m) -> m_topic m <> [] -> ends_dot (m_topic m) = false -> askableP A (split (m_topic m)) ->
  (fits (m_reply m) /\ m_reply m <> [] /\ ends_dot (m_reply m) = false /\ askableP A (split (m_reply m)) \/ Z.testbit (m_flags m) 0 = false) -> dispatch b m = Ok (expected v m).
Proof.
  intros A b v m TA (g & C & NM & SB & _) F1 F2 F3 F4 FR. destruct C as [I W MA N O FS K]. unfold dispatch, expected.
  rewrite (get_lookup A _ _ _ TA I W MA F1 F2 F3 F4). cbn [obind]. rewrite (owners_shown _ _ _ _ NM).
  assert (KL : forall q d, In d (lookup g q) -> In d (map e_id (entries b))).
  { intros q d H. apply in_map_iff in H as ((u, d') & Hd & H). cbn in Hd. subst d'. apply filter_In in H as [H _]. eauto. }
  assert (MM : forall ds mm, map (deliver_to mm) (map (own (entries b)) ds) = map (fun d => deliver_to mm (own (entries b) d)) ds) by (intros; apply map_map).
  assert (FL : negb (Z.land (m_flags m) FLAG_REQUEST =? 0) = Z.testbit (m_flags m) 0).
  { unfold FLAG_REQUEST. change 1 with (Z.ones 1). rewrite Z.land_ones by lia. change (2 ^ 1) with 2. rewrite Z.bit0_odd, Zmod_odd. destruct (Z.odd (m_flags m)); reflexivity. }
  rewrite FL. destruct (lookup g (split (m_topic m))) as [|d ds] eqn:L.
  - cbn [map]. destruct (Z.testbit (m_flags m) 0) eqn:TB; [|reflexivity]. destruct FR as [(R1 & R2 & R3 & R4)|FR]; [|discriminate].
    rewrite (get_lookup A _ _ _ TA I W MA R1 R2 R3 R4). cbn [obind]. rewrite (forward_shown _ _ _ (KL _) N), (owners_shown _ _ _ _ NM), MM. reflexivity.
  - rewrite (forward_shown _ _ (d :: ds)); [|rewrite <- L; apply KL|exact N]. cbn [map]. rewrite MM. reflexivity.
Qed.
