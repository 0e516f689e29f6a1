(** Proofs about discovery. *)
From Coq Require Import String.
From Verif Require Import Common CommonFacts Errors RouteModel RouteSpec RouteProofs RouteInv RouteRun RouteLook RouterModel RouterSpec RouterProofs DiscModel DiscSpec.
From Coq Require Import Lia.
Local Open Scope string_scope.
Local Open Scope list_scope.
Local Open Scope Z_scope.

(** ** written paths *)
Definition dotless (t : list Z) : Prop := ~ In 46 t.
Lemma join_dotted : forall p, join p = dotted p.
Proof.
  induction p as [|t p IH]; [reflexivity|]. destruct p as [|u p]; [cbn; rewrite app_nil_r; reflexivity|].
  change (join (t :: u :: p)) with (t ++ 46 :: join (u :: p)). rewrite IH. reflexivity.
Qed.
Lemma cut_ne : forall s cur, cut s cur <> [].
Proof. induction s as [|c s IH]; intros cur; cbn [cut]; [discriminate|]. destruct (c =? 46); [discriminate|apply IH]. Qed.
Lemma cut_dotless : forall s cur t, dotless cur -> In t (cut s cur) -> dotless t.
Proof.
  induction s as [|c s IH]; intros cur t D H; cbn [cut] in H.
  - destruct H as [<-|[]]. exact D.
  - destruct (Z.eqb_spec c 46) as [->|NE].
    + destruct H as [<-|H]; [exact D|]. destruct s as [|d s]; [destruct H|]. eapply IH; [|exact H]. intros [].
    + eapply IH; [|exact H]. intros X. apply in_app_iff in X as [X|[X|[]]]; [auto|congruence].
Qed.
Lemma split_dotless : forall s t, In t (split s) -> dotless t.
Proof. intros [|c s] t H; [destruct H|]. eapply cut_dotless; [|exact H]. intros []. Qed.
Lemma cut_join : forall s cur, join (cut s cur) = cur ++ (if ends_dot s then removelast s else s).
Proof.
  induction s as [|c s IH]; intros cur; cbn [cut]; [cbn; rewrite app_nil_r; reflexivity|]. destruct (Z.eqb_spec c 46) as [->|NE].
  - destruct s as [|d s]; [cbn; rewrite app_nil_r; reflexivity|].
    assert (X : forall q, q <> [] -> join (cur :: q) = cur ++ 46 :: join q) by (intros [|u q] Q; [congruence|reflexivity]).
    rewrite X by apply cut_ne. rewrite IH. cbn [app]. replace (ends_dot (46 :: d :: s)) with (ends_dot (d :: s)) by reflexivity. destruct (ends_dot (d :: s)); reflexivity.
  - rewrite IH. destruct s as [|d s].
    + assert (E : ends_dot [c] = false) by (apply Z.eqb_neq; exact NE). rewrite E. cbn. rewrite app_nil_r. reflexivity.
    + replace (ends_dot (c :: d :: s)) with (ends_dot (d :: s)) by reflexivity. rewrite <- app_assoc. destruct (ends_dot (d :: s)); reflexivity.
Qed.
Lemma join_split : forall s, join (split s) = if ends_dot s then removelast s else s.
Proof. intros [|c s]; [reflexivity|]. unfold split. rewrite cut_join. reflexivity. Qed.
Lemma join_split_length : forall s, (length (join (split s)) <= length s)%nat.
Proof.
  intros s. rewrite join_split. destruct (ends_dot s); [|lia]. destruct s as [|c s]; [cbn; lia|]. rewrite (app_removelast_last 0 (l := c :: s)) at 2 by discriminate. rewrite app_length. cbn. lia.
Qed.
Lemma head_unique : forall (x y a b : list Z), dotless x -> dotless y -> x ++ 46 :: a = y ++ 46 :: b -> x = y /\ a = b.
Proof.
  induction x as [|c x IH]; intros [|d y] a b DX DY E; cbn in E.
  - injection E as ->. auto.
  - injection E as <- _. exfalso. apply DY. left. reflexivity.
  - injection E as -> _. exfalso. apply DX. left. reflexivity.
  - injection E as -> E. destruct (IH y a b) as [-> ->]; auto; intros X; [apply DX|apply DY]; right; exact X.
Qed.
Lemma join_inj : forall p q, (forall t, In t p -> dotless t) -> (forall t, In t q -> dotless t) -> p <> [] -> q <> [] -> join p = join q -> p = q.
Proof.
  induction p as [|x p IH]; intros q DP DQ NP NQ E; [congruence|]. destruct q as [|y q]; [congruence|].
  assert (NX : forall (x : list Z) u q, join (x :: u :: q) = x ++ 46 :: join (u :: q)) by reflexivity.
  pose proof (DP x (or_introl eq_refl)) as DX. pose proof (DQ y (or_introl eq_refl)) as DY.
  destruct p as [|u p], q as [|w q].
  - cbn in E. congruence.
  - exfalso. rewrite NX in E. cbn in E. apply DX. rewrite E. apply in_app_iff. right. left. reflexivity.
  - exfalso. rewrite NX in E. cbn in E. apply DY. rewrite <- E. apply in_app_iff. right. left. reflexivity.
  - rewrite !NX in E. destruct (head_unique _ _ _ _ DX DY E) as [-> E']. f_equal. apply IH; auto; try discriminate; intros t H; [apply DP|apply DQ]; right; exact H.
Qed.
Lemma cut_app : forall t r cur, dotless t -> cut (t ++ r) cur = cut r (cur ++ t).
Proof.
  induction t as [|c t IH]; intros r cur D; [cbn; rewrite app_nil_r; reflexivity|]. cbn [app cut].
  destruct (Z.eqb_spec c 46) as [->|NE]; [exfalso; apply D; left; reflexivity|]. rewrite IH by (intros X; apply D; right; exact X). rewrite <- app_assoc. reflexivity.
Qed.
Lemma cut_of_join : forall p, (forall t, In t p -> dotless t) -> p <> [] -> last p [] <> [] -> cut (join p) [] = p.
Proof.
  induction p as [|x p IH]; intros DP NP L; [congruence|]. pose proof (DP x (or_introl eq_refl)) as DX. destruct p as [|u p].
  - cbn [join]. rewrite <- (app_nil_r x) at 1. rewrite cut_app by exact DX. reflexivity.
  - change (join (x :: u :: p)) with (x ++ 46 :: join (u :: p)). rewrite cut_app by exact DX. cbn [app cut]. cbn [Z.eqb Pos.eqb].
    assert (NJ : join (u :: p) <> []).
    { destruct p as [|w p]; [exact L|]. change (join (u :: w :: p)) with (u ++ 46 :: join (w :: p)). destruct u; discriminate. }
    specialize (IH (fun t H => DP t (or_intror H)) ltac:(discriminate) L). destruct (join (u :: p)) as [|c s]; [congruence|]. rewrite IH. reflexivity.
Qed.
Lemma cut_last : forall s cur, double_dot s = false -> (forall r, s = 46 :: r -> cur <> []) -> (s = [] -> cur <> []) -> last (cut s cur) [] <> [].
Proof.
  induction s as [|c s IH]; intros cur DD ND NE; cbn [cut]; [cbn; auto|]. cbn [double_dot] in DD. apply orb_false_elim in DD as [D1 D2].
  destruct (Z.eqb_spec c 46) as [->|NC].
  - specialize (ND s eq_refl). destruct s as [|d s]; [exact ND|].
    assert (X : forall q, q <> [] -> last (cur :: q) [] = last q []) by (intros [|u q] Q; [congruence|reflexivity]). rewrite X by apply cut_ne.
    apply IH; [exact D2| |discriminate]. intros r E. injection E as -> _. cbn in D1. discriminate.
  - apply IH; [exact D2| |]; intros; destruct cur; discriminate.
Qed.
(** a registered name comes back *)
Lemma split_join : forall e, good_name e -> join (split e) <> [] -> split (join (split e)) = split e.
Proof.
  intros e [_ G] NJ. assert (NS : split e <> []) by (intros E; rewrite E in NJ; apply NJ; reflexivity).
  unfold split at 1. destruct (join (split e)) as [|c s] eqn:EJ; [congruence|]. rewrite <- EJ. apply cut_of_join; [intros t; apply split_dotless|exact NS|].
  destruct e as [|c0 e]; [cbn in NS; congruence|]. unfold split in *. cbn [cut] in *. destruct (Z.eqb_spec c0 46) as [->|NC].
  - destruct e as [|d e]; [cbn in EJ; discriminate|]. assert (X : forall q, q <> [] -> last ([] :: q) [] = last q (@nil Z)) by (intros [|u q] Q; [congruence|reflexivity]). rewrite X by apply cut_ne.
    cbn [double_dot] in G. apply orb_false_elim in G as [G1 G2]. apply cut_last; [exact G2| |discriminate]. intros r E. injection E as -> _. cbn in G1. discriminate.
  - cbn [double_dot] in G. apply orb_false_elim in G as [G1 G2]. apply cut_last; [exact G2| |]; intros; discriminate.
Qed.

(** ** names in a history are short *)
Definition brief (v : view) : Prop :=
  (forall u o, In (u, o) (names_of v) -> exists e, u = split e /\ (length e < 128)%nat /\ good_name e /\ u <> []) /\ (forall s e, In (s, e) (subs_of v) -> (length e < 128)%nat).
Lemma brief_start : brief at_start.
Proof.
  split; [|intros s e []]. intros u o H. unfold at_start in H. cbn [names_of] in H. apply in_map_iff in H as (n & E & H). injection E as <- _. exists n. split; [reflexivity|].
  repeat (destruct H as [<-|H]; [split; [vm_compute; lia|split; [split; [vm_compute; lia|vm_compute; reflexivity]|vm_compute; discriminate]]|]). destruct H.
Qed.
Lemma brief_filter : forall v f g, brief v -> brief (mkView (filter f (names_of v)) (filter g (subs_of v))).
Proof. intros v f g [B1 B2]. split; cbn; intros x y H; apply filter_In in H as [H _]; eauto. Qed.
Lemma brief_step : forall b b' r rc v, serve b r = Ok (b', rc) -> (forall c e id, r = Sub c e id -> good_name e) -> brief v -> brief (record v (r, rc)).
Proof.
  intros b b' r rc v E G B. destruct r as [c e id|c e|c]; cbn [record].
  - destruct rc; [|exact B|exact B]. cbn [serve] in E. unfold subscribe in E. destruct (printable e RTMSG_MAX_EXPRESSION_LEN) eqn:P; [|discriminate E]. apply printable_length in P. unfold RTMSG_MAX_EXPRESSION_LEN in P.
    destruct B as [B1 B2]. split; cbn [names_of subs_of].
    + intros u o H. destruct (split e) as [|t ts] eqn:S; [eauto|]. apply in_app_iff in H as [H|[H|[]]]; [eauto|]. injection H as <- _. exists e. split; [auto|]. split; [exact P|]. split; [apply (G c e id eq_refl)|discriminate].
    + intros s x H. destruct (existsb _ (subs_of v)); [eauto|]. apply in_app_iff in H as [H|[H|[]]]; [eauto|]. injection H as _ <-. exact P.
  - destruct rc; [|exact B|exact B]. destruct (find _ (subs_of v)); [apply brief_filter, B|]. destruct (split e) as [|t ts]; [destruct v; exact B|]. destruct B as [B1 B2]. split; cbn [names_of subs_of]; [|exact B2]. intros u o H. apply filter_In in H as [H _]. eauto.
  - apply brief_filter, B.
Qed.
Lemma brief_run : forall l b b' h v, serve_all b l = Ok (b', h) -> (forall c e id, In (Sub c e id) l -> good_name e) -> brief v -> brief (fold_left record h v).
Proof.
  induction l as [|r l IH]; intros b b' h v E G B; cbn [serve_all] in E; [injection E as _ <-; exact B|].
  destruct (serve b r) as [(b1, rc)| |] eqn:S; cbn [obind] in E; try discriminate. destruct (serve_all b1 l) as [(b2, h2)| |] eqn:R; cbn [obind] in E; try discriminate. injection E as _ <-. cbn [fold_left].
  eapply IH; [exact R|intros c e id H; apply (G c e id); right; exact H|]. eapply brief_step; [exact S| |exact B]. intros c e id ->. apply (G c e id). left. reflexivity.
Qed.
Lemma strndup_short : forall s, (length s < 128)%nat -> strndup s = s.
Proof. intros s H. unfold strndup, MAX_OBJECT_NAME_LENGTH. apply firstn_all2. lia. Qed.

(** ** who serves an element *)
Definition host (b : broker) : Prop := forall r, In r (entries b) -> e_owner r = None -> e_expr r = bs "_RTROUTED.>".
Lemma host_clear : forall rs b, host b -> host (fold_left clear_route rs b).
Proof. induction rs as [|r rs IH]; intros b H; [exact H|]. apply IH. intros x X O. cbn in X. apply filter_In in X as [X _]. auto. Qed.
Lemma host_step : forall b r b' rc, serve b r = Ok (b', rc) -> host b -> host b'.
Proof.
  intros b r b' rc E H. destruct r as [c e id|c e|c]; cbn [serve] in E.
  - unfold subscribe in E. destruct (negb _); [injection E as <- _; exact H|]. destruct (find _ (entries b)) as [x|].
    + destruct (add _ e _ _) as [(t, r)| |]; cbn [obind] in E; try discriminate. injection E as <- _. exact H.
    + destruct (add _ e _ _) as [(t, r)| |]; cbn [obind] in E; try discriminate. injection E as <- _. intros x X O. cbn [entries] in X. apply in_app_iff in X as [X|[<-|[]]]; [auto|discriminate O].
  - unfold unsubscribe in E. destruct (negb _); [injection E as <- _; exact H|]. destruct (find _ (entries b)) as [x|].
    + injection E as <- _. apply (host_clear [x]). exact H.
    + destruct (remove_topic _ e) as [t| |]; cbn [obind] in E; try discriminate. injection E as <- _. exact H.
  - injection E as <- _. apply host_clear, H.
Qed.
Lemma host_run : forall l b b' h, serve_all b l = Ok (b', h) -> host b -> host b'.
Proof.
  induction l as [|r l IH]; intros b b' h E H; cbn [serve_all] in E; [injection E as <- _; exact H|].
  destruct (serve b r) as [(b1, rc)| |] eqn:S; cbn [obind] in E; try discriminate. destruct (serve_all b1 l) as [(b2, h2)| |] eqn:R; cbn [obind] in E; try discriminate. injection E as <- _.
  eapply IH; [exact R|]. eapply host_step; eauto.
Qed.
Lemma host_start : forall b, start = Ok b -> host b.
Proof.
  intros b E. unfold start in E. destruct (run _ _) as [(s, h)| |]; cbn [obind] in E; try discriminate. injection E as <-. intros r [<-|[]] _. reflexivity.
Qed.
Lemma sub_find : forall es r o, NoDup (map e_owner es) -> In r es -> e_owner r = Some o -> find (fun x => owner_eqb (Some (fst x)) (Some o)) (subs es) = Some (o, e_expr r).
Proof.
  induction es as [|x es IH]; intros r o N H O; [destruct H|]. cbn in N. inversion N as [|? ? NI N']; subst. cbn [subs flat_map]. fold (subs es). destruct H as [->|H].
  - rewrite O. cbn [app find fst]. rewrite (proj2 (owner_eqb_eq _ _) eq_refl). reflexivity.
  - destruct (e_owner x) as [o'|] eqn:OX; cbn [app]; [|auto]. cbn [find fst]. destruct (owner_eqb (Some o') (Some o)) eqn:Q; [|auto]. apply owner_eqb_eq in Q. exfalso. apply NI. rewrite Q, <- O. apply in_map, H.
Qed.
Lemma component_of : forall A b v r, rel A b v -> host b -> In r (entries b) -> component v (e_owner r) = e_expr r.
Proof.
  intros A b v r (m & C & NM & SB & _) HB H. destruct (e_owner r) as [o|] eqn:O; cbn [component]; [|symmetry; auto]. rewrite SB, (sub_find _ r o (q_owners _ _ _ C) H O). reflexivity.
Qed.
Lemma exprs_shown : forall A b v ds, rel A b v -> host b -> (forall d, In d ds -> In d (map e_id (entries b))) -> exprs (entries b) ds = Ok (map (component v) (map (own (entries b)) ds)).
Proof.
  intros A b v ds RL HB. pose proof RL as (m & C & _). induction ds as [|d ds IH]; intros K; [reflexivity|]. cbn [exprs map]. destruct (entry_of (entries b) d (K d (or_introl eq_refl))) as (r & Hr & <-).
  unfold expr_of. rewrite (find_entry _ _ (q_ids _ _ _ C) Hr), (own_in _ _ (q_ids _ _ _ C) Hr), (component_of A b v r RL HB Hr). cbn [obind]. rewrite IH by (intros d H; apply K; right; exact H). reflexivity.
Qed.
Lemma element_known : forall A b v n, tidyP A -> rel A b v -> host b -> fits n -> n <> [] -> ends_dot n = false -> askableP A (split n) ->
  exists ds, get (tree_of b) n = Ok ds /\ exprs (entries b) ds = Ok (map (component v) (owners v (split n))).
Proof.
  intros A b v n TA RL HB F NE D Q. pose proof RL as (m & C & NM & _). pose proof C as [I W MA N O FR K]. exists (lookup m (split n)). split; [apply (get_lookup A); auto|].
  rewrite (owners_shown _ _ _ _ NM). apply (exprs_shown A); auto. intros d H. apply in_map_iff in H as ((u, d') & Hd & H). cbn in Hd. subst d'. apply filter_In in H as [H _]. eauto.
Qed.
Lemma element_loop_ok : forall A b v names counts items, tidyP A -> rel A b v -> host b -> (forall n, In n names -> fits n /\ n <> [] /\ ends_dot n = false /\ askableP A (split n)) ->
  element_loop b names counts items = Ok (mkAnswer (Some RT_OK) (counts ++ map (fun n => Z.of_nat (length (owners v (split n)))) names) (items ++ serving v names)).
Proof.
  intros A b v names. induction names as [|n names IH]; intros counts items TA RL HB G; cbn [element_loop]; [cbn; rewrite !app_nil_r; reflexivity|].
  destruct (G n (or_introl eq_refl)) as (G1 & G2 & G3 & G4). destruct (element_known A b v n TA RL HB G1 G2 G3 G4) as (ds & E1 & E2). rewrite E1. cbn [obind]. rewrite E2. cbn [obind].
  rewrite IH by (auto; intros k H; apply G; right; exact H). unfold serving. cbn [map flat_map]. rewrite map_length, <- !app_assoc. reflexivity.
Qed.

(** ** what the client reads *)
Lemma take_items_exact : forall k items acc, (forall x, In x items -> x <> [] /\ strndup x = x) -> acc = firstn (length acc) items ->
  take_items k items acc = if Nat.leb (length acc + k) (length items) then Some (firstn (length acc + k) items) else if Nat.eqb k 0 then Some acc else None.
Proof.
  induction k as [|k IH]; intros items acc NE PA; cbn [take_items].
  - rewrite Nat.add_0_r, <- PA. destruct (Nat.leb _ _); reflexivity.
  - destruct (nth_error items (length acc)) as [x|] eqn:E.
    + pose proof (nth_error_In _ _ E) as H. destruct (NE x H) as [N S]. assert (LT : (length acc < length items)%nat) by (apply nth_error_Some; congruence).
      assert (F : firstn (Datatypes.S (length acc)) items = acc ++ [x]).
      { rewrite PA at 2. clear - E. revert items E. induction (length acc) as [|j IH]; intros [|y items] E; cbn in *; try discriminate; [injection E as ->; reflexivity|]. f_equal. auto. }
      destruct x as [|c x]; [congruence|]. rewrite S, IH by (auto; rewrite app_length; cbn [length]; rewrite Nat.add_1_r, F; reflexivity).
      rewrite app_length. cbn [length]. replace (length acc + 1 + k)%nat with (length acc + Datatypes.S k)%nat by lia. cbn [Nat.eqb].
      destruct (Nat.leb (length acc + Datatypes.S k) (length items)) eqn:L; [reflexivity|]. apply Nat.leb_gt in L. destruct k as [|k]; [lia|reflexivity].
    + apply nth_error_None in E. rewrite (proj2 (Nat.leb_gt _ _)) by lia. reflexivity.
Qed.
Lemma take_all_exact : forall n k ks items acc r, (forall x, In x items -> x <> [] /\ strndup x = x) -> acc = firstn (length acc) items -> (length acc <= length items)%nat ->
  take_all n (mkAnswer r (Z.of_nat k :: ks) items) acc = if Nat.leb (length acc + n * k) (length items) then Some (firstn (length acc + n * k) items) else None.
Proof.
  induction n as [|n IH]; intros k ks items acc r NE PA LA; cbn [take_all a_counts a_items].
  - cbn [Nat.mul]. rewrite Nat.add_0_r, <- PA, (proj2 (Nat.leb_le _ _) LA). reflexivity.
  - rewrite Nat2Z.id, take_items_exact by auto. destruct (Nat.leb (length acc + k) (length items)) eqn:L1.
    + apply Nat.leb_le in L1. assert (LF : length (firstn (length acc + k) items) = (length acc + k)%nat) by (rewrite firstn_length; lia). rewrite IH; auto; rewrite ?LF; auto. cbn [Nat.mul]. rewrite Nat.add_assoc. reflexivity.
    + apply Nat.leb_gt in L1. destruct (Nat.eqb_spec k 0) as [->|NK]; [lia|]. cbn [Nat.mul]. rewrite (proj2 (Nat.leb_gt _ _)) by lia. reflexivity.
Qed.
Lemma component_short : forall v o, brief v -> strndup (component v o) = component v o.
Proof.
  intros v [s|] [_ B]; [|reflexivity]. cbn [component]. destruct (find _ (subs_of v)) as [(s', e)|] eqn:F; [|reflexivity]. apply find_some in F as [F _]. cbn. apply strndup_short. eapply B; exact F.
Qed.
Theorem names_thm : forall A b v names, tidyP A -> rel A b v -> host b -> brief v -> names <> [] -> (forall n, In n names -> fits n /\ n <> [] /\ ends_dot n = false /\ askableP A (split n)) ->
  (forall x, In x (serving v names) -> x <> []) ->
  let k := length (owners v (split (hd [] names))) in
  discover_component_name false b names = Ok (E_SUCCESS, if Nat.leb (length names * k) (length (serving v names)) then firstn (length names * k) (serving v names) else []).
Proof.
  intros A b v names TA RL HB BR NN G NE k. unfold discover_component_name, discover_elements_objects, element_objects. destruct names as [|n names]; [congruence|].
  rewrite (element_loop_ok A b v) by auto. cbn [obind app map a_result RT_OK]. rewrite take_all_exact.
  - cbn [length Nat.add hd] in *. subst k. destruct (Nat.leb _ _); reflexivity.
  - intros x H. split; [auto|]. unfold serving in H. apply in_flat_map in H as (y & _ & H). apply in_map_iff in H as (o & <- & _). apply component_short, BR.
  - reflexivity.
  - cbn. lia.
Qed.

(** ** a component's elements *)
Lemma find_sub : forall es n, (forall r, In r es -> e_owner r = None -> e_expr r = bs "_RTROUTED.>") -> n <> bs "_RTROUTED.>" ->
  match find (fun s => bytes_eqb n (snd s)) (subs es) with
  | Some (o, e) => e = n /\ exists r, find (fun r => bytes_eqb n (e_expr r)) es = Some r /\ e_owner r = Some o
  | None => find (fun r => bytes_eqb n (e_expr r)) es = None
  end.
Proof.
  induction es as [|x es IH]; intros n H NH; [reflexivity|]. cbn [subs flat_map find]. fold (subs es). specialize (IH n (fun r R => H r (or_intror R)) NH). destruct (e_owner x) as [o|] eqn:O.
  - cbn [app find snd]. destruct (bytes_eqb n (e_expr x)) eqn:E; [|exact IH]. split; [apply bytes_eqb_eq in E; congruence|]. exists x. auto.
  - cbn [app]. rewrite (H x (or_introl eq_refl) O). destruct (bytes_eqb n (bs "_RTROUTED.>")) eqn:E; [apply bytes_eqb_eq in E; congruence|exact IH].
Qed.
Lemma find_ext_in : forall {X} (f g : X -> bool) l, (forall x, In x l -> f x = g x) -> find f l = find g l.
Proof. induction l as [|x l IH]; intros H; [reflexivity|]. cbn. rewrite H by (left; reflexivity). rewrite IH by (intros y Y; apply H; right; exact Y). reflexivity. Qed.
Definition small (b : broker) : Prop := forall r, In r (entries b) -> (length (e_expr r) < 128)%nat.
Lemma small_of : forall A b v, rel A b v -> host b -> brief v -> small b.
Proof.
  intros A b v RL HB BR r H. pose proof (component_of _ _ _ _ RL HB H) as E. destruct (e_owner r) as [o|] eqn:O; [|rewrite (HB r H O); vm_compute; lia].
  destruct RL as (m & C & NM & SB & _). destruct BR as [_ B]. apply (B o). rewrite SB. unfold subs. apply in_flat_map. exists r. split; [exact H|]. rewrite O. left. reflexivity.
Qed.
Lemma trunc_eqb : forall n e, (length e < 128)%nat -> bytes_eqb (firstn 128 n) (firstn 128 e) = bytes_eqb n e.
Proof.
  intros n e L. rewrite (firstn_all2 e) by lia. destruct (Nat.le_gt_cases (length n) 128) as [LN|LN]; [rewrite firstn_all2 by exact LN; reflexivity|].
  apply bool_eq. rewrite !bytes_eqb_eq. split; intros E.
  - exfalso. assert (X : length (firstn 128 n) = length e) by (rewrite E; reflexivity). rewrite firstn_length_le in X by lia. lia.
  - subst e. lia.
Qed.
Lemma nodup_map_in : forall {X Y} (f : X -> Y) l, NoDup l -> (forall x y, In x l -> In y l -> f x = f y -> x = y) -> NoDup (map f l).
Proof.
  induction l as [|x l IH]; intros N H; [constructor|]. inversion N as [|? ? NI N']; subst. cbn. constructor; [|apply IH; auto; intros; apply H; auto; right; auto].
  intros X0. apply in_map_iff in X0 as (y & E & YI). apply NI. rewrite <- (H y x); auto; [right; exact YI|left; reflexivity].
Qed.
Lemma read_exact : forall r xs, (forall x, In x xs -> (length x < 128)%nat) -> read_items (mkAnswer r [Z.of_nat (length xs)] xs) = Ok xs.
Proof.
  intros r xs H. unfold read_items. cbn [a_counts a_items]. rewrite Z.eqb_refl. f_equal. rewrite <- (map_id xs) at 2. apply map_ext_in. intros x X. apply strndup_short; auto.
Qed.
Lemma topics_of : forall A b v r, rel A b v -> In r (entries b) -> let ps := match find_data (e_id r) (live (tree_of b)) with Some t => ttopics t | None => [] end in
  NoDup ps /\ forall u, In u ps <-> In (u, e_owner r) (names_of v).
Proof.
  intros A b v r (m & C & NM & SB & _) H ps. pose proof (q_inv _ _ _ C) as I. pose proof (q_ids _ _ _ C) as N.
  assert (IN : forall u, In (u, e_owner r) (names_of v) <-> In (u, e_id r) m).
  { intros u. rewrite NM. unfold shown. rewrite in_map_iff. split.
    - intros ((u', d) & E & M). cbn [fst snd] in E. injection E as -> E. destruct (entry_of _ d (q_known _ _ _ C _ _ M)) as (r' & H' & <-). rewrite (own_in _ _ N H') in E.
      rewrite <- (owner_inj _ _ _ (q_owners _ _ _ C) H' H E). exact M.
    - intros M. exists (u, e_id r). cbn [fst snd]. rewrite (own_in _ _ N H). auto. }
  subst ps. destruct (find_data (e_id r) (live (tree_of b))) as [t|] eqn:F.
  - apply find_data_some in F as [F E]. destruct (v_topics _ _ I t F) as [N1 N2]. split; [exact N1|]. intros u. rewrite N2, E, IN. reflexivity.
  - split; [constructor|]. intros u. rewrite IN. split; [intros []|]. intros M. exfalso. destruct (v_owner _ _ I _ _ M) as (t & T1 & T2). eapply find_data_none; eauto.
Qed.
Lemma written_nodup : forall v o ps, brief v -> NoDup ps -> (forall u, In u ps -> In (u, o) (names_of v)) -> NoDup (map join ps).
Proof.
  intros v o ps [B _] N H. apply nodup_map_in; [exact N|]. intros x y X Y E. destruct (B _ _ (H x X)) as (ex & -> & _ & _ & NX). destruct (B _ _ (H y Y)) as (ey & -> & _ & _ & NY).
  apply join_inj; auto; intros t; apply split_dotless.
Qed.
Lemma written_short : forall v u o, brief v -> In (u, o) (names_of v) -> (length (join u) < 128)%nat.
Proof. intros v u o [B _] H. destruct (B _ _ H) as (e & -> & L & _). pose proof (join_split_length e). lia. Qed.
Theorem elements_thm : forall A b v n, rel A b v -> host b -> brief v -> n <> bs "_RTROUTED.>" ->
  exists xs, discover_component_elements false b n = Ok (E_SUCCESS, xs) /\ NoDup xs /\
    match find (fun s => bytes_eqb n (snd s)) (subs_of v) with
    | Some (o, _) => forall x, In x xs <-> exists u, In (u, Some o) (names_of v) /\ x = dotted u
    | None => xs = []
    end.
Proof.
  intros A b v n RL HB BR NH. pose proof RL as (m & C & NM & SB & _). unfold discover_component_elements, object_elements.
  rewrite (find_ext_in _ (fun r => bytes_eqb n (e_expr r))) by (intros r H; apply trunc_eqb; eapply small_of; eauto).
  pose proof (find_sub (entries b) n HB NH) as FS. rewrite SB. destruct (find _ (subs (entries b))) as [(o, e)|].
  - destruct FS as (-> & r & FR & O). rewrite FR. apply find_some in FR as [HR _]. destruct (topics_of A b v r RL HR) as [N1 N2]. rewrite O in N2.
    set (ps := match find_data (e_id r) (live (tree_of b)) with Some t => ttopics t | None => [] end) in *. clearbody ps.
    exists (map join ps). rewrite <- (map_length join ps), read_exact.
    + cbn [obind]. split; [reflexivity|]. split; [apply (written_nodup v (Some o)); auto; intros u H; apply N2, H|]. intros x. rewrite in_map_iff. split.
      * intros (u & <- & H). exists u. rewrite join_dotted. split; [apply N2, H|reflexivity].
      * intros (u & H & ->). exists u. rewrite join_dotted. split; [reflexivity|apply N2, H].
    + intros x H. apply in_map_iff in H as (u & <- & H). eapply written_short; [exact BR|apply N2, H].
  - rewrite FS. exists []. split; [reflexivity|]. split; [constructor|reflexivity].
Qed.

(** ** the components *)
Theorem components_thm : forall A b v, rel A b v -> host b -> brief v ->
  exists xs, discover_registered false b = Ok (RBUSCORE_SUCCESS, xs) /\ xs = filter listed (map snd (subs_of v)).
Proof.
  intros A b v RL HB BR. pose proof (small_of _ _ _ RL HB BR) as SM. pose proof RL as (m & C & NM & SB & _). unfold discover_registered, registered_components.
  assert (E : filter listed (map e_expr (entries b)) = filter listed (map snd (subs (entries b)))).
  { unfold host in HB. clear - HB. induction (entries b) as [|r es IH]; [reflexivity|]. specialize (IH (fun x H => HB x (or_intror H))). cbn [map filter subs flat_map]. fold (subs es). destruct (e_owner r) as [o|] eqn:O.
    - cbn [app map snd filter]. rewrite IH. reflexivity.
    - rewrite (HB r (or_introl eq_refl) O). cbn [app]. exact IH. }
  exists (filter listed (map e_expr (entries b))). rewrite read_exact.
  - split; [reflexivity|]. rewrite SB. exact E.
  - intros x H. apply filter_In in H as [H _]. apply in_map_iff in H as (r & <- & H). auto.
Qed.

(** ** wildcards *)
Lemma resolve_below : forall A s m q, tidyP A -> inv s m -> inv2 s m -> tree A (root s) -> (forall u d, In (u, d) m -> A u) -> fits q -> q <> [] ->
  askableP A (split q) -> exists ps, resolve s q = Ok ps /\ Forall2 (fun p d => In (p, d) m) ps (lookup_below m (split q)).
Proof.
  intros A s m q TA I V [S T1 T2] MA F NQ Q. unfold resolve. rewrite fits_tokenize by exact F. cbn [obind].
  assert (NS : split q <> []) by (destruct q; [congruence|apply cut_ne]).
  destruct (split q) as [|t0 ts] eqn:TS; [congruence|]. rewrite <- TS in *. clear t0 ts TS.
  unfold lookup_below. destruct (walk (split q) (root s)) as [t|] eqn:W.
  - destruct (walk_covers _ _ _ _ S Q W) as (u & SU & CU).
    assert (NU : u <> []) by (intros ->; destruct (split q); [congruence|discriminate]).
    destruct (S u NU ltac:(congruence)) as (b & Ab & Bb).
    assert (EQ : filter (fun x => inside (split q) (fst x)) m = filter (fun y => strict u (fst y)) m).
    { apply filter_ext_in. intros (a, d) H. cbn [fst]. apply bool_eq. rewrite inside_spec. unfold strict. split.
      - intros (u' & r & -> & NR & C). assert (u' = u) by (apply (covers_unique (split q) (u' ++ r) b); auto; [apply TA; eauto|apply below_spec; eauto]). subst u'.
        apply andb_true_intro. split; [apply below_spec; eauto|]. apply negb_true_iff, path_eqb_neq. intros E. rewrite <- (app_nil_r u) in E at 1. apply app_inv_head in E. congruence.
      - intros X. apply andb_prop in X as [X1 X2]. apply below_spec in X1 as (r & ->). exists u, r. split; [reflexivity|]. split; [|exact CU]. intros ->. rewrite app_nil_r, path_eqb_refl in X2. discriminate. }
    rewrite EQ. assert (VV : map (dat (live s)) (olist (routes2 t)) = map Some (distinct (map snd (filter (fun y => strict u (fst y)) m)))) by (apply (V u (routes2 t) NU); unfold R2; rewrite SU; reflexivity).
    assert (HD : forall d, In d (distinct (map snd (filter (fun y => strict u (fst y)) m))) -> exists w, In (w, d) m).
    { intros d H. apply (proj1 (distinct_in _ _)) in H. apply in_map_iff in H as ((w, d') & E & H). cbn in E. subst d'. apply filter_In in H as [H _]. eauto. }
    revert HD VV. generalize (distinct (map snd (filter (fun y => strict u (fst y)) m))). clear - I. induction (olist (routes2 t)) as [|i ids IH]; intros ds HD VV.
    + destruct ds; [|discriminate]. exists []. split; [reflexivity|constructor].
    + destruct ds as [|d ds]; [discriminate|]. cbn [map] in VV. injection VV as V1 V2. destruct (IH ds (fun x H => HD x (or_intror H)) V2) as (ps & E & F2).
      apply dat_some in V1 as (r & R1 & <- & <-). cbn [first_topics]. rewrite (find_id_in _ _ (v_ids _ _ I) R1). destruct (v_topics _ _ I r R1) as [_ TT].
      destruct (HD (tdata r) (or_introl eq_refl)) as (w & HW). apply TT in HW. destruct r as [i d tt]. cbn [ttopics tdata] in *. destruct tt as [|p tt]; [destruct HW|]. rewrite E. cbn [obind].
      exists (p :: ps). split; [reflexivity|]. constructor; [apply TT; left; reflexivity|exact F2].
  - exists []. split; [reflexivity|]. rewrite filter_nil; [constructor|]. intros (a, d) H. cbn [fst]. destruct (inside (split q) a) eqn:C; [|reflexivity]. exfalso. apply inside_spec in C as (u & r & -> & NR & C).
    pose proof (reg_node _ _ _ _ I H) as SA. assert (SU : sub (root s) u <> None) by (rewrite sub_app in SA; destruct (sub (root s) u); [discriminate|congruence]).
    rewrite (walk_finds _ A (root s) _ S TA Q SU C) in W. congruence.
Qed.
Theorem wildcard_thm : forall A b v q, tidyP A -> relq true A b v -> host b -> brief v -> printable q RTMSG_MAX_EXPRESSION_LEN = true -> (dots q <= 31)%nat -> q <> [] -> askableP A (split q) ->
  exists xs os, discover_wildcard false b q = Ok (RBUSCORE_SUCCESS, xs) /\ NoDup os /\ (forall o, In o os <-> exists u, In (u, o) (names_of v) /\ inside (split q) u = true) /\
    Forall2 (fun x o => exists u, In (u, o) (names_of v) /\ x = dotted u) xs os.
Proof.
  intros A b v q TA RL HB BR P DQ NQ Q. pose proof (rel_weak _ _ _ _ RL) as RW. pose proof RL as (m & C & NM & SB & V). specialize (V eq_refl). pose proof C as [I W MA N O FR K].
  pose proof (printable_length _ _ P) as LP. unfold RTMSG_MAX_EXPRESSION_LEN in LP.
  destruct (resolve_below A (tree_of b) m q TA I V W MA) as (ps & E & F2); [split; lia|exact NQ|exact Q|].
  unfold discover_wildcard, wildcard_destinations. rewrite P, E. cbn [obind a_result RT_OK].
  set (es := entries b) in *. assert (INJ : forall d d', In d (map e_id es) -> In d' (map e_id es) -> own es d = own es d' -> d = d').
  { intros d d' H H' X. destruct (entry_of _ _ H) as (r & Hr & <-). destruct (entry_of _ _ H') as (r' & Hr' & <-). rewrite !own_in in X by auto. f_equal. apply (owner_inj es); auto. }
  assert (KN : forall d, In d (lookup_below m (split q)) -> exists u, In (u, d) m /\ inside (split q) u = true).
  { intros d H. unfold lookup_below in H. apply (proj1 (distinct_in _ _)) in H. apply in_map_iff in H as ((u, d') & X & H). cbn in X. subst d'. apply filter_In in H as [H1 H2]. eauto. }
  assert (IN : forall u d, In (u, d) m -> In (u, own es d) (names_of v)).
  { intros u d H. rewrite NM. unfold shown. apply in_map_iff. exists (u, d). auto. }
  exists (map join ps), (map (own es) (lookup_below m (split q))). rewrite <- (map_length join ps), read_exact.
  - cbn [obind]. split; [reflexivity|]. split; [|split].
    + apply nodup_map_in; [apply distinct_nodup|]. intros d d' H H' X. apply INJ; auto; [destruct (KN d H) as (u & U & _)|destruct (KN d' H') as (u & U & _)]; eauto.
    + intros o. rewrite in_map_iff. split.
      * intros (d & <- & H). destruct (KN d H) as (u & U & IU). exists u. auto.
      * intros (u & H & IU). rewrite NM in H. unfold shown in H. apply in_map_iff in H as ((u', d) & X & H). cbn in X. injection X as -> <-. exists d. split; [reflexivity|].
        unfold lookup_below. apply distinct_in. apply in_map_iff. exists (u, d). split; [reflexivity|]. apply filter_In. auto.
    + clear - F2 IN. induction F2 as [|p d ps ds H F2 IH]; [constructor|]. cbn [map]. constructor; [|exact IH]. exists p. rewrite join_dotted. auto.
  - intros x H. apply in_map_iff in H as (p & <- & H). assert (X : exists d, In (p, d) m).
    { clear - F2 H. induction F2 as [|p' d ps ds H1 F2 IH]; [destruct H|]. destruct H as [->|H]; eauto. }
    destruct X as (d & X). eapply written_short; [exact BR|apply IN, X].
Qed.

(** ** histories *)
Lemma serve_relq : forall A l b v seen b' h, tidyP A -> relq true A b v -> (forall s, In s (subs_of v) -> In (fst s) seen) -> (forall c e id, In (Sub c e id) l -> A (split e) /\ good_name e) ->
  (forall c e, In (Unsub c e) l -> (dots e <= 31)%nat /\ literalP A (split e)) -> advisory_first seen l -> serve_all b l = Ok (b', h) -> whole v h -> relq true A b' (fold_left record h v).
Proof.
  intros A. induction l as [|r l IH]; intros b v seen b' h TA RL IN GS GU AD E WH; cbn [serve_all] in E; [injection E as <- <-; exact RL|].
  destruct (serve b r) as [(b1, rc)| |] eqn:SV; cbn [obind] in E; try discriminate. destruct (serve_all b1 l) as [(b2, h2)| |] eqn:R; cbn [obind] in E; try discriminate. injection E as <- <-. cbn [fold_left].
  cbn [whole] in WH. destruct WH as [W1 W2].
  assert (RL1 : relq true A b1 (record v (r, rc))).
  { destruct r as [c e id|c e|c]; cbn [serve] in SV.
    - destruct (GS c e id ltac:(left; reflexivity)) as [G1 G2]. destruct (subscribe_rel true A b v c e id TA RL G1 G2) as (b3 & rc3 & E3 & RL3); [eapply advisory_none; eauto|]. rewrite E3 in SV. injection SV as <- <-. exact RL3.
    - destruct (GU c e ltac:(left; reflexivity)) as [G1 G2]. destruct (unsubscribe_rel true A b v c e TA RL G1 G2) as (b3 & rc3 & E3 & RL3).
      + intros _ X. destruct W1 as (id & W1). pose proof (find_none _ _ X _ W1) as Y. cbn in Y. rewrite bytes_eqb_refl, Z.eqb_refl in Y. discriminate.
      + rewrite E3 in SV. injection SV as <- <-. exact RL3.
    - injection SV as <- <-. apply leave_rel. exact RL. }
  eapply (IH b1 (record v (r, rc)) (match r with Sub c _ id => (c, id) :: seen | _ => seen end)); eauto.
  - intros s H. eapply subs_seen; eauto.
  - intros c e id H. apply (GS c e id). right. exact H.
  - intros c e H. apply (GU c e). right. exact H.
  - destruct r; [destruct AD as [_ AD]; exact AD|exact AD|exact AD].
Qed.
