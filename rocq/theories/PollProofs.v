From Coq Require Import String QArith.
From Verif Require Import Common CommonFacts Value CompareModel CompareSpec CompareProofs TokenModel SubsModel Errors SubsSpec SubsTree SubsProofs SubsFacts PollSpec.
From Coq Require Import List Permutation Lia ZifyBool.
Import ListNotations.
Local Open Scope list_scope.
Local Open Scope Z_scope.

(** ** the watch list *)
Lemma watch_eff s n s' : watch s n = Ok s' -> core_eq s s' /\ timers s' = timers s /\ (NoDup (watched s) -> NoDup (watched s')) /\ (forall m, In m (watched s') <-> In m (watched s) \/ m = n).
Proof.
  unfold watch. destruct (find_top n (tops s)) as [[u t]|]; [|discriminate]. destruct (negb (i_getter (el_info t))); [discriminate|].
  intros H. injection H as <-. split; [repeat split|]. split; [reflexivity|]. cbn [watched]. destruct (existsb (Nat.eqb n) (watched s)) eqn:E.
  - split; [auto|]. intros m. split; [auto|]. intros [I| ->]; [exact I|]. apply mem_in. exact E.
  - split.
    + intros N. apply nodup_app_intro; [exact N|constructor; [intros []|constructor]|]. intros m I [<-|[]]. apply mem_in in I. unfold mem in I. congruence.
    + intros m. rewrite in_app_iff. cbn. intuition auto.
Qed.
Lemma unwatch_eff s n : core_eq s (unwatch s n) /\ timers (unwatch s n) = timers s /\ (NoDup (watched s) -> NoDup (watched (unwatch s n))) /\ (forall m, In m (watched (unwatch s n)) <-> In m (watched s) /\ m <> n).
Proof.
  split; [repeat split|]. split; [reflexivity|]. cbn [watched unwatch]. split; [apply NoDup_filter|].
  intros m. rewrite filter_In. destruct (Nat.eqb_spec m n); cbn; intuition congruence.
Qed.
Lemma auto_core s s' n b : core_eq s s' -> auto_linked s' n b = auto_linked s n b.
Proof. intros (_ & _ & _ & E & _). unfold auto_linked. now rewrite E. Qed.
Lemma setup_add x : k_interval (s_key x) = 0 -> forall insts s s', publish_setup s true x insts = Ok s' ->
  timers s' = timers s /\ (NoDup (watched s) -> NoDup (watched s')) /\ (forall m, In m (watched s') <-> In m (watched s) \/ In m insts /\ auto_linked s m (Some (s_no x)) = false).
Proof.
  intros K0. induction insts as [|n insts IH]; intros s s' H; cbn [publish_setup] in H.
  { injection H as <-. split; [reflexivity|]. split; [auto|]. intros m. cbn. tauto. }
  rewrite K0 in H. cbn [Z.eqb negb] in H. destruct (auto_linked s n (Some (s_no x))) eqn:A.
  - apply IH in H as (H1 & H2 & H3). split; [exact H1|]. split; [exact H2|]. intros m. rewrite H3. cbn [In]. split; [tauto|]. intros [I|[[<-|I] B]]; [tauto|congruence|tauto].
  - destruct (watch s n) as [s1|[]|] eqn:Q; cbn in H; try discriminate H. apply watch_eff in Q as (C & T & N & W). apply IH in H as (H1 & H2 & H3).
    split; [congruence|]. split; [auto|]. intros m. rewrite H3, W, (auto_core _ _ _ _ C). cbn [In]. split; [|intuition auto].
    intros [[I| ->]|[I B]]; auto.
Qed.
Lemma setup_sub x : k_interval (s_key x) = 0 -> forall insts s s', publish_setup s false x insts = Ok s' ->
  timers s' = timers s /\ (NoDup (watched s) -> NoDup (watched s')) /\ (forall m, In m (watched s') <-> In m (watched s) /\ ~ (In m insts /\ auto_linked s m (Some (s_no x)) = false)).
Proof.
  intros K0. induction insts as [|n insts IH]; intros s s' H; cbn [publish_setup] in H.
  { injection H as <-. split; [reflexivity|]. split; [auto|]. intros m. cbn. tauto. }
  rewrite K0 in H. cbn [Z.eqb negb] in H. destruct (auto_linked s n (Some (s_no x))) eqn:A.
  - apply IH in H as (H1 & H2 & H3). split; [exact H1|]. split; [exact H2|]. intros m. rewrite H3. cbn [In]. split; [|tauto]. intros [I B]. split; [exact I|]. intros [[<-|J] C]; [congruence|tauto].
  - destruct (unwatch_eff s n) as (C & T & N & W). apply IH in H as (H1 & H2 & H3).
    split; [congruence|]. split; [auto|]. intros m. rewrite H3, W, (auto_core _ _ _ _ C). cbn [In]. split.
    + intros [[I J] B]. split; [exact I|]. intros [[<-|K] D]; [congruence|tauto].
    + intros [I B]. split; [split; [exact I|]|tauto]. intros ->. apply B. auto.
Qed.
Lemma start_eff s n x : core_eq s (start_timer s n x) /\ watched (start_timer s n x) = watched s.
Proof. unfold start_timer. destruct (find_top n (tops s)) as [[u t]|]; [|repeat split]. destruct (_ && _); repeat split. Qed.
(** with an interval: the watch list is left alone *)
Lemma setup_interval x b insts s s' : k_interval (s_key x) <> 0 -> publish_setup s b x insts = Ok s' ->
  watched s' = watched s /\ match insts with [] => s' = s | n :: _ => s' = if b then start_timer s n (s_no x) else stop_timer s (s_no x) end.
Proof.
  intros K H. destruct insts as [|n insts]; cbn [publish_setup] in H; [injection H as <-; auto|]. apply Z.eqb_neq in K. rewrite K in H. cbn [negb] in H. injection H as <-.
  split; [|reflexivity]. destruct b; [apply start_eff|reflexivity].
Qed.

(** ** the handlers *)
Definition drives (t : el) (x : sub) : bool := (ntype (el_node t) =? PROPERTY) && on_change x.
Definition ticks (t : el) (x : sub) : bool := (ntype (el_node t) =? PROPERTY) && s_auto x && negb (k_interval (s_key x) =? 0).
Lemma handle_add_poll ans s e k s' r : handle ans s true e k = Ok (s', r) ->
  exists up t, find_top e (tops s) = Some (up, t) /\
  ((core_eq s s' /\ watched s' = watched s /\ timers s' = timers s /\ r <> E_SUCCESS) \/
   exists x, added_sub s e k t up x s' /\ (on_change x = true -> k_raw k = false) /\
     (if drives t x then timers s' = timers s /\ (NoDup (watched s) -> NoDup (watched s')) /\ (forall m, In m (watched s') <-> In m (watched s) \/ In m (s_insts x) /\ auto_linked s' m (Some (s_no x)) = false)
      else watched s' = watched s /\ (timers s' = timers s \/ ticks t x = true /\ k_raw k = false /\ exists n l, s_insts x = n :: l /\ timers s' = timers s ++ [(n, s_no x)])) /\
     (ticks t x = true -> k_raw k = false -> forall n l u c, s_insts x = n :: l -> find_top n (tops s) = Some (u, c) -> i_getter (el_info c) = true -> existsb (fun y => Nat.eqb (snd y) (s_no x)) (timers s') = true)).
Proof.
  intros HA. pose proof HA as HB. apply handle_add in HB as (up0 & t0 & s10 & early0 & F0 & _ & _ & HC).
  unfold handle in HA. destruct (find_top e (tops s)) as [[up t]|] eqn:F; [|discriminate]. exists up, t. injection F0 as <- <-. split; [reflexivity|].
  set (i := el_info t) in *. cbn [andb] in HA.
  destruct (ask ans s true i k) as [[s1 auto] early] eqn:EX. pose proof (ask_called _ _ _ _ _ _ _ _ EX) as (C & (CW & CT) & _ & _).
  assert (RAW : early = None -> auto && (k_interval k =? 0) = true -> k_raw k = false).
  { intros -> A. unfold ask in EX. destruct (i_handler i).
    - destruct (ans (length (log s))) as [err o]. injection EX as _ E1 E2. rewrite <- E1 in A. apply andb_prop in A as [A _]. rewrite A, andb_true_r in E2. destruct (k_raw k); [discriminate E2|reflexivity].
    - injection EX as _ E1. rewrite <- E1 in A. destruct (k_interval k =? 0); cbn in A; [|discriminate A]. destruct (k_raw k); [discriminate A|reflexivity]. }
  destruct early as [err|].
  { injection HA as <- <-. left. split; [exact C|]. split; [exact CW|]. split; [exact CT|]. destruct HC as [(_ & _ & N & _)|(_ & x & AD & _)]; [exact N|].
    destruct AD as (_ & _ & _ & _ & _ & _ & _ & _ & X & _). destruct C as (_ & _ & C & _). rewrite C in X. exfalso. apply (f_equal (@length sub)) in X. rewrite app_length in X. cbn in X. lia. }
  specialize (RAW eq_refl). clear EX HC.
  destruct (negb (k_interval k =? 0) && ends_dot (k_event k)) eqn:B; cbn in HA; rewrite B in HA || idtac.
  { injection HA as <- <-. left. split; [exact C|]. split; [exact CW|]. split; [exact CT|discriminate]. }
  assert (subs s1 = subs s) as CS by now destruct C as (_ & _ & C3 & _).
  destruct (get_sub (subs s1) k) as [f|[]|] eqn:G; cbn in HA; try discriminate HA.
  destruct f as [f|]. { injection HA as <- <-. left. split; [exact C|]. split; [exact CW|]. split; [exact CT|discriminate]. }
  unfold add_sub in HA. destruct (create (k_event k) (i_node i :: up)) as [c|[]|] eqn:CR; cbn in HA; try discriminate HA.
  2:{ injection HA as <- <-. left. split; [exact C|]. split; [exact CW|]. split; [exact CT|discriminate]. }
  destruct (matching c (all_nodes s1)) as [insts|[]|] eqn:M; cbn in HA; try discriminate HA. right.
  set (x := mkSub (next_sub s1) k auto (Some e) (Some c) insts (next_id s1)) in *.
  set (s2 := mkState (tops s1) (next_el s1) (subs s1 ++ [x]) (links s1 ++ map (link_to x) insts) (Datatypes.S (next_sub s1)) ((next_id s1 + 1) mod 4294967296) (watched s1) (timers s1) (log s1) (subs s1 ++ [x])) in *.
  assert (forall s3, core_eq s2 s3 -> added_sub s e k t up x s3) as AD.
  { intros s3 (D1 & D2 & D3 & D4 & D5 & D6 & D7). destruct C as (C1 & C2 & C3 & C4 & C5 & C6 & C7). unfold added_sub.
    unfold all_nodes in *. rewrite D1, D2, D3, D4, D5, D6, D7. subst s2 x. cbn. rewrite C1, C2, C3, C4, C5, C6 in *.
    split; [exact G|]. split; [exists c; split; [exact CR|split; [exact M|reflexivity]]|]. repeat split. }
  exists x. unfold drives, ticks, on_change. unfold el_node at 1 2 3. fold i. cbn [s_auto s_key x].
  destruct (k_raw k && negb (ntype (i_node i) =? EVENT)) eqn:R.
  { injection HA as <- <-. split; [apply AD, core_refl|]. apply andb_prop in R as [R _]. split; [exact RAW|]. split; [|intros _ R0; congruence].
    destruct (auto && (k_interval k =? 0)) eqn:AU; [rewrite RAW in R by reflexivity; discriminate R|]. rewrite andb_false_r. cbn. auto. }
  match type of HA with obind ?X _ = _ => destruct X as [s3|[]|] eqn:P; cbn in HA; try discriminate HA end. injection HA as <- <-.
  assert (core_eq s2 s3) as K1. { destruct ((ntype (i_node i) =? PROPERTY) && auto); [now apply setup_core in P|injection P as <-; apply core_refl]. }
  split; [now apply AD|]. split; [exact RAW|].
  assert (KR : ntype (i_node i) =? PROPERTY = true -> k_raw k = false).
  { intros E. apply Z.eqb_eq in E. rewrite E in R. destruct (k_raw k); [discriminate R|reflexivity]. }
  destruct (ntype (i_node i) =? PROPERTY) eqn:TY; cbn [andb] in *; [|injection P as <-; cbn; split; [auto|discriminate]].
  destruct auto; cbn [andb] in *; [|injection P as <-; cbn; split; [auto|discriminate]].
  destruct (k_interval k =? 0) eqn:KI; cbn [negb] in *.
  - split; [|discriminate]. apply (setup_add x) in P as (P1 & P2 & P3); [|now apply Z.eqb_eq]. split; [rewrite P1; exact CT|]. split; [intros N; apply P2; cbn; now rewrite CW|].
    intros m. rewrite P3, (auto_core _ _ _ _ K1). cbn [watched s2]. rewrite CW. reflexivity.
  - apply (setup_interval x) in P as [P1 P2]; [|cbn; now apply Z.eqb_neq]. split.
    + split; [rewrite P1; exact CW|]. cbn [s_insts x] in *. destruct insts as [|n l]; [left; rewrite P2; exact CT|].
      unfold start_timer in P2. destruct (find_top n (tops s2)) as [[u c0]|]; [|left; rewrite P2; exact CT]. match type of P2 with _ = if ?c then _ else _ => destruct c end; [|left; rewrite P2; exact CT].
      right. split; [reflexivity|]. split; [now apply KR|]. exists n, l. split; [reflexivity|]. rewrite P2. cbn. rewrite CT. reflexivity.
    + intros _ _ n l u c0 EI FN GT. cbn [s_insts x] in EI. rewrite EI in P2. unfold start_timer in P2. cbn [tops s2] in P2. destruct C as (C1 & _). rewrite C1, FN, GT in P2. cbn [andb] in P2. rewrite P2.
      cbn [s_no x timers s2]. destruct (existsb (fun y => Nat.eqb (snd y) (next_sub s1)) (timers s1)) eqn:EX; cbn [negb]; [cbn; exact EX|]. cbn. rewrite existsb_app. cbn. rewrite Nat.eqb_refl. apply orb_true_r.
Qed.
Lemma handle_del_poll ans s e k s' r : handle ans s false e k = Ok (s', r) ->
  exists up t, find_top e (tops s) = Some (up, t) /\
  ((core_eq s s' /\ watched s' = watched s /\ timers s' = timers s) \/
   exists x, removed_sub s k x s' /\
     (if drives t x then timers s' = timers s /\ (NoDup (watched s) -> NoDup (watched s')) /\ (forall m, In m (watched s') <-> In m (watched s) /\ ~ (In m (s_insts x) /\ auto_linked s m (Some (s_no x)) = false))
      else watched s' = watched s /\ timers s' = if ticks t x && negb (match s_insts x with [] => true | _ => false end) then List.filter (fun y => negb (Nat.eqb (snd y) (s_no x))) (timers s) else timers s)).
Proof.
  intros HA.
  unfold handle in HA. destruct (find_top e (tops s)) as [[up t]|] eqn:F; [|discriminate]. exists up, t. split; [reflexivity|].
  set (i := el_info t) in *. cbn [andb] in HA.
  destruct (ask ans s false i k) as [[s1 auto] early] eqn:EX. pose proof (ask_called _ _ _ _ _ _ _ _ EX) as (C & (CW & CT) & _ & _). clear EX.
  destruct early as [err|].
  { injection HA as <- <-. left. split; [exact C|]. split; [exact CW|exact CT]. }
  assert (subs s1 = subs s) as CS by now destruct C as (_ & _ & C3 & _).
  destruct (get_sub (subs s1) k) as [f|[]|] eqn:G; cbn in HA; try discriminate HA.
  destruct f as [x|]. 2:{ injection HA as <- <-. left. split; [exact C|]. split; [exact CW|exact CT]. }
  destruct (k_raw k && negb (ntype (i_node i) =? EVENT)) eqn:R.
  { injection HA as <- <-. left. split; [exact C|]. split; [exact CW|exact CT]. }
  match type of HA with obind ?X _ = _ => destruct X as [s3|[]|] eqn:P; cbn in HA; try discriminate HA end.
  assert (core_eq s1 s3) as K1. { destruct ((ntype (i_node i) =? PROPERTY) && s_auto x); [now apply setup_core in P|injection P as <-; apply core_refl]. }
  pose proof (core_trans _ _ _ C K1) as (D1 & D2 & D3 & D4 & D5 & D6 & D7).
  unfold remove_sub in HA. destruct (unlink_all s3 (s_insts x) (s_no x) (links s3)) as [lk|[]|] eqn:U; cbn in HA; try discriminate HA. injection HA as <- <-.
  right. exists x. split.
  { unfold removed_sub. cbn. rewrite CS in G. rewrite D1, D2, D3, D5, D6. split; [exact G|]. split; [|repeat split]. exists lk. split; [|reflexivity]. rewrite <- U, D4. symmetry. apply unlink_all_tops. exact D1. }
  cbn [watched timers]. unfold drives, ticks, on_change. unfold el_node. fold i. 
  destruct (ntype (i_node i) =? PROPERTY) eqn:TY; cbn [andb] in *; [|injection P as <-; split; assumption].
  destruct (s_auto x); cbn [andb] in *; [|injection P as <-; split; assumption].
  destruct (k_interval (s_key x) =? 0) eqn:KI; cbn [negb] in *.
  - apply (setup_sub x) in P as (P1 & P2 & P3); [|now apply Z.eqb_eq]. split; [congruence|]. split; [intros N; apply P2; now rewrite CW|].
    intros m. rewrite P3, (auto_core _ _ _ _ C), CW. reflexivity.
  - apply (setup_interval x) in P as [P1 P2]; [|now apply Z.eqb_neq]. split; [congruence|]. destruct (s_insts x) as [|n l]; rewrite P2; cbn; rewrite CT; reflexivity.
Qed.

(** ** every property somebody waits for is watched *)
Lemma auto_any s n : auto_linked s n None = true <-> exists y, In y (links s) /\ l_el y = n /\ l_auto y = true.
Proof.
  unfold auto_linked. rewrite existsb_exists. split; intros (y & I & H); exists y; (split; [exact I|]).
  - rewrite andb_true_r in H. apply andb_prop in H as [H1 H2]. apply Nat.eqb_eq in H1. auto.
  - destruct H as [<- ->]. now rewrite Nat.eqb_refl.
Qed.
Lemma auto_but s n b : auto_linked s n (Some b) = true <-> exists y, In y (links s) /\ l_el y = n /\ l_auto y = true /\ l_sub y <> b.
Proof.
  unfold auto_linked. rewrite existsb_exists. split; intros (y & I & H); exists y; (split; [exact I|]).
  - apply andb_prop in H as [H H3]. apply andb_prop in H as [H1 H2]. apply Nat.eqb_eq in H1. apply negb_true_iff, Nat.eqb_neq in H3. auto.
  - destruct H as (<- & -> & H). rewrite Nat.eqb_refl. cbn. apply negb_true_iff, Nat.eqb_neq. congruence.
Qed.
Definition Pl (s : state) : Prop := NoDup (watched s) /\ forall n, property s n -> auto_linked s n None = true -> In n (watched s).
Definition nodup_nodes (s : state) : Prop := NoDup (flat_map nos (tops s)).
Lemma node_path s n p p' : nodup_nodes s -> In (n, p) (all_nodes s) -> In (n, p') (all_nodes s) -> p = p'.
Proof.
  intros N. assert (ND : NoDup (map fst (all_nodes s))) by (apply nodup_visited_all, N). revert ND. generalize (all_nodes s). induction l as [|[m q] l IH]; [intros _ []|]. cbn. intros ND I J. apply NoDup_cons_iff in ND as [N0 ND].
  destruct I as [I|I], J as [J|J]; [congruence| | |auto].
  - injection I as <- <-. exfalso. apply N0. apply (in_map fst) in J. exact J.
  - injection J as <- <-. exfalso. apply N0. apply (in_map fst) in I. exact I.
Qed.
Lemma property_tops s s' n : tops s' = tops s -> property s' n <-> property s n.
Proof. intros E. unfold property, all_nodes. rewrite E. reflexivity. Qed.
Lemma kin_tops s s' e k : tops s' = tops s -> kin s' e k -> kin s e k.
Proof. intros E. unfold kin, all_nodes. rewrite E. auto. Qed.
Lemma core_Pl s s' : core_eq s s' -> watched s' = watched s -> Pl s -> Pl s'.
Proof.
  intros C E [N P]. split; [now rewrite E|]. intros n PN A. rewrite E. apply P; [|now rewrite <- (auto_core s s')]. apply (property_tops s s'); [|exact PN]. now destruct C.
Qed.
(** a new subscription's instances are of the kind of its element *)
Lemma added_kind s e k t up x s' n : nodup_nodes s -> find_top e (tops s) = Some (up, t) -> kin s e k -> added_sub s e k t up x s' -> In n (s_insts x) -> (property s n <-> ntype (el_node t) = PROPERTY).
Proof.
  intros N F K (_ & (c & CR & M & _) & _) I. apply (proj1 (matching_in _ _ _ M n)) in I as (p & IP & MP).
  assert (forall q p', p = q :: p' -> (ntype q = PROPERTY <-> ntype (el_node t) = PROPERTY)) as Q. { intros q p' ->. apply (K up t n q p' F IP). unfold event_matches. now rewrite CR. }
  destruct p as [|q p].
  { exfalso. destruct (found_path_top _ _ _ IP N) as (u & e' & _ & D). discriminate D. }
  rewrite <- (Q q p eq_refl). split.
  - intros (q' & p' & I & T). rewrite (node_path s n _ _ N IP I) in *. specialize (Q q' p' eq_refl). assert (q :: p = q' :: p') as E by (eapply node_path; eassumption). injection E as -> ->. exact T.
  - intros T. exists q, p. auto.
Qed.
Lemma add_Pl ans s e k s' r : nodup_nodes s -> kin s e k -> handle ans s true e k = Ok (s', r) -> Pl s -> Pl s'.
Proof.
  intros N K H [ND P]. apply handle_add_poll in H as (up & t & F & [(C & E & _)|(x & AD & RAW & EF & _)]); [now apply (core_Pl s)|].
  pose proof AD as (_ & _ & NX & KX & _ & _ & X1 & _ & _ & X4 & _).
  assert (OLD : forall y, In y (links s') -> In y (links s) \/ exists n, In n (s_insts x) /\ y = link_to x n).
  { intros y I. rewrite X4 in I. apply in_app_or in I as [I|I]; [auto|]. apply in_map_iff in I as (n & <- & I). right. eauto. }
  assert (MONO : forall m, In m (watched s) -> In m (watched s')). { destruct (drives t x); [destruct EF as (_ & _ & EF); intros m I; apply EF; auto|destruct EF as [-> _]; auto]. }
  split; [destruct (drives t x); [apply EF, ND|now rewrite (proj1 EF)]|].
  intros n PN A. apply (property_tops s s') in PN; [|exact X1]. apply auto_any in A as (y & I & <- & A). destruct (OLD y I) as [J|(n & J & ->)].
  { apply MONO, P; [exact PN|]. apply auto_any. eauto. }
  cbn [link_to l_el l_auto] in *. fold (on_change x) in A.
  pose proof (proj1 (added_kind _ _ _ _ _ _ _ _ N F K AD J) PN) as TY. unfold drives in EF. rewrite TY, A in EF. cbn in EF. destruct EF as (_ & _ & EF). apply EF.
  destruct (auto_linked s' n (Some (s_no x))) eqn:B; [left|right; auto]. apply auto_but in B as (z & IZ & EZ & AZ & SZ). destruct (OLD z IZ) as [JZ|(m & _ & ->)]; [|now destruct SZ].
  apply P; [exact PN|]. apply auto_any. eauto.
Qed.
Lemma got_in s k x : W s -> plain_filter (k_filter k) = true -> get_sub (subs s) k = Ok (Some x) -> In x (subs s) /\ same_key (s_key x) k = true.
Proof. intros H P G. rewrite get_sub_ok in G by (exact P || apply (w_k s H)). injection G as G. now apply find_some in G. Qed.
Lemma removed_links s k x s' : W s -> plain_filter (k_filter k) = true -> removed_sub s k x s' -> links s' = List.filter (not_sub (s_no x)) (links s).
Proof.
  intros H P (G & (lk & U & ->) & _). destruct (got_in s k x H P G) as [I _]. eapply unlink_sub; [apply (i_links _ _ _ _ (w_l s H))|apply (i_no _ _ _ _ (w_l s H))|exact I|intros n J; exact J|exact U].
Qed.
Lemma del_Pl ans s e k s' r : W s -> plain_filter (k_filter k) = true -> handle ans s false e k = Ok (s', r) -> Pl s -> Pl s'.
Proof.
  intros H PF HD [ND P]. apply handle_del_poll in HD as (up & t & F & [(C & E & _)|(x & RM & EF)]); [now apply (core_Pl s)|].
  pose proof (removed_links _ _ _ _ H PF RM) as LK. pose proof RM as (_ & _ & X1 & _).
  split; [destruct (drives t x); [apply EF, ND|now rewrite (proj1 EF)]|].
  intros n PN A. apply (property_tops s s') in PN; [|exact X1]. apply auto_any in A as (y & I & <- & A). rewrite LK in I. apply filter_In in I as [I NS]. apply negb_true_iff, Nat.eqb_neq in NS.
  assert (In (l_el y) (watched s)) as IW by (apply P; [exact PN|apply auto_any; eauto]).
  destruct (drives t x); [|now rewrite (proj1 EF)]. apply EF. split; [exact IW|]. intros [_ B]. assert (auto_linked s (l_el y) (Some (s_no x)) = true) by (apply auto_but; eauto). congruence.
Qed.
(** fewer links *)
Lemma less_Pl s s' : tops s' = tops s -> watched s' = watched s -> incl (links s') (links s) -> Pl s -> Pl s'.
Proof.
  intros E1 E2 I [ND P]. split; [now rewrite E2|]. intros n PN A. rewrite E2. apply P; [now apply (property_tops s s')|]. apply auto_any in A as (y & J & A). apply auto_any. exists y. split; [now apply I|exact A].
Qed.
Lemma unlink_incl n x : forall l, incl (unlink n x l) l.
Proof. induction l as [|y l IH]; cbn; [apply incl_refl|]. destruct (is_link n x y); [apply incl_tl, incl_refl|]. intros z [<-|I]; [now left|right; now apply IH]. Qed.
Lemma unlink_all_incl s x : forall insts l l', unlink_all s insts x l = Ok l' -> incl l' l.
Proof.
  induction insts as [|n insts IH]; cbn; intros l l' H; [injection H as <-; apply incl_refl|]. destruct (alive n s); [|discriminate H]. eapply incl_tran; [eapply IH, H|apply unlink_incl].
Qed.
Lemma free_inv s x s' : free_sub s x = Ok s' -> tops s' = tops s /\ watched s' = watched s /\ incl (links s') (links s) /\ subs s' = subs s /\ timers s' = timers s.
Proof.
  unfold free_sub. intros A. destruct (unlink_all s (s_insts x) (s_no x) (links s)) as [lk|[]|] eqn:U; cbn in A; try discriminate A. injection A as <-. cbn. apply unlink_all_incl in U. auto.
Qed.
Lemma handle_tops ans s b e k s' r : handle ans s b e k = Ok (s', r) -> tops s' = tops s.
Proof.
  destruct b; intros H.
  - apply handle_add in H as (up & t & s1 & early & _ & _ & _ & [(_ & (C & _) & _)|(_ & x & AD & _)]); [exact C|]. now destruct AD as (_ & _ & _ & _ & _ & _ & X & _).
  - apply handle_del in H as (up & t & s1 & early & _ & _ & _ & [(_ & (C & _) & _)|(_ & _ & x & RM)]); [exact C|]. now destruct RM as (_ & _ & X & _).
Qed.
Lemma again_Pl ans s x e s' : nodup_nodes s -> kin s e (s_key x) -> again ans s x e = Ok s' -> Pl s -> Pl s' /\ tops s' = tops s.
Proof.
  intros N K A P. unfold again in A. destruct (handle ans (take_out s (s_no x)) true e (s_key x)) as [[s2 r]|[]|] eqn:HA; cbn in A; try discriminate A.
  pose proof (handle_tops _ _ _ _ _ _ _ HA) as T. cbn [take_out tops] in T. apply free_inv in A as (A1 & A2 & A3 & _). split; [|congruence].
  apply (less_Pl s2); auto. eapply add_Pl; [| |exact HA|]; [exact N|exact K|]. apply (less_Pl s); auto. apply incl_refl.
Qed.
Lemma again_keys ans s x e s' : In x (subs s) -> again ans s x e = Ok s' -> incl (keys s') (keys s).
Proof.
  intros I A. unfold again in A. destruct (handle ans (take_out s (s_no x)) true e (s_key x)) as [[s2 r]|[]|] eqn:HA; cbn in A; try discriminate A. apply free_inv in A as (_ & _ & _ & A & _).
  unfold keys. rewrite A. assert (incl (map s_key (subs (take_out s (s_no x)))) (map s_key (subs s))) as IN.
  { intros k J. apply in_map_iff in J as (y & <- & J). cbn in J. apply filter_In in J as [J _]. now apply in_map. }
  apply handle_add in HA as (up & t & s1 & early & _ & _ & _ & [(_ & (_ & _ & C & _) & _)|(_ & y & AD & _)]); [now rewrite C|].
  destruct AD as (_ & _ & _ & KY & _ & _ & _ & _ & X & _). rewrite X, map_app. apply incl_app; [exact IN|]. intros k [<-|[]]. rewrite KY. now apply in_map.
Qed.
Lemma row_again_Pl ans look row K : forall count cur s s', nodup_nodes s -> incl (keys s) K -> (forall k e, In k K -> look (k_event k) = Some e -> kin s e k) ->
  row_again count ans look row cur s = Ok s' -> Pl s -> Pl s'.
Proof.
  induction count as [|count IH]; intros [c|] s s' N IK KN R P; cbn in R; try (injection R as <-; exact P).
  destruct (item c (subs s)) as [[x next]|] eqn:I; [|discriminate R]. apply item_in in I.
  assert (KX : In (s_key x) K) by (apply IK, in_map, I).
  destruct (is_prefix row (k_event (s_key x))); cbn in R; [|now apply IH in R].
  destruct (look (k_event (s_key x))) as [e|] eqn:L; cbn in R; [|now apply IH in R]. destruct (alive e s); cbn in R; [|discriminate R].
  destruct (again ans s x e) as [s1|[]|] eqn:A; cbn in R; try discriminate R. destruct (again_Pl _ _ _ _ _ N (KN _ _ KX L) A P) as [P1 T1].
  apply IH in R; auto.
  - unfold nodup_nodes. now rewrite T1.
  - eapply incl_tran; [eapply again_keys; eassumption|exact IK].
  - intros k e' Ik Lk. apply (kin_tops s1 s); [congruence|]. auto.
Qed.
Lemma cache_again_Pl ans name e K : forall fuel cur s s', nodup_nodes s -> incl (keys s) K -> (forall k, In k K -> kin s e k) ->
  cache_again fuel ans name e cur s = Ok s' -> Pl s -> Pl s'.
Proof.
  induction fuel as [|fuel IH]; intros [c|] s s' N IK KN R P; cbn in R; try (injection R as <-; exact P); try discriminate R.
  destruct (item c (subs s)) as [[x next]|] eqn:I; [|discriminate R]. apply item_in in I.
  assert (KX : In (s_key x) K) by (apply IK, in_map, I).
  destruct (negb _ && _ && _); [|now apply IH in R].
  destruct (again ans s x e) as [s1|[]|] eqn:A; cbn in R; try discriminate R. destruct (again_Pl _ _ _ _ _ N (KN _ KX) A P) as [P1 T1].
  apply IH in R; auto.
  - unfold nodup_nodes. now rewrite T1.
  - eapply incl_tran; [eapply again_keys; eassumption|exact IK].
  - intros k Ik. apply (kin_tops s1 s); [congruence|]. auto.
Qed.
Lemma disconnect_Pl ans found l : forall fuel cur s s', W s -> disconnect_loop fuel ans found l cur s = Ok s' -> Pl s -> Pl s'.
Proof.
  induction fuel as [|fuel IH]; intros [c|] s s' H R P; cbn in R; try (injection R as <-; exact P); try discriminate R.
  destruct (item c (subs s)) as [[x next]|] eqn:I; [|discriminate R].
  destruct (bytes_eqb (k_listener (s_key x)) l && found (k_event (s_key x))); cbn in R; [|now apply IH in R].
  destruct (s_el x) as [e|]; cbn in R; [|now apply IH in R].
  match type of R with context [handle ans s false e ?k] => destruct (handle ans s false e k) as [[s1 r1]|[]|] eqn:HD; cbn in R; try discriminate R end.
  apply IH in R; [exact R| |].
  - eapply handle_del_W; [exact H| |exact HD]. reflexivity.
  - eapply del_Pl; [exact H| |exact HD|exact P]. reflexivity.
Qed.
(** rows *)
Lemma row_watch_on : forall l s s', row_watch l true s = Ok s' -> timers s' = timers s /\ (NoDup (watched s) -> NoDup (watched s')) /\
  (forall m, In m (watched s') <-> In m (watched s) \/ exists p, In (m, p) l /\ is_prop p = true /\ auto_linked s m None = true).
Proof.
  induction l as [|[n p] l IH]; cbn [row_watch]; intros s s' H.
  { injection H as <-. split; [reflexivity|]. split; [auto|]. intros m. split; [auto|]. intros [I|(p & [] & _)]. exact I. }
  destruct (is_prop p && auto_linked s n None) eqn:B.
  - destruct (watch s n) as [s1|[]|] eqn:Q; cbn in H; try discriminate H. apply watch_eff in Q as (C & T & N & W0). apply IH in H as (H1 & H2 & H3). split; [congruence|]. split; [auto|].
    intros m. rewrite H3, W0. split.
    + intros [[I| ->]|(q & I & J)]; [auto| |]; right; [exists p; apply andb_prop in B; cbn; tauto|]. exists q. rewrite (auto_core _ _ _ _ C) in J. cbn. tauto.
    + intros [I|(q & [I|I] & J)]; [auto| |]; [injection I as <- <-; auto|]. right. exists q. rewrite (auto_core _ _ _ _ C). auto.
  - apply IH in H as (H1 & H2 & H3). split; [exact H1|]. split; [exact H2|]. intros m. rewrite H3. split.
    + intros [I|(q & I & J)]; [auto|]. right. exists q. cbn. tauto.
    + intros [I|(q & [I|I] & J1 & J2)]; [auto| |]; [injection I as <- <-; rewrite J1, J2 in B; discriminate B|]. right. exists q. auto.
Qed.
Lemma row_watch_off : forall l s s', row_watch l false s = Ok s' -> timers s' = timers s /\ (NoDup (watched s) -> NoDup (watched s')) /\
  (forall m, In m (watched s) -> (forall p, ~ In (m, p) l) -> In m (watched s')).
Proof.
  induction l as [|[n p] l IH]; cbn [row_watch]; intros s s' H.
  { injection H as <-. split; [reflexivity|]. split; auto. }
  destruct (is_prop p && auto_linked s n None) eqn:B.
  - destruct (unwatch_eff s n) as (C & T & N & W0). apply IH in H as (H1 & H2 & H3). split; [congruence|]. split; [auto|].
    intros m I J. apply H3; [|intros q Iq; apply (J q); now right]. apply W0. split; [exact I|]. intros ->. apply (J p). now left.
  - apply IH in H as (H1 & H2 & H3). split; [exact H1|]. split; [exact H2|]. intros m I J. apply H3; [exact I|]. intros q Iq. apply (J q). now right.
Qed.
Lemma link_new_eff s n p : forall l l' k, link_new s n p l = Ok (l', k) -> forall y, In y k -> l_el y = n.
Proof.
  induction l as [|x l IH]; cbn; intros l' k H; [injection H as <- <-; intros y []|].
  match type of H with obind ?m _ = _ => destruct m as [b|[]|]; cbn in H; try discriminate H end. destruct (link_new s n p l) as [[l1 k1]|[]|] eqn:E; cbn in H; try discriminate H.
  destruct b; injection H as <- <-; intros y I; [destruct I as [<-|I]; [reflexivity|]|]; eapply IH; eauto.
Qed.
Lemma link_all_eff : forall new s s', link_all new s = Ok s' -> tops s' = tops s /\ watched s' = watched s /\ timers s' = timers s /\
  (forall y, In y (links s') -> In y (links s) \/ exists p, In (l_el y, p) new) /\ incl (links s) (links s').
Proof.
  induction new as [|[n p] new IH]; cbn; intros s s' H.
  { injection H as <-. split; [reflexivity|]. split; [reflexivity|]. split; [reflexivity|]. split; [auto|apply incl_refl]. }
  destruct (link_new s n p (subs s)) as [[l k]|[]|] eqn:L; cbn in H; try discriminate H. apply IH in H as (H1 & H2 & H3 & H4 & H5). cbn in *.
  split; [exact H1|]. split; [exact H2|]. split; [exact H3|]. split; [|intros y I; apply H5, in_or_app; now left].
  intros y I. apply H4 in I as [I|(q & I)]; [|right; exists q; now right]. apply in_app_or in I as [I|I]; [auto|]. right. exists p. left. now rewrite (link_new_eff _ _ _ _ _ _ L y I).
Qed.
Lemma link_all_keys : forall new s1 s2, link_all new s1 = Ok s2 -> map s_key (subs s2) = map s_key (subs s1).
Proof.
  induction new as [|[n q] new IH]; cbn; intros s1 s2 Q; [now injection Q as <-|]. destruct (link_new s1 n q (subs s1)) as [[l k]|[]|] eqn:L; cbn in Q; try discriminate Q. apply link_new_ok in L as [L _]. apply IH in Q. cbn in Q. rewrite Q.
  symmetry. eapply forall2_map; [exact L|]. intros x y ((_ & K & _) & _). congruence.
Qed.
Lemma row_again_tops ans look row : forall n cur s s', row_again n ans look row cur s = Ok s' -> tops s' = tops s.
Proof.
  induction n as [|n IH]; intros [c|] s s' Q; cbn in Q; try (now injection Q as <-).
  destruct (item c (subs s)) as [[x next]|] eqn:I; [|discriminate Q]. destruct (is_prefix _ _); cbn in Q; [|now apply IH in Q]. destruct (look _) as [e|]; cbn in Q; [|now apply IH in Q]. destruct (alive e s); cbn in Q; [|discriminate Q].
  destruct (again ans s x e) as [s4|[]|] eqn:AG; cbn in Q; try discriminate Q. apply IH in Q. rewrite Q. unfold again in AG. destruct (handle ans _ true e _) as [[s5 r5]|[]|] eqn:HA; cbn in AG; try discriminate AG. apply handle_tops in HA. apply free_inv in AG as (AG & _). cbn in HA. congruence.
Qed.
Lemma add_row_open ans look s t r s' : W s -> fair s (AddRow look t r) -> add_row ans look s t r = Ok s' ->
  exists up u re p s1 s2 s3, find_top t (tops s) = Some (up, u) /\ p = el_node u :: up /\ el_info re = sh_info r /\
    (subs s1 = subs s /\ links s1 = links s /\ watched s1 = watched s /\ timers s1 = timers s /\ next_sub s1 = next_sub s) /\
    (forall n v c, (n < next_el s)%nat -> find_top n (tops s1) = Some (v, c) -> exists c0, find_top n (tops s) = Some (v, c0) /\ el_info c0 = el_info c) /\
    link_all (visited p re) s1 = Ok s2 /\ row_watch (visited p re) true s2 = Ok s3 /\ row_again (length (subs s3)) ans look (full_name (el_node re :: p)) (front (subs s3)) s3 = Ok s' /\
    (forall x, In x (all_nodes s1) <-> In x (all_nodes s) \/ In x (visited p re)) /\
    (forall x, In x (all_nodes s) -> (fst x < next_el s)%nat) /\ (forall x, In x (visited p re) -> (next_el s <= fst x)%nat) /\ tops s3 = tops s1 /\ W s2 /\ W s3 /\ (next_el s <= next_el s1)%nat.
Proof.
  intros H F A. pose proof F as [SR (p & IP & TP)]. unfold add_row in A. pose proof (w_nos s H) as N1. pose proof (w_lt s H) as N2.
  destruct (found_path_top _ _ _ IP N1) as (up & e & FT & EP). rewrite FT in A.
  destruct (number (next_el s) r) as [re m] eqn:NU. destruct (number_ok _ _ _ _ NU) as (R1 & R2 & R3).
  destruct (row_walks_agree _ _ _ _ (el_node e :: up) NU SR) as [WA1 WA2]. rewrite WA1, WA2 in A. rewrite <- EP in A.
  match type of A with obind (link_all _ ?st) _ = _ => set (s1 := st) in * end.
  assert (In t (flat_map nos (tops s))) as IT by (apply visited_all_nos in IP; exact IP).
  pose proof (add_row_nos t re (tops s) IT N1) as PN.
  assert (Permutation (all_nodes s1) (all_nodes s ++ visited p re)) as PV by (apply add_row_visited; assumption).
  assert (NoDup (flat_map nos (tops s1))) as N1'.
  { eapply Permutation_NoDup; [apply Permutation_sym, PN|]. apply nodup_app_intro; [exact N1|exact R2|]. intros x I J. apply N2 in I. apply R3 in J. lia. }
  destruct (link_all (visited p re) s1) as [s2|[]|] eqn:LA; cbn in A; try discriminate A. pose proof LA as LA0.
  apply (link_all_ok _ (all_nodes s)) in LA; [|exact (w_l s H)|exact (w_k s H)|].
  2:{ eapply Permutation_NoDup; [apply Permutation_map, PV|]. now apply nodup_visited_all. }
  destruct LA as (L1 & L2 & L3 & L4 & L5 & _).
  assert (W s2) as W2.
  { split.
    - now rewrite L3.
    - rewrite L3, L4. intros x I. apply (Permutation_in _ PN) in I. cbn. apply in_app_or in I as [I|I]; [apply N2 in I|apply R3 in I]; lia.
    - unfold all_nodes. rewrite L3. eapply InvL_perm; [|exact L1]. apply Permutation_sym, PV.
    - exact L2. }
  destruct (row_watch (visited p re) true s2) as [s3|[]|] eqn:RW; cbn in A; try discriminate A. pose proof RW as RW0. apply row_watch_core in RW as [RW _].
  exists up, e, re, p, s1, s2, s3. split; [exact FT|]. split; [exact EP|]. split; [eapply number_info, NU|]. split; [repeat split|].
  split; [intros n v c L FN; apply (add_find_top t re n (tops s)); [intros I; apply R3 in I; lia|exact FN]|].
  split; [exact LA0|]. split; [exact RW0|]. split; [exact A|].
  split; [intros x; split; [intros I; apply (Permutation_in _ PV), in_app_or in I; exact I|intros I; apply (Permutation_in _ (Permutation_sym PV)), in_or_app; exact I]|].
  split; [intros x I; apply N2; apply visited_all_nos in I; exact I|]. split; [intros x I; apply visited_nos in I; apply R3 in I; lia|].
  split; [destruct RW as (RW & _); congruence|]. split; [exact W2|]. split; [now apply (core_W s2)|exact R1].
Qed.
Lemma add_row_Pl ans look s t r s' : W s -> fair s (AddRow look t r) -> (forall k e, In k (keys s) -> look (k_event k) = Some e -> kin s' e k) -> add_row ans look s t r = Ok s' -> Pl s -> Pl s'.
Proof.
  intros H F KN A P. destruct (add_row_open _ _ _ _ _ _ H F A) as (up & u & re & p & s1 & s2 & s3 & FT & EP & EI & (E1 & E2 & E3 & E4 & _) & _ & LA & RW & RA & NN & LO & HI & T3 & W2 & W3 & NX).
  pose proof (link_all_eff _ _ _ LA) as (L1 & L2 & L3 & L4 & L5). pose proof (row_watch_on _ _ _ RW) as (_ & R2 & R3).
  assert (KS : keys s3 = keys s).
  { pose proof (row_watch_core _ _ _ _ RW) as [(_ & _ & C & _) _]. unfold keys. now rewrite C, (link_all_keys _ _ _ LA), E1. }
  assert (P3 : Pl s3).
  { destruct P as [ND P]. split; [apply R2; now rewrite L2, E3|]. intros n PN AL. rewrite (auto_core s2 s3) in AL by apply (row_watch_core _ _ _ _ RW). apply R3. rewrite L2, E3.
    apply (property_tops s1 s3) in PN; [|exact T3]. destruct PN as (q & p' & I & T). apply NN in I as [I|I].
    - left. apply P; [exists q, p'; auto|]. apply auto_any in AL as (y & J & <- & AL). apply auto_any. exists y. split; [|auto]. apply L4 in J as [J|(p2 & J)]; [now rewrite <- E2|].
      apply HI in J. apply LO in I. cbn in *. lia.
    - right. exists (q :: p'). split; [exact I|]. split; [cbn; now rewrite T|exact AL]. }
  assert (TS : tops s' = tops s3) by (eapply row_again_tops, RA).
  eapply (row_again_Pl ans look _ (keys s)); [apply (w_nos s3 W3)|rewrite KS; apply incl_refl| |exact RA|exact P3].
  intros k e IK L. apply (kin_tops s3 s'); [exact TS|]. now apply KN.
Qed.
Lemma deleted_watched n : forall fuel cur val s s', deleted_loop fuel n cur val s = Ok s' -> watched s' = watched s /\ timers s' = timers s.
Proof.
  induction fuel as [|fuel IH]; intros [c|] val s s' H; cbn in H; try (injection H as <-; auto); try discriminate H.
  destruct (item c (subs s)) as [[x next]|]; [|discriminate H]. set (b := existsb (Nat.eqb n) (s_insts x)) in *.
  assert (X : forall s0, watched s0 = watched s -> timers s0 = timers s -> forall s1, (do f <- get_sub (subs s0) (s_key x) ; match f with Some y => remove_sub s0 y | None => Ok s0 end) = Ok s1 -> watched s1 = watched s /\ timers s1 = timers s).
  { intros s0 A B s1 Q. destruct (get_sub (subs s0) (s_key x)) as [[y|]|[]|]; cbn in Q; try discriminate Q; [|injection Q as <-; auto]. unfold remove_sub in Q.
    destruct (unlink_all s0 (s_insts y) (s_no y) (links s0)) as [lk|[]|]; cbn in Q; try discriminate Q. injection Q as <-. auto. }
  match type of H with obind ?m _ = _ => destruct m as [s1|[]|] eqn:M; cbn in H; try discriminate H end. apply IH in H as [H1 H2].
  enough (watched s1 = watched s /\ timers s1 = timers s) by (split; destruct H; congruence).
  destruct (b || val); [|destruct b; injection M as <-; auto]. eapply X; [| |exact M]; destruct b; reflexivity.
Qed.
Lemma deleted_all_watched : forall l s s', deleted_all l s = Ok s' -> watched s' = watched s /\ timers s' = timers s.
Proof.
  induction l as [|[n p] l IH]; cbn [deleted_all]; intros s s' H; [injection H as <-; auto|].
  destruct (deleted_loop (length (subs s)) n (front (subs s)) false s) as [s1|[]|] eqn:D; cbn in H; try discriminate H. apply deleted_watched in D as [D1 D2]. apply IH in H as [H1 H2]. split; congruence.
Qed.
Lemma remove_row_Pl s r s' : W s -> fair s (RemoveRow r) -> remove_row s r = Ok s' -> Pl s -> Pl s'.
Proof.
  intros H F A [ND P]. pose proof A as A0. unfold remove_row in A. destruct (find_top r (tops s)) as [[up t]|] eqn:FT; [|discriminate A].
  pose proof (remove_row_ok s r s' up t H F FT A0) as (W' & _).
  set (l := flat_map (visited (el_node t :: up)) (el_kids t)) in *.
  destruct (row_watch l false s) as [s1|[]|] eqn:RW; cbn in A; try discriminate A. destruct (deleted_all l s1) as [s2|[]|] eqn:DA; cbn in A; try discriminate A.
  pose proof (row_watch_off _ _ _ RW) as (_ & R2 & R3). pose proof (row_watch_core _ _ _ _ RW) as [C _]. pose proof (core_W _ _ C H) as W1.
  pose proof (deleted_all_ok l s1 s2 (w_l s1 W1) (w_k s1 W1) DA) as (D1 & _ & D3 & D4 & _). pose proof (deleted_all_watched _ _ _ DA) as [D5 _]. injection A as <-. cbn [watched].
  split; [rewrite D5; apply R2, ND|]. intros n PN AL. destruct C as (C1 & _ & _ & C4 & _).
  assert (TT : tops s2 = tops s) by congruence.
  destruct (drop_top_ok r (tops s) up t (w_nos s H) FT) as (_ & DV & _).
  assert (PN' : exists q p, In (n, q :: p) (all_nodes s) /\ ntype q = PROPERTY /\ mem n (nos t) = false).
  { destruct PN as (q & p & I & T). unfold all_nodes in I. cbn [tops] in I. rewrite TT in I. fold (drop_all r (tops s)) in I. rewrite DV in I. apply filter_In in I as [I M]. apply negb_true_iff in M. exists q, p. auto. }
  destruct PN' as (q & p & I & T & M). rewrite D5. apply R3.
  - apply P; [exists q, p; auto|]. apply auto_any in AL as (y & J & EY & AL). cbn [links] in J. apply filter_In in J as [J _]. apply auto_any. exists y. split; [|auto].
    rewrite <- C4. apply (in_links _ _ _ (i_links _ _ _ _ D1)) in J as (z & Z1 & Z2 & Z3). apply take_while_all in Z1 as [Z1 _].
    assert (In y (List.filter (fun k => Nat.eqb (l_el k) (l_el y)) (links s1))) as Q.
    { rewrite (i_links _ _ _ _ (w_l s1 W1)). rewrite Z3. cbn [link_to l_el]. apply in_map_iff. exists z. split; [reflexivity|]. apply filter_In. auto. }
    apply filter_In in Q. apply Q.
  - intros p' I'. apply mem_nin in M. apply M. apply visited_all_nos in I'. cbn in I'. destruct t as [no i ks]. cbn in *. now right.
Qed.
Lemma step_Pl ans s o s' r : W s -> fair s o -> step ans s o = Ok (s', r) -> apt s o s' -> Pl s -> Pl s'.
Proof.
  intros H F Q AP P. pose proof (w_nos s H) as N. destruct o as [e k|e k|look t row|n|name e|found l]; cbn [step] in Q.
  - apply request_cases in Q as [(-> & _)|(n & -> & Q)]; [exact P|]. eapply add_Pl; [exact N| |exact Q|exact P]. apply (kin_tops s s'); [|exact AP]. eapply handle_tops, Q.
  - apply request_cases in Q as [(-> & _)|(n & _ & Q)]; [exact P|]. eapply del_Pl; eassumption.
  - destruct (add_row ans look s t row) as [s1|[]|] eqn:A; cbn in Q; try discriminate Q. injection Q as <- _. eapply add_row_Pl; eassumption.
  - destruct (remove_row s n) as [s1|[]|] eqn:A; cbn in Q; try discriminate Q. injection Q as <- _. eapply remove_row_Pl; eassumption.
  - destruct (registered ans s name e) as [s1|[]|] eqn:A; cbn in Q; try discriminate Q. injection Q as <- _. unfold registered in A. destruct (find_top e (tops s)); [|discriminate A].
    eapply (cache_again_Pl ans name e (keys s)); [exact N|apply incl_refl| |exact A|exact P].
    intros k I. apply (kin_tops s s1); [|now apply AP]. revert A. generalize (2 * length (subs s))%nat, (front (subs s)). clear. intros fuel; revert s. induction fuel as [|fuel IH]; intros s [c|] R; cbn in R; try (now injection R as <-); try discriminate R.
    destruct (item c (subs s)) as [[x next]|] eqn:I; [|discriminate R]. destruct (negb _ && _ && _); [|now apply IH in R].
    destruct (again ans s x e) as [s2|[]|] eqn:AG; cbn in R; try discriminate R. apply IH in R. rewrite R. unfold again in AG. destruct (handle ans _ true e _) as [[s5 r5]|[]|] eqn:HA; cbn in AG; try discriminate AG. apply handle_tops in HA. apply free_inv in AG as (AG & _). cbn in HA. congruence.
  - destruct (disconnect ans found s l) as [s1|[]|] eqn:A; cbn in Q; try discriminate Q. injection Q as <- _. eapply disconnect_Pl; eassumption.
Qed.
Lemma apt_reach ans s0 s : reach_apt ans s0 s -> reach ans s0 s.
Proof. induction 1; [constructor|econstructor; eassumption]. Qed.
Lemma init_Pl l c : Pl (init l c).
Proof. unfold init. destruct (number_all 0 l) as [es n]. split; [constructor|]. intros m _ A. discriminate A. Qed.
Lemma reach_Pl ans l c s : good_cache c -> reach_apt ans (init l c) s -> Pl s.
Proof.
  intros G H. induction H as [|s o s' r H IH F Q AP]; [apply init_Pl|]. eapply step_Pl; try eassumption. eapply reach_W; [exact G|]. apply apt_reach; exact H.
Qed.
Lemma wanted_iff s n : W s -> auto_linked s n None = true <-> wanted s n.
Proof.
  intros H. rewrite auto_any. split.
  - intros (y & I & <- & A). apply (in_links _ _ _ (i_links _ _ _ _ (w_l s H))) in I as (z & Z1 & Z2 & Z3). exists z. split; [exact Z1|]. split; [exact Z2|]. rewrite Z3 in A. exact A.
  - intros (x & I & T & A). exists (link_to x n). split; [|split; [reflexivity|exact A]].
    assert (In (link_to x n) (List.filter (fun k => Nat.eqb (l_el k) n) (links s))) as Q. { rewrite (links_of s n H). apply in_map_iff. exists x. split; [reflexivity|]. apply filter_In. auto. }
    apply filter_In in Q. apply Q.
Qed.

(** ** nothing else is watched, and timers belong to subscriptions *)
Definition timed (s : state) (z : nat * nat) : Prop :=
  exists y, In y (subs s) /\ s_no y = snd z /\ targets y (fst z) = true /\ property s (fst z) /\ s_auto y = true /\ k_interval (s_key y) <> 0.
Record J (s : state) : Prop := {
  j_watched : forall n, In n (watched s) -> property s n /\ auto_linked s n None = true;
  j_kin : forall x e, In x (subs s) -> s_el x = Some e -> kin s e (s_key x);
  j_once : NoDup (map snd (timers s)); j_timed : forall z, In z (timers s) -> timed s z }.
Lemma kind_of_target s x e up t n : W s -> R s -> J s -> In x (subs s) -> s_el x = Some e -> find_top e (tops s) = Some (up, t) -> targets x n = true -> (property s n <-> ntype (el_node t) = PROPERTY).
Proof.
  intros H HR HJ I E F T. pose proof (HR x I) as A. unfold aimed in A. rewrite E in A. destruct A as (_ & c & reg & C1 & C2 & C3). rewrite (C3 _ _ F) in C2. clear C3.
  pose proof (i_nodes _ _ _ _ (w_l s H) x I) as (_ & NK). rewrite C1 in NK. destruct NK as (_ & _ & NK). apply targets_in in T. pose proof (proj1 (NK n) T) as (p & IP & MP).
  pose proof (j_kin s HJ x e I E) as K. assert (NP : p <> []) by (intros ->; destruct (found_path_top _ _ _ IP (w_nos s H)) as (u & e' & _ & D); discriminate D). destruct p as [|q p]; [congruence|].
  rewrite <- (K up t n q p F IP) by (unfold event_matches; now rewrite C2). split.
  - intros (q' & p' & J0 & T1). assert (q :: p = q' :: p') as D by (eapply node_path; [apply (w_nos s H)|eassumption..]). injection D as -> ->. exact T1.
  - intros T1. exists q, p. auto.
Qed.
Lemma cached_bare s x : W s -> R s -> In x (subs s) -> s_el x = None -> s_insts x = [].
Proof.
  intros H HR I E. pose proof (HR x I) as A. unfold aimed in A. rewrite E in A. pose proof (i_nodes _ _ _ _ (w_l s H) x I) as (_ & NK). now rewrite A in NK.
Qed.
Lemma J_core s s' : core_eq s s' -> watched s' = watched s -> timers s' = timers s -> J s -> J s'.
Proof.
  intros C E1 E2 [A B D E]. pose proof C as (C1 & _ & C3 & _). split.
  - intros n I. rewrite E1 in I. rewrite (auto_core s s') by exact C. rewrite property_tops by exact C1. auto.
  - intros x e I SE. rewrite C3 in I. apply (kin_tops s' s); [now symmetry|]. eauto.
  - now rewrite E2.
  - intros z I. rewrite E2 in I. destruct (E z I) as (y & Y). exists y. rewrite C3. rewrite property_tops by exact C1. exact Y.
Qed.
Lemma nodup_snoc {A} (l : list A) x : NoDup l -> ~ In x l -> NoDup (l ++ [x]).
Proof. intros N I. apply nodup_app_intro; [exact N|constructor; [intros []|constructor]|]. intros y J0 [<-|[]]. contradiction. Qed.
Lemma add_J ans s e k s' r : W s -> kin s e k -> handle ans s true e k = Ok (s', r) -> J s -> J s'.
Proof.
  intros H K HA HJ. apply handle_add_poll in HA as (up & t & F & [(C & E1 & E2 & _)|(x & AD & RAW & EF & _)]); [now apply (J_core s)|].
  pose proof AD as (_ & _ & NX & KX & EX & _ & X1 & _ & X3 & X4 & _). pose proof (w_nos s H) as N.
  assert (LK : incl (links s) (links s')) by (rewrite X4; apply incl_appl, incl_refl).
  assert (UP : forall n, In n (watched s) -> property s' n /\ auto_linked s' n None = true).
  { intros n I. destruct (j_watched s HJ n I) as [A B]. rewrite property_tops by exact X1. split; [exact A|]. apply auto_any in B as (y & Y & B). apply auto_any. eauto. }
  assert (UT : forall z, In z (timers s) -> timed s' z).
  { intros z I. destruct (j_timed s HJ z I) as (y & Y1 & Y). exists y. rewrite X3. rewrite property_tops by exact X1. split; [apply in_or_app; now left|exact Y]. }
  split.
  - intros n I. destruct (drives t x) eqn:DR; [|rewrite (proj1 EF) in I; auto]. apply EF in I as [I|[I _]]; [auto|]. unfold drives in DR. apply andb_prop in DR as [D1 D2]. apply Z.eqb_eq in D1.
    rewrite property_tops by exact X1. split; [now apply (added_kind _ _ _ _ _ _ _ _ N F K AD I)|]. apply auto_any. exists (link_to x n). split; [|split; [reflexivity|exact D2]].
    rewrite X4. apply in_or_app. right. now apply in_map.
  - intros y e' I SE. apply (kin_tops s' s); [now symmetry|]. rewrite X3 in I. apply in_app_or in I as [I|[<-|[]]]; [now apply (j_kin s HJ)|]. rewrite KX. assert (e' = e) as -> by congruence. exact K.
  - destruct (drives t x); [rewrite (proj1 EF); apply (j_once s HJ)|]. destruct EF as [_ [-> |(_ & _ & n & l & _ & ->)]]; [apply (j_once s HJ)|]. rewrite map_app. apply nodup_snoc; [apply (j_once s HJ)|].
    intros I. apply in_map_iff in I as (z & EZ & I). destruct (j_timed s HJ z I) as (y & Y1 & Y2 & _). apply (i_lt _ _ _ _ (w_l s H)) in Y1. cbn in EZ. lia.
  - intros z I. destruct (drives t x); [rewrite (proj1 EF) in I; auto|]. destruct EF as [_ [E|(TK & _ & n & l & EI & E)]]; rewrite E in I; [auto|]. apply in_app_or in I as [I|[<-|[]]]; [auto|].
    unfold ticks in TK. apply andb_prop in TK as [TK T3]. apply andb_prop in TK as [T1 T2]. apply Z.eqb_eq in T1. apply negb_true_iff, Z.eqb_neq in T3. exists x. rewrite X3. split; [apply in_or_app; right; now left|]. cbn [fst snd].
    assert (In n (s_insts x)) as IN by (rewrite EI; now left). split; [reflexivity|]. split; [now apply targets_in|]. rewrite property_tops by exact X1. split; [now apply (added_kind _ _ _ _ _ _ _ _ N F K AD IN)|]. auto.
Qed.
Lemma del_J ans s e k s' r : W s -> R s -> plain_filter (k_filter k) = true -> (forall x, In x (subs s) -> k_event (s_key x) = k_event k -> s_el x = Some e \/ s_el x = None) ->
  handle ans s false e k = Ok (s', r) -> J s -> J s'.
Proof.
  intros H HR PF CO HD HJ. apply handle_del_poll in HD as (up & t & F & [(C & E1 & E2)|(x & RM & EF)]); [now apply (J_core s)|].
  pose proof (removed_links _ _ _ _ H PF RM) as LK. pose proof RM as (G & _ & X1 & _ & X3 & _). destruct (got_in s k x H PF G) as [IX SK].
  assert (EX : s_el x = Some e \/ s_el x = None). { apply CO; [exact IX|]. unfold same_key in SK. repeat (apply andb_prop in SK as [SK ?]). now apply bytes_eqb_eq. }
  assert (KIND : forall n, targets x n = true -> property s n -> ntype (el_node t) = PROPERTY).
  { intros n T PN. destruct EX as [EX|EX]; [now apply (kind_of_target s x e up t n H HR HJ IX EX F T)|]. apply targets_in in T. rewrite (cached_bare s x H HR IX EX) in T. destruct T. }
  assert (KEEP : forall n, In n (watched s) -> ~ (targets x n = true /\ on_change x = true /\ auto_linked s n (Some (s_no x)) = false) -> property s' n /\ auto_linked s' n None = true).
  { intros n I NO. destruct (j_watched s HJ n I) as [A B]. rewrite property_tops by exact X1. split; [exact A|]. apply auto_any in B as (y & Y & <- & B). apply auto_any.
    destruct (auto_linked s (l_el y) (Some (s_no x))) eqn:AB.
    - apply auto_but in AB as (w & Q1 & Q2 & Q3 & Q4). exists w. split; [|auto]. rewrite LK. apply filter_In. split; [exact Q1|]. apply negb_true_iff, Nat.eqb_neq, Q4.
    - exists y. split; [|auto]. rewrite LK. apply filter_In. split; [exact Y|]. apply negb_true_iff, Nat.eqb_neq. intros D. apply NO.
      apply (in_links _ _ _ (i_links _ _ _ _ (w_l s H))) in Y as (z & Z1 & Z2 & Z3). rewrite Z3 in D, B. cbn in D. assert (z = x) by (eapply nodup_no; [apply (i_no _ _ _ _ (w_l s H))|eassumption..]). subst z. auto. }
  assert (KT : forall z, In z (timers s) -> snd z <> s_no x -> timed s' z).
  { intros z I NE. destruct (j_timed s HJ z I) as (y & Y1 & Y2 & Y3 & Y4 & Y5). exists y. rewrite property_tops by exact X1. split; [|auto]. rewrite X3. apply filter_In. split; [exact Y1|]. apply negb_true_iff, Nat.eqb_neq. congruence. }
  assert (MINE : forall z, In z (timers s) -> snd z = s_no x -> ticks t x = true /\ s_insts x <> []).
  { intros z I E. destruct (j_timed s HJ z I) as (y & Y1 & Y2 & Y3 & Y4 & Y5 & Y6). assert (y = x) by (eapply nodup_no; [apply (i_no _ _ _ _ (w_l s H))|eassumption|eassumption|congruence]). subst y.
    split; [|intros E0; apply targets_in in Y3; rewrite E0 in Y3; destruct Y3]. unfold ticks. rewrite (KIND _ Y3 Y4), Y5. cbn. apply negb_true_iff, Z.eqb_neq, Y6. }
  split.
  - intros n I. destruct (drives t x) eqn:DR.
    + apply EF in I as [I NO]. apply KEEP; [exact I|]. intros (T1 & T2 & T3). apply NO. split; [now apply targets_in|exact T3].
    + rewrite (proj1 EF) in I. apply KEEP; [exact I|]. intros (T1 & T2 & T3). unfold drives in DR. rewrite T2, andb_true_r in DR. destruct (j_watched s HJ n I) as [PN _]. rewrite (KIND n T1 PN) in DR. discriminate DR.
  - intros y e' I SE. apply (kin_tops s' s); [now symmetry|]. rewrite X3 in I. apply filter_In in I as [I _]. now apply (j_kin s HJ).
  - destruct (drives t x); [rewrite (proj1 EF); apply (j_once s HJ)|]. rewrite (proj2 EF). destruct (_ && _); [|apply (j_once s HJ)]. apply nodup_filter, (j_once s HJ).
  - intros z I. destruct (drives t x) eqn:DR.
    + rewrite (proj1 EF) in I. apply KT; [exact I|]. intros E. destruct (MINE z I E) as [M _]. unfold drives, ticks, on_change in *. destruct (ntype (el_node t) =? PROPERTY), (s_auto x), (k_interval (s_key x) =? 0); discriminate.
    + rewrite (proj2 EF) in I. destruct (ticks t x && negb match s_insts x with [] => true | _ => false end) eqn:TK.
      * apply filter_In in I as [I NE]. apply negb_true_iff, Nat.eqb_neq in NE. now apply KT.
      * apply KT; [exact I|]. intros E. destruct (MINE z I E) as [M1 M2]. rewrite M1 in TK. destruct (s_insts x); [now apply M2|discriminate TK].
Qed.
Lemma bare_links s x : W s -> In x (subs s) -> s_insts x = [] -> List.filter (not_sub (s_no x)) (links s) = links s.
Proof.
  intros H I E. apply filter_all. intros y Y. apply negb_true_iff, Nat.eqb_neq. intros D. apply (in_links _ _ _ (i_links _ _ _ _ (w_l s H))) in Y as (z & Z1 & Z2 & Z3).
  rewrite Z3 in D. cbn in D. assert (z = x) by (eapply nodup_no; [apply (i_no _ _ _ _ (w_l s H))|eassumption..]). subst z. apply targets_in in Z2. rewrite E in Z2. destruct Z2.
Qed.
Lemma again_J ans s x e s' : W s -> R s -> In x (subs s) -> s_el x = None -> kin s e (s_key x) -> again ans s x e = Ok s' -> J s -> J s'.
Proof.
  intros H HR I E K A HJ. pose proof (cached_bare s x H HR I E) as B. unfold again in A. destruct (handle ans (take_out s (s_no x)) true e (s_key x)) as [[s2 r]|[]|] eqn:HA; cbn in A; try discriminate A.
  assert (W0 : W (take_out s (s_no x))).
  { pose proof H as [H1 H2 H3 H4]. split; [exact H1|exact H2| |apply (InvK_filter (other (s_no x))), H4].
    unfold all_nodes. cbn [take_out tops subs links next_sub]. apply (InvL_del _ _ _ _ (s_no x)) in H3. rewrite (bare_links s x) in H3; [exact H3|exact H|exact I|exact B]. }
  assert (J0 : J (take_out s (s_no x))).
  { split.
    - exact (j_watched s HJ).
    - intros y e' Y SE. cbn in Y. apply filter_In in Y as [Y _]. exact (j_kin s HJ y e' Y SE).
    - exact (j_once s HJ).
    - intros z Z. destruct (j_timed s HJ z Z) as (y & Y1 & Y2 & Y3 & Y4). exists y. split; [|auto]. cbn. apply filter_In. split; [exact Y1|]. apply negb_true_iff, Nat.eqb_neq. intros D.
      assert (y = x) by (eapply nodup_no; [apply (i_no _ _ _ _ (w_l s H))|eassumption..]). subst y. apply targets_in in Y3. rewrite B in Y3. destruct Y3. }
  pose proof (add_J ans _ e _ s2 r W0 K HA J0) as J2. unfold free_sub in A. rewrite B in A. cbn in A. injection A as <-. apply (J_core s2); [repeat split|reflexivity|reflexivity|exact J2].
Qed.
Lemma again_subs ans s x e s' : again ans s x e = Ok s' -> exists nw, subs s' = List.filter (other (s_no x)) (subs s) ++ nw.
Proof.
  intros A. unfold again in A. destruct (handle ans (take_out s (s_no x)) true e (s_key x)) as [[s2 r]|[]|] eqn:HA; cbn in A; try discriminate A. apply free_inv in A as (_ & _ & _ & A & _). rewrite A.
  apply handle_add in HA as (up & t & s1 & early & _ & _ & _ & [(_ & (_ & _ & C & _) & _)|(_ & y & AD & _)]); [exists []; rewrite app_nil_r; exact C|].
  destruct AD as (_ & _ & _ & _ & _ & _ & _ & _ & X & _). exists [y]. exact X.
Qed.
Lemma again_tops ans s x e s' : again ans s x e = Ok s' -> tops s' = tops s.
Proof.
  unfold again. intros A. destruct (handle ans _ true e _) as [[s5 r5]|[]|] eqn:HA; cbn in A; try discriminate A. apply handle_tops in HA. apply free_inv in A as (A & _). cbn in HA. congruence.
Qed.
Lemma row_again_J ans look row K : forall suf pre post s s', W s -> R s -> subs s = pre ++ suf ++ post -> (forall x, In x suf -> is_prefix row (k_event (s_key x)) = true -> s_el x = None) ->
  incl (keys s) K -> (forall k e, In k K -> look (k_event k) = Some e -> kin s e k) ->
  row_again (length suf) ans look row (front (suf ++ post)) s = Ok s' -> J s -> J s'.
Proof.
  induction suf as [|x suf IH]; intros pre post s s' H HR ES CA IK KN Q HJ; cbn [length row_again] in Q; [destruct (front ([] ++ post)); injection Q as <-; exact HJ|].
  cbn [app front] in Q. rewrite ES in Q. pose proof (i_no _ _ _ _ (w_l s H)) as NO. rewrite ES in NO. cbn [app] in NO, Q. rewrite (item_at pre x (suf ++ post) NO) in Q.
  assert (IX : In x (subs s)) by (rewrite ES; apply in_or_app; right; now left).
  assert (SKIP : row_again (length suf) ans look row (front (suf ++ post)) s = Ok s' -> J s').
  { intros R0. apply (IH (pre ++ [x]) post s s' H HR); auto; [rewrite <- app_assoc; exact ES|]. intros y Y. apply CA. now right. }
  destruct (is_prefix row (k_event (s_key x))) eqn:PX; cbn [obind] in Q; [|now apply SKIP].
  destruct (look (k_event (s_key x))) as [e|] eqn:L; cbn [obind] in Q; [|now apply SKIP]. destruct (alive e s); cbn [obind] in Q; [|discriminate Q].
  destruct (again ans s x e) as [s1|[]|] eqn:A; cbn [obind] in Q; try discriminate Q.
  assert (NE : s_el x = None) by (apply CA; [now left|exact PX]). assert (KX : kin s e (s_key x)) by (apply KN; [apply IK, in_map, IX|exact L]).
  destruct (again_subs _ _ _ _ _ A) as (nw & E1). rewrite (other_split (subs s) x pre (suf ++ post)) in E1; [|rewrite ES; exact NO|exact ES].
  pose proof (again_tops _ _ _ _ _ A) as T1.
  destruct suf as [|x2 suf].
  { cbn [length row_again] in Q. assert (s' = s1) as -> by (destruct (front ([] ++ post)); now injection Q as <-). eapply again_J; eassumption. }
  apply (IH pre (post ++ nw) s1 s').
  - eapply again_W; eassumption.
  - eapply again_R; eassumption.
  - rewrite E1, !app_assoc. reflexivity.
  - intros y Y. apply CA. now right.
  - eapply incl_tran; [eapply again_keys; eassumption|exact IK].
  - intros k e' I0 L0. apply (kin_tops s1 s); [now symmetry|]. now apply KN.
  - exact Q.
  - eapply again_J; eassumption.
Qed.
Lemma cache_again_J ans name e K : forall fuel cur s s', W s -> R s -> incl (keys s) K -> (forall k, In k K -> kin s e k) -> cache_again fuel ans name e cur s = Ok s' -> J s -> J s'.
Proof.
  induction fuel as [|fuel IH]; intros [c|] s s' H HR IK KN Q HJ; cbn in Q; try (injection Q as <-; exact HJ); try discriminate Q.
  destruct (item c (subs s)) as [[x next]|] eqn:I; [|discriminate Q]. apply item_in in I.
  assert (KX : In (s_key x) K) by (apply IK, in_map, I).
  destruct (negb (is_some (s_el x)) && negb (is_some (s_chain x)) && name_fits (k_event (s_key x)) name) eqn:B; [|now apply IH in Q].
  apply andb_prop in B as [B _]. apply andb_prop in B as [B _]. assert (s_el x = None) as NE by (destruct (s_el x); [discriminate B|reflexivity]).
  destruct (again ans s x e) as [s1|[]|] eqn:A; cbn in Q; try discriminate Q. pose proof (again_tops _ _ _ _ _ A) as T1.
  apply IH in Q; auto.
  - eapply again_W; eassumption.
  - eapply again_R; eassumption.
  - eapply incl_tran; [eapply again_keys; eassumption|exact IK].
  - intros k I0. apply (kin_tops s1 s); [now symmetry|]. now apply KN.
  - eapply again_J; eauto.
Qed.
Lemma handle_del_incl ans s e k s' r : handle ans s false e k = Ok (s', r) -> incl (subs s') (subs s).
Proof.
  intros H. apply handle_del in H as (up & t & s1 & early & _ & _ & _ & [(_ & (_ & _ & C & _) & _)|(_ & _ & x & RM)]); [rewrite C; apply incl_refl|]. destruct RM as (_ & _ & _ & _ & X & _). rewrite X. apply incl_filter.
Qed.
Lemma disconnect_J ans found l : forall fuel cur s s', W s -> R s -> (forall x y e, In x (subs s) -> In y (subs s) -> k_event (s_key x) = k_event (s_key y) -> s_el x = Some e -> s_el y = Some e \/ s_el y = None) ->
  disconnect_loop fuel ans found l cur s = Ok s' -> J s -> J s'.
Proof.
  induction fuel as [|fuel IH]; intros [c|] s s' H HR CO Q HJ; cbn in Q; try (injection Q as <-; exact HJ); try discriminate Q.
  destruct (item c (subs s)) as [[x next]|] eqn:I; [|discriminate Q]. apply item_in in I.
  destruct (bytes_eqb (k_listener (s_key x)) l && found (k_event (s_key x))); cbn in Q; [|now apply IH in Q].
  destruct (s_el x) as [e|] eqn:EX; cbn in Q; [|now apply IH in Q].
  match type of Q with context [handle ans s false e ?k] => destruct (handle ans s false e k) as [[s1 r1]|[]|] eqn:HD; cbn in Q; try discriminate Q end.
  pose proof (handle_del_incl _ _ _ _ _ _ HD) as IN. apply IH in Q; [exact Q| | | |].
  - eapply handle_del_W; [exact H| |exact HD]. reflexivity.
  - eapply handle_del_R; [exact HR|exact HD].
  - intros y z e' Y Z. apply CO; now apply IN.
  - eapply del_J; [exact H|exact HR| | |exact HD|exact HJ]; [reflexivity|]. intros y Y EV. cbn in EV. apply (CO x y e I Y); [now symmetry|exact EX].
Qed.
Definition grown (s s' : state) : Prop := forall x, In x (subs s) -> exists y, In y (subs s') /\ same_but x y /\ incl (s_insts x) (s_insts y).
Lemma link_all_grown : forall new s s', link_all new s = Ok s' -> grown s s' /\ (forall y, In y (subs s') -> exists x, In x (subs s) /\ same_but x y).
Proof.
  induction new as [|[n p] new IH]; cbn; intros s s' H.
  { injection H as <-. split; intros x I; exists x; (split; [exact I|]); [split; [repeat split|apply incl_refl]|repeat split]. }
  destruct (link_new s n p (subs s)) as [[l k]|[]|] eqn:L; cbn in H; try discriminate H. apply link_new_ok in L as [L _]. apply IH in H as [H1 H2]. cbn in *.
  assert (TR : forall a b c, same_but a b -> same_but b c -> same_but a c) by (intros a b c (A1&A2&A3&A4&A5&A6) (B1&B2&B3&B4&B5&B6); repeat split; congruence).
  split.
  - intros x I. assert (exists y, In y l /\ same_but x y /\ incl (s_insts x) (s_insts y)) as (y & Y1 & Y2 & Y3).
    { clear - L I. induction L as [|a b l1 l2 (S & bb & E & _) L IHL]; [destruct I|]. destruct I as [<-|I]; [exists b; split; [now left|]; split; [exact S|rewrite E; apply incl_appl, incl_refl]|]. destruct (IHL I) as (y & Y & Z). exists y. split; [now right|exact Z]. }
    destruct (H1 y Y1) as (z & Z1 & Z2 & Z3). exists z. split; [exact Z1|]. split; [eauto|]. eapply incl_tran; eassumption.
  - intros z Z. destruct (H2 z Z) as (y & Y1 & Y2). cbn in Y1. destruct (forall2_in _ _ _ y L Y1) as (x & X1 & (X2 & _)). exists x. eauto.
Qed.
Lemma add_row_J ans look s t r s' : W s -> R s -> fair s (AddRow look t r) -> steady s (AddRow look t r) s' -> add_row ans look s t r = Ok s' -> J s -> J s'.
Proof.
  intros H HR F (AP & KS & CA) A HJ. cbn [apt] in AP. destruct (add_row_open _ _ _ _ _ _ H F A) as (up & u & re & p & s1 & s2 & s3 & FT & EP & EI & (E1 & E2 & E3 & E4 & E5) & FD & LA & RW & RA & NN & LO & HI & T3 & W2 & W3 & NX).
  pose proof (link_all_eff _ _ _ LA) as (L1 & L2 & L3 & L4 & L5). pose proof (link_all_grown _ _ _ LA) as [G1 G2]. pose proof (row_watch_on _ _ _ RW) as (R1 & R2 & R3). pose proof (row_watch_core _ _ _ _ RW) as [C3 _]. pose proof C3 as (_ & _ & C33 & C34 & _).
  pose proof (row_again_tops _ _ _ _ _ _ _ RA) as TS.
  assert (PU : forall n, property s n -> property s3 n). { intros n (q & p' & I & T). apply (property_tops s1 s3 n T3). exists q, p'. split; [apply NN; now left|exact T]. }
  assert (HR3 : R s3).
  { assert (R1' : R s1).
    { intros x I. rewrite E1 in I. pose proof (HR x I) as AX. unfold aimed in *. destruct (s_el x) as [e|]; [|exact AX].
      destruct AX as (LT & c & reg & X1 & X2 & X3). split; [lia|]. exists c, reg. split; [exact X1|]. split; [exact X2|].
      intros v w FW. destruct (FD _ _ _ LT FW) as (c0 & F0 & EI0). rewrite (X3 _ _ F0). unfold el_node. now rewrite EI0. }
    apply (R_incl s2); [congruence|now destruct C3 as (_ & -> & _)|rewrite C33; apply incl_refl|]. eapply link_all_R; eassumption. }
  assert (J3 : J s3).
  { split.
    - intros n I. rewrite (auto_core s2 s3) by exact C3. apply R3 in I as [I|(p' & I & IP & AL)].
      + rewrite L2, E3 in I. destruct (j_watched s HJ n I) as [PN AL]. split; [now apply PU|]. apply auto_any in AL as (y & Y & AL). apply auto_any. exists y. split; [apply L5; now rewrite E2|exact AL].
      + split; [|exact AL]. apply (property_tops s1 s3 n T3). destruct p' as [|q p']; [discriminate IP|]. exists q, p'. split; [apply NN; now right|]. cbn in IP. now apply Z.eqb_eq.
    - intros y e I SE. rewrite C33 in I. destruct (G2 y I) as (x & X1 & (_ & X2 & _ & X4 & _)). rewrite E1 in X1. apply (kin_tops s3 s'); [exact TS|]. rewrite X2. apply KS; [exact X1|congruence].
    - rewrite R1, L3, E4. apply (j_once s HJ).
    - intros z I. rewrite R1, L3, E4 in I. destruct (j_timed s HJ z I) as (x & X1 & X2 & X3 & X4 & X5 & X6). rewrite <- E1 in X1. destruct (G1 x X1) as (y & Y1 & (Y2 & Y3 & Y4 & _) & Y5).
      exists y. rewrite C33. split; [exact Y1|]. split; [congruence|]. split; [apply targets_in, Y5, targets_in, X3|]. split; [now apply PU|]. split; congruence. }
  eapply (row_again_J ans look _ (keys s) (subs s3) [] []); [exact W3|exact HR3|now rewrite app_nil_r| | | |rewrite app_nil_r; exact RA|exact J3].
  - intros y I PX. rewrite C33 in I. destruct (G2 y I) as (x & X1 & (_ & X2 & _ & X4 & _)). rewrite E1 in X1. rewrite X4. apply (CA x up u X1 FT). rewrite <- X2, <- EI. rewrite EP in PX. exact PX.
  - unfold keys. rewrite C33, (link_all_keys _ _ _ LA), E1. apply incl_refl.
  - intros k e I L. apply (kin_tops s3 s'); [exact TS|]. now apply AP.
Qed.
Lemma step_J ans s o s' r : W s -> R s -> fair s o -> step ans s o = Ok (s', r) -> steady s o s' -> J s -> J s'.
Proof.
  intros H HR F Q ST HJ. pose proof ST as [AP CO]. destruct o as [e k|e k|look t row|n|name e|found l]; cbn [step] in Q.
  - apply request_cases in Q as [(-> & _)|(n & -> & Q)]; [exact HJ|]. eapply add_J; [exact H| |exact Q|exact HJ]. apply (kin_tops s s'); [|exact AP]. eapply handle_tops, Q.
  - apply request_cases in Q as [(-> & _)|(n & -> & Q)]; [exact HJ|]. eapply del_J; try eassumption.
  - destruct (add_row ans look s t row) as [s1|[]|] eqn:A; cbn in Q; try discriminate Q. injection Q as <- _. eapply add_row_J; eassumption.
  - destruct CO.
  - destruct (registered ans s name e) as [s1|[]|] eqn:A; cbn in Q; try discriminate Q. injection Q as <- _. unfold registered in A. destruct (find_top e (tops s)); [|discriminate A].
    eapply (cache_again_J ans name e (keys s)); [exact H|exact HR|apply incl_refl| |exact A|exact HJ].
    intros k I. apply (kin_tops s s1); [|now apply AP]. revert A. generalize (2 * length (subs s))%nat, (front (subs s)). clear. intros fuel; revert s. induction fuel as [|fuel IH]; intros s [c|] R; cbn in R; try (now injection R as <-); try discriminate R.
    destruct (item c (subs s)) as [[x next]|] eqn:I; [|discriminate R]. destruct (negb _ && _ && _); [|now apply IH in R].
    destruct (again ans s x e) as [s2|[]|] eqn:AG; cbn in R; try discriminate R. apply IH in R. rewrite R. eapply again_tops, AG.
  - destruct (disconnect ans found s l) as [s1|[]|] eqn:A; cbn in Q; try discriminate Q. injection Q as <- _. eapply disconnect_J; eassumption.
Qed.
Lemma steady_apt ans s0 s : reach_steady ans s0 s -> reach_apt ans s0 s.
Proof. induction 1 as [|s o s' r H IH F Q [AP _]]; [constructor|econstructor; eassumption]. Qed.
Lemma init_J l c : J (init l c).
Proof.
  unfold init. destruct (number_all 0 l) as [es n]. split; cbn.
  - intros m [].
  - intros x e I SE. exfalso. revert I SE. generalize 0%nat. induction c as [|[[k a] i] c IH]; intros m I SE; cbn in I; [destruct I|]. destruct I as [<-|I]; [discriminate SE|eapply IH; eassumption].
  - constructor.
  - intros z [].
Qed.
Lemma reach_J ans l c s : good_cache c -> reach_steady ans (init l c) s -> J s.
Proof.
  intros G H. induction H as [|s o s' r H IH F Q ST]; [apply init_J|]. pose proof (apt_reach _ _ _ (steady_apt _ _ _ H)) as HR. eapply step_J; try eassumption; [eapply reach_W; [exact G|exact HR]|eapply reach_R; [exact G|exact HR]].
Qed.
