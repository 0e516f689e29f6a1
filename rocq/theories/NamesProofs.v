(** Proofs about the names of rows and elements (C79, C80). *)
From Coq Require Import String Sorted.
From Verif Require Import Common CommonFacts VecList TextModel Errors ElemModel ElemSpec ElemProofs ElemRows MsgModel MsgSpec WireModel WalkModel WalkProofs NamesModel NamesSpec.
From Verif Require TextSpec TextProofs MsgProofs.
From Coq Require Import Lia ZifyBool.
Local Open Scope string_scope.
Local Open Scope list_scope.
Local Open Scope Z_scope.

(** ** tables without get handlers stay so *)
Lemma quiet_inv : forall t, quiet t -> (is_table t = true -> getter (inf t) = false) /\ Forall (fun nc => quiet (snd nc)) (kids t).
Proof. intros t H. inversion H as [i a k G F]; subst. split; [|exact F]. unfold is_table. cbn [inf]. intros E. apply G, Z.eqb_eq, E. Qed.
Lemma quiet_mk : forall i a k, (typ i =? TABLE = true -> getter i = false) -> Forall (fun nc => quiet (snd nc)) k -> quiet (Node i a k).
Proof. intros i a k G F. constructor; [|exact F]. intros E. apply G, Z.eqb_eq, E. Qed.
Lemma quiet_getterless : forall t, quiet t -> getterless t.
Proof.
  intros t H p. revert t H. induction p as [|n p IH]; intros t H u S T.
  - cbn in S. injection S as ->. apply quiet_inv in H as [H _]. auto.
  - cbn [sub] in S. destruct (find_kid n (kids t) 0) as [(j, c)|] eqn:F; [|discriminate]. apply find_kid_nth, nth_error_In in F.
    apply quiet_inv in H as [_ H]. rewrite Forall_forall in H. exact (IH c (H _ F) u S T).
Qed.
Lemma quiet_empty : quiet empty.
Proof. constructor; [discriminate|constructor]. Qed.
Lemma vupdate_quiet : forall (p : name * tree -> bool) (f : tree -> tree) k,
  (forall t, quiet t -> quiet (f t)) -> Forall (fun nc => quiet (snd nc)) k -> Forall (fun nc => quiet (snd nc)) (vupdate p (fun kc => (fst kc, f (snd kc))) k).
Proof. induction k as [|x k IH]; intros H F; cbn [vupdate]; [constructor|]. inversion F; subst. destruct (p x); constructor; cbn [snd]; auto. Qed.
Lemma insert_quiet : forall p i t, (typ i =? TABLE = true -> getter i = false) -> quiet t -> quiet (insert p i t).
Proof.
  induction p as [|n p IH]; intros i t G H; cbn [insert]; apply quiet_inv in H as [H1 H2].
  - unfold set_node. apply quiet_mk; [exact G|]. destruct (typ i =? TABLE); [|exact H2]. constructor; [apply quiet_empty|constructor].
  - apply quiet_mk; [exact H1|]. destruct (vhas (named n) (kids t)).
    + apply (vupdate_quiet (named n) (insert p i)); auto.
    + apply Forall_app. split; auto. constructor; [apply IH; [exact G|apply quiet_empty]|constructor].
Qed.
Lemma dup_quiet : forall t, quiet t -> quiet (dup t).
Proof.
  fix D 2. intros t [i a k N F]. cbn [dup]. constructor; [exact N|]. clear N.
  induction F as [|x k H F IH]; cbn [map]; constructor; auto. cbn. apply D, H.
Qed.
Lemma chain_quiet : forall p t, quiet t -> Forall (fun nc => quiet (snd nc)) (chain_of t p).
Proof.
  induction p as [|n p IH]; intros t H; cbn [chain_of]; [constructor|]. destruct (vfind (named n) (kids t)) as [(m, c)|] eqn:V; [|constructor].
  apply quiet_inv in H as [_ H]. rewrite Forall_forall in H. apply vfind_In in V. pose proof (H _ V). constructor; auto.
Qed.
Lemma rep_quiet : forall ch t, Forall (fun nc => quiet (snd nc)) ch -> quiet t -> quiet (rep ch t).
Proof.
  induction ch as [|(n, s) ch IH]; intros t F H; cbn [rep]; [exact H|]. inversion F as [|? ? F1 F2]; subst. cbn in F1.
  apply quiet_inv in H as [H1 H2]. apply quiet_mk; [exact H1|]. destruct (is_table t); [|destruct (vhas (named n) (kids t)) eqn:V].
  - apply Forall_map. eapply Forall_impl; [|exact H2]. cbn. auto.
  - apply (vupdate_quiet (named n) (rep ch)); auto.
  - apply Forall_app. split; auto. constructor; [apply dup_quiet, F1|constructor].
Qed.
Lemma replicate_quiet : forall p t, quiet t -> quiet (replicate p t).
Proof.
  induction p as [|n p IH]; intros t H; cbn [replicate]; [exact H|]. apply quiet_inv in H as [H1 H2].
  apply quiet_mk; [exact H1|]. destruct (is_table t).
  - apply Forall_map. eapply Forall_impl; [|exact H2]. cbv beta. intros kc U. destruct (is_row kc); [|exact U]. cbn. apply rep_quiet; auto.
    destruct (vfind (named n) (kids t)) as [(m, c)|] eqn:V; [|constructor]. apply chain_quiet. apply vfind_In in V. rewrite Forall_forall in H2. apply (H2 _ V).
  - apply (vupdate_quiet (named n) (replicate p)); auto.
Qed.
Lemma at_pos_quiet : forall pos f t x, node_of t pos = Some x -> quiet t -> (quiet x -> quiet (f x)) -> quiet (at_pos pos f t).
Proof.
  induction pos as [|j pos IH]; intros f t x N H F; cbn [node_of at_pos] in *; [injection N as ->; auto|].
  destruct (nth_error (kids t) j) as [(m, c)|] eqn:E; [|exact H]. apply quiet_inv in H as [H1 H2].
  assert (UC : quiet c). { rewrite Forall_forall in H2. apply nth_error_In in E. apply (H2 _ E). }
  apply quiet_mk; [exact H1|]. apply upd_forall; auto. cbn. eapply IH; eauto.
Qed.
Lemma delete_quiet : forall pos t, quiet t -> quiet (delete pos t).
Proof.
  induction pos as [|j pos IH]; intros t H; [exact H|]. pose proof H as H0. apply quiet_inv in H as [H1 H2]. destruct pos as [|j' pos].
  - cbn [delete]. apply quiet_mk; [exact H1|apply drop_forall, H2].
  - rewrite delete_cons. destruct (nth_error (kids t) j) as [(m, c)|] eqn:E; [|exact H0].
    assert (UC : quiet c). { rewrite Forall_forall in H2. apply nth_error_In in E. apply (H2 _ E). }
    apply quiet_mk; [exact H1|]. apply upd_forall; auto. cbn. apply IH; auto.
Qed.
Lemma set_alias_quiet : forall a t, quiet t -> quiet (set_alias a t).
Proof. intros a [i b k] H. inversion H; subst. constructor; auto. Qed.
Lemma add_row_quiet : forall pos x n a t t', node_of t pos = Some x -> quiet t -> add_row pos x n a t = Ok t' -> quiet t'.
Proof.
  intros pos x n a t t' N H E. unfold add_row in E. destruct (vfind (named TEMPLATE) (kids x)) as [(m, c)|] eqn:V; [|discriminate]. injection E as <-.
  eapply at_pos_quiet; eauto. intros UX. apply quiet_inv in UX as [U1 U2]. apply quiet_mk; [exact U1|].
  apply Forall_app. split; auto. constructor; [|constructor]. cbn. apply set_alias_quiet, dup_quiet. apply vfind_In in V. rewrite Forall_forall in U2. apply (U2 _ V).
Qed.
Definition quiet_op (o : op) : Prop := match o with Register _ i => typ i = TABLE -> getter i = false | _ => True end.
Lemma step_quiet : forall t o t' e, quiet t -> quiet_op o -> step t o = Ok (t', e) -> quiet t'.
Proof.
  intros t o t' e H F S. destruct o as [s i|tb n a|row|tb a ans|row ok]; cbn [step quiet_op] in *.
  - assert (G : typ i =? TABLE = true -> getter i = false) by (intros E; apply F, Z.eqb_eq, E).
    destruct s; injection S as <- _; auto. unfold insert_element. apply replicate_quiet, insert_quiet; auto.
  - destruct (Nat.leb 256 (length (tb ++ print_dec (as_int n)))); [injection S as <- _; auto|].
    destruct (retrieve_instance t (tb ++ print_dec (as_int n))); [injection S as <- _; auto|].
    destruct (retrieve_instance t tb) as [(pos, x)|] eqn:R; [|injection S as <- _; auto].
    destruct (add_row pos x n a t) as [t2| |] eqn:A; cbn in S; try discriminate. injection S as <- _.
    eapply add_row_quiet; eauto using instance_node.
  - destruct (retrieve_instance t row) as [(pos, x)|]; injection S as <- _; auto using delete_quiet.
  - destruct (retrieve t tb); [|injection S as <- _; auto].
    destruct (retrieve_instance t tb) as [(pos, x)|] eqn:R; [|injection S as <- _; auto].
    destruct ans as [n|]; [|injection S as <- _; auto].
    destruct (add_row pos x n a t) as [t2| |] eqn:A; cbn in S; try discriminate. injection S as <- _.
    eapply add_row_quiet; eauto using instance_node.
  - destruct (retrieve t row); [|injection S as <- _; auto].
    destruct (retrieve_instance t row) as [(pos, x)|]; [|injection S as <- _; auto].
    destruct ok; injection S as <- _; auto using delete_quiet.
Qed.
Lemma run_quiet : forall l t t', quiet t -> Forall quiet_op l -> run t l = Ok t' -> quiet t'.
Proof.
  induction l as [|o l IH]; intros t t' U F R; cbn [run] in *; [injection R as <-; exact U|].
  inversion F; subst. destruct (step t o) as [(t2, e)| |] eqn:S; cbn in R; try discriminate. eapply IH; [|eassumption|exact R]. eapply step_quiet; eauto.
Qed.

(** ** what is seen of the rows *)
Definition rowlike (kc : name * tree) : bool := negb (bytes_eqb (fst kc) TEMPLATE).
Definition vis (k : list (name * tree)) : list (name * option name) := map (fun kc => (fst kc, alias (snd kc))) (List.filter rowlike k).
Lemma vis_app : forall k k', vis (k ++ k') = vis k ++ vis k'.
Proof. intros. unfold vis. rewrite filter_app, map_app. reflexivity. Qed.
Lemma vis_cons : forall n c k, vis ((n, c) :: k) = (if bytes_eqb n TEMPLATE then [] else [(n, alias c)]) ++ vis k.
Proof. intros. unfold vis. cbn [List.filter]. unfold rowlike at 1. cbn [fst]. destruct (bytes_eqb n TEMPLATE); reflexivity. Qed.
Lemma vis_map : forall (f : name * tree -> tree) k, (forall n c, alias (f (n, c)) = alias c) -> vis (map (fun kc => (fst kc, f kc)) k) = vis k.
Proof. intros f k H. induction k as [|(n, c) k IH]; [reflexivity|]. cbn [map fst]. rewrite !vis_cons, IH, H. reflexivity. Qed.
Lemma vis_vupdate : forall n (f : tree -> tree) k, (forall c, alias (f c) = alias c) -> vis (vupdate (named n) (fun kc => (fst kc, f (snd kc))) k) = vis k.
Proof.
  intros n f k H. induction k as [|(m, c) k IH]; [reflexivity|]. cbn [vupdate]. destruct (named n (m, c)); cbn [fst snd]; rewrite !vis_cons, ?IH, ?H; reflexivity.
Qed.
Lemma vis_upd : forall k j m c c', nth_error k j = Some (m, c) -> alias c' = alias c -> vis (upd k j (m, c')) = vis k.
Proof.
  induction k as [|(n, d) k IH]; intros [|j] m c c' E A; cbn in E; try discriminate; cbn [upd]; rewrite !vis_cons.
  - injection E as -> ->. rewrite A. reflexivity.
  - rewrite (IH j m c c' E A). reflexivity.
Qed.
Lemma insert_alias : forall p i t, alias (insert p i t) = alias t.
Proof. intros [|n p] i t; reflexivity. Qed.
Lemma rep_alias : forall ch t, alias (rep ch t) = alias t.
Proof. intros [|[n s] ch] t; reflexivity. Qed.
Lemma replicate_alias : forall p t, alias (replicate p t) = alias t.
Proof. intros [|n p] t; reflexivity. Qed.
Lemma at_append_alias : forall pos nm r t, alias (at_pos pos (append_row nm r) t) = alias t.
Proof. intros [|j pos] nm r t; [reflexivity|]. cbn [at_pos]. destruct (nth_error (kids t) j) as [[m c]|]; reflexivity. Qed.
Lemma delete_alias : forall pos t, alias (delete pos t) = alias t.
Proof. intros [|j [|j' pos]] t; [reflexivity|reflexivity|]. rewrite delete_cons. destruct (nth_error (kids t) j) as [[m c]|]; reflexivity. Qed.

(** [t'] shows at [T] the same as [x] *)
Definition keeps (x : tree) (t' : tree) (T : list name) : Prop :=
  exists x', sub t' T = Some x' /\ is_table x' = true /\ vis (kids x') = vis (kids x).
Lemma insert_vis : forall T p i t x, sub t T = Some x -> is_table x = true -> p <> T ->
  (typ i = TABLE -> below p T = None) -> (forall n r, below T p = Some (n :: r) -> n = TEMPLATE) -> keeps x (insert p i t) T.
Proof.
  induction T as [|m T IH]; intros p i t x S TX NE B1 B2.
  - cbn in S. injection S as ->. destruct p as [|n p]; [congruence|]. specialize (B2 n p eq_refl). subst n.
    eexists. split; [reflexivity|]. split; [exact TX|]. cbn [insert kids]. destruct (vhas (named TEMPLATE) (kids x)).
    + apply (vis_vupdate TEMPLATE (insert p i)). apply insert_alias.
    + rewrite vis_app, vis_cons. rewrite bytes_eqb_refl. cbn. rewrite app_nil_r. reflexivity.
  - rewrite sub_cons in S. destruct (kid m (kids t)) as [c|] eqn:K; [|discriminate]. destruct p as [|n p].
    + assert (NT : typ i =? TABLE = false). { apply Z.eqb_neq. intros E. specialize (B1 E). discriminate. }
      exists x. split; [|auto]. cbn [insert]. unfold set_node. rewrite NT, sub_cons. cbn [kids]. rewrite K. exact S.
    + cbn [insert]. unfold keeps. setoid_rewrite sub_cons. cbn [kids]. destruct (vhas (named n) (kids t)) eqn:V.
      * rewrite (kid_update n m (insert p i)). destruct (bytes_eqb n m) eqn:E.
        -- apply bytes_eqb_eq in E. subst n. rewrite K. cbn [option_map]. cbn [below] in B1, B2. rewrite bytes_eqb_refl in B1, B2.
           apply (IH p i c x); auto. congruence.
        -- rewrite K. exists x. auto.
      * rewrite kid_app, K. exists x. auto.
Qed.
Lemma rep_vis : forall T ch t x, sub t T = Some x -> is_table x = true -> keeps x (rep ch t) T.
Proof.
  induction T as [|m T IH]; intros ch t x S TX; destruct ch as [|(n, s) ch]; try (exists x; cbn [rep]; auto; fail).
  - cbn in S. injection S as ->. cbn [rep]. rewrite TX. eexists. split; [reflexivity|]. split; [exact TX|]. cbn [kids].
    apply (vis_map (fun kc => rep ch (snd kc))). intros. apply rep_alias.
  - rewrite sub_cons in S. destruct (kid m (kids t)) as [c|] eqn:K; [|discriminate]. cbn [rep]. unfold keeps. setoid_rewrite sub_cons. cbn [kids].
    destruct (is_table t); [|destruct (vhas (named n) (kids t))].
    + rewrite (kid_map m (fun _ c => rep ch c)), K. cbn [option_map]. apply (IH ch c x S TX).
    + rewrite (kid_update n m (rep ch)). destruct (bytes_eqb n m) eqn:E.
      * apply bytes_eqb_eq in E. subst n. rewrite K. cbn [option_map]. apply (IH ch c x S TX).
      * rewrite K. exists x. auto.
    + rewrite kid_app, K. exists x. auto.
Qed.
Lemma replicate_vis : forall T p t x, sub t T = Some x -> is_table x = true -> keeps x (replicate p t) T.
Proof.
  induction T as [|m T IH]; intros p t x S TX; destruct p as [|n p]; try (exists x; cbn [replicate]; auto; fail).
  - cbn in S. injection S as ->. cbn [replicate]. rewrite TX. eexists. split; [reflexivity|]. split; [exact TX|]. cbn [kids].
    set (ch := match vfind (named n) (kids x) with Some (_, c) => chain_of c p | None => [] end). clearbody ch.
    rewrite <- (vis_map (fun kc => if is_row kc then rep ch (snd kc) else snd kc) (kids x)).
    + f_equal. apply map_ext. intros [k c]. destruct (is_row (k, c)); reflexivity.
    + intros k c. destruct (is_row (k, c)); [apply rep_alias|reflexivity].
  - rewrite sub_cons in S. destruct (kid m (kids t)) as [c|] eqn:K; [|discriminate]. cbn [replicate]. unfold keeps. setoid_rewrite sub_cons. cbn [kids].
    destruct (is_table t).
    + set (ch := match vfind (named n) (kids t) with Some (_, c) => chain_of c p | None => [] end). clearbody ch.
      assert (E : map (fun kc => if is_row kc then (fst kc, rep ch (snd kc)) else kc) (kids t)
                  = map (fun kc => (fst kc, (fun a b => if is_row (a, b) then rep ch b else b) (fst kc) (snd kc))) (kids t)).
      { apply map_ext. intros [k d]. cbn [fst snd]. destruct (is_row (k, d)); reflexivity. }
      rewrite E, (kid_map m (fun a b => if is_row (a, b) then rep ch b else b)), K. cbn [option_map].
      destruct (is_row (m, c)); [apply (rep_vis T ch c x S TX)|exists x; auto].
    + rewrite (kid_update n m (replicate p)). destruct (bytes_eqb n m) eqn:E.
      * apply bytes_eqb_eq in E. subst n. rewrite K. cbn [option_map]. apply (IH p c x S TX).
      * rewrite K. exists x. auto.
Qed.
Lemma register_vis : forall T s i t x, sub t T = Some x -> is_table x = true -> tokens (strip (typ i) s) <> T ->
  (typ i = TABLE -> below (tokens (strip (typ i) s)) T = None) -> (forall n r, below T (tokens (strip (typ i) s)) = Some (n :: r) -> n = TEMPLATE) ->
  keeps x (insert_element s i t) T.
Proof.
  intros T s i t x S TX NE B1 B2. unfold insert_element.
  destruct (insert_vis T _ i t x S TX NE B1 B2) as (x1 & S1 & T1 & V1).
  destruct (replicate_vis T (tokens (strip (typ i) s)) _ x1 S1 T1) as (x2 & S2 & T2 & V2). exists x2. split; [exact S2|]. split; [exact T2|]. congruence.
Qed.

(** ** places *)
Lemma find_kid_upd : forall k m j n c c', nth_error k j = Some (n, c) ->
  find_kid m (upd k j (n, c')) 0 = match find_kid m k 0 with Some (j0, c0) => Some (j0, if Nat.eqb j j0 then c' else c0) | None => None end.
Proof.
  induction k as [|(a, d) k IH]; intros m [|j] n c c' E; cbn in E; try discriminate; cbn [upd find_kid].
  - injection E as -> ->. destruct (bytes_eqb n m); [reflexivity|]. rewrite (find_kid_shift m k 1). destruct (find_kid m k 0) as [(j0, c0)|]; [|reflexivity].
    cbn [option_map fst snd]. rewrite Nat.add_1_r. reflexivity.
  - destruct (bytes_eqb a m); [reflexivity|]. rewrite (find_kid_shift m _ 1), (IH m j n c c' E), (find_kid_shift m k 1).
    destruct (find_kid m k 0) as [(j0, c0)|]; [|reflexivity]. cbn [option_map fst snd]. rewrite Nat.add_1_r. reflexivity.
Qed.
Lemma find_kid_drop : forall k m j j0 c0, find_kid m k 0 = Some (j0, c0) -> j <> j0 -> exists j1, find_kid m (drop_nth k j) 0 = Some (j1, c0).
Proof.
  induction k as [|(a, d) k IH]; intros m j j0 c0 F N; cbn [find_kid] in F; [discriminate|]. destruct (bytes_eqb a m) eqn:E.
  - injection F as <- <-. destruct j as [|j]; [congruence|]. cbn [drop_nth find_kid]. rewrite E. eauto.
  - rewrite (find_kid_shift m k 1) in F. destruct (find_kid m k 0) as [(j1, c1)|] eqn:F1; [|discriminate]. cbn in F. injection F as <- <-.
    destruct j as [|j]; cbn [drop_nth]; [eauto|]. cbn [find_kid]. rewrite E. destruct (IH m j j1 c1 F1 ltac:(lia)) as (j2 & F2).
    rewrite (find_kid_shift m _ 1), F2. cbn. eauto.
Qed.
Lemma sub_find : forall t n T, sub t (n :: T) = match find_kid n (kids t) 0 with Some (_, c) => sub c T | None => None end.
Proof. reflexivity. Qed.
Lemma ipos_prefix : forall T2 T t x y r, sub t T2 = Some y -> sub t T = Some x -> ipos t T = ipos t T2 ++ r -> exists r', below T2 T = Some r'.
Proof.
  induction T2 as [|n T2 IH]; intros T t x y r S2 S I; [cbn; eauto|].
  rewrite sub_find in S2. cbn [ipos] in I. destruct (find_kid n (kids t) 0) as [(jn, c)|] eqn:F; [|discriminate].
  destruct T as [|m T]; [discriminate|]. rewrite sub_find in S. cbn [ipos] in I. destruct (find_kid m (kids t) 0) as [(jm, d)|] eqn:G; [|discriminate].
  cbn [app] in I. injection I as -> I. apply find_kid_nth in F. apply find_kid_nth in G. rewrite F in G. injection G as <- <-.
  cbn [below]. rewrite bytes_eqb_refl. eapply IH; eauto.
Qed.
Lemma ipos_inj : forall T2 T t x y, sub t T2 = Some y -> sub t T = Some x -> ipos t T = ipos t T2 -> T2 = T.
Proof.
  intros T2 T t x y S2 S I.
  destruct (ipos_prefix T2 T t x y [] S2 S) as [r1 B1]; [rewrite app_nil_r; exact I|].
  destruct (ipos_prefix T T2 t y x [] S S2) as [r2 B2]; [rewrite app_nil_r; auto|].
  apply below_some in B1. apply below_some in B2. rewrite B1 in B2. rewrite <- app_assoc in B2. rewrite <- (app_nil_r T2) in B2 at 1.
  apply app_inv_head in B2. destruct r1; [rewrite app_nil_r in B1; congruence|discriminate].
Qed.
Lemma ipos_snoc : forall T t n y, sub t (T ++ [n]) = Some y -> exists x j, sub t T = Some x /\ nth_error (kids x) j = Some (n, y) /\ ipos t (T ++ [n]) = ipos t T ++ [j].
Proof.
  induction T as [|m T IH]; intros t n y S; cbn [app] in S; rewrite sub_find in S.
  - destruct (find_kid n (kids t) 0) as [(j, c)|] eqn:F; [|discriminate]. cbn in S. injection S as ->. exists t, j. split; [reflexivity|].
    split; [apply find_kid_nth, F|]. cbn [app ipos]. rewrite F. reflexivity.
  - destruct (find_kid m (kids t) 0) as [(j, c)|] eqn:F; [|discriminate]. destruct (IH c n y S) as (x & k & S1 & N & I).
    exists x, k. rewrite sub_find, F. split; [exact S1|]. split; [exact N|]. cbn [app ipos]. rewrite F, I. reflexivity.
Qed.
Lemma append_vis : forall T t x pos nm r, sub t T = Some x -> is_table x = true -> ipos t T <> pos -> keeps x (at_pos pos (append_row nm r) t) T.
Proof.
  induction T as [|m T IH]; intros t x pos nm r S TX N.
  - cbn in S. injection S as ->. destruct pos as [|j pos]; [cbn in N; congruence|]. cbn [at_pos].
    destruct (nth_error (kids x) j) as [(n, c)|] eqn:E; [|exists x; auto]. eexists. split; [reflexivity|]. split; [exact TX|]. cbn [kids].
    eapply vis_upd; [exact E|]. apply at_append_alias.
  - rewrite sub_find in S. destruct (find_kid m (kids t) 0) as [(j0, c)|] eqn:F; [|discriminate]. cbn [ipos] in N. rewrite F in N.
    destruct pos as [|j pos]; unfold keeps.
    + cbn [at_pos]. exists x. rewrite sub_find. cbn [append_row kids]. rewrite find_kid_app, F. auto.
    + cbn [at_pos]. destruct (nth_error (kids t) j) as [(n, d)|] eqn:E; [|exists x; rewrite sub_find, F; auto].
      setoid_rewrite sub_find. cbn [kids]. rewrite (find_kid_upd (kids t) m j n d _ E), F. destruct (Nat.eqb_spec j j0) as [->|NJ]; [|exists x; auto].
      apply find_kid_nth in F. rewrite F in E. injection E as <- <-. apply IH; auto. congruence.
Qed.
Lemma delete_vis : forall T t x pos, sub t T = Some x -> is_table x = true -> (forall r, ipos t T <> pos ++ r) -> (forall j, pos <> ipos t T ++ [j]) -> keeps x (delete pos t) T.
Proof.
  induction T as [|m T IH]; intros t x pos S TX N1 N2.
  - cbn in S. injection S as ->. destruct pos as [|j [|j' pos]]; [specialize (N1 []); cbn in N1; congruence|specialize (N2 j); cbn in N2; congruence|].
    rewrite delete_cons. destruct (nth_error (kids x) j) as [(n, c)|] eqn:E; [|exists x; auto]. eexists. split; [reflexivity|]. split; [exact TX|].
    cbn [kids]. eapply vis_upd; [exact E|]. apply delete_alias.
  - rewrite sub_find in S. destruct (find_kid m (kids t) 0) as [(j0, c)|] eqn:F; [|discriminate]. cbn [ipos] in N1, N2. rewrite F in N1, N2.
    destruct pos as [|j [|j' pos]]; unfold keeps.
    + exists x. cbn [delete]. rewrite sub_find, F. auto.
    + cbn [delete]. setoid_rewrite sub_find. cbn [kids]. destruct (find_kid_drop (kids t) m j j0 c F) as [j1 ->]; [|exists x; auto].
      intros ->. apply (N1 (ipos c T)). reflexivity.
    + rewrite delete_cons. destruct (nth_error (kids t) j) as [(n, d)|] eqn:E; [|exists x; rewrite sub_find, F; auto].
      setoid_rewrite sub_find. cbn [kids]. rewrite (find_kid_upd (kids t) m j n d _ E), F. destruct (Nat.eqb_spec j j0) as [->|NJ]; [|exists x; auto].
      apply find_kid_nth in F. rewrite F in E. injection E as <- <-. apply IH; auto.
      * intros r Q. apply (N1 r). rewrite Q. reflexivity.
      * intros k Q. apply (N2 k). rewrite Q. reflexivity.
Qed.
Lemma sub_delete : forall T t x j, sub t T = Some x -> sub (delete (ipos t T ++ [j]) t) T = Some (Node (inf x) (alias x) (drop_nth (kids x) j)).
Proof.
  induction T as [|m T IH]; intros t x j S.
  - cbn in S. injection S as ->. reflexivity.
  - rewrite sub_find in S. cbn [ipos]. destruct (find_kid m (kids t) 0) as [(j0, c)|] eqn:F; [|discriminate]. cbn [app].
    destruct (ipos c T ++ [j]) as [|j1 pos] eqn:P; [destruct (ipos c T); discriminate|]. rewrite delete_cons. pose proof (find_kid_nth _ _ _ _ F) as E. rewrite E.
    rewrite sub_find. cbn [kids]. rewrite (find_kid_upd (kids t) m j0 m c _ E), F, Nat.eqb_refl. rewrite <- P. apply IH, S.
Qed.
Lemma vis_in : forall k n c, In (n, c) k -> n <> TEMPLATE -> In n (map fst (vis k)).
Proof.
  intros k n c I N. unfold vis. rewrite map_map. cbn [fst]. change (fun x : name * tree => fst x) with (@fst name tree). apply in_map_iff. exists (n, c). split; [reflexivity|].
  apply filter_In. split; [exact I|]. unfold rowlike. cbn [fst]. destruct (bytes_eqb n TEMPLATE) eqn:E; [apply bytes_eqb_eq in E; congruence|reflexivity].
Qed.
Lemma filter_none : forall A (f : A -> bool) l, (forall x, In x l -> f x = true) -> List.filter f l = l.
Proof. induction l as [|x l IH]; intros H; [reflexivity|]. cbn [List.filter]. rewrite (H x) by (left; reflexivity). f_equal. apply IH. intros. apply H. right. assumption. Qed.
Lemma vis_drop : forall k j n c, nth_error k j = Some (n, c) -> n <> TEMPLATE -> NoDup (map fst (vis k)) ->
  vis (drop_nth k j) = List.filter (fun r => negb (bytes_eqb (fst r) n)) (vis k).
Proof.
  induction k as [|(a, d) k IH]; intros [|j] n c E N ND; cbn in E; try discriminate; cbn [drop_nth]; rewrite vis_cons in *.
  - injection E as -> ->. destruct (bytes_eqb n TEMPLATE) eqn:B; [apply bytes_eqb_eq in B; congruence|]. cbn [app List.filter fst]. rewrite bytes_eqb_refl. cbn [negb].
    cbn [app map fst] in ND. inversion ND as [|? ? NI _]; subst. symmetry. apply filter_none. intros [m o] I. cbn [fst].
    destruct (bytes_eqb m n) eqn:M; [|reflexivity]. exfalso. apply bytes_eqb_eq in M. subst m. apply NI. apply in_map_iff. exists (n, o). auto.
  - rewrite vis_cons, filter_app. assert (ND2 : NoDup (map fst (vis k))) by (rewrite map_app in ND; apply nodup_app_r in ND; exact ND).
    rewrite (IH j n c E N ND2). f_equal. destruct (bytes_eqb a TEMPLATE) eqn:B; [reflexivity|]. cbn [List.filter fst].
    destruct (bytes_eqb a n) eqn:M; [|reflexivity]. exfalso. apply bytes_eqb_eq in M. subst a. cbn [app map fst] in ND. inversion ND as [|? ? NI _]; subst. apply NI.
    eapply vis_in; [eapply nth_error_In; exact E|exact N].
Qed.

(** ** a history keeps the list of rows *)
Lemma print_dec_inj : forall a b, 0 <= a < 2 ^ 31 -> 0 <= b < 2 ^ 31 -> print_dec a = print_dec b -> a = b.
Proof.
  intros a b A B E. destruct (TextProofs.print_dec_spec a) as (na & sa & da & Ea & Sa & Fa & Na & Va & Wa & _ & _ & Ha); [lia|].
  destruct (TextProofs.print_dec_spec b) as (nb & sb & db & Eb & Sb & Fb & Nb & Vb & Wb & _ & _ & Hb); [lia|].
  assert (Q : forall ds s, Forall TextSpec.dec_char ds -> ds <> [] -> s = [] \/ s = [45] -> hd 0 (s ++ ds) = 45 -> s = [45]).
  { intros ds s F N H X. destruct H; [|assumption]. subst s. destruct ds as [|c ds]; [congruence|]. inversion F; subst. cbn in X. unfold TextSpec.dec_char in *. lia. }
  rewrite E in Ea. assert (SE : sa = sb).
  { assert (K : sa ++ da = sb ++ db) by congruence. destruct Ha as [->| ->], Hb as [->| ->]; auto.
    - apply (Q da []); auto. rewrite K. reflexivity.
    - symmetry. apply (Q db []); auto. rewrite <- K. reflexivity. }
  subst sb. assert (da = db) by (apply (app_inv_head sa); congruence). subst db. lia.
Qed.

Lemma holds_vis : forall t T l, holds t T l <-> exists x, sub t T = Some x /\ is_table x = true /\ vis (kids x) = map (fun r => (print_dec (fst r), snd r)) l /\
  NoDup (map fst l) /\ Forall (fun r => 0 <= fst r < 2 ^ 31) l.
Proof. reflexivity. Qed.
Lemma keeps_holds : forall t t' T l x, sub t T = Some x -> is_table x = true -> vis (kids x) = map (fun r => (print_dec (fst r), snd r)) l ->
  NoDup (map fst l) -> Forall (fun r => 0 <= fst r < 2 ^ 31) l -> keeps x t' T -> holds t' T l.
Proof. intros t t' T l x S TX V ND F (x' & S' & T' & V'). apply holds_vis. exists x'. rewrite V'. auto. Qed.
Lemma added_holds : forall t T l x n a t1, sub t T = Some x -> is_table x = true -> vis (kids x) = map (fun r => (print_dec (fst r), snd r)) l ->
  NoDup (map fst l) -> Forall (fun r => 0 <= fst r < 2 ^ 31) l -> 0 <= n < 2 ^ 31 -> ~ In n (map fst l) ->
  add_row (ipos t T) x n a t = Ok t1 -> holds t1 T (l ++ [(n, a)]).
Proof.
  intros t T l x n a t1 S TX V ND F B NI A. unfold add_row in A. destruct (vfind (named TEMPLATE) (kids x)) as [(m, tmpl)|]; [|discriminate]. injection A as <-.
  apply holds_vis. eexists. split; [apply (sub_at_pos T t x _ S)|]. split; [exact TX|]. cbn [kids]. rewrite vis_app, V, map_app, vis_cons. cbn [map fst snd].
  rewrite print_dec_not_template. destruct tmpl as [i0 a0 k0]. cbn [dup set_alias alias app]. split; [reflexivity|]. split.
  - rewrite map_app. apply nodup_snoc; auto.
  - apply Forall_app. auto.
Qed.
Lemma row_nodup : forall l, NoDup (map fst l) -> Forall (fun r : Z * option name => 0 <= fst r < 2 ^ 31) l -> NoDup (map fst (map (fun r : Z * option name => (print_dec (fst r), snd r)) l)).
Proof.
  induction l as [|(n, a) l IH]; intros ND F; cbn [map fst snd]; [constructor|]. inversion ND as [|? ? NI ND2]; subst. inversion F as [|? ? B F2]; subst. constructor; [|auto].
  intros I. rewrite map_map in I. cbn [fst] in I. apply in_map_iff in I as ((m, b) & E & I). cbn [fst] in *. rewrite Forall_forall in *.
  apply (print_dec_inj m n (F2 _ I) B) in E. subst m. apply NI. apply in_map_iff. exists (n, b). auto.
Qed.
Lemma filter_print : forall l n, Forall (fun r : Z * option name => 0 <= fst r < 2 ^ 31) l -> 0 <= n < 2 ^ 31 ->
  List.filter (fun r => negb (bytes_eqb (fst r) (print_dec n))) (map (fun r : Z * option name => (print_dec (fst r), snd r)) l)
  = map (fun r => (print_dec (fst r), snd r)) (List.filter (fun r => negb (fst r =? n)) l).
Proof.
  induction l as [|(m, a) l IH]; intros n F B; [reflexivity|]. inversion F; subst. cbn [map List.filter fst snd]. rewrite IH by assumption.
  destruct (Z.eqb_spec m n) as [->|N]; [rewrite bytes_eqb_refl; reflexivity|].
  destruct (bytes_eqb (print_dec m) (print_dec n)) eqn:E; [|reflexivity]. apply bytes_eqb_eq in E. apply print_dec_inj in E; [congruence| |]; assumption.
Qed.
Lemma nodup_filter_fst : forall (f : Z * option name -> bool) l, NoDup (map fst l) -> NoDup (map fst (List.filter f l)).
Proof.
  induction l as [|x l IH]; intros ND; [constructor|]. inversion ND as [|? ? NI ND2]; subst. cbn [List.filter]. destruct (f x); [|auto]. cbn [map]. constructor; auto.
  intros I. apply NI. apply in_map_iff in I as (y & E & I). apply filter_In in I as [I _]. rewrite <- E. apply in_map, I.
Qed.
Lemma removed_holds : forall t T l x n y, sub t T = Some x -> is_table x = true -> vis (kids x) = map (fun r => (print_dec (fst r), snd r)) l ->
  NoDup (map fst l) -> Forall (fun r => 0 <= fst r < 2 ^ 31) l -> 0 <= n < 2 ^ 31 ->
  sub t (T ++ [print_dec n]) = Some y -> holds (delete (ipos t (T ++ [print_dec n])) t) T (List.filter (fun r => negb (fst r =? n)) l).
Proof.
  intros t T l x n y S TX V ND F B SY. destruct (ipos_snoc T t _ y SY) as (x' & j & S' & N & I). assert (x' = x) by congruence. subst x'. rewrite I.
  apply holds_vis. eexists. split; [apply sub_delete; exact S|]. split; [exact TX|]. cbn [kids].
  assert (NT : print_dec n <> TEMPLATE) by (apply bytes_eqb_neq, print_dec_not_template).
  rewrite (vis_drop (kids x) j _ y N NT) by (rewrite V; apply row_nodup; assumption). rewrite V, filter_print by assumption.
  split; [reflexivity|]. split; [apply nodup_filter_fst, ND|]. rewrite Forall_forall in *. intros r R. apply filter_In in R as [R _]. auto.
Qed.
(** the two ways to remove *)
Lemma delete_holds : forall t T l T' n y, path_ok T' -> holds t T l -> 0 <= n < 2 ^ 31 -> below (T' ++ [print_dec n]) T = None ->
  sub t (T' ++ [print_dec n]) = Some y ->
  holds (delete (ipos t (T' ++ [print_dec n])) t) T (if path_eqb T' T then List.filter (fun r => negb (fst r =? n)) l else l).
Proof.
  intros t T l T' n y P H B BL SY. apply holds_vis in H as (x & S & TX & V & ND & F). destruct (path_eqb T' T) eqn:E.
  - apply path_eqb_eq in E. subst T'. eapply removed_holds; eauto.
  - eapply keeps_holds; eauto. apply delete_vis; auto.
    + intros r Q. destruct (ipos_prefix _ T t x y r SY S Q) as [r' R]. congruence.
    + intros j Q. destruct (ipos_snoc T' t _ y SY) as (x' & j' & S' & _ & I). rewrite I in Q. apply app_inj_tail in Q as [Q _].
      apply (ipos_inj T T' t x' x S S') in Q. subst T'. rewrite path_eqb_refl in E. discriminate.
Qed.
Lemma add_holds : forall t T l T' n a x' t1, holds t T l -> 0 <= n < 2 ^ 31 -> sub t T' = Some x' -> (T' = T -> ~ In n (map fst l)) ->
  add_row (ipos t T') x' n a t = Ok t1 -> holds t1 T (if path_eqb T' T then l ++ [(n, a)] else l).
Proof.
  intros t T l T' n a x' t1 H B S' NI A. apply holds_vis in H as (x & S & TX & V & ND & F). destruct (path_eqb T' T) eqn:E.
  - apply path_eqb_eq in E. subst T'. assert (x' = x) by congruence. subst x'. eapply added_holds; eauto.
  - unfold add_row in A. destruct (vfind (named TEMPLATE) (kids x')) as [(m, tmpl)|]; [|discriminate]. injection A as <-.
    eapply keeps_holds; eauto. apply append_vis; auto. intros Q. apply (ipos_inj T' T t x x' S' S) in Q. subst T'. rewrite path_eqb_refl in E. discriminate.
Qed.
Lemma vis_kid : forall t T x l n, sub t T = Some x -> vis (kids x) = map (fun r : Z * option name => (print_dec (fst r), snd r)) l ->
  sub t (T ++ [print_dec n]) = None -> ~ In n (map fst l).
Proof.
  intros t T x l n S V N I. rewrite (sub_snoc T t x _ S) in N. apply kid_in in N. apply N.
  assert (J : In (print_dec n) (map fst (vis (kids x)))). { rewrite V, map_map. cbn [fst]. apply in_map_iff in I as (r & <- & I). apply (in_map (fun r => print_dec (fst r)) l r I). }
  unfold vis in J. rewrite map_map in J. cbn [fst] in J. apply in_map_iff in J as (kc & <- & J). apply filter_In in J as [J _]. apply in_map, J.
Qed.
Lemma call_quiet : forall T l c, call_ok T l c -> quiet_op (op_of c).
Proof. intros T l [s i|T' n a|T' a ans|T' n|T' n ok] H; cbn; auto. destruct H as (_ & H & _). intros E. apply H, E. Qed.
Lemma step_holds : forall T t l c t1 rc, path_ok T -> quiet t -> holds t T l -> call_ok T l c -> step t (op_of c) = Ok (t1, rc) ->
  holds t1 T (listed T l c rc) /\ quiet t1.
Proof.
  intros T t l c t1 rc PT QT H C S. split; [|eapply step_quiet; eauto using call_quiet].
  assert (GL := quiet_getterless t QT).
  assert (LK : forall T', path_ok T' -> retrieve_instance t (dotted T') = match sub t T' with Some x => Some (ipos t T', x) | None => None end).
  { intros T' (N & G & P). apply instance_plain; auto. apply table_tokens, G. }
  assert (LR : forall T' n, path_ok T' -> retrieve_instance t (dotted T' ++ print_dec n) = match sub t (T' ++ [print_dec n]) with Some x => Some (ipos t (T' ++ [print_dec n]), x) | None => None end).
  { intros T' n (N & G & P). apply instance_plain; auto using snoc_nonempty, plain_snoc, print_dec_plain. apply row_tokens; auto using print_dec_good. }
  destruct c as [s i|T' n a|T' a ans|T' n|T' n ok]; cbn [op_of step call_ok] in *.
  - unfold listed. destruct s as [|c s]; injection S as <- <-; cbn [Z.eqb E_INVALID_INPUT E_SUCCESS]; [exact H|].
    destruct C as (NE & C1 & C2). apply holds_vis in H as (x & S & TX & V & ND & F). eapply keeps_holds; eauto. apply register_vis; auto. intros E. apply C1, E.
  - destruct C as (P & B). rewrite as_int_small in S by exact B. unfold listed.
    destruct (Nat.leb 256 (length (dotted T' ++ print_dec n))); [injection S as <- <-; exact H|].
    rewrite LR, LK in S by exact P. destruct (sub t (T' ++ [print_dec n])) eqn:SR; [injection S as <- <-; exact H|].
    destruct (sub t T') as [x'|] eqn:S'; [|injection S as <- <-; exact H].
    destruct (add_row (ipos t T') x' n a t) as [t2| |] eqn:A; cbn in S; try discriminate. injection S as <- <-. cbn [Z.eqb E_SUCCESS].
    eapply add_holds; eauto. intros ->. apply holds_vis in H as (x & SX & TX & V & ND & F). exact (vis_kid t T x l n SX V SR).
  - unfold listed. destruct (retrieve t (dotted T')); [|injection S as <- <-; destruct ans; exact H].
    assert (P : path_ok T') by (destruct ans as [n|]; [destruct C as (P & _)|]; assumption). rewrite LK in S by exact P.
    destruct (sub t T') as [x'|] eqn:S'; [|injection S as <- <-; destruct ans; exact H].
    destruct ans as [n|]; [|injection S as <- <-; exact H]. destruct C as (_ & B & NI).
    destruct (add_row (ipos t T') x' n a t) as [t2| |] eqn:A; cbn in S; try discriminate. injection S as <- <-. cbn [Z.eqb E_SUCCESS]. eapply add_holds; eauto.
  - destruct C as (P & B & BL). rewrite LR in S by exact P. unfold listed. destruct (sub t (T' ++ [print_dec n])) as [y|] eqn:SY; injection S as <- <-; cbn [Z.eqb E_SUCCESS E_INVALID_INPUT]; [|exact H].
    eapply delete_holds; eauto.
  - destruct C as (P & B & BL). rewrite LR in S by exact P. unfold listed. destruct (retrieve t (dotted T' ++ print_dec n)); [|injection S as <- <-; exact H].
    destruct (sub t (T' ++ [print_dec n])) as [y|] eqn:SY; [|injection S as <- <-; exact H]. destruct ok; injection S as <- <-; cbn [Z.eqb E_SUCCESS E_BUS_ERROR]; [|exact H].
    eapply delete_holds; eauto.
Qed.
Lemma history_holds : forall T cs t l t' l', path_ok T -> quiet t -> holds t T l -> history T t l cs t' l' -> holds t' T l' /\ quiet t'.
Proof.
  induction cs as [|c cs IH]; intros t l t' l' P QT H R; cbn [history] in R; [destruct R as (-> & ->); auto|].
  destruct R as (C & t1 & rc & S & R). destruct (step_holds T t l c t1 rc P QT H C S) as [H1 Q1]. eapply IH; eauto.
Qed.

(** ** the messages *)
Lemma take_int : forall pre n r meta, - 2 ^ 31 <= n < 2 ^ 31 -> get_int32 (MsgProofs.at_pos pre (pack_int n ++ r) meta) = Ok (n, MsgProofs.at_pos (pre ++ pack_int n) r meta).
Proof.
  intros pre n r meta B. assert (K : field_ok (FI32 n) = true) by (cbn; lia).
  pose proof (MsgProofs.read_field_spec pre (FI32 n) r meta K) as R. cbn [MsgProofs.read_field MsgProofs.field_bytes read_back] in R.
  destruct (get_int32 _) as [(x, m)|e|]; cbn in R; congruence.
Qed.
Lemma take_string : forall pre s r meta, text_ok s ->
  get_string (MsgProofs.at_pos pre (pack_str (s ++ [0]) ++ r) meta) = Ok (s, MsgProofs.at_pos (pre ++ pack_str (s ++ [0])) r meta).
Proof.
  intros pre s r meta [C L]. assert (K : field_ok (FStr (Some s)) = true) by (cbn [field_ok]; rewrite C; cbn [andb]; lia).
  pose proof (MsgProofs.read_field_spec pre (FStr (Some s)) r meta K) as R. cbn [MsgProofs.read_field MsgProofs.field_bytes read_back] in R.
  destruct (get_string _) as [(x, m)|e|]; cbn in R; congruence.
Qed.
Lemma from_start : forall l, msg_from_bytes l = MsgProofs.at_pos [] l 0.
Proof. reflexivity. Qed.
Lemma parse_request : forall s d f, text_ok s -> - 2 ^ 31 <= d < 2 ^ 31 -> - 2 ^ 31 <= f < 2 ^ 31 -> forall A (k : name -> Z -> Z -> outcome unit A),
  (do (s', m) <- need (get_string (msg_from_bytes (m_data (set_int32 (set_int32 (set_string msg_init (Some s)) d) f)))) ;
   do (d', m) <- need (get_int32 m) ;
   do f' <- match get_int32 m with Ok (n, _) => Ok n | Err _ => Ok 0 | UB => UB end ; k s' d' f') = k s d f.
Proof.
  intros s d f TS BD BF A k. unfold set_int32, set_string, append. cbn [m_data msg_init app m_read m_meta]. rewrite from_start, <- !app_assoc.
  rewrite take_string by exact TS. cbn [need obind]. rewrite take_int by exact BD. cbn [need obind]. rewrite <- (app_nil_r (pack_int f)), take_int by exact BF. reflexivity.
Qed.
Definition row_bytes (r : Z * name) : list Z := pack_int (fst r) ++ pack_str (snd r ++ [0]).
Lemma put_rows_data : forall l m, m_data (put_rows m l) = m_data m ++ flat_map row_bytes l.
Proof.
  unfold put_rows. induction l as [|r l IH]; intros m; cbn [fold_left flat_map]; [rewrite app_nil_r; reflexivity|].
  rewrite IH. unfold set_string, set_int32, append, row_bytes. cbn [m_data]. rewrite <- !app_assoc. reflexivity.
Qed.
Lemma take_rows_ok : forall table l pre r meta, Forall (fun x => - 2 ^ 31 <= fst x < 2 ^ 31 /\ text_ok (snd x)) l ->
  take_rows table (length l) (MsgProofs.at_pos pre (flat_map row_bytes l ++ r) meta)
  = Ok (map (fun x => mkRow (fst x) (match snd x with [] => None | _ => Some (snd x) end) (firstn 255 (table ++ print_dec (fst x) ++ bs "."))) l).
Proof.
  induction l as [|(n, a) l IH]; intros pre r meta F; [reflexivity|]. inversion F as [|? ? [B TA] F2]; subst. cbn [length take_rows flat_map map fst snd] in *.
  unfold row_bytes at 1. cbn [fst snd]. rewrite <- !app_assoc, take_int by exact B. cbn [need obind]. rewrite take_string by exact TA. cbn [need obind].
  rewrite IH by exact F2. reflexivity.
Qed.
Lemma small_code : forall n, 0 <= n <= 30 -> pack_int n = [n].
Proof.
  intros n B. unfold pack_int. replace (n <? -32) with false by lia. replace (n <? 128) with true by lia. f_equal. unfold Bytes.to_unsigned. apply Z.mod_small. lia.
Qed.
Lemma rows_answer_ok : forall table l, Forall (fun x => - 2 ^ 31 <= fst x < 2 ^ 31 /\ text_ok (snd x)) l -> Z.of_nat (length l) < 2 ^ 31 ->
  rows_answer table (msg_from_bytes (m_data (put_rows (set_int32 (set_int32 msg_init E_SUCCESS) (Z.of_nat (length l))) l)))
  = Ok (E_SUCCESS, map (fun x => mkRow (fst x) (match snd x with [] => None | _ => Some (snd x) end) (firstn 255 (table ++ print_dec (fst x) ++ bs "."))) l).
Proof.
  intros table l F L. rewrite put_rows_data. unfold set_int32, append. cbn [m_data msg_init app m_read m_meta]. rewrite <- !app_assoc, from_start. unfold rows_answer.
  rewrite take_int by (cbv; split; congruence). cbn [obind]. change (TransModel.good E_SUCCESS) with true. cbv iota.
  rewrite take_int by lia. cbn [need obind]. rewrite Nat2Z.id. rewrite <- (app_nil_r (flat_map row_bytes l)). rewrite take_rows_ok by exact F. reflexivity.
Qed.
Lemma rows_answer_code : forall table n, 0 < n <= 30 -> rows_answer table (msg_from_bytes (m_data (set_int32 msg_init n))) = Ok (n, []).
Proof.
  intros table n B. unfold set_int32, append. cbn [m_data msg_init app m_read m_meta]. rewrite from_start. unfold rows_answer.
  rewrite <- (app_nil_r (pack_int n)), take_int by lia. cbn [obind]. unfold TransModel.good, TransModel.code_of, TransModel.LEGACY_SUCCESS, E_SUCCESS.
  replace (n =? 0) with false by lia. replace (n =? 100) with false by lia. cbn [orb]. replace (n <? 0) with false by lia. replace (n >? 100) with false by lia. reflexivity.
Qed.

(** ** the rows a consumer is shown *)
Lemma atoi_print : forall n, 0 <= n < 2 ^ 31 -> atoi (print_dec n) = n.
Proof.
  intros n B. pose proof (proj2 (TextProofs.parse_signed_spec (- 2 ^ 31) (2 ^ 31 - 1) (print_dec n) n ltac:(lia) ltac:(lia))) as P.
  assert (Q : parse_signed 10 (- 2 ^ 31) (2 ^ 31 - 1) false (print_dec n) = Some n). { apply P. split; [apply TextProofs.print_denotes; lia|lia]. }
  clear P. unfold parse_signed in Q. unfold atoi. destruct (strto 10 (print_dec n)) as [[[neg m] rest]|]; [|discriminate].
  destruct (strtol_value neg m) as [v er] eqn:E. match type of Q with (if ?c then _ else _) = _ => destruct c; [discriminate|] end.
  injection Q as ->. cbn [fst]. apply as_int_small, B.
Qed.
Lemma rows_of_vis : forall k, rows_of k = map (fun r => (atoi (fst r), match snd r with Some a => a | None => [] end)) (vis k).
Proof.
  induction k as [|(n, c) k IH]; [reflexivity|]. cbn [rows_of]. rewrite vis_cons, map_app, IH. destruct (bytes_eqb n TEMPLATE); reflexivity.
Qed.
Lemma get_row_names_ok : forall t T l, path_ok T -> quiet t -> holds t T l -> text_ok (dotted T) ->
  Forall (fun r => match snd r with Some a => text_ok a | None => True end) l -> Z.of_nat (length l) < 2 ^ 31 ->
  Forall (fun r => (length (dotted T ++ print_dec (fst r) ++ bs ".") < 256)%nat) l ->
  get_row_names t (dotted T) = Ok (E_SUCCESS, map (shown_row T) l).
Proof.
  intros t T l (NE & G & P) QT H TT TA LE LN. apply holds_vis in H as (x & S & TX & V & ND & F). unfold get_row_names, names_handler.
  rewrite parse_request by (auto; lia).
  rewrite (instance_plain t (dotted T) T (quiet_getterless t QT) (table_tokens T G) NE P), S. cbn [Z.eqb negb]. rewrite TX. cbn [negb obind].
  assert (R : rows_of (kids x) = map (fun r => (fst r, match snd r with Some a => a | None => [] end)) l).
  { assert (V' : vis (kids x) = map (fun r => (print_dec (fst r), snd r)) l) by exact V. rewrite rows_of_vis, V', map_map. cbn [fst snd]. apply map_ext_in. intros r I. rewrite Forall_forall in F. rewrite atoi_print by (apply F, I). reflexivity. }
  rewrite rows_answer_ok.
  - f_equal. f_equal. rewrite R, map_map. cbn [fst snd]. apply map_ext_in. intros (n, a) I. unfold shown_row. cbn [fst snd].
    rewrite Forall_forall in LN. specialize (LN _ I). cbn [fst] in LN. rewrite firstn_all2 by lia. f_equal. destruct a as [[|c a]|]; reflexivity.
  - rewrite R. apply Forall_map. rewrite Forall_forall in *. intros r I. cbn [fst snd]. split; [specialize (F r I); lia|]. specialize (TA r I).
    destruct (snd r); [exact TA|]. split; [reflexivity|cbn; lia].
  - rewrite R, map_length. exact LE.
Qed.
Lemma get_row_names_missing : forall t s, text_ok s -> retrieve_instance t s = None -> get_row_names t s = Ok (E_ELEMENT_DOES_NOT_EXIST, []).
Proof.
  intros t s TS R. unfold get_row_names, names_handler. rewrite parse_request by (auto; lia). rewrite R. cbn [obind]. apply rows_answer_code. unfold E_ELEMENT_DOES_NOT_EXIST. lia.
Qed.
Lemma get_row_names_no_table : forall t s pos x, text_ok s -> retrieve_instance t s = Some (pos, x) -> is_table x = false -> get_row_names t s = Ok (E_INVALID_INPUT, []).
Proof.
  intros t s pos x TS R TX. unfold get_row_names, names_handler. rewrite parse_request by (auto; lia). rewrite R, TX. cbn [Z.eqb negb obind]. apply rows_answer_code. unfold E_INVALID_INPUT. lia.
Qed.
(** a table that has just been registered *)
Lemma fresh_table : forall t s i, s <> [] -> typ i = TABLE -> holds (insert_element s i t) (tokens (strip (typ i) s)) [].
Proof.
  intros t s i NS TI. unfold insert_element. set (p := tokens (strip (typ i) s)). clearbody p.
  assert (A : forall p t, sub (insert p i t) p = Some (Node i (alias (match sub t p with Some x => x | None => empty end)) [(TEMPLATE, empty)])).
  { clear - TI. induction p as [|n p IH]; intros t.
    - cbn [insert sub]. unfold set_node. rewrite TI, Z.eqb_refl. reflexivity.
    - rewrite !sub_cons. cbn [insert kids]. rewrite vhas_kid. destruct (kid n (kids t)) as [c|] eqn:K; cbn [is_some].
      + rewrite (kid_update n n (insert p i)), bytes_eqb_refl, K. cbn [option_map]. apply IH.
      + rewrite kid_app, K, kid_cons, bytes_eqb_refl, IH. destruct p; reflexivity. }
  destruct (replicate_vis p p _ _ (A p t)) as (x & S & TX & V).
  - unfold is_table. cbn [inf]. rewrite TI. reflexivity.
  - apply holds_vis. exists x. split; [exact S|]. split; [exact TX|]. rewrite V. cbn [kids]. rewrite vis_cons, bytes_eqb_refl. repeat split; constructor.
Qed.
