(** Proofs for the routing tree, part 4: lookups when names are used consistently. *)
From Coq Require Import String.
From Verif Require Import Common CommonFacts RouteModel RouteSpec RouteProofs RouteInv RouteRun.
From Coq Require Import Lia.
Local Open Scope string_scope.
Local Open Scope list_scope.
Local Open Scope Z_scope.

(** ** the tree holds prefixes of the accepted names *)
Definition names := path -> Prop.
Definition under (A : names) (n : list Z) : names := fun a => A (n :: a).
Definition tidyP (A : names) : Prop := forall a b, A a -> A b -> clash a b = false.
Definition askableP (A : names) (q : path) : Prop := forall a, A a -> vague a q = false.
Definition literalP (A : names) (q : path) : Prop := forall a, A a -> loose a q = false.
Definition shape (A : names) (t : topic) : Prop := forall v, v <> [] -> sub t v <> None -> exists a, A a /\ below v a = true.
Definition tab1 (A : names) (t : topic) : Prop := forall u, T t u = Some true -> exists n a, brace n = true /\ A a /\ below (u ++ [n]) a = true.
Definition tab2 (t : topic) : Prop := forall u n, brace n = true -> sub t (u ++ [n]) <> None -> T t u = Some true.

Lemma shape_kid : forall A t n c, shape A t -> kid n (kids t) = Some c -> shape (under A n) c.
Proof.
  intros A t n c S K v NE SV. destruct (S (n :: v)) as (a & Aa & B); [discriminate|cbn [sub]; rewrite K; exact SV|].
  destruct a as [|x a]; [discriminate|]. cbn in B. apply andb_prop in B as [B1 B2]. apply bytes_eqb_eq in B1. subst x. exists a. auto.
Qed.
Lemma shape_head : forall A t n c, shape A t -> kid n (kids t) = Some c -> exists a, A (n :: a).
Proof.
  intros A t n c S K. destruct (S [n]) as (a & Aa & B); [discriminate|cbn [sub]; rewrite K; discriminate|].
  destruct a as [|x a]; [discriminate|]. cbn in B. apply andb_prop in B as [B1 _]. apply bytes_eqb_eq in B1. subst x. eauto.
Qed.
Lemma tidy_under : forall A n, tidyP A -> tidyP (under A n).
Proof. intros A n H a b Ha Hb. specialize (H _ _ Ha Hb). cbn in H. rewrite bytes_eqb_refl in H. exact H. Qed.
Lemma tidy_heads : forall A a b x y, tidyP A -> A (x :: a) -> A (y :: b) -> brace x = true \/ brace y = true -> x = y.
Proof.
  intros A a b x y H Ha Hb B. specialize (H _ _ Ha Hb). cbn in H. destruct (bytes_eqb x y) eqn:E; [apply bytes_eqb_eq; exact E|].
  apply orb_false_elim in H as [H1 H2]. destruct B; congruence.
Qed.
Lemma child_cases : forall n k j i m c, hit_at (child n k j) = Some (i, m, c) -> m = n \/ brace m = true \/ (m <> n /\ brace n = true).
Proof.
  intros n. induction k as [|(x, y) k IH]; intros j i m c H; cbn [child] in H; [discriminate|].
  destruct (bytes_eqb x n) eqn:E1; [apply bytes_eqb_eq in E1; cbn in H; injection H as _ <- _; auto|].
  destruct (brace x && instance n) eqn:E2; [apply andb_prop in E2 as [E2 _]; cbn in H; injection H as _ <- _; auto|].
  destruct (brace x || brace n) eqn:E3; [|eauto]. cbn in H. injection H as _ <- _. apply bytes_eqb_neq in E1. apply orb_prop in E3 as [E3|E3]; auto.
Qed.
(** an accepted name gets its own topic *)
Lemma add_walk_own : forall ts A b t t' p cr, shape A t -> (forall a, A a -> clash ts a = false) -> add_walk ts b t = (t', Some (p, cr)) -> p = ts.
Proof.
  induction ts as [|n ts IH]; intros A b t t' p cr S CL H; cbn [add_walk] in H; [injection H as _ <- _; reflexivity|].
  assert (REC : forall j m c, hit_at (child n (kids t) 0) = Some (j, m, c) -> (m = n \/ brace m = true) ->
    (let '(c0, r0) := add_walk ts false c in (Node (is_table t) (routes t) (routes2 t) (upd (kids t) j (m, c0)),
       match r0 with Some (p, b0) => Some (m :: p, b0) | None => None end)) = (t', Some (p, cr)) -> p = n :: ts).
  { intros j m c C M G. apply child_hit in C as (K & _). destruct (add_walk ts false c) as [c' [(p', b')|]] eqn:E; [|discriminate]. injection G as _ <- _.
    destruct (shape_head _ _ _ _ S K) as (a & Aa). assert (m = n).
    { destruct M as [M|M]; [exact M|]. specialize (CL _ Aa). cbn in CL. destruct (bytes_eqb n m) eqn:Q; [apply bytes_eqb_eq in Q; congruence|]. apply orb_false_elim in CL as [_ CL]. congruence. }
    subst m. f_equal. eapply (IH (under A n)); [eapply shape_kid; eauto| |exact E]. intros a' Aa'. specialize (CL _ Aa'). cbn in CL. rewrite bytes_eqb_refl in CL. exact CL. }
  destruct (child n (kids t) 0) as [j m c|j m c|j m c|] eqn:C; try discriminate.
  - eapply REC; [reflexivity|left; eapply child_exact; eauto|exact H].
  - eapply REC; [reflexivity| |exact H]. clear -C. revert C. generalize 0%nat at 1. induction (kids t) as [|(x, y) k IH]; intros j0 C; cbn [child] in C; [discriminate|].
    destruct (bytes_eqb x n) eqn:E1; [discriminate|]. destruct (brace x && instance n) eqn:E2; [apply andb_prop in E2 as [E2 _]; injection C as _ <- _; auto|].
    destruct (brace x || brace n); [discriminate|]. eauto.
  - rewrite add_walk_blank in H. injection H as _ <- _. reflexivity.
Qed.
(** a literal removal hits its own topic *)
Lemma remove_walk_own : forall ts A up t l, ts <> [] -> shape A t -> literalP A ts ->
  remove_walk up ts t l = match sub t ts with Some c => do l <- forget_tree (up ++ ts) c l ; Ok (cutoff ts t, l) | None => Ok (t, l) end.
Proof.
  induction ts as [|n ts IH]; intros A up t l NE S L; [congruence|].
  assert (OWN : forall j m c, hit_at (child n (kids t) 0) = Some (j, m, c) -> m = n).
  { intros j m c C. pose proof (child_hit _ _ _ _ _ C) as (K & _). destruct (shape_head _ _ _ _ S K) as (a & Aa). specialize (L _ Aa). cbn in L.
    destruct (bytes_eqb m n) eqn:Q; [apply bytes_eqb_eq; exact Q|]. apply orb_false_elim in L as [L1 L2]. apply child_cases in C as [C|[C|[_ C]]]; congruence. }
  cbn [remove_walk sub].
  assert (REC : forall j m c, hit_at (child n (kids t) 0) = Some (j, m, c) -> ts <> [] ->
    (do (c, l) <- remove_walk (up ++ [m]) ts c l ; Ok (Node (is_table t) (routes t) (routes2 t) (upd (kids t) j (m, c)), l)) =
    match match kid n (kids t) with Some c => sub c ts | None => None end with Some c0 => do l <- forget_tree (up ++ n :: ts) c0 l ; Ok (cutoff (n :: ts) t, l) | None => Ok (t, l) end).
  { intros j m c C NT. pose proof (OWN _ _ _ C) as ->. apply child_hit in C as (K & U & _). rewrite K, (IH (under A n)); [|exact NT|eapply shape_kid; eauto|].
    2: { intros a Aa. specialize (L _ Aa). cbn in L. rewrite bytes_eqb_refl in L. exact L. }
    rewrite <- app_assoc. cbn [app]. destruct (sub c ts) as [c0|].
    - destruct (forget_tree (up ++ n :: ts) c0 l); cbn [obind]; [|reflexivity|reflexivity]. rewrite U, cutoff_on by exact NT. do 3 f_equal. apply on_kid_ext. intros c1 K1. congruence.
    - cbn [obind]. rewrite U, on_kid_same by exact K. rewrite node_eta. reflexivity. }
  destruct (child n (kids t) 0) as [j m c|j m c|j m c|] eqn:C.
  - destruct ts as [|n' ts].
    + pose proof (OWN j m c eq_refl) as ->. pose proof (child_hit n (kids t) j n c ltac:(rewrite C; reflexivity)) as (K & _ & D). rewrite K, D. reflexivity.
    + apply (REC j m c); [reflexivity|discriminate].
  - destruct ts as [|n' ts]; [|apply (REC j m c); [reflexivity|discriminate]].
    exfalso. pose proof (OWN j m c eq_refl) as ->. clear -C. revert C. generalize 0%nat at 1. induction (kids t) as [|(x, y) k IH]; intros j0 C; cbn [child] in C; [discriminate|].
    destruct (bytes_eqb x n) eqn:E1; [discriminate|]. destruct (brace x && instance n); [injection C as _ <- _; rewrite bytes_eqb_refl in E1; discriminate|]. destruct (brace x || brace n); [discriminate|eauto].
  - destruct ts as [|n' ts]; [|apply (REC j m c); [reflexivity|discriminate]].
    exfalso. pose proof (OWN j m c eq_refl) as ->. clear -C. revert C. generalize 0%nat at 1. induction (kids t) as [|(x, y) k IH]; intros j0 C; cbn [child] in C; [discriminate|].
    destruct (bytes_eqb x n) eqn:E1; [discriminate|]. destruct (brace x && instance n); [discriminate|]. destruct (brace x || brace n); [injection C as _ <- _; rewrite bytes_eqb_refl in E1; discriminate|eauto].
  - apply child_missing in C as (K & _). rewrite K. reflexivity.
Qed.

(** ** the shape is kept *)
Lemma sub_R : forall t u, sub t u <> None <-> R t u <> None.
Proof. intros. unfold R. destruct (sub t u); cbn; split; congruence. Qed.
Lemma shape_extend : forall A t p, shape A t -> A p -> shape A (extend p t).
Proof.
  intros A t p S Ap v NE SV. apply sub_R in SV. rewrite R_extend in SV. destruct (R t v) eqn:E.
  - apply S; [exact NE|]. apply sub_R. congruence.
  - destruct (below v p) eqn:B; [eauto|congruence].
Qed.
Lemma shape_push : forall A t p i, p <> [] -> shape A t -> shape A (push_root p i t).
Proof.
  intros A t p i NP S v NE SV. apply S; [exact NE|]. apply sub_R in SV. rewrite R_push_root in SV by exact NP. apply sub_R. destruct (R t v); [discriminate|exact SV].
Qed.
Lemma shape_prune : forall A t i, (forall v ns, N t v = Some ns -> NoDup ns) -> shape A t -> shape A (prune i t).
Proof.
  intros A t i NN S v NE SV. apply S; [exact NE|]. apply sub_R in SV. apply sub_R. destruct (R (prune i t) v) as [y|] eqn:E; [|congruence]. apply R_prune_some in E as (x & E & _); [congruence|exact NN].
Qed.
Lemma shape_cutoff : forall A t p, p <> [] -> (forall v ns, N t v = Some ns -> NoDup ns) -> shape A t -> shape A (cutoff p t).
Proof.
  intros A t p NP NN S v NE SV. apply S; [exact NE|]. apply sub_R in SV. apply sub_R. unfold R in *. rewrite view_cutoff in SV; auto. destruct (below p v); [congruence|exact SV].
Qed.
Lemma T_extend_some : forall p t u, T (extend p t) u = Some true -> T t u = Some true \/ exists n, brace n = true /\ below (u ++ [n]) p = true.
Proof.
  induction p as [|n p IH]; intros t u H; [auto|]. cbn [extend] in H. destruct (kid n (kids t)) as [c|] eqn:K.
  - destruct u as [|m u]; [left; exact H|]. vc. cbn [kids] in H. rewrite kid_on_kid in H. destruct (bytes_eqb n m) eqn:E; [|left; exact H].
    apply bytes_eqb_eq in E. subst m. rewrite K in *. cbn [option_map] in H. destruct (IH _ _ H) as [X|(x & X & Y)]; [left; exact X|]. right. exists x. split; [exact X|]. cbn. rewrite bytes_eqb_refl. exact Y.
  - destruct u as [|m u].
    + unfold T in H. cbn in H. unfold T. cbn. destruct (is_table t); [auto|]. cbn in H. right. exists n. cbn. rewrite bytes_eqb_refl. split; [congruence|reflexivity].
    + vc. cbn [kids] in H. rewrite kid_app in H. cbn [kid] in H. destruct (kid m (kids t)) as [c|]; [left; exact H|]. destruct (bytes_eqb n m) eqn:E; [|discriminate].
      apply bytes_eqb_eq in E. subst m. destruct (IH _ _ H) as [X|(x & X & Y)]; [unfold T in X; rewrite (blank_view is_table) in X; destruct u; discriminate|].
      right. exists x. split; [exact X|]. cbn. rewrite bytes_eqb_refl. exact Y.
Qed.
Lemma T_extend_keep : forall p t u, T t u = Some true -> T (extend p t) u = Some true.
Proof.
  induction p as [|n p IH]; intros t u H; [auto|]. cbn [extend]. destruct (kid n (kids t)) as [c|] eqn:K.
  - destruct u as [|m u]; [exact H|]. vc. cbn [kids]. rewrite kid_on_kid. destruct (bytes_eqb n m) eqn:E; [|exact H]. apply bytes_eqb_eq in E. subst m. rewrite K in *. cbn [option_map]. apply IH. exact H.
  - destruct u as [|m u]; [unfold T in *; cbn in *; injection H as ->; reflexivity|]. vc. cbn [kids]. rewrite kid_app. destruct (kid m (kids t)); [exact H|discriminate].
Qed.
Lemma tab2_kid : forall t n c, tab2 t -> kid n (kids t) = Some c -> tab2 c.
Proof. intros t n c H K u m B S. specialize (H (n :: u) m B). vc. cbn [app sub] in H. rewrite K in H. auto. Qed.
Lemma tab2_extend : forall p t, tab2 t -> tab2 (extend p t).
Proof.
  induction p as [|n p IH]; intros t H; [exact H|]. intros u x B S.
  destruct (kid n (kids t)) as [c|] eqn:K.
  - assert (E : extend (n :: p) t = Node (is_table t) (routes t) (routes2 t) (on_kid n (fun _ => extend p c) (kids t))) by (cbn [extend]; rewrite K; reflexivity). rewrite E in *.
    destruct u as [|m u].
    + unfold T. cbn. apply (H [] x B). cbn [app sub kids] in *. rewrite kid_on_kid in S. destruct (bytes_eqb n x); [|exact S]. destruct (kid x (kids t)); [discriminate|exact S].
    + cbn [app sub kids] in S. vc. cbn [kids]. rewrite kid_on_kid in *. destruct (bytes_eqb n m) eqn:Q.
      * apply bytes_eqb_eq in Q. subst m. rewrite K in *. cbn [option_map] in *. apply (IH c (tab2_kid _ _ _ H K) u x B S).
      * specialize (H (m :: u) x B). vc. cbn [app sub] in H. auto.
  - assert (E : extend (n :: p) t = Node (is_table t || brace n) (routes t) (routes2 t) (kids t ++ [(n, extend p blank)])) by (cbn [extend]; rewrite K; reflexivity). rewrite E in *.
    destruct u as [|m u].
    + unfold T. cbn [sub option_map is_table]. f_equal. cbn [app sub kids] in S. rewrite kid_app in S. cbn [kid] in S. destruct (kid x (kids t)) as [c|] eqn:KX.
      * assert (X : T t [] = Some true) by (apply (H [] x B); cbn [app sub]; rewrite KX; discriminate). unfold T in X. cbn in X. injection X as ->. reflexivity.
      * destruct (bytes_eqb n x) eqn:Q; [|congruence]. apply bytes_eqb_eq in Q. subst x. rewrite B. apply orb_true_r.
    + cbn [app sub kids] in S. vc. cbn [kids]. rewrite kid_app in *. cbn [kid] in *. destruct (kid m (kids t)) as [c|] eqn:KM.
      * specialize (H (m :: u) x B). vc. cbn [app sub] in H. rewrite KM in H. auto.
      * destruct (bytes_eqb n m); [|congruence]. apply (IH blank) with (u := u) (n := x); auto. intros v y _ SV. exfalso. destruct v; apply SV; reflexivity.
Qed.
Lemma tab2_sub : forall t t', tab2 t -> (forall u, sub t' u <> None -> sub t u <> None) -> (forall u, sub t' u <> None -> T t' u = T t u) -> tab2 t'.
Proof.
  intros t t' H S TT u n B SU. assert (X : sub t' u <> None) by (rewrite sub_app in SU; destruct (sub t' u); [discriminate|congruence]). rewrite TT by exact X. eapply H; eauto.
Qed.
Record tree (A : names) (t : topic) : Prop := mkTree { w_shape : shape A t; w_tab1 : tab1 A t; w_tab2 : tab2 t }.
Lemma tree_extend : forall A t p, tree A t -> A p -> tree A (extend p t).
Proof.
  intros A t p [S T1 T2] Ap. constructor; [apply shape_extend; auto| |apply tab2_extend; auto]. intros u H. apply T_extend_some in H as [H|(n & B & H)]; [auto|eauto].
Qed.
Lemma tree_push : forall A t p i, p <> [] -> tree A t -> tree A (push_root p i t).
Proof.
  intros A t p i NP [S T1 T2]. constructor; [apply shape_push; auto| |].
  - intros u H. rewrite T_push_root in H. auto.
  - apply (tab2_sub t); [exact T2| |intros; apply T_push_root]. intros u H. apply sub_R in H. rewrite R_push_root in H by exact NP. apply sub_R. destruct (R t u); [discriminate|exact H].
Qed.
Lemma tree_prune : forall A t i, (forall v ns, N t v = Some ns -> NoDup ns) -> tree A t -> tree A (prune i t).
Proof.
  intros A t i NN [S T1 T2]. constructor; [apply shape_prune; auto| |].
  - intros u H. apply T_prune_some in H; auto.
  - apply (tab2_sub t); [exact T2| |].
    + intros u H. apply sub_R in H. apply sub_R. destruct (R (prune i t) u) as [y|] eqn:E; [|congruence]. apply R_prune_some in E as (x & E & _); [congruence|exact NN].
    + intros u H. unfold T. destruct (sub (prune i t) u) as [c|] eqn:E; [|congruence]. cbn [option_map]. symmetry. apply (T_prune_some u i t (is_table c) NN). unfold T. rewrite E. reflexivity.
Qed.
Lemma tree_cutoff : forall A t p, p <> [] -> (forall v ns, N t v = Some ns -> NoDup ns) -> tree A t -> tree A (cutoff p t).
Proof.
  intros A t p NP NN [S T1 T2].
  assert (TC : forall u, T (cutoff p t) u = if below p u then None else T t u) by (intros; unfold T; apply view_cutoff; auto).
  assert (RC : forall u, R (cutoff p t) u = if below p u then None else R t u) by (intros; unfold R; apply view_cutoff; auto).
  constructor; [apply shape_cutoff; auto| |].
  - intros u H. rewrite TC in H. destruct (below p u); [discriminate|auto].
  - apply (tab2_sub t); [exact T2| |]; intros u H; apply sub_R in H; rewrite RC in H.
    + apply sub_R. destruct (below p u); [congruence|exact H].
    + rewrite TC. destruct (below p u); [congruence|reflexivity].
Qed.
Lemma tree_blank : forall A, tree A blank.
Proof.
  intros A. constructor.
  - intros [|? ?] NE SV; [congruence|]. exfalso. apply SV. reflexivity.
  - intros u H. unfold T in H. rewrite (blank_view is_table) in H. destruct u; discriminate.
  - intros v y _ SV. exfalso. destruct v; apply SV; reflexivity.
Qed.

(** ** histories *)
Lemma filter_all : forall {A} (f : A -> bool) l, (forall x, In x l -> f x = true) -> filter f l = l.
Proof. exact @filter_none. Qed.
Lemma run_tidy : forall A l s m used s' h, tidyP A -> inv s m -> tree A (root s) -> (forall u d, In (u, d) m -> A u) -> (forall u d, In (u, d) m -> In d used) ->
  careful used l -> Forall op_fits l -> (forall n, In (RemoveTopic n) l -> literalP A (split n)) -> run s l = Ok (s', h) -> (forall a, In a (accepted h) -> A a) ->
  inv s' (fold_left note h m) /\ tree A (root s') /\ forall u d, In (u, d) (fold_left note h m) -> A u.
Proof.
  intros A l. induction l as [|o l IH]; intros s m used s' h TA I W MA U C F L H AC; [injection H as -> <-; auto|]. inversion F as [|? ? F1 F2]; subst. cbn [run] in H.
  destruct o as [n d b|d|n]; cbn [step op_fits] in *.
  - assert (O : once_at s m n d b).
    { destruct b; [left; split; [reflexivity|apply C]|]. right. intros t p cr _ X. apply U in X. destruct C as [C _]. auto. }
    destruct (add_inv s m n d b F1 I O) as (s1 & e & m1 & E & I1 & AD). rewrite E in H. cbn [obind] in H.
    destruct (run s1 l) as [(s2, h2)| |] eqn:R1; cbn [obind] in H; try discriminate. injection H as -> <-. cbn [fold_left].
    assert (AC2 : forall a, In a (accepted h2) -> A a) by (intros a Ha; apply AC; unfold accepted; cbn [flat_map]; apply in_app_iff; right; exact Ha).
    assert (CC : careful (d :: used) l) by (destruct b; apply C).
    assert (LL : forall k, In (RemoveTopic k) l -> literalP A (split k)) by (intros k Hk; apply L; right; exact Hk).
    destruct AD as [s1 e NE RS _|TS|s1 p t cr i TS WK NP _ RS DI].
    + cbn [note]. rewrite (proj2 (Z.eqb_neq e 0) NE). cbn [andb]. apply (IH s1 m (d :: used)); auto; [rewrite RS; exact W|intros u x X; right; eapply U; exact X].
    + cbn [note]. rewrite TS. apply (IH s m (d :: used)); auto. intros u x X; right; eapply U; exact X.
    + assert (AN : A (split n)) by (apply AC; unfold accepted; cbn; left; reflexivity).
      assert (PE : p = split n) by (eapply add_walk_own; [apply (w_shape _ _ W)| |exact WK]; intros a Aa; apply TA; auto). subst p.
      cbn [note]. cbn [Z.eqb andb]. destruct (split n) as [|t0 ts] eqn:TSS; [congruence|]. rewrite <- TSS in *. apply (IH s1 (m ++ [(split n, d)]) (d :: used)); auto.
      * rewrite RS. apply tree_push; auto. apply tree_extend; auto.
      * intros u x X. apply in_app_iff in X as [X|[X|[]]]; [eauto|injection X as <- _; exact AN].
      * intros u x X. apply in_app_iff in X as [X|[X|[]]]; [right; eauto|injection X as _ <-; left; reflexivity].
  - cbn [obind] in H. destruct (run (remove_route s d) l) as [(s2, h2)| |] eqn:R1; cbn [obind] in H; try discriminate. injection H as -> <-. cbn [fold_left note].
    apply (IH (remove_route s d) _ (remove Z.eq_dec d used)); auto.
    + apply inv_remove_route, I.
    + unfold remove_route. destruct (find_data d (live s)); [|exact W]. cbn [root]. apply tree_prune; [apply (v_names _ _ I)|exact W].
    + intros u x X. apply filter_In in X as [X _]. eauto.
    + intros u x X. apply filter_In in X as [X X2]. cbn in X2. apply in_in_remove; [|eapply U; exact X]. intros ->. rewrite Z.eqb_refl in X2. discriminate.
    + intros k Hk. apply L. right. exact Hk.
  - unfold remove_topic in H. rewrite fits_tokenize in H by exact F1. cbn [obind] in H.
    assert (LL : forall k, In (RemoveTopic k) l -> literalP A (split k)) by (intros k Hk; apply L; right; exact Hk).
    assert (LN : literalP A (split n)) by (apply L; left; reflexivity).
    destruct (split n) as [|t0 ts] eqn:TS.
    + cbn [remove_walk obind] in H. replace (mkState (root s) (live s) (next s)) with s in H by (destruct s; reflexivity).
      destruct (run s l) as [(s2, h2)| |] eqn:R1; cbn [obind] in H; try discriminate. injection H as -> <-. cbn [fold_left note]. rewrite TS. apply (IH s m used); auto.
    + rewrite <- TS in *. assert (NT : split n <> []) by (rewrite TS; discriminate). rewrite (remove_walk_own (split n) A [] (root s) (live s) NT (w_shape _ _ W) LN) in H. cbn [app] in H.
      assert (NOTE : note m (RemoveTopic n, RT_OK) = filter (fun x => negb (below (split n) (fst x))) m) by (cbn [note]; rewrite TS; reflexivity).
      destruct (sub (root s) (split n)) as [c|] eqn:SB.
      * destruct (inv_cutoff _ _ _ _ I NT SB) as (l1 & FL & I1). rewrite FL in H. cbn [obind] in H.
        destruct (run _ l) as [(s2, h2)| |] eqn:R1; cbn [obind] in H; try discriminate. injection H as -> <-. cbn [fold_left]. rewrite NOTE.
        apply (IH (mkState (cutoff (split n) (root s)) l1 (next s)) _ used); auto.
        -- cbn [root]. apply tree_cutoff; [exact NT|apply (v_names _ _ I)|exact W].
        -- intros u x X. apply filter_In in X as [X _]. eauto.
        -- intros u x X. apply filter_In in X as [X _]. eauto.
      * cbn [obind] in H. replace (mkState (root s) (live s) (next s)) with s in H by (destruct s; reflexivity).
        destruct (run s l) as [(s2, h2)| |] eqn:R1; cbn [obind] in H; try discriminate. injection H as -> <-. cbn [fold_left]. rewrite NOTE, filter_none; [apply (IH s m used); auto|].
        intros (u, x) X. cbn. destruct (below (split n) u) eqn:B; [|reflexivity]. exfalso. apply below_spec in B as (r & ->). eapply (v_none _ _ I (split n ++ r)); [|exact X].
        unfold R. rewrite sub_app, SB. reflexivity.
Qed.

(** ** lookups *)
Lemma walk_covers : forall q A t c, shape A t -> askableP A q -> walk q t = Some c -> exists u, sub t u = Some c /\ covers u q = true.
Proof.
  induction q as [|y q IH]; intros A t c S Q H; cbn [walk] in H; [injection H as ->; exists []; auto|].
  destruct (hit_at (child y (kids t) 0)) as [[[j m] c']|] eqn:C.
  - assert (H' : walk q c' = Some c) by (destruct (child y (kids t) 0); cbn in C; try discriminate; injection C as <- <- <-; exact H).
    pose proof (child_hit _ _ _ _ _ C) as (K & _). destruct (shape_head _ _ _ _ S K) as (a & Aa).
    assert (M : bytes_eqb m y || brace m = true).
    { pose proof (Q _ Aa) as V. cbn in V. destruct (bytes_eqb m y || brace m) eqn:E; [reflexivity|]. apply child_cases in C as [C|[C|[_ C]]]; [subst; rewrite bytes_eqb_refl in E; discriminate|rewrite C, orb_true_r in E; discriminate|congruence]. }
    destruct (IH (under A m) c' c) as (u & SU & CU); [eapply shape_kid; eauto| |exact H'|].
    { intros a' Aa'. specialize (Q _ Aa'). cbn in Q. rewrite M in Q. exact Q. }
    exists (m :: u). cbn [sub covers]. rewrite K, M. auto.
  - destruct (child y (kids t) 0); discriminate.
Qed.
Lemma walk_finds : forall q A t u, shape A t -> tidyP A -> askableP A q -> sub t u <> None -> covers u q = true -> walk q t = sub t u.
Proof.
  induction q as [|y q IH]; intros A t u S TA Q SU CV; [destruct u; [reflexivity|discriminate]|]. destruct u as [|x u]; [discriminate|]. cbn [covers] in CV. apply andb_prop in CV as [C1 C2].
  cbn [sub] in SU |- *. destruct (kid x (kids t)) as [cx|] eqn:KX; [|congruence]. destruct (shape_head _ _ _ _ S KX) as (ax & Ax).
  assert (XQ : vague ax q = false) by (pose proof (Q _ Ax) as V; cbn in V; rewrite C1 in V; exact V).
  cbn [walk]. destruct (hit_at (child y (kids t) 0)) as [[[j m] c']|] eqn:C.
  - pose proof (child_hit _ _ _ _ _ C) as (K & _). destruct (shape_head _ _ _ _ S K) as (a & Aa).
    assert (m = x).
    { pose proof (child_cases _ _ _ _ _ _ C) as [M|[M|[M1 M2]]].
      - subst m. destruct (bytes_eqb x y) eqn:E; [apply bytes_eqb_eq in E; auto|]. cbn in C1. eapply tidy_heads; eauto.
      - eapply tidy_heads; eauto.
      - pose proof (Q _ Aa) as V. cbn in V. apply bytes_eqb_neq in M1. rewrite M1 in V. cbn in V. destruct (brace m) eqn:BM; [|congruence]. eapply tidy_heads; eauto. }
    subst m. assert (c' = cx) by congruence. subst c'.
    assert (WK : walk (y :: q) t = walk q cx) by (cbn [walk]; destruct (child y (kids t) 0); cbn in C; try discriminate; injection C as _ _ ->; reflexivity). cbn [walk] in WK. rewrite WK.
    apply (IH (under A x)); [eapply shape_kid; eauto|apply tidy_under; auto| |exact SU|exact C2].
    intros a' Aa'. specialize (Q _ Aa'). cbn in Q. rewrite C1 in Q. exact Q.
  - exfalso. assert (CM : child y (kids t) 0 = Missing) by (destruct (child y (kids t) 0); cbn in C; congruence). apply child_missing in CM as (K & _ & NB).
    destruct (bytes_eqb x y) eqn:E; [apply bytes_eqb_eq in E; congruence|]. cbn in C1. apply kid_in in KX. apply (in_map fst) in KX. apply NB in KX. cbn in KX. congruence.
Qed.
(** two prefixes of accepted names that answer for the same question are the same *)
Lemma covers_unique : forall q a a' u u', clash a a' = false -> below u a = true -> below u' a' = true -> covers u q = true -> covers u' q = true -> u = u'.
Proof.
  induction q as [|y q IH]; intros a a' u u' CL B B' C C'; destruct u as [|x u], u' as [|x' u']; try discriminate; [reflexivity|].
  destruct a as [|z a]; [discriminate|]. destruct a' as [|z' a']; [discriminate|]. cbn in *. apply andb_prop in B as [B1 B2], B' as [B1' B2'], C as [C1 C2], C' as [C1' C2'].
  apply bytes_eqb_eq in B1, B1'. subst z z'. destruct (bytes_eqb x x') eqn:E.
  - apply bytes_eqb_eq in E. subst x'. f_equal. eapply IH; eauto.
  - exfalso. apply orb_false_elim in CL as [L1 L2]. rewrite L1, orb_false_r in C1. rewrite L2, orb_false_r in C1'. apply bytes_eqb_eq in C1, C1'. subst. rewrite bytes_eqb_refl in E. discriminate.
Qed.
Lemma below_trans_app : forall u n a, below (u ++ [n]) a = true -> below u a = true.
Proof. intros u n a H. apply below_spec in H as (r & ->). apply below_spec. exists ([n] ++ r). rewrite app_assoc. reflexivity. Qed.
Lemma clash_next : forall u n n' a a', clash a a' = false -> below (u ++ [n]) a = true -> below (u ++ [n']) a' = true -> brace n = true -> n = n'.
Proof.
  induction u as [|x u IH]; intros n n' a a' CL B B' BR; destruct a as [|z a]; try discriminate; destruct a' as [|z' a']; try discriminate; cbn in *;
    apply andb_prop in B as [B1 B2], B' as [B1' B2']; apply bytes_eqb_eq in B1, B1'; subst z z'.
  - destruct (bytes_eqb n n') eqn:E; [apply bytes_eqb_eq; exact E|]. rewrite BR in CL. discriminate.
  - rewrite bytes_eqb_refl in CL. eapply IH; eauto.
Qed.
Lemma clash_end : forall u n a, clash u a = false -> below (u ++ [n]) a = true -> brace n = false.
Proof.
  induction u as [|x u IH]; intros n a CL B; destruct a as [|z a]; try discriminate; cbn in *; apply andb_prop in B as [B1 B2]; apply bytes_eqb_eq in B1; subst z; [exact CL|].
  rewrite bytes_eqb_refl in CL. eapply IH; eauto.
Qed.
Lemma at_as_filter : forall u m (f : path -> bool), (forall a d, In (a, d) m -> f a = path_eqb a u) -> map snd (filter (fun x => f (fst x)) m) = at_ u m.
Proof.
  intros u m f H. unfold at_. f_equal. induction m as [|(a, d) m IH]; [reflexivity|]. cbn [filter fst]. rewrite (H a d) by (left; reflexivity).
  rewrite IH; [reflexivity|]. intros a' d' H'. eapply H. right. exact H'.
Qed.
Lemma filter_nil : forall {A} (f : A -> bool) l, (forall x, In x l -> f x = false) -> filter f l = [].
Proof. induction l as [|x l IH]; intros H; [reflexivity|]. cbn. rewrite (H x) by (left; reflexivity). apply IH. intros y Y. apply H. right. exact Y. Qed.
Lemma bool_eq : forall a b, (a = true <-> b = true) -> a = b.
Proof. intros [|] [|] H; auto; [symmetry; apply H; reflexivity|apply H; reflexivity]. Qed.
Lemma removelast_app1 : forall (a : path), a <> [] -> a = removelast a ++ [last a []].
Proof. intros. apply app_removelast_last. assumption. Qed.
Lemma reg_node : forall s m u d, inv s m -> In (u, d) m -> sub (root s) u <> None.
Proof. intros s m u d I H. destruct (v_held _ _ I _ _ H) as (x & i & E & _). apply sub_R. congruence. Qed.
Lemma get_lookup : forall A s m q, tidyP A -> inv s m -> tree A (root s) -> (forall u d, In (u, d) m -> A u) -> fits q -> q <> [] -> ends_dot q = false ->
  askableP A (split q) -> get s q = Ok (lookup m (split q)).
Proof.
  intros A s m q TA I [S T1 T2] MA F NQ D Q. unfold get. rewrite fits_tokenize by exact F. cbn [obind].
  assert (NS : split q <> []). { unfold split. destruct q as [|c r]; [congruence|]. cbn [cut]. destruct (c =? 46); [discriminate|]. clear. generalize ([] ++ [c]). induction r as [|x r IH]; intros cur; cbn [cut]; [discriminate|]. destruct (x =? 46); [discriminate|apply IH]. }
  destruct (split q) as [|t0 ts] eqn:TS; [congruence|]. rewrite <- TS in *. clear t0 ts TS.
  assert (NM : forall a d, In (a, d) m -> a <> []) by (intros a d H ->; eapply (v_ne _ _ I); eauto).
  destruct (walk (split q) (root s)) as [t|] eqn:W.
  - rewrite D. destruct (walk_covers _ _ _ _ S Q W) as (u & SU & CU).
    assert (NU : u <> []) by (intros ->; destruct (split q); [congruence|discriminate]).
    destruct (S u NU ltac:(congruence)) as (b & Ab & Bb).
    assert (UN : forall a d, In (a, d) m -> covers a (split q) = true -> a = u).
    { intros a d H C. apply (covers_unique (split q) a b); auto; [apply TA; eauto|apply below_refl]. }
    assert (UN2 : forall a d, In (a, d) m -> covers (removelast a) (split q) = true -> a = u ++ [last a []]).
    { intros a d H C. pose proof (removelast_app1 a (NM _ _ H)) as E. rewrite E at 1. f_equal. apply (covers_unique (split q) a b); auto; [apply TA; eauto|].
      apply (below_trans_app _ (last a [])). rewrite <- E. apply below_refl. }
    assert (TU : T (root s) u = Some (is_table t)) by (unfold T; rewrite SU; reflexivity).
    destruct (is_table t).
    + destruct (T1 u TU) as (n & b' & BN & Ab' & Bb').
      assert (ALL : lookup m (split q) = at_ (u ++ [n]) m).
      { unfold lookup. apply (at_as_filter (u ++ [n]) m (serves (split q))). intros a d H. apply bool_eq. rewrite path_eqb_eq. unfold serves. split.
        - intros X. apply orb_prop in X as [X|X].
          + exfalso. apply UN with (d := d) in X; [|exact H]. subst a. assert (brace n = false) by (eapply clash_end; [|exact Bb']; apply TA; eauto). congruence.
          + apply andb_prop in X as [X1 X2]. pose proof (UN2 _ _ H X2) as E. rewrite E. do 2 f_equal. symmetry.
            apply (clash_next u n (last a []) b' a); auto; [apply TA; eauto|]. rewrite <- E. apply below_refl.
        - intros ->. apply orb_true_iff. right. rewrite last_last, removelast_last, BN, CU. reflexivity. }
      rewrite ALL. destruct (hit_at (child (bs "{i}") (kids t) 0)) as [[[j x] c]|] eqn:C.
      * pose proof C as C'. apply child_hit in C' as (K & _).
        assert (SX : sub (root s) (u ++ [x]) = Some c) by (rewrite sub_app, SU; cbn [sub]; rewrite K; reflexivity).
        destruct (S (u ++ [x]) ltac:(destruct u; discriminate) ltac:(congruence)) as (bx & Abx & Bbx).
        assert (n = x) by (apply (clash_next u n x b' bx); auto). subst x.
        rewrite <- (at_sound s m (u ++ [n]) (routes c) I); [|destruct u; discriminate|unfold R; rewrite SX; reflexivity].
        destruct (child (bs "{i}") (kids t) 0); cbn in C; try discriminate; injection C as _ _ <-; reflexivity.
      * assert (CM : child (bs "{i}") (kids t) 0 = Missing) by (destruct (child (bs "{i}") (kids t) 0); cbn in C; congruence). rewrite CM. apply child_missing in CM as (_ & KE & _).
        specialize (KE eq_refl). f_equal. destruct (at_ (u ++ [n]) m) as [|d l] eqn:E; [reflexivity|]. exfalso.
        assert (X : In (u ++ [n], d) m) by (apply at_in; rewrite E; left; reflexivity). apply (reg_node _ _ _ _ I) in X. apply X. rewrite sub_app, SU. cbn [sub]. rewrite KE. reflexivity.
    + assert (ALL : lookup m (split q) = at_ u m).
      { unfold lookup. apply (at_as_filter u m (serves (split q))). intros a d H. apply bool_eq. rewrite path_eqb_eq. unfold serves. split.
        - intros X. apply orb_prop in X as [X|X]; [eapply UN; eauto|]. exfalso. apply andb_prop in X as [X1 X2]. pose proof (UN2 _ _ H X2) as E.
          assert (TX : T (root s) u = Some true) by (apply (T2 u (last a []) X1); rewrite <- E; eapply reg_node; eauto). congruence.
        - intros ->. rewrite CU. reflexivity. }
      rewrite ALL. apply at_sound; auto. unfold R. rewrite SU. reflexivity.
  - f_equal. unfold lookup. rewrite filter_nil; [reflexivity|]. intros (a, d) H. cbn [fst]. pose proof (reg_node _ _ _ _ I H) as SA.
    unfold serves. destruct (covers a (split q)) eqn:C1.
    { exfalso. rewrite (walk_finds _ A (root s) a S TA Q SA C1) in W. congruence. }
    cbn. destruct (brace (last a []) && covers (removelast a) (split q)) eqn:C2; [|reflexivity]. exfalso. apply andb_prop in C2 as [_ C2].
    assert (SR : sub (root s) (removelast a) <> None). { pose proof (removelast_app1 a (NM _ _ H)) as E. rewrite E, sub_app in SA. destruct (sub (root s) (removelast a)); [discriminate|congruence]. }
    rewrite (walk_finds _ A (root s) _ S TA Q SR C2) in W. congruence.
Qed.

(** ** questions that end in a dot *)
Definition strict (u a : path) : bool := below u a && negb (path_eqb u a).
Definition inv2 (s : state) (m : registrations) : Prop :=
  forall u x, u <> [] -> R2 (root s) u = Some x -> map (dat (live s)) (olist x) = map Some (distinct (map snd (filter (fun y => strict u (fst y)) m))).
Lemma distinct_in : forall l x, In x (distinct l) <-> In x l.
Proof.
  induction l as [|y l IH]; intros x; [reflexivity|]. cbn [distinct In]. rewrite filter_In, IH. destruct (x =? y) eqn:E.
  - apply Z.eqb_eq in E. subst. cbn. tauto.
  - apply Z.eqb_neq in E. cbn. split; [tauto|]. intros [H|H]; auto.
Qed.
Lemma filter_comm : forall {A} (f g : A -> bool) l, filter f (filter g l) = filter g (filter f l).
Proof. induction l as [|x l IH]; [reflexivity|]. cbn. destruct (f x) eqn:F, (g x) eqn:G; cbn; rewrite ?F, ?G, ?IH; reflexivity. Qed.
Lemma distinct_filter : forall f l, distinct (filter f l) = filter f (distinct l).
Proof.
  induction l as [|y l IH]; [reflexivity|]. cbn [filter distinct]. destruct (f y) eqn:F; cbn [distinct]; rewrite IH.
  - f_equal. apply filter_comm.
  - rewrite filter_comm. symmetry. apply filter_none. intros x H. apply filter_In in H as [_ H]. destruct (x =? y) eqn:E; [|reflexivity]. apply Z.eqb_eq in E. congruence.
Qed.
Lemma distinct_nodup : forall l, NoDup (distinct l).
Proof.
  induction l as [|x l IH]; [constructor|]. cbn. constructor; [|apply NoDup_filter, IH]. intros H. apply filter_In in H as [_ H]. rewrite Z.eqb_refl in H. discriminate.
Qed.
Lemma distinct_app : forall l d, distinct (l ++ [d]) = if existsb (Z.eqb d) l then distinct l else distinct l ++ [d].
Proof.
  induction l as [|x l IH]; intros d; [reflexivity|]. cbn [app distinct existsb]. rewrite IH. rewrite (Z.eqb_sym d x). destruct (existsb (Z.eqb d) l); [rewrite orb_true_r; reflexivity|].
  rewrite filter_app. cbn [filter]. rewrite orb_false_r, (Z.eqb_sym d x). destruct (x =? d); cbn [negb]; [rewrite app_nil_r; reflexivity|reflexivity].
Qed.
Lemma R2_extend : forall p t u, R2 (extend p t) u = match R2 t u with Some x => Some x | None => if below u p then Some None else None end.
Proof.
  induction p as [|n p IH]; intros t u.
  - cbn [extend]. unfold R2. destruct (sub t u) eqn:E; [reflexivity|]. destruct u; [discriminate|reflexivity].
  - destruct u as [|m u].
    + cbn [extend]. unfold R2. cbn [sub option_map]. destruct (kid n (kids t)); reflexivity.
    + cbn [extend below]. vc. rewrite (bytes_eqb_sym m n). destruct (kid n (kids t)) as [c|] eqn:K; cbn [kids].
      * rewrite kid_on_kid. destruct (bytes_eqb n m) eqn:E; cbn [andb].
        { apply bytes_eqb_eq in E. subst m. rewrite K. cbn [option_map]. apply IH. }
        destruct (kid m (kids t)) as [x|]; [|reflexivity]. destruct (option_map routes2 (sub x u)); reflexivity.
      * rewrite kid_app. cbn [kid]. destruct (bytes_eqb n m) eqn:E; cbn [andb].
        { apply bytes_eqb_eq in E. subst m. rewrite K. specialize (IH blank u). unfold R2 in IH. rewrite IH, blank_view.
          destruct u as [|? ?]; cbn [routes2 blank]; [|reflexivity]. cbn [below]. reflexivity. }
        destruct (kid m (kids t)) as [x|]; [|reflexivity]. destruct (option_map routes2 (sub x u)); reflexivity.
Qed.
Lemma R_R2 : forall t u, R t u = None <-> R2 t u = None.
Proof. intros. unfold R, R2. destruct (sub t u); cbn; split; congruence. Qed.
Lemma strict_none : forall s m u, inv s m -> R (root s) u = None -> filter (fun y => strict u (fst y)) m = [].
Proof.
  intros s m u I H. apply filter_nil. intros (a, d) IN. cbn. unfold strict. destruct (below u a) eqn:B; [|reflexivity]. exfalso. apply below_spec in B as (r & ->).
  apply (reg_node _ _ _ _ I) in IN. apply IN. rewrite sub_app. unfold R in H. destruct (sub (root s) u); [discriminate|reflexivity].
Qed.
Lemma map_some_inj : forall {A} (a b : list A), map Some a = map Some b -> a = b.
Proof. induction a as [|x a IH]; destruct b as [|y b]; intros H; try discriminate; [reflexivity|]. cbn in H. injection H as -> H. f_equal. auto. Qed.
Lemma grows_map : forall s s' ids ds, grows s s' -> map (dat (live s)) ids = map Some ds -> map (dat (live s')) ids = map Some ds.
Proof.
  induction ids as [|i ids IH]; intros ds G H; destruct ds as [|d ds]; try discriminate; [reflexivity|]. cbn in *. injection H as H1 H2. rewrite (G _ _ H1), (IH _ G H2). reflexivity.
Qed.
Lemma inv2_add : forall s m n d s' e m', inv s m -> inv2 s m -> added s m n d s' e m' -> inv2 s' m'.
Proof.
  intros s m n d s' e m' I V AD. destruct AD as [s' e NE RS GR|TS|s' p t cr i TS WK NP GR RS DI].
  - intros u x NU H. rewrite RS in H. eapply grows_map; [exact GR|]. eapply V; eauto.
  - exact V.
  - intros u x NU H. rewrite RS, R2_push_root in H by exact NU. rewrite R2_extend in H. rewrite filter_app, map_app. cbn [filter fst].
    assert (BASE : forall y, R2 (root s) u = Some y \/ (R2 (root s) u = None /\ y = None) -> map (dat (live s')) (olist y) = map Some (distinct (map snd (filter (fun y => strict u (fst y)) m)))).
    { intros y [Y|[Y ->]]; [eapply grows_map; [exact GR|]; eapply V; eauto|]. apply R_R2 in Y. rewrite (strict_none _ _ _ I Y). reflexivity. }
    assert (HY : exists y, (R2 (root s) u = Some y \/ (R2 (root s) u = None /\ y = None)) /\ x = if strict u p then Some (add_once i (olist y)) else y).
    { unfold strict. destruct (R2 (root s) u) as [y|]; [exists y; injection H as <-; auto|]. exists None. destruct (below u p); [|discriminate]. cbn in H. injection H as <-. split; [right; auto|reflexivity]. }
    destruct HY as (y & Y & ->). specialize (BASE y Y). destruct (strict u p) eqn:ST; cbn [map snd].
    2: { rewrite app_nil_r. exact BASE. }
    cbn [olist]. rewrite distinct_app. unfold add_once.
    assert (EX : existsb (Nat.eqb i) (olist y) = existsb (Z.eqb d) (map snd (filter (fun y => strict u (fst y)) m))).
    { apply bool_eq. rewrite !existsb_exists. split.
      - intros (j & J & E). apply Nat.eqb_eq in E. subst j. exists d. split; [|apply Z.eqb_refl]. apply distinct_in.
        apply (in_map (dat (live s'))) in J. rewrite BASE, (proj2 (DI i) eq_refl) in J. apply in_map_iff in J as (z & E & J). injection E as ->. exact J.
      - intros (z & J & E). apply Z.eqb_eq in E. subst z. apply distinct_in, (in_map Some) in J. rewrite <- BASE in J. apply in_map_iff in J as (j & E & J). apply DI in E. subst j.
        exists i. split; [exact J|apply Nat.eqb_refl]. }
    rewrite EX. destruct (existsb (Z.eqb d) (map snd (filter (fun y => strict u (fst y)) m))); [exact BASE|]. rewrite !map_app, BASE. cbn [map]. rewrite (proj2 (DI i) eq_refl). reflexivity.
Qed.
Lemma inv2_remove : forall s m d, inv s m -> inv2 s m -> inv2 (remove_route s d) (filter (fun x => negb (snd x =? d)) m).
Proof.
  intros s m d I V. unfold remove_route. destruct (find_data d (live s)) as [r|] eqn:F.
  2: { rewrite filter_none; [exact V|]. intros (u, e) H. cbn. destruct (e =? d) eqn:E; [|reflexivity]. apply Z.eqb_eq in E. subst e. exfalso.
       destruct (v_owner _ _ I _ _ H) as (r & Ir & Er). eapply find_data_none; eauto. }
  apply find_data_some in F as [Ir Er]. pose proof (dat_in _ _ (v_ids _ _ I) Ir) as DI. rewrite Er in DI.
  intros u x NU H. cbn [root live] in *. apply R2_prune_some in H as (y & Hy & ->); [|apply (v_names _ _ I)]. rewrite olist_rm.
  pose proof (V u y NU Hy) as B. rewrite filter_comm.
  assert (MF : forall l : registrations, map snd (filter (fun x => negb (snd x =? d)) l) = filter (fun x => negb (x =? d)) (map snd l)).
  { induction l as [|(a, e) l IH]; [reflexivity|]. cbn. destruct (e =? d); cbn; rewrite IH; reflexivity. }
  rewrite MF, distinct_filter. eapply rm_dat; [apply (v_ids _ _ I)|apply (v_datas _ _ I)|exact DI|intros j Hj; apply filter_dat, Hj| |exact B].
  eapply map_some_nodup; [exact B|apply distinct_nodup].
Qed.
Lemma run_inv2 : forall A l s m used s' h, tidyP A -> inv s m -> inv2 s m -> tree A (root s) -> (forall u d, In (u, d) m -> A u) -> (forall u d, In (u, d) m -> In d used) ->
  careful used l -> Forall op_fits l -> (forall n, ~ In (RemoveTopic n) l) -> run s l = Ok (s', h) -> (forall a, In a (accepted h) -> A a) ->
  inv2 s' (fold_left note h m).
Proof.
  intros A l. induction l as [|o l IH]; intros s m used s' h TA I V W MA U C F L H AC; [injection H as -> <-; auto|]. inversion F as [|? ? F1 F2]; subst. cbn [run] in H.
  destruct o as [n d b|d|n]; cbn [step op_fits] in *.
  - assert (O : once_at s m n d b).
    { destruct b; [left; split; [reflexivity|apply C]|]. right. intros t p cr _ X. apply U in X. destruct C as [C _]. auto. }
    destruct (add_inv s m n d b F1 I O) as (s1 & e & m1 & E & I1 & AD). rewrite E in H. cbn [obind] in H.
    pose proof (inv2_add _ _ _ _ _ _ _ I V AD) as V1.
    destruct (run s1 l) as [(s2, h2)| |] eqn:R1; cbn [obind] in H; try discriminate. injection H as -> <-. cbn [fold_left].
    assert (AC2 : forall a, In a (accepted h2) -> A a) by (intros a Ha; apply AC; unfold accepted; cbn [flat_map]; apply in_app_iff; right; exact Ha).
    assert (CC : careful (d :: used) l) by (destruct b; apply C).
    assert (LL : forall k, ~ In (RemoveTopic k) l) by (intros k Hk; apply (L k); right; exact Hk).
    destruct AD as [s1 e NE RS _|TS|s1 p t cr i TS WK NP _ RS DI].
    + cbn [note]. rewrite (proj2 (Z.eqb_neq e 0) NE). cbn [andb]. apply (IH s1 m (d :: used)); auto; [rewrite RS; exact W|intros u x X; right; eapply U; exact X].
    + cbn [note]. rewrite TS. apply (IH s m (d :: used)); auto. intros u x X; right; eapply U; exact X.
    + assert (AN : A (split n)) by (apply AC; unfold accepted; cbn; left; reflexivity).
      assert (PE : p = split n) by (eapply add_walk_own; [apply (w_shape _ _ W)| |exact WK]; intros a Aa; apply TA; auto). subst p.
      cbn [note]. cbn [Z.eqb andb]. destruct (split n) as [|t0 ts] eqn:TSS; [congruence|]. rewrite <- TSS in *. apply (IH s1 (m ++ [(split n, d)]) (d :: used)); auto.
      * rewrite RS. apply tree_push; auto. apply tree_extend; auto.
      * intros u x X. apply in_app_iff in X as [X|[X|[]]]; [eauto|injection X as <- _; exact AN].
      * intros u x X. apply in_app_iff in X as [X|[X|[]]]; [right; eauto|injection X as _ <-; left; reflexivity].
  - cbn [obind] in H. destruct (run (remove_route s d) l) as [(s2, h2)| |] eqn:R1; cbn [obind] in H; try discriminate. injection H as -> <-. cbn [fold_left note].
    apply (IH (remove_route s d) _ (remove Z.eq_dec d used)); auto.
    + apply inv_remove_route, I.
    + apply inv2_remove; auto.
    + unfold remove_route. destruct (find_data d (live s)); [|exact W]. cbn [root]. apply tree_prune; [apply (v_names _ _ I)|exact W].
    + intros u x X. apply filter_In in X as [X _]. eauto.
    + intros u x X. apply filter_In in X as [X X2]. cbn in X2. apply in_in_remove; [|eapply U; exact X]. intros ->. rewrite Z.eqb_refl in X2. discriminate.
    + intros k Hk. apply (L k). right. exact Hk.
  - exfalso. apply (L n). left. reflexivity.
Qed.
Lemma inside_spec : forall a p, inside p a = true <-> exists u r, a = u ++ r /\ r <> [] /\ covers u p = true.
Proof.
  induction a as [|x a IH]; intros p; cbn [inside].
  - split; [destruct p; discriminate|]. intros (u & r & E & NR & _). destruct u; [cbn in E; congruence|discriminate].
  - destruct p as [|y p].
    + split; [|reflexivity]. intros _. exists [], (x :: a). split; [reflexivity|]. split; [discriminate|reflexivity].
    + split.
      * intros H. apply andb_prop in H as [H1 H2]. apply IH in H2 as (u & r & -> & NR & C). exists (x :: u), r. cbn. rewrite H1. auto.
      * intros (u & r & E & NR & C). destruct u as [|z u]; [discriminate|]. cbn in E. injection E as <- ->. cbn in C. apply andb_prop in C as [C1 C2]. apply andb_true_intro. split; [exact C1|]. apply IH. eauto.
Qed.
Lemma get_below : forall A s m q, tidyP A -> inv s m -> inv2 s m -> tree A (root s) -> (forall u d, In (u, d) m -> A u) -> fits q -> ends_dot q = true ->
  askableP A (split q) -> get s q = Ok (lookup_below m (split q)).
Proof.
  intros A s m q TA I V [S T1 T2] MA F D Q. unfold get. rewrite fits_tokenize by exact F. cbn [obind].
  assert (NS : split q <> []). { unfold split. destruct q as [|c r]; [discriminate|]. cbn [cut]. destruct (c =? 46); [discriminate|]. clear. generalize ([] ++ [c]). induction r as [|x r IH]; intros cur; cbn [cut]; [discriminate|]. destruct (x =? 46); [discriminate|apply IH]. }
  destruct (split q) as [|t0 ts] eqn:TS; [congruence|]. rewrite <- TS in *. clear t0 ts TS.
  unfold lookup_below. destruct (walk (split q) (root s)) as [t|] eqn:W.
  - rewrite D. destruct (walk_covers _ _ _ _ S Q W) as (u & SU & CU).
    assert (NU : u <> []) by (intros ->; destruct (split q); [congruence|discriminate]).
    destruct (S u NU ltac:(congruence)) as (b & Ab & Bb).
    assert (EQ : filter (fun x => inside (split q) (fst x)) m = filter (fun y => strict u (fst y)) m).
    { apply filter_ext_in. intros (a, d) H. cbn [fst]. apply bool_eq. rewrite inside_spec. unfold strict. split.
      - intros (u' & r & -> & NR & C). assert (u' = u) by (apply (covers_unique (split q) (u' ++ r) b); auto; [apply TA; eauto|apply below_spec; eauto]). subst u'.
        apply andb_true_intro. split; [apply below_spec; eauto|]. apply negb_true_iff, path_eqb_neq. intros E. rewrite <- (app_nil_r u) in E at 1. apply app_inv_head in E. congruence.
      - intros X. apply andb_prop in X as [X1 X2]. apply below_spec in X1 as (r & ->). exists u, r. split; [reflexivity|]. split; [|exact CU]. intros ->. rewrite app_nil_r, path_eqb_refl in X2. discriminate. }
    rewrite EQ. apply datas_dat. apply (V u (routes2 t) NU). unfold R2. rewrite SU. reflexivity.
  - f_equal. rewrite filter_nil; [reflexivity|]. intros (a, d) H. cbn [fst]. destruct (inside (split q) a) eqn:C; [|reflexivity]. exfalso. apply inside_spec in C as (u & r & -> & NR & C).
    pose proof (reg_node _ _ _ _ I H) as SA. assert (SU : sub (root s) u <> None) by (rewrite sub_app in SA; destruct (sub (root s) u); [discriminate|congruence]).
    rewrite (walk_finds _ A (root s) _ S TA Q SU C) in W. congruence.
Qed.
Theorem lookup_thm : forall l, careful [] l -> Forall op_fits l -> exists s h, run init l = Ok (s, h) /\
  (tidy (accepted h) -> removals_literal (accepted h) l -> forall q, fits q -> q <> [] -> ends_dot q = false -> askable (accepted h) (split q) ->
   get s q = Ok (lookup (registered h) (split q))).
Proof.
  intros l C F. destruct (run_ok l init [] [] inv_init) as (s & h & m & E & I); [intros ? ? []|exact C|exact F|]. exists s, h. split; [exact E|].
  intros TA L q FQ NQ D Q. destruct (run_tidy (fun a => In a (accepted h)) l init [] [] s h TA inv_init (tree_blank _)) as (I' & W & MA); [intros ? ? []|intros ? ? []|exact C|exact F|exact L|exact E|auto|].
  apply (get_lookup (fun a => In a (accepted h))); auto.
Qed.
Theorem below_thm : forall l, careful [] l -> Forall op_fits l -> (forall n, ~ In (RemoveTopic n) l) -> exists s h, run init l = Ok (s, h) /\
  (tidy (accepted h) -> forall q, fits q -> ends_dot q = true -> askable (accepted h) (split q) -> get s q = Ok (lookup_below (registered h) (split q))).
Proof.
  intros l C F NR. destruct (run_ok l init [] [] inv_init) as (s & h & m & E & I); [intros ? ? []|exact C|exact F|]. exists s, h. split; [exact E|].
  intros TA q FQ D Q.
  destruct (run_tidy (fun a => In a (accepted h)) l init [] [] s h TA inv_init (tree_blank _)) as (I' & W & MA); [intros ? ? []|intros ? ? []|exact C|exact F|intros n Hn; destruct (NR n Hn)|exact E|auto|].
  apply (get_below (fun a => In a (accepted h))); auto.
  apply (run_inv2 (fun a => In a (accepted h)) l init [] [] s h TA inv_init); [|apply tree_blank|intros ? ? []|intros ? ? []|exact C|exact F|exact NR|exact E|auto].
  intros u x NU H. unfold R2 in H. cbn [init root] in H. rewrite (blank_view routes2) in H. destruct u; [congruence|discriminate].
Qed.
(** ** names that are taken *)
Lemma row_instance : forall n, row_name n = true -> instance n = true /\ brace n = false.
Proof. intros [|c n]; [discriminate|]. cbn. unfold instance, brace, first. cbn [hd]. intros H. split; [exact H|]. rewrite !orb_true_iff, andb_true_iff, !Z.leb_le, !Z.eqb_eq in H. apply Z.eqb_neq. lia. Qed.
Lemma child_clash : forall n k j i m c, child n k j = Clash i m c -> m <> n /\ brace m && instance n = false /\ brace m || brace n = true.
Proof.
  intros n. induction k as [|(x, y) k IH]; intros j i m c H; cbn [child] in H; [discriminate|].
  destruct (bytes_eqb x n) eqn:E1; [discriminate|]. destruct (brace x && instance n) eqn:E2; [discriminate|]. destruct (brace x || brace n) eqn:E3; [|eauto].
  injection H as _ <- _. apply bytes_eqb_neq in E1. auto.
Qed.
Lemma child_similar : forall n k j i m c, child n k j = Similar i m c -> brace m = true.
Proof.
  intros n. induction k as [|(x, y) k IH]; intros j i m c H; cbn [child] in H; [discriminate|].
  destruct (bytes_eqb x n) eqn:E1; [discriminate|]. destruct (brace x && instance n) eqn:E2; [injection H as _ <- _; apply andb_prop in E2 as [E2 _]; exact E2|].
  destruct (brace x || brace n); [discriminate|eauto].
Qed.
Lemma add_walk_taken : forall p A t u, shape A t -> tidyP A -> sub t u <> None -> stands_for u p = true -> snd (add_walk p false t) = Some (u, false).
Proof.
  induction p as [|y p IH]; intros A t u S TA SU ST; [destruct u; [reflexivity|discriminate]|]. destruct u as [|x u]; [discriminate|]. cbn [stands_for] in ST. apply andb_prop in ST as [C1 C2].
  cbn [sub] in SU. destruct (kid x (kids t)) as [cx|] eqn:KX; [|congruence]. destruct (shape_head _ _ _ _ S KX) as (ax & Ax).
  assert (REC : forall j m c, hit_at (child y (kids t) 0) = Some (j, m, c) -> m = x ->
    snd (let '(c0, r0) := add_walk p false c in (Node (is_table t) (routes t) (routes2 t) (upd (kids t) j (m, c0)), match r0 with Some (p, b0) => Some (m :: p, b0) | None => None end)) = Some (x :: u, false)).
  { intros j m c C ->. apply child_hit in C as (K & _). assert (c = cx) by congruence. subst c.
    pose proof (IH (under A x) cx u (shape_kid _ _ _ _ S KX) (tidy_under _ _ TA) SU C2) as E. destruct (add_walk p false cx) as [c0 r0]. cbn in E |- *. rewrite E. reflexivity. }
  cbn [add_walk]. destruct (child y (kids t) 0) as [j m c|j m c|j m c|] eqn:C.
  - apply REC; [reflexivity|]. pose proof (child_exact _ _ _ _ _ _ C) as ->. destruct (bytes_eqb x y) eqn:E; [apply bytes_eqb_eq in E; auto|]. cbn in C1. apply andb_prop in C1 as [C1 _].
    assert (K : hit_at (child y (kids t) 0) = Some (j, y, c)) by (rewrite C; reflexivity). apply child_hit in K as (K & _). destruct (shape_head _ _ _ _ S K) as (a & Aa). eapply tidy_heads; eauto.
  - apply REC; [reflexivity|]. pose proof (child_similar _ _ _ _ _ _ C) as B.
    assert (K : hit_at (child y (kids t) 0) = Some (j, m, c)) by (rewrite C; reflexivity). apply child_hit in K as (K & _). destruct (shape_head _ _ _ _ S K) as (a & Aa). eapply tidy_heads; eauto.
  - exfalso. pose proof (child_clash _ _ _ _ _ _ C) as (N1 & N2 & N3).
    assert (K : hit_at (child y (kids t) 0) = Some (j, m, c)) by (rewrite C; reflexivity). apply child_hit in K as (K & _). destruct (shape_head _ _ _ _ S K) as (a & Aa).
    assert (MX : brace x = true \/ brace m = true -> m = x) by (intros [B|B]; eapply tidy_heads; eauto).
    destruct (bytes_eqb x y) eqn:E.
    + apply bytes_eqb_eq in E. subst y. apply N1, MX. apply orb_prop in N3 as [B|B]; auto.
    + cbn in C1. apply andb_prop in C1 as [B R]. apply row_instance in R as [R _]. rewrite (MX (or_introl B)), B, R in N2. discriminate.
  - exfalso. apply child_missing in C as (K & _ & NB).
    destruct (bytes_eqb x y) eqn:E; [apply bytes_eqb_eq in E; congruence|]. cbn in C1. apply andb_prop in C1 as [C1 _]. apply kid_in in KX. apply (in_map fst) in KX. apply NB in KX. cbn in KX. congruence.
Qed.
Theorem taken_thm : forall l, careful [] l -> Forall op_fits l -> exists s h, run init l = Ok (s, h) /\
  (tidy (accepted h) -> removals_literal (accepted h) l -> forall u d n d', In (u, d) (registered h) -> fits n -> double_dot n = false -> n <> ADVISORY -> stands_for u (split n) = true ->
   exists s', step s (Add n d' true) = Ok (s', RT_ERROR_DUPLICATE_ENTRY)).
Proof.
  intros l C F. destruct (run_ok l init [] [] inv_init) as (s & h & m & E & I); [intros ? ? []|exact C|exact F|]. exists s, h. split; [exact E|].
  intros TA L u d n d' HU FN DD NA ST. destruct (run_tidy (fun a => In a (accepted h)) l init [] [] s h TA inv_init (tree_blank _)) as (I' & W & MA); [intros ? ? []|intros ? ? []|exact C|exact F|exact L|exact E|auto|].
  change (fold_left note h []) with (registered h) in *. pose proof (reg_node _ _ _ _ I' HU) as SU. pose proof (add_walk_taken (split n) _ (root s) u (w_shape _ _ W) TA SU ST) as AW.
  cbn [step]. unfold add. assert (V : validate n = true).
  { destruct FN as [F1 F2]. unfold validate. rewrite DD. cbn [negb andb]. apply andb_true_iff. unfold MAX_TOKEN_BUFFER_SIZE, MAX_TOKENS. rewrite !Nat.leb_le. lia. }
  rewrite V. cbn [negb]. rewrite fits_tokenize by exact FN. cbn [obind]. assert (NU : u <> []) by (intros ->; eapply (v_ne _ _ I'); eauto).
  destruct (split n) as [|t0 ts] eqn:TS; [destruct u; [congruence|discriminate]|]. rewrite <- TS in *. clear TS t0 ts.
  set (x := match find_data d' (live s) with Some r => (s, tid r) | None => _ end). assert (RX : root (fst x) = root s) by (unfold x; destruct (find_data d' (live s)); reflexivity). destruct x as [s0 i]. cbn [fst] in RX.
  rewrite RX. destruct (add_walk (split n) false (root s)) as [t r] eqn:A. cbn [snd] in AW. subst r. pose proof (add_walk_same _ _ _ _ _ A (or_intror (ex_intro _ u eq_refl))) as ->.
  destruct (v_held _ _ I' _ _ HU) as (y & j & HR & HJ & _). unfold R in HR. destruct (sub (root s) u) as [c|]; [|discriminate]. cbn in HR. injection HR as HR. rewrite HR.
  destruct y; [|destruct HJ]. apply bytes_eqb_neq in NA. rewrite NA. cbn [is_some negb andb]. eauto.
Qed.
