(** Proofs for the routing tree, part 1: the shape of the tree and the invariant. *)
From Coq Require Import String.
From Verif Require Import Common CommonFacts RouteModel RouteSpec.
From Coq Require Import Lia FinFun.
Local Open Scope string_scope.
Local Open Scope list_scope.
Local Open Scope Z_scope.

Notation path := (list (list Z)).

Lemma path_eqb_eq : forall a b, path_eqb a b = true <-> a = b.
Proof.
  induction a as [|x a IH]; destruct b as [|y b]; cbn; split; intros H; try discriminate; auto.
  - apply andb_prop in H as [H1 H2]. apply bytes_eqb_eq in H1. apply IH in H2. congruence.
  - injection H as -> ->. rewrite bytes_eqb_refl. apply IH. reflexivity.
Qed.
Lemma path_eqb_refl : forall a, path_eqb a a = true.
Proof. intros. apply path_eqb_eq. reflexivity. Qed.
Lemma path_eqb_neq : forall a b, path_eqb a b = false <-> a <> b.
Proof. intros. rewrite <- path_eqb_eq. destruct (path_eqb a b); split; congruence. Qed.
Lemma below_spec : forall u p, below u p = true <-> exists r, p = u ++ r.
Proof.
  induction u as [|x u IH]; intros p; cbn; [split; eauto|]. destruct p as [|y p].
  - split; [discriminate|]. intros (r & H). discriminate.
  - split.
    + intros H. apply andb_prop in H as [H1 H2]. apply bytes_eqb_eq in H1. apply IH in H2 as (r & ->). exists r. congruence.
    + intros (r & H). injection H as -> ->. rewrite bytes_eqb_refl. apply IH. eauto.
Qed.

(** ** children *)
Lemma kid_on_kid : forall n m f k, kid m (on_kid n f k) = if bytes_eqb n m then option_map f (kid m k) else kid m k.
Proof.
  intros n m f. induction k as [|(x, c) k IH]; cbn [on_kid kid]; [destruct (bytes_eqb n m); reflexivity|].
  destruct (bytes_eqb x n) eqn:E; cbn [kid].
  - apply bytes_eqb_eq in E. subst x. destruct (bytes_eqb n m); reflexivity.
  - rewrite IH. destruct (bytes_eqb x m) eqn:E2; [|reflexivity]. apply bytes_eqb_eq in E2. subst m.
    rewrite bytes_eqb_sym, E. reflexivity.
Qed.
Lemma kid_app : forall n k k', kid n (k ++ k') = match kid n k with Some c => Some c | None => kid n k' end.
Proof. induction k as [|(m, c) k IH]; intros k'; cbn; [reflexivity|]. destruct (bytes_eqb m n); auto. Qed.
Lemma on_kid_names : forall n f k, map fst (on_kid n f k) = map fst k.
Proof. induction k as [|(m, c) k IH]; cbn; [reflexivity|]. destruct (bytes_eqb m n); cbn; congruence. Qed.
Lemma kid_in : forall n k c, kid n k = Some c -> In (n, c) k.
Proof.
  induction k as [|(m, x) k IH]; intros c H; cbn in H; [discriminate|]. destruct (bytes_eqb m n) eqn:E; [|right; auto].
  apply bytes_eqb_eq in E. injection H as ->. left. congruence.
Qed.
Lemma kid_none : forall n k, kid n k = None <-> ~ In n (map fst k).
Proof.
  induction k as [|(m, x) k IH]; cbn; [split; auto|]. destruct (bytes_eqb m n) eqn:E.
  - apply bytes_eqb_eq in E. split; [discriminate|]. intros H. exfalso. auto.
  - apply bytes_eqb_neq in E. rewrite IH. split; tauto.
Qed.
Lemma kid_nodup : forall n k c, NoDup (map fst k) -> In (n, c) k -> kid n k = Some c.
Proof.
  induction k as [|(m, x) k IH]; intros c N H; [destruct H|]. cbn in *. inversion N as [|? ? NI N']; subst.
  destruct H as [H|H]; [injection H as -> ->; rewrite bytes_eqb_refl; reflexivity|].
  destruct (bytes_eqb m n) eqn:E; [|auto]. apply bytes_eqb_eq in E. subst. exfalso. apply NI. apply (in_map fst) in H. exact H.
Qed.
Fixpoint rm_kid (n : list Z) (k : list (list Z * topic)) : list (list Z * topic) :=
  match k with [] => [] | (m, c) :: k => if bytes_eqb m n then k else (m, c) :: rm_kid n k end.
Lemma rm_kid_incl : forall n k x, In x (rm_kid n k) -> In x k.
Proof. induction k as [|(m, c) k IH]; intros x H; cbn in *; [destruct H|]. destruct (bytes_eqb m n); [auto|]. destruct H; auto. Qed.
Lemma rm_kid_names : forall n k, NoDup (map fst k) -> NoDup (map fst (rm_kid n k)).
Proof.
  induction k as [|(m, c) k IH]; intros N; cbn in *; [constructor|]. inversion N; subst. destruct (bytes_eqb m n); [auto|]. cbn. constructor; auto.
  intros H. apply in_map_iff in H as (x & E & H). apply rm_kid_incl in H. apply H1. rewrite <- E. apply in_map, H.
Qed.
Lemma kid_rm : forall n m k, NoDup (map fst k) -> kid m (rm_kid n k) = if bytes_eqb n m then None else kid m k.
Proof.
  intros n m. induction k as [|(x, c) k IH]; intros N; cbn [rm_kid kid]; [destruct (bytes_eqb n m); reflexivity|]. cbn in N. inversion N; subst.
  destruct (bytes_eqb x n) eqn:E.
  - apply bytes_eqb_eq in E. subst x. destruct (bytes_eqb n m) eqn:E2; [|reflexivity]. apply bytes_eqb_eq in E2. subst m. apply kid_none. assumption.
  - cbn [kid]. rewrite IH by assumption. destruct (bytes_eqb x m) eqn:E2; [|reflexivity]. apply bytes_eqb_eq in E2. subst m. rewrite bytes_eqb_sym, E. reflexivity.
Qed.
(** the child the loop stops at is the first with its name *)
Definition hit_at (h : hit) : option (nat * list Z * topic) :=
  match h with Exact j m c | Similar j m c | Clash j m c => Some (j, m, c) | Missing => None end.
Lemma child_hit_gen : forall n k j i m c, hit_at (child n k j) = Some (i, m, c) ->
  (j <= i)%nat /\ kid m k = Some c /\ (forall c', upd k (i - j) (m, c') = on_kid m (fun _ => c') k) /\ drop_nth k (i - j) = rm_kid m k.
Proof.
  intros n. induction k as [|(x, y) k IH]; intros j i m c H; cbn [child] in H; [discriminate|].
  assert (HEAD : Some (j, x, y) = Some (i, m, c) -> (j <= i)%nat /\ kid m ((x, y) :: k) = Some c /\
    (forall c', upd ((x, y) :: k) (i - j) (m, c') = on_kid m (fun _ => c') ((x, y) :: k)) /\ drop_nth ((x, y) :: k) (i - j) = rm_kid m ((x, y) :: k)).
  { intros Q. injection Q as -> -> ->. rewrite Nat.sub_diag. cbn. rewrite bytes_eqb_refl. auto. }
  destruct (bytes_eqb x n) eqn:E1; [auto|]. destruct (brace x && instance n) eqn:E2; [auto|]. destruct (brace x || brace n) eqn:E3; [auto|].
  apply IH in H as HH. destruct HH as (L & K & U & D).
  assert (NE : bytes_eqb x m = false).
  { apply orb_false_elim in E3 as [E3 E4]. apply bytes_eqb_neq. intros ->. clear -H E1 E2 E3 E4. revert H. generalize (S j).
    induction k as [|(a, b) k IHk]; intros j' H; cbn [child] in H; [discriminate|].
    destruct (bytes_eqb a n) eqn:Ea; [injection H as _ -> _; congruence|].
    destruct (brace a && instance n) eqn:Eb; [injection H as _ -> _; rewrite E3 in Eb; discriminate|].
    destruct (brace a || brace n) eqn:Ec; [injection H as _ -> _; rewrite E3, E4 in Ec; discriminate|]. eapply IHk; eauto. }
  split; [lia|]. cbn [kid on_kid rm_kid]. rewrite NE. split; [exact K|].
  replace (i - j)%nat with (S (i - S j)) by lia. cbn [upd drop_nth]. split; [intros c'; rewrite U; reflexivity|rewrite D; reflexivity].
Qed.
Lemma child_hit : forall n k i m c, hit_at (child n k 0) = Some (i, m, c) ->
  kid m k = Some c /\ (forall c', upd k i (m, c') = on_kid m (fun _ => c') k) /\ drop_nth k i = rm_kid m k.
Proof. intros n k i m c H. apply child_hit_gen in H as (_ & K & U & D). rewrite Nat.sub_0_r in *. auto. Qed.
Lemma child_exact : forall n k j i m c, child n k j = Exact i m c -> m = n.
Proof.
  intros n. induction k as [|(x, y) k IH]; intros j i m c H; cbn [child] in H; [discriminate|].
  destruct (bytes_eqb x n) eqn:E1; [apply bytes_eqb_eq in E1; injection H as _ <- _; exact E1|].
  destruct (brace x && instance n); [discriminate|]. destruct (brace x || brace n); [discriminate|]. eauto.
Qed.
Lemma child_missing : forall n k j, child n k j = Missing -> kid n k = None /\ (brace n = true -> k = []) /\ forall m, In m (map fst k) -> brace m = false.
Proof.
  intros n. induction k as [|(x, y) k IH]; intros j H; cbn [child] in H; [cbn; split; [reflexivity|split; [reflexivity|intros m []]]|].
  destruct (bytes_eqb x n) eqn:E1; [discriminate|]. destruct (brace x && instance n); [discriminate|]. destruct (brace x || brace n) eqn:E3; [discriminate|].
  apply orb_false_elim in E3 as [E3 E4]. apply IH in H as (H1 & H2 & H3). cbn [kid]. rewrite E1. split; [exact H1|]. split; [congruence|].
  intros m [M|M]; [cbn in M; congruence|auto].
Qed.

(** ** views of the tree *)
Definition R (t : topic) (u : path) := option_map routes (sub t u).
Definition R2 (t : topic) (u : path) := option_map routes2 (sub t u).
Definition N (t : topic) (u : path) := option_map (fun n => map fst (kids n)) (sub t u).
Definition T (t : topic) (u : path) := option_map is_table (sub t u).
Lemma view_cons : forall {A} (f : topic -> A) t n u, option_map f (sub t (n :: u)) = match kid n (kids t) with Some c => option_map f (sub c u) | None => None end.
Proof. intros. cbn [sub]. destruct (kid n (kids t)); reflexivity. Qed.
Ltac vc := unfold R, R2, N, T in *; rewrite ?view_cons in *.

(** *** creating a path *)
Fixpoint extend (p : path) (t : topic) : topic :=
  match p with
  | [] => t
  | n :: p =>
    match kid n (kids t) with
    | Some c => Node (is_table t) (routes t) (routes2 t) (on_kid n (fun _ => extend p c) (kids t))
    | None => Node (is_table t || brace n) (routes t) (routes2 t) (kids t ++ [(n, extend p blank)])
    end
  end.
Lemma add_walk_blank : forall ts, add_walk ts true blank = (extend ts blank, Some (ts, true)).
Proof. induction ts as [|n ts IH]; [reflexivity|]. cbn [add_walk blank kids child extend kid is_table routes routes2]. fold blank. rewrite IH. reflexivity. Qed.
Lemma add_walk_extend : forall ts b t t' p cr, add_walk ts b t = (t', Some (p, cr)) -> t' = extend p t /\ length p = length ts.
Proof.
  induction ts as [|n ts IH]; intros b t t' p cr H; cbn [add_walk] in H; [injection H as <- <- _; auto|].
  destruct (child n (kids t) 0) as [j m c|j m c|j m c|] eqn:C; try discriminate.
  - pose proof (child_hit n (kids t) j m c ltac:(rewrite C; reflexivity)) as (K & U & _).
    destruct (add_walk ts false c) as [c' [(p', b')|]] eqn:E; [|discriminate]. injection H as <- <- <-.
    apply IH in E as [-> L]. cbn [extend length]. rewrite K, U. auto.
  - pose proof (child_hit n (kids t) j m c ltac:(rewrite C; reflexivity)) as (K & U & _).
    destruct (add_walk ts false c) as [c' [(p', b')|]] eqn:E; [|discriminate]. injection H as <- <- <-.
    apply IH in E as [-> L]. cbn [extend length]. rewrite K, U. auto.
  - rewrite add_walk_blank in H. injection H as <- <- <-. apply child_missing in C as (K & _ & _). cbn [extend length]. rewrite K. auto.
Qed.
Lemma on_kid_same : forall n c k, kid n k = Some c -> on_kid n (fun _ => c) k = k.
Proof.
  induction k as [|(m, x) k IH]; intros H; cbn in *; [discriminate|]. destruct (bytes_eqb m n); [congruence|]. rewrite IH; auto.
Qed.
Lemma node_eta : forall t, Node (is_table t) (routes t) (routes2 t) (kids t) = t.
Proof. intros [? ? ? ?]; reflexivity. Qed.
(** a refused or repeated registration creates nothing *)
Lemma add_walk_same : forall ts b t t' r, add_walk ts b t = (t', r) -> (r = None \/ exists p, r = Some (p, false)) -> t' = t.
Proof.
  induction ts as [|n ts IH]; intros b t t' r H Q; cbn [add_walk] in H; [injection H as <- <-; reflexivity|].
  assert (REC : forall j m c, hit_at (child n (kids t) 0) = Some (j, m, c) ->
    (let '(c0, r0) := add_walk ts false c in (Node (is_table t) (routes t) (routes2 t) (upd (kids t) j (m, c0)),
       match r0 with Some (p, b0) => Some (m :: p, b0) | None => None end)) = (t', r) -> t' = t).
  { intros j m c C G. apply child_hit in C as (K & U & _). destruct (add_walk ts false c) as [c' r'] eqn:E. injection G as <- <-.
    assert (CE : c' = c).
    { apply (IH _ _ _ _ E). destruct r' as [(p', b')|]; [|auto]. right. destruct Q as [Q|(p & Q)]; [discriminate|]. injection Q as _ ->. eauto. }
    subst c'. rewrite U, on_kid_same by exact K.
    apply node_eta. }
  destruct (child n (kids t) 0) as [j m c|j m c|j m c|] eqn:C.
  - eapply REC; [reflexivity|exact H].
  - eapply REC; [reflexivity|exact H].
  - injection H as <- <-. reflexivity.
  - rewrite add_walk_blank in H. injection H as <- <-. destruct Q as [Q|(p & Q)]; discriminate.
Qed.
Lemma blank_view : forall {A} (f : topic -> A) u, option_map f (sub blank u) = match u with [] => Some (f blank) | _ => None end.
Proof. intros A f [|n u]; reflexivity. Qed.
Lemma R_extend : forall p t u, R (extend p t) u = match R t u with Some x => Some x | None => if below u p then Some None else None end.
Proof.
  induction p as [|n p IH]; intros t u.
  - cbn [extend]. unfold R. destruct (sub t u) eqn:E; [reflexivity|]. destruct u; [discriminate|reflexivity].
  - destruct u as [|m u].
    + cbn [extend]. unfold R. cbn [sub option_map]. destruct (kid n (kids t)); reflexivity.
    + cbn [extend below]. vc. rewrite (bytes_eqb_sym m n). destruct (kid n (kids t)) as [c|] eqn:K; cbn [kids].
      * rewrite kid_on_kid. destruct (bytes_eqb n m) eqn:E; cbn [andb].
        { apply bytes_eqb_eq in E. subst m. rewrite K. cbn [option_map]. apply IH. }
        destruct (kid m (kids t)) as [x|]; [|reflexivity]. destruct (option_map routes (sub x u)); reflexivity.
      * rewrite kid_app. cbn [kid]. destruct (bytes_eqb n m) eqn:E; cbn [andb].
        { apply bytes_eqb_eq in E. subst m. rewrite K. specialize (IH blank u). unfold R in IH. rewrite IH, blank_view.
          destruct u as [|? ?]; cbn [routes blank]; [|reflexivity]. cbn [below]. reflexivity. }
        destruct (kid m (kids t)) as [x|]; [|reflexivity]. destruct (option_map routes (sub x u)); reflexivity.
Qed.
Lemma extend_names : forall p t, (forall u ns, N t u = Some ns -> NoDup ns) -> forall u ns, N (extend p t) u = Some ns -> NoDup ns.
Proof.
  induction p as [|n p IH]; intros t H u ns E; [eauto|]. cbn [extend] in E.
  assert (H0 : NoDup (map fst (kids t))) by (apply (H [] (map fst (kids t))); reflexivity).
  destruct (kid n (kids t)) as [c|] eqn:K.
  - destruct u as [|m u].
    + unfold N in E. cbn in E. rewrite on_kid_names in E. injection E as <-. exact H0.
    + vc. cbn [kids] in E. rewrite kid_on_kid in E. destruct (bytes_eqb n m) eqn:B.
      * apply bytes_eqb_eq in B. subst m. rewrite K in E. cbn [option_map] in E. revert E. apply IH. intros v ms V. apply (H (n :: v)). vc. rewrite K. exact V.
      * apply (H (m :: u)). vc. exact E.
  - destruct u as [|m u].
    + unfold N in E. cbn in E. rewrite map_app in E. injection E as <-. cbn. apply kid_none in K. clear -H0 K.
      induction (map fst (kids t)) as [|y l IHl]; cbn; [constructor; [intros []|constructor]|]. inversion H0; subst. constructor.
      * rewrite in_app_iff. intros [Q|[Q|[]]]; [auto|subst; apply K; left; reflexivity].
      * apply IHl; auto. intros Q. apply K. right; auto.
    + vc. cbn [kids] in E. rewrite kid_app in E. destruct (kid m (kids t)) as [x|] eqn:KM.
      * apply (H (m :: u)). vc. rewrite KM. exact E.
      * cbn [kid] in E. destruct (bytes_eqb n m); [|discriminate]. revert E. apply IH. intros v ms V. unfold N in V. rewrite blank_view in V.
        destruct v; [injection V as <-; constructor|discriminate].
Qed.
(** *** storing a route *)
Lemma R_push : forall p i t u, R (push p i t) u = option_map (fun x => if path_eqb u p then Some (olist x ++ [i]) else x) (R t u).
Proof.
  induction p as [|n p IH]; intros i t u; cbn [push].
  - destruct u as [|m u]; [reflexivity|]. vc. cbn [kids path_eqb]. destruct (kid m (kids t)); [|reflexivity]. destruct (sub t0 u); reflexivity.
  - destruct u as [|m u]; [reflexivity|]. vc. cbn [kids path_eqb]. rewrite kid_on_kid, (bytes_eqb_sym m n). destruct (bytes_eqb n m); cbn [andb].
    + destruct (kid m (kids t)) as [c|]; [|reflexivity]. cbn [option_map]. apply IH.
    + destruct (kid m (kids t)) as [c|]; [|reflexivity]. destruct (sub c u); reflexivity.
Qed.
Lemma R_push_root : forall p i t u, p <> [] -> R (push_root p i t) u = option_map (fun x => if path_eqb u p then Some (olist x ++ [i]) else x) (R t u).
Proof.
  intros [|n p] i t u NE; [congruence|]. cbn [push_root]. destruct u as [|m u]; [reflexivity|]. vc. cbn [kids path_eqb].
  rewrite kid_on_kid, (bytes_eqb_sym m n). destruct (bytes_eqb n m); cbn [andb].
  - destruct (kid m (kids t)) as [c|]; [|reflexivity]. cbn [option_map]. apply R_push.
  - destruct (kid m (kids t)) as [c|]; [|reflexivity]. destruct (sub c u); reflexivity.
Qed.
Lemma R2_push : forall p i t u, R2 (push p i t) u = option_map (fun x => if below u p && negb (path_eqb u p) then Some (add_once i (olist x)) else x) (R2 t u).
Proof.
  induction p as [|n p IH]; intros i t u; cbn [push].
  - destruct u as [|m u]; [reflexivity|]. vc. cbn [kids below andb]. destruct (kid m (kids t)) as [c|]; [|reflexivity]. destruct (sub c u); reflexivity.
  - destruct u as [|m u]; [reflexivity|]. vc. cbn [kids path_eqb below]. rewrite kid_on_kid, (bytes_eqb_sym m n). destruct (bytes_eqb n m); cbn [andb].
    + destruct (kid m (kids t)) as [c|]; [|reflexivity]. cbn [option_map]. apply IH.
    + destruct (kid m (kids t)) as [c|]; [|reflexivity]. destruct (sub c u); reflexivity.
Qed.
Lemma R2_push_root : forall p i t u, u <> [] -> R2 (push_root p i t) u = option_map (fun x => if below u p && negb (path_eqb u p) then Some (add_once i (olist x)) else x) (R2 t u).
Proof.
  intros [|n p] i t u NE; cbn [push_root].
  - destruct u as [|m u]; [congruence|]. cbn [below andb]. destruct (R2 t (m :: u)); reflexivity.
  - destruct u as [|m u]; [congruence|]. vc. cbn [kids path_eqb below]. rewrite kid_on_kid, (bytes_eqb_sym m n). destruct (bytes_eqb n m); cbn [andb].
    + destruct (kid m (kids t)) as [c|]; [|reflexivity]. cbn [option_map]. apply R2_push.
    + destruct (kid m (kids t)) as [c|]; [|reflexivity]. destruct (sub c u); reflexivity.
Qed.
Lemma N_push : forall p i t u, N (push p i t) u = N t u.
Proof.
  induction p as [|n p IH]; intros i t u; cbn [push].
  - destruct u as [|m u]; [reflexivity|]. vc. reflexivity.
  - destruct u as [|m u]; [unfold N; cbn [sub option_map kids]; rewrite on_kid_names; reflexivity|]. vc. cbn [kids]. rewrite kid_on_kid. destruct (bytes_eqb n m); [|reflexivity].
    destruct (kid m (kids t)) as [c|]; [|reflexivity]. cbn [option_map]. apply IH.
Qed.
Lemma N_push_root : forall p i t u, N (push_root p i t) u = N t u.
Proof.
  intros [|n p] i t u; cbn [push_root]; [reflexivity|].
  destruct u as [|m u]; [unfold N; cbn [sub option_map kids]; rewrite on_kid_names; reflexivity|]. vc. cbn [kids]. rewrite kid_on_kid. destruct (bytes_eqb n m); [|reflexivity].
  destruct (kid m (kids t)) as [c|]; [|reflexivity]. cbn [option_map]. apply N_push.
Qed.
Lemma T_push : forall p i t u, T (push p i t) u = T t u.
Proof.
  induction p as [|n p IH]; intros i t u; cbn [push].
  - destruct u as [|m u]; [reflexivity|]. vc. reflexivity.
  - destruct u as [|m u]; [reflexivity|]. vc. cbn [kids]. rewrite kid_on_kid. destruct (bytes_eqb n m); [|reflexivity].
    destruct (kid m (kids t)) as [c|]; [|reflexivity]. cbn [option_map]. apply IH.
Qed.
Lemma T_push_root : forall p i t u, T (push_root p i t) u = T t u.
Proof.
  intros [|n p] i t u; cbn [push_root]; [reflexivity|].
  destruct u as [|m u]; [reflexivity|]. vc. cbn [kids]. rewrite kid_on_kid. destruct (bytes_eqb n m); [|reflexivity].
  destruct (kid m (kids t)) as [c|]; [|reflexivity]. cbn [option_map]. apply T_push.
Qed.

(** *** removing a route *)
Section TopicInd.
  Variable P : topic -> Prop.
  Hypothesis H : forall b r r2 k, Forall (fun nc => P (snd nc)) k -> P (Node b r r2 k).
  Fixpoint topic_ind' (t : topic) : P t :=
    match t with Node b r r2 k => H b r r2 k ((fix go k : Forall (fun nc => P (snd nc)) k :=
      match k with [] => Forall_nil _ | (n, c) :: k => Forall_cons (n, c) (topic_ind' c) (go k) end) k) end.
End TopicInd.
Definition prune_kids (i : nat) := fix go (k : list (list Z * topic)) := match k with
  | [] => [] | (n, c) :: k => let c := prune i c in if unused c then go k else (n, c) :: go k end.
Lemma prune_unfold : forall i b r r2 k, prune i (Node b r r2 k) = Node b (option_map (rm i) r) (option_map (rm i) r2) (prune_kids i k).
Proof. reflexivity. Qed.
Lemma prune_names_in : forall i k n, In n (map fst (prune_kids i k)) -> In n (map fst k).
Proof. induction k as [|(m, c) k IH]; intros n H; cbn in *; [exact H|]. destruct (unused (prune i c)); [auto|]. cbn in H. destruct H; auto. Qed.
Lemma prune_names_nodup : forall i k, NoDup (map fst k) -> NoDup (map fst (prune_kids i k)).
Proof.
  induction k as [|(m, c) k IH]; intros N; cbn in *; [constructor|]. inversion N; subst. destruct (unused (prune i c)); [auto|]. cbn. constructor; auto.
  intros H. apply prune_names_in in H. auto.
Qed.
Lemma kid_prune : forall i k n, NoDup (map fst k) ->
  kid n (prune_kids i k) = match kid n k with Some c => if unused (prune i c) then None else Some (prune i c) | None => None end.
Proof.
  intros i. induction k as [|(m, c) k IH]; intros n N; [reflexivity|]. cbn in N. inversion N; subst. cbn [prune_kids kid].
  destruct (bytes_eqb m n) eqn:E.
  - apply bytes_eqb_eq in E. subst m. destruct (unused (prune i c)) eqn:U; cbn [kid].
    + rewrite IH by assumption. apply kid_none in H1. rewrite H1. reflexivity.
    + rewrite bytes_eqb_refl. reflexivity.
  - destruct (unused (prune i c)) eqn:U; cbn [kid]; [|rewrite E]; apply IH; assumption.
Qed.
Lemma N_kid : forall t n c, (forall u ns, N t u = Some ns -> NoDup ns) -> kid n (kids t) = Some c -> forall u ns, N c u = Some ns -> NoDup ns.
Proof. intros t n c H K u ns E. apply (H (n :: u)). vc. rewrite K. exact E. Qed.
Lemma N_top : forall t, (forall u ns, N t u = Some ns -> NoDup ns) -> NoDup (map fst (kids t)).
Proof. intros t H. apply (H []). reflexivity. Qed.
(** what stays keeps its routes less the removed one *)
Lemma R_prune_some : forall u i t y, (forall v ns, N t v = Some ns -> NoDup ns) -> R (prune i t) u = Some y -> exists x, R t u = Some x /\ y = option_map (rm i) x.
Proof.
  induction u as [|n u IH]; intros i t y NN H.
  - destruct t as [b r r2 k]. unfold R in *. cbn in H. injection H as <-. cbn. eauto.
  - pose proof (N_top _ NN) as NT. vc. destruct t as [b r r2 k]. rewrite prune_unfold in H. cbn [kids] in *. rewrite kid_prune in H by exact NT.
    destruct (kid n k) as [c|] eqn:K; [|discriminate]. destruct (unused (prune i c)); [discriminate|]. apply IH in H; [exact H|].
    eapply (N_kid (Node b r r2 k)); eauto.
Qed.
Lemma prune_kids_nil : forall i k n c, NoDup (map fst k) -> prune_kids i k = [] -> kid n k = Some c -> unused (prune i c) = true.
Proof. intros i k n c N E K. pose proof (kid_prune i k n N) as H. rewrite E, K in H. cbn in H. destruct (unused (prune i c)); [reflexivity|discriminate]. Qed.
Lemma unused_inv : forall t, unused t = true -> kids t = [] /\ olist (routes t) = [].
Proof. intros t H. unfold unused in H. destruct (kids t); [|discriminate]. destruct (olist (routes t)); [auto|discriminate]. Qed.
Lemma olist_map : forall {A B} (f : A -> B) o, olist (option_map (map f) o) = map f (olist o).
Proof. intros A B f [?|]; reflexivity. Qed.
Lemma olist_rm : forall i o, olist (option_map (rm i) o) = rm i (olist o).
Proof. intros i [?|]; reflexivity. Qed.
(** what goes had nothing else *)
Lemma unused_below : forall v i t x, (forall w ns, N t w = Some ns -> NoDup ns) -> unused (prune i t) = true -> R t v = Some x -> rm i (olist x) = [].
Proof.
  induction v as [|n v IH]; intros i t x NN U H; apply unused_inv in U as [U1 U2]; destruct t as [b r r2 k]; rewrite prune_unfold in *; cbn [kids routes] in *.
  - unfold R in H. cbn in H. injection H as <-. rewrite olist_rm in U2. exact U2.
  - vc. cbn [kids] in H. destruct (kid n k) as [c|] eqn:K; [|discriminate].
    pose proof (N_top _ NN) as NT. cbn [kids] in NT. pose proof (prune_kids_nil i k n c NT U1 K) as UC.
    eapply IH; [|exact UC|exact H]. eapply (N_kid (Node b r r2 k)); eauto.
Qed.
Lemma R_prune_none : forall u i t, (forall v ns, N t v = Some ns -> NoDup ns) -> R (prune i t) u = None -> forall v x, R t (u ++ v) = Some x -> rm i (olist x) = [].
Proof.
  induction u as [|n u IH]; intros i t NN H v x E.
  - destruct t as [b r r2 k]. discriminate.
  - pose proof (N_top _ NN) as NT. cbn [app] in E. vc. destruct t as [b r r2 k]. rewrite prune_unfold in H. cbn [kids] in *. rewrite kid_prune in H by exact NT.
    destruct (kid n k) as [c|] eqn:K; [|discriminate].
    assert (NC : forall w ns, N c w = Some ns -> NoDup ns) by (eapply (N_kid (Node b r r2 k)); eauto).
    destruct (unused (prune i c)) eqn:U; [eapply unused_below; eauto|]. eapply IH; eauto.
Qed.
Lemma N_prune : forall u i t ns, (forall v ns, N t v = Some ns -> NoDup ns) -> N (prune i t) u = Some ns -> NoDup ns.
Proof.
  induction u as [|n u IH]; intros i t ns NN H.
  - pose proof (N_top _ NN) as NT. destruct t as [b r r2 k]. unfold N in H. cbn [prune sub option_map] in H. injection H as <-. apply prune_names_nodup. exact NT.
  - pose proof (N_top _ NN) as NT. vc. destruct t as [b r r2 k]. rewrite prune_unfold in H. cbn [kids] in *. rewrite kid_prune in H by exact NT.
    destruct (kid n k) as [c|] eqn:K; [|discriminate]. destruct (unused (prune i c)); [discriminate|]. eapply IH; [|exact H]. eapply (N_kid (Node b r r2 k)); eauto.
Qed.
Lemma T_prune_some : forall u i t y, (forall v ns, N t v = Some ns -> NoDup ns) -> T (prune i t) u = Some y -> T t u = Some y.
Proof.
  induction u as [|n u IH]; intros i t y NN H.
  - destruct t as [b r r2 k]. exact H.
  - pose proof (N_top _ NN) as NT. vc. destruct t as [b r r2 k]. rewrite prune_unfold in H. cbn [kids] in *. rewrite kid_prune in H by exact NT.
    destruct (kid n k) as [c|] eqn:K; [|discriminate]. destruct (unused (prune i c)); [discriminate|]. apply IH in H; [exact H|]. eapply (N_kid (Node b r r2 k)); eauto.
Qed.
Lemma R2_prune_some : forall u i t y, (forall v ns, N t v = Some ns -> NoDup ns) -> R2 (prune i t) u = Some y -> exists x, R2 t u = Some x /\ y = option_map (rm i) x.
Proof.
  induction u as [|n u IH]; intros i t y NN H.
  - destruct t as [b r r2 k]. unfold R2 in *. cbn in H. injection H as <-. cbn. eauto.
  - pose proof (N_top _ NN) as NT. vc. destruct t as [b r r2 k]. rewrite prune_unfold in H. cbn [kids] in *. rewrite kid_prune in H by exact NT.
    destruct (kid n k) as [c|] eqn:K; [|discriminate]. destruct (unused (prune i c)); [discriminate|]. apply IH in H; [exact H|].
    eapply (N_kid (Node b r r2 k)); eauto.
Qed.

(** *** removing a topic *)
Fixpoint cutoff (p : path) (t : topic) : topic :=
  match p with
  | [] => t
  | [n] => Node (is_table t) (routes t) (routes2 t) (rm_kid n (kids t))
  | n :: p => Node (is_table t) (routes t) (routes2 t) (on_kid n (cutoff p) (kids t))
  end.
Lemma on_kid_ext : forall n f g k, (forall c, kid n k = Some c -> f c = g c) -> on_kid n f k = on_kid n g k.
Proof. induction k as [|(m, c) k IH]; intros H; cbn in *; [reflexivity|]. destruct (bytes_eqb m n); [rewrite H; reflexivity|]. rewrite IH; auto. Qed.
Lemma view_cutoff : forall {A} (f : topic -> A), (forall b r r2 k k', f (Node b r r2 k) = f (Node b r r2 k')) ->
  forall p t u, p <> [] -> (forall v ns, N t v = Some ns -> NoDup ns) -> option_map f (sub (cutoff p t) u) = if below p u then None else option_map f (sub t u).
Proof.
  intros A f F. induction p as [|n p IH]; intros t u NE NN; [congruence|]. pose proof (N_top _ NN) as NT. destruct u as [|m u].
  - cbn [below sub option_map]. f_equal. destruct p; cbn [cutoff]; rewrite <- (node_eta t) at 5; apply F.
  - rewrite !view_cons. cbn [below]. destruct p as [|n' p].
    + cbn [cutoff kids below]. rewrite kid_rm by exact NT. rewrite andb_true_r. destruct (bytes_eqb n m); reflexivity.
    + assert (CE : cutoff (n :: n' :: p) t = Node (is_table t) (routes t) (routes2 t) (on_kid n (cutoff (n' :: p)) (kids t))) by reflexivity.
      rewrite CE. cbn [kids]. rewrite kid_on_kid. destruct (bytes_eqb n m) eqn:E; cbn [andb]; [|reflexivity].
      destruct (kid m (kids t)) as [c|] eqn:K; cbn [option_map]; [|destruct (below (n' :: p) u); reflexivity].
      apply IH; [discriminate|]. eapply N_kid; eauto.
Qed.
Lemma N_cutoff : forall p t, (forall v ns, N t v = Some ns -> NoDup ns) -> forall u ns, N (cutoff p t) u = Some ns -> NoDup ns.
Proof.
  induction p as [|n p IH]; intros t NN u ns H; [eauto|]. pose proof (N_top _ NN) as NT.
  destruct p as [|n' p].
  - cbn [cutoff] in H. destruct u as [|m u]; [unfold N in H; cbn in H; injection H as <-; apply rm_kid_names, NT|].
    vc. cbn [kids] in H. rewrite kid_rm in H by exact NT. destruct (bytes_eqb n m); [discriminate|]. apply (NN (m :: u)). vc. exact H.
  - assert (CE : cutoff (n :: n' :: p) t = Node (is_table t) (routes t) (routes2 t) (on_kid n (cutoff (n' :: p)) (kids t))) by reflexivity.
    rewrite CE in H. destruct u as [|m u]; [unfold N in H; cbn [sub option_map kids] in H; rewrite on_kid_names in H; injection H as <-; exact NT|].
    vc. cbn [kids] in H. rewrite kid_on_kid in H. destruct (bytes_eqb n m).
    + destruct (kid m (kids t)) as [c|] eqn:K; [|discriminate]. cbn [option_map] in H. eapply IH; [|exact H]. eapply N_kid; eauto.
    + apply (NN (m :: u)). vc. exact H.
Qed.
(** the route entries of a subtree *)
Fixpoint pairs (p : path) (t : topic) : list (path * nat) :=
  match t with Node _ r _ k => map (pair p) (olist r) ++ flat_map (fun nc => pairs (p ++ [fst nc]) (snd nc)) k end.
Fixpoint forget_all (prs : list (path * nat)) (l : list troute) : outcome unit (list troute) :=
  match prs with
  | [] => Ok l
  | (p, i) :: prs => do l <- forget p [i] l ; forget_all prs l
  end.
Lemma forget_all_app : forall a b l, forget_all (a ++ b) l = (do l <- forget_all a l ; forget_all b l).
Proof. induction a as [|(p, i) a IH]; intros b l; cbn [app forget_all]; [reflexivity|]. destruct (forget p [i] l); cbn; auto. Qed.
Lemma forget_pairs : forall p ids l, forget p ids l = forget_all (map (pair p) ids) l.
Proof.
  induction ids as [|i ids IH]; intros l; [reflexivity|]. cbn [map forget_all forget]. destruct (find_id i l) as [r|]; [|reflexivity].
  cbn. rewrite IH. reflexivity.
Qed.
Lemma forget_tree_pairs : forall t p l, forget_tree p t l = forget_all (pairs p t) l.
Proof.
  refine (topic_ind' _ _). intros b r r2 k F p l. cbn [forget_tree pairs]. rewrite forget_all_app, forget_pairs.
  destruct (forget_all (map (pair p) (olist r)) l) as [l'| |]; cbn; [|reflexivity|reflexivity].
  revert l'. induction F as [|(n, c) k Hc F IH]; intros l'; [reflexivity|]. cbn [flat_map fst snd] in *. rewrite forget_all_app. rewrite Hc.
  destruct (forget_all (pairs (p ++ [n]) c) l') as [l''| |]; cbn; auto.
Qed.
Lemma in_pairs : forall t p v i, (forall w ns, N t w = Some ns -> NoDup ns) ->
  In (v, i) (pairs p t) <-> exists w x, v = p ++ w /\ R t w = Some x /\ In i (olist x).
Proof.
  refine (topic_ind' _ _). intros b r r2 k F p v i NN. cbn [pairs]. rewrite in_app_iff, in_map_iff, in_flat_map.
  pose proof (N_top _ NN) as NT. cbn [kids] in NT. split.
  - intros [(j & E & J)|((n, c) & IN & H)].
    + injection E as <- <-. exists [], r. rewrite app_nil_r. auto.
    + cbn [fst snd] in H. rewrite Forall_forall in F. pose proof (kid_nodup n k c NT IN) as K.
      apply (F (n, c) IN) in H; [|intros w ns W; apply (NN (n :: w)); vc; cbn [kids]; rewrite K; exact W].
      destruct H as (w & x & -> & Rw & I). exists (n :: w), x. rewrite <- app_assoc. split; [reflexivity|]. split; [|exact I]. vc. cbn [kids]. rewrite K. exact Rw.
  - intros ([|n w] & x & -> & Rw & I).
    + left. exists i. unfold R in Rw. cbn in Rw. injection Rw as <-. rewrite app_nil_r. auto.
    + right. vc. cbn [kids] in Rw. destruct (kid n k) as [c|] eqn:K; [|discriminate]. exists (n, c). pose proof (kid_in _ _ _ K) as IN. split; [exact IN|].
      cbn [fst snd]. rewrite Forall_forall in F. apply (F (n, c) IN); [intros w' ns W; apply (NN (n :: w')); vc; cbn [kids]; rewrite K; exact W|].
      exists w, x. rewrite <- app_assoc. auto.
Qed.
Lemma nodup_app_intro : forall {A} (a b : list A), NoDup a -> NoDup b -> (forall x, In x a -> In x b -> False) -> NoDup (a ++ b).
Proof.
  induction a as [|x a IH]; intros b NA NB D; [exact NB|]. inversion NA; subst. cbn. constructor.
  - rewrite in_app_iff. intros [H|H]; [auto|]. apply (D x); [left; reflexivity|exact H].
  - apply IH; auto. intros y Y1 Y2. apply (D y); [right; auto|auto].
Qed.
Lemma pairs_nodup : forall t p, (forall w ns, N t w = Some ns -> NoDup ns) -> (forall w x, R t w = Some x -> NoDup (olist x)) -> NoDup (pairs p t).
Proof.
  refine (topic_ind' _ _). intros b r r2 k F p NN RR. cbn [pairs]. pose proof (N_top _ NN) as NT. cbn [kids] in NT.
  assert (KN : forall n c, In (n, c) k -> kid n k = Some c) by (intros; apply kid_nodup; auto).
  apply nodup_app_intro.
  - apply Injective_map_NoDup; [intros x y E; injection E; auto|]. apply (RR [] r). reflexivity.
  - assert (SUBS : forall nc, In nc k -> NoDup (pairs (p ++ [fst nc]) (snd nc))).
    { intros (n, c) IN. rewrite Forall_forall in F. apply (F (n, c) IN); cbn [snd]; pose proof (KN n c IN) as K.
      - intros w ns W. apply (NN (n :: w)). vc. cbn [kids]. rewrite K. exact W.
      - intros w x W. apply (RR (n :: w)). vc. cbn [kids]. rewrite K. exact W. }
    assert (NCK : forall nc, In nc k -> forall w ns, N (snd nc) w = Some ns -> NoDup ns).
    { intros (n, c) IN w ns W. pose proof (KN n c IN) as K. apply (NN (n :: w)). vc. cbn [kids]. rewrite K. exact W. }
    clear F NN RR KN. revert NT SUBS NCK. induction k as [|(n, c) k IH]; intros NT SUBS NCK; cbn [flat_map]; [constructor|].
    cbn in NT. inversion NT as [|? ? NI NT']; subst. apply nodup_app_intro.
    + apply (SUBS (n, c)). left; reflexivity.
    + apply IH; auto; intros nc IN; [apply SUBS|apply NCK]; right; auto.
    + intros (v, i) H1 H2. apply in_flat_map in H2 as ((n', c') & IN & H2). cbn [fst snd] in *.
      apply in_pairs in H1; [|apply (NCK (n, c)); left; reflexivity]. apply in_pairs in H2; [|apply (NCK (n', c')); right; auto].
      destruct H1 as (w & x & -> & _). destruct H2 as (w' & x' & E & _). rewrite <- !app_assoc in E. apply app_inv_head in E. injection E as E _. subst n'.
      apply NI. apply (in_map fst) in IN. exact IN.
  - intros (v, i) H1 H2. apply in_map_iff in H1 as (j & E & _). injection E as <- <-. apply in_flat_map in H2 as ((n, c) & IN & H2).
    apply in_pairs in H2; [|intros w ns W; pose proof (KN n c IN) as K; apply (NN (n :: w)); vc; cbn [kids]; rewrite K; exact W].
    destruct H2 as (w & x & E & _). rewrite <- app_assoc in E. rewrite <- (app_nil_r p) in E at 1. apply app_inv_head in E. discriminate.
Qed.
