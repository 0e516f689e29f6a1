(** Proofs about the thread pool. *)
From Verif Require Import Common CommonFacts PoolModel PoolSpec.
From Coq Require Import Permutation.
Local Open Scope list_scope.
Local Open Scope Z_scope.

Definition counted (x : phase) : bool := match x with Busy _ | Waiting | Woken | Expired => true | _ => false end.
Definition is_busy (x : phase) : bool := match x with Busy _ => true | _ => false end.
Definition num (f : phase -> bool) (l : list phase) : Z := Z.of_nat (length (List.filter f l)).
Lemma num_app f a b : num f (a ++ b) = num f a + num f b.
Proof. unfold num. rewrite filter_app, app_length. lia. Qed.
Lemma num_cons f x l : num f (x :: l) = (if f x then 1 else 0) + num f l.
Proof. unfold num. cbn. destruct (f x); cbn [length]; lia. Qed.
Lemma num_nonneg f l : 0 <= num f l. Proof. unfold num. lia. Qed.
Lemma num_zero f l : num f l = 0 <-> existsb f l = false.
Proof. unfold num. induction l as [|x l IH]; cbn; [easy|]. destruct (f x); cbn [length]; [split; [lia|discriminate]|exact IH]. Qed.
Lemma num_pos f l : 0 < num f l <-> existsb f l = true.
Proof. pose proof (num_nonneg f l). pose proof (num_zero f l) as N. destruct (existsb f l); [split; [auto|]|split; [|discriminate]]; [intros _; destruct (Z.eq_dec (num f l) 0) as [E|E]; [apply N in E; discriminate|lia]|]. destruct N as [_ N]. rewrite N by reflexivity. lia. Qed.
Lemma num_map f g l : (forall x, f (g x) = f x) -> num f (map g l) = num f l.
Proof. intros H. induction l as [|x l IH]; [reflexivity|]. cbn [map]. rewrite !num_cons, IH, H. reflexivity. Qed.
Lemma tasks_app a b : tasks (a ++ b) = tasks a ++ tasks b. Proof. apply flat_map_app. Qed.
Lemma submitted_app a b : submitted (a ++ b) = submitted a ++ submitted b. Proof. apply flat_map_app. Qed.
Lemma began_app a b : began (a ++ b) = began a ++ began b. Proof. apply flat_map_app. Qed.
Lemma ended_app a b : ended (a ++ b) = ended a ++ ended b. Proof. apply flat_map_app. Qed.
Lemma upd_at {A} (a : list A) x y b : upd (a ++ x :: b) (length a) y = a ++ y :: b.
Proof. induction a as [|z a IH]; cbn; [reflexivity|now rewrite IH]. Qed.
Lemma at_split {A} (l : list A) i x : nth_error l i = Some x -> exists a b, l = a ++ x :: b /\ i = length a.
Proof. intros H. apply nth_error_split in H as (a & b & E & L). now exists a, b. Qed.

Record inv (p : pool) (tr : list event) : Prop := {
  i_count : count p = num counted (workers p);
  i_busy : busy p = num is_busy (workers p);
  i_order : submitted tr = began tr ++ queue p;
  i_runs : Permutation (began tr) (ended tr ++ tasks (workers p)) }.
Ltac nums := repeat (rewrite ?num_app, ?num_cons in *; cbn [counted is_busy lives is_starting is_expired is_waiting] in * ).
Ltac trs := rewrite ?submitted_app, ?began_app, ?ended_app, ?tasks_app in *; cbn [submitted began ended tasks flat_map app] in *; rewrite ?app_nil_r in *.

Lemma inv_create m : inv (create m) []. Proof. split; reflexivity || constructor. Qed.
(** worker at the place between [a] and [b] holds the mutex *)
Lemma turn_inv p tr a x b p' e : workers p = a ++ x :: b -> count p = num counted (a ++ b) + 1 -> busy p = num is_busy (a ++ b) ->
  submitted tr = began tr ++ queue p -> Permutation (began tr) (ended tr ++ tasks (a ++ b)) -> turn p (length a) = (p', e) -> inv p' (tr ++ e).
Proof.
  intros W C B O R E. unfold turn, leave, with_worker, with_counts, with_queue in E. destruct (running p).
  - destruct (queue p) as [|t q] eqn:Q; injection E as <- <-.
    + split; cbn; rewrite ?W, ?upd_at; nums; try lia; trs; [now rewrite O|exact R].
    + split; cbn; rewrite ?W, ?upd_at; nums; try lia; trs.
      * now rewrite O, <- app_assoc.
      * rewrite R. rewrite <- app_assoc. apply Permutation_app_head. rewrite <- app_assoc. apply Permutation_app_head. apply Permutation_app_comm.
  - injection E as <- <-. split; cbn; rewrite ?W, ?upd_at; nums; try lia; trs; [exact O|exact R].
Qed.
Lemma tasks_swap a x b y : tasks [x] = tasks [y] -> tasks (a ++ x :: b) = tasks (a ++ y :: b).
Proof. intros E. rewrite !tasks_app. f_equal. change (tasks (x :: b)) with (tasks ([x] ++ b)). change (tasks (y :: b)) with (tasks ([y] ++ b)). now rewrite !tasks_app, E. Qed.
(** a move that changes neither the counts nor the tasks *)
Lemma quiet_inv p tr a x b y : inv p tr -> workers p = a ++ x :: b -> tasks [x] = tasks [y] -> is_busy x = is_busy y ->
  forall p', queue p' = queue p -> busy p' = busy p -> count p' = count p + (if counted y then 1 else 0) - (if counted x then 1 else 0) -> workers p' = a ++ y :: b -> inv p' tr.
Proof.
  intros [C B O R] W T BB p' Q B' C' W'. rewrite W in *. split.
  - rewrite C', W', C. nums. lia.
  - rewrite B', W', B. nums. rewrite BB. lia.
  - now rewrite Q.
  - rewrite W', <- (tasks_swap a x b y T). exact R.
Qed.
Lemma act_inv p tr o p' e : inv p tr -> act p o = Ok (p', e) -> inv p' (tr ++ e).
Proof.
  intros I E. pose proof I as [C B O R]. destruct o as [t w made|i|i|i|i|i|al| |i|i]; cbn [act] in E.
  - assert (S0 : forall code q, inv q tr -> inv (with_queue q (queue q ++ [t])) (tr ++ [Submitted t code])).
    { intros code q [C1 B1 O1 R1]. split; cbn; auto; trs; [now rewrite O1, <- app_assoc|exact R1]. }
    destruct (busy p <? count p).
    + destruct w as [i|].
      * destruct (nth_error (workers p) i) as [[]|] eqn:N; try discriminate. injection E as <- <-. apply at_split in N as (a & b & W & ->).
        apply (S0 _ (with_worker p (length a) Woken)). now apply (quiet_inv p tr a Waiting b Woken); auto; cbn; rewrite ?W, ?upd_at; lia || auto.
      * destruct (existsb is_waiting (workers p)); [discriminate|]. injection E as <- <-. now apply S0.
    + destruct (count p <? most p); injection E as <- <-; [|now apply S0]. destruct made; [|now apply S0].
      apply (S0 _ (mkPool (queue p) (workers p ++ [Starting]) (count p) (busy p) (most p) (running p) (shutdown p) (freed p) (owner p))). split; cbn [count busy queue workers]; nums; try (change (num counted []) with 0); try (change (num is_busy []) with 0); try lia; trs; auto.
  - destruct (nth_error (workers p) i) as [[]|] eqn:N; try discriminate. apply at_split in N as (a & b & W & ->). injection E as E. rewrite W in *.
    eapply turn_inv; [..|exact E]; cbn; [exact W|nums; lia|nums; lia|exact O|]. trs. exact R.
  - destruct (nth_error (workers p) i) as [[]|] eqn:N; try discriminate. apply at_split in N as (a & b & W & ->). rewrite W in *.
    destruct (turn _ _) as [p1 e1] eqn:T. injection E as <- <-. change (Ended t :: e1) with ([Ended t] ++ e1). rewrite app_assoc.
    eapply turn_inv; [..|exact T]; cbn; [exact W|nums; lia|nums; lia|trs; exact O|]. trs. rewrite R. rewrite <- app_assoc. apply Permutation_app_head. cbn. symmetry. apply Permutation_middle.
  - destruct (nth_error (workers p) i) as [[]|] eqn:N; try discriminate; apply at_split in N as (a & b & W & ->).
    + injection E as E. rewrite W in *. eapply turn_inv; [..|exact E]; [exact W|nums; lia|nums; lia|exact O|]. trs. exact R.
    + injection E as <- <-. rewrite app_nil_r. now apply (quiet_inv p tr a Expired b Leaving); auto; cbn; rewrite ?W, ?upd_at; lia || auto.
  - destruct (nth_error (workers p) i) as [[]|] eqn:N; try discriminate. apply at_split in N as (a & b & W & ->). injection E as <- <-. rewrite app_nil_r.
    now apply (quiet_inv p tr a Waiting b Expired); auto; cbn; rewrite ?W, ?upd_at; lia || auto.
  - destruct (nth_error (workers p) i) as [[]|] eqn:N; try discriminate. apply at_split in N as (a & b & W & ->). injection E as <- <-. rewrite app_nil_r.
    now apply (quiet_inv p tr a Waiting b Woken); auto; cbn; rewrite ?W, ?upd_at; lia || auto.
  - destruct (al && (0 <? busy p))%bool; [discriminate|]. injection E as <- <-. split; cbn.
    + rewrite num_map; [exact C|now intros []].
    + rewrite num_map; [exact B|now intros []].
    + trs. exact O.
    + trs. rewrite R. apply Permutation_app_head. clear. induction (workers p) as [|[] l IH]; cbn; auto.
  - destruct (owner p); try discriminate. destruct (running p); [discriminate|]. injection E as <- <-. rewrite app_nil_r. now split.
  - destruct (at_ p i) as [[]|] eqn:N; try discriminate. injection E as <- <-. rewrite app_nil_r. destruct i as [i|]; [|now split]. cbn in N. apply at_split in N as (a & b & W & ->).
    destruct (should_destroy p).
    + now apply (quiet_inv p tr a Leaving b Freeing); auto; cbn; rewrite ?W, ?upd_at; lia || auto.
    + now apply (quiet_inv p tr a Leaving b Gone); auto; cbn; rewrite ?W, ?upd_at; lia || auto.
  - destruct (at_ p i) as [[]|] eqn:N; try discriminate. injection E as <- <-. rewrite app_nil_r. destruct i as [i|]; [|now split]. cbn in N. apply at_split in N as (a & b & W & ->).
    now apply (quiet_inv p tr a Freeing b Gone); auto; cbn; rewrite ?W, ?upd_at; lia || auto.
Qed.
Lemma step_act p o p' e : step p o = Ok (p', e) -> act p o = Ok (p', e) /\ freed p = false.
Proof. unfold step. destruct (act p o) as [r| |]; cbn; try discriminate. destruct (freed p); [discriminate|]. intros [= ->]. auto. Qed.
Lemma run_inv ops : forall p tr p' e, inv p tr -> run p ops = Ok (p', e) -> inv p' (tr ++ e).
Proof.
  induction ops as [|o ops IH]; intros p tr p' e I E; cbn [run] in E.
  - injection E as <- <-. now rewrite app_nil_r.
  - destruct (step p o) as [[p1 e1]| |] eqn:S; try discriminate. cbn [obind] in E. destruct (run p1 ops) as [[p2 e2]| |] eqn:R; try discriminate. injection E as <- <-.
    rewrite app_assoc. eapply IH; [|exact R]. apply step_act in S as [S _]. eapply act_inv; eauto.
Qed.

(** ** no task is left behind *)
Definition active (x : phase) : bool := match x with Starting | Busy _ | Woken => true | _ => false end.
Record alive (p : pool) : Prop := {
  a_freed : freed p = false; a_running : running p = true; a_shutdown : shutdown p = false; a_owner : owner p = Waiting; a_most : 0 < most p;
  a_active : queue p <> [] -> existsb active (workers p) = true }.
Lemma turn_alive p a x b p' e : workers p = a ++ x :: b -> freed p = false -> running p = true -> shutdown p = false -> owner p = Waiting -> 0 < most p -> turn p (length a) = (p', e) -> alive p'.
Proof.
  intros W F R S O M E. unfold turn in E. rewrite R in E. destruct (queue p) as [|t q] eqn:Q; injection E as <- <-; split; cbn; auto; rewrite W, upd_at; try (intros H; now contradict H).
  intros _. rewrite existsb_app. cbn. now rewrite orb_true_r.
Qed.
Lemma act_alive p tr o p' e : inv p tr -> alive p -> calm p o = true -> act p o = Ok (p', e) -> alive p'.
Proof.
  intros I A C E. pose proof A as [F R S O M Q]. destruct o as [t w made|i|i|i|i|i|al| |i|i]; cbn [act calm] in *; try discriminate.
  - apply andb_true_iff in C as [-> NX]. apply negb_true_iff in NX. destruct (Z.ltb_spec (busy p) (count p)) as [L|L].
    + destruct w as [i|].
      * destruct (nth_error (workers p) i) as [[]|] eqn:N; try discriminate. apply at_split in N as (a & b & W & ->). injection E as <- <-. split; cbn; auto. intros _. rewrite W, upd_at, existsb_app. cbn. now rewrite orb_true_r.
      * destruct (existsb is_waiting (workers p)) eqn:NW; [discriminate|]. injection E as <- <-. split; cbn; auto. intros _.
        (* someone is counted who is not busy, waiting or expired *)
        destruct (existsb active (workers p)) eqn:X; [reflexivity|]. exfalso. destruct I as [IC IB _ _]. rewrite IC, IB in L. clear -L NX NW X.
        induction (workers p) as [|x l IH]; [unfold num in L; cbn in L; lia|]. cbn [existsb] in *. apply orb_false_iff in NX as [? NX], NW as [? NW], X as [? X]. apply IH; auto. rewrite !num_cons in L. destruct x; cbn in *; try discriminate; lia.
    + destruct (Z.ltb_spec (count p) (most p)) as [L2|L2]; injection E as <- <-; split; cbn; auto; intros _.
      * rewrite existsb_app. cbn. now rewrite orb_true_r.
      * destruct I as [IC IB _ _]. assert (B : 0 < num is_busy (workers p)) by lia. apply num_pos in B. apply existsb_exists in B as (x & X & BX). apply existsb_exists. exists x. split; [exact X|]. now destruct x.
  - destruct (nth_error (workers p) i) as [[]|] eqn:N; try discriminate. apply at_split in N as (a & b & W & ->). injection E as E. eapply turn_alive; [..|exact E]; eauto.
  - destruct (nth_error (workers p) i) as [[]|] eqn:N; try discriminate. apply at_split in N as (a & b & W & ->). destruct (turn _ _) as [p1 e1] eqn:T. injection E as <- <-. eapply turn_alive; [..|exact T]; eauto.
  - destruct (nth_error (workers p) i) as [[]|] eqn:N; try discriminate; apply at_split in N as (a & b & W & ->).
    + injection E as E. eapply turn_alive; [..|exact E]; eauto.
    + injection E as <- <-. split; cbn; auto. rewrite W, upd_at in *. rewrite existsb_app in *. exact Q.
  - destruct (nth_error (workers p) i) as [[]|] eqn:N; try discriminate. apply at_split in N as (a & b & W & ->). injection E as <- <-. split; cbn; auto. rewrite W, upd_at in *. rewrite existsb_app in *. exact Q.
  - destruct (nth_error (workers p) i) as [[]|] eqn:N; try discriminate. apply at_split in N as (a & b & W & ->). injection E as <- <-. split; cbn; auto. rewrite W, upd_at in *. rewrite existsb_app in *. cbn. intros H. apply Q in H. cbn in H. now rewrite orb_true_r.
  - destruct i as [i|]; cbn in E; [|rewrite O in E; discriminate]. destruct (nth_error (workers p) i) as [[]|] eqn:N; try discriminate. apply at_split in N as (a & b & W & ->). injection E as <- <-.
    split; cbn; auto. rewrite W, upd_at in *. rewrite existsb_app in *. cbn in *. intros H. apply Q in H. destruct (should_destroy p); exact H.
Qed.
Lemma run_alive ops : forall p tr p' e, inv p tr -> alive p -> all_steps calm p ops = true -> run p ops = Ok (p', e) -> alive p'.
Proof.
  induction ops as [|o ops IH]; intros p tr p' e I A C E; cbn [run] in E; [now injection E as <- <-|].
  destruct (step p o) as [[p1 e1]| |] eqn:S; try discriminate. cbn [obind all_steps] in *. rewrite S in C. apply andb_true_iff in C as [C1 C2].
  destruct (run p1 ops) as [[p2 e2]| |] eqn:R; try discriminate. injection E as <- <-. apply step_act in S as [S _]. eapply IH; [|eapply act_alive; eauto|exact C2|exact R]. eapply act_inv; eauto.
Qed.
Lemma alive_create m : 0 < m -> alive (create m). Proof. intros H. split; auto; cbn; intros Q; now contradict Q. Qed.
(** how much the workers have to do *)
Definition weight (x : phase) : nat := match x with Starting | Woken | Expired => 1 | Busy _ => 2 | _ => 0 end.
Definition weights (l : list phase) : nat := list_sum (map weight l).
Definition work (p : pool) : nat := 3 * length (queue p) + weights (workers p).
Lemma weights_app a x b : weights (a ++ x :: b) = (weights a + weight x + weights b)%nat.
Proof. unfold weights. rewrite map_app, list_sum_app. cbn [map]. change (list_sum (weight x :: map weight b)) with (weight x + list_sum (map weight b))%nat. lia. Qed.
Lemma turn_work p a x b p' e : workers p = a ++ x :: b -> (0 < weight x)%nat -> turn p (length a) = (p', e) -> (work p' < work p)%nat.
Proof.
  intros W X E. unfold turn, leave in E. unfold work. rewrite W, weights_app. destruct (running p); [destruct (queue p) as [|t q] eqn:Q|]; injection E as <- <-; cbn [queue workers with_worker with_counts with_queue]; rewrite W, upd_at, weights_app, ?Q; cbn [weight length]; lia.
Qed.
Lemma step_work p o p' e : worker_step o = true -> act p o = Ok (p', e) -> (work p' < work p)%nat.
Proof.
  intros WS E. destruct o as [t w made|i|i|i|i|i|al| |i|i]; try discriminate; cbn [act] in E.
  - destruct (nth_error (workers p) i) as [[]|] eqn:N; try discriminate. apply at_split in N as (a & b & W & ->). injection E as E. eapply (turn_work (with_counts p (count p + 1) (busy p))); [exact W| |exact E]; cbn; lia.
  - destruct (nth_error (workers p) i) as [[]|] eqn:N; try discriminate. apply at_split in N as (a & b & W & ->). destruct (turn _ _) as [p1 e1] eqn:T. injection E as <- <-. eapply (turn_work (with_counts p (count p) (busy p - 1))); [exact W| |exact T]; cbn; lia.
  - destruct (nth_error (workers p) i) as [[]|] eqn:N; try discriminate; apply at_split in N as (a & b & W & ->).
    + injection E as E. eapply turn_work; [exact W| |exact E]; cbn; lia.
    + injection E as <- <-. unfold work. cbn [leave with_worker with_counts queue workers]. rewrite W, upd_at, !weights_app. cbn [weight]. lia.
Qed.
Lemma run_work ops : forall p p' e, forallb worker_step ops = true -> run p ops = Ok (p', e) -> (length ops + work p' <= work p)%nat.
Proof.
  induction ops as [|o ops IH]; intros p p' e F E; cbn [run] in E; [injection E as <- <-; cbn; lia|].
  destruct (step p o) as [[p1 e1]| |] eqn:S; try discriminate. cbn [obind forallb] in *. apply andb_true_iff in F as [F1 F2].
  destruct (run p1 ops) as [[p2 e2]| |] eqn:R; try discriminate. injection E as <- <-. apply step_act in S as [S _]. apply step_work in S; [|exact F1]. apply IH in R; [|exact F2]. cbn [length]. lia.
Qed.
Definition mover (x : phase) : bool := active x || is_expired x.
(** a worker that can go on *)
Lemma mover_step p : freed p = false -> existsb mover (workers p) = true -> exists o r, worker_step o = true /\ step p o = Ok r.
Proof.
  intros F X. apply existsb_exists in X as (x & X & M). apply In_nth_error in X as (i & N). unfold step. rewrite F.
  destruct x; try discriminate; [exists (Enter i)|exists (Return i)|exists (Wake i)|exists (Wake i)]; cbn [act]; rewrite N; cbn [obind]; try (destruct (turn _ _)); eexists; (split; [reflexivity|reflexivity]).
Qed.
Lemma rest_movers p : freed p = false -> at_rest p <-> existsb mover (workers p) = false.
Proof.
  intros F. split.
  - intros AR. destruct (existsb mover (workers p)) eqn:X; [|reflexivity]. apply mover_step in X as (o & r & W & E); [|exact F]. rewrite (AR o W) in E. discriminate.
  - intros X o W. assert (N : forall i x, nth_error (workers p) i = Some x -> mover x = false).
    { intros i x N. apply not_true_is_false. intros M. apply nth_error_In in N. assert (existsb mover (workers p) = true) by (apply existsb_exists; eauto). congruence. }
    unfold step. destruct o; try discriminate; cbn [act]; destruct (nth_error (workers p) i) as [x|] eqn:E; try reflexivity; apply N in E; destruct x; try discriminate; reflexivity.
Qed.
Lemma drained p tr : inv p tr -> alive p -> at_rest p -> queue p = [] /\ tasks (workers p) = [].
Proof.
  intros I A R. apply rest_movers in R; [|apply A]. assert (NA : existsb active (workers p) = false).
  { apply not_true_is_false. intros X. apply existsb_exists in X as (x & X & AX). assert (existsb mover (workers p) = true); [|congruence]. apply existsb_exists. exists x. unfold mover. now rewrite AX. }
  split; [destruct (queue p) eqn:Q; [reflexivity|]; destruct A as [_ _ _ _ _ A]; rewrite A in NA; [discriminate|now rewrite Q]|].
  clear -NA. induction (workers p) as [|x l IH]; [reflexivity|]. cbn in *. apply orb_false_iff in NA as [N NA]. specialize (IH NA). destruct x; try discriminate; exact IH.
Qed.
Lemma worker_calm ops : forall p, forallb worker_step ops = true -> all_steps calm p ops = true.
Proof.
  induction ops as [|o ops IH]; intros p F; [reflexivity|]. cbn in *. apply andb_true_iff in F as [F1 F2]. assert (C : calm p o = true) by (destruct o; auto; discriminate). rewrite C. destruct (step p o) as [[p1 e]| |]; cbn; auto.
Qed.
Lemma to_rest n : forall p tr, (work p <= n)%nat -> inv p tr -> alive p -> exists ops p' e, forallb worker_step ops = true /\ run p ops = Ok (p', e) /\ at_rest p'.
Proof.
  induction n as [|n IH]; intros p tr L I A; (destruct (existsb mover (workers p)) eqn:X; [|exists [], p, []; repeat split; auto; now apply rest_movers; [apply A|]]);
    (apply mover_step in X as (o & [p1 e1] & W & E); [|apply A]); pose proof (step_act _ _ _ _ E) as [SA _]; pose proof (step_work _ _ _ _ W SA) as D; [lia|].
  destruct (IH p1 (tr ++ e1)) as (ops & p2 & e2 & F & R & AR); [lia|eapply act_inv; eauto|eapply act_alive; eauto; destruct o; auto; discriminate|].
  exists (o :: ops), p2, (e1 ++ e2). cbn [forallb run]. rewrite W, E. cbn [obind]. rewrite R. auto.
Qed.

(** ** the limit *)
Lemma lives_split l : num lives l = num counted l + num is_starting l.
Proof. induction l as [|x l IH]; [reflexivity|]. rewrite !num_cons, IH. destruct x; cbn [lives counted is_starting]; lia. Qed.
Lemma turn_lives p a x b p' e : workers p = a ++ x :: b -> lives x = true -> turn p (length a) = (p', e) -> num lives (workers p') <= num lives (workers p) /\ most p' = most p.
Proof.
  intros W L E. unfold turn, leave in E. destruct (running p); [destruct (queue p)|]; injection E as <- <-; cbn; rewrite W, upd_at; nums; rewrite L; lia.
Qed.
Lemma act_lives p tr o p' e : inv p tr -> settled p o = true -> act p o = Ok (p', e) -> num lives (workers p) <= most p -> num lives (workers p') <= most p' /\ most p' = most p.
Proof.
  intros I S E L. destruct o as [t w made|i|i|i|i|i|al| |i|i]; cbn [act] in E.
  - cbn in S. apply negb_true_iff, num_zero in S. destruct (busy p <? count p).
    + destruct w as [i|].
      * destruct (nth_error (workers p) i) as [[]|] eqn:N; try discriminate. apply at_split in N as (a & b & W & ->). injection E as <- <-. cbn. rewrite W, upd_at in *. nums. lia.
      * destruct (existsb is_waiting (workers p)); [discriminate|]. injection E as <- <-. cbn. lia.
    + destruct (Z.ltb_spec (count p) (most p)) as [L2|_]; injection E as <- <-; [|cbn; lia]. destruct made; cbn; [|lia]. rewrite lives_split in *. destruct I as [IC _ _ _]. nums. change (num counted []) with 0. change (num is_starting []) with 0. lia.
  - destruct (nth_error (workers p) i) as [[]|] eqn:N; try discriminate. apply at_split in N as (a & b & W & ->). injection E as E. apply (turn_lives (with_counts p (count p + 1) (busy p)) a Starting b) in E as [E1 E2]; cbn in *; auto. lia.
  - destruct (nth_error (workers p) i) as [[]|] eqn:N; try discriminate. apply at_split in N as (a & b & W & ->). destruct (turn _ _) as [p1 e1] eqn:T. injection E as <- <-. apply (turn_lives (with_counts p (count p) (busy p - 1)) a (Busy t) b) in T as [E1 E2]; cbn in *; auto. lia.
  - destruct (nth_error (workers p) i) as [[]|] eqn:N; try discriminate; apply at_split in N as (a & b & W & ->).
    + injection E as E. apply (turn_lives p a Woken b) in E as [E1 E2]; cbn in *; auto. lia.
    + injection E as <- <-. cbn. rewrite W, upd_at in *. nums. lia.
  - destruct (nth_error (workers p) i) as [[]|] eqn:N; try discriminate. apply at_split in N as (a & b & W & ->). injection E as <- <-. cbn. rewrite W, upd_at in *. nums. lia.
  - destruct (nth_error (workers p) i) as [[]|] eqn:N; try discriminate. apply at_split in N as (a & b & W & ->). injection E as <- <-. cbn. rewrite W, upd_at in *. nums. lia.
  - destruct (al && (0 <? busy p))%bool; [discriminate|]. injection E as <- <-. cbn. rewrite num_map; [lia|now intros []].
  - destruct (owner p); try discriminate. destruct (running p); [discriminate|]. injection E as <- <-. cbn. lia.
  - destruct (at_ p i) as [[]|] eqn:N; try discriminate. injection E as <- <-. destruct i as [i|]; [|cbn; lia]. cbn in N. apply at_split in N as (a & b & W & ->). cbn. rewrite W, upd_at in *. nums. destruct (should_destroy p); cbn; lia.
  - destruct (at_ p i) as [[]|] eqn:N; try discriminate. injection E as <- <-. destruct i as [i|]; [|cbn; lia]. cbn in N. apply at_split in N as (a & b & W & ->). cbn. rewrite W, upd_at in *. nums. lia.
Qed.
Lemma run_lives ops : forall p tr p' e, inv p tr -> all_steps settled p ops = true -> run p ops = Ok (p', e) -> num lives (workers p) <= most p -> num lives (workers p') <= most p' /\ most p' = most p.
Proof.
  induction ops as [|o ops IH]; intros p tr p' e I C E L; cbn [run] in E; [injection E as <- <-; auto|].
  destruct (step p o) as [[p1 e1]| |] eqn:S; try discriminate. cbn [obind all_steps] in *. rewrite S in C. apply andb_true_iff in C as [C1 C2].
  destruct (run p1 ops) as [[p2 e2]| |] eqn:R; try discriminate. injection E as <- <-. apply step_act in S as [S _]. destruct (act_lives _ _ _ _ _ I C1 S L) as [L1 M1].
  destruct (IH p1 (tr ++ e1) p2 e2) as [L2 M2]; auto; [eapply act_inv; eauto|]. split; [exact L2|congruence].
Qed.

(** ** stopping *)
Lemma act_stopped p o p' e : running p = false -> act p o = Ok (p', e) -> running p' = false /\ began e = [].
Proof.
  intros R E. assert (T : forall q i q' f, running q = false -> turn q i = (q', f) -> running q' = false /\ began f = []).
  { intros q i q' f RQ H. unfold turn in H. rewrite RQ in H. injection H as <- <-. auto. }
  destruct o as [t w made|i|i|i|i|i|al| |i|i]; cbn [act] in E.
  - destruct (busy p <? count p); [destruct w as [i|]; [destruct (nth_error (workers p) i) as [[]|]; try discriminate|destruct (existsb is_waiting (workers p)); [discriminate|]]|destruct (count p <? most p); [destruct made|]]; injection E as <- <-; auto.
  - destruct (nth_error (workers p) i) as [[]|]; try discriminate. injection E as E. eapply T; [|exact E]; auto.
  - destruct (nth_error (workers p) i) as [[]|]; try discriminate. destruct (turn _ _) as [p1 e1] eqn:TT. injection E as <- <-. apply T in TT; auto.
  - destruct (nth_error (workers p) i) as [[]|]; try discriminate; [injection E as E; eapply T; [|exact E]; auto|injection E as <- <-; auto].
  - destruct (nth_error (workers p) i) as [[]|]; try discriminate. injection E as <- <-; auto.
  - destruct (nth_error (workers p) i) as [[]|]; try discriminate. injection E as <- <-; auto.
  - destruct (al && (0 <? busy p))%bool; [discriminate|]. injection E as <- <-. auto.
  - destruct (owner p); try discriminate. rewrite R in E. injection E as <- <-. auto.
  - destruct (at_ p i) as [[]|]; try discriminate. injection E as <- <-. destruct i; auto.
  - destruct (at_ p i) as [[]|]; try discriminate. injection E as <- <-. destruct i; auto.
Qed.
Lemma run_stopped ops : forall p p' e, running p = false -> run p ops = Ok (p', e) -> began e = [].
Proof.
  induction ops as [|o ops IH]; intros p p' e R E; cbn [run] in E; [injection E as <- <-; reflexivity|].
  destruct (step p o) as [[p1 e1]| |] eqn:S; try discriminate. cbn [obind] in *. destruct (run p1 ops) as [[p2 e2]| |] eqn:RR; try discriminate. injection E as <- <-.
  apply step_act in S as [S _]. apply act_stopped in S as [R1 B1]; [|exact R]. rewrite began_app, B1. eapply IH; eauto.
Qed.

(** ** destroying *)
Definition leaver (x : phase) : bool := match x with Starting | Leaving | Freeing => true | _ => false end.
(** as long as the pool is there, someone is going to free it *)
Definition kept (p : pool) : Prop := shutdown p = true -> freed p = false -> 0 < count p \/ existsb leaver (workers p) = true \/ leaver (owner p) = true.
Lemma swap_leaver a x b y : (leaver x = true -> leaver y = true) -> existsb leaver (a ++ x :: b) = true -> existsb leaver (a ++ y :: b) = true.
Proof. rewrite !existsb_app. cbn. destruct (existsb leaver a), (leaver x), (leaver y), (existsb leaver b); cbn; auto; intros H _; discriminate (H eq_refl). Qed.
Lemma act_kept p tr o p' e : inv p tr -> kept p -> freed p = false -> act p o = Ok (p', e) -> kept p'.
Proof.
  intros [IC _ _ _] K F E. assert (T : forall q a x b q' f, workers q = a ++ x :: b -> 0 < count q -> turn q (length a) = (q', f) -> kept q').
  { intros q a x b q' f W C H _ _. unfold turn, leave in H. destruct (running q); [destruct (queue q)|]; injection H as <- <-; cbn; auto. right; left. rewrite W, upd_at, existsb_app. cbn. now rewrite orb_true_r. }
  unfold kept in K. destruct o as [t w made|i|i|i|i|i|al| |i|i]; cbn [act] in E.
  - destruct (busy p <? count p).
    + destruct w as [i|].
      * destruct (nth_error (workers p) i) as [[]|] eqn:N; try discriminate. apply at_split in N as (a & b & W & ->). injection E as <- <-. intros S _. cbn in *. rewrite W, upd_at in *. destruct (K S F) as [H|[H|H]]; auto. right; left. now apply (swap_leaver a Waiting b Woken).
      * destruct (existsb is_waiting (workers p)); [discriminate|]. injection E as <- <-. exact K.
    + destruct (count p <? most p); injection E as <- <-; [|exact K]. destruct made; [|exact K]. intros S _. cbn. right; left. rewrite existsb_app. cbn. now rewrite orb_true_r.
  - destruct (nth_error (workers p) i) as [[]|] eqn:N; try discriminate. apply at_split in N as (a & b & W & ->). injection E as E. eapply T; [| |exact E]; [exact W|]. cbn. pose proof (num_nonneg counted (workers p)). lia.
  - destruct (nth_error (workers p) i) as [[]|] eqn:N; try discriminate. apply at_split in N as (a & b & W & ->). destruct (turn _ _) as [p1 e1] eqn:TT. injection E as <- <-. eapply T; [| |exact TT]; [exact W|]. cbn. rewrite IC, W. nums. pose proof (num_nonneg counted a). pose proof (num_nonneg counted b). lia.
  - destruct (nth_error (workers p) i) as [[]|] eqn:N; try discriminate; apply at_split in N as (a & b & W & ->).
    + injection E as E. eapply T; [| |exact E]; [exact W|]. rewrite IC, W. nums. pose proof (num_nonneg counted a). pose proof (num_nonneg counted b). lia.
    + injection E as <- <-. intros S _. cbn. right; left. rewrite W, upd_at, existsb_app. cbn. now rewrite orb_true_r.
  - destruct (nth_error (workers p) i) as [[]|] eqn:N; try discriminate. apply at_split in N as (a & b & W & ->). injection E as <- <-. intros S _. cbn in *. rewrite W, upd_at in *. destruct (K S F) as [H|[H|H]]; auto. right; left. now apply (swap_leaver a Waiting b Expired).
  - destruct (nth_error (workers p) i) as [[]|] eqn:N; try discriminate. apply at_split in N as (a & b & W & ->). injection E as <- <-. intros S _. cbn in *. rewrite W, upd_at in *. destruct (K S F) as [H|[H|H]]; auto. right; left. now apply (swap_leaver a Waiting b Woken).
  - destruct (al && (0 <? busy p))%bool; [discriminate|]. injection E as <- <-. intros S _. cbn in *. destruct (K S F) as [H|[H|H]]; auto. right; left. apply existsb_exists in H as (x & X & L). apply existsb_exists. exists x. split; [|exact L]. apply in_map_iff. exists x. split; [now destruct x|exact X].
  - destruct (owner p); try discriminate. destruct (running p); [discriminate|]. injection E as <- <-. intros _ _. cbn. auto.
  - destruct (at_ p i) as [[]|] eqn:N; try discriminate. injection E as <- <-. intros S _. unfold should_destroy. destruct i as [i|]; cbn in *.
    + apply at_split in N as (a & b & W & ->). rewrite W, upd_at in *. rewrite S, andb_true_r. destruct (Z.eqb_spec (count p) 0) as [Q|Q].
      * right; left. rewrite existsb_app. cbn. now rewrite orb_true_r.
      * left. pose proof (num_nonneg counted (a ++ Leaving :: b)). lia.
    + rewrite S, andb_true_r. destruct (Z.eqb_spec (count p) 0) as [Q|Q]; [auto|]. left. pose proof (num_nonneg counted (workers p)). lia.
  - destruct (at_ p i) as [[]|] eqn:N; try discriminate. injection E as <- <-. intros _ Q. discriminate Q.
Qed.
Lemma run_kept ops : forall p tr p' e, inv p tr -> kept p -> run p ops = Ok (p', e) -> kept p'.
Proof.
  induction ops as [|o ops IH]; intros p tr p' e I K E; cbn [run] in E; [injection E as <- <-; exact K|].
  destruct (step p o) as [[p1 e1]| |] eqn:S; try discriminate. cbn [obind] in *. destruct (run p1 ops) as [[p2 e2]| |] eqn:R; try discriminate. injection E as <- <-. apply step_act in S as [S F].
  eapply IH; [| |exact R]; [eapply act_inv; eauto|eapply act_kept; eauto].
Qed.
