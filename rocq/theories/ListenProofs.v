(** Proofs about listeners and the callback queue. *)
From Verif Require Import Common CommonFacts ListenModel ListenSpec.
From Coq Require Import List ZArith Lia Bool Permutation Sorted.
Import ListNotations.
Local Open Scope Z_scope.

(** ** the table *)
Fixpoint active (l : list (option listener)) : list listener := match l with [] => [] | Some x :: l => x :: active l | None :: l => active l end.
Lemma active_le : forall l, (length (active l) <= length l)%nat.
Proof. induction l as [|[z|] l IH]; cbn; [lia| |]; lia. Qed.
Lemma put_some : forall x l l', put x l = Some l' -> length l' = length l /\ Permutation (active l') (x :: active l) /\ (length (active l) < length l)%nat.
Proof.
  intros x. induction l as [|[y|] l IH]; intros l' H; cbn in H; [discriminate| |].
  - destruct (put x l) as [k|]; [|discriminate]. injection H as <-. destruct (IH k eq_refl) as (A & B & C). cbn. split; [congruence|]. split; [rewrite B; apply perm_swap|lia].
  - injection H as <-. cbn. split; [reflexivity|]. split; [reflexivity|]. pose proof (active_le l). lia.
Qed.
Lemma put_none : forall x l, put x l = None -> length (active l) = length l.
Proof. intros x. induction l as [|[y|] l IH]; intros H; cbn in *; [reflexivity| |discriminate]. destruct (put x l); [discriminate|]. rewrite IH; auto. Qed.
Lemma take_some : forall f l x l', take f l = Some (x, l') -> length l' = length l /\ f x = true /\ Permutation (active l) (x :: active l').
Proof.
  intros f. induction l as [|[y|] l IH]; intros x l' H; cbn in H; [discriminate| |].
  - destruct (f y) eqn:F; [injection H as <- <-; cbn; auto|]. destruct (take f l) as [[z k]|]; [|discriminate]. injection H as <- <-. destruct (IH z k eq_refl) as (A & B & C). cbn. split; [congruence|]. split; [exact B|]. rewrite C. apply perm_swap.
  - destruct (take f l) as [[z k]|]; [|discriminate]. injection H as <- <-. destruct (IH z k eq_refl) as (A & B & C). cbn. split; [congruence|]. auto.
Qed.
Lemma take_none : forall f l, take f l = None -> forall x, In x (active l) -> f x = false.
Proof.
  intros f. induction l as [|[y|] l IH]; intros H x I; cbn in *; [destruct I| |].
  - destruct (f y) eqn:F; [discriminate|]. destruct (take f l) as [[z k]|]; [discriminate|]. destruct I as [<-|I]; auto.
  - destruct (take f l) as [[z k]|]; [discriminate|]. auto.
Qed.
Lemma first_find : forall f l, first f l = find f (active l).
Proof. intros f. induction l as [|[y|] l IH]; cbn; [reflexivity| |exact IH]. destruct (f y); auto. Qed.
Lemma find_perm : forall f (a b : list listener), Permutation a b -> (forall x y, In x a -> In y a -> f x = true -> f y = true -> x = y) -> find f a = find f b.
Proof.
  intros f a b P U. destruct (find f a) as [x|] eqn:FA.
  - apply find_some in FA as [Ix Fx]. destruct (find f b) as [y|] eqn:FB.
    + apply find_some in FB as [Iy Fy]. f_equal. apply U; auto. eapply Permutation_in; [symmetry; exact P|exact Iy].
    + exfalso. pose proof (find_none _ _ FB x (Permutation_in _ P Ix)). congruence.
  - destruct (find f b) as [y|] eqn:FB; [|reflexivity]. exfalso. apply find_some in FB as [Iy Fy]. pose proof (find_none _ _ FA y (Permutation_in _ (Permutation_sym P) Iy)). congruence.
Qed.
Lemma map_inj : forall {A B} (f : A -> B) l x y, NoDup (map f l) -> In x l -> In y l -> f x = f y -> x = y.
Proof.
  intros A B f. induction l as [|z l IH]; intros x y N H H' E; [destruct H|]. cbn in N. inversion N as [|? ? NI N']; subst.
  destruct H as [->|H], H' as [->|H']; auto; exfalso; apply NI; [rewrite E|rewrite <- E]; apply in_map; assumption.
Qed.
Record rel (s : state) (i : ideal) : Prop := mkRel {
  a_len : length (slots s) = RTMSG_LISTENERS_MAX; a_perm : Permutation (active (slots s)) (table i); a_next : next_id s = counter i;
  a_ids : NoDup (map l_id (table i)); a_exprs : NoDup (map l_expr (table i)) }.
Lemma rel_init : rel init ideal_init.
Proof. constructor; cbn; try reflexivity; constructor. Qed.
Lemma perm_count_le : forall s i, rel s i -> length (active (slots s)) = length (table i).
Proof. intros s i R. apply Permutation_length, (a_perm _ _ R). Qed.
Lemma drop_perm : forall x t, NoDup (map l_id t) -> In x t -> Permutation t (x :: drop_id (l_id x) t).
Proof.
  intros x. induction t as [|y t IH]; intros N H; [destruct H|]. cbn in N. inversion N as [|? ? NI N']; subst. unfold drop_id. cbn [filter]. destruct H as [->|H].
  - rewrite Z.eqb_refl. cbn [negb]. constructor. assert (E : filter (fun y => negb (l_id y =? l_id x)) t = t); [|rewrite E; reflexivity].
    clear - NI. induction t as [|y t IH]; [reflexivity|]. cbn in *. destruct (Z.eqb_spec (l_id y) (l_id x)); [exfalso; apply NI; auto|]. cbn. rewrite IH; auto.
  - destruct (Z.eqb_spec (l_id y) (l_id x)) as [E|_]; [exfalso; apply NI; rewrite E; apply in_map, H|]. cbn [negb]. rewrite (IH N' H) at 1. apply perm_swap.
Qed.
Lemma drop_in : forall id t x, In x (drop_id id t) -> In x t.
Proof. intros id t x H. apply filter_In in H as [H _]. exact H. Qed.
Lemma drop_nodup : forall {B} (f : listener -> B) id t, NoDup (map f t) -> NoDup (map f (drop_id id t)).
Proof.
  intros B f id. induction t as [|x t IH]; intros N; cbn in *; [constructor|]. inversion N; subst. destruct (negb (l_id x =? id)); cbn; [|auto]. constructor; [|auto].
  intros H. apply in_map_iff in H as (y & E & H). apply drop_in in H. apply H1. rewrite <- E. apply in_map, H.
Qed.
Lemma add_rel : forall s i e id cl, rel s i -> by_id id (table i) = None -> by_expr e (table i) = None ->
  let '(s', r) := add_with_id s e id cl in let '(i', r', w) := ideal_add i e id cl in r = r' /\ rel s' i' /\ wire s' = wire s ++ w /\ queue s' = queue s /\ calls s' = calls s /\ busy s' = busy s /\ arrived s' = arrived s.
Proof.
  intros s i e id cl R NI NE. pose proof (perm_count_le _ _ R) as PL. unfold add_with_id, ideal_add. destruct (put (mkListener id e cl) (slots s)) as [l|] eqn:P.
  - destruct (put_some _ _ _ P) as (A & B & C). rewrite (a_len _ _ R), PL in C. unfold RTMSG_LISTENERS_MAX in C. destruct (Nat.leb_spec 128 (length (table i))) as [LL|LL]; [lia|]. cbn [wire queue calls busy arrived]. split; [reflexivity|]. split; [|auto].
    constructor; cbn [slots next_id table counter].
    + rewrite A. apply (a_len _ _ R).
    + rewrite B. rewrite (a_perm _ _ R). rewrite Permutation_app_comm. reflexivity.
    + apply (a_next _ _ R).
    + rewrite map_app. cbn. apply nodup_app_intro; [apply (a_ids _ _ R)|repeat constructor; intros []|]. intros x H [<-|[]]. apply in_map_iff in H as (y & E & H). pose proof (find_none _ _ NI y H) as X. cbn in X. rewrite E, Z.eqb_refl in X. discriminate.
    + rewrite map_app. cbn. apply nodup_app_intro; [apply (a_exprs _ _ R)|repeat constructor; intros []|]. intros x H [<-|[]]. apply in_map_iff in H as (y & E & H). pose proof (find_none _ _ NE y H) as X. cbn in X. rewrite E, bytes_eqb_refl in X. discriminate.
  - apply put_none in P. rewrite PL, (a_len _ _ R) in P. unfold RTMSG_LISTENERS_MAX in P. destruct (Nat.leb_spec 128 (length (table i))) as [LL|LL]; [|lia]. rewrite app_nil_r. auto 10.
Qed.
Lemma remove_rel : forall s i f g e, rel s i -> (forall x, f x = g x) -> (forall x y, In x (table i) -> In y (table i) -> g x = true -> g y = true -> x = y) ->
  let '(s', r) := remove_listener s f e in let '(i', r', w) := ideal_remove i (find g (table i)) e in r = r' /\ rel s' i' /\ wire s' = wire s ++ w /\ queue s' = queue s /\ calls s' = calls s /\ busy s' = busy s /\ arrived s' = arrived s.
Proof.
  intros s i f g e R FG U. unfold remove_listener, ideal_remove. destruct (take f (slots s)) as [[x l]|] eqn:T.
  - destruct (take_some _ _ _ _ T) as (A & B & C). assert (IT : In x (table i)) by (eapply Permutation_in; [apply (a_perm _ _ R)|]; eapply Permutation_in; [symmetry; exact C|left; reflexivity]).
    destruct (find g (table i)) as [y|] eqn:F.
    2: { exfalso. pose proof (find_none _ _ F x IT) as X. rewrite FG in B. congruence. }
    apply find_some in F as [Iy Gy]. assert (y = x) as -> by (apply U; auto; rewrite <- FG; exact B). cbn [wire queue calls busy arrived]. split; [reflexivity|]. split; [|auto].
    constructor; cbn [slots next_id table counter].
    + rewrite A. apply (a_len _ _ R).
    + apply (Permutation_cons_inv (a := x)). rewrite <- C, (a_perm _ _ R). apply drop_perm; [apply (a_ids _ _ R)|exact IT].
    + apply (a_next _ _ R).
    + apply drop_nodup, (a_ids _ _ R).
    + apply drop_nodup, (a_exprs _ _ R).
  - destruct (find g (table i)) as [y|] eqn:F; [|rewrite app_nil_r; auto 10]. exfalso. apply find_some in F as [Iy Gy]. assert (IA : In y (active (slots s))) by (eapply Permutation_in; [symmetry; apply (a_perm _ _ R)|exact Iy]).
    pose proof (take_none _ _ T y IA). rewrite FG in H. congruence.
Qed.
Lemma step_rel : forall s i e, rel s i -> proper_step i e -> forall s' r, step s e = Ok (s', r) ->
  let '(i', r', w) := ideal_step i e in r = r' /\ rel s' i' /\ wire s' = wire s ++ w.
Proof.
  intros s i e R P s' r H. destruct e as [ex cl|ex id cl|ex|ex id|c| | |]; cbn [step ideal_step proper_step] in *.
  - injection H as H. destruct P as [P1 P2]. assert (R' : rel (mkState (slots s) ((next_id s + 1) mod 4294967296) (queue s) (arrived s) (busy s) (calls s) (wire s)) (mkIdeal (table i) ((counter i + 1) mod 4294967296))).
    { destruct R as [A B C D E]. constructor; cbn [slots next_id table counter]; auto. rewrite C. reflexivity. }
    pose proof (add_rel _ _ ex (counter i) cl R' P1 P2) as X. rewrite (a_next _ _ R) in H. rewrite (a_next _ _ R) in X. rewrite H in X.
    destruct (ideal_add _ ex (counter i) cl) as [[i' r'] w]. cbn [wire] in X. intuition.
  - injection H as H. destruct P as [P1 P2]. pose proof (add_rel _ _ ex id cl R P1 P2) as X. rewrite H in X. destruct (ideal_add i ex id cl) as [[i' r'] w]. intuition.
  - injection H as H. pose proof (remove_rel s i (fun x => bytes_eqb ex (l_expr x)) (fun x => bytes_eqb (l_expr x) ex) ex R) as X. rewrite H in X. unfold by_expr. destruct (ideal_remove i _ ex) as [[i' r'] w].
    destruct X as (X1 & X2 & X3 & _); [intros x; apply bytes_eqb_sym| |auto]. intros x y Ix Iy Ex Ey. apply bytes_eqb_eq in Ex, Ey. apply (map_inj l_expr (table i)); [apply (a_exprs _ _ R)|auto|auto|congruence].
  - injection H as H. pose proof (remove_rel s i (fun x => id =? l_id x) (fun x => l_id x =? id) ex R) as X. rewrite H in X. unfold by_id. destruct (ideal_remove i _ ex) as [[i' r'] w].
    destruct X as (X1 & X2 & X3 & _); [intros x; apply Z.eqb_sym| |auto]. intros x y Ix Iy Ex Ey. apply Z.eqb_eq in Ex, Ey. apply (map_inj l_id (table i)); [apply (a_ids _ _ R)|auto|auto|congruence].
  - injection H as <- <-. split; [reflexivity|]. split; [destruct R; constructor; auto|rewrite app_nil_r; reflexivity].
  - destruct (busy s); try discriminate. destruct (queue s) as [|[n c] q]; try discriminate. injection H as <- <-. split; [reflexivity|]. split; [destruct R; constructor; auto|rewrite app_nil_r; reflexivity].
  - destruct (busy s); try discriminate. injection H as <- <-. split; [reflexivity|]. split; [destruct R; constructor; auto|rewrite app_nil_r; reflexivity].
  - destruct (busy s); try discriminate. injection H as <- <-. split; [reflexivity|]. split; [destruct R; constructor; auto|rewrite app_nil_r; reflexivity].
Qed.
Lemma run_rel : forall l s i s' rs, rel s i -> proper i l -> run s l = Ok (s', rs) -> exists i' ws, ideal_run i l = (i', rs, ws) /\ rel s' i' /\ wire s' = wire s ++ ws.
Proof.
  induction l as [|e l IH]; intros s i s' rs R P H; [injection H as <- <-; exists i, []; rewrite app_nil_r; auto|]. cbn [run] in H. destruct (step s e) as [[s1 r]| |] eqn:ST; cbn [obind] in H; try discriminate.
  destruct (run s1 l) as [[s2 rs2]| |] eqn:RN; cbn [obind] in H; try discriminate. injection H as <- <-. destruct P as [P1 P2]. pose proof (step_rel s i e R P1 s1 r ST) as X. cbn [ideal_run]. destruct (ideal_step i e) as [[i1 r1] w1]. destruct X as (-> & R1 & W1). cbn [fst] in P2.
  destruct (IH s1 i1 s2 rs2 R1 P2 RN) as (i' & ws & E & R2 & W2). rewrite E. exists i', (w1 ++ ws). split; [reflexivity|]. split; [exact R2|]. rewrite W2, W1, app_assoc. reflexivity.
Qed.

(** ** the queue *)
Fixpoint reach (l : list event) (n b : nat) : nat * nat :=
  match l with
  | [] => (n, b)
  | Arrive c :: l => reach l (S n) (if Nat.leb b 25 then S b else b)
  | Done :: l => reach l n (Nat.pred b)
  | _ :: l => reach l n b
  end.
Lemma reach_app : forall l m n b, reach (l ++ m) n b = reach m (fst (reach l n b)) (snd (reach l n b)).
Proof. induction l as [|e l IH]; intros m n b; [reflexivity|]. cbn [app reach]. destruct e; auto. Qed.
Lemma accepted_app : forall l m n b, accepted (l ++ m) n b = accepted l n b ++ accepted m (fst (reach l n b)) (snd (reach l n b)).
Proof. induction l as [|e l IH]; intros m n b; [reflexivity|]. cbn [app reach accepted]. destruct e; auto. destruct (Nat.leb b 25); cbn [app]; rewrite IH; reflexivity. Qed.
Lemma accepted_ge : forall l n b x, In x (accepted l n b) -> (n <= fst x)%nat.
Proof. induction l as [|e l IH]; intros n b x H; [destruct H|]. cbn [accepted] in H. destruct e; eauto. destruct (Nat.leb b 25); [destruct H as [<-|H]; [cbn; lia|]|]; apply IH in H; lia. Qed.
Lemma accepted_sorted : forall l n b, StronglySorted lt (map fst (accepted l n b)).
Proof.
  induction l as [|e l IH]; intros n b; [constructor|]. cbn [accepted]. destruct e; auto. destruct (Nat.leb b 25); auto. cbn [map fst]. constructor; [apply IH|]. apply Forall_forall. intros y H. apply in_map_iff in H as (x & <- & H). apply accepted_ge in H. lia.
Qed.
Lemma sorted_app_lt : forall (a b : list nat) x y, StronglySorted lt (a ++ b) -> In x a -> In y b -> (x < y)%nat.
Proof.
  induction a as [|z a IH]; intros b x y S1 H H'; [destruct H|]. cbn in S1. inversion S1 as [|? ? S2 F]; subst. destruct H as [->|H]; [|eauto]. rewrite Forall_forall in F. apply F. apply in_app_iff. auto.
Qed.
Lemma sorted_snoc : forall (a : list nat) y, StronglySorted lt a -> (forall x, In x a -> (x < y)%nat) -> StronglySorted lt (a ++ [y]).
Proof.
  induction a as [|z a IH]; intros y S1 H; cbn; [repeat constructor|]. inversion S1 as [|? ? S2 F]; subst. constructor; [apply IH; [exact S2|intros x I; apply H; right; exact I]|].
  rewrite Forall_forall in *. intros x I. apply in_app_iff in I as [I|[<-|[]]]; [auto|]. apply H. left. reflexivity.
Qed.
Lemma sorted_nodup : forall a : list nat, StronglySorted lt a -> NoDup a.
Proof. induction a as [|x a IH]; intros S1; [constructor|]. inversion S1 as [|? ? S2 F]; subst. constructor; [|auto]. intros I. rewrite Forall_forall in F. apply F in I. lia. Qed.
Lemma skip_front : forall {A} d (l : list A) x q, skipn d l = x :: q -> firstn (d + 1) l = firstn d l ++ [x] /\ skipn (d + 1) l = q /\ (d + 1 <= length l)%nat.
Proof.
  intros A. induction d as [|d IH]; intros [|y l] x q H; cbn in H; try discriminate.
  - injection H as -> ->. cbn. auto with arith.
  - destruct (IH l x q H) as (A1 & B & C). cbn [Nat.add firstn skipn app length]. rewrite A1, B. split; [reflexivity|]. split; [reflexivity|lia].
Qed.

Record qinv (l : list event) (s : state) : Prop := mkQinv {
  j_queue : queue s = skipn (dones l) (accepted l 0 0); j_reach : reach l 0 0 = (arrived s, length (queue s)); j_arrived : arrived s = length (arrivals l);
  j_dones : (dones l <= length (accepted l 0 0))%nat;
  j_front : match busy s with Idle => True | Found n _ | Called n => exists c q, queue s = (n, c) :: q end; j_len : (length (queue s) <= 26)%nat;
  j_calls : incl (map fst (calls s)) (map fst (firstn (dones l + match busy s with Called _ => 1 | _ => 0 end) (accepted l 0 0)));
  j_sorted : StronglySorted lt (map fst (calls s)) }.
Lemma firstn_app_le : forall {A} d (l m : list A), (d <= length l)%nat -> firstn d (l ++ m) = firstn d l.
Proof. intros A d l m H. rewrite firstn_app. replace (d - length l)%nat with 0%nat by lia. cbn. apply app_nil_r. Qed.
Lemma skipn_app_le : forall {A} d (l m : list A), (d <= length l)%nat -> skipn d (l ++ m) = skipn d l ++ m.
Proof. intros A d l m H. rewrite skipn_app. replace (d - length l)%nat with 0%nat by lia. reflexivity. Qed.
Lemma dones_app : forall l m, dones (l ++ m) = (dones l + dones m)%nat.
Proof. intros. unfold dones. rewrite filter_app, app_length. reflexivity. Qed.
Lemma arrivals_app : forall l m, arrivals (l ++ m) = arrivals l ++ arrivals m.
Proof. intros. apply flat_map_app. Qed.
(** steps that do not touch the queue *)
Lemma qinv_same : forall l s s' e, qinv l s -> dones [e] = 0%nat -> arrivals [e] = [] -> accepted [e] (arrived s) (length (queue s)) = [] -> reach [e] (arrived s) (length (queue s)) = (arrived s, length (queue s)) ->
  queue s' = queue s -> arrived s' = arrived s -> busy s' = busy s -> calls s' = calls s -> qinv (l ++ [e]) s'.
Proof.
  intros l s s' e [A B C D E F G H] K1 K2 K3 K4 Q1 Q2 Q3 Q4.
  constructor; rewrite ?accepted_app, ?reach_app, ?B, ?dones_app, ?arrivals_app, ?Q1, ?Q2, ?Q3, ?Q4, ?K1, ?K2, ?Nat.add_0_r, ?app_nil_r; cbn [fst snd]; rewrite ?K3, ?K4, ?app_nil_r; auto.
Qed.
Lemma qstep : forall l s e s' r, qinv l s -> step s e = Ok (s', r) -> qinv (l ++ [e]) s'.
Proof.
  intros l s e s' r Q H. destruct e as [ex cl|ex id cl|ex|ex id|c| | |]; cbn [step] in H.
  - injection H as H. unfold add_with_id in H. cbn [slots] in H. destruct (put _ _); injection H as <- <-; apply (qinv_same l s); auto.
  - injection H as H. unfold add_with_id in H. destruct (put _ _); injection H as <- <-; apply (qinv_same l s); auto.
  - injection H as H. unfold remove_listener in H. destruct (take _ _) as [[x k]|]; injection H as <- <-; apply (qinv_same l s); auto.
  - injection H as H. unfold remove_listener in H. destruct (take _ _) as [[x k]|]; injection H as <- <-; apply (qinv_same l s); auto.
  - injection H as <- <-. destruct Q as [A B C D E F G J]. unfold MAX_ALLOWED_MESSAGES. destruct (Nat.ltb_spec 25 (length (queue s))) as [L|L].
    + constructor; cbn [queue arrived busy calls]; rewrite ?accepted_app, ?reach_app, ?B, ?dones_app, ?arrivals_app; cbn [fst snd dones arrivals filter flat_map length app]; rewrite ?Nat.add_0_r.
      * cbn [accepted]. destruct (Nat.leb_spec (length (queue s)) 25); [lia|]. rewrite app_nil_r. exact A.
      * cbn [reach]. destruct (Nat.leb_spec (length (queue s)) 25); [lia|]. reflexivity.
      * rewrite app_length. cbn. lia.
      * rewrite app_length. lia.
      * exact E.
      * exact F.
      * cbn [accepted]. destruct (Nat.leb_spec (length (queue s)) 25); [lia|]. rewrite app_nil_r. exact G.
      * exact J.
    + constructor; cbn [queue arrived busy calls]; rewrite ?accepted_app, ?reach_app, ?B, ?dones_app, ?arrivals_app; cbn [fst snd dones arrivals filter flat_map length app]; rewrite ?Nat.add_0_r.
      * cbn [accepted]. destruct (Nat.leb_spec (length (queue s)) 25); [|lia]. rewrite skipn_app_le, <- A by exact D. reflexivity.
      * cbn [reach]. destruct (Nat.leb_spec (length (queue s)) 25); [|lia]. rewrite app_length. cbn. rewrite Nat.add_1_r. reflexivity.
      * rewrite app_length. cbn. lia.
      * rewrite app_length. lia.
      * destruct (busy s); [exact I| |]; destruct E as (cc & q & ->); exists cc, (q ++ [(arrived s, c)]); reflexivity.
      * rewrite app_length. cbn. lia.
      * cbn [accepted]. destruct (Nat.leb_spec (length (queue s)) 25); [|lia]. intros x I. apply G in I. rewrite firstn_app, map_app. apply in_app_iff. left. exact I.
      * exact J.
  - destruct Q as [A B C D E F G J]. destruct (busy s) eqn:BS; try discriminate. destruct (queue s) as [|[n c] q] eqn:QS; try discriminate. injection H as <- <-.
    constructor; cbn [queue arrived busy calls]; rewrite ?accepted_app, ?reach_app, ?B, ?dones_app, ?arrivals_app; cbn [fst snd dones arrivals filter flat_map length app accepted reach]; rewrite ?Nat.add_0_r, ?app_nil_r in *; auto. exists c, q. auto.
  - destruct Q as [A B C D E F G J]. destruct (busy s) as [|n o|] eqn:BS; try discriminate. injection H as <- <-. destruct E as (c & q & QS). rewrite QS in A. symmetry in A. destruct (skip_front _ _ _ _ A) as (F1 & F2 & F3).
    constructor; cbn [queue arrived busy calls]; rewrite ?accepted_app, ?reach_app, ?B, ?dones_app, ?arrivals_app; cbn [fst snd dones arrivals filter flat_map length app accepted reach]; rewrite ?Nat.add_0_r, ?app_nil_r in *; auto.
    + rewrite QS. auto.
    + exists c, q. exact QS.
    + rewrite F1. rewrite !map_app. intros x I. apply in_app_iff in I as [I|I]; apply in_app_iff; [left; auto|right]. destruct o; cbn in *; [tauto|destruct I].
    + rewrite map_app. destruct o as [cl|]; [|rewrite app_nil_r; exact J]. apply sorted_snoc; [exact J|]. intros x I. apply G in I. pose proof (accepted_sorted l 0 0) as SS. rewrite <- (firstn_skipn (dones l) (accepted l 0 0)), A, map_app in SS. eapply sorted_app_lt; [exact SS|exact I|left; reflexivity].
  - destruct Q as [A B C D E F G J]. destruct (busy s) as [|n o|n] eqn:BS; try discriminate. injection H as <- <-. destruct E as (c & q & QS). rewrite QS in A. symmetry in A. destruct (skip_front _ _ _ _ A) as (F1 & F2 & F3).
    assert (QF : filter (fun x => negb (Nat.eqb (fst x) n)) (queue s) = q).
    { rewrite QS. cbn. rewrite Nat.eqb_refl. cbn. pose proof (accepted_sorted l 0 0) as SS. rewrite <- (firstn_skipn (dones l) (accepted l 0 0)), A, map_app in SS.
      assert (ND : forall x, In x q -> fst x <> n). { intros x I EX. rewrite app_assoc_reverse in SS || idtac. cbn [map fst] in SS. rewrite <- (app_nil_l (n :: map fst q)) in SS. change (n :: map fst q) with ([n] ++ map fst q) in SS. rewrite !app_assoc in SS. pose proof (sorted_app_lt _ _ n (fst x) SS) as X. rewrite !in_app_iff in X. specialize (X (or_intror (or_introl eq_refl)) (in_map fst q x I)). lia. }
      clear - ND. induction q as [|x q IH]; [reflexivity|]. cbn. destruct (Nat.eqb_spec (fst x) n) as [EX|_]; [exfalso; apply (ND x); [left; reflexivity|exact EX]|]. cbn. rewrite IH; [reflexivity|]. intros y I. apply ND. right. exact I. }
    constructor; cbn [queue arrived busy calls]; rewrite ?QF, ?accepted_app, ?reach_app, ?B, ?dones_app, ?arrivals_app; cbn [fst snd dones arrivals filter flat_map length app accepted reach]; rewrite ?Nat.add_0_r, ?app_nil_r in *; auto.
    + rewrite QS. reflexivity.
    + rewrite QS in F. cbn in F. lia.
Qed.
Lemma run_app : forall l m s, run s (l ++ m) = do (s1, a) <- run s l ; do (s2, b) <- run s1 m ; Ok (s2, a ++ b).
Proof.
  induction l as [|e l IH]; intros m s; cbn [app run obind].
  - destruct (run s m) as [[s2 b]| |]; reflexivity.
  - destruct (step s e) as [[s1 r]| |]; cbn [obind]; auto. rewrite IH. destruct (run s1 l) as [[s2 a]| |]; cbn [obind]; auto. destruct (run s2 m) as [[s3 b]| |]; reflexivity.
Qed.
Lemma run_qinv : forall l s rs, run init l = Ok (s, rs) -> qinv l s.
Proof.
  induction l as [|e l IH] using rev_ind; intros s rs H.
  - injection H as <- <-. constructor; cbn; auto with arith; try constructor. intros x [].
  - rewrite run_app in H. destruct (run init l) as [[s1 a]| |] eqn:R; cbn [obind] in H; try discriminate. cbn [run] in H. destruct (step s1 e) as [[s2 r]| |] eqn:ST; cbn [obind] in H; try discriminate. injection H as <- _. eapply qstep; [eapply IH; reflexivity|exact ST].
Qed.

(** ** dispatch *)
Definition looks (l : list event) : nat := length (filter (fun e => match e with Look => true | _ => false end) l).
Record vinv (l : list event) (s : state) (v : server) (m : list (nat * Z)) : Prop := mkVinv {
  v_rel : rel s (sv_table v); v_next : sv_next v = skipn (dones l + match busy s with Idle => 0 | _ => 1 end) m;
  v_found : sv_found v = match busy s with Found n (Some cl) => Some (n, cl) | _ => None end; v_calls : sv_calls v = calls s }.
Lemma proper_app : forall l m i, proper i (l ++ m) -> proper i l /\ proper (fst (fst (ideal_run i l))) m.
Proof.
  induction l as [|e l IH]; intros m i H; [split; [exact I|exact H]|]. cbn [app proper] in H. destruct H as [H1 H2]. destruct (IH m _ H2) as [A B]. split; [split; auto|]. cbn [ideal_run]. destruct (ideal_step i e) as [[i1 r1] w1]. cbn [fst] in B. destruct (ideal_run i1 l) as [[i2 r2] w2]. exact B.
Qed.
Lemma serve_table : forall l v, sv_table (fold_left serve l v) = fst (fst (ideal_run (sv_table v) l)).
Proof.
  induction l as [|e l IH]; intros v; [reflexivity|]. cbn [fold_left ideal_run]. rewrite IH. clear IH.
  destruct (ideal_step (sv_table v) e) as [[i1 r1] w1] eqn:E. destruct (ideal_run i1 l) as [[i2 r2] w2] eqn:E2. cbn [fst].
  assert (X : sv_table (serve v e) = i1). { destruct e; cbn [serve sv_table]; rewrite ?E; try reflexivity; cbn in E; injection E as <- _ _; [destruct (sv_next v) as [|[n id] q]; reflexivity|reflexivity]. }
  rewrite X, E2. reflexivity.
Qed.
Lemma run_vinv : forall l s rs ext, proper ideal_init l -> run init l = Ok (s, rs) -> vinv l s (fold_left serve l (mkServer ideal_init (accepted l 0 0 ++ ext) None [])) (accepted l 0 0 ++ ext).
Proof.
  induction l as [|e l IH] using rev_ind; intros s rs ext P H.
  - injection H as <- <-. constructor; try reflexivity. apply rel_init.
  - rewrite run_app in H. destruct (run init l) as [[s1 a]| |] eqn:R; cbn [obind] in H; try discriminate. cbn [run] in H. destruct (step s1 e) as [[s2 r]| |] eqn:ST; cbn [obind] in H; try discriminate. injection H as <- _.
    destruct (proper_app _ _ _ P) as [P1 [P2 _]]. pose proof (run_qinv l s1 a R) as Q. rewrite accepted_app, <- app_assoc. set (more := accepted [e] _ _ ++ ext). specialize (IH s1 a more P1 eq_refl). rewrite fold_left_app.
    pose proof (serve_table l (mkServer ideal_init (accepted l 0 0 ++ more) None [])) as T. cbn [sv_table] in T.
    set (v := fold_left serve l (mkServer ideal_init (accepted l 0 0 ++ more) None [])) in *. cbn [fold_left]. rewrite <- T in P2. destruct IH as [VR VN VF VC].
    pose proof (step_rel s1 (sv_table v) e VR P2 s2 r ST) as X.
    destruct (ideal_step (sv_table v) e) as [[i1 r1] w1] eqn:E. destruct X as (_ & R2 & _).
    destruct e as [ex cl|ex id cl|ex|ex id|c| | |]; cbn [serve]; try rewrite E; cbn [fst].
    1-4: cbn [step] in ST; injection ST as ST; unfold add_with_id, remove_listener in ST; cbn [slots] in ST;
      try (destruct (put _ _)); try (destruct (take _ _) as [[x k]|]); injection ST as <- <-;
      constructor; cbn [sv_table sv_next sv_found sv_calls busy calls]; rewrite ?dones_app; cbn [dones filter length]; rewrite ?Nat.add_0_r; auto.
    + injection ST as <- <-. constructor; cbn [sv_table sv_next sv_found sv_calls busy calls]; rewrite ?dones_app; cbn [dones filter length]; rewrite ?Nat.add_0_r; auto.
    + cbn [step] in ST. cbn in E. injection E as <- _ _. destruct (busy s1) eqn:BS; try discriminate. destruct (queue s1) as [|[n c] q] eqn:QS; try discriminate. injection ST as <- <-.
      pose proof (j_queue _ _ Q) as JQ. rewrite QS in JQ. symmetry in JQ. rewrite Nat.add_0_r in VN. rewrite skipn_app_le, JQ in VN by (apply (j_dones _ _ Q)). cbn [app] in VN. rewrite VN.
      destruct (skip_front (dones l) (accepted l 0 0 ++ more) (n, c) (q ++ more)) as (_ & SK & _); [rewrite skipn_app_le, JQ by (apply (j_dones _ _ Q)); reflexivity|].
      constructor; cbn [sv_table sv_next sv_found sv_calls busy calls]; rewrite ?dones_app; cbn [dones filter length]; rewrite ?Nat.add_0_r; auto.
      rewrite first_find. unfold by_id. rewrite (find_perm (fun x => l_id x =? c) (active (slots s1)) (table (sv_table v)) (a_perm _ _ VR)); [destruct (find _ _); reflexivity|].
      intros x y Ix Iy Ex Ey. apply Z.eqb_eq in Ex, Ey. apply (map_inj l_id (table (sv_table v))); [apply (a_ids _ _ VR)|eapply Permutation_in; [apply (a_perm _ _ VR)|exact Ix]|eapply Permutation_in; [apply (a_perm _ _ VR)|exact Iy]|congruence].
    + cbn [step] in ST. cbn in E. injection E as <- _ _. destruct (busy s1) as [|n o|] eqn:BS; try discriminate. injection ST as <- <-.
      constructor; cbn [sv_table sv_next sv_found sv_calls busy calls]; rewrite ?dones_app; cbn [dones filter length]; rewrite ?Nat.add_0_r; auto. rewrite VC, VF. destruct o; reflexivity.
    + cbn [step] in ST. cbn in E. injection E as <- _ _. destruct (busy s1) as [|n o|n] eqn:BS; try discriminate. injection ST as <- <-.
      constructor; cbn [sv_table sv_next sv_found sv_calls busy calls]; rewrite ?dones_app; cbn [dones filter length]; rewrite ?Nat.add_0_r; auto.
Qed.
(** every arrival is accepted with its own number and id, or finds the queue full *)
Lemma accepted_arrival : forall l n b k c, In (k, c) (accepted l n b) -> (n <= k)%nat /\ nth_error (arrivals l) (k - n) = Some c.
Proof.
  induction l as [|e l IH]; intros n b k c H; [destruct H|]. cbn [accepted] in H. unfold arrivals. cbn [flat_map]. fold (arrivals l). destruct e; try (apply (IH _ _ _ _ H)).
  assert (K : forall b', In (k, c) (accepted l (S n) b') -> (n <= k)%nat /\ nth_error ([control] ++ arrivals l) (k - n) = Some c).
  { intros b' I. destruct (IH _ _ _ _ I) as [A B]. split; [lia|]. replace (k - n)%nat with (S (k - S n)) by lia. exact B. }
  destruct (Nat.leb b 25); [|exact (K _ H)]. destruct H as [H|H]; [|exact (K _ H)]. injection H as <- <-. split; [lia|]. rewrite Nat.sub_diag. reflexivity.
Qed.
