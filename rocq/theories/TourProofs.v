From Coq Require Import String Relations Operators_Properties.
From Verif Require Import Common Bytes TextModel TextSpec TextProofs DmModel DmSpec DmProofs TourModel TourSpec.
From Verif Require WaitModel WaitProofs.
Local Open Scope string_scope.
Local Open Scope list_scope.
Local Open Scope Z_scope.

Lemma atoi_print n : 0 <= n < 2 ^ 31 -> atoi (print_dec n) = n.
Proof.
  intros B. change (WaitModel.atoi (print_dec n) = n). rewrite <- (app_nil_r (print_dec n)). apply WaitProofs.atoi_holds; [|exact Logic.I|lia].
  apply print_denotes. change (10 ^ 20) with 100000000000000000000. lia.
Qed.

(** ** logs *)
Lemma shows_app a b : shows (a ++ b) = shows a ++ shows b.
Proof. apply flat_map_app. Qed.
Lemma honest_nil W log : honest W log [].
Proof. intros a s rs b E. destruct a; discriminate. Qed.
Lemma honest_app W log x y : honest W log x -> honest W (log ++ x) y -> honest W log (x ++ y).
Proof.
  revert log y. induction x as [|e x IH]; intros log y Hx Hy.
  - rewrite app_nil_r in Hy. exact Hy.
  - intros a s rs b E. destruct a as [|f a].
    + injection E as E1 E2. subst e. apply (Hx [] s rs x eq_refl).
    + injection E as -> E. replace (log ++ f :: a) with ((log ++ [f]) ++ a) by (rewrite <- app_assoc; reflexivity).
      apply (IH (log ++ [f]) y) with (b := b).
      * intros a' s' rs' b' E'. specialize (Hx (f :: a') s' rs' b' ltac:(cbn [app]; rewrite E'; reflexivity)). rewrite <- app_assoc. exact Hx.
      * rewrite <- app_assoc. exact Hy.
      * exact E.
Qed.
Lemma honest_shown W log s : honest W log [Shown s (W log s)].
Proof. intros a t rs b E. destruct a as [|f a]; [|destruct a; discriminate]. injection E as E1 E2 _. subst. rewrite app_nil_r. reflexivity. Qed.
Lemma honest_asked W log s : honest W log [Asked s].
Proof. intros a t rs b E. destruct a as [|f a]; [discriminate|destruct a; discriminate]. Qed.

(** ** names *)
Lemma instance_snoc l t : l <> [] -> proper l -> instance_of (l ++ [(t, None)]) = instance_of l ++ 46 :: t.
Proof. intros N P. unfold instance_of, parts. rewrite flat_map_app. cbn [flat_map fst snd app]. apply join_snoc. apply (parts_ne l P). Qed.
Lemma instance_item pre t k : instance_of (pre ++ [(t, Some k)]) = instance_of (pre ++ [(t, None)]) ++ 46 :: k.
Proof.
  unfold instance_of, parts. rewrite !flat_map_app. cbn [flat_map fst snd app].
  replace (flat_map (fun s : step => fst s :: match snd s with Some k0 => [k0] | None => [] end) pre ++ [t; k])
    with ((flat_map (fun s : step => fst s :: match snd s with Some k0 => [k0] | None => [] end) pre ++ [t]) ++ [k]) by (rewrite <- app_assoc; reflexivity).
  apply join_snoc. apply snoc_ne.
Qed.
Lemma object_item pre t k k' : object_of (pre ++ [(t, k)]) = object_of (pre ++ [(t, k')]).
Proof. unfold object_of. rewrite !map_app. reflexivity. Qed.
Lemma is_item_snoc l t k : is_item (l ++ [(t, k)]) = is_some k.
Proof. unfold is_item. rewrite map_app. cbn [map snd]. apply last_app_one. Qed.

Lemma proper_ne l : proper l -> l <> [].
Proof. intros [_ H]. destruct l; [contradiction|discriminate]. Qed.
Lemma proper_snoc l t : proper l -> without 46 t -> proper (l ++ [(t, None)]).
Proof.
  intros [F H] T. split.
  - unfold parts. rewrite flat_map_app. apply Forall_app. split; [exact F|]. cbn. constructor; [exact T|constructor].
  - destruct l as [|[u k] l]; [contradiction|exact H].
Qed.
Lemma proper_item pre t k : proper (pre ++ [(t, None)]) -> without 46 k -> proper (pre ++ [(t, Some k)]).
Proof.
  intros [F H] T. split.
  - unfold parts in *. rewrite flat_map_app in *. apply Forall_app in F. destruct F as [F G]. apply Forall_app. split; [exact F|]. cbn in *.
    constructor; [inversion G; assumption|constructor; [exact T|constructor]].
  - destruct pre as [|[u q] pre]; exact H.
Qed.
Lemma legs_snoc db l i t : distinct db -> legs db [] l -> holds db l i -> known db (object_of (l ++ [(t, None)])) -> l <> [] -> legs db [] (l ++ [(t, None)]).
Proof.
  intros D L [DI H] K N a s b E. cbn [app]. destruct b as [|u b].
  - apply app_inj_tail in E. destruct E as [-> <-]. split; [|split].
    + cbn [snd]. congruence.
    + congruence.
    + intros _ _. exact K.
  - assert (E2 : exists b', u :: b = b' ++ [(t, None)] /\ l = a ++ s :: b').
    { destruct (exists_last (l := u :: b) ltac:(discriminate)) as (b' & x & Eb). rewrite Eb in E. exists b'.
      change (a ++ s :: b' ++ [x]) with (a ++ (s :: b') ++ [x]) in E. rewrite app_assoc in E. apply app_inj_tail in E. destruct E as [E <-]. auto. }
    destruct E2 as (b' & Eb & El). destruct (L a s b' El) as (A & B & C). cbn [app] in *. split; [exact A|]. split; [|exact C].
    intros _ j Dj Lj. destruct b' as [|w b'].
    + rewrite <- El in Dj. assert (j = i) by (apply (declared_unique db _ _ _ D Dj DI)). subst j. destruct H as [H|H]; [congruence|].
      rewrite El in H. destruct s as [u0 k0]. rewrite is_item_snoc in H. destruct k0; [discriminate|discriminate].
    + apply (B ltac:(discriminate) j Dj Lj).
Qed.
Lemma legs_item db pre t i k : legs db [] (pre ++ [(t, None)]) -> declared db (object_of (pre ++ [(t, None)])) i -> i_list i = true ->
  legs db [] (pre ++ [(t, Some k)]).
Proof.
  intros L DI LI a s b E. cbn [app]. destruct b as [|u b].
  - apply app_inj_tail in E. destruct E as [-> <-]. destruct (L a (t, None) [] eq_refl) as (A & B & C). cbn [app] in *. split; [|split].
    + intros _. exists i. rewrite (object_item a t (Some k) None). auto.
    + congruence.
    + intros X Y. rewrite (object_item a t (Some k) None). auto.
  - destruct (exists_last (l := u :: b) ltac:(discriminate)) as (b' & x & Eb). rewrite Eb in E.
    change (a ++ s :: b' ++ [x]) with (a ++ (s :: b') ++ [x]) in E. rewrite app_assoc in E. apply app_inj_tail in E. destruct E as [E Ex].
    destruct (L a s (b' ++ [(t, None)]) ltac:(rewrite E, <- app_assoc; reflexivity)) as (A & B & C). cbn [app] in *. split; [exact A|]. split; [|exact C].
    intros _. apply B. apply snoc_ne.
Qed.
(** an instance has one name *)
Lemma parts_inj db : forall l d l', legs db d l -> legs db d l' -> parts l = parts l' -> l = l'.
Proof.
  induction l as [|[t k] l IH]; intros d [|[t' k'] l'] L L' E; try reflexivity; try discriminate.
  cbn [parts flat_map fst snd app] in E. injection E as <- E.
  apply legs_cons in L. destruct L as [(A & B & _) L]. apply legs_cons in L'. destruct L' as [(A' & B' & _) L']. cbn [snd] in *.
  destruct k as [x|], k' as [y|]; cbn [app] in E.
  - injection E as <- E. f_equal. apply (IH (d ++ [(t, Some x)]) l' L L' E).
  - exfalso. destruct (A ltac:(discriminate)) as (j & Dj & Lj). rewrite (object_item d t (Some x) None) in Dj.
    apply (B' ltac:(intros ->; discriminate) j Dj Lj eq_refl).
  - exfalso. destruct (A' ltac:(discriminate)) as (j & Dj & Lj). rewrite (object_item d t (Some y) None) in Dj.
    apply (B ltac:(intros ->; discriminate) j Dj Lj eq_refl).
  - f_equal. apply (IH (d ++ [(t, None)]) l' L L' E).
Qed.
Lemma leads_inj db l l' i i' : leads db l i -> leads db l' i' -> instance_of l = instance_of l' -> l = l'.
Proof.
  intros (P & L & _) (P' & L' & _) E. apply (parts_inj db l [] l' L L').
  rewrite <- (split_join 46 (parts l) (parts_ne _ P) (proj1 P)), <- (split_join 46 (parts l') (parts_ne _ P') (proj1 P')).
  unfold instance_of in E. rewrite E. reflexivity.
Qed.

(** ** children *)
Lemma child_name db i j : rooted db -> In j (children db 1 i) -> In j db /\ i_object j = i_object i ++ 46 :: trim_property_name (i_object j) /\ without 46 (trim_property_name (i_object j)).
Proof.
  intros R H. unfold children in H. cbn [repeat concat] in H. rewrite app_nil_r in H. apply filter_In in H. destruct H as [H E]. split; [exact H|].
  apply bytes_eqb_iff in E. pose proof (R j H) as Dot. unfold trim_property, trim_property_name in *.
  destruct (rcut 46 (i_object j)) as [[a b]|] eqn:C.
  - apply rcut_some in C. destruct C as [C W]. subst a. auto.
  - exfalso. rewrite E in *. clear -Dot C. induction (i_object i) as [|x s IH]; [contradiction|]. cbn [rcut] in C.
    destruct (rcut 46 s) as [[a b]|] eqn:F; [discriminate|]. destruct (Z.eqb_spec x 46) as [Ex|Nx]; [discriminate|]. destruct Dot as [Ex|Dot]; [congruence|auto].
Qed.
Lemma child_in db i t j : In j db -> i_object j = i_object i ++ 46 :: t -> without 46 t -> In j (children db 1 i) /\ trim_property_name (i_object j) = t.
Proof.
  intros H E W. unfold children. cbn [repeat concat]. rewrite app_nil_r. split.
  - apply filter_In. split; [exact H|]. apply bytes_eqb_iff. unfold trim_property. rewrite E, (rcut_app 46 _ _ W). reflexivity.
  - unfold trim_property_name. rewrite E, (rcut_app 46 _ _ W). reflexivity.
Qed.
Lemma children_nodup db i : distinct db -> NoDup (children db 1 i).
Proof.
  intros D. unfold children. cbn [repeat concat]. rewrite app_nil_r. apply NoDup_filter. apply (NoDup_map_inv i_object). exact D.
Qed.
Lemma longest db j : In j db -> (length (i_object j) <= fold_right Nat.max 0 (map (fun i => length (i_object i)) db))%nat.
Proof. induction db as [|x db IH]; intros H; [contradiction|]. cbn [map fold_right]. destruct H as [->|H]; [lia|]. specialize (IH H). lia. Qed.

(** ** the tour as a list *)
Section Tour.
Context (db : database) (W : answers) (ids : list step -> list name) (D : distinct db) (R : rooted db).
Definition setk (l : list step) (k : name) : list step := removelast l ++ [(fst (last l ([], None)), Some k)].
Definition childof (l : list step) (j : info) : list step := l ++ [(trim_property_name (i_object j), None)].
Definition lists (l : list step) (i : info) : bool := negb (is_item l) && i_list i.
Fixpoint tree (fuel : nat) (l : list step) (i : info) : list (list step) :=
  match fuel with
  | O => []
  | S fuel =>
    let below l := flat_map (fun j => tree fuel (childof l j) j) (children db 1 i) in
    if lists l i then flat_map (fun k => setk l k :: below (setk l k)) (ids l) else l :: below l
  end.
Lemma setk_snoc pre t k x : setk (pre ++ [(t, k)]) x = pre ++ [(t, Some x)].
Proof. unfold setk. rewrite removelast_last, last_app_one. reflexivity. Qed.
Lemma lists_false l i : lists l i = false -> declared db (object_of l) i -> holds db l i.
Proof. unfold lists. intros H DI. split; [exact DI|]. destruct (is_item l); [auto|]. cbn in H. auto. Qed.
Lemma not_item l : l <> [] -> is_item l = false -> exists pre t, l = pre ++ [(t, None)].
Proof.
  intros N H. destruct (exists_last N) as (pre & [t k] & E). subst l. rewrite is_item_snoc in H. destruct k; [discriminate|]. exists pre, t. reflexivity.
Qed.
Lemma child_leads l i j : leads db l i -> holds db l i -> In j (children db 1 i) -> leads db (childof l j) j.
Proof.
  intros (P & L & DI) H C. destruct (child_name _ _ _ R C) as (Hj & E & Wj). pose proof (proper_ne l P) as N.
  assert (Dj : declared db (object_of (childof l j)) j).
  { split; [exact Hj|]. unfold childof. rewrite object_snoc by exact N. cbn [fst]. destruct DI as [_ DI]. rewrite DI in E. exact E. }
  split; [|split].
  - apply proper_snoc; assumption.
  - apply (legs_snoc db l i); try assumption. exists j. exact Dj.
  - exact Dj.
Qed.
Lemma item_leads pre t i k : leads db (pre ++ [(t, None)]) i -> i_list i = true -> without 46 k -> leads db (pre ++ [(t, Some k)]) i.
Proof.
  intros (P & L & DI) Li Wk. split; [|split].
  - apply proper_item; assumption.
  - apply (legs_item db pre t i); assumption.
  - rewrite (object_item pre t (Some k) None). exact DI.
Qed.
Lemma child_one l i j : leads db l i -> holds db l i -> In j (children db 1 i) -> one db ids l (childof l j).
Proof.
  intros Le H C. destruct (child_name _ _ _ R C) as (Hj & E & Wj). destruct (child_leads l i j Le H C) as (_ & _ & Dj).
  apply (one_below db ids l i); [exact H|exact Wj|exists j; exact Dj].
Qed.
Definition good_ids (l : list step) : Prop := forall pre t i, reaches db ids l (pre ++ [(t, None)]) -> declared db (object_of (pre ++ [(t, None)])) i -> i_list i = true ->
  NoDup (ids (pre ++ [(t, None)])) /\ Forall (without 46) (ids (pre ++ [(t, None)])).
Lemma good_on l m : good_ids l -> one db ids l m -> good_ids m.
Proof. intros G O pre t i Re. apply G. apply rt_trans with m; [apply rt_step; exact O|exact Re]. Qed.
Lemma first_step l m : reaches db ids l m -> m = l \/ exists x, one db ids l x /\ reaches db ids x m.
Proof.
  intros H. apply clos_rt_rt1n in H. inversion H as [|x y O C]; subst; [auto|]. right. exists x. split; [exact O|]. apply clos_rt1n_rt. exact C.
Qed.
Lemma holds_only l i x : leads db l i -> holds db l i -> one db ids l x -> exists j, In j (children db 1 i) /\ x = childof l j.
Proof.
  intros Le H O. inversion O as [pre t i' k Di Li Hk E1 E2|l' i' t Hi Wt K E1 E2]; subst.
  - exfalso. destruct H as [Dh [Hl|Hl]].
    + assert (i' = i) by (apply (declared_unique db _ _ _ D Di Dh)). subst i'. congruence.
    + rewrite is_item_snoc in Hl. discriminate.
  - destruct K as (j & Hj & Ej). destruct Le as (P & L & DI). pose proof (proper_ne l P) as N. rewrite object_snoc in Ej by exact N. cbn [fst] in Ej.
    destruct DI as [Hi1 Ei]. rewrite <- Ei in Ej. destruct (child_in db i t j Hj Ej Wt) as [C T]. exists j. split; [exact C|]. unfold childof. rewrite T. reflexivity.
Qed.
Lemma lists_only pre t i x : leads db (pre ++ [(t, None)]) i -> i_list i = true -> one db ids (pre ++ [(t, None)]) x -> exists k, In k (ids (pre ++ [(t, None)])) /\ x = pre ++ [(t, Some k)].
Proof.
  intros (P & L & DI) Li O. inversion O as [pre' t' i' k Di Li' Hk E1 E2|l' i' t' Hi Wt K E1 E2]; subst.
  - apply app_inj_tail in E1. destruct E1 as [-> E1]. injection E1 as ->. exists k. auto.
  - exfalso. destruct Hi as [Dh [Hl|Hl]].
    + assert (i' = i) by (apply (declared_unique db _ _ _ D Dh DI)). subst i'. congruence.
    + rewrite is_item_snoc in Hl. discriminate.
Qed.
Notation maxlen := (fold_right Nat.max 0%nat (map (fun i => length (i_object i)) db)).
Lemma child_fuel fuel i j : (maxlen < S fuel + length (i_object i))%nat -> In j (children db 1 i) -> (maxlen < fuel + length (i_object j))%nat.
Proof. intros F C. destruct (child_name _ _ _ R C) as (Hj & E & _). rewrite E, app_length. cbn [length]. lia. Qed.
Lemma lists_case l i : lists l i = true -> leads db l i -> i_list i = true /\ exists pre t, l = pre ++ [(t, None)].
Proof.
  intros H (P & _). unfold lists in H. apply andb_true_iff in H. destruct H as [A B]. split; [exact B|]. apply not_item; [apply (proper_ne _ P)|].
  destruct (is_item l); [discriminate|reflexivity].
Qed.
Lemma item_holds pre t k i : declared db (object_of (pre ++ [(t, Some k)])) i -> holds db (pre ++ [(t, Some k)]) i.
Proof. intros H. split; [exact H|]. right. apply is_item_snoc. Qed.

Lemma tree_in : forall fuel l i, leads db l i -> (maxlen < fuel + length (i_object i))%nat -> good_ids l -> forall m, In m (tree fuel l i) <-> gotten db ids l m.
Proof.
  induction fuel as [|fuel IH]; intros l i Le F G m.
  { exfalso. destruct Le as (_ & _ & [H _]). pose proof (longest db i H). lia. }
  cbn [tree].
  assert (Below : forall l', leads db l' i -> holds db l' i -> good_ids l' -> (In m (l' :: flat_map (fun j => tree fuel (childof l' j) j) (children db 1 i)) <-> gotten db ids l' m)).
  { intros l' Le' H' G'. cbn [In]. rewrite in_flat_map. split.
    - intros [->|(j & C & Hm)].
      + split; [apply rt_refl|]. exists i. exact H'.
      + pose proof (child_one l' i j Le' H' C) as O. apply (IH _ j (child_leads l' i j Le' H' C) (child_fuel _ _ _ F C) (good_on _ _ G' O)) in Hm.
        destruct Hm as [Re Hm]. split; [|exact Hm]. apply rt_trans with (childof l' j); [apply rt_step; exact O|exact Re].
    - intros [Re Hm]. destruct (first_step _ _ Re) as [->|(x & O & Re')]; [auto|]. right.
      destruct (holds_only l' i x Le' H' O) as (j & C & ->). exists j. split; [exact C|].
      apply (IH _ j (child_leads l' i j Le' H' C) (child_fuel _ _ _ F C) (good_on _ _ G' O)). split; assumption. }
  destruct (lists l i) eqn:E.
  - destruct (lists_case l i E Le) as (Li & pre & t & ->). rewrite in_flat_map.
    assert (DI : declared db (object_of (pre ++ [(t, None)])) i) by (destruct Le as (_ & _ & X); exact X).
    destruct (G pre t i (rt_refl _ _ _) DI Li) as [ND F46]. rewrite Forall_forall in F46. split.
    + intros (k & Hk & Hm). rewrite setk_snoc in Hm. pose proof (item_leads pre t i k Le Li (F46 k Hk)) as Le'.
      assert (O : one db ids (pre ++ [(t, None)]) (pre ++ [(t, Some k)])) by (apply (one_item db ids pre t i k); assumption).
      apply (Below _ Le' (item_holds _ _ _ _ (proj2 (proj2 Le'))) (good_on _ _ G O)) in Hm. destruct Hm as [Re Hm].
      split; [|exact Hm]. apply rt_trans with (pre ++ [(t, Some k)]); [apply rt_step; exact O|exact Re].
    + intros [Re Hm]. destruct (first_step _ _ Re) as [->|(x & O & Re')].
      * exfalso. destruct Hm as (i' & Di' & [X|X]).
        -- assert (i' = i) by (apply (declared_unique db _ _ _ D Di' DI)). subst i'. congruence.
        -- rewrite is_item_snoc in X. discriminate.
      * destruct (lists_only pre t i x Le Li O) as (k & Hk & ->). exists k. split; [exact Hk|]. rewrite setk_snoc.
        pose proof (item_leads pre t i k Le Li (F46 k Hk)) as Le'.
        apply (Below _ Le' (item_holds _ _ _ _ (proj2 (proj2 Le'))) (good_on _ _ G O)). split; assumption.
  - apply (Below l Le (lists_false l i E (proj2 (proj2 Le))) G).
Qed.

Lemma NoDup_flat {A B} (f : A -> list B) : forall l, NoDup l -> (forall a, In a l -> NoDup (f a)) ->
  (forall a b x, In a l -> In b l -> In x (f a) -> In x (f b) -> a = b) -> NoDup (flat_map f l).
Proof.
  induction l as [|a l IH]; intros N F Di; [constructor|]. cbn [flat_map]. inversion N as [|? ? Na Nl]; subst.
  assert (App : forall x y : list B, NoDup x -> NoDup y -> (forall z, In z x -> ~ In z y) -> NoDup (x ++ y)).
  { clear. induction x as [|z x IH]; intros y Nx Ny Dj; [exact Ny|]. inversion Nx; subst. cbn [app]. constructor.
    - rewrite in_app_iff. intros [H|H]; [contradiction|]. exact (Dj z (or_introl eq_refl) H).
    - apply IH; try assumption. intros w Hw. apply Dj. right. exact Hw. }
  apply App.
  - apply F. left. reflexivity.
  - apply IH; [exact Nl|intros b Hb; apply F; right; exact Hb|]. intros b c x Hb Hc. apply Di; right; assumption.
  - intros z Hz Hz'. apply in_flat_map in Hz'. destruct Hz' as (b & Hb & Hz'). rewrite (Di a b z (or_introl eq_refl) (or_intror Hb) Hz Hz') in Na. contradiction.
Qed.
Lemma one_grows pre t k x : one db ids (pre ++ [(t, k)]) x -> exists k' r, x = pre ++ (t, k') :: r /\ (k = None \/ k' = k).
Proof.
  intros O. inversion O as [pre' t' i' k' Di Li' Hk E1 E2|l' i' t' Hi Wt K E1 E2]; subst.
  - apply app_inj_tail in E1. destruct E1 as [-> E1]. injection E1 as -> ->. exists (Some k'), []. auto.
  - exists k, [(t', None)]. rewrite <- app_assoc. auto.
Qed.
Lemma one_grows2 pre s r x : one db ids (pre ++ s :: r) x -> r <> [] -> exists r', x = pre ++ s :: r' /\ r' <> [].
Proof.
  intros O N. destruct (exists_last N) as (r0 & [t k] & ->).
  replace (pre ++ s :: r0 ++ [(t, k)]) with ((pre ++ s :: r0) ++ [(t, k)]) in O by (rewrite <- app_assoc; reflexivity).
  destruct (one_grows _ _ _ _ O) as (k' & r & -> & _). exists (r0 ++ (t, k') :: r). rewrite <- app_assoc. cbn [app]. split; [reflexivity|]. destruct r0; discriminate.
Qed.
Lemma reaches_grows pre t k m : reaches db ids (pre ++ [(t, k)]) m -> exists k' r, m = pre ++ (t, k') :: r /\ (k = None \/ k' = k).
Proof.
  intros H. apply clos_rt_rtn1 in H. induction H as [|y z O H IH].
  - exists k, []. auto.
  - destruct IH as (k' & r & -> & Hk). destruct r as [|u r].
    + destruct (one_grows _ _ _ _ O) as (k'' & r & -> & Hk'). exists k'', r. split; [reflexivity|]. destruct Hk as [->|<-]; [auto|]. exact Hk'.
    + destruct (one_grows2 pre (t, k') (u :: r) z O ltac:(discriminate)) as (r' & -> & _). exists k', r'. auto.
Qed.
Lemma tree_nodup : forall fuel l i, leads db l i -> (maxlen < fuel + length (i_object i))%nat -> good_ids l -> NoDup (tree fuel l i).
Proof.
  induction fuel as [|fuel IH]; intros l i Le F G; [constructor|]. cbn [tree].
  assert (Below : forall l', leads db l' i -> holds db l' i -> good_ids l' -> NoDup (l' :: flat_map (fun j => tree fuel (childof l' j) j) (children db 1 i))).
  { intros l' Le' H' G'.
    assert (Gr : forall j m, In j (children db 1 i) -> In m (tree fuel (childof l' j) j) -> exists k r, m = l' ++ (trim_property_name (i_object j), k) :: r).
    { intros j m C Hm. pose proof (child_one l' i j Le' H' C) as O.
      apply (tree_in _ _ j (child_leads l' i j Le' H' C) (child_fuel _ _ _ F C) (good_on _ _ G' O)) in Hm. destruct Hm as [Re _].
      destruct (reaches_grows _ _ _ _ Re) as (k & r & -> & _). exists k, r. reflexivity. }
    constructor.
    - intros H. apply in_flat_map in H. destruct H as (j & C & Hm). destruct (Gr j _ C Hm) as (k & r & E).
      rewrite <- (app_nil_r l') in E at 1. apply app_inv_head in E. discriminate.
    - apply NoDup_flat.
      + apply children_nodup, D.
      + intros j C. pose proof (child_one l' i j Le' H' C) as O. apply (IH _ j (child_leads l' i j Le' H' C) (child_fuel _ _ _ F C) (good_on _ _ G' O)).
      + intros a b x Ca Cb Ha Hb. destruct (Gr a x Ca Ha) as (k & r & E). destruct (Gr b x Cb Hb) as (k' & r' & E'). rewrite E in E'. apply app_inv_head in E'.
        injection E' as T _ _. destruct (child_name _ _ _ R Ca) as (Ia & Ea & _). destruct (child_name _ _ _ R Cb) as (Ib & Eb & _). rewrite <- T, <- Ea in Eb.
        apply (declared_unique db (i_object a) a b D); split; auto. }
  destruct (lists l i) eqn:E.
  - destruct (lists_case l i E Le) as (Li & pre & t & ->).
    assert (DI : declared db (object_of (pre ++ [(t, None)])) i) by (destruct Le as (_ & _ & X); exact X).
    destruct (G pre t i (rt_refl _ _ _) DI Li) as [ND F46]. rewrite Forall_forall in F46.
    assert (O : forall k, In k (ids (pre ++ [(t, None)])) -> one db ids (pre ++ [(t, None)]) (pre ++ [(t, Some k)])) by (intros k Hk; apply (one_item db ids pre t i k); assumption).
    assert (Gr : forall k m, In k (ids (pre ++ [(t, None)])) -> In m (setk (pre ++ [(t, None)]) k :: flat_map (fun j => tree fuel (childof (setk (pre ++ [(t, None)]) k) j) j) (children db 1 i)) ->
      exists r, m = pre ++ (t, Some k) :: r).
    { intros k m Hk Hm. rewrite setk_snoc in Hm. pose proof (item_leads pre t i k Le Li (F46 k Hk)) as Le'. pose proof (item_holds _ _ _ _ (proj2 (proj2 Le'))) as H'.
      destruct Hm as [<-|Hm]; [exists []; reflexivity|]. apply in_flat_map in Hm. destruct Hm as (j & C & Hm). pose proof (child_one _ i j Le' H' C) as O'.
      apply (tree_in _ _ j (child_leads _ i j Le' H' C) (child_fuel _ _ _ F C) (good_on _ _ (good_on _ _ G (O k Hk)) O')) in Hm. destruct Hm as [Re _].
      destruct (reaches_grows _ _ _ _ Re) as (k' & r & -> & _). rewrite <- app_assoc. eexists. reflexivity. }
    apply NoDup_flat.
    + exact ND.
    + intros k Hk. rewrite setk_snoc. pose proof (item_leads pre t i k Le Li (F46 k Hk)) as Le'.
      apply (Below _ Le' (item_holds _ _ _ _ (proj2 (proj2 Le'))) (good_on _ _ G (O k Hk))).
    + intros a b x Ha Hb Xa Xb. destruct (Gr a x Ha Xa) as (r & Er). destruct (Gr b x Hb Xb) as (r' & Er'). rewrite Er in Er'. apply app_inv_head in Er'. congruence.
  - apply (Below l Le (lists_false l i E (proj2 (proj2 Le))) G).
Qed.
End Tour.
