From Coq Require Import String Relations Operators_Properties.
From Verif Require Import Common Bytes TextModel TextSpec TextProofs DmModel DmSpec DmProofs TourModel TourSpec TourProofs.
Local Open Scope string_scope.
Local Open Scope list_scope.
Local Open Scope Z_scope.

Section Run.
Context (db : database) (W : answers) (ids : list step -> list name) (D : distinct db) (R : rooted db).
Notation maxlen := (fold_right Nat.max 0%nat (map (fun i => length (i_object i)) db)).

Lemma reaches_leads l i m : leads db l i -> good_ids db ids l -> reaches db ids l m -> exists j, leads db m j.
Proof.
  intros Le G H. pose proof H as H0. apply clos_rt_rtn1 in H0. induction H0 as [|y z O H1 IH]; [exists i; exact Le|].
  pose proof (clos_rtn1_rt _ _ _ _ H1) as Hy. destruct (IH Hy) as (j & Lj). clear IH.
  inversion O as [pre t i' k Di Li Hk E1 E2|l' i' t Hi Wt K E1 E2]; subst.
  - assert (i' = j) by (apply (declared_unique db _ _ _ D Di (proj2 (proj2 Lj)))). subst i'. exists j.
    destruct (G pre t j Hy Di Li) as [_ F46]. rewrite Forall_forall in F46. apply (item_leads db pre t j k Lj Li (F46 k Hk)).
  - destruct K as (x & Dx). exists x. destruct Lj as (P & L & Dj). split; [apply proper_snoc; assumption|]. split; [|exact Dx].
    apply (legs_snoc db y i'); try assumption; [exists x; exact Dx|apply (proper_ne _ P)].
Qed.

(** a run that succeeds and shows what it is to show *)
Definition fine (log : list note) (r : outcome unit (list note * bool)) (L : list name) : Prop :=
  exists new, r = Ok (log ++ new, true) /\ shows new = L /\ ~ In Failed new /\ honest W log new.
Lemma fine_child get at_ (T : info -> list name) : forall cs log,
  (forall j log, In j cs -> fine log (get log (at_ ++ trim_property_name (i_object j) ++ [46])) (T j)) ->
  fine log (each_child get at_ cs log true) (flat_map T cs).
Proof.
  induction cs as [|j cs IH]; intros log H.
  - exists []. rewrite app_nil_r. cbn. repeat split; auto using honest_nil.
  - cbn [each_child flat_map]. destruct (H j log (or_introl eq_refl)) as (n1 & -> & S1 & F1 & H1). cbn [obind fst snd].
    destruct (IH (log ++ n1) ltac:(intros; apply H; right; assumption)) as (n2 & -> & S2 & F2 & H2).
    exists (n1 ++ n2). rewrite app_assoc. split; [reflexivity|]. split; [rewrite shows_app, S1, S2; reflexivity|]. split.
    + rewrite in_app_iff. tauto.
    + apply honest_app; assumption.
Qed.
Lemma fine_item rec get lname (T : name -> list name) : forall xs log,
  (forall x, In x xs -> exists r, resolve_property db (lname ++ [46] ++ x ++ [46]) = Some r) ->
  (forall x i it log, In x xs -> resolve_property db (lname ++ [46] ++ x ++ [46]) = Some (i, it) -> rec = true ->
     fine log (each_child get (lname ++ [46] ++ x ++ [46]) (children db 1 i) log true) (T x)) ->
  (rec = false -> forall x, T x = []) ->
  fine log (each_item db 1 W rec get lname xs log true) (flat_map (fun x => (lname ++ [46] ++ x ++ [46]) :: T x) xs).
Proof.
  induction xs as [|x xs IH]; intros log Re H N.
  - exists []. rewrite app_nil_r. cbn. repeat split; auto using honest_nil.
  - cbn [each_item flat_map]. cbv zeta. unfold one_shown. destruct (Re x (or_introl eq_refl)) as ([i it] & E). rewrite E.
    specialize (H x) as Hx. remember (lname ++ [46] ++ x ++ [46]) as s0 eqn:Es0.
    set (l1 := log ++ [Shown s0 (W log s0)]).
    assert (Mid : fine l1 (if rec then each_child get s0 (children db 1 i) l1 true else Ok (l1, true)) (T x)).
    { destruct rec; [apply (Hx i it); auto; left; reflexivity|]. exists []. rewrite app_nil_r, (N eq_refl). cbn. repeat split; auto using honest_nil. }
    destruct Mid as (n1 & -> & S1 & F1 & H1). cbn [obind fst snd].
    destruct (IH (l1 ++ n1) ltac:(intros; apply Re; right; assumption) ltac:(intros; eapply H; eauto; right; assumption) N) as (n2 & -> & S2 & F2 & H2).
    exists ([Shown s0 (W log s0)] ++ n1 ++ n2). unfold l1. rewrite !app_assoc. split; [reflexivity|]. split.
    + rewrite !shows_app, S1, S2. cbn [shows flat_map app]. rewrite ?app_assoc. reflexivity.
    + split.
      * rewrite !in_app_iff. cbn [In]. intuition discriminate.
      * rewrite <- app_assoc. apply honest_app; [apply honest_shown|]. apply honest_app; [exact H1|exact H2].
Qed.

Lemma value_of o n v : n <> [] -> without 46 n -> says W o n v -> (exists r, resolve db o = Some r) ->
  forall log, one_value db W log (under o n) = (log ++ [Asked (under o n)], Some v).
Proof.
  intros Nn Wn Sy (r & Re) log. unfold one_value. rewrite (resolve_property_under db o n Nn Wn), Re. destruct (Sy log) as (a & o' & c & b & -> & Hb). f_equal. f_equal.
  unfold result_value. rewrite fold_left_app. cbn [fold_left fst snd]. rewrite !trim_name_under by exact Wn. rewrite (proj2 (bytes_eqb_iff n n) eq_refl).
  induction b as [|x b IH]; [reflexivity|]. cbn [fold_left].
  destruct (bytes_eqb (trim_property_name (fst (fst x))) n) eqn:E; [|apply IH; intros y Y; apply Hb; right; exact Y].
  exfalso. apply bytes_eqb_iff in E. destruct (Hb x (or_introl eq_refl)) as [H1 H2]. unfold trim_property_name in E.
  destruct (rcut 46 (fst (fst x))) as [[p q]|] eqn:Rc; [|exact (H1 E)]. apply rcut_some in Rc. subst q. apply (H2 p). exact (proj1 Rc).
Qed.
Lemma bs_without s : existsb (Z.eqb 46) (bs s) = false -> without 46 (bs s).
Proof. intros H X. enough (existsb (Z.eqb 46) (bs s) = true) by congruence. apply existsb_exists. exists 46. split; [exact X|reflexivity]. Qed.

Lemma good_of l : lists_tell db W ids l -> good_ids db ids l.
Proof. intros LT pre t i Re DI Li. destruct (LT pre t i Re DI Li) as (_ & _ & (_ & A & _ & B & _) & _). auto. Qed.
Lemma tell_on l m : lists_tell db W ids l -> one db ids l m -> lists_tell db W ids m.
Proof. intros G O pre t i Re. apply G. apply rt_trans with m; [apply rt_step; exact O|exact Re]. Qed.

(** the list branch, up to the loop *)
Lemma list_start fuel rec log pre t i : leads db (pre ++ [(t, None)]) i -> i_list i = true ->
  pre <> [] -> (exists j, leads db pre j) -> listed (ids (pre ++ [(t, None)])) -> tells W pre t (ids (pre ++ [(t, None)])) ->
  run_get (S fuel) db 1 W rec log (all_of (pre ++ [(t, None)])) =
  each_item db 1 W rec (run_get fuel db 1 W rec) (instance_of (pre ++ [(t, None)])) (ids (pre ++ [(t, None)]))
    ((log ++ [Asked (instance_of (pre ++ [(t, None)]) ++ bs "NumberOfEntries")]) ++ [Asked (instance_of (pre ++ [(t, None)]) ++ bs "IdsOfEntries")]) true.
Proof.
  intros Le Li Np (j & Lj) (Ne & ND & F44 & F46 & Len) (T1 & T2).
  assert (Wt : without 46 t). { destruct Le as ((F & _) & _). unfold parts in F. rewrite flat_map_app in F. apply Forall_app in F. destruct F as [_ F]. inversion F; assumption. }
  assert (Cat : forall x, instance_of (pre ++ [(t, None)]) ++ x = under (instance_of pre) (t ++ x)).
  { intros x. rewrite (instance_snoc pre t Np (proj1 Lj)). unfold under. rewrite <- app_assoc. reflexivity. }
  assert (Rp : exists r, resolve db (instance_of pre) = Some r) by (exists (j, is_item pre); apply leads_resolve; assumption).
  cbn [run_get]. unfold all_of. set (s := instance_of (pre ++ [(t, None)]) ++ [46]).
  destruct s as [|c s0] eqn:Es; [destruct (instance_of (pre ++ [(t, None)])); discriminate|]. rewrite <- Es. clear c s0 Es. unfold s.
  rewrite wildcard_dot, resolve_property_dot, (leads_resolve db _ i D Le), is_item_snoc, Li. cbn [is_some negb andb]. rewrite trim_dot, !Cat.
  assert (V : forall x : string, existsb (Z.eqb 46) (bs x) = false -> bs x <> [] -> t ++ bs x <> [] /\ without 46 (t ++ bs x)).
  { intros x A B. split; [destruct t; [exact B|discriminate]|]. apply without_app. split; [exact Wt|apply bs_without; exact A]. }
  destruct (V "NumberOfEntries" eq_refl ltac:(discriminate)) as [V1 V2]. destruct (V "IdsOfEntries" eq_refl ltac:(discriminate)) as [V3 V4].
  rewrite (value_of _ _ _ V1 V2 T1 Rp), (value_of _ _ _ V3 V4 T2 Rp).
  rewrite (split_join 44 _ Ne F44), atoi_print by lia. rewrite Z.eqb_refl. reflexivity.
Qed.
Lemma all_item pre t k : instance_of (pre ++ [(t, None)]) ++ [46] ++ k ++ [46] = all_of (pre ++ [(t, Some k)]).
Proof. unfold all_of. rewrite instance_item, <- app_assoc. reflexivity. Qed.
Lemma all_child l j : proper l -> all_of l ++ trim_property_name (i_object j) ++ [46] = all_of (childof l j).
Proof. intros P. unfold all_of, childof. rewrite (instance_snoc l _ (proper_ne _ P) P), <- !app_assoc. reflexivity. Qed.
Lemma resolve_all l i : leads db l i -> resolve_property db (all_of l) = Some (i, is_item l).
Proof. intros Le. unfold all_of. rewrite resolve_property_dot. apply leads_resolve; assumption. Qed.
Lemma trim_all l : trim_property (all_of l) ++ [46] = all_of l.
Proof. unfold all_of. change [46] with (46 :: []) at 1. unfold trim_property. rewrite (rcut_app 46 _ [] ltac:(intros [])). reflexivity. Qed.
Lemma map_flat {A B C} (f : B -> C) (g : A -> list B) l : map f (flat_map g l) = flat_map (fun x => map f (g x)) l.
Proof. induction l as [|x l IH]; [reflexivity|]. cbn [flat_map]. rewrite map_app, IH. reflexivity. Qed.
Lemma flat_ext {A B} (f g : A -> list B) l : (forall x, In x l -> f x = g x) -> flat_map f l = flat_map g l.
Proof. induction l as [|x l IH]; intros H; [reflexivity|]. cbn [flat_map]. rewrite (H x (or_introl eq_refl)), IH; auto. intros y Hy. apply H. right. exact Hy. Qed.

Lemma run_tree : forall fuel l i log, leads db l i -> (maxlen < fuel + length (i_object i))%nat -> lists_tell db W ids l ->
  fine log (run_get fuel db 1 W true log (all_of l)) (map all_of (tree db ids fuel l i)).
Proof.
  induction fuel as [|fuel IH]; intros l i log Le F LT.
  { exfalso. destruct Le as (_ & _ & [H _]). pose proof (longest db i H). lia. }
  assert (Below : forall l' log, leads db l' i -> holds db l' i -> lists_tell db W ids l' ->
    fine log (each_child (run_get fuel db 1 W true) (all_of l') (children db 1 i) log true) (map all_of (flat_map (fun j => tree db ids fuel (childof l' j) j) (children db 1 i)))).
  { intros l' log' Le' H' LT'. rewrite map_flat. apply fine_child. intros j log2 C. rewrite all_child by exact (proj1 Le').
    apply IH; [apply (child_leads db D R l' i j Le' H' C)|apply (child_fuel db R _ _ _ F C)|apply (tell_on _ _ LT'), (child_one db ids D R l' i j Le' H' C)]. }
  cbn [tree]. destruct (lists l i) eqn:E.
  - destruct (lists_case db l i E Le) as (Li & pre & t & ->).
    assert (DI : declared db (object_of (pre ++ [(t, None)])) i) by (destruct Le as (_ & _ & X); exact X).
    destruct (LT pre t i (rt_refl _ _ _) DI Li) as (Np & Lp & Lst & Tl). pose proof Lst as (_ & _ & _ & F46 & _). rewrite Forall_forall in F46.
    rewrite (list_start fuel true log pre t i Le Li Np Lp Lst Tl).
    set (log1 := (log ++ [Asked (instance_of (pre ++ [(t, None)]) ++ bs "NumberOfEntries")]) ++ [Asked (instance_of (pre ++ [(t, None)]) ++ bs "IdsOfEntries")]).
    assert (X : fine log1 (each_item db 1 W true (run_get fuel db 1 W true) (instance_of (pre ++ [(t, None)])) (ids (pre ++ [(t, None)])) log1 true)
      (map all_of (flat_map (fun k => setk (pre ++ [(t, None)]) k :: flat_map (fun j => tree db ids fuel (childof (setk (pre ++ [(t, None)]) k) j) j) (children db 1 i)) (ids (pre ++ [(t, None)]))))).
    { rewrite map_flat. rewrite (flat_ext _ (fun x => (instance_of (pre ++ [(t, None)]) ++ [46] ++ x ++ [46]) :: map all_of (flat_map (fun j => tree db ids fuel (childof (pre ++ [(t, Some x)]) j) j) (children db 1 i)))).
      2:{ intros k Hk. cbn [map]. rewrite setk_snoc, all_item. reflexivity. }
      apply fine_item; [| |discriminate].
      - intros k Hk. rewrite all_item. exists (i, is_item (pre ++ [(t, Some k)])). apply resolve_all, (item_leads db pre t i k Le Li (F46 k Hk)).
      - intros k i' it log2 Hk Re _. rewrite all_item in *. pose proof (item_leads db pre t i k Le Li (F46 k Hk)) as Le'.
        rewrite (resolve_all _ _ Le') in Re. injection Re as <- _. apply Below; [exact Le'|apply item_holds, (proj2 (proj2 Le'))|].
        apply (tell_on _ _ LT), (one_item db ids pre t i k); assumption. }
    destruct X as (new & -> & S1 & F1 & H1). exists ([Asked (instance_of (pre ++ [(t, None)]) ++ bs "NumberOfEntries")] ++ [Asked (instance_of (pre ++ [(t, None)]) ++ bs "IdsOfEntries")] ++ new).
    unfold log1. rewrite !app_assoc. split; [reflexivity|]. split; [rewrite !shows_app; exact S1|]. split.
    + rewrite !in_app_iff. cbn [In]. intuition discriminate.
    + rewrite <- app_assoc. apply honest_app; [apply honest_asked|]. apply honest_app; [apply honest_asked|exact H1].
  - assert (N : all_of l <> []) by (unfold all_of; destruct (instance_of l); discriminate).
    assert (Y : run_get (S fuel) db 1 W true log (all_of l) = each_child (run_get fuel db 1 W true) (all_of l) (children db 1 i) (log ++ [Shown (all_of l) (W log (all_of l))]) true).
    { cbn [run_get]. unfold one_shown. rewrite (resolve_all l i Le), trim_all. change (negb (is_item l) && i_list i) with (lists l i). rewrite E.
      destruct (all_of l) as [|c s]; [congruence|]. destruct (is_wildcard (c :: s)); reflexivity. }
    rewrite Y. destruct (Below l (log ++ [Shown (all_of l) (W log (all_of l))]) Le (lists_false db l i E (proj2 (proj2 Le))) LT) as (new & -> & S1 & F1 & H1).
    exists ([Shown (all_of l) (W log (all_of l))] ++ new). rewrite app_assoc. split; [reflexivity|]. split; [rewrite shows_app, S1; reflexivity|]. split.
    + rewrite in_app_iff. cbn [In]. intuition discriminate.
    + apply honest_app; [apply honest_shown|exact H1].
Qed.
End Run.
