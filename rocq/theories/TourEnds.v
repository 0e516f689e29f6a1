From Coq Require Import String.
From Verif Require Import Common Bytes TextModel DmModel DmSpec DmProofs TourModel TourSpec TourProofs.
Local Open Scope string_scope.
Local Open Scope list_scope.
Local Open Scope Z_scope.

Lemma split_cat c : forall a b, split c (a ++ c :: b) = split c a ++ split c b.
Proof.
  induction a as [|x a IH]; intros b; cbn [app].
  - cbn [split]. rewrite Z.eqb_refl. pose proof (split_ne c b). destruct (split c b); [congruence|reflexivity].
  - cbn [split]. rewrite IH. pose proof (split_ne c a). destruct (split c a) as [|w ws]; [congruence|]. cbn [app]. destruct (x =? c); reflexivity.
Qed.
Lemma find_object db o i : find_info db o = Some i -> i_object i = o /\ In i db.
Proof. unfold find_info. intros H. apply find_some in H. destruct H as [H E]. apply bytes_eqb_iff in E. auto. Qed.

Section Ends.
Context (db : database) (NE : forall i, In i db -> i_object i <> []).
Definition state (full : name) (isl : bool) (prov : option info) (item : bool) : Prop :=
  match prov with Some p => In p db /\ full = i_object p /\ isl = negb item && i_list p | None => isl = false /\ item = false end.
Lemma resolve_app i it m : forall l full isl prov item, state full isl prov item -> resolve_parts db full isl prov item l = Some (i, it) ->
  In i db /\ resolve_parts db full isl prov item (l ++ m) = resolve_parts db (i_object i) (negb it && i_list i) (Some i) it m.
Proof.
  induction l as [|t l IH]; intros full isl prov item S H.
  - cbn [resolve_parts app] in *. destruct prov as [p|]; [|discriminate]. injection H as -> ->. destruct S as (Hi & -> & ->). auto.
  - cbn [resolve_parts app] in *. destruct isl.
    + apply IH; [|exact H]. destruct prov as [p|]; cbn [state] in *; [|destruct S; discriminate]. destruct S as (Hi & -> & _). auto.
    + set (f := match full with [] => t | _ => full ++ 46 :: t end) in *. destruct (find_info db f) as [j|] eqn:E.
      * apply find_object in E. destruct E as [E Hj]. apply IH; [|exact H]. cbn. auto.
      * destruct prov as [p|]; [discriminate|]. apply IH; [|exact H]. cbn. auto.
Qed.
(** below an object there are longer names only *)
Lemma resolve_longer j jt : forall l p item isl, In p db -> isl = negb item && i_list p -> resolve_parts db (i_object p) isl (Some p) item l = Some (j, jt) ->
  (In j db /\ (length (i_object p) < length (i_object j))%nat) \/ (j = p /\ (length l <= 1)%nat /\ (l <> [] -> isl = true /\ jt = true) /\ (l = [] -> jt = item)).
Proof.
  induction l as [|t l IH]; intros p item isl Hp E H.
  - cbn [resolve_parts] in H. injection H as -> ->. right. cbn. repeat split; auto; congruence.
  - cbn [resolve_parts] in H. destruct isl.
    + destruct (IH p true false Hp ltac:(reflexivity) H) as [X|(-> & Le & A & B)]; [auto|]. destruct l as [|u l].
      * right. cbn. rewrite (B eq_refl). repeat split; auto; discriminate.
      * destruct (A ltac:(discriminate)) as [X _]. discriminate.
    + pose proof (NE p Hp) as N. destruct (i_object p) as [|c o] eqn:Eo; [congruence|]. rewrite <- Eo in *.
      destruct (find_info db (i_object p ++ [46] ++ t)) as [q|] eqn:F; [|discriminate]. apply find_object in F. destruct F as [Eq Hq]. left.
      rewrite <- Eq in H. assert (Lq : (length (i_object p) < length (i_object q))%nat) by (rewrite Eq, !app_length; cbn [length]; lia).
      destruct (IH q false (i_list q) Hq eq_refl H) as [[Hj X]|(-> & _)]; [split; [exact Hj|lia]|auto].
Qed.
Lemma resolve_below a i it b j jt : resolve db a = Some (i, it) -> resolve db (a ++ 46 :: b) = Some (j, jt) ->
  In i db /\ In j db /\ ((length (i_object i) < length (i_object j))%nat \/ (j = i /\ it = false /\ i_list i = true /\ jt = true)).
Proof.
  intros A B. unfold resolve in *. destruct a as [|c a]; [discriminate|]. cbn [app] in B. change (c :: a ++ 46 :: b) with ((c :: a) ++ 46 :: b) in B.
  rewrite split_cat in B. destruct (resolve_app i it (split 46 b) (split 46 (c :: a)) [] false None false ltac:(cbn; auto) A) as [Hi E].
  rewrite E in B. split; [exact Hi|]. destruct (resolve_longer j jt _ i it _ Hi eq_refl B) as [[Hj X]|(-> & _ & X & _)]; [auto|].
  destruct (X (split_ne 46 b)) as [Y Z]. destruct it; [discriminate|]. cbn [negb andb] in Y. split; [exact Hi|]. right. auto.
Qed.
Lemma resolve_in a i it : resolve db a = Some (i, it) -> In i db.
Proof.
  unfold resolve. destruct a as [|c a]; [discriminate|]. intros H. apply (resolve_app i it [] (split 46 (c :: a)) [] false None false ltac:(cbn; auto) H).
Qed.
Lemma trim_name_without s : without 46 (trim_property_name s).
Proof.
  unfold trim_property_name. destruct (rcut 46 s) as [[a b]|] eqn:E; [apply (rcut_some _ _ _ _ E)|].
  intros H. clear -E H. induction s as [|x s IH]; [contradiction|]. cbn [rcut] in E. destruct (rcut 46 s) as [[a b]|]; [discriminate|].
  destruct (Z.eqb_spec x 46) as [Ex|Nx]; [discriminate|]. destruct H as [H|H]; [congruence|auto].
Qed.
Context (k : nat) (W : answers).
Notation maxlen := (fold_right Nat.max 0%nat (map (fun i => length (i_object i)) db)).
Lemma child_ends get at_ : forall cs log ok, (forall j log, In j cs -> get log (at_ ++ trim_property_name (i_object j) ++ [46]) <> Err tt) -> each_child get at_ cs log ok <> Err tt.
Proof.
  induction cs as [|j cs IH]; intros log ok H; [discriminate|]. cbn [each_child]. specialize (H j log (or_introl eq_refl)) as Hj.
  destruct (get log (at_ ++ trim_property_name (i_object j) ++ [46])) as [[l b]|[]|]; [|congruence|discriminate]. cbn [obind]. apply IH. intros. apply H. right. assumption.
Qed.
Lemma item_ends rec get lname : forall xs log ok, (forall x i it j log, resolve_property db (lname ++ [46] ++ x ++ [46]) = Some (i, it) -> rec = true ->
    get log ((lname ++ [46] ++ x ++ [46]) ++ trim_property_name (i_object j) ++ [46]) <> Err tt) -> each_item db k W rec get lname xs log ok <> Err tt.
Proof.
  induction xs as [|x xs IH]; intros log ok H; [discriminate|]. cbn [each_item]. cbv zeta.
  destruct (one_shown db W log (lname ++ [46] ++ x ++ [46])) as [log1 b]. generalize (if b then ok else false). intros ok1.
  set (mid := if rec then _ else _). assert (M : mid <> Err tt).
  { unfold mid. destruct rec; [|discriminate]. destruct (resolve_property db (lname ++ [46] ++ x ++ [46])) as [[i it]|] eqn:E; [|discriminate].
    apply child_ends. intros j log2 _. apply (H x i it j log2 E eq_refl). }
  destruct mid as [[l b']|[]|]; [|congruence|discriminate]. cbn [obind]. apply IH. exact H.
Qed.
Lemma child_string s i it t : resolve_property db s = Some (i, it) -> resolve_property db (trim_property s ++ [46] ++ t ++ [46]) = resolve db (trim_property s ++ 46 :: t) /\ resolve db (trim_property s) = Some (i, it).
Proof.
  intros H. split.
  - replace (trim_property s ++ [46] ++ t ++ [46]) with ((trim_property s ++ 46 :: t) ++ [46]) by (rewrite <- app_assoc; reflexivity). apply resolve_property_dot.
  - unfold resolve_property in H. destruct s as [|c s]; [discriminate|]. destruct (is_wildcard (c :: s)) eqn:E; [|exact H].
    unfold is_wildcard in E. unfold trim_wildcard in H. rewrite E in H. apply Z.eqb_eq in E.
    destruct (exists_last (l := c :: s) ltac:(discriminate)) as (a & x & Ea). rewrite Ea in *. rewrite last_app_one in E. subst x. rewrite removelast_last in H.
    unfold trim_property. rewrite (rcut_app 46 a [] ltac:(intros [])). exact H.
Qed.
Lemma trim_of_dot o : trim_property (o ++ [46]) = o.
Proof. unfold trim_property. rewrite (rcut_app 46 o [] ltac:(intros [])). reflexivity. Qed.
Lemma unresolved_ends fuel rec log o : resolve db o = None -> run_get (S fuel) db k W rec log (o ++ [46]) <> Err tt.
Proof.
  intros H. cbn [run_get]. destruct (o ++ [46]) as [|c s] eqn:E; [discriminate|]. rewrite <- E. rewrite wildcard_dot, resolve_property_dot, H. discriminate.
Qed.
Lemma run_ends rec : forall fuel log o i it, resolve db o = Some (i, it) -> (maxlen + 1 < fuel + length (i_object i))%nat -> run_get fuel db k W rec log (o ++ [46]) <> Err tt.
Proof.
  induction fuel as [|fuel IH]; intros log o i it Re F.
  { pose proof (longest db i (resolve_in _ _ _ Re)). lia. }
  pose proof (longest db i (resolve_in _ _ _ Re)) as Li. destruct fuel as [|fuel]; [lia|].
  assert (Sub : forall x it' i' t log, without 46 t -> resolve db x = Some (i', it') -> (length (i_object i) < length (i_object i') \/ (i' = i /\ (it' = true \/ i_list i = false)))%nat ->
     run_get (S fuel) db k W rec log ((x ++ 46 :: t) ++ [46]) <> Err tt).
  { intros x it' i' t log' Wt Rx C. destruct (resolve db (x ++ 46 :: t)) as [[j jt]|] eqn:Rj; [|apply unresolved_ends; exact Rj].
    apply (IH log' _ j jt Rj). destruct (resolve_below x i' it' t j jt Rx Rj) as (_ & _ & [X|(-> & -> & X & _)]).
    - destruct C as [C|(-> & _)]; lia.
    - destruct C as [C|(-> & [C|C])]; [lia|discriminate|congruence]. }
  assert (Whole : forall log ok, (it = true \/ i_list i = false) -> each_child (run_get (S fuel) db k W rec) (trim_property (o ++ [46]) ++ [46]) (children db k i) log ok <> Err tt).
  { intros log' ok C. apply child_ends. intros j log2 _. rewrite trim_of_dot.
    replace ((o ++ [46]) ++ trim_property_name (i_object j) ++ [46]) with ((o ++ 46 :: trim_property_name (i_object j)) ++ [46]) by (rewrite <- !app_assoc; reflexivity).
    apply (Sub o it i); auto using trim_name_without. }
  remember (S fuel) as f eqn:Ef. cbn [run_get]. destruct (o ++ [46]) as [|c s] eqn:E; [discriminate|]. rewrite <- E in *. clear c s E.
  rewrite wildcard_dot, resolve_property_dot, Re. destruct (negb it && i_list i) eqn:Lst.
  - destruct it; [discriminate|]. cbn [negb andb] in Lst.
    destruct (one_value db W log (trim_wildcard (o ++ [46]) ++ bs "NumberOfEntries")) as [log1 [n|]]; [|discriminate].
    destruct (one_value db W log1 (trim_wildcard (o ++ [46]) ++ bs "IdsOfEntries")) as [log2 [v|]]; [|discriminate]. rewrite trim_dot.
    cbv zeta. destruct (Z.of_nat (length (split 44 v)) =? atoi n); [|discriminate]. apply item_ends. intros x i' it' j log3 Rx _.
    replace (o ++ [46] ++ x ++ [46]) with ((o ++ 46 :: x) ++ [46]) in Rx |- * by (rewrite <- app_assoc; reflexivity). rewrite resolve_property_dot in Rx.
    replace (((o ++ 46 :: x) ++ [46]) ++ trim_property_name (i_object j) ++ [46]) with (((o ++ 46 :: x) ++ 46 :: trim_property_name (i_object j)) ++ [46]) by (rewrite <- !app_assoc; reflexivity).
    apply (Sub (o ++ 46 :: x) it' i'); auto using trim_name_without. destruct (resolve_below o i false x i' it' Re Rx) as (_ & _ & [X|(-> & _ & _ & X)]); auto.
  - destruct (one_shown db W log (o ++ [46])) as [log1 ok]. destruct rec; [|discriminate]. apply Whole. destruct it; [auto|]. cbn in Lst. auto.
Qed.
Lemma get_ends rec s : get_all db k W rec s <> Err tt.
Proof.
  unfold get_all, deepest. destruct (is_wildcard s) eqn:E.
  - assert (Es : exists o, s = o ++ [46]).
    { unfold is_wildcard in E. apply Z.eqb_eq in E. destruct s as [|c s]; [discriminate|]. destruct (exists_last (l := c :: s) ltac:(discriminate)) as (a & x & Ea).
      rewrite Ea in *. rewrite last_app_one in E. subst x. exists a. reflexivity. }
    destruct Es as (o & ->). destruct (resolve db o) as [[i it]|] eqn:Re; [|apply unresolved_ends; exact Re].
    apply (run_ends rec _ [] o i it Re). pose proof (NE i (resolve_in _ _ _ Re)) as N. destruct (i_object i); [congruence|]. cbn [length]. lia.
  - set (f := S (fold_right Nat.max 0%nat (map (fun i => length (i_object i)) db))). cbn [run_get]. destruct s as [|c s]; [discriminate|]. rewrite E. cbv zeta.
    destruct (one_shown db W [] (c :: s)) as [log ok]. destruct rec; [|discriminate]. destruct (resolve_property db (c :: s)) as [[i it]|] eqn:Re; [|discriminate].
    apply child_ends. intros j log2 _. destruct (child_string (c :: s) i it (trim_property_name (i_object j)) Re) as [A B]. rewrite <- app_assoc.
    replace (trim_property (c :: s) ++ [46] ++ trim_property_name (i_object j) ++ [46]) with ((trim_property (c :: s) ++ 46 :: trim_property_name (i_object j)) ++ [46]) by (rewrite <- app_assoc; reflexivity).
    destruct (resolve db (trim_property (c :: s) ++ 46 :: trim_property_name (i_object j))) as [[q qt]|] eqn:Rq; [|apply unresolved_ends; exact Rq].
    apply (run_ends true f log2 _ q qt Rq). destruct (resolve_below _ i it _ q qt B Rq) as (Hi & Hq & _). pose proof (NE q Hq) as N. unfold f. destruct (i_object q); [congruence|]. cbn [length]. lia.
Qed.
End Ends.
