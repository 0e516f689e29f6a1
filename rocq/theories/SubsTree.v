(** Lemmas about the element trees of SubsModel. *)
From Coq Require Import Lia Permutation.
From Verif Require Import Common CommonFacts Value TokenModel SubsModel SubsSpec.
Local Open Scope list_scope.

Definition el_ind' (P : el -> Prop) (H : forall no i ks, Forall P ks -> P (El no i ks)) : forall t, P t :=
  fix F (t : el) : P t := match t with El no i ks => H no i ks ((fix G l : Forall P l := match l with [] => Forall_nil _ | c :: l => Forall_cons _ (F c) (G l) end) ks) end.
Definition shape_ind' (P : shape -> Prop) (H : forall i ks, Forall P ks -> P (Sh i ks)) : forall t, P t :=
  fix F (t : shape) : P t := match t with Sh i ks => H i ks ((fix G l : Forall P l := match l with [] => Forall_nil _ | c :: l => Forall_cons _ (F c) (G l) end) ks) end.

Definition find_in (n : nat) (up : path) := fix go (ks : list el) : option (path * el) :=
  match ks with [] => None | c :: ks => match find_el n up c with Some x => Some x | None => go ks end end.
Lemma find_el_eq n up no i ks : find_el n up (El no i ks) = if Nat.eqb no n then Some (up, El no i ks) else find_in n (i_node i :: up) ks.
Proof. reflexivity. Qed.
Lemma find_top_in n l : find_top n l = find_in n [] l.
Proof. induction l; cbn; [reflexivity|]. now rewrite IHl. Qed.

Lemma find_none : forall t n up, find_el n up t = None <-> ~ In n (nos t).
Proof.
  induction t as [no i ks IH] using el_ind'. intros n up. rewrite find_el_eq. cbn [nos].
  destruct (Nat.eqb_spec no n) as [->|N].
  - split; [discriminate|]. intros H. exfalso. apply H. now left.
  - assert (find_in n (i_node i :: up) ks = None <-> ~ In n (flat_map nos ks)) as E.
    { clear N. induction IH as [|c ks H _ IH]; cbn; [tauto|]. rewrite in_app_iff.
      destruct (find_el n (i_node i :: up) c) eqn:F.
      - split; [discriminate|]. intros K. exfalso. assert (~ In n (nos c)) as Z by tauto. apply (H n (i_node i :: up)) in Z. congruence.
      - apply H in F. rewrite IH. tauto. }
    rewrite E. cbn. tauto.
Qed.
Lemma find_in_none n up l : find_in n up l = None <-> ~ In n (flat_map nos l).
Proof.
  induction l as [|c l IH]; cbn; [tauto|]. rewrite in_app_iff. destruct (find_el n up c) eqn:F.
  - split; [discriminate|]. intros K. exfalso. assert (~ In n (nos c)) as Z by tauto. apply (find_none c n up) in Z. congruence.
  - apply find_none in F. rewrite IH. tauto.
Qed.
Lemma alive_in n s : alive n s = true <-> In n (flat_map nos (tops s)).
Proof.
  unfold alive. rewrite find_top_in. destruct (find_in n [] (tops s)) eqn:F; cbn.
  - split; [|reflexivity]. intros _. destruct (in_dec Nat.eq_dec n (flat_map nos (tops s))) as [I|I]; [exact I|].
    apply (find_in_none n []) in I. congruence.
  - apply find_in_none in F. split; [discriminate|]. intros K. contradiction.
Qed.

(** ** the walk *)
Lemma visited_eq up no i ks : visited up (El no i ks) =
  (if Z.eqb (ntype (i_node i)) 0 then [] else [(no, i_node i :: up)]) ++
  (if in_table up && is_template i then [] else flat_map (visited (i_node i :: up)) ks).
Proof. reflexivity. Qed.
Lemma visited_nos : forall t up x, In x (visited up t) -> In (fst x) (nos t).
Proof.
  induction t as [no i ks IH] using el_ind'. intros up x H. rewrite visited_eq in H. cbn [nos].
  apply in_app_or in H as [H|H].
  - destruct (Z.eqb (ntype (i_node i)) 0); [destruct H|]. destruct H as [<-|[]]. now left.
  - destruct (in_table up && is_template i); [destruct H|]. apply in_flat_map in H as (c & I & H). right.
    apply in_flat_map. exists c. split; [exact I|]. rewrite Forall_forall in IH. now apply (IH c I (i_node i :: up)).
Qed.
Lemma visited_all_nos l up x : In x (flat_map (visited up) l) -> In (fst x) (flat_map nos l).
Proof. intros H. apply in_flat_map in H as (c & I & H). apply in_flat_map. exists c. split; [exact I|]. now apply visited_nos in H. Qed.
Lemma nodup_flat_visited up l : Forall (fun t => forall up, NoDup (nos t) -> NoDup (map fst (visited up t))) l ->
  NoDup (flat_map nos l) -> NoDup (map fst (flat_map (visited up) l)).
Proof.
  induction 1 as [|c l H _ IH]; cbn; intros N; [constructor|]. rewrite map_app. apply nodup_app_intro.
  - apply H. now apply nodup_app_l in N.
  - apply IH. now apply nodup_app_r in N.
  - intros x A B. apply in_map_iff in A as (y & <- & A). apply in_map_iff in B as (z & E & B).
    apply visited_nos in A. apply visited_all_nos in B. rewrite E in B. now apply (nodup_app_disj _ _ (fst y) N).
Qed.
Lemma nodup_visited : forall t up, NoDup (nos t) -> NoDup (map fst (visited up t)).
Proof.
  induction t as [no i ks IH] using el_ind'. intros up N. rewrite visited_eq, map_app. cbn [nos] in N.
  apply NoDup_cons_iff in N as [N0 N].
  assert (NoDup (map fst (if in_table up && is_template i then [] else flat_map (visited (i_node i :: up)) ks))) as K.
  { destruct (in_table up && is_template i); [constructor|]. now apply nodup_flat_visited. }
  destruct (Z.eqb (ntype (i_node i)) 0); [exact K|]. cbn. constructor; [|exact K].
  intros H. apply N0. destruct (in_table up && is_template i); [destruct H|].
  apply in_map_iff in H as (x & <- & H). now apply visited_all_nos in H.
Qed.
Lemma nodup_visited_all l up : NoDup (flat_map nos l) -> NoDup (map fst (flat_map (visited up) l)).
Proof. intros N. apply nodup_flat_visited; [|exact N]. apply Forall_forall. intros t _ u. apply nodup_visited. Qed.

Lemma nodup_in_flat l t : In t l -> NoDup (flat_map nos l) -> NoDup (nos t).
Proof. intros I N. apply in_split in I as (a & b & ->). rewrite flat_map_app in N. cbn in N. apply nodup_app_r in N. now apply nodup_app_l in N. Qed.

(** ** a new row *)
Lemma add_kid_eq n c no i ks : add_kid n c (El no i ks) = El no i (if Nat.eqb no n then ks ++ [c] else map (add_kid n c) ks).
Proof. reflexivity. Qed.
Lemma add_kid_absent : forall t n c, ~ In n (nos t) -> add_kid n c t = t.
Proof.
  induction t as [no i ks IH] using el_ind'. intros n c H. rewrite add_kid_eq. cbn [nos] in H.
  destruct (Nat.eqb_spec no n) as [->|_]; [exfalso; apply H; now left|]. f_equal.
  rewrite <- (map_id ks) at 2. apply map_ext_in. intros k K. rewrite Forall_forall in IH. apply IH; [exact K|].
  intros Z. apply H. right. apply in_flat_map. eauto.
Qed.
Lemma add_all_absent l n c : ~ In n (flat_map nos l) -> map (add_kid n c) l = l.
Proof.
  intros H. rewrite <- (map_id l) at 2. apply map_ext_in. intros k K. apply add_kid_absent. intros Z. apply H.
  apply in_flat_map. eauto.
Qed.
Lemma add_kid_info n c t : el_info (add_kid n c t) = el_info t.
Proof. now destruct t. Qed.
Lemma in_flat_split l (n : nat) : In n (flat_map nos l) -> NoDup (flat_map nos l) ->
  exists a t b, l = a ++ t :: b /\ In n (nos t) /\ ~ In n (flat_map nos a) /\ ~ In n (flat_map nos b).
Proof.
  intros I N. apply in_flat_map in I as (t & I & H). apply in_split in I as (a & b & ->). exists a, t, b.
  rewrite flat_map_app in N. cbn [flat_map] in N. split; [reflexivity|]. split; [exact H|]. split.
  - intros K. apply (nodup_app_disj _ _ n N K). apply in_or_app. now left.
  - intros K. apply nodup_app_r in N. now apply (nodup_app_disj _ _ n N H).
Qed.
Lemma add_kid_nos_all n c l : Forall (fun t => In n (nos t) -> NoDup (nos t) -> Permutation (nos (add_kid n c t)) (nos t ++ nos c)) l ->
  In n (flat_map nos l) -> NoDup (flat_map nos l) -> Permutation (flat_map nos (map (add_kid n c) l)) (flat_map nos l ++ nos c).
Proof.
  intros F I N. pose proof (in_flat_split l n I N) as (a & t & b & -> & It & Na & Nb).
  apply Forall_app in F as [_ F]. apply Forall_cons_iff in F as [F _].
  rewrite map_app. cbn [map]. rewrite (add_all_absent a), (add_all_absent b) by assumption. rewrite !flat_map_app. cbn [flat_map].
  rewrite F; [|exact It|]. 2:{ apply (nodup_in_flat (a ++ t :: b)); [apply in_elt|exact N]. }
  rewrite <- !app_assoc. apply Permutation_app_head, Permutation_app_head, Permutation_app_comm.
Qed.
Lemma add_kid_nos : forall t n c, In n (nos t) -> NoDup (nos t) -> Permutation (nos (add_kid n c t)) (nos t ++ nos c).
Proof.
  induction t as [no i ks IH] using el_ind'. intros n c I N. rewrite add_kid_eq. cbn [nos app] in *. constructor.
  apply NoDup_cons_iff in N as [N0 N]. destruct (Nat.eqb_spec no n) as [->|E].
  - rewrite flat_map_app. cbn. now rewrite app_nil_r.
  - destruct I as [I|I]; [contradiction|]. apply add_kid_nos_all; [|exact I|exact N].
    eapply Forall_impl; [|exact IH]. intros t H. apply H.
Qed.
Lemma add_kid_visited_all n c l up p : Forall (fun t => forall up, In (n, p) (visited up t) -> NoDup (nos t) -> Permutation (visited up (add_kid n c t)) (visited up t ++ visited p c)) l ->
  In (n, p) (flat_map (visited up) l) -> NoDup (flat_map nos l) ->
  Permutation (flat_map (visited up) (map (add_kid n c) l)) (flat_map (visited up) l ++ visited p c).
Proof.
  intros F I N. assert (In n (flat_map nos l)) as In' by now apply visited_all_nos in I.
  pose proof (in_flat_split l n In' N) as (a & t & b & -> & It & Na & Nb).
  apply Forall_app in F as [_ F]. apply Forall_cons_iff in F as [F _].
  rewrite map_app. cbn [map]. rewrite (add_all_absent a), (add_all_absent b) by assumption. rewrite !flat_map_app. cbn [flat_map].
  rewrite F.
  - rewrite <- !app_assoc. apply Permutation_app_head, Permutation_app_head, Permutation_app_comm.
  - rewrite flat_map_app in I. cbn in I. apply in_app_or in I as [I|I]; [apply visited_all_nos in I; contradiction|].
    apply in_app_or in I as [I|I]; [exact I|]. apply visited_all_nos in I. contradiction.
  - apply (nodup_in_flat (a ++ t :: b)); [apply in_elt|exact N].
Qed.
Lemma add_kid_visited : forall t n c p up, In (n, p) (visited up t) -> NoDup (nos t) ->
  match p with q :: _ => bytes_eqb (nname q) TEMPLATE = false | [] => False end ->
  Permutation (visited up (add_kid n c t)) (visited up t ++ visited p c).
Proof.
  induction t as [no i ks IH] using el_ind'. intros n c p up I N T. rewrite add_kid_eq, !visited_eq. rewrite visited_eq in I.
  cbn [nos] in N. apply NoDup_cons_iff in N as [N0 N]. rewrite <- app_assoc. apply Permutation_app_head.
  destruct (Nat.eqb_spec no n) as [->|E].
  - assert (p = i_node i :: up) as ->.
    { apply in_app_or in I as [I|I].
      - destruct (Z.eqb (ntype (i_node i)) 0); [destruct I|]. destruct I as [I|[]]. congruence.
      - exfalso. apply N0. destruct (in_table up && is_template i); [destruct I|]. now apply visited_all_nos in I. }
    unfold is_template. rewrite T, andb_false_r. rewrite flat_map_app. cbn. now rewrite app_nil_r.
  - apply in_app_or in I as [I|I].
    { destruct (Z.eqb (ntype (i_node i)) 0); [destruct I|]. destruct I as [I|[]]. injection I as ? _. contradiction. }
    destruct (in_table up && is_template i); [destruct I|]. apply add_kid_visited_all; [|exact I|exact N].
    eapply Forall_impl; [|exact IH]. cbn. intros t H u A B. now apply H.
Qed.
Lemma add_row_nos n c l : In n (flat_map nos l) -> NoDup (flat_map nos l) -> Permutation (flat_map nos (map (add_kid n c) l)) (flat_map nos l ++ nos c).
Proof. intros. apply add_kid_nos_all; try assumption. apply Forall_forall. intros t _. apply add_kid_nos. Qed.
Lemma add_row_visited n c l p up : In (n, p) (flat_map (visited up) l) -> NoDup (flat_map nos l) ->
  match p with q :: _ => bytes_eqb (nname q) TEMPLATE = false | [] => False end ->
  Permutation (flat_map (visited up) (map (add_kid n c) l)) (flat_map (visited up) l ++ visited p c).
Proof. intros. apply add_kid_visited_all; try assumption. apply Forall_forall. intros t _ u A B. now apply add_kid_visited. Qed.

(** the path of a visited element is the path at which it is found *)
Lemma found_path_all l n up p : Forall (fun t => forall up, In (n, p) (visited up t) -> NoDup (nos t) -> exists u e, find_el n up t = Some (u, e) /\ p = el_node e :: u) l ->
  In (n, p) (flat_map (visited up) l) -> NoDup (flat_map nos l) -> exists u e, find_in n up l = Some (u, e) /\ p = el_node e :: u.
Proof.
  intros F I N. induction F as [|c l H F IH]; cbn in *; [destruct I|].
  apply in_app_or in I as [I|I].
  - destruct (H up I) as (u & e & E & P); [now apply nodup_app_l in N|]. rewrite E. eauto.
  - destruct (find_el n up c) eqn:E.
    + exfalso. assert (In n (nos c)) as K. { destruct (in_dec Nat.eq_dec n (nos c)) as [K|K]; [exact K|]. apply (find_none c n up) in K. congruence. }
      apply visited_all_nos in I. now apply (nodup_app_disj _ _ n N K).
    + apply IH; [exact I|now apply nodup_app_r in N].
Qed.
Lemma found_path : forall t n p up, In (n, p) (visited up t) -> NoDup (nos t) -> exists u e, find_el n up t = Some (u, e) /\ p = el_node e :: u.
Proof.
  induction t as [no i ks IH] using el_ind'. intros n p up I N. rewrite find_el_eq. rewrite visited_eq in I. cbn [nos] in N.
  apply NoDup_cons_iff in N as [N0 N]. apply in_app_or in I as [I|I].
  - destruct (Z.eqb (ntype (i_node i)) 0); [destruct I|]. destruct I as [I|[]]. injection I as <- <-. rewrite Nat.eqb_refl. eexists _, _. split; reflexivity.
  - destruct (in_table up && is_template i); [destruct I|]. destruct (Nat.eqb_spec no n) as [->|E].
    + exfalso. apply N0. now apply visited_all_nos in I.
    + apply found_path_all; [|exact I|exact N]. eapply Forall_impl; [|exact IH]. intros t H u. apply H.
Qed.
Lemma found_path_top l n p : In (n, p) (flat_map (visited []) l) -> NoDup (flat_map nos l) -> exists u e, find_top n l = Some (u, e) /\ p = el_node e :: u.
Proof. intros. rewrite find_top_in. apply found_path_all; try assumption. apply Forall_forall. intros t _ u. apply found_path. Qed.

(** ** a deleted row *)
Lemma drop_el_eq r no i ks : drop_el r (El no i ks) = El no i (flat_map (fun c => if Nat.eqb (el_no c) r then [] else [drop_el r c]) ks).
Proof. reflexivity. Qed.
Definition drop_all (r : nat) (l : list el) := flat_map (fun c => if Nat.eqb (el_no c) r then [] else [drop_el r c]) l.
Lemma drop_all_absent l r : ~ In r (flat_map nos l) -> Forall (fun t => ~ In r (nos t) -> drop_el r t = t) l -> drop_all r l = l.
Proof.
  intros H F. induction F as [|c l K _ IH]; cbn in *; [reflexivity|]. rewrite in_app_iff in H.
  destruct (Nat.eqb_spec (el_no c) r) as [<-|E].
  - exfalso. apply H. left. destruct c. now left.
  - cbn. rewrite K by tauto. f_equal. apply IH. tauto.
Qed.
Lemma drop_el_absent : forall t r, ~ In r (nos t) -> drop_el r t = t.
Proof.
  induction t as [no i ks IH] using el_ind'. intros r H. rewrite drop_el_eq. f_equal. apply drop_all_absent.
  - intros K. apply H. now right.
  - eapply Forall_impl; [|exact IH]. intros t K. apply K.
Qed.
Definition mem (n : nat) (l : list nat) : bool := existsb (Nat.eqb n) l.
Lemma mem_in n l : mem n l = true <-> In n l.
Proof. unfold mem. rewrite existsb_exists. split; [intros (x & I & E); apply Nat.eqb_eq in E; now subst|]. intros I. exists n. split; [exact I|apply Nat.eqb_refl]. Qed.
Lemma mem_nin n l : mem n l = false <-> ~ In n l.
Proof. rewrite <- mem_in. destruct (mem n l); split; congruence. Qed.
Lemma find_in_split : forall l r up u rt, find_in r up l = Some (u, rt) -> exists a t b, l = a ++ t :: b /\ find_el r up t = Some (u, rt) /\ ~ In r (flat_map nos a).
Proof.
  induction l as [|c l IH]; cbn; intros r up u rt H; [discriminate|]. destruct (find_el r up c) as [x|] eqn:E.
  - injection H as ->. exists [], c, l. cbn. auto.
  - destruct (IH r up u rt H) as (a & t & b & -> & F & N). exists (c :: a), t, b. split; [reflexivity|]. split; [exact F|].
    cbn. rewrite in_app_iff. intros [K|K]; [|contradiction]. apply find_none in E. contradiction.
Qed.
Lemma found_in_nos : forall t r up u rt, find_el r up t = Some (u, rt) -> In r (nos t) /\ el_no rt = r /\ (forall n, In n (nos rt) -> In n (nos t)).
Proof.
  induction t as [no i ks IH] using el_ind'. intros r up u rt H. rewrite find_el_eq in H.
  destruct (Nat.eqb_spec no r) as [->|E].
  - injection H as <- <-. split; [now left|]. split; [reflexivity|]. auto.
  - apply find_in_split in H as (a & t & b & -> & F & N). apply Forall_app in IH as [_ IH]. apply Forall_cons_iff in IH as [IH _].
    destruct (IH _ _ _ _ F) as (A & B & C). cbn [nos]. rewrite flat_map_app. cbn [flat_map]. split; [|split; [exact B|]].
    + right. apply in_or_app. right. apply in_or_app. now left.
    + intros n K. right. apply in_or_app. right. apply in_or_app. left. auto.
Qed.
Lemma filter_all {A} (f : A -> bool) l : (forall x, In x l -> f x = true) -> List.filter f l = l.
Proof. induction l as [|x l IH]; cbn; intros H; [reflexivity|]. rewrite H by now left. f_equal. apply IH. intros y K. apply H. now right. Qed.
Lemma filter_nil {A} (f : A -> bool) l : (forall x, In x l -> f x = false) -> List.filter f l = [].
Proof. induction l as [|x l IH]; cbn; intros H; [reflexivity|]. rewrite H by now left. apply IH. intros y K. apply H. now right. Qed.

Definition drop_ok (r : nat) (t : el) := forall up u rt, NoDup (nos t) -> find_el r up t = Some (u, rt) -> el_no t <> r ->
  nos (drop_el r t) = List.filter (fun n => negb (mem n (nos rt))) (nos t) /\
  visited up (drop_el r t) = List.filter (fun x => negb (mem (fst x) (nos rt))) (visited up t) /\
  (forall x, In x (visited up t) -> In (fst x) (nos rt) -> In x (visited u rt)).
Lemma drop_all_ok r l : Forall (drop_ok r) l -> forall up u rt, NoDup (flat_map nos l) -> find_in r up l = Some (u, rt) ->
  flat_map nos (drop_all r l) = List.filter (fun n => negb (mem n (nos rt))) (flat_map nos l) /\
  flat_map (visited up) (drop_all r l) = List.filter (fun x => negb (mem (fst x) (nos rt))) (flat_map (visited up) l) /\
  (forall x, In x (flat_map (visited up) l) -> In (fst x) (nos rt) -> In x (visited u rt)).
Proof.
  intros F up u rt N H. pose proof (find_in_split _ _ _ _ _ H) as (a & t & b & -> & Ft & Na).
  destruct (found_in_nos _ _ _ _ _ Ft) as (It & Er & Sub).
  assert (Nb : ~ In r (flat_map nos b)).
  { intros K. rewrite flat_map_app in N. apply nodup_app_r in N. cbn in N. now apply (nodup_app_disj _ _ r N). }
  apply Forall_app in F as [_ F]. apply Forall_cons_iff in F as [F _].
  assert (NoDup (nos t)) as Nt by (apply (nodup_in_flat (a ++ t :: b)); [apply in_elt|exact N]).
  assert (forall l, ~ In r (flat_map nos l) -> drop_all r l = l) as AB.
  { intros l K. apply drop_all_absent; [exact K|]. apply Forall_forall. intros q _. apply drop_el_absent. }
  assert (forall n, In n (nos rt) -> ~ In n (flat_map nos a) /\ ~ In n (flat_map nos b)) as D.
  { intros n K. apply Sub in K. rewrite flat_map_app in N. cbn in N. split; intros Z.
    - apply (nodup_app_disj _ _ n N Z). apply in_or_app. now left.
    - apply nodup_app_r in N. now apply (nodup_app_disj _ _ n N). }
  assert (forall l, (forall n, In n (nos rt) -> ~ In n (flat_map nos l)) -> List.filter (fun n => negb (mem n (nos rt))) (flat_map nos l) = flat_map nos l /\
            List.filter (fun x => negb (mem (fst x) (nos rt))) (flat_map (visited up) l) = flat_map (visited up) l) as FA.
  { intros l K. split; apply filter_all; intros x I; apply negb_true_iff, mem_nin; intros Z; apply (K _ Z); [exact I|now apply visited_all_nos in I]. }
  destruct (FA a) as [Fa1 Fa2]; [intros n K; now destruct (D n K)|]. destruct (FA b) as [Fb1 Fb2]; [intros n K; now destruct (D n K)|].
  assert (E : drop_all r (a ++ t :: b) = a ++ (if Nat.eqb (el_no t) r then [] else [drop_el r t]) ++ b).
  { unfold drop_all. rewrite flat_map_app. cbn [flat_map]. fold (drop_all r a) (drop_all r b). now rewrite !AB. }
  rewrite E, !flat_map_app. cbn [flat_map]. rewrite !filter_app, Fa1, Fa2, Fb1, Fb2.
  assert (G : flat_map nos (if Nat.eqb (el_no t) r then [] else [drop_el r t]) = List.filter (fun n => negb (mem n (nos rt))) (nos t) /\
    flat_map (visited up) (if Nat.eqb (el_no t) r then [] else [drop_el r t]) = List.filter (fun x => negb (mem (fst x) (nos rt))) (visited up t) /\
    (forall x, In x (visited up t) -> In (fst x) (nos rt) -> In x (visited u rt))).
  { destruct (Nat.eqb_spec (el_no t) r) as [Q|Q].
    - destruct t as [no i ks]. cbn in Q. subst no. rewrite find_el_eq, Nat.eqb_refl in Ft. injection Ft as <- <-. split; [|split].
      + symmetry. apply filter_nil. intros x I. apply negb_false_iff, mem_in. exact I.
      + symmetry. apply filter_nil. intros x I. apply negb_false_iff, mem_in. now apply visited_nos in I.
      + auto.
    - cbn [flat_map]. rewrite !app_nil_r. now apply F. }
  destruct G as (G1 & G2 & G3). rewrite G1, G2. split; [reflexivity|]. split; [reflexivity|].
  intros x I K. apply in_app_or in I as [I|I].
  - exfalso. apply visited_all_nos in I. destruct (D _ K). contradiction.
  - apply in_app_or in I as [I|I]; [now apply G3|]. exfalso. apply visited_all_nos in I. destruct (D _ K). contradiction.
Qed.
Lemma drop_el_ok : forall t r, drop_ok r t.
Proof.
  induction t as [no i ks IH] using el_ind'. intros r up u rt N H E. cbn in E. rewrite find_el_eq in H.
  destruct (Nat.eqb_spec no r) as [->|_]; [contradiction|]. cbn [nos] in N. apply NoDup_cons_iff in N as [N0 N].
  assert (Forall (drop_ok r) ks) as F by (eapply Forall_impl; [|exact IH]; intros t K; apply K).
  destruct (drop_all_ok r ks F _ _ _ N H) as (A & B & C). rewrite drop_el_eq. fold (drop_all r ks).
  assert (~ In no (nos rt)) as X.
  { intros K. apply N0. apply find_in_split in H as (a & t & b & -> & Ft & _). apply found_in_nos in Ft as (_ & _ & S).
    rewrite flat_map_app. apply in_or_app. right. cbn. apply in_or_app. left. now apply S. }
  rewrite !visited_eq. cbn [nos]. split; [|split].
  - cbn [List.filter]. apply mem_nin in X. rewrite X. cbn. now f_equal.
  - rewrite filter_app. f_equal.
    + destruct (Z.eqb (ntype (i_node i)) 0); [reflexivity|]. cbn [List.filter fst]. apply mem_nin in X. now rewrite X.
    + destruct (in_table up && is_template i); [reflexivity|exact B].
  - intros x I K. apply in_app_or in I as [I|I].
    + destruct (Z.eqb (ntype (i_node i)) 0); [destruct I|]. destruct I as [<-|[]]. contradiction.
    + destruct (in_table up && is_template i); [destruct I|]. now apply C.
Qed.
Lemma drop_top_ok r l u rt : NoDup (flat_map nos l) -> find_top r l = Some (u, rt) ->
  flat_map nos (drop_all r l) = List.filter (fun n => negb (mem n (nos rt))) (flat_map nos l) /\
  flat_map (visited []) (drop_all r l) = List.filter (fun x => negb (mem (fst x) (nos rt))) (flat_map (visited []) l) /\
  (forall x, In x (flat_map (visited []) l) -> In (fst x) (nos rt) -> In x (visited u rt)).
Proof. intros N H. rewrite find_top_in in H. apply drop_all_ok; [|exact N|exact H]. apply Forall_forall. intros t _. apply drop_el_ok. Qed.

(** ** numbering *)
Definition number_kids := fix go (n : nat) (ks : list shape) : list el * nat :=
  match ks with [] => ([], n) | c :: ks => let '(e, n) := number n c in let '(l, n) := go n ks in (e :: l, n) end.
Lemma number_eq n i ks : number n (Sh i ks) = let '(l, m) := number_kids (S n) ks in (El n i l, m).
Proof. reflexivity. Qed.
Lemma number_all_eq l : forall n, number_all n l = number_kids n l.
Proof. reflexivity. Qed.
Definition range_ok (n m : nat) (l : list nat) := (n <= m)%nat /\ NoDup l /\ forall x, In x l -> (n <= x < m)%nat.
Lemma number_kids_ok ks : Forall (fun s => forall n e m, number n s = (e, m) -> range_ok n m (nos e)) ks ->
  forall n l m, number_kids n ks = (l, m) -> range_ok n m (flat_map nos l).
Proof.
  induction 1 as [|c ks H _ IH]; cbn; intros n l m E.
  - injection E as <- <-. split; [lia|]. split; [constructor|]. intros x [].
  - destruct (number n c) as [e n1] eqn:E1. destruct (number_kids n1 ks) as [l' n2] eqn:E2. injection E as <- <-.
    destruct (H _ _ _ E1) as (A1 & A2 & A3). destruct (IH _ _ _ E2) as (B1 & B2 & B3). cbn. split; [lia|]. split.
    + apply nodup_app_intro; auto. intros x P Q. apply A3 in P. apply B3 in Q. lia.
    + intros x P. apply in_app_or in P as [P|P]; [apply A3 in P|apply B3 in P]; lia.
Qed.
Lemma number_ok : forall s n e m, number n s = (e, m) -> range_ok n m (nos e).
Proof.
  induction s as [i ks IH] using shape_ind'. intros n e m E. rewrite number_eq in E. destruct (number_kids (S n) ks) as [l m'] eqn:K.
  injection E as <- <-. destruct (number_kids_ok _ IH _ _ _ K) as (A & B & C). cbn [nos]. split; [lia|]. split.
  - constructor; [|exact B]. intros Q. apply C in Q. lia.
  - intros x [<-|Q]; [lia|]. apply C in Q. lia.
Qed.
Lemma number_all_ok l n es m : number_all n l = (es, m) -> range_ok n m (flat_map nos es).
Proof. rewrite number_all_eq. apply number_kids_ok. apply Forall_forall. intros s _. apply number_ok. Qed.

(** the elements of a sound row: the two walks agree *)
Lemma number_info s n e m : number n s = (e, m) -> el_info e = sh_info s.
Proof. destruct s as [i ks]. rewrite number_eq. destruct (number_kids (S n) ks). intros H. injection H as <- _. reflexivity. Qed.
Lemma kids_agree ks : Forall (fun s => forall n e m up, number n s = (e, m) -> flat s = true -> in_table up = false -> created up e = visited up e) ks ->
  forallb flat ks = true -> forall n l m up, number_kids n ks = (l, m) -> in_table up = false -> flat_map (created up) l = flat_map (visited up) l.
Proof.
  induction 1 as [|c ks H _ IH]; cbn; intros F n l m up E T.
  - injection E as <- _. reflexivity.
  - apply andb_true_iff in F as [F1 F2]. destruct (number n c) as [e n1] eqn:E1. destruct (number_kids n1 ks) as [l' n2] eqn:E2. injection E as <- _. cbn.
    rewrite (H _ _ _ _ E1 F1 T), (IH F2 _ _ _ _ E2 T). reflexivity.
Qed.
Lemma walks_agree : forall s n e m up, number n s = (e, m) -> flat s = true -> in_table up = false -> created up e = visited up e.
Proof.
  induction s as [i ks IH] using shape_ind'. intros n e m up E F T. rewrite number_eq in E. destruct (number_kids (S n) ks) as [l m'] eqn:K.
  injection E as <- <-. rewrite visited_eq, T. cbn [andb created flat] in *. unfold untyped in F. destruct (Z.eqb (ntype (i_node i)) 0) eqn:Z0.
  - cbn [app]. eapply kids_agree; [exact IH|exact F|exact K|]. unfold in_table. apply Z.eqb_eq in Z0. rewrite Z0. reflexivity.
  - cbn [app]. f_equal. symmetry. clear IH.
    assert (forall n l m', forallb (fun k => (ntype (i_node i) =? TABLE)%Z && is_template (sh_info k) && untyped (sh_info k)) ks = true -> number_kids n ks = (l, m') -> flat_map (visited (i_node i :: up)) l = []) as G.
    { clear. induction ks as [|k ks IH]; cbn [forallb number_kids]; intros n l m' F K; [injection K as <- _; reflexivity|].
      apply andb_true_iff in F as [F1 F2]. apply andb_true_iff in F1 as [F1 U]. apply andb_true_iff in F1 as [F0 P].
      destruct (number n k) as [e n1] eqn:E1. destruct (number_kids n1 ks) as [l' n2] eqn:E2. injection K as <- _. cbn [flat_map].
      rewrite (IH _ _ _ F2 E2), app_nil_r. pose proof (number_info _ _ _ _ E1) as I. destruct e as [no j kk]. cbn in I. subst j.
      rewrite visited_eq. unfold untyped in U. rewrite U, P. cbn [in_table]. rewrite F0. reflexivity. }
    eapply G; eassumption.
Qed.
Lemma row_walks_agree s n e m up : number n s = (e, m) -> sound_row s = true ->
  flat_map (created (el_node e :: up)) (el_kids e) = visited up e /\ flat_map (visited (el_node e :: up)) (el_kids e) = visited up e.
Proof.
  destruct s as [i ks]. intros E F. rewrite number_eq in E. destruct (number_kids (S n) ks) as [l m'] eqn:K. injection E as <- <-.
  cbn [sound_row] in F. apply andb_true_iff in F as [F FK]. apply andb_true_iff in F as [U T]. unfold untyped in U. apply negb_true_iff in T.
  cbn [el_kids el_node el_info]. rewrite visited_eq, U, T, andb_false_r. cbn [app]. split; [|reflexivity].
  eapply kids_agree; [|exact FK|exact K|].
  - apply Forall_forall. intros s _. intros. eapply walks_agree; eassumption.
  - unfold in_table, el_node. cbn. apply Z.eqb_eq in U. rewrite U. reflexivity.
Qed.
