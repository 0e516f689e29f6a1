From Coq Require Import Permutation.
From Verif Require Import Common CommonFacts Bytes BytesFacts VectorSpec HashMapModel HashMapSpec.

Section P.
Variable hasher : nat -> key -> nat.
Hypothesis hasher_lt : forall n k, 0 < n -> hasher n k < n.

Definition placed (bs : list (list node)) : Prop :=
  forall i b x, nth_error bs i = Some b -> In x b -> hasher (length bs) (fst x) = i.

Definition knodup (l : list node) : Prop := NoDup (map fst l).

(** Concrete and abstract states agree. *)
Definition hrel (m : hmap) (a : amap) : Prop :=
  0 < length (h_buckets m) /\ placed (h_buckets m) /\ knodup (concat (h_buckets m)) /\
  h_size m = length (concat (h_buckets m)) /\
  (forall k v, In (k, v) (concat (h_buckets m)) <-> lookup a k = Some v) /\
  Permutation (keys a) (map fst (concat (h_buckets m))).

Lemma node_is_iff k n : node_is k n = true <-> fst n = k.
Proof. unfold node_is. apply bytes_eqb_eq. Qed.

Lemma getBucket_ok bs k : 0 < length bs ->
  exists b, getBucket hasher bs k = Some (hasher (length bs) k, b) /\ nth_error bs (hasher (length bs) k) = Some b.
Proof.
  intros H. unfold getBucket. destruct (nth_error bs (hasher (length bs) k)) as [b|] eqn:E.
  - eauto.
  - apply nth_error_None in E. pose proof (hasher_lt (length bs) k H). lia.
Qed.

Lemma concat_split {A} (bs : list (list A)) i b : nth_error bs i = Some b ->
  exists p s, bs = p ++ b :: s /\ length p = i.
Proof. apply nth_error_split. Qed.

Lemma upd_mid {A} (p : list A) x s y : upd (p ++ x :: s) (length p) y = p ++ y :: s.
Proof. induction p as [|z p IH]; simpl; [reflexivity|]. rewrite IH. reflexivity. Qed.

Lemma concat_mid {A} (p : list (list A)) b s : concat (p ++ b :: s) = concat p ++ b ++ concat s.
Proof. rewrite concat_app. reflexivity. Qed.

(** Every node with key [k] lives in [k]'s bucket. *)
Lemma placed_bucket bs k b : placed bs -> nth_error bs (hasher (length bs) k) = Some b ->
  forall n, In n (concat bs) -> fst n = k -> In n b.
Proof.
  intros P Hb n Hn Hk. apply in_concat in Hn as (b' & Hb' & Hn).
  apply In_nth_error in Hb' as [i Hi]. pose proof (P i b' n Hi Hn) as E. rewrite Hk in E. subst i. congruence.
Qed.

Lemma placed_upd bs i b b' : placed bs -> nth_error bs i = Some b ->
  (forall x, In x b' -> In x b \/ hasher (length bs) (fst x) = i) -> placed (upd bs i b').
Proof.
  intros P Hb H j c x Hj Hx. rewrite upd_length.
  destruct (Nat.eq_dec i j) as [->|N].
  - rewrite upd_nth_eq in Hj by (apply nth_error_Some; congruence). injection Hj as <-.
    destruct (H x Hx) as [Hin|E]; auto. eapply P; eauto.
  - rewrite upd_nth_neq in Hj by auto. eapply P; eauto.
Qed.

Lemma pushNode_ok bs n : 0 < length bs -> placed bs ->
  exists bs', pushNode hasher bs n = Ok bs' /\ length bs' = length bs /\ placed bs' /\
    Permutation (concat bs') (n :: concat bs).
Proof.
  intros L P. destruct (getBucket_ok bs (fst n) L) as (b & E & Hb).
  unfold pushNode. rewrite E. eexists; split; [reflexivity|]. split; [apply upd_length|]. split.
  - eapply placed_upd; eauto. intros x Hx. apply in_app_iff in Hx as [Hx|[<-|[]]]; auto.
  - destruct (concat_split _ _ _ Hb) as (p & s & Ebs & Lp). rewrite <- Lp, Ebs, upd_mid.
    rewrite !concat_mid. rewrite <- app_assoc. cbn [app].
    rewrite app_assoc. symmetry. rewrite (app_assoc _ b). apply Permutation_middle.
Qed.

Lemma pushAll_ok ns : forall bs, 0 < length bs -> placed bs ->
  exists bs', pushAll hasher bs ns = Ok bs' /\ length bs' = length bs /\ placed bs' /\
    Permutation (concat bs') (ns ++ concat bs).
Proof.
  induction ns as [|n ns IH]; intros bs L P; [exists bs; auto|].
  cbn [pushAll]. destruct (pushNode_ok bs n L P) as (bs1 & -> & L1 & P1 & Q1). cbn [obind].
  destruct (IH bs1) as (bs2 & E2 & L2 & P2 & Q2); [lia|auto|].
  exists bs2. split; auto. split; [lia|]. split; auto.
  rewrite Q2, Q1. cbn [app]. symmetry. apply Permutation_middle.
Qed.

Lemma concat_repeat_nil {A : Type} (n : nat) : concat (repeat (@nil A) n) = [].
Proof. induction n; simpl; auto. Qed.

Lemma placed_empty n : placed (repeat [] n).
Proof.
  intros i b x Hi Hx. apply nth_error_In in Hi. apply repeat_spec in Hi. subst b. destruct Hx.
Qed.

Lemma resize_ok bs (g : bool) : (if g then 0 < length bs else 1 < length bs) -> placed bs ->
  exists bs', resize hasher bs g = Ok bs' /\ 0 < length bs' /\ placed bs' /\ Permutation (concat bs') (concat bs).
Proof.
  intros L P. unfold resize.
  set (n := if g then length bs * 2 else length bs / 2).
  assert (Hn : 0 < n).
  { unfold n. destruct g; [lia|]. apply Nat.div_str_pos. lia. }
  destruct (pushAll_ok (concat bs) (repeat [] n)) as (bs' & E & L' & P' & Q').
  - rewrite repeat_length. auto.
  - apply placed_empty.
  - exists bs'. rewrite repeat_length in L'. split; [auto|]. split; [lia|]. split; auto.
    rewrite concat_repeat_nil, app_nil_r in Q'. auto.
Qed.

Lemma knodup_perm l l' : Permutation l l' -> knodup l -> knodup l'.
Proof. intros P. unfold knodup. apply Permutation_NoDup. apply Permutation_map. auto. Qed.

Lemma knodup_inj l k v v' : knodup l -> In (k, v) l -> In (k, v') l -> v = v'.
Proof.
  unfold knodup. induction l as [|[k0 v0] l IH]; cbn [map]; intros N H1 H2; [destruct H1|].
  inversion N as [|? ? Hni N']; subst. destruct H1 as [H1|H1], H2 as [H2|H2].
  - congruence.
  - injection H1 as -> ->. exfalso. apply Hni. change k with (fst (k, v')). apply in_map. auto.
  - injection H2 as -> ->. exfalso. apply Hni. change k with (fst (k, v)). apply in_map. auto.
  - auto.
Qed.

Lemma find_node_iff bs k b : placed bs -> nth_error bs (hasher (length bs) k) = Some b -> knodup (concat bs) ->
  forall v, find (node_is k) b = Some (k, v) <-> In (k, v) (concat bs).
Proof.
  intros P Hb N v. split; intros H.
  - apply find_some in H as [H _]. apply in_concat. exists b. split; auto. eapply nth_error_In; eauto.
  - destruct (find (node_is k) b) as [[k' v']|] eqn:E.
    + apply find_some in E as [E1 E2]. apply node_is_iff in E2. cbn [fst] in E2. subst k'.
      assert (In (k, v') (concat bs)) by (apply in_concat; exists b; split; auto; eapply nth_error_In; eauto).
      rewrite (knodup_inj _ _ _ _ N H0 H). reflexivity.
    + pose proof (placed_bucket bs k b P Hb _ H eq_refl) as Hin.
      pose proof (find_none _ _ E _ Hin) as F. unfold node_is in F. cbn [fst] in F.
      rewrite bytes_eqb_refl in F. discriminate.
Qed.

Lemma getNode_ok m a k : hrel m a ->
  getNode hasher m k = match lookup a k with Some v => Some (k, v) | None => None end.
Proof.
  intros (L & P & N & S & A & K). unfold getNode.
  destruct (getBucket_ok (h_buckets m) k L) as (b & -> & Hb).
  pose proof (find_node_iff _ k b P Hb N) as F.
  destruct (lookup a k) as [v|] eqn:E.
  - apply F. apply A. auto.
  - destruct (find (node_is k) b) as [[k' v']|] eqn:E'; auto.
    pose proof E' as E''. apply find_some in E'' as [_ E2]. apply node_is_iff in E2. cbn [fst] in E2. subst k'.
    assert (H : In (k, v') (concat (h_buckets m))) by (apply F; reflexivity). apply A in H. congruence.
Qed.

Lemma overwrite_keys b k v : map fst (overwrite b k v) = map fst b.
Proof.
  induction b as [|[k' v'] b IH]; cbn [overwrite map]; auto.
  destruct (node_is k (k', v')) eqn:E; cbn [map fst].
  - apply node_is_iff in E. cbn [fst] in E. congruence.
  - rewrite IH. reflexivity.
Qed.

Lemma overwrite_in b k v : NoDup (map fst b) -> In k (map fst b) ->
  forall k' v', In (k', v') (overwrite b k v) <-> (k' = k /\ v' = v) \/ (k' <> k /\ In (k', v') b).
Proof.
  induction b as [|[k0 v0] b IH]; cbn [map overwrite]; intros N Hk k' v'; [destruct Hk|].
  inversion N as [|? ? Hni N']; subst.
  destruct (node_is k (k0, v0)) eqn:E.
  - apply node_is_iff in E. cbn [fst] in E. subst k0. cbn [In]. split.
    + intros [H|H]; [injection H as -> ->; auto|]. right. split; auto. intros ->.
      apply Hni. change k with (fst (k, v')). apply in_map; auto.
    + intros [[-> ->]|[H1 [H2|H2]]]; auto. injection H2 as <- <-. congruence.
  - destruct Hk as [Hk|Hk].
    { cbn [fst] in Hk. subst k0. unfold node_is in E. cbn [fst] in E. rewrite bytes_eqb_refl in E. discriminate. }
    cbn [In]. rewrite (IH N' Hk). split.
    + intros [H|[H|H]]; auto; [|tauto]. injection H as -> ->. right. split; auto.
      intros ->. unfold node_is in E. cbn [fst] in E. rewrite bytes_eqb_refl in E. discriminate.
    + tauto.
Qed.

Lemma NoDup_app_remove_l {A} (p b : list A) : NoDup (p ++ b) -> NoDup b.
Proof. induction p as [|x p IH]; cbn [app]; intros H; auto. inversion H; auto. Qed.
Lemma NoDup_app_remove_r {A} (p b : list A) : NoDup (p ++ b) -> NoDup p.
Proof.
  induction p as [|x p IH]; cbn [app]; intros H; [constructor|]. inversion H; subst.
  constructor; auto. rewrite in_app_iff in *. tauto.
Qed.
Lemma nodup_disj {A} (l l' : list A) x : NoDup (l ++ l') -> In x l -> In x l' -> False.
Proof.
  induction l as [|y l IH]; cbn [app In]; intros N H H'; [auto|].
  inversion N as [|? ? Hni N']; subst. destruct H as [H|H]; [|auto].
  subst y. apply Hni. apply in_app_iff; auto.
Qed.
Lemma NoDup_app_mid {A} (p b s : list A) : NoDup (p ++ b ++ s) -> NoDup b.
Proof. intros H. apply NoDup_app_remove_l in H. apply NoDup_app_remove_r in H. auto. Qed.

Lemma perm_in_iff {A} (l l' : list A) : Permutation l l' -> forall x, In x l <-> In x l'.
Proof. intros P x. split; apply Permutation_in; [|symmetry]; auto. Qed.

Lemma filter_id {A} (f : A -> bool) l : (forall x, In x l -> f x = true) -> filter f l = l.
Proof.
  induction l as [|x l IH]; cbn [filter]; intros H; auto. rewrite H by (left; auto).
  rewrite IH; auto. intros y Hy. apply H. right; auto.
Qed.

Lemma is_some_iff {A} (o : option A) : is_some o = true <-> exists x, o = Some x.
Proof. destruct o; simpl; split; intros H; eauto; try discriminate. destruct H as [x H]; discriminate. Qed.

Lemma set_ok m a k v : hrel m a -> exists m', rtHashMap_Set hasher m k v = Ok m' /\ hrel m' (aset a k v).
Proof.
  intros R. pose proof (getNode_ok m a k R) as G. destruct R as (L & P & N & S & A & K).
  unfold rtHashMap_Set, getNode in *.
  destruct (getBucket_ok (h_buckets m) k L) as (b & E & Hb). rewrite E in *. rewrite G.
  destruct (lookup a k) as [v0|] eqn:Ek.
  - eexists; split; [reflexivity|].
    destruct (concat_split _ _ _ Hb) as (p & s & Ebs & Lp).
    assert (Kb : In k (map fst b)).
    { apply find_some in G as [G _]. change k with (fst (k, v0)). apply in_map; auto. }
    assert (Nb : NoDup (map fst b)).
    { unfold knodup in N. rewrite Ebs, concat_mid, !map_app in N. eapply NoDup_app_mid; eauto. }
    assert (M : map fst (concat (upd (h_buckets m) (hasher (length (h_buckets m)) k) (overwrite b k v))) =
                map fst (concat (h_buckets m))).
    { rewrite <- Lp, Ebs, upd_mid, !concat_mid, !map_app, overwrite_keys. reflexivity. }
    split; [cbn [h_buckets]; rewrite upd_length; auto|]. cbn [h_buckets h_size].
    split. { eapply placed_upd; eauto. intros [k' v'] Hx.
             apply (overwrite_in b k v Nb Kb) in Hx as [[-> ->]|[_ H]]; auto. }
    split. { unfold knodup. rewrite M. exact N. }
    split. { rewrite S. apply (f_equal (@length key)) in M. rewrite !map_length in M. auto. }
    split.
    { intros k' v'. rewrite <- Lp, Ebs, upd_mid, concat_mid, !in_app_iff.
      rewrite (overwrite_in b k v Nb Kb). cbn [lookup aset].
      assert (NK : forall x y, In (k, y) (concat x) -> (x = p \/ x = s) -> False).
      { intros x y Hin Hx. apply (in_map fst) in Hin. cbn [fst] in Hin.
        unfold knodup in N. rewrite Ebs, concat_mid, !map_app in N.
        destruct Hx as [->| ->].
        - apply (nodup_disj (map fst (concat p)) (map fst b ++ map fst (concat s)) k N Hin).
          apply in_app_iff; auto.
        - apply NoDup_app_remove_l in N. exact (nodup_disj _ _ k N Kb Hin). }
      destruct (bytes_eqb k' k) eqn:Ekk.
      - apply bytes_eqb_eq in Ekk. subst k'. split.
        + intros [H|[[[_ ->]|[H _]]|H]]; try congruence; exfalso; eauto.
        + intros H. injection H as ->. auto.
      - apply bytes_eqb_neq in Ekk. rewrite <- A, Ebs, concat_mid, !in_app_iff. tauto. }
    cbn [keys aset]. rewrite Ek. cbn [is_some]. rewrite M. auto.
  - assert (exists bs1, (if 3 * length (h_buckets m) <? 4 * (h_size m + 1)
                    then resize hasher (h_buckets m) true else Ok (h_buckets m)) = Ok bs1 /\
              0 < length bs1 /\ placed bs1 /\ Permutation (concat bs1) (concat (h_buckets m)))
      as (bs1 & -> & L1 & P1 & Q1).
    { destruct (3 * _ <? _); [apply (resize_ok (h_buckets m) true L P)|]. exists (h_buckets m). auto. }
    cbn [obind].
    destruct (pushNode_ok bs1 (k, v) L1 P1) as (bs2 & -> & L2 & P2 & Q2). cbn [obind].
    eexists; split; [reflexivity|]. split; [cbn [h_buckets]; lia|]. cbn [h_buckets h_size].
    rewrite Q1 in Q2. split; auto.
    split. { eapply knodup_perm; [symmetry; exact Q2|]. unfold knodup. cbn [map fst]. constructor; auto.
      intros Hin. apply in_map_iff in Hin as ([k' v'] & Hk & Hin). cbn [fst] in Hk. subst k'.
      apply A in Hin. congruence. }
    split. { rewrite (Permutation_length Q2). simpl. lia. }
    split. { intros k' v'. rewrite (perm_in_iff _ _ Q2). cbn [lookup aset]. cbn [In]. rewrite A.
      destruct (bytes_eqb k' k) eqn:Ekk.
      - apply bytes_eqb_eq in Ekk. subst k'. rewrite Ek. split; [intros [H|H]; congruence|]. intros H; injection H as ->; auto.
      - apply bytes_eqb_neq in Ekk. split; [intros [H|H]; auto; congruence|auto]. }
    cbn [keys aset]. rewrite Ek. cbn [is_some]. rewrite (Permutation_map fst Q2). cbn [map fst]. auto.
Qed.

Lemma remove_first_filter k b : NoDup (map fst b) ->
  remove_first (node_is k) b = filter (fun n => negb (node_is k n)) b.
Proof.
  induction b as [|[k0 v0] b IH]; cbn [map remove_first filter]; intros N; auto.
  inversion N as [|? ? Hni N']; subst. destruct (node_is k (k0, v0)) eqn:E; cbn [negb].
  - apply node_is_iff in E. cbn [fst] in *. subst k0. symmetry. apply filter_id.
    intros [k' v'] Hx. apply negb_true_iff. destruct (node_is k (k', v')) eqn:E; auto.
    apply node_is_iff in E. cbn [fst] in E. subst k'. exfalso. apply Hni.
    change k with (fst (k, v')). apply in_map; auto.
  - rewrite IH by auto. reflexivity.
Qed.

Lemma concat_remove bs k b : placed bs -> knodup (concat bs) ->
  nth_error bs (hasher (length bs) k) = Some b ->
  concat (upd bs (hasher (length bs) k) (remove_first (node_is k) b)) =
  filter (fun n => negb (node_is k n)) (concat bs).
Proof.
  intros P N Hb.
  destruct (concat_split _ _ _ Hb) as (p & s & Ebs & Lp).
  assert (Nb : NoDup (map fst b)).
  { unfold knodup in N. rewrite Ebs, concat_mid, !map_app in N. eapply NoDup_app_mid; eauto. }
  assert (Fp : filter (fun n => negb (node_is k n)) (concat p) = concat p).
  { apply filter_id. intros n Hn. apply negb_true_iff. destruct (node_is k n) eqn:E; auto. exfalso.
    apply node_is_iff in E. apply in_concat in Hn as (c & Hc & Hn). apply In_nth_error in Hc as [i Hi].
    assert (Hi' : nth_error bs i = Some c).
    { rewrite Ebs, nth_error_app1; auto. apply nth_error_Some. congruence. }
    pose proof (P i c n Hi' Hn) as Q. rewrite E in Q.
    assert (i < length p) by (apply nth_error_Some; congruence). lia. }
  assert (Fs : filter (fun n => negb (node_is k n)) (concat s) = concat s).
  { apply filter_id. intros n Hn. apply negb_true_iff. destruct (node_is k n) eqn:E; auto. exfalso.
    apply node_is_iff in E. apply in_concat in Hn as (c & Hc & Hn). apply In_nth_error in Hc as [i Hi].
    assert (Hi' : nth_error bs (length p + S i) = Some c).
    { rewrite Ebs, nth_error_app2 by lia. replace (length p + S i - length p) with (S i) by lia. auto. }
    pose proof (P _ c n Hi' Hn) as Q. rewrite E in Q. lia. }
  rewrite <- Lp at 1. rewrite Ebs. rewrite upd_mid, !concat_mid, !filter_app, Fp, Fs, remove_first_filter by auto.
  reflexivity.
Qed.

Lemma filter_keys k l : map fst (filter (fun n => negb (node_is k n)) l) =
  filter (fun k' => negb (bytes_eqb k' k)) (map fst l).
Proof.
  induction l as [|[k0 v0] l IH]; cbn [filter map]; auto. unfold node_is at 1. cbn [fst].
  destruct (bytes_eqb k0 k); cbn [negb map fst]; rewrite IH; auto.
Qed.

Lemma NoDup_filter {A} (f : A -> bool) l : NoDup l -> NoDup (filter f l).
Proof.
  induction 1 as [|x l Hni N IH]; cbn [filter]; [constructor|]. destruct (f x); auto.
  constructor; auto. rewrite filter_In. tauto.
Qed.

Lemma filter_remove_length k l : knodup l -> existsb (node_is k) l = true ->
  length (filter (fun n => negb (node_is k n)) l) = length l - 1.
Proof.
  unfold knodup. intros N H. rewrite <- remove_first_filter by auto. clear N.
  induction l as [|n l IH]; cbn [existsb remove_first length] in *; [discriminate|].
  destruct (node_is k n); cbn [orb] in H; [lia|]. cbn [length]. rewrite IH by auto.
  destruct l; [discriminate|]. simpl. lia.
Qed.

Lemma perm_filter {A} (f : A -> bool) l l' : Permutation l l' -> Permutation (filter f l) (filter f l').
Proof.
  induction 1 as [|x l l' P IH|x y l|l1 l2 l3 P1 IH1 P2 IH2]; cbn [filter]; auto.
  - destruct (f x); auto.
  - destruct (f x), (f y); auto. apply perm_swap.
  - etransitivity; eauto.
Qed.

Lemma remove_ok m a k : hrel m a ->
  exists m', rtHashMap_Remove hasher m k = Ok (m', is_some (lookup a k)) /\ hrel m' (aremove a k).
Proof.
  intros R. pose proof (getNode_ok m a k R) as G. pose proof R as (L & P & N & S & A & K).
  unfold rtHashMap_Remove, getNode in *.
  destruct (getBucket_ok (h_buckets m) k L) as (b & E & Hb). rewrite E in *.
  destruct (lookup a k) as [v0|] eqn:Ek.
  - assert (X : existsb (node_is k) b = true).
    { apply find_some in G as [G1 G2]. apply existsb_exists. eauto. }
    assert (X' : existsb (node_is k) (concat (h_buckets m)) = true).
    { apply existsb_exists. exists (k, v0). split; [apply A; auto|]. unfold node_is. apply bytes_eqb_refl. }
    rewrite X. set (bs := upd _ _ _).
    assert (Pb : placed bs).
    { unfold bs. eapply placed_upd; eauto. intros x Hx. left. clear - Hx.
      induction b as [|y b IH]; cbn [remove_first] in Hx; [destruct Hx|].
      destruct (node_is k y); cbn [In] in *; tauto. }
    assert (Cb : concat bs = filter (fun n => negb (node_is k n)) (concat (h_buckets m))) by (apply concat_remove; auto).
    assert (Lb : length bs = length (h_buckets m)) by apply upd_length.
    assert (exists bs1, (if (RTHASHMAP_INITSIZE <? length bs) && ((h_size m - 1) / length bs <=? 1)
                   then resize hasher bs false else Ok bs) = Ok bs1 /\
              0 < length bs1 /\ placed bs1 /\ Permutation (concat bs1) (concat bs))
      as (bs1 & -> & L1 & P1 & Q1).
    { destruct (RTHASHMAP_INITSIZE <? length bs) eqn:E1; cbn [andb].
      - destruct (_ / _ <=? 1); [apply (resize_ok bs false)|exists bs; repeat split; auto; lia].
        + unfold RTHASHMAP_INITSIZE in E1. lia.
        + auto.
      - exists bs; repeat split; auto; lia. }
    cbn [obind]. eexists; split; [reflexivity|]. rewrite Cb in Q1.
    split; [auto|]. cbn [h_buckets h_size]. split; auto.
    split. { eapply knodup_perm; [symmetry; exact Q1|]. unfold knodup. rewrite filter_keys. apply NoDup_filter; auto. }
    split. { rewrite (Permutation_length Q1), filter_remove_length; auto. }
    split. { intros k' v'. rewrite (perm_in_iff _ _ Q1), filter_In, A. cbn [lookup aremove]. unfold node_is. cbn [fst].
      destruct (bytes_eqb k' k); cbn [negb]; split; try tauto; intuition discriminate. }
    cbn [keys aremove]. rewrite (Permutation_map fst Q1), filter_keys. apply perm_filter. auto.
  - assert (X : existsb (node_is k) b = false).
    { destruct (existsb (node_is k) b) eqn:X; auto. apply existsb_exists in X as (x & X1 & X2).
      pose proof (find_none _ _ G _ X1). congruence. }
    rewrite X. eexists; split; [reflexivity|]. split; auto. split; auto. split; auto. split; auto. split.
    + intros k' v'. rewrite A. cbn [lookup aremove]. destruct (bytes_eqb k' k) eqn:Ekk; [|tauto].
      apply bytes_eqb_eq in Ekk. subst. rewrite Ek. split; discriminate.
    + cbn [keys aremove]. rewrite filter_id; auto. intros k' Hk'. apply negb_true_iff. apply bytes_eqb_neq. intros ->.
      apply (Permutation_in _ K) in Hk'. apply in_map_iff in Hk' as ([k' v'] & Hk & Hin). cbn [fst] in Hk. subst k'.
      apply A in Hin. congruence.
Qed.

Lemma hstep_ok m a o : hrel m a ->
  exists m', hm_step hasher m o = Ok (m', snd (amap_step a o)) /\ hrel m' (fst (amap_step a o)).
Proof.
  intros R. destruct o as [k v|k|k| |k]; cbn [hm_step amap_step fst snd].
  - destruct (set_ok m a k v R) as (m' & -> & R'). exists m'. auto.
  - unfold rtHashMap_Get. rewrite (getNode_ok m a k R). exists m. destruct (lookup a k); auto.
  - unfold rtHashMap_Contains. rewrite (getNode_ok m a k R). exists m. destruct (lookup a k); auto.
  - exists m. unfold rtHashMap_GetSize. destruct R as (L & P & N & S & A & K).
    rewrite S. rewrite (Permutation_length K), map_length. split; auto. repeat split; auto; apply A.
  - destruct (remove_ok m a k R) as (m' & -> & R'). exists m'. auto.
Qed.

Lemma hrel_create : hrel rtHashMap_Create aempty.
Proof.
  unfold rtHashMap_Create. split; [cbn; lia|]. cbn [h_buckets h_size].
  split; [apply placed_empty|]. rewrite concat_repeat_nil. repeat split; try constructor; try contradiction; discriminate.
Qed.

Lemma hrun_ok ops : forall m a, hrel m a -> hm_run hasher m ops = Ok (amap_run a ops).
Proof.
  induction ops as [|o ops IH]; intros m a R; [reflexivity|].
  cbn [hm_run amap_run]. destruct (hstep_ok m a o R) as (m' & -> & R').
  destruct (amap_step a o) as [a' r]. cbn [obind fst snd] in *. rewrite (IH m' a' R'). reflexivity.
Qed.
End P.

Lemma hash_string_lt n k : 0 < n -> hash_string n k < n.
Proof.
  intros H. unfold hash_string.
  pose proof (Z.mod_pos_bound (to_unsigned 64 (c_abs (hash_int k))) (Z.of_nat n)). lia.
Qed.

Lemma hash_map_ok ops : hm_run hash_string rtHashMap_Create ops = Ok (amap_run aempty ops).
Proof. apply hrun_ok; [exact hash_string_lt|]. apply hrel_create. Qed.

Lemma hash_map_any_ok hasher : (forall n k, 0 < n -> hasher n k < n) ->
  forall ops, hm_run hasher rtHashMap_Create ops = Ok (amap_run aempty ops).
Proof. intros H ops. apply hrun_ok; [exact H|]. apply hrel_create. Qed.
