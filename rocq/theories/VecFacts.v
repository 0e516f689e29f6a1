(** Facts about vectors of records with a name. *)
From Verif Require Import Common CommonFacts VecList.
From Coq Require Import Lia.
Local Open Scope Z_scope.

Lemma strneq_eq : forall n a b, Z.of_nat (length a) < n -> strneq n a b = bytes_eqb a b.
Proof.
  intros n a b H. unfold strneq. rewrite (firstn_all2 a) by lia.
  destruct (bytes_eqb a b) eqn:E.
  - apply bytes_eqb_eq in E. subst. rewrite firstn_all2 by lia. apply bytes_eqb_refl.
  - destruct (bytes_eqb a (firstn (Z.to_nat n) b)) eqn:F; [|reflexivity].
    apply bytes_eqb_eq in F. exfalso.
    assert (L : length a = length (firstn (Z.to_nat n) b)) by (rewrite F at 1; reflexivity).
    rewrite firstn_length in L. rewrite firstn_all2 in F by lia. subst. rewrite bytes_eqb_refl in E. discriminate.
Qed.

Section Keyed.
  Context {A : Type} (key : A -> list Z) (p : list Z -> A -> bool) (ok : A -> Prop).
  Hypothesis p_eq : forall n x, ok x -> p n x = bytes_eqb (key x) n.

  Lemma p_true : forall n x, ok x -> p n x = true <-> key x = n.
  Proof. intros. rewrite p_eq by assumption. apply bytes_eqb_eq. Qed.

  Lemma vfind_some : forall n l x, Forall ok l -> vfind (p n) l = Some x -> In x l /\ key x = n.
  Proof.
    induction l as [|y l IH]; intros x F H; cbn in H; [discriminate|].
    inversion F; subst. destruct (p n y) eqn:E.
    - injection H as ->. apply p_true in E; auto. split; [left|]; auto.
    - destruct (IH x) as [I K]; auto. split; [right|]; auto.
  Qed.
  Lemma vfind_none : forall n l, Forall ok l -> vfind (p n) l = None <-> ~ In n (map key l).
  Proof.
    induction l as [|y l IH]; intros F; cbn; [tauto|].
    inversion F; subst. destruct (p n y) eqn:E.
    - apply p_true in E; auto. split; [discriminate|]. intros H. exfalso. apply H. auto.
    - rewrite IH by auto. assert (key y <> n) by (intros K; apply p_true in K; auto; congruence). tauto.
  Qed.
  Lemma vfind_in : forall l x, Forall ok l -> NoDup (map key l) -> In x l -> vfind (p (key x)) l = Some x.
  Proof.
    induction l as [|y l IH]; intros x F N I; [destruct I|].
    inversion F; inversion N; subst. cbn. destruct I as [->|I].
    - assert (p (key x) x = true) as -> by (apply p_true; auto). reflexivity.
    - destruct (p (key x) y) eqn:E.
      + apply p_true in E; auto. exfalso. apply H5. rewrite E. apply in_map. auto.
      + apply IH; auto.
  Qed.
  Lemma vfind_app : forall m l x, Forall ok l -> ok x ->
    vfind (p m) (l ++ [x]) = match vfind (p m) l with Some y => Some y | None => if bytes_eqb (key x) m then Some x else None end.
  Proof.
    induction l as [|y l IH]; intros x F O; cbn.
    - rewrite p_eq by auto. reflexivity.
    - inversion F; subst. destruct (p m y); [reflexivity|]. apply IH; auto.
  Qed.
  Lemma vfind_update : forall m n f l, Forall ok l ->
    (forall x, In x l -> key x = n -> key (f x) = n /\ ok (f x)) ->
    vfind (p m) (vupdate (p n) f l) = if bytes_eqb m n then option_map f (vfind (p n) l) else vfind (p m) l.
  Proof.
    induction l as [|y l IH]; intros F K; cbn.
    - destruct (bytes_eqb m n); reflexivity.
    - inversion F; subst. destruct (p n y) eqn:E.
      + apply p_true in E; auto. destruct (K y) as [K1 K2]; cbn; auto.
        destruct (bytes_eqb m n) eqn:B.
        * apply bytes_eqb_eq in B. subst m. assert (p n (f y) = true) as -> by (apply p_true; auto). reflexivity.
        * assert (p m (f y) = false) as ->.
          { rewrite p_eq by auto. rewrite K1, bytes_eqb_sym. auto. }
          assert (p m y = false) as ->; [|reflexivity].
          rewrite p_eq by auto. rewrite E, bytes_eqb_sym. auto.
      + cbn. rewrite IH; auto; [|intros; apply K; cbn; auto].
        destruct (bytes_eqb m n) eqn:B; [|reflexivity].
        apply bytes_eqb_eq in B. subst m. rewrite E. reflexivity.
  Qed.
  Lemma vfind_remove : forall m n l, Forall ok l -> NoDup (map key l) ->
    vfind (p m) (vremove (p n) l) = if bytes_eqb m n then None else vfind (p m) l.
  Proof.
    induction l as [|y l IH]; intros F N; cbn.
    - destruct (bytes_eqb m n); reflexivity.
    - inversion F; inversion N; subst. destruct (p n y) eqn:E.
      + apply p_true in E; auto. destruct (bytes_eqb m n) eqn:B.
        * apply bytes_eqb_eq in B. subst m. apply vfind_none; auto. congruence.
        * rewrite p_eq by auto. rewrite E, bytes_eqb_sym, B. reflexivity.
      + cbn. rewrite IH; auto. destruct (bytes_eqb m n) eqn:B; [|reflexivity].
        apply bytes_eqb_eq in B. subst m. rewrite E. reflexivity.
  Qed.
  Lemma vremove_incl : forall (q : A -> bool) l x, In x (vremove q l) -> In x l.
  Proof. induction l as [|y l IH]; cbn; intros x H; auto. destruct (q y); cbn in *; [auto|]. destruct H; auto. Qed.
  Lemma vremove_ok : forall (P : A -> Prop) q l, Forall P l -> Forall P (vremove q l).
  Proof. intros. apply Forall_forall. intros x H0. apply vremove_incl in H0. rewrite Forall_forall in H. auto. Qed.
  Lemma vremove_nodup : forall (B : Type) (g : A -> B) q l, NoDup (map g l) -> NoDup (map g (vremove q l)).
  Proof.
    induction l as [|y l IH]; cbn; intros N; auto. inversion N; subst.
    destruct (q y); auto. cbn. constructor; auto.
    intros H. apply in_map_iff in H as (z & Z1 & Z2). apply H1. rewrite <- Z1. apply in_map. eapply vremove_incl; eauto.
  Qed.
  Lemma vupdate_keys : forall n f l, Forall ok l ->
    (forall x, In x l -> key x = n -> key (f x) = n) ->
    map key (vupdate (p n) f l) = map key l.
  Proof.
    induction l as [|y l IH]; intros F K; cbn; auto.
    inversion F; subst. destruct (p n y) eqn:E; cbn.
    - apply p_true in E; auto. rewrite K, E; cbn; auto.
    - f_equal. apply IH; auto. intros; apply K; cbn; auto.
  Qed.
  Lemma vupdate_ok : forall (P : A -> Prop) n f l, Forall ok l -> Forall P l ->
    (forall x, In x l -> key x = n -> P x -> P (f x)) ->
    Forall P (vupdate (p n) f l).
  Proof.
    induction l as [|y l IH]; intros F FP K; cbn; auto.
    inversion F; inversion FP; subst. destruct (p n y) eqn:E.
    - apply p_true in E; auto. constructor; auto. apply K; cbn; auto.
    - constructor; auto. apply IH; auto. intros; apply K; cbn; auto.
  Qed.
  Lemma app_nodup_key : forall l x, Forall ok l -> NoDup (map key l) -> vfind (p (key x)) l = None ->
    NoDup (map key (l ++ [x])).
  Proof.
    intros l x F N H. rewrite map_app. apply nodup_app_intro; auto; cbn; [repeat constructor; cbn; tauto|].
    apply vfind_none in H; auto. intros z I1 [I2|[]]. apply H. congruence.
  Qed.
End Keyed.
