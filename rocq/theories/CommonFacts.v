(** Lemmas about the shared vocabulary. *)
From Verif Require Import Common.
Ltac Zify.zify_post_hook ::= Z.div_mod_to_equations.

Lemma bytes_eqb_eq a b : bytes_eqb a b = true <-> a = b.
Proof.
  revert b; induction a as [|x a IH]; intros [|y b]; simpl; split; intros H; try congruence; auto.
  - apply andb_true_iff in H as [H1 H2]. apply Z.eqb_eq in H1. apply IH in H2. congruence.
  - inversion H; subst. rewrite Z.eqb_refl. simpl. apply IH; reflexivity.
Qed.

Lemma bytes_eqb_refl a : bytes_eqb a a = true.
Proof. apply bytes_eqb_eq; reflexivity. Qed.

Lemma bytes_eqb_neq a b : bytes_eqb a b = false <-> a <> b.
Proof.
  split; intros H.
  - intros ->. rewrite bytes_eqb_refl in H. discriminate.
  - destruct (bytes_eqb a b) eqn:E; auto. apply bytes_eqb_eq in E. contradiction.
Qed.

Lemma bytes_eqb_sym a b : bytes_eqb a b = bytes_eqb b a.
Proof.
  destruct (bytes_eqb a b) eqn:E.
  - apply bytes_eqb_eq in E; subst. symmetry; apply bytes_eqb_refl.
  - symmetry. apply bytes_eqb_neq. apply bytes_eqb_neq in E. congruence.
Qed.

Lemma is_byte_range b : is_byte b = true <-> (0 <= b < 256)%Z.
Proof. unfold is_byte. lia. Qed.

Lemma bytes_ok_app a b : bytes_ok (a ++ b) = bytes_ok a && bytes_ok b.
Proof. unfold bytes_ok. apply forallb_app. Qed.

Lemma bytes_ok_cons x l : bytes_ok (x :: l) = true <-> (0 <= x < 256)%Z /\ bytes_ok l = true.
Proof. unfold bytes_ok; simpl. rewrite andb_true_iff, is_byte_range. tauto. Qed.

Lemma is_cstr_bytes_ok l : is_cstr l = true -> bytes_ok l = true.
Proof.
  unfold is_cstr, bytes_ok. rewrite !forallb_forall. intros H x Hx. specialize (H x Hx).
  unfold is_byte. lia.
Qed.

Lemma upd_length {A} (l : list A) i x : length (upd l i x) = length l.
Proof. revert i; induction l as [|y l IH]; intros [|i]; simpl; auto. Qed.

Lemma upd_nth_eq {A} (l : list A) i x : i < length l -> nth_error (upd l i x) i = Some x.
Proof. revert i; induction l as [|y l IH]; intros [|i]; simpl; intros; try lia; auto. apply IH; lia. Qed.

Lemma upd_nth_neq {A} (l : list A) i j x : i <> j -> nth_error (upd l i x) j = nth_error l j.
Proof. revert i j; induction l as [|y l IH]; intros [|i] [|j]; simpl; intros; try congruence; auto. Qed.

Lemma nth_upd {A} (l : list A) i x j :
  nth_error (upd l i x) j = if i =? j then (match nth_error l j with Some _ => Some x | None => None end) else nth_error l j.
Proof.
  destruct (Nat.eqb_spec i j) as [->|N]; [|apply upd_nth_neq; auto].
  destruct (nth_error l j) eqn:E.
  - apply upd_nth_eq. apply nth_error_Some. congruence.
  - apply nth_error_None. rewrite upd_length. apply nth_error_None. auto.
Qed.

Lemma nodup_app_l {A} (a b : list A) : NoDup (a ++ b) -> NoDup a.
Proof.
  induction a as [|x a IH]; cbn [app]; intros H; [constructor|]. inversion H; subst.
  constructor; auto. rewrite in_app_iff in *. tauto.
Qed.
Lemma nodup_app_r {A} (a b : list A) : NoDup (a ++ b) -> NoDup b.
Proof. induction a as [|x a IH]; cbn [app]; intros H; auto. inversion H; auto. Qed.
Lemma nodup_app_disj {A} (a b : list A) x : NoDup (a ++ b) -> In x a -> In x b -> False.
Proof.
  induction a as [|y a IH]; cbn [app In]; intros N H H'; [auto|].
  inversion N as [|? ? Hni N']; subst. destruct H as [H|H]; [|auto].
  subst y. apply Hni. apply in_app_iff; auto.
Qed.
Lemma nodup_app_intro {A} (a b : list A) : NoDup a -> NoDup b -> (forall x, In x a -> In x b -> False) -> NoDup (a ++ b).
Proof.
  induction a as [|x a IH]; cbn [app]; intros Na Nb D; auto. inversion Na as [|? ? Hni N']; subst. constructor.
  - rewrite in_app_iff. intros [H|H]; auto. apply (D x); auto. left; auto.
  - apply IH; auto. intros y Hy. apply D. right; auto.
Qed.

Lemma ok_pair {E A B : Type} (a a' : A) (b b' : B) : @Ok E (A * B) (a, b) = Ok (a', b') -> a = a' /\ b = b'.
Proof. intros H. injection H. auto. Qed.

Lemma c_str_app s post : is_cstr s = true -> c_str (s ++ 0%Z :: post) = Some s.
Proof.
  induction s as [|c s IH]; cbn [is_cstr forallb app c_str]; intros H; [reflexivity|].
  apply andb_true_iff in H as [Hc H]. assert ((c =? 0)%Z = false) as -> by lia. rewrite IH; auto.
Qed.
