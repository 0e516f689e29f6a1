From Verif Require Import Common CommonFacts Bytes.
Local Open Scope Z_scope.
Ltac Zify.zify_post_hook ::= Z.div_mod_to_equations.

Lemma some_pair {A} (a b : Z) (r : A) : a = b -> Some (a, r) = Some (b, r).
Proof. intros ->; reflexivity. Qed.

Lemma get_be16_be16 n r : 0 <= n < 65536 -> get_be16 (be16 n ++ r) = Some (n, r).
Proof. intros H. cbn [be16 app get_be16]. apply some_pair. lia. Qed.
Lemma get_be32_be32 n r : 0 <= n < 4294967296 -> get_be32 (be32 n ++ r) = Some (n, r).
Proof. intros H. cbn [be32 app get_be32]. apply some_pair. lia. Qed.
Lemma get_be64_be64 n r : 0 <= n < 18446744073709551616 -> get_be64 (be64 n ++ r) = Some (n, r).
Proof.
  intros H. unfold be64, get_be64. rewrite <- app_assoc.
  rewrite get_be32_be32 by lia.
  replace (be32 n) with (be32 (n mod 4294967296)).
  - rewrite get_be32_be32 by lia. apply some_pair. lia.
  - unfold be32. repeat (apply f_equal2; [lia|]). reflexivity.
Qed.
Lemma get_le16_le16 n r : 0 <= n < 65536 -> get_le16 (le16 n ++ r) = Some (n, r).
Proof. intros H. cbn [le16 app get_le16]. apply some_pair. lia. Qed.
Lemma get_le32_le32 n r : 0 <= n < 4294967296 -> get_le32 (le32 n ++ r) = Some (n, r).
Proof. intros H. cbn [le32 app get_le32]. apply some_pair. lia. Qed.
Lemma get_le64_le64 n r : 0 <= n < 18446744073709551616 -> get_le64 (le64 n ++ r) = Some (n, r).
Proof.
  intros H. unfold le64, get_le64. rewrite <- app_assoc.
  replace (le32 n) with (le32 (n mod 4294967296)).
  - rewrite !get_le32_le32 by lia. apply some_pair. lia.
  - unfold le32. repeat (apply f_equal2; [lia|]). reflexivity.
Qed.
Lemma get_bytes_app l r : get_bytes (length l) (l ++ r) = Some (l, r).
Proof.
  unfold get_bytes. rewrite app_length.
  destruct (Nat.leb_spec (length l) (length l + length r)); [|lia].
  rewrite firstn_app, Nat.sub_diag, firstn_all, firstn_O, app_nil_r.
  rewrite skipn_app, Nat.sub_diag, skipn_all, skipn_O. reflexivity.
Qed.

Lemma be16_ok n : bytes_ok (be16 n) = true.
Proof. unfold be16. rewrite !bytes_ok_cons. repeat split; try lia. Qed.
Lemma be32_ok n : bytes_ok (be32 n) = true.
Proof. unfold be32. rewrite !bytes_ok_cons. repeat split; try lia. Qed.
Lemma be64_ok n : bytes_ok (be64 n) = true.
Proof. unfold be64. rewrite bytes_ok_app, !be32_ok. reflexivity. Qed.
Lemma le16_ok n : bytes_ok (le16 n) = true.
Proof. unfold le16. rewrite !bytes_ok_cons. repeat split; try lia. Qed.
Lemma le32_ok n : bytes_ok (le32 n) = true.
Proof. unfold le32. rewrite !bytes_ok_cons. repeat split; try lia. Qed.
Lemma le64_ok n : bytes_ok (le64 n) = true.
Proof. unfold le64. rewrite bytes_ok_app, !le32_ok. reflexivity. Qed.

Lemma get_be16_range l n r : bytes_ok l = true -> get_be16 l = Some (n, r) ->
  0 <= n < 65536 /\ bytes_ok r = true.
Proof.
  intros Hb H. destruct l as [|a [|b l]]; try discriminate. inversion H; subst.
  apply bytes_ok_cons in Hb as [Ha Hb]. apply bytes_ok_cons in Hb as [Hb Hl]. split; [lia|auto].
Qed.
Lemma get_be32_range l n r : bytes_ok l = true -> get_be32 l = Some (n, r) ->
  0 <= n < 4294967296 /\ bytes_ok r = true.
Proof.
  intros Hb H. destruct l as [|a [|b [|c [|d l]]]]; try discriminate. inversion H; subst.
  apply bytes_ok_cons in Hb as [Ha Hb]. apply bytes_ok_cons in Hb as [Hb Hc].
  apply bytes_ok_cons in Hc as [Hc Hd]. apply bytes_ok_cons in Hd as [Hd Hl]. split; [lia|auto].
Qed.

Lemma mod_shift n p : 0 < p -> - p <= n < 0 -> n mod (2 * p) = n + 2 * p.
Proof.
  intros Hp Hn. symmetry. apply (Z.mod_unique n (2 * p) (-1) (n + 2 * p)); [left; lia|lia].
Qed.

Lemma to_signed_unsigned bits n : 1 < bits -> - 2 ^ (bits - 1) <= n < 2 ^ (bits - 1) ->
  to_signed bits (to_unsigned bits n) = n.
Proof.
  intros Hb Hn. unfold to_signed, to_unsigned.
  assert (E : 2 ^ bits = 2 * 2 ^ (bits - 1)).
  { rewrite <- (Z.pow_succ_r 2 (bits - 1)) by lia. f_equal; lia. }
  assert (P : 0 < 2 ^ (bits - 1)) by (apply Z.pow_pos_nonneg; lia).
  rewrite E. remember (2 ^ (bits - 1)) as p eqn:Ep. clear Ep E.
  destruct (Z_lt_dec n 0).
  - rewrite mod_shift by lia. destruct (Z.ltb_spec (n + 2 * p) p); lia.
  - rewrite Z.mod_small by lia. destruct (Z.ltb_spec n p); lia.
Qed.
