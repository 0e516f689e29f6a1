(** Converting a float to double and back gives the same bits. *)
From Verif Require Import Common WireModel WireSpec.
From Coq Require Import ZifyBool.
Local Open Scope Z_scope.

Lemma div_mod_pack : forall a b c, 0 < b -> 0 <= c < b -> (a * b + c) / b = a /\ (a * b + c) mod b = c.
Proof.
  intros a b c Hb Hc. split.
  - rewrite Z.add_comm, Z.div_add by lia. rewrite Z.div_small by lia. lia.
  - rewrite Z.add_comm, Z.mod_add by lia. apply Z.mod_small. lia.
Qed.

(** the three fields of a packed bit pattern *)
Lemma fields64 : forall s e f, 0 <= s <= 1 -> 0 <= e < 2 ^ 11 -> 0 <= f < 2 ^ 52 ->
  let b := s * 2 ^ 63 + (e * 2 ^ 52 + f) in
  b / 2 ^ 63 = s /\ b / 2 ^ 52 mod 2 ^ 11 = e /\ b mod 2 ^ 52 = f /\ 0 <= b < 2 ^ 64.
Proof.
  intros s e f Hs He Hf b.
  assert (R : 0 <= e * 2 ^ 52 + f < 2 ^ 63) by lia.
  split; [|split; [|split]].
  - apply (div_mod_pack s (2 ^ 63) (e * 2 ^ 52 + f)); lia.
  - replace b with ((s * 2 ^ 11 + e) * 2 ^ 52 + f) by (unfold b; lia).
    rewrite (proj1 (div_mod_pack (s * 2 ^ 11 + e) (2 ^ 52) f ltac:(lia) Hf)).
    apply (div_mod_pack s (2 ^ 11) e); lia.
  - replace b with ((s * 2 ^ 11 + e) * 2 ^ 52 + f) by (unfold b; lia).
    apply (div_mod_pack (s * 2 ^ 11 + e) (2 ^ 52) f); lia.
  - unfold b. lia.
Qed.

Lemma fields32 : forall b, 0 <= b < 2 ^ 32 -> exists s e f, 0 <= s <= 1 /\ 0 <= e < 2 ^ 8 /\ 0 <= f < 2 ^ 23 /\
  b = s * 2 ^ 31 + (e * 2 ^ 23 + f) /\ b / 2 ^ 31 = s /\ b / 2 ^ 23 mod 2 ^ 8 = e /\ b mod 2 ^ 23 = f.
Proof.
  intros b H. exists (b / 2 ^ 31), (b / 2 ^ 23 mod 2 ^ 8), (b mod 2 ^ 23).
  assert (D : b / 2 ^ 31 = b / 2 ^ 23 / 2 ^ 8) by (rewrite Z.div_div by lia; reflexivity).
  pose proof (Z.div_mod b (2 ^ 23) ltac:(lia)). pose proof (Z.div_mod (b / 2 ^ 23) (2 ^ 8) ltac:(lia)).
  pose proof (Z.mod_pos_bound b (2 ^ 23) ltac:(lia)). pose proof (Z.mod_pos_bound (b / 2 ^ 23) (2 ^ 8) ltac:(lia)).
  rewrite D in *. set (q := b / 2 ^ 23) in *. set (s := q / 2 ^ 8) in *. clearbody q.
  repeat split; lia.
Qed.

Lemma rne_exact : forall q s, 0 < s -> rne (q * 2 ^ s) s = q.
Proof.
  intros q s H. unfold rne. assert (P : 0 < 2 ^ s) by (apply Z.pow_pos_nonneg; lia).
  assert (P' : 0 < 2 ^ (s - 1)) by (apply Z.pow_pos_nonneg; lia).
  rewrite Z.div_mul by lia. rewrite Z.mod_mul by lia.
  replace (2 ^ (s - 1) <? 0) with false by lia. replace (0 =? 2 ^ (s - 1)) with false by lia. reflexivity.
Qed.

Ltac split_bits b H :=
  let s := fresh "s" in let e := fresh "e" in let f := fresh "f" in
  destruct (fields32 b H) as (s & e & f & Hs & He & Hf & Hb & E1 & E2 & E3).

Lemma subnormal : forall f, 0 < f < 2 ^ 23 -> let k := Z.log2 f in
  0 <= k < 23 /\ 2 ^ k <= f < 2 ^ (k + 1) /\ 2 ^ k * 2 ^ (52 - k) = 2 ^ 52 /\ 0 <= (f - 2 ^ k) * 2 ^ (52 - k) < 2 ^ 52.
Proof.
  intros f H k. pose proof (Z.log2_spec f ltac:(lia)) as L. fold k in L. replace (Z.succ k) with (k + 1) in L by lia.
  assert (K : 0 <= k < 23).
  { split; [apply Z.log2_nonneg|]. apply (Z.log2_lt_pow2 f 23); lia. }
  assert (M : 2 ^ k * 2 ^ (52 - k) = 2 ^ 52) by (rewrite <- Z.pow_add_r by lia; f_equal; lia).
  split; [exact K|]. split; [exact L|]. split; [exact M|].
  assert (P : 0 < 2 ^ (52 - k)) by (apply Z.pow_pos_nonneg; lia).
  split; [apply Z.mul_nonneg_nonneg; lia|]. rewrite <- M. apply Z.mul_lt_mono_pos_r; [exact P|].
  rewrite Z.pow_add_r in L by lia. lia.
Qed.

Lemma widen_fields : forall b, 0 <= b < 2 ^ 32 -> exists s e f, 0 <= s <= 1 /\ 0 <= e < 2 ^ 11 /\ 0 <= f < 2 ^ 52 /\
  widen b = s * 2 ^ 63 + (e * 2 ^ 52 + f) /\
  (signalling b = false -> s * 2 ^ 31 +
  (if e =? 2047 then
     255 * 2 ^ 23 + (if f =? 0 then 0 else let p := f / 2 ^ 29 in if p <? 2 ^ 22 then p + 2 ^ 22 else p)
   else if 897 <=? e then Z.min (255 * 2 ^ 23) ((e - 897) * 2 ^ 23 + rne (2 ^ 52 + f) 29)
   else if e =? 0 then 0
   else rne (2 ^ 52 + f) (926 - e)) = b).
Proof.
  intros b H. split_bits b H. unfold widen, signalling. rewrite E1, E2, E3.
  destruct (e =? 255) eqn:A.
  - destruct (f =? 0) eqn:F.
    + exists s, 2047, 0. repeat split; try lia. intros _. change (2047 =? 2047) with true. change (0 =? 0) with true. cbv iota. lia.
    + destruct (f <? 2 ^ 22) eqn:Q.
      * exists s, 2047, ((f + 2 ^ 22) * 2 ^ 29). split; [lia|]. split; [lia|]. split; [lia|]. split; [lia|].
        intros N. exfalso. replace (1 <=? f) with true in N by lia. discriminate N.
      * exists s, 2047, (f * 2 ^ 29). split; [lia|]. split; [lia|]. split; [lia|]. split; [lia|].
        intros _. change (2047 =? 2047) with true. cbv iota zeta. replace (f * 2 ^ 29 =? 0) with false by lia.
        rewrite Z.div_mul by lia. rewrite Q. lia.
  - destruct (e =? 0) eqn:B.
    + destruct (f =? 0) eqn:F.
      * exists s, 0, 0. repeat split; try lia. intros _.
        change (0 =? 2047) with false. change (897 <=? 0) with false. change (0 =? 0) with true. cbv iota. lia.
      * destruct (subnormal f ltac:(lia)) as (K & L & M & R). cbv zeta.
        set (k := Z.log2 f) in *. set (g := (f - 2 ^ k) * 2 ^ (52 - k)) in *.
        exists s, (k + 874), g. split; [lia|]. split; [lia|]. split; [lia|]. split; [lia|]. intros _.
        replace (k + 874 =? 2047) with false by lia. replace (897 <=? k + 874) with false by lia.
        replace (k + 874 =? 0) with false by lia.
        replace (2 ^ 52 + g) with (f * 2 ^ (52 - k)) by (rewrite <- M; unfold g; lia).
        replace (926 - (k + 874)) with (52 - k) by lia. rewrite rne_exact by lia. lia.
    + exists s, (e + 896), (f * 2 ^ 29). split; [lia|]. split; [lia|]. split; [lia|]. split; [lia|]. intros _.
      replace (e + 896 =? 2047) with false by lia. replace (897 <=? e + 896) with true by lia.
      replace (2 ^ 52 + f * 2 ^ 29) with ((2 ^ 23 + f) * 2 ^ 29) by lia. rewrite rne_exact by lia.
      rewrite Z.min_r by lia. lia.
Qed.

Lemma widen_range : forall b, 0 <= b < 2 ^ 32 -> 0 <= widen b < 2 ^ 64.
Proof.
  intros b H. destruct (widen_fields b H) as (s & e & f & Hs & He & Hf & -> & _).
  apply (fields64 s e f Hs He Hf).
Qed.

Lemma narrow_widen : forall b, 0 <= b < 2 ^ 32 -> signalling b = false -> narrow (widen b) = b.
Proof.
  intros b H N. destruct (widen_fields b H) as (s & e & f & Hs & He & Hf & -> & R).
  destruct (fields64 s e f Hs He Hf) as (A & B & C & _).
  unfold narrow. rewrite A, B, C. exact (R N).
Qed.
