From Coq Require Import QArith Qpower Lia ZifyBool.
From Verif Require Import Common CommonFacts Value CompareModel CompareSpec.
Local Open Scope Z_scope.

(** * Numbers *)
Definition fq (m e : Z) : Q := (inject_Z m * 2 ^ e)%Q.

Lemma pow2_pos : forall e, (0 < 2 ^ e)%Q.
Proof. intros. apply Qpower_0_lt. reflexivity. Qed.
Lemma two_nz : ~ (2 == 0)%Q. Proof. intro H. discriminate H. Qed.
Lemma pow2_Z : forall n, 0 <= n -> (2 ^ n == inject_Z (2 ^ n))%Q.
Proof.
  intros n Hn. rewrite <- (Zpower_Qpower 2 n Hn). reflexivity.
Qed.
Lemma Qcompare_mult_r : forall x y z, (0 < z)%Q -> (x * z ?= y * z)%Q = (x ?= y)%Q.
Proof.
  intros x y z Hz.
  destruct (x ?= y)%Q eqn:E.
  - apply Qeq_alt in E. rewrite E. apply Qeq_alt. reflexivity.
  - apply Qlt_alt in E. apply Qlt_alt. now apply Qmult_lt_compat_r.
  - apply Qgt_alt in E. apply Qgt_alt. now apply Qmult_lt_compat_r.
Qed.
Lemma Qcompare_inject : forall a b, (inject_Z a ?= inject_Z b)%Q = (a ?= b).
Proof. intros. unfold Qcompare. cbn. now rewrite !Z.mul_1_r. Qed.

Lemma fin_compare_q : forall m1 e1 m2 e2, fin_compare m1 e1 m2 e2 = (fq m1 e1 ?= fq m2 e2)%Q.
Proof.
  intros. unfold fin_compare, fq. destruct (e1 <=? e2) eqn:L.
  - assert ((inject_Z m2 * 2 ^ e2 == inject_Z (m2 * 2 ^ (e2 - e1)) * 2 ^ e1)%Q) as ->.
    { rewrite inject_Z_mult, <- pow2_Z by lia. rewrite <- Qmult_assoc, <- Qpower_plus by apply two_nz.
      now replace (e2 - e1 + e1) with e2 by lia. }
    rewrite Qcompare_mult_r by apply pow2_pos. now rewrite Qcompare_inject.
  - assert ((inject_Z m1 * 2 ^ e1 == inject_Z (m1 * 2 ^ (e1 - e2)) * 2 ^ e2)%Q) as ->.
    { rewrite inject_Z_mult, <- pow2_Z by lia. rewrite <- Qmult_assoc, <- Qpower_plus by apply two_nz.
      now replace (e1 - e2 + e2) with e1 by lia. }
    rewrite Qcompare_mult_r by apply pow2_pos. now rewrite Qcompare_inject.
Qed.

Lemma float_of_bits_spec : forall eb mb bits, 0 < eb -> 0 <= mb -> 0 <= bits ->
  match float_of_bits eb mb bits with
  | NaN => ieee_nan eb mb bits = true /\ ieee_value eb mb bits = None
  | Inf _ => ieee_nan eb mb bits = false /\ ieee_value eb mb bits = None
  | Fin m e => ieee_nan eb mb bits = false /\
               exists q, ieee_value eb mb bits = Some q /\ (q == fq m e)%Q
  end.
Proof.
  intros eb mb bits He Hm Hb.
  unfold float_of_bits, ieee_nan, ieee_value.
  assert (Hs : (2 ^ (eb + mb) <=? bits) = negb (bits / 2 ^ (eb + mb) =? 0)).
  { assert (0 < 2 ^ (eb + mb)) by (apply Z.pow_pos_nonneg; lia).
    destruct (bits / 2 ^ (eb + mb) =? 0) eqn:Z0; cbn.
    - apply Z.eqb_eq in Z0. apply Z.div_small_iff in Z0; lia.
    - apply Z.leb_le. apply Z.nlt_ge. intro. apply Z.eqb_neq in Z0. apply Z0, Z.div_small; lia. }
  rewrite Hs. clear Hs.
  set (E := (bits / 2 ^ mb) mod 2 ^ eb). set (T := bits mod 2 ^ mb).
  set (bias := 2 ^ (eb - 1) - 1). set (s := bits / 2 ^ (eb + mb) =? 0).
  destruct (E =? 2 ^ eb - 1) eqn:X.
  - destruct (T =? 0); cbn [andb negb]; auto.
  - destruct (E =? 0); cbn [andb]; (split; [reflexivity|]); eexists; (split; [reflexivity|]); unfold fq.
    + replace (1 - bias - mb) with ((1 - bias) + - mb) by lia.
      rewrite Qpower_plus by apply two_nz.
      destruct s; cbn [negb]; [ring|]. rewrite inject_Z_opp. ring.
    + replace (E - bias - mb) with ((E - bias) + - mb) by lia.
      rewrite Qpower_plus by apply two_nz.
      assert (P : (inject_Z (T + 2 ^ mb) * 2 ^ (- mb) == 1 + inject_Z T * 2 ^ (- mb))%Q).
      { rewrite inject_Z_plus, <- pow2_Z by lia. rewrite Qmult_plus_distr_l, <- Qpower_plus by apply two_nz.
        replace (mb + - mb) with 0 by lia. change ((2 ^ 0)%Q) with 1%Q. ring. }
      destruct s; cbn [negb].
      * rewrite <- P. ring.
      * rewrite <- P, inject_Z_opp. ring.
Qed.

(** * Rounding *)
Lemma log2_bounds : forall n, 0 < n -> 2 ^ Z.log2 n <= n < 2 * 2 ^ Z.log2 n.
Proof.
  intros n H. pose proof (Z.log2_spec n H) as [A B]. rewrite Z.pow_succ_r in B by apply Z.log2_nonneg. lia.
Qed.

Lemma round_small : forall n, 0 <= n <= 2 ^ 53 -> round_nonneg n = n.
Proof.
  intros n H. unfold round_nonneg. destruct (n <? 2 ^ 53) eqn:L; [reflexivity|].
  assert (n = 2 ^ 53) by lia. subst. reflexivity.
Qed.

(** characterisation: the result is one of the two neighbouring multiples of 2^s *)
Lemma round_big : forall n, 2 ^ 53 <= n ->
  let s := Z.log2 n - 52 in
  let q := n / 2 ^ s in
  0 < s /\ 2 ^ 52 <= q < 2 ^ 53 /\ 2 ^ s = 2 * 2 ^ (s - 1) /\ 0 < 2 ^ (s - 1) /\
  (round_nonneg n = q * 2 ^ s /\ 2 * (n - q * 2 ^ s) <= 2 ^ s \/
   round_nonneg n = (q + 1) * 2 ^ s /\ 2 * ((q + 1) * 2 ^ s - n) <= 2 ^ s) /\
  q * 2 ^ s <= n < (q + 1) * 2 ^ s.
Proof.
  intros n H s q.
  assert (H0 : 0 < n) by lia. pose proof (log2_bounds n H0) as [A B].
  assert (L : 53 <= Z.log2 n). { apply Z.log2_le_pow2; lia. }
  assert (S : 0 < s) by (unfold s; lia).
  assert (Hp : 0 < 2 ^ (s - 1)) by (apply Z.pow_pos_nonneg; lia).
  assert (Hd : 2 ^ s = 2 * 2 ^ (s - 1)). { rewrite <- Z.pow_succ_r by lia. f_equal. lia. }
  assert (Hl : 2 ^ Z.log2 n = 2 ^ 52 * 2 ^ s). { rewrite <- Z.pow_add_r by lia. f_equal. unfold s. lia. }
  assert (Hq : q * 2 ^ s <= n < (q + 1) * 2 ^ s).
  { pose proof (Z.div_mod n (2 ^ s)) as D. pose proof (Z.mod_pos_bound n (2 ^ s)) as M. unfold q. nia. }
  split; [exact S|]. split.
  { rewrite Hl in *. clearbody q s. clear -A B Hq Hp Hd.
    split; [apply Z.nlt_ge|apply Z.nle_gt]; intro; nia. }
  split; [exact Hd|]. split; [exact Hp|]. split; [|exact Hq].
  unfold round_nonneg. replace (n <? 2 ^ 53) with false by lia.
  replace (Z.log2 n + 1 - 53) with s by (unfold s; lia). fold q.
  assert (M : n mod 2 ^ s = n - q * 2 ^ s). { unfold q. rewrite Z.mod_eq by lia. lia. }
  rewrite M. destruct ((2 ^ (s - 1) <? n - q * 2 ^ s) || ((n - q * 2 ^ s =? 2 ^ (s - 1)) && Z.odd q)) eqn:U.
  - right. split; [reflexivity|]. lia.
  - left. split; [reflexivity|]. lia.
Qed.

Lemma mul_le_r : forall a b p, 0 < p -> a <= b -> a * p <= b * p.
Proof. intros. apply Z.mul_le_mono_nonneg_r; lia. Qed.
Lemma round_nonneg_mono : forall a b, 0 <= a <= b -> round_nonneg a <= round_nonneg b.
Proof.
  intros a b H.
  destruct (Z_lt_le_dec a (2 ^ 53)) as [La|La].
  - rewrite (round_small a) by lia.
    destruct (Z_lt_le_dec b (2 ^ 53)) as [Lb|Lb].
    + rewrite (round_small b) by lia. lia.
    + pose proof (round_big b Lb) as (S & Q & D & P & R & B).
      set (p := 2 ^ (Z.log2 b - 52)) in *. set (q := b / p) in *.
      assert (Hp : 2 <= p) by lia. clearbody p q.
      assert (Y : q * p <= round_nonneg b) by (destruct R as [[-> _]|[-> _]]; lia).
      assert (Z : 2 ^ 52 * 2 <= q * p) by (apply Z.mul_le_mono_nonneg; lia). lia.
  - assert (Lb : 2 ^ 53 <= b) by lia.
    pose proof (round_big a La) as (Sa & Qa & Da & Pa & Ra & Ba).
    pose proof (round_big b Lb) as (Sb & Qb & Db & Pb & Rb & Bb).
    set (sa := Z.log2 a - 52) in *. set (sb := Z.log2 b - 52) in *.
    assert (Hs : sa <= sb). { unfold sa, sb. pose proof (Z.log2_le_mono a b). lia. }
    destruct (Z.eq_dec sa sb) as [E|E].
    + rewrite <- E in *. clearbody sa.
      assert (HQ : a / 2 ^ sa <= b / 2 ^ sa) by (apply Z.div_le_mono; lia).
      set (qa := a / 2 ^ sa) in *. set (qb := b / 2 ^ sa) in *. set (p := 2 ^ sa) in *.
      assert (Hp : 0 < p) by lia. clearbody qa qb p. clear Da Pa Db Pb.
      destruct (Z.eq_dec qa qb) as [Eq|Ne].
      * rewrite <- Eq in *. set (x := qa * p) in *. set (y := (qa + 1) * p) in *.
        assert (x <= y) by (unfold x, y; apply mul_le_r; lia).
        assert (y = x + p) by (unfold x, y; ring). clearbody x y.
        destruct Ra as [[Ra Ea]|[Ra Ea]]; destruct Rb as [[Rb Eb]|[Rb Eb]]; rewrite Ra, Rb; try lia.
        (* a rounds up, b rounds down with the same quotient: a = b = midpoint *)
        assert (a = b) by lia.
        subst b. rewrite Ra in Rb. lia.
      * assert (X : round_nonneg a <= (qa + 1) * p) by (destruct Ra as [[-> _]|[-> _]]; lia).
        assert (Y : qb * p <= round_nonneg b) by (destruct Rb as [[-> _]|[-> _]]; lia).
        assert (Z : (qa + 1) * p <= qb * p) by (apply mul_le_r; lia). lia.
    + assert (Hlt : sa + 1 <= sb) by lia.
      assert (X : round_nonneg a <= 2 ^ 53 * 2 ^ sa).
      { assert (Z : (a / 2 ^ sa + 1) * 2 ^ sa <= 2 ^ 53 * 2 ^ sa) by (apply mul_le_r; lia).
        assert (Z' : (a / 2 ^ sa) * 2 ^ sa <= 2 ^ 53 * 2 ^ sa) by (apply mul_le_r; lia).
        destruct Ra as [[-> _]|[-> _]]; assumption. }
      assert (Y : 2 ^ 52 * 2 ^ sb <= round_nonneg b).
      { assert (Z : 2 ^ 52 * 2 ^ sb <= (b / 2 ^ sb + 1) * 2 ^ sb) by (apply mul_le_r; lia).
        assert (Z' : 2 ^ 52 * 2 ^ sb <= (b / 2 ^ sb) * 2 ^ sb) by (apply mul_le_r; lia).
        destruct Rb as [[-> _]|[-> _]]; assumption. }
      assert (W : 2 ^ (sa + 1) <= 2 ^ sb) by (apply Z.pow_le_mono_r; lia).
      rewrite Z.pow_add_r in W by lia. change (2 ^ 1) with 2 in W. lia.
Qed.
Lemma round_nonneg_nonneg : forall a, 0 <= a -> 0 <= round_nonneg a.
Proof. intros a H. pose proof (round_nonneg_mono 0 a). change (round_nonneg 0) with 0 in *. lia. Qed.

(** error bound for 64-bit integers *)
Lemma round_error : forall n, 0 <= n <= 2 ^ 64 -> Z.abs (round_nonneg n - n) <= 2 ^ 10.
Proof.
  intros n H. destruct (Z_lt_le_dec n (2 ^ 53)) as [L|L]; [rewrite round_small by lia; lia|].
  destruct (Z.eq_dec n (2 ^ 64)) as [->|N]; [vm_compute; discriminate|].
  pose proof (round_big n L) as (S & Q & D & P & R & B).
  assert (Z.log2 n < 64) by (apply Z.log2_lt_pow2; lia).
  assert (2 ^ (Z.log2 n - 52) <= 2 ^ 11) by (apply Z.pow_le_mono_r; lia).
  destruct R as [[-> R]|[-> R]]; lia.
Qed.

Definition int_double (n : Z) : Z := if n <? 0 then - round_nonneg (- n) else round_nonneg n.
Lemma int_double_mono : forall a b, a <= b -> int_double a <= int_double b.
Proof.
  intros a b H. unfold int_double.
  destruct (a <? 0) eqn:A; destruct (b <? 0) eqn:B; try lia.
  - pose proof (round_nonneg_mono (- b) (- a)). lia.
  - pose proof (round_nonneg_nonneg (- a)). pose proof (round_nonneg_nonneg b). lia.
  - pose proof (round_nonneg_mono a b). lia.
Qed.
Lemma int_double_small : forall n, Z.abs n <= 2 ^ 53 -> int_double n = n.
Proof. intros n H. unfold int_double. destruct (n <? 0) eqn:A; rewrite round_small; lia. Qed.
Lemma int_double_error : forall n, Z.abs n <= 2 ^ 64 -> Z.abs (int_double n - n) <= 2 ^ 10.
Proof.
  intros n H. unfold int_double. destruct (n <? 0) eqn:A.
  - pose proof (round_error (- n)). lia.
  - pose proof (round_error n). lia.
Qed.

(** * Numeric values *)
Lemma value_compare_num : forall v w, is_numeric v = true -> is_numeric w = true ->
  value_compare v w = match fl_compare (coerce v) (coerce w) with
                      | Some Eq => Ok 0 | Some Lt => Ok (-1) | _ => Ok 1 end.
Proof. intros v w Hv Hw. destruct v; try discriminate; destruct w; try discriminate; reflexivity. Qed.

Lemma number_numeric : forall v, is_number v = true -> is_numeric v = true.
Proof. destruct v; try discriminate; reflexivity. Qed.

Lemma number_not_nan : forall v, is_number v = true -> coerce v <> NaN.
Proof.
  intros v H. destruct v; try discriminate; cbn [coerce]; unfold double_of_int; try discriminate.
  - cbn in H. apply andb_true_iff in H as [U N]. unfold in_u in U.
    pose proof (float_of_bits_spec 8 23 bits) as F. intro E. rewrite E in F.
    destruct F as [F _]; try lia. rewrite F in N. discriminate.
  - cbn in H. apply andb_true_iff in H as [U N]. unfold in_u in U.
    pose proof (float_of_bits_spec 11 52 bits) as F. intro E. rewrite E in F.
    destruct F as [F _]; try lia. rewrite F in N. discriminate.
Qed.

Lemma fl_compare_antisym : forall a b c, fl_compare a b = Some c -> fl_compare b a = Some (CompOpp c).
Proof.
  intros [|n1|m1 e1] [|n2|m2 e2] c H; cbn in *; try discriminate; injection H as <-.
  - destruct n1, n2; reflexivity.
  - destruct n1; reflexivity.
  - destruct n2; reflexivity.
  - rewrite !fin_compare_q, Qcompare_antisym. reflexivity.
Qed.
Lemma fl_compare_total : forall a b, a <> NaN -> b <> NaN -> exists c, fl_compare a b = Some c.
Proof. intros [|?|? ?] [|?|? ?] Ha Hb; try congruence; cbn; eauto. Qed.
Lemma fl_compare_trans : forall a b c x y, fl_compare a b = Some x -> fl_compare b c = Some y ->
  x <> Gt -> y <> Gt -> exists z, fl_compare a c = Some z /\ z <> Gt /\ (x = Lt \/ y = Lt -> z = Lt).
Proof.
  intros [|n1|m1 e1] [|n2|m2 e2] [|n3|m3 e3] x y A B X Y; cbn in *; try discriminate;
    injection A as <-; injection B as <-; eexists; (split; [reflexivity|]);
    try (destruct n1); try (destruct n2); try (destruct n3); cbn in *; try congruence;
    try (split; [congruence|intros [?|?]; congruence]); try (split; congruence).
  rewrite !fin_compare_q in *. apply Qle_alt in X. apply Qle_alt in Y.
  split.
  - apply Qle_alt. eapply Qle_trans; eassumption.
  - intros [H|H]; apply Qlt_alt in H; apply Qlt_alt.
    + eapply Qlt_le_trans; eassumption.
    + eapply Qle_lt_trans; eassumption.
Qed.

Lemma compare_number : forall v w, is_number v = true -> is_number w = true ->
  exists c, fl_compare (coerce v) (coerce w) = Some c /\ value_compare v w = Ok (sgn c).
Proof.
  intros v w Hv Hw. rewrite value_compare_num by now apply number_numeric.
  destruct (fl_compare_total _ _ (number_not_nan v Hv) (number_not_nan w Hw)) as [c E].
  exists c. split; [exact E|]. rewrite E. destruct c; reflexivity.
Qed.

Lemma numbers_antisym : forall v w, is_number v = true -> is_number w = true ->
  exists c, value_compare v w = Ok c /\ value_compare w v = Ok (- c).
Proof.
  intros v w Hv Hw. destruct (compare_number v w Hv Hw) as (c & E & R).
  destruct (compare_number w v Hw Hv) as (c' & E' & R').
  apply fl_compare_antisym in E. rewrite E in E'. injection E' as <-.
  exists (sgn c). split; [exact R|]. rewrite R'. destruct c; reflexivity.
Qed.
Lemma numbers_trans : forall u v w a b, is_number u = true -> is_number v = true -> is_number w = true ->
  value_compare u v = Ok a -> value_compare v w = Ok b -> a <= 0 -> b <= 0 ->
  exists c, value_compare u w = Ok c /\ c <= 0 /\ (a < 0 \/ b < 0 -> c < 0).
Proof.
  intros u v w a b Hu Hv Hw A B La Lb.
  destruct (compare_number u v Hu Hv) as (x & E1 & R1). destruct (compare_number v w Hv Hw) as (y & E2 & R2).
  destruct (compare_number u w Hu Hw) as (z & E3 & R3).
  rewrite R1 in A. injection A as <-. rewrite R2 in B. injection B as <-.
  destruct (fl_compare_trans _ _ _ _ _ E1 E2) as (z' & E3' & NZ & LZ).
  { destruct x; cbn in La; try lia; discriminate. } { destruct y; cbn in Lb; try lia; discriminate. }
  rewrite E3 in E3'. injection E3' as <-. exists (sgn z). split; [exact R3|]. split.
  - destruct z; cbn; try lia. congruence.
  - intros H. rewrite LZ; [cbn; lia|]. destruct H; [left; destruct x|right; destruct y]; cbn in *; congruence || lia.
Qed.

Lemma coerce_real : forall v q, real_of v = Some q -> exactly_representable v = true ->
  exists m e, coerce v = Fin m e /\ (q == fq m e)%Q /\ is_numeric v = true.
Proof.
  intros v q R X.
  assert (I : forall n, Z.abs n <=? 2 ^ 53 = true -> (inject_Z n == fq (int_double n) 0)%Q).
  { intros n H. rewrite int_double_small by lia. unfold fq. change (2 ^ 0)%Q with 1%Q. ring. }
  destruct v; try discriminate; cbn in R.
  all: try (injection R as <-; cbn [exactly_representable integer_of] in X;
            cbn [coerce]; unfold double_of_int; eexists _, _; split; [reflexivity|];
            split; [apply I; exact X|reflexivity]).
  - cbn [exactly_representable] in X. unfold in_u in X. pose proof (float_of_bits_spec 8 23 bits) as F. cbn [coerce].
    destruct (float_of_bits 8 23 bits); [destruct F as [_ F]; try lia; congruence..|].
    destruct F as (_ & q' & F & Q); try lia. rewrite R in F. injection F as <-. eauto.
  - cbn [exactly_representable] in X. unfold in_u in X. pose proof (float_of_bits_spec 11 52 bits) as F. cbn [coerce].
    destruct (float_of_bits 11 52 bits); [destruct F as [_ F]; try lia; congruence..|].
    destruct F as (_ & q' & F & Q); try lia. rewrite R in F. injection F as <-. eauto.
Qed.

Lemma numbers_exact : forall v w x y, real_of v = Some x -> real_of w = Some y ->
  exactly_representable v = true -> exactly_representable w = true ->
  value_compare v w = Ok (sgn (x ?= y)%Q).
Proof.
  intros v w x y Rv Rw Xv Xw.
  destruct (coerce_real v x Rv Xv) as (m1 & e1 & C1 & Q1 & N1).
  destruct (coerce_real w y Rw Xw) as (m2 & e2 & C2 & Q2 & N2).
  rewrite value_compare_num, C1, C2 by assumption. cbn [fl_compare].
  rewrite fin_compare_q. rewrite Q1, Q2. destruct (_ ?= _)%Q; reflexivity.
Qed.

Lemma integers_compare : forall v w n m, integer_of v = Some n -> integer_of w = Some m ->
  value_compare v w = Ok (sgn (int_double n ?= int_double m)).
Proof.
  intros v w n m Hv Hw.
  assert (Cv : coerce v = Fin (int_double n) 0 /\ is_numeric v = true)
    by (destruct v; try discriminate; injection Hv as <-; split; reflexivity).
  assert (Cw : coerce w = Fin (int_double m) 0 /\ is_numeric w = true)
    by (destruct w; try discriminate; injection Hw as <-; split; reflexivity).
  destruct Cv as [Cv Nv]. destruct Cw as [Cw Nw].
  rewrite value_compare_num, Cv, Cw by assumption. cbn [fl_compare]. unfold fin_compare.
  cbn [Z.leb Z.compare]. rewrite Z.sub_diag, Z.pow_0_r, Z.mul_1_r.
  destruct (int_double n ?= int_double m); reflexivity.
Qed.
Lemma wide_integers : forall v w n m, integer_of v = Some n -> integer_of w = Some m -> n <= m ->
  Z.abs n <= 2 ^ 64 -> Z.abs m <= 2 ^ 64 ->
  (value_compare v w = Ok 0 /\ m - n <= 2 ^ 11) \/ value_compare v w = Ok (-1).
Proof.
  intros v w n m Hv Hw L A B. rewrite (integers_compare v w n m Hv Hw).
  pose proof (int_double_mono n m L). pose proof (int_double_error n A). pose proof (int_double_error m B).
  destruct (Z.compare_spec (int_double n) (int_double m)); cbn [sgn]; [left; split; [reflexivity|lia]|auto|lia].
Qed.

(** * Strings and byte arrays *)
Lemma lex_lt_cons : forall x s t, lex_lt s t -> lex_lt (x :: s) (x :: t).
Proof.
  intros x s t [(c & r & ->)|(p & a & b & s' & t' & -> & -> & H)].
  - left. exists c, r. reflexivity.
  - right. exists (x :: p), a, b, s', t'. auto.
Qed.
Lemma strcmp_lex : forall s t, reports_lex (c_strcmp s t) s t.
Proof.
  induction s as [|x s IH]; intros [|y t]; cbn.
  - left. auto.
  - right; left. split; [lia|]. left. exists y, t. reflexivity.
  - right; right. split; [lia|]. left. exists x, s. reflexivity.
  - destruct (x <? y) eqn:A; [|destruct (y <? x) eqn:B].
    + right; left. split; [lia|]. right. exists [], x, y, s, t. split; [reflexivity|]. split; [reflexivity|lia].
    + right; right. split; [lia|]. right. exists [], y, x, t, s. split; [reflexivity|]. split; [reflexivity|lia].
    + assert (x = y) by lia. subst y. destruct (IH t) as [[E ->]|[[L H]|[G H]]].
      * left. auto.
      * right; left. split; [exact L|]. now apply lex_lt_cons.
      * right; right. split; [exact G|]. now apply lex_lt_cons.
Qed.
Lemma memcmp_strcmp : forall s t, (length s <= length t)%nat ->
  exists c, c_memcmp (length s) s t = Some c /\
    (if (c =? 0) && (length s <? length t)%nat then -1
     else if (c =? 0) && (length t <? length s)%nat then 1 else c) = c_strcmp s t.
Proof.
  induction s as [|x s IH]; intros [|y t] L; cbn [length c_memcmp c_strcmp] in *; try lia.
  - exists 0. split; reflexivity.
  - exists 0. split; reflexivity.
  - destruct (IH t) as (c & E & R); [lia|]. rewrite E. eexists. split; [reflexivity|].
    destruct (x <? y) eqn:A; [reflexivity|]. destruct (y <? x) eqn:B; [reflexivity|]. exact R.
Qed.
Lemma strings_lex : forall s t, exists c, value_compare (VString (Some s)) (VString (Some t)) = Ok c /\ reports_lex c s t.
Proof. intros. exists (c_strcmp s t). split; [reflexivity|apply strcmp_lex]. Qed.
Lemma bytes_lex : forall s t, (length s <= length t)%nat ->
  exists c, value_compare (VBytes (Some s)) (VBytes (Some t)) = Ok c /\ reports_lex c s t.
Proof.
  intros s t L. destruct (memcmp_strcmp s t L) as (c & E & R). exists (c_strcmp s t).
  split; [|apply strcmp_lex]. cbn -[Nat.ltb Z.eqb]. rewrite E, R. reflexivity.
Qed.
(** the order is strict: a report determines which case holds *)
Lemma lex_irrefl : forall s, ~ lex_lt s s.
Proof.
  intros s [(c & r & E)|(p & a & b & s' & t' & E & E' & H)].
  - apply (f_equal (@length Z)) in E. rewrite app_length in E. cbn in E. lia.
  - rewrite E in E'. apply app_inv_head in E'. injection E' as -> ->. lia.
Qed.
Lemma c_strcmp_refl : forall s, c_strcmp s s = 0.
Proof. induction s; cbn; [reflexivity|]. now rewrite Z.ltb_irrefl. Qed.
Lemma c_strcmp_eq : forall s t, c_strcmp s t = 0 -> s = t.
Proof. intros s t H. destruct (strcmp_lex s t) as [[_ E]|[[L _]|[L _]]]; [exact E|lia|lia]. Qed.

(** * Other types *)
Lemma types_ordered : forall v w, v <> VNull -> w <> VNull -> is_numeric v && is_numeric w = false ->
  vtype v <> vtype w -> value_compare v w = Ok (if vtype v <? vtype w then -1 else 1).
Proof.
  intros v w Nv Nw Hn Ht.
  destruct v; try congruence; destruct w; try congruence; try discriminate; try reflexivity;
    exfalso; apply Ht; reflexivity.
Qed.

(** * Nested values compare equal to themselves *)
Lemma well_named_coerce : forall v, (match v with VSingle _ | VDouble _ => is_number v = true | _ => True end) ->
  is_numeric v = true -> value_compare v v = Ok 0.
Proof.
  intros v W N.
  assert (H : is_number v = true) by (destruct v; try discriminate; auto).
  destruct (numbers_antisym v v H H) as (c & A & B). rewrite A in B. injection B as B.
  rewrite A. f_equal. lia.
Qed.

Fixpoint prop_in (n : list Z) (v : value) (p : property) : Prop :=
  match p with PNil => False | PCons m w nx => (m = Some n /\ w = v) \/ prop_in n v nx end.
Fixpoint obj_in (n : list Z) (x : object) (o : object) : Prop :=
  match o with ONull => False | Obj m _ _ _ nx => (m = Some n /\ x = o) \/ obj_in n x nx end.

Lemma prop_in_names : forall p n v, prop_in n v p -> In (Some n) (prop_names p).
Proof. induction p as [|m w nx IH]; cbn; intros n v H; [contradiction|]. destruct H as [[-> _]|H]; eauto. Qed.
Lemma obj_in_names : forall o n v, obj_in n v o -> In (Some n) (obj_names o).
Proof. fix IH 1. intros [|m t ps ch nx] n v H; cbn in *; [contradiction|]. destruct H as [[-> _]|H]; eauto. Qed.

Lemma find_prop_in : forall p n v, well_named_props p -> prop_in n v p -> find_prop n p = Ok (Some v).
Proof.
  induction p as [|m w nx IH]; cbn; intros n v W H; [contradiction|].
  destruct W as (Nn & Nd & Wv & Wn). destruct m as [m|]; [|congruence].
  destruct H as [[E ->]|H].
  - injection E as ->. now rewrite c_strcmp_refl.
  - destruct (c_strcmp n m =? 0) eqn:E; [|auto].
    apply Z.eqb_eq in E. apply c_strcmp_eq in E. subst m.
    exfalso. apply Nd. eapply prop_in_names. eassumption.
Qed.
Lemma find_obj_in : forall o n x, well_named_objs o -> obj_in n x o -> find_obj n o = Ok (Some x).
Proof.
  fix IH 1. intros [|m t ps ch nx] n v W H; cbn in *; [contradiction|].
  destruct W as (Nn & Nd & Wp & Wc & Wn). destruct m as [m|]; [|congruence].
  destruct H as [[E ->]|H].
  - injection E as ->. now rewrite c_strcmp_refl.
  - destruct (c_strcmp n m =? 0) eqn:E; [|apply (IH nx); assumption].
    apply Z.eqb_eq in E. apply c_strcmp_eq in E. subst m.
    exfalso. apply Nd. eapply obj_in_names. eassumption.
Qed.
Lemma extra_prop_none : forall p q, well_named_props p ->
  (forall n v, prop_in n v p -> find_prop n q = Ok (Some v)) -> extra_prop p q = Ok false.
Proof.
  induction p as [|m w nx IH]; cbn; intros q W H; [reflexivity|].
  destruct W as (Nn & Nd & Wv & Wn). destruct m as [m|]; [|congruence].
  rewrite (H m w) by auto. cbn. apply IH; auto.
Qed.
Lemma extra_obj_none : forall o q, well_named_objs o ->
  (forall n v, obj_in n v o -> find_obj n q = Ok (Some v)) -> extra_obj o q = Ok false.
Proof.
  fix IH 1. intros [|m t ps ch nx] q W H; cbn in *; [reflexivity|].
  destruct W as (Nn & Nd & Wp & Wc & Wn). destruct m as [m|]; [|congruence].
  rewrite (H m (Obj (Some m) t ps ch nx)) by auto. cbn. apply (IH nx); auto.
Qed.

Lemma compare_refl_all :
  (forall v, well_named v -> value_compare v v = Ok 0) /\
  (forall p, well_named_props p ->
     (forall q, (forall n v, prop_in n v p -> find_prop n q = Ok (Some v)) -> props_vs p q = Ok 0) /\
     (match p with PCons _ w _ => value_compare w w = Ok 0 | PNil => True end)) /\
  (forall o, well_named_objs o ->
     (forall q, (forall n x, obj_in n x o -> find_obj n q = Ok (Some x)) -> children_vs o q = Ok 0) /\
     (match o with
      | Obj n _ ps ch _ => object_result n n ps ps ch ch (props_vs ps ps) (children_vs ch ch) = Ok 0
      | ONull => True
      end)).
Proof.
  apply value_mutind; intros; auto; try (apply well_named_coerce; [exact I|reflexivity]).
  - apply well_named_coerce; [exact H|reflexivity].
  - apply well_named_coerce; [exact H|reflexivity].
  - cbn in H. destruct s as [s|]; [|contradiction]. cbn. now rewrite c_strcmp_refl.
  - cbn in H. destruct s as [s|]; [|contradiction]. cbn -[Nat.ltb Z.eqb].
    destruct (memcmp_strcmp s s) as (c & E & R); [lia|]. rewrite E. rewrite R, c_strcmp_refl. reflexivity.
  - cbn in H0. destruct H0 as [Nn W]. destruct p as [|n w nx]; [congruence|].
    destruct (H W) as [_ E]. destruct W as (Hn & _). destruct n as [n|]; [|congruence].
    cbn. rewrite c_strcmp_refl. exact E.
  - cbn in H0. destruct H0 as [Nn W]. destruct o as [|n t ps ch nx]; [congruence|].
    destruct (H W) as [_ E]. exact E.
  - cbn in H1. destruct H1 as (Nn & Nd & Wv & Wn). split; [|auto].
    intros q Hq. destruct name as [m|]; [|congruence]. cbn.
    rewrite (Hq m v) by (cbn; auto). cbn. rewrite (H Wv). cbn.
    apply (H0 Wn). intros. apply Hq. cbn. auto.
  - cbn in H2. destruct H2 as (Nn & Nd & Wp & Wc & Wn).
    assert (O : object_result name name props props children children (props_vs props props) (children_vs children children) = Ok 0).
    { destruct name as [m|]; [|congruence]. unfold object_result. cbn. rewrite c_strcmp_refl. cbn.
      destruct (H Wp) as [Hp _]. destruct (H0 Wc) as [Hc _].
      rewrite Hp by (intros; now apply find_prop_in). cbn.
      rewrite extra_prop_none by (auto; intros; now apply find_prop_in). cbn.
      rewrite Hc by (intros; now apply find_obj_in). cbn.
      rewrite extra_obj_none by (auto; intros; now apply find_obj_in). reflexivity. }
    split; [|exact O].
    intros q Hq. destruct name as [m|]; [|congruence]. cbn [children_vs].
    rewrite (Hq m (Obj (Some m) otype props children next)) by (cbn; auto). cbn [obind].
    rewrite O. cbn. apply (H1 Wn). intros. apply Hq. cbn. auto.
Qed.
Lemma compare_refl : forall v, well_named v -> value_compare v v = Ok 0.
Proof. apply compare_refl_all. Qed.

(** * Filters *)
Scheme holds_ind2 := Induction for holds Sort Prop with fails_ind2 := Induction for fails Sort Prop.

Lemma rel_reading_dec : forall op c, 
  (if op =? OP_GREATER_THAN then 0 <? c
   else if op =? OP_GREATER_THAN_OR_EQUAL then 0 <=? c
   else if op =? OP_LESS_THAN then c <? 0
   else if op =? OP_LESS_THAN_OR_EQUAL then c <=? 0
   else if op =? OP_EQUAL then c =? 0
   else if op =? OP_NOT_EQUAL then negb (c =? 0)
   else false) = true <-> rel_reading op c.
Proof.
  intros op c. unfold rel_reading, OP_GREATER_THAN, OP_GREATER_THAN_OR_EQUAL, OP_LESS_THAN,
    OP_LESS_THAN_OR_EQUAL, OP_EQUAL, OP_NOT_EQUAL.
  destruct (op =? 0) eqn:E0; [lia|]. destruct (op =? 1) eqn:E1; [lia|]. destruct (op =? 2) eqn:E2; [lia|].
  destruct (op =? 3) eqn:E3; [lia|]. destruct (op =? 4) eqn:E4; [lia|]. destruct (op =? 5) eqn:E5; lia.
Qed.

Lemma relation_apply_reading : forall op k v c, value_compare v k = Ok c ->
  exists b, relation_apply op k v = Ok b /\ (b = true <-> rel_reading op c).
Proof.
  intros op k v c H. unfold relation_apply. rewrite H. cbn [obind].
  exists (if op =? OP_GREATER_THAN then 0 <? c
   else if op =? OP_GREATER_THAN_OR_EQUAL then 0 <=? c
   else if op =? OP_LESS_THAN then c <? 0
   else if op =? OP_LESS_THAN_OR_EQUAL then c <=? 0
   else if op =? OP_EQUAL then c =? 0
   else if op =? OP_NOT_EQUAL then negb (c =? 0)
   else false).
  split; [|apply rel_reading_dec].
  repeat match goal with |- context [if ?x =? ?y then _ else _] => destruct (x =? y); [reflexivity|] end.
  reflexivity.
Qed.

Lemma filter_apply_holds : forall v cmp f,
  (forall k, In k (constants f) -> value_compare v k = Ok (cmp k)) ->
  exists b, filter_apply f v = Ok b /\ if (b : bool) then holds cmp f else fails cmp f.
Proof.
  intros v cmp. induction f as [|op k|op l IHl r IHr]; cbn [constants filter_apply]; intros H.
  - exists false. split; [reflexivity|constructor].
  - destruct (relation_apply_reading op k v (cmp k)) as (b & E & R); [apply H; now left|].
    exists b. split; [exact E|]. destruct b; constructor; [now apply R|]. intro X. apply R in X. discriminate.
  - destruct IHl as (bl & El & Hl). { intros. apply H, in_or_app. auto. }
    rewrite El. cbn [obind]. unfold OP_NOT, OP_AND, OP_OR in *.
    destruct (op =? 2) eqn:E2; cbn [negb obind].
    + assert (op = 2) by lia. subst op. cbn. exists (negb bl). split; [reflexivity|].
      destruct bl; cbn; constructor; exact Hl.
    + destruct IHr as (br & Er & Hr). { intros. apply H, in_or_app. auto. }
      rewrite Er. cbn [obind].
      destruct (op =? 0) eqn:E0; [|destruct (op =? 1) eqn:E1].
      * assert (op = 0) by lia. subst op. exists (bl && br). split; [reflexivity|].
        destruct bl, br; cbn; [now apply h_and|now apply f_and_r|now apply f_and_l|now apply f_and_l].
      * assert (op = 1) by lia. subst op. exists (bl || br). split; [reflexivity|].
        destruct bl, br; cbn; [now apply h_or_l|now apply h_or_l|now apply h_or_r|now apply f_or].
      * exists false. split; [reflexivity|]. apply f_other; lia.
Qed.

Lemma holds_fails_excl : forall cmp f, ~ (holds cmp f /\ fails cmp f).
Proof.
  intros cmp. induction f as [|op k|op l IHl r IHr]; intros [H F]; inversion H; inversion F; subst; try lia; auto; tauto.
Qed.

Lemma filter_apply_int : forall f v n, integer_of v = Some n -> Z.abs n <= 2 ^ 53 -> int_filter f = true ->
  filter_apply f v = Ok (int_filter_holds f n).
Proof.
  intros f v n Hv Hn. induction f as [|op k|op l IHl r IHr]; cbn [int_filter filter_apply int_filter_holds]; intros H.
  - reflexivity.
  - destruct (integer_of k) as [m|] eqn:Ek; [|discriminate].
    unfold relation_apply. rewrite (integers_compare v k n m Hv Ek), !int_double_small by lia. cbn [obind].
    unfold rel_holds, OP_GREATER_THAN, OP_GREATER_THAN_OR_EQUAL, OP_LESS_THAN, OP_LESS_THAN_OR_EQUAL, OP_EQUAL, OP_NOT_EQUAL.
    destruct op as [|op|op]; [cbn [Z.eqb]|..].
    + destruct (Z.compare_spec n m); cbn [sgn]; f_equal; lia.
    + destruct op as [op|op|]; [destruct op as [op|op|]|destruct op as [op|op|]|];
        try destruct op; cbn [Z.eqb Pos.eqb]; try reflexivity;
        destruct (Z.compare_spec n m); cbn [sgn]; f_equal; lia.
    + reflexivity.
  - apply andb_true_iff in H as [Hl Hr]. rewrite (IHl Hl). cbn [obind].
    unfold OP_NOT, OP_AND, OP_OR in *.
    destruct (op =? 2) eqn:E2; cbn [negb obind orb] in *.
    + assert (op = 2) by lia. subst op. reflexivity.
    + rewrite (IHr Hr). cbn [obind].
      destruct (op =? 0) eqn:E0; [|destruct (op =? 1) eqn:E1].
      * assert (op = 0) by lia. subst op. reflexivity.
      * assert (op = 1) by lia. subst op. reflexivity.
      * destruct op as [|op|op]; [discriminate| |reflexivity].
        destruct op as [op|op|]; [reflexivity|destruct op; try reflexivity; discriminate|discriminate].
Qed.
