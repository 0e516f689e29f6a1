From Coq Require Import ZifyBool.
From Verif Require Import Common CommonFacts Base64Model Base64Spec.
Local Open Scope Z_scope.

(** ** Bits *)
Lemma high_bit a k n : 0 <= a < 2 ^ k -> 0 <= k -> k <= n -> Z.testbit a n = false.
Proof.
  intros H K N. destruct (Z.eq_dec a 0) as [->|Z0]; [apply Z.testbit_0_l|]. apply Z.bits_above_log2; [lia|].
  assert (Z.log2 a < k) by (apply Z.log2_lt_pow2; lia). lia.
Qed.

Lemma bits8_inj a b : 0 <= a < 256 -> 0 <= b < 256 -> bits8 a = bits8 b -> a = b.
Proof.
  intros A B E. apply Z.bits_inj'. intros n N. unfold bits8 in E. cbn [map] in E. injection E as E7 E6 E5 E4 E3 E2 E1 E0.
  destruct (Z_lt_ge_dec n 8) as [L|G].
  - assert (n = 0 \/ n = 1 \/ n = 2 \/ n = 3 \/ n = 4 \/ n = 5 \/ n = 6 \/ n = 7) as X by lia.
    repeat destruct X as [->|X]; subst; auto.
  - rewrite !(high_bit _ 8) by (try change (2 ^ 8) with 256; lia). reflexivity.
Qed.

Lemma bits6_inj a b : 0 <= a < 64 -> 0 <= b < 64 -> bits6 a = bits6 b -> a = b.
Proof.
  intros A B E. apply Z.bits_inj'. intros n N. unfold bits6 in E. cbn [map] in E. injection E as E5 E4 E3 E2 E1 E0.
  destruct (Z_lt_ge_dec n 6) as [L|G].
  - assert (n = 0 \/ n = 1 \/ n = 2 \/ n = 3 \/ n = 4 \/ n = 5) as X by lia.
    repeat destruct X as [->|X]; subst; auto.
  - rewrite !(high_bit _ 6) by (try change (2 ^ 6) with 64; lia). reflexivity.
Qed.

Lemma uchar_bit x n : 0 <= n < 8 -> Z.testbit (uchar x) n = Z.testbit x n.
Proof. intros H. unfold uchar. change 256 with (2 ^ 8). apply Z.mod_pow2_bits_low. lia. Qed.

Lemma uchar_range x : 0 <= uchar x < 256.
Proof. unfold uchar. apply Z.mod_pos_bound. lia. Qed.

Ltac bit := repeat first
  [ rewrite Z.lor_spec | rewrite Z.land_spec | rewrite Z.shiftl_spec by lia | rewrite Z.shiftr_spec by lia ].
Ltac tidy :=
  repeat match goal with |- context[Z.testbit ?a ?n] => is_var a; let m := eval vm_compute in n in progress change n with m end;
  change (Z.testbit 3 1) with true; change (Z.testbit 3 0) with true.

Lemma byte0_bits x y : 0 <= x < 64 -> 0 <= y < 64 ->
  bits8 (byte0 x y) = bits6 x ++ [Z.testbit y 5; Z.testbit y 4].
Proof.
  intros X Y. unfold bits8, bits6, byte0. cbn [map app]. rewrite !uchar_bit by lia. bit.
  cbn [Z.add Z.sub Z.opp Z.pos_sub Pos.add Pos.succ Pos.pred_double Pos.add_carry].
  rewrite !(high_bit y 6) by (try change (2 ^ 6) with 64; lia).
  rewrite !orb_false_r. reflexivity.
Qed.

Ltac bits := cbn [Z.add Z.sub Z.opp Z.pos_sub Pos.add Pos.succ Pos.pred_double Pos.add_carry].

Lemma byte1_bits x y : 0 <= x < 64 -> 0 <= y < 64 ->
  bits8 (byte1 x y) = [Z.testbit x 3; Z.testbit x 2; Z.testbit x 1; Z.testbit x 0;
                       Z.testbit y 5; Z.testbit y 4; Z.testbit y 3; Z.testbit y 2].
Proof.
  intros X Y. unfold bits8, byte1. cbn [map app]. rewrite !uchar_bit by lia. bit. bits.
  rewrite !(high_bit y 6) by (try change (2 ^ 6) with 64; lia).
  rewrite !orb_false_r. reflexivity.
Qed.

Lemma byte2_bits x y : 0 <= x < 64 -> 0 <= y < 64 ->
  bits8 (byte2 x y) = [Z.testbit x 1; Z.testbit x 0] ++ bits6 y.
Proof.
  intros X Y. unfold bits8, bits6, byte2. cbn [map app]. rewrite !uchar_bit by lia. bit. bits.
  rewrite !(high_bit y 6 7), !(high_bit y 6 6) by (try change (2 ^ 6) with 64; lia).
  cbn [andb]. rewrite !orb_false_r.
  change (Z.testbit 63 5) with true. change (Z.testbit 63 4) with true. change (Z.testbit 63 3) with true.
  change (Z.testbit 63 2) with true. change (Z.testbit 63 1) with true. change (Z.testbit 63 0) with true.
  rewrite !andb_true_r. reflexivity.
Qed.

Lemma byte_ranges x y : (0 <= byte0 x y < 256) /\ (0 <= byte1 x y < 256) /\ (0 <= byte2 x y < 256).
Proof. unfold byte0, byte1, byte2. repeat split; apply uchar_range. Qed.

(** The sextets of the encoder. *)
Definition s0 (a : Z) := Z.shiftr a 2.
Definition s1 (a b : Z) := Z.lor (Z.shiftl (Z.land a 3) 4) (Z.shiftr b 4).
Definition s2 (b c : Z) := Z.lor (Z.shiftl (Z.land b 15) 2) (Z.shiftr c 6).
Definition s3 (c : Z) := Z.land c 63.

Lemma small_bits x : (forall n, 6 <= n -> Z.testbit x n = false) -> 0 <= x -> 0 <= x < 64.
Proof.
  intros B N. split; [exact N|]. destruct (Z_lt_ge_dec x 64) as [L|G]; [exact L|exfalso].
  assert (P : 0 < x) by lia. pose proof (Z.bit_log2 x P) as T. rewrite B in T; [discriminate|].
  change 6 with (Z.log2 64). apply Z.log2_le_mono. lia.
Qed.

Lemma const_high n : 6 <= n -> Z.testbit 3 (n - 4) = false /\ Z.testbit 15 (n - 2) = false /\ Z.testbit 63 n = false.
Proof.
  intros N. repeat split; [apply (high_bit 3 2)|apply (high_bit 15 4)|apply (high_bit 63 6)]; try lia;
    cbv; intuition congruence.
Qed.

Lemma s0_range a : 0 <= a < 256 -> 0 <= s0 a < 64.
Proof.
  intros A. apply small_bits; [|apply Z.shiftr_nonneg; lia]. intros n N. unfold s0. bit.
  apply (high_bit a 8); [change (2 ^ 8) with 256|..]; lia.
Qed.

Lemma s1_range a b : 0 <= a < 256 -> 0 <= b < 256 -> 0 <= s1 a b < 64.
Proof.
  intros A B. apply small_bits.
  - intros n N. unfold s1. bit. destruct (const_high n N) as (C & _). rewrite C, andb_false_r.
    apply (high_bit b 8); [change (2 ^ 8) with 256|..]; lia.
  - apply Z.lor_nonneg. split; [apply Z.shiftl_nonneg; apply Z.land_nonneg; lia|apply Z.shiftr_nonneg; lia].
Qed.

Lemma s2_range a b : 0 <= a < 256 -> 0 <= b < 256 -> 0 <= s2 a b < 64.
Proof.
  intros A B. apply small_bits.
  - intros n N. unfold s2. bit. destruct (const_high n N) as (_ & C & _). rewrite C, andb_false_r.
    apply (high_bit b 8); [change (2 ^ 8) with 256|..]; lia.
  - apply Z.lor_nonneg. split; [apply Z.shiftl_nonneg; apply Z.land_nonneg; lia|apply Z.shiftr_nonneg; lia].
Qed.

Lemma s3_range a : 0 <= a < 256 -> 0 <= s3 a < 64.
Proof.
  intros A. apply small_bits; [|apply Z.land_nonneg; lia]. intros n N. unfold s3. bit.
  destruct (const_high n N) as (_ & _ & C). rewrite C, andb_false_r. reflexivity.
Qed.

Lemma s0_bits a : bits6 (s0 a) = [Z.testbit a 7; Z.testbit a 6; Z.testbit a 5; Z.testbit a 4; Z.testbit a 3; Z.testbit a 2].
Proof. unfold bits6, s0. cbn [map]. bit. reflexivity. Qed.

Lemma s1_bits a b : 0 <= b < 256 ->
  bits6 (s1 a b) = [Z.testbit a 1; Z.testbit a 0; Z.testbit b 7; Z.testbit b 6; Z.testbit b 5; Z.testbit b 4].
Proof.
  intros B. unfold bits6, s1. cbn [map]. bit. bits.
  rewrite !(high_bit b 8 9), !(high_bit b 8 8) by (try change (2 ^ 8) with 256; lia).
  rewrite !orb_false_r. change (Z.testbit 3 1) with true. change (Z.testbit 3 0) with true. rewrite !andb_true_r. reflexivity.
Qed.

Lemma s2_bits a b : 0 <= b < 256 ->
  bits6 (s2 a b) = [Z.testbit a 3; Z.testbit a 2; Z.testbit a 1; Z.testbit a 0; Z.testbit b 7; Z.testbit b 6].
Proof.
  intros B. unfold bits6, s2. cbn [map]. bit. bits.
  rewrite !(high_bit b 8 11), !(high_bit b 8 10), !(high_bit b 8 9), !(high_bit b 8 8) by (try change (2 ^ 8) with 256; lia).
  rewrite !orb_false_r. change (Z.testbit 15 3) with true. change (Z.testbit 15 2) with true.
  change (Z.testbit 15 1) with true. change (Z.testbit 15 0) with true. rewrite !andb_true_r. reflexivity.
Qed.

Lemma s3_bits a : bits6 (s3 a) = [Z.testbit a 5; Z.testbit a 4; Z.testbit a 3; Z.testbit a 2; Z.testbit a 1; Z.testbit a 0].
Proof.
  unfold bits6, s3. cbn [map]. bit.
  change (Z.testbit 63 5) with true. change (Z.testbit 63 4) with true. change (Z.testbit 63 3) with true.
  change (Z.testbit 63 2) with true. change (Z.testbit 63 1) with true. change (Z.testbit 63 0) with true.
  rewrite !andb_true_r. reflexivity.
Qed.

Lemma s1_zero a : Z.shiftl (Z.land a 3) 4 = s1 a 0.
Proof. unfold s1. rewrite Z.shiftr_0_l, Z.lor_0_r. reflexivity. Qed.
Lemma s2_zero a : Z.shiftl (Z.land a 15) 2 = s2 a 0.
Proof. unfold s2. rewrite Z.shiftr_0_l, Z.lor_0_r. reflexivity. Qed.

(** ** Characters *)
Lemma table_alphabet : table = alphabet. Proof. reflexivity. Qed.

Lemma lookup_stands s : 0 <= s < 64 -> exists c, lookup s = Ok c /\ stands c s.
Proof.
  intros H. unfold lookup, stands. rewrite table_alphabet.
  assert (L : (Z.to_nat s < length alphabet)%nat) by (change (length alphabet) with 64%nat; lia).
  rewrite nth_error_app1 by exact L. destruct (nth_error alphabet (Z.to_nat s)) as [c|] eqn:E.
  - exists c. auto.
  - apply nth_error_None in E. lia.
Qed.

Lemma decode_all_chars : forallb (fun i => match nth_error alphabet i with
    Some c => let (s, e) := decode_char c in (s =? Z.of_nat i) && negb e | None => false end) (seq 0 64) = true.
Proof. vm_compute. reflexivity. Qed.

Lemma decode_stands c s : stands c s -> decode_char c = (s, false).
Proof.
  intros (H & E). pose proof decode_all_chars as X. rewrite forallb_forall in X.
  specialize (X (Z.to_nat s)). rewrite E in X. destruct (decode_char c) as (s', e).
  assert (Y : (s' =? Z.of_nat (Z.to_nat s)) && negb e = true) by (apply X; apply in_seq; lia).
  apply andb_true_iff in Y. destruct Y as (A & B). destruct e; [discriminate|]. f_equal. lia.
Qed.

Lemma chars_all : forallb (fun i => let c := Z.of_nat i in let (s, e) := decode_char c in
    e || ((0 <=? s) && (s <? 64) && match nth_error alphabet (Z.to_nat s) with Some d => d =? c | None => false end)) (seq 0 256) = true.
Proof. vm_compute. reflexivity. Qed.

Lemma decode_legal c s : decode_char c = (s, false) -> stands c s.
Proof.
  intros E. assert (R : 0 <= c < 256).
  { unfold decode_char in E. repeat match type of E with (if ?b then _ else _) = _ => destruct b eqn:? end; try congruence; lia. }
  pose proof chars_all as X. rewrite forallb_forall in X. specialize (X (Z.to_nat c)). cbv zeta in X.
  rewrite Z2Nat.id in X by lia. rewrite E in X. cbn [orb] in X.
  assert (Y : (0 <=? s) && (s <? 64) && match nth_error alphabet (Z.to_nat s) with Some d => d =? c | None => false end = true)
    by (apply X; apply in_seq; lia).
  rewrite !andb_true_iff in Y. destruct Y as ((A & B) & C). split; [lia|].
  destruct (nth_error alphabet (Z.to_nat s)) as [d|]; [|discriminate]. f_equal. lia.
Qed.

Lemma alphabet_pad : forallb (fun c => negb (c =? 61)) alphabet = true.
Proof. vm_compute. reflexivity. Qed.

Lemma stands_pad c s : stands c s -> (c =? PAD) = false.
Proof.
  intros (_ & E). pose proof alphabet_pad as X. rewrite forallb_forall in X.
  specialize (X c (nth_error_In _ _ E)). apply negb_true_iff in X. exact X.
Qed.

(** ** Three at a time *)
Lemma ind3 (P : list Z -> Prop) :
  P [] -> (forall a, P [a]) -> (forall a b, P [a; b]) -> (forall a b c l, P l -> P (a :: b :: c :: l)) -> forall l, P l.
Proof.
  intros P0 P1 P2 P3. assert (X : forall n l, (length l < n)%nat -> P l).
  { induction n as [|n IH]; intros l L; [lia|]. destruct l as [|a [|b [|c l]]]; auto. apply P3. apply IH. cbn in L. lia. }
  intros l. apply (X (S (length l))). lia.
Qed.

Lemma encode_ok l : data l -> exists t, encode_groups l = Ok t /\ writes t l /\
  (length t = 4 * ((length l + 2) / 3))%nat.
Proof.
  induction l as [|a|a b|a b c l IH] using ind3; intros D.
  - exists []. split; [reflexivity|]. split; [|reflexivity]. exists [], [], 0%nat, 0%nat. repeat (split; [solve [auto | constructor | reflexivity | lia]|]). reflexivity.
  - inversion D as [|? ? Da _]; subst. cbn [encode_groups]. fold (s0 a). rewrite s1_zero.
    destruct (lookup_stands (s0 a) (s0_range _ Da)) as (c0 & L0 & S0).
    destruct (lookup_stands (s1 a 0)) as (c1 & L1 & S1); [apply s1_range; lia|].
    rewrite L0. cbn [obind]. rewrite L1. cbn [obind]. eexists. split; [reflexivity|]. split; [|reflexivity].
    exists [c0; c1], [s0 a; s1 a 0], 4%nat, 2%nat. split; [reflexivity|]. split; [repeat constructor; auto; apply S0 || apply S1|].
    split; [|repeat split; lia || reflexivity].
    cbn [flat_map]. rewrite s0_bits, s1_bits by lia. rewrite !Z.testbit_0_l. reflexivity.
  - inversion D as [|? ? Da D1]; subst. inversion D1 as [|? ? Db _]; subst. cbn [encode_groups]. fold (s0 a) (s1 a b). rewrite s2_zero.
    destruct (lookup_stands (s0 a) (s0_range _ Da)) as (c0 & L0 & S0).
    destruct (lookup_stands (s1 a b) (s1_range _ _ Da Db)) as (c1 & L1 & S1).
    destruct (lookup_stands (s2 b 0)) as (c2 & L2 & S2); [apply s2_range; lia|].
    rewrite L0. cbn [obind]. rewrite L1. cbn [obind]. rewrite L2. cbn [obind]. eexists. split; [reflexivity|]. split; [|reflexivity].
    exists [c0; c1; c2], [s0 a; s1 a b; s2 b 0], 2%nat, 1%nat. split; [reflexivity|].
    split; [constructor; [exact S0|constructor; [exact S1|constructor; [exact S2|constructor]]]|].
    split; [|repeat split; lia || reflexivity].
    cbn [flat_map]. rewrite s0_bits, s1_bits, s2_bits by lia. rewrite !Z.testbit_0_l. reflexivity.
  - inversion D as [|? ? Da D1]; subst. inversion D1 as [|? ? Db D2]; subst. inversion D2 as [|? ? Dc D3]; subst.
    destruct (IH D3) as (t & E & (cs & ss & k & p & -> & F & B & K & P & M) & L).
    cbn [encode_groups]. fold (s0 a) (s1 a b) (s2 b c) (s3 c).
    destruct (lookup_stands (s0 a) (s0_range _ Da)) as (c0 & L0 & S0).
    destruct (lookup_stands (s1 a b) (s1_range _ _ Da Db)) as (c1 & L1 & S1).
    destruct (lookup_stands (s2 b c) (s2_range _ _ Db Dc)) as (c2 & L2 & S2).
    destruct (lookup_stands (s3 c) (s3_range _ Dc)) as (c3 & L3 & S3).
    rewrite L0. cbn [obind]. rewrite L1. cbn [obind]. rewrite L2. cbn [obind]. rewrite L3. cbn [obind]. rewrite E. cbn [obind].
    eexists. split; [reflexivity|]. split.
    + exists (c0 :: c1 :: c2 :: c3 :: cs), (s0 a :: s1 a b :: s2 b c :: s3 c :: ss), k, p. split; [reflexivity|].
      split; [repeat (constructor; [assumption|]); exact F|].
      split; [cbn [flat_map]; rewrite s0_bits, s1_bits, s2_bits, s3_bits by lia; cbn [app bits8 map]; rewrite B; reflexivity|].
      split; [exact K|]. split; [exact P|]. cbn [length app].
      change (S (S (S (S (length (cs ++ repeat 61 p)))))) with (4 + length (cs ++ repeat 61%Z p))%nat.
      rewrite <- Nat.add_mod_idemp_l by lia. change (4 mod 4)%nat with 0%nat. exact M.
    + cbn [length]. rewrite L. replace (S (S (S (length l))) + 2)%nat with (length l + 2 + 1 * 3)%nat by lia.
      rewrite Nat.div_add by lia. lia.
Qed.

(** ** Decoding *)
Local Opaque Z.testbit.
Definition core (pad : nat) (l : list Z) : outcome unit (list Z * bool) :=
  let full := (length l - (match pad with O => 0 | _ => 4 end))%nat in
  do (r, e) <- decode_groups (firstn full l);
  do (r', e') <- decode_last pad (skipn full l);
  Ok (r ++ r', e || e').

Lemma core_step pad a b c d l : (match pad with O => 0 | _ => 4 end <= length l)%nat ->
  core pad (a :: b :: c :: d :: l) =
    (let (a, ea) := decode_char a in let (b, eb) := decode_char b in
     let (c, ec) := decode_char c in let (d, ed) := decode_char d in
     do (r, e) <- core pad l; Ok (byte0 a b :: byte1 b c :: byte2 c d :: r, ea || eb || ec || ed || e)).
Proof.
  intros L. unfold core. set (w := match pad with O => 0%nat | _ => 4%nat end) in *. cbn [length].
  replace (S (S (S (S (length l)))) - w)%nat with (S (S (S (S (length l - w)))))%nat by lia.
  cbn [firstn skipn decode_groups].
  destruct (decode_char a) as (a', ea), (decode_char b) as (b', eb), (decode_char c) as (c', ec), (decode_char d) as (d', ed).
  destruct (decode_groups (firstn (length l - w) l)) as [(r, e)| |]; cbn [obind]; auto.
  destruct (decode_last pad (skipn (length l - w) l)) as [(r', e')| |]; cbn [obind]; auto.
  rewrite !orb_assoc. reflexivity.
Qed.

Lemma Forall2_cons_inv' {A B} (R : A -> B -> Prop) cs s ss : Forall2 R cs (s :: ss) -> exists c cs', cs = c :: cs' /\ R c s /\ Forall2 R cs' ss.
Proof. intros X. inversion X; subst. eauto. Qed.

Lemma core_ok l : data l -> forall cs ss k p, Forall2 stands cs ss ->
  flat_map bits6 ss = flat_map bits8 l ++ repeat false k -> (k < 6)%nat -> (p < 3)%nat ->
  ((length cs + p) mod 4 = 0)%nat ->
  core p (cs ++ repeat 61 p) = Ok (l, false) /\ (length cs + p = 4 * ((length l + 2) / 3))%nat /\
  (length l = 3 * ((length cs + p) / 4) - p)%nat.
Proof.
  induction l as [|a|a b|a b c l IH] using ind3; intros D cs ss k p F B K P M.
  - assert (ss = []). { destruct ss as [|s ss]; auto. cbn in B. apply (f_equal (@length bool)) in B. cbn in B. rewrite repeat_length in B. lia. }
    subst. inversion F; subst. cbn in M. assert (p = 0%nat) by (destruct p as [|[|[|]]]; cbn in M; lia). subst. repeat split.
  - inversion D as [|? ? Da _]; subst.
    assert (Ls : length (flat_map bits6 ss) = (6 * length ss)%nat).
    { clear. induction ss; cbn [flat_map length]; auto. rewrite app_length, IHss. cbn. lia. }
    rewrite B in Ls. cbn [flat_map] in Ls. rewrite !app_length, repeat_length in Ls. cbn in Ls.
    destruct ss as [|x [|y [|z ss]]]; cbn in Ls; try lia. assert (k = 4%nat) by lia. subst k.
    apply Forall2_cons_inv' in F. destruct F as (c0 & cs0 & -> & S0 & F). apply Forall2_cons_inv' in F. destruct F as (c1 & cs1 & -> & S1 & F).
    inversion F; subst. cbn in M. assert (p = 2%nat) by (destruct p as [|[|[|]]]; cbn in M; lia). subst p.
    split; [|split; reflexivity]. unfold core. cbn [app repeat length Nat.sub firstn skipn decode_groups decode_last obind].
    rewrite (decode_stands _ _ S0), (decode_stands _ _ S1). cbn [obind orb app]. f_equal. f_equal. f_equal.
    apply bits8_inj; [apply byte_ranges|exact Da|]. rewrite byte0_bits by (apply S0 || apply S1).
    cbn [flat_map bits6 bits8 map app repeat] in B |- *. injection B as B5 B4 B3 B2 B1 B0 A5 A4 _ _ _ _. congruence.
  - inversion D as [|? ? Da D1]; subst. inversion D1 as [|? ? Db _]; subst.
    assert (Ls : length (flat_map bits6 ss) = (6 * length ss)%nat).
    { clear. induction ss; cbn [flat_map length]; auto. rewrite app_length, IHss. cbn. lia. }
    rewrite B in Ls. cbn [flat_map] in Ls. rewrite !app_length, repeat_length in Ls. cbn in Ls.
    destruct ss as [|x [|y [|z [|w ss]]]]; cbn in Ls; try lia. assert (k = 2%nat) by lia. subst k.
    apply Forall2_cons_inv' in F. destruct F as (c0 & cs0 & -> & S0 & F). apply Forall2_cons_inv' in F. destruct F as (c1 & cs1 & -> & S1 & F).
    apply Forall2_cons_inv' in F. destruct F as (c2 & cs2 & -> & S2 & F).
    inversion F; subst. cbn in M. assert (p = 1%nat) by (destruct p as [|[|[|]]]; cbn in M; lia). subst p.
    split; [|split; reflexivity]. unfold core. cbn [app repeat length Nat.sub firstn skipn decode_groups decode_last obind].
    rewrite (decode_stands _ _ S0), (decode_stands _ _ S1), (decode_stands _ _ S2). cbn [obind orb app].
    cbn [flat_map bits6 bits8 map app repeat] in B. injection B as B5 B4 B3 B2 B1 B0 A5 A4 A3 A2 A1 A0 C5 C4 C3 C2 _ _.
    f_equal. f_equal. f_equal; [|f_equal]; (apply bits8_inj; [apply byte_ranges|assumption|]).
    + rewrite byte0_bits by (apply S0 || apply S1). cbn [bits6 bits8 map app]. congruence.
    + rewrite byte1_bits by (apply S1 || apply S2). cbn [bits6 bits8 map app]. congruence.
  - inversion D as [|? ? Da D1]; subst. inversion D1 as [|? ? Db D2]; subst. inversion D2 as [|? ? Dc D3]; subst.
    assert (Ls : length (flat_map bits6 ss) = (6 * length ss)%nat).
    { clear. induction ss; cbn [flat_map length]; auto. rewrite app_length, IHss. cbn. lia. }
    rewrite B in Ls. cbn [flat_map] in Ls. rewrite !app_length, repeat_length in Ls. cbn [length bits8 map] in Ls.
    destruct ss as [|x [|y [|z [|w ss]]]]; cbn in Ls; try lia. clear Ls.
    apply Forall2_cons_inv' in F. destruct F as (c0 & cs0 & -> & S0 & F). apply Forall2_cons_inv' in F. destruct F as (c1 & cs1 & -> & S1 & F).
    apply Forall2_cons_inv' in F. destruct F as (c2 & cs2 & -> & S2 & F). apply Forall2_cons_inv' in F. destruct F as (c3 & cs3 & -> & S3 & F).
    cbn [flat_map bits6 bits8 map app] in B.
    injection B as B5 B4 B3 B2 B1 B0 A5 A4 A3 A2 A1 A0 C5 C4 C3 C2 C1 C0 D5 D4 Q3 Q2 Q1 Q0 R.
    assert (M' : ((length cs3 + p) mod 4 = 0)%nat).
    { cbn [length] in M. change (S (S (S (S (length cs3)))) + p)%nat with (4 + (length cs3 + p))%nat in M.
      rewrite <- Nat.add_mod_idemp_l in M by lia. change (4 mod 4)%nat with 0%nat in M. exact M. }
    destruct (IH D3 cs3 ss k p F R K P M') as (E & L1 & L2).
    assert (W : (match p with O => 0 | _ => 4 end <= length (cs3 ++ repeat 61%Z p))%nat).
    { rewrite app_length, repeat_length. destruct p as [|p]; [lia|].
      destruct cs3 as [|? [|? [|? [|? cs3]]]]; cbn [length] in *; try lia; destruct p as [|[|]]; cbn in M'; lia. }
    cbn [app]. rewrite (core_step p c0 c1 c2 c3 _ W).
    rewrite (decode_stands _ _ S0), (decode_stands _ _ S1), (decode_stands _ _ S2), (decode_stands _ _ S3), E. cbn [obind orb].
    split; [|cbn [length]; split].
    + f_equal. f_equal. f_equal; [|f_equal; [|f_equal]]; (apply bits8_inj; [apply byte_ranges|assumption|]).
      * rewrite byte0_bits by (apply S0 || apply S1). cbn [bits6 bits8 map app]. congruence.
      * rewrite byte1_bits by (apply S1 || apply S2). cbn [bits6 bits8 map app]. congruence.
      * rewrite byte2_bits by (apply S2 || apply S3). cbn [bits6 bits8 map app]. congruence.
    + replace (S (S (S (length l))) + 2)%nat with (length l + 2 + 1 * 3)%nat by lia. rewrite Nat.div_add by lia. lia.
    + change (S (S (S (S (length cs3)))) + p)%nat with (4 + (length cs3 + p))%nat.
      replace (4 + (length cs3 + p))%nat with (length cs3 + p + 1 * 4)%nat by lia. rewrite Nat.div_add by lia.
      assert (length l = 0 -> p = 0)%nat.
      { intros Z0. destruct l; [|discriminate]. cbn in R, L1. destruct cs3; cbn in L1; lia. }
      lia.
Qed.

Lemma padding_ok cs ss p : Forall2 stands cs ss -> (p < 3)%nat -> ((length cs + p) mod 4 = 0)%nat -> cs <> [] ->
  padding (cs ++ repeat 61 p) = Ok p.
Proof.
  intros F P M N. unfold padding. rewrite rev_app_distr. destruct p as [|[|[|]]]; [| | |lia]; cbn [repeat rev app].
  - destruct (rev cs) as [|y [|x r]] eqn:R.
    + apply (f_equal (@rev Z)) in R. rewrite rev_involutive in R. contradiction.
    + apply (f_equal (@length Z)) in R. rewrite rev_length in R. rewrite R in M. discriminate.
    + assert (Px : (x =? PAD) = false /\ (y =? PAD) = false).
      { assert (I : In x cs /\ In y cs) by (split; apply in_rev; rewrite R; cbn; auto). destruct I as (I1 & I2).
        assert (Q : forall c, In c cs -> (c =? PAD) = false).
        { intros c I. clear - F I. induction F; [contradiction|]. destruct I as [<-|I]; auto. eapply stands_pad; eauto. }
        auto. }
      destruct Px as (-> & ->). reflexivity.
  - destruct (rev cs) as [|x r] eqn:R.
    + apply (f_equal (@rev Z)) in R. rewrite rev_involutive in R. contradiction.
    + assert (I : In x cs) by (apply in_rev; rewrite R; now left).
      assert (Q : (x =? PAD) = false) by (clear - F I; induction F; [contradiction|]; destruct I as [<-|I]; auto; eapply stands_pad; eauto).
      rewrite Q. reflexivity.
  - reflexivity.
Qed.

Lemma decode_ok t l : data l -> l <> [] -> writes t l -> (Z.of_nat (length t) <= TEXT_LIMIT)%Z -> decode t = Ok l.
Proof.
  intros D N (cs & ss & k & p & -> & F & B & K & P & M) L.
  rewrite app_length, repeat_length in M.
  destruct (core_ok l D cs ss k p F B K P M) as (E & L1 & L2).
  assert (Nc : cs <> []).
  { intros ->. inversion F; subst. destruct l; [contradiction|]. cbn in B. discriminate. }
  unfold decode. rewrite app_length, repeat_length in *.
  assert (T1 : (TEXT_LIMIT <? Z.of_nat (length cs + p)) = false) by lia. rewrite T1.
  assert (T2 : Z.of_nat (length cs + p) mod 4 =? 0 = true).
  { apply Z.eqb_eq. change 4 with (Z.of_nat 4). rewrite <- Nat2Z.inj_mod, M. reflexivity. }
  rewrite T2. cbn [negb]. rewrite (padding_ok cs ss p F P M Nc). cbn [obind].
  unfold core in E. rewrite app_length, repeat_length in E.
  destruct (decode_groups _) as [(r, e)| |]; cbn [obind] in *; try discriminate.
  destruct (decode_last _ _) as [(r', e')| |]; cbn [obind] in *; try discriminate.
  injection E as <- Ee. rewrite Ee.
  assert (X : (length cs + p = 4 * ((length cs + p) / 4))%nat).
  { pose proof (Nat.div_mod (length cs + p) 4 ltac:(lia)) as Q. rewrite M, Nat.add_0_r in Q. exact Q. }
  assert (T3 : (Z.of_nat (length (r ++ r')) =? Z.of_nat (length cs + p) * 3 / 4 - Z.of_nat p) = true).
  { apply Z.eqb_eq. rewrite L2. rewrite X at 2. set (q := ((length cs + p) / 4)%nat) in *.
    replace (Z.of_nat (4 * q) * 3) with (Z.of_nat q * 3 * 4) by lia. rewrite Z.div_mul by lia.
    assert (1 <= q)%nat by (destruct cs; [contradiction|]; cbn [length] in X; lia). lia. }
  rewrite T3. reflexivity.
Qed.

(** What is accepted. *)
Lemma core_only : forall n l, (length l <= 4 * n)%nat -> forall pad, (pad < 3)%nat -> (length l mod 4 = 0)%nat ->
  (pad <> 0%nat -> l <> []) ->
  exists r e, core pad l = Ok (r, e) /\ data r /\ (length r = 3 * (length l / 4) - pad)%nat /\
   (e = false -> exists cs ss z k, l = cs ++ z /\ length z = pad /\ Forall2 stands cs ss /\
      flat_map bits6 ss = flat_map bits8 r ++ k /\ (length k < 6)%nat).
Proof.
  induction n as [|n IH]; intros l L pad P M N.
  - destruct l; [|cbn in L; lia]. assert (pad = 0%nat) by (destruct pad; auto; exfalso; apply N; auto). subst.
    exists [], false. repeat split; [constructor|]. intros _. exists [], [], [], []. repeat split; [constructor|cbn; lia].
  - destruct l as [|a [|b [|c [|d l]]]]; try (cbn in M; discriminate).
    + assert (pad = 0%nat) by (destruct pad; auto; exfalso; apply N; auto). subst.
      exists [], false. repeat split; [constructor|]. intros _. exists [], [], [], []. repeat split; [constructor|cbn; lia].
    + assert (M' : (length l mod 4 = 0)%nat).
      { cbn [length] in M. change (S (S (S (S (length l))))) with (4 + length l)%nat in M.
        rewrite <- Nat.add_mod_idemp_l in M by lia. exact M. }
      assert (Dv : (S (S (S (S (length l)))) / 4 = S (length l / 4))%nat).
      { replace (S (S (S (S (length l))))) with (length l + 1 * 4)%nat by lia. rewrite Nat.div_add by lia. lia. }
      destruct (le_lt_dec (match pad with O => 0%nat | _ => 4%nat end) (length l)) as [W|W].
      * destruct (IH l ltac:(cbn in L; lia) pad P M') as (r & e & E & Dr & Lr & X).
        { intros Np ->. destruct pad; [congruence|]. cbn in W. lia. }
        rewrite (core_step pad a b c d l W), E.
        destruct (decode_char a) as (a', ea) eqn:Ea, (decode_char b) as (b', eb) eqn:Eb, (decode_char c) as (c', ec) eqn:Ec, (decode_char d) as (d', ed) eqn:Ed.
        cbn [obind]. exists (byte0 a' b' :: byte1 b' c' :: byte2 c' d' :: r), (ea || eb || ec || ed || e).
        split; [reflexivity|]. split; [repeat (constructor; [apply byte_ranges|]); exact Dr|].
        split. { cbn [length]. rewrite Dv, Lr. assert (length l = 0 -> pad = 0)%nat by (intros; destruct pad; auto; lia).
          assert (length l <> 0 -> 1 <= length l / 4)%nat.
          { intros Nz. destruct l as [|? [|? [|? [|? l']]]]; try (cbn in M'; discriminate); [exfalso; apply Nz; reflexivity|].
            cbn [length]. replace (S (S (S (S (length l'))))) with (length l' + 1 * 4)%nat by lia. rewrite Nat.div_add by lia. lia. }
          lia. }
        intros Ee. rewrite !orb_false_iff in Ee. destruct Ee as ((((-> & ->) & ->) & ->) & ->).
        destruct (X eq_refl) as (cs & ss & z & k & -> & Lz & F & B & K).
        apply decode_legal in Ea, Eb, Ec, Ed.
        exists (a :: b :: c :: d :: cs), (a' :: b' :: c' :: d' :: ss), z, k. split; [reflexivity|]. split; [exact Lz|].
        split; [repeat (constructor; [assumption|]); exact F|]. split; [|exact K].
        cbn [flat_map]. rewrite byte0_bits by (apply Ea || apply Eb). rewrite byte1_bits by (apply Eb || apply Ec).
        rewrite byte2_bits by (apply Ec || apply Ed). rewrite B. cbn [bits6 map app]. reflexivity.
      * destruct pad as [|pad]; [lia|]. assert (l = []).
        { destruct l as [|? [|? [|? [|? l']]]]; try (cbn in M'; discriminate); auto. cbn in W. lia. }
        subst l. unfold core. cbn [length Nat.sub firstn skipn decode_groups decode_last obind].
        destruct pad as [|[|]]; [| |lia].
        -- destruct (decode_char a) as (a', ea) eqn:Ea, (decode_char b) as (b', eb) eqn:Eb, (decode_char c) as (c', ec) eqn:Ec.
           cbn [obind orb app]. eexists. eexists. split; [reflexivity|]. split; [repeat (constructor; [apply byte_ranges|]); constructor|].
           split; [reflexivity|]. intros Ee. rewrite !orb_false_iff in Ee. destruct Ee as ((-> & ->) & ->).
           apply decode_legal in Ea, Eb, Ec.
           exists [a; b; c], [a'; b'; c'], [d], [Z.testbit c' 1; Z.testbit c' 0]. split; [reflexivity|]. split; [reflexivity|].
           split; [repeat (constructor; [assumption|]); constructor|]. split; [|cbn; lia].
           cbn [flat_map]. rewrite byte0_bits by (apply Ea || apply Eb). rewrite byte1_bits by (apply Eb || apply Ec). reflexivity.
        -- destruct (decode_char a) as (a', ea) eqn:Ea, (decode_char b) as (b', eb) eqn:Eb.
           cbn [obind orb app]. eexists. eexists. split; [reflexivity|]. split; [repeat (constructor; [apply byte_ranges|]); constructor|].
           split; [reflexivity|]. intros Ee. rewrite !orb_false_iff in Ee. destruct Ee as (-> & ->).
           apply decode_legal in Ea, Eb.
           exists [a; b], [a'; b'], [c; d], [Z.testbit b' 3; Z.testbit b' 2; Z.testbit b' 1; Z.testbit b' 0]. split; [reflexivity|]. split; [reflexivity|].
           split; [repeat (constructor; [assumption|]); constructor|]. split; [|cbn; lia].
           cbn [flat_map]. rewrite byte0_bits by (apply Ea || apply Eb). reflexivity.
Qed.
