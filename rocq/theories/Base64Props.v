(** C01: binary data written as base 64 text and read back. *)
From Coq Require Import String ZifyBool.
From Verif Require Import Common CommonFacts Base64Model Base64Spec Base64Proofs.
Local Open Scope string_scope.
Local Open Scope list_scope.
Local Open Scope Z_scope.

(** Data of up to 1026 bytes is written as the text that stands for it, and
    the reported size is large enough for the text and its terminator. *)
Theorem C01_base64_encode l : data l -> (Z.of_nat (length l) <= 1026) ->
  exists t n, encode l = Ok (t, n) /\ writes t l /\ Z.of_nat (length t) < n /\
    Z.of_nat (length t) = 4 * ((Z.of_nat (length l) + 2) / 3).
Proof.
  intros D L. destruct (encode_ok l D) as (t & E & W & Lt). unfold encode.
  replace (BINARY_LIMIT <? Z.of_nat (length l)) with false by (unfold BINARY_LIMIT; lia).
  rewrite E. cbn [obind].
  assert (X : Z.of_nat (length t) = 4 * ((Z.of_nat (length l) + 2) / 3)).
  { rewrite Lt, Nat2Z.inj_mul, Nat2Z.inj_div, Nat2Z.inj_add. reflexivity. }
  assert (Y : Z.of_nat (length t) + 1 <= encode_size (Z.of_nat (length l))).
  { rewrite X. unfold encode_size. generalize (Z.of_nat (length l)). intros z.
    destruct (z mod 3 =? 0) eqn:M; Z.div_mod_to_equations; lia. }
  exists t, (encode_size (Z.of_nat (length l))). replace (_ <=? _) with true by lia. repeat split; auto; lia.
Qed.
Print Assumptions C01_base64_encode.

Definition man : list Z := bs "Many hands".

Example C01_base64_encode_witness : data man /\ Z.of_nat (length man) <= 1026 /\
  encode man = Ok (bs "TWFueSBoYW5kcw==", 18).
Proof. split; [repeat constructor; lia|]. split; vm_compute; [discriminate|reflexivity]. Qed.

(** A text that stands for data is read as that data. *)
Theorem C01_base64_decode t l : data l -> l <> [] -> writes t l -> Z.of_nat (length t) <= 1368 -> decode t = Ok l.
Proof. intros D N W L. apply decode_ok; auto. Qed.
Print Assumptions C01_base64_decode.

Example C01_base64_decode_witness : exists t, data man /\ man <> [] /\ writes t man /\ Z.of_nat (length t) <= 1368.
Proof.
  destruct C01_base64_encode_witness as (D & L & E). destruct (C01_base64_encode man D L) as (t & n & E' & W & _).
  rewrite E in E'. injection E' as <- <-. eexists. split; [exact D|]. split; [discriminate|]. split; [exact W|].
  vm_compute. discriminate.
Qed.

(** What is written is read back unchanged.  Partial: empty data is written
    as the empty text, which cannot be read ([C01_base64_empty_refuted]). *)
Theorem C01_base64_roundtrip_partial l : data l -> l <> [] -> Z.of_nat (length l) <= 1026 ->
  exists t n, encode l = Ok (t, n) /\ decode t = Ok l.
Proof.
  intros D N L. destruct (C01_base64_encode l D L) as (t & n & E & W & _ & Lt). exists t, n. split; [exact E|].
  apply C01_base64_decode; auto. rewrite Lt. Z.div_mod_to_equations; lia.
Qed.
Print Assumptions C01_base64_roundtrip_partial.

Example C01_witness : data man /\ man <> [] /\ Z.of_nat (length man) <= 1026 /\
  decode (bs "TWFueSBoYW5kcw==") = Ok man.
Proof.
  split; [repeat constructor; lia|]. split; [discriminate|]. split; vm_compute; [discriminate|reflexivity].
Qed.

(** Two pieces of data are never written as the same text. *)
Theorem C01_base64_distinct l m t n n' : data l -> data m ->
  encode l = Ok (t, n) -> encode m = Ok (t, n') -> l = m.
Proof.
  intros Dl Dm El Em.
  assert (X : forall l n, data l -> encode l = Ok (t, n) -> Z.of_nat (length l) <= 1026).
  { intros x k _ E. unfold encode in E. unfold BINARY_LIMIT in E. destruct (1026 <? Z.of_nat (length x)) eqn:B; [discriminate|lia]. }
  pose proof (X _ _ Dl El) as Ll. pose proof (X _ _ Dm Em) as Lm.
  destruct (C01_base64_encode l Dl Ll) as (t1 & n1 & E1 & _ & _ & L1). rewrite El in E1. injection E1 as <- <-.
  destruct (C01_base64_encode m Dm Lm) as (t2 & n2 & E2 & _ & _ & L2). rewrite Em in E2. injection E2 as <- <-.
  destruct l as [|a l], m as [|b m]; auto.
  - exfalso. cbn [length] in *. Z.div_mod_to_equations; lia.
  - exfalso. cbn [length] in *. Z.div_mod_to_equations; lia.
  - destruct (C01_base64_roundtrip_partial (a :: l) Dl ltac:(discriminate) Ll) as (u & k & Eu & Du).
    destruct (C01_base64_roundtrip_partial (b :: m) Dm ltac:(discriminate) Lm) as (v & j & Ev & Dv).
    rewrite El in Eu. rewrite Em in Ev. injection Eu as <- <-. injection Ev as <- <-. rewrite Du in Dv. congruence.
Qed.
Print Assumptions C01_base64_distinct.

Example C01_base64_distinct_witness : data man /\ (exists t n, encode man = Ok (t, n)) /\
  encode (bs "Man") <> encode (bs "Mao").
Proof.
  destruct C01_base64_encode_witness as (D & _ & E). split; [exact D|]. split; [eauto|]. vm_compute. discriminate.
Qed.

(** Beyond the limits, and when the length is not a multiple of four, both
    functions refuse. *)
Theorem C01_base64_limits l : (1026 < Z.of_nat (length l) -> encode l = Err tt) /\
  (1368 < Z.of_nat (length l) -> decode l = Err tt) /\
  (Z.of_nat (length l) mod 4 <> 0 -> decode l = Err tt).
Proof.
  unfold encode, decode, BINARY_LIMIT. change TEXT_LIMIT with 1368. split; [|split]; intros H.
  - replace (1026 <? _) with true by lia. reflexivity.
  - replace (1368 <? _) with true by lia. reflexivity.
  - destruct (1368 <? _); auto. replace (_ =? 0) with false by lia. reflexivity.
Qed.
Print Assumptions C01_base64_limits.

Example C01_base64_limits_witness : Z.of_nat (length (repeat 7 1027)) = 1027 /\ encode (repeat 7 1027) = Err tt /\
  decode (bs "TWFu=") = Err tt.
Proof. repeat split; vm_compute; reflexivity. Qed.

(** Reading a text that is not empty never goes outside its buffers, and what
    comes out is bytes whose bits the characters spell: every character before
    the last [pad <= 2] is one of the alphabet, and at most four or two bits
    are left over. *)
Theorem C01_base64_read t : t <> [] ->
  decode t = Err tt \/
  exists l cs ss z k, decode t = Ok l /\ data l /\ t = cs ++ z /\ (length z <= 2)%nat /\
    Forall2 stands cs ss /\ flat_map bits6 ss = flat_map bits8 l ++ k /\ (length k < 6)%nat.
Proof.
  intros N. unfold decode. destruct (TEXT_LIMIT <? Z.of_nat (length t)); [auto|].
  destruct (negb (Z.of_nat (length t) mod 4 =? 0)) eqn:M; [auto|].
  apply negb_false_iff, Z.eqb_eq in M.
  assert (M' : (length t mod 4 = 0)%nat) by (apply Nat2Z.inj; rewrite Nat2Z.inj_mod; exact M).
  assert (exists pad, padding t = Ok pad /\ (pad < 3)%nat) as (pad & E & P).
  { unfold padding. destruct (rev t) as [|y [|x r]] eqn:R.
    - apply (f_equal (@rev Z)) in R. rewrite rev_involutive in R. contradiction.
    - apply (f_equal (@length Z)) in R. rewrite rev_length in R. rewrite R in M'. discriminate.
    - eexists. split; [reflexivity|]. destruct (x =? PAD), (y =? PAD); lia. }
  rewrite E. cbn [obind].
  destruct (core_only (length t) t ltac:(lia) pad P M' (fun _ => N)) as (r & e & C & D & L & X).
  unfold core in C. destruct (decode_groups _) as [(r1, e1)| |]; cbn [obind] in *; try discriminate.
  destruct (decode_last _ _) as [(r2, e2)| |]; cbn [obind] in *; try discriminate.
  injection C as Cr Ce. rewrite Cr, Ce. destruct e; [auto|right].
  destruct (X eq_refl) as (cs & ss & z & k & Et & Lz & F & B & K). exists r, cs, ss, z, k.
  assert (Q : (Z.of_nat (length r) =? Z.of_nat (length t) * 3 / 4 - Z.of_nat pad) = true).
  { assert (Y : (length t = 4 * (length t / 4))%nat).
    { pose proof (Nat.div_mod (length t) 4 ltac:(lia)) as Q. rewrite M', Nat.add_0_r in Q. exact Q. }
    apply Z.eqb_eq. rewrite L. rewrite Y at 2. set (q := (length t / 4)%nat) in *.
    replace (Z.of_nat (4 * q) * 3) with (Z.of_nat q * 3 * 4) by lia. rewrite Z.div_mul by lia.
    assert (1 <= q)%nat by (destruct t; [contradiction|]; cbn [length] in Y; lia). lia. }
  rewrite Q. repeat split; auto. lia.
Qed.
Print Assumptions C01_base64_read.

Example C01_base64_read_witness : decode (bs "TWFu") = Ok (bs "Man") /\ decode (bs "TW-u") = Err tt /\ decode (bs "====") = Err tt.
Proof. repeat split; vm_compute; reflexivity. Qed.

(** Empty data is written as the empty text, but reading the empty text looks
    at the two characters before its end, which do not exist (undefined
    behaviour: [in_size - 2] wraps round). *)
Theorem C01_base64_empty_refuted : ~ (forall l, data l -> Z.of_nat (length l) <= 1026 ->
  exists t n, encode l = Ok (t, n) /\ decode t = Ok l).
Proof.
  intros H. destruct (H [] ltac:(constructor) ltac:(cbn; lia)) as (t & n & E & D). vm_compute in E. injection E as <- <-.
  vm_compute in D. discriminate.
Qed.
Print Assumptions C01_base64_empty_refuted.

(** Not only texts that stand for data are read: what follows the first '='
    and the left-over bits of the last character are not looked at, so three
    different texts give the same byte. *)
Theorem C01_base64_lenient_refuted : ~ (forall t u l, decode t = Ok l -> decode u = Ok l -> t = u).
Proof.
  intros H. specialize (H (bs "QQ==") (bs "QR=x") [65] ltac:(vm_compute; reflexivity) ltac:(vm_compute; reflexivity)).
  vm_compute in H. discriminate.
Qed.
Print Assumptions C01_base64_lenient_refuted.

(** The size reported for a text is not always its length with the
    terminator: for one byte of data four characters are written and six are
    reported, the last one never set. *)
Theorem C01_base64_size_refuted : ~ (forall l t n, data l -> encode l = Ok (t, n) -> n = Z.of_nat (length t) + 1).
Proof.
  intros H. specialize (H [65] (bs "QQ==") 6 ltac:(repeat constructor; lia) ltac:(vm_compute; reflexivity)).
  vm_compute in H. discriminate.
Qed.
Print Assumptions C01_base64_size_refuted.
