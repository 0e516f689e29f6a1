From Coq Require Import String.
From Coq Require Import List ZArith Bool Lia ZifyBool.
From Verif Require Import Common CommonFacts TextSpec TextModel TextProofs AddrModel AddrSpec.
Import ListNotations.
Local Open Scope string_scope.
Local Open Scope list_scope.
Local Open Scope Z_scope.

Lemma print_octet a : octet a ->
  print_dec a = [48 + a] /\ a < 10 \/
  print_dec a = [48 + a / 10; 48 + a mod 10] /\ 10 <= a < 100 \/
  print_dec a = [48 + a / 100; 48 + a / 10 mod 10; 48 + a mod 10] /\ 100 <= a.
Proof.
  intros [H1 H2]. unfold print_dec. replace (a <? 0) with false by lia. cbn [dec_digits].
  pose proof (Z.div_mod a 10 ltac:(lia)). pose proof (Z.mod_pos_bound a 10 ltac:(lia)).
  pose proof (Z.div_mod (a / 10) 10 ltac:(lia)). pose proof (Z.mod_pos_bound (a / 10) 10 ltac:(lia)).
  assert (E : a / 10 / 10 = a / 100) by (rewrite Z.div_div by lia; reflexivity).
  destruct (Z.eqb_spec (a / 10) 0) as [A|A].
  - left. split; [|lia]. do 2 f_equal. lia.
  - destruct (Z.eqb_spec (a / 10 / 10) 0) as [B|B].
    + right. left. split; [|lia]. f_equal. lia.
    + right. right. destruct (Z.eqb_spec (a / 10 / 10 / 10) 0) as [C|C].
      * split; [|lia]. rewrite E in *. f_equal. pose proof (Z.div_mod (a / 100) 10 ltac:(lia)). lia.
      * exfalso. apply C. rewrite !Z.div_div by lia. apply Z.div_small. lia.
Qed.

Lemma print_digits n : 0 <= n < 10 ^ 20 -> Forall dec_char (print_dec n).
Proof.
  intros H. unfold print_dec. replace (n <? 0) with false by lia.
  destruct (dec_digits_spec 20 n []) as (ds & E & F & _); [cbn [Z.of_nat] in *; lia|lia|]. rewrite E, app_nil_r. exact F.
Qed.

Lemma isdigit_plus x : 0 <= x <= 9 -> isdigit (48 + x) = true.
Proof. unfold isdigit. lia. Qed.

Lemma pton4_digits a s done : octet a ->
  pton4 (print_dec a ++ s) done None = match s with
    | [] => if Nat.eqb (List.length done) 3 then Some (done ++ [a]) else None
    | c :: r => if isdigit c then pton4 (print_dec a ++ s) done None else pton4 s done (Some a) end.
Proof.
  intros O. destruct s as [|c r].
  - rewrite app_nil_r. destruct O as [O1 O2].
    pose proof (Z.div_mod a 10 ltac:(lia)). pose proof (Z.mod_pos_bound a 10 ltac:(lia)).
    pose proof (Z.div_mod (a / 10) 10 ltac:(lia)). pose proof (Z.mod_pos_bound (a / 10) 10 ltac:(lia)).
    assert (E : a / 10 / 10 = a / 100) by (rewrite Z.div_div by lia; reflexivity).
    destruct (print_octet a (conj O1 O2)) as [(-> & L)|[(-> & L)|(-> & L)]]; cbn [pton4]; rewrite !isdigit_plus by lia.
    + replace (48 + a - 48) with a by lia. reflexivity.
    + replace ((48 + a / 10 - 48 =? 0) || (255 <? (48 + a / 10 - 48) * 10 + (48 + a mod 10 - 48))) with false by lia.
      replace ((48 + a / 10 - 48) * 10 + (48 + a mod 10 - 48)) with a by lia. reflexivity.
    + replace ((48 + a / 100 - 48 =? 0) || (255 <? (48 + a / 100 - 48) * 10 + (48 + a / 10 mod 10 - 48))) with false by lia.
      replace ((48 + a / 100 - 48) * 10 + (48 + a / 10 mod 10 - 48)) with (a / 10) by lia.
      replace ((a / 10 =? 0) || (255 <? a / 10 * 10 + (48 + a mod 10 - 48))) with false by lia.
      replace (a / 10 * 10 + (48 + a mod 10 - 48)) with a by lia. reflexivity.
  - destruct (isdigit c) eqn:D; [reflexivity|]. destruct O as [O1 O2].
    pose proof (Z.div_mod a 10 ltac:(lia)). pose proof (Z.mod_pos_bound a 10 ltac:(lia)).
    pose proof (Z.div_mod (a / 10) 10 ltac:(lia)). pose proof (Z.mod_pos_bound (a / 10) 10 ltac:(lia)).
    assert (E : a / 10 / 10 = a / 100) by (rewrite Z.div_div by lia; reflexivity).
    destruct (print_octet a (conj O1 O2)) as [(-> & L)|[(-> & L)|(-> & L)]]; cbn [app]; cbn [pton4]; rewrite !isdigit_plus by lia.
    + replace (48 + a - 48) with a by lia. reflexivity.
    + replace ((48 + a / 10 - 48 =? 0) || (255 <? (48 + a / 10 - 48) * 10 + (48 + a mod 10 - 48))) with false by lia.
      replace ((48 + a / 10 - 48) * 10 + (48 + a mod 10 - 48)) with a by lia. reflexivity.
    + replace ((48 + a / 100 - 48 =? 0) || (255 <? (48 + a / 100 - 48) * 10 + (48 + a / 10 mod 10 - 48))) with false by lia.
      replace ((48 + a / 100 - 48) * 10 + (48 + a / 10 mod 10 - 48)) with (a / 10) by lia.
      replace ((a / 10 =? 0) || (255 <? a / 10 * 10 + (48 + a mod 10 - 48))) with false by lia.
      replace (a / 10 * 10 + (48 + a mod 10 - 48)) with a by lia. reflexivity.
Qed.

Lemma pton4_dot s done c : List.length done <> 3%nat -> pton4 (46 :: s) done (Some c) = pton4 s (done ++ [c]) None.
Proof. intros H. cbn. apply Nat.eqb_neq in H. rewrite H. reflexivity. Qed.

Lemma pton4_ntop4 a b c d : octet a -> octet b -> octet c -> octet d -> pton4 (ntop4 [a; b; c; d]) [] None = Some [a; b; c; d].
Proof.
  intros A B C D. unfold ntop4. rewrite pton4_digits by exact A. change (isdigit 46) with false. cbv iota. rewrite pton4_dot by (cbn; lia).
  cbn [app]. rewrite pton4_digits by exact B. change (isdigit 46) with false. cbv iota. rewrite pton4_dot by (cbn; lia).
  cbn [app]. rewrite pton4_digits by exact C. change (isdigit 46) with false. cbv iota. rewrite pton4_dot by (cbn; lia).
  cbn [app]. rewrite <- (app_nil_r (print_dec d)), pton4_digits by exact D. reflexivity.
Qed.

Lemma last_split_app c s t : ~ In c t -> last_split c (s ++ c :: t) = Some (s, t).
Proof.
  intros N. induction s as [|a s IH]; cbn [app last_split].
  - assert (E : last_split c t = None).
    { clear - N. induction t as [|b t IH]; [reflexivity|]. cbn [last_split]. rewrite IH by (intros H; apply N; right; exact H).
      destruct (Z.eqb_spec b c) as [->|]; [destruct N; left; reflexivity|reflexivity]. }
    rewrite E, Z.eqb_refl. reflexivity.
  - rewrite IH. reflexivity.
Qed.

Lemma prefix_app p s : prefix p (p ++ s) = true.
Proof. induction p as [|a p IH]; [reflexivity|]. cbn. rewrite Z.eqb_refl. exact IH. Qed.

Lemma prefix_inv p : forall s, prefix p s = true -> exists t, s = p ++ t.
Proof.
  induction p as [|a p IH]; intros s H; [exists s; reflexivity|]. destruct s as [|b s]; [discriminate|]. cbn in H.
  apply andb_prop in H. destruct H as [E H]. apply Z.eqb_eq in E. subst b. destruct (IH s H) as (t & ->). exists t. reflexivity.
Qed.

Lemma no_char c l : Forall dec_char l -> ~ dec_char c -> ~ In c l.
Proof. intros F N I. rewrite Forall_forall in F. exact (N (F c I)). Qed.

Lemma octet_len a : octet a -> (1 <= List.length (print_dec a) <= 3)%nat.
Proof. intros O. destruct (print_octet a O) as [(-> & _)|[(-> & _)|(-> & _)]]; cbn; lia. Qed.

Lemma octet_digits a : octet a -> Forall dec_char (print_dec a).
Proof. intros [A B]. apply print_digits. lia. Qed.

Lemma quad_numeric a b c d : octet a -> octet b -> octet c -> octet d -> is_numeric (ntop4 [a; b; c; d]) = true.
Proof.
  intros A B C D. unfold is_numeric. apply forallb_forall. intros x _.
  replace (isdigit (hd 0 (ntop4 [a; b; c; d]))) with true; [reflexivity|].
  unfold ntop4. pose proof (octet_digits a A) as F. pose proof (octet_len a A) as L. destruct (print_dec a) as [|x0 r]; [cbn in L; lia|].
  inversion F; subst. cbn. unfold isdigit, dec_char in *. lia.
Qed.

Lemma quad_len a b c d : octet a -> octet b -> octet c -> octet d -> (List.length (ntop4 [a; b; c; d]) <= 15)%nat.
Proof.
  intros A B C D. unfold ntop4. rewrite !app_length. cbn [List.length]. rewrite !app_length. cbn [List.length]. rewrite !app_length. cbn [List.length].
  pose proof (octet_len a A). pose proof (octet_len b B). pose proof (octet_len c C). pose proof (octet_len d D). lia.
Qed.

Lemma port_value n : 0 <= n <= 65535 -> (match strto 10 (print_dec n) with Some (neg, m, _) => fst (strtol_value neg m) mod 65536 | None => 0 end) = n.
Proof.
  intros H. destruct (print_dec_spec n) as (neg & sg & ds & E & S & F & Nn & V & V2 & _ & _ & Hs); [lia|].
  rewrite E. pose proof (strto_complete [] sg ds neg (Forall_nil _) S F Nn) as X. cbn [app] in X. rewrite X.
  rewrite V. unfold strtol_value. destruct neg.
  - assert (n = 0) by lia. subst n. reflexivity.
  - replace (Z.abs n) with n by lia. replace (n <? - 2 ^ 63) with false by lia. replace (2 ^ 63 - 1 <? n) with false by lia.
    cbn [fst]. apply Z.mod_small. lia.
Qed.

Definition quad (a b c d : Z) (n : list Z) : list Z :=
  bs "tcp://" ++ print_dec a ++ bs "." ++ print_dec b ++ bs "." ++ print_dec c ++ bs "." ++ print_dec d ++ bs ":" ++ n.

Lemma quad_shape a b c d n : quad a b c d n = bs "tcp://" ++ ntop4 [a; b; c; d] ++ 58 :: n.
Proof. unfold quad, ntop4. cbn [bs]. rewrite <- !app_assoc. cbn. rewrite <- !app_assoc. cbn. rewrite <- !app_assoc. reflexivity. Qed.

Lemma tcp_at iface v6 host p port : (List.length host < 128)%nat -> ~ In 58 p ->
  port = (match strto 10 p with Some (neg, m, _) => fst (strtol_value neg m) mod 65536 | None => 0 end) ->
  from_string iface v6 (bs "tcp://" ++ host ++ 58 :: p) =
    do ip <- (if is_numeric host then Ok host else interface_address iface host);
    match pton4 ip [] None with
    | Some l => Ok (mkEndpoint AF_INET [] l port)
    | None => match v6 ip with Some l => Ok (mkEndpoint AF_INET6 [] l port) | None => Ok (mkEndpoint 0 [] [] 0) end
    end.
Proof.
  intros L N P. unfold from_string. change (prefix (bs "unix://") (bs "tcp://" ++ host ++ 58 :: p)) with false. cbv iota.
  rewrite prefix_app. cbn [negb]. unfold parse_port. rewrite app_assoc, last_split_app by exact N. rewrite <- app_assoc.
  change (skipn 6 (bs "tcp://" ++ host ++ 58 :: p)) with (host ++ 58 :: p). rewrite last_split_app by exact N.
  replace (Nat.leb 128 (List.length host)) with false by (symmetry; apply Nat.leb_gt; exact L). rewrite <- P. reflexivity.
Qed.

Lemma tcp_quad iface v6 a b c d n : octet a -> octet b -> octet c -> octet d -> 0 <= n <= 65535 ->
  from_string iface v6 (quad a b c d (print_dec n)) = Ok (mkEndpoint AF_INET [] [a; b; c; d] n).
Proof.
  intros A B C D N. rewrite quad_shape, (tcp_at iface v6 _ _ n).
  - rewrite quad_numeric by assumption. cbn [obind]. rewrite pton4_ntop4 by assumption. reflexivity.
  - pose proof (quad_len a b c d A B C D). lia.
  - apply no_char; [apply print_digits; lia|unfold dec_char; lia].
  - symmetry. apply port_value. exact N.
Qed.

Lemma unix_any iface v6 p : from_string iface v6 (bs "unix://" ++ p) = Ok (mkEndpoint AF_UNIX (firstn 107 p) [] 0).
Proof. unfold from_string. rewrite prefix_app. reflexivity. Qed.
