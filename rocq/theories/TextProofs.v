From Coq Require Import Lia ZifyBool String.
From Verif Require Import Common CommonFacts Value TextModel TextSpec.
Local Open Scope string_scope.
Local Open Scope list_scope.
Local Open Scope Z_scope.

Lemma digit_val_dec : forall c, dec_char c -> digit_val c = Some (c - 48).
Proof. intros c H. unfold dec_char in H. unfold digit_val. now replace ((48 <=? c) && (c <=? 57)) with true by lia. Qed.
Lemma digit_val_inv : forall c d, digit_val c = Some d -> d < 10 -> dec_char c /\ d = c - 48.
Proof.
  intros c d H L. unfold digit_val in H.
  destruct ((48 <=? c) && (c <=? 57)) eqn:A; [injection H as <-; unfold dec_char; lia|].
  destruct ((97 <=? c) && (c <=? 122)) eqn:B; [injection H as <-; lia|].
  destruct ((65 <=? c) && (c <=? 90)) eqn:C; [injection H as <-; lia|discriminate].
Qed.
Lemma is_digit_dec : forall c, is_digit 10 c = true <-> dec_char c.
Proof.
  intros c. unfold is_digit. split; intros H.
  - destruct (digit_val c) as [d|] eqn:E; [|discriminate]. apply digit_val_inv in E; [tauto|lia].
  - rewrite digit_val_dec by assumption. unfold dec_char in H. lia.
Qed.
Lemma isspace_char : forall c, isspace c = true <-> space_char c.
Proof. intros. unfold isspace, space_char. lia. Qed.

Definition fold_dec (ds : list Z) (a : Z) : Z := fold_left (fun a c => a * 10 + (c - 48)) ds a.

Lemma scan_all : forall ds a, Forall dec_char ds -> scan_digits 10 ds a = (fold_dec ds a, []).
Proof.
  induction ds as [|c ds IH]; intros a H; [reflexivity|].
  inversion H; subst. cbn [scan_digits]. rewrite digit_val_dec by assumption.
  replace (c - 48 <? 10) with true by (unfold dec_char in *; lia). rewrite IH by assumption. reflexivity.
Qed.
Lemma scan_inv : forall s a m rest, scan_digits 10 s a = (m, rest) ->
  exists ds, s = ds ++ rest /\ Forall dec_char ds /\ m = fold_dec ds a.
Proof.
  induction s as [|c s IH]; intros a m rest H; cbn in H.
  - injection H as <- <-. exists []. repeat split; constructor.
  - destruct (digit_val c) as [d|] eqn:D.
    + destruct (d <? 10) eqn:L.
      * apply IH in H as (ds & -> & F & ->). apply digit_val_inv in D as [D ->]; [|lia].
        exists (c :: ds). repeat split. now constructor.
      * injection H as <- <-. exists []. repeat split; constructor.
    + injection H as <- <-. exists []. repeat split; constructor.
Qed.

Lemma skip_ws_app : forall ws s, Forall space_char ws -> match s with c :: _ => ~ space_char c | [] => True end ->
  skip_ws (ws ++ s) = s.
Proof.
  induction ws as [|c ws IH]; intros s F N.
  - destruct s as [|c s]; [reflexivity|]. cbn. destruct (isspace c) eqn:E; [|reflexivity].
    apply isspace_char in E. contradiction.
  - inversion F; subst. cbn. rewrite (proj2 (isspace_char c)) by assumption. now apply IH.
Qed.
Lemma skip_ws_inv : forall s, exists ws, s = ws ++ skip_ws s /\ Forall space_char ws.
Proof.
  induction s as [|c s (ws & E & F)]; cbn.
  - exists []. split; [reflexivity|constructor].
  - destruct (isspace c) eqn:I.
    + exists (c :: ws). split; [cbn; now f_equal|]. constructor; [now apply isspace_char|assumption].
    + exists []. split; [reflexivity|constructor].
Qed.

Definition sign_of (neg : bool) (sg : list Z) : Prop :=
  if neg then sg = [45] else sg = [] \/ sg = [43].

(** the C matching on the sign, without the nested pattern *)
Definition split_sign (s : list Z) : bool * list Z :=
  match s with 45 :: r => (true, r) | 43 :: r => (false, r) | _ => (false, s) end.
Lemma split_sign_def : forall s, split_sign s =
  match s with c :: r => if c =? 45 then (true, r) else if c =? 43 then (false, r) else (false, s) | [] => (false, s) end.
Proof.
  intros [|c r]; [reflexivity|]. unfold split_sign.
  destruct (c =? 45) eqn:A; [assert (c = 45) by lia; now subst|].
  destruct (c =? 43) eqn:B; [assert (c = 43) by lia; now subst|].
  destruct c as [|p|p]; try reflexivity. do 6 (destruct p; try reflexivity); discriminate.
Qed.
Lemma strto_def : forall base s, strto base s =
  let '(neg, s) := split_sign (skip_ws s) in
  let '(b, s) := pick_base base s in
  match s with
  | c :: _ => if is_digit b c then let '(m, rest) := scan_digits b s 0 in Some (neg, m, rest) else None
  | [] => None
  end.
Proof. reflexivity. Qed.

Lemma strto_complete : forall ws sg ds neg, Forall space_char ws -> sign_of neg sg -> Forall dec_char ds -> ds <> [] ->
  strto 10 (ws ++ sg ++ ds) = Some (neg, numeral_value ds, []).
Proof.
  intros ws sg ds neg Hw Hs Hd Hn. rewrite strto_def. unfold sign_of in Hs.
  destruct ds as [|c ds]; [congruence|]. assert (Hc : dec_char c) by now inversion Hd.
  assert (S : split_sign (skip_ws (ws ++ sg ++ c :: ds)) = (neg, c :: ds)).
  { rewrite skip_ws_app; [|assumption|].
    - rewrite split_sign_def. destruct neg; [|destruct Hs]; subst sg; cbn; try reflexivity.
      unfold dec_char in Hc. now replace (c =? 45) with false by lia; replace (c =? 43) with false by lia.
    - destruct neg; [|destruct Hs]; subst sg; cbn; unfold space_char, dec_char in *; lia. }
  rewrite S. unfold pick_base. cbn [Z.eqb]. rewrite (proj2 (is_digit_dec c)) by assumption.
  rewrite scan_all by assumption. reflexivity.
Qed.
Lemma strto_sound : forall s neg m rest, strto 10 s = Some (neg, m, rest) ->
  exists ws sg ds, s = ws ++ sg ++ ds ++ rest /\ Forall space_char ws /\ sign_of neg sg /\
    Forall dec_char ds /\ ds <> [] /\ m = numeral_value ds.
Proof.
  intros s neg m rest H. rewrite strto_def in H.
  destruct (skip_ws_inv s) as (ws & E & F).
  rewrite split_sign_def in H.
  assert (D : forall s', match s' with
    | c :: _ => if is_digit 10 c then let '(m, rest) := scan_digits 10 s' 0 in Some (neg, m, rest) else None
    | [] => None end = Some (neg, m, rest) ->
    exists ds, s' = ds ++ rest /\ Forall dec_char ds /\ ds <> [] /\ m = numeral_value ds).
  { intros [|c s'] X; [discriminate|]. destruct (is_digit 10 c) eqn:I; [|discriminate].
    destruct (scan_digits 10 (c :: s') 0) as [m' r'] eqn:SC. injection X as -> ->.
    pose proof SC as SC2. apply scan_inv in SC as (ds & E1 & F1 & ->). exists ds. repeat split; auto.
    intros ->. cbn in E1. subst rest. apply is_digit_dec in I.
    cbn in SC2. rewrite digit_val_dec in SC2 by assumption.
    replace (c - 48 <? 10) with true in SC2 by (unfold dec_char in I; lia).
    apply scan_inv in SC2 as (ds & E2 & _). 
    apply (f_equal (@length Z)) in E2. rewrite app_length in E2. cbn in E2. lia. }
  destruct (skip_ws s) as [|c r] eqn:W.
  - cbn in H. discriminate.
  - destruct (c =? 45) eqn:A; [|destruct (c =? 43) eqn:B]; unfold pick_base in H; cbn [Z.eqb] in H.
    + assert (neg = true) as ->.
      { destruct r as [|x r]; [discriminate|]. destruct (is_digit 10 x); [|discriminate].
        destruct (scan_digits 10 (x :: r) 0). congruence. }
      apply D in H as (ds & -> & F1 & N & ->). exists ws, [45], ds.
      assert (c = 45) by lia. subst c. repeat split; auto.
    + assert (neg = false) as ->.
      { destruct r as [|x r]; [discriminate|]. destruct (is_digit 10 x); [|discriminate].
        destruct (scan_digits 10 (x :: r) 0). congruence. }
      apply D in H as (ds & -> & F1 & N & ->). exists ws, [43], ds.
      assert (c = 43) by lia. subst c. repeat split; auto. now right.
    + assert (neg = false) as ->.
      { destruct (is_digit 10 c); [|discriminate]. destruct (scan_digits 10 (c :: r) 0). congruence. }
      apply (D (c :: r)) in H as (ds & E1 & F1 & N & ->). exists ws, [], ds.
      rewrite E, E1. repeat split; auto. now left.
Qed.

Lemma fold_dec_nonneg : forall ds a, Forall dec_char ds -> 0 <= a -> 0 <= fold_dec ds a.
Proof.
  induction ds as [|c ds IH]; intros a F H; cbn; [assumption|]. inversion F; subst.
  apply IH; [assumption|]. unfold dec_char in *. lia.
Qed.
Lemma numeral_nonneg : forall ds, Forall dec_char ds -> 0 <= numeral_value ds.
Proof. intros. apply fold_dec_nonneg; [assumption|lia]. Qed.

(** Signed decimal types: accepted exactly when the text denotes a number in range. *)
Lemma parse_signed_spec : forall lo hi s n, - 2 ^ 63 <= lo -> hi <= 2 ^ 63 - 1 ->
  (parse_signed 10 lo hi false s = Some n <-> denotes s n /\ lo <= n <= hi).
Proof.
  intros lo hi s n Hlo Hhi. unfold parse_signed. split.
  - destruct (strto 10 s) as [[[neg m] rest]|] eqn:E; [|discriminate].
    apply strto_sound in E as (ws & sg & ds & -> & Fw & Sg & Fd & Nd & ->).
    pose proof (numeral_nonneg ds Fd) as P. unfold strtol_value.
    set (x := if neg then - numeral_value ds else numeral_value ds).
    destruct (x <? - 2 ^ 63) eqn:A.
    { rewrite Z.eqb_refl. cbn [andb orb]. rewrite !orb_true_r. discriminate. }
    destruct (2 ^ 63 - 1 <? x) eqn:B.
    { rewrite Z.eqb_refl. cbn [andb orb]. rewrite !orb_true_r. discriminate. }
    destruct rest as [|r rest]; cbn [hd_error is_some andb orb]; [|discriminate].
    destruct ((x <? lo) || (hi <? x)) eqn:R; [discriminate|]. intros H. injection H as <-.
    split; [|lia]. exists ws, sg, ds. rewrite app_nil_r. repeat split; auto. unfold x.
    destruct neg; cbn in Sg; [right|left]; auto.
  - intros [(ws & sg & ds & -> & Fw & Fd & Nd & C) R].
    assert (exists neg, sign_of neg sg /\ n = if neg : bool then - numeral_value ds else numeral_value ds) as (neg & Sg & ->).
    { destruct C as [[S ->]|[S ->]]; [exists false|exists true]; auto. }
    rewrite (strto_complete ws sg ds neg) by assumption. unfold strtol_value.
    set (x := if neg then - numeral_value ds else numeral_value ds) in *.
    replace (x <? - 2 ^ 63) with false by lia. replace (2 ^ 63 - 1 <? x) with false by lia.
    cbn [hd_error is_some andb orb].
    now replace (x <? lo) with false by lia; replace (hi <? x) with false by lia.
Qed.

(** Unsigned decimal types *)
Lemma parse_unsigned_sound : forall hi s n, hi <= 2 ^ 64 - 1 -> ~ starts_with_space s ->
  parse_unsigned 10 hi false s = Some n -> denotes s n /\ 0 <= n <= hi.
Proof.
  intros hi s n Hhi NS. unfold parse_unsigned.
  destruct (strto 10 s) as [[[neg m] rest]|] eqn:E; [|discriminate].
  apply strto_sound in E as (ws & sg & ds & -> & Fw & Sg & Fd & Nd & ->).
  pose proof (numeral_nonneg ds Fd) as P. unfold strtoul_value.
  destruct ws as [|w ws]; [|exfalso; apply NS; inversion Fw; subst; cbn; eexists _, _; split; [reflexivity|assumption]].
  cbn [app].
  destruct (2 ^ 64 - 1 <? numeral_value ds) eqn:A.
  { rewrite Z.eqb_refl. cbn [andb orb]. rewrite orb_true_r. discriminate. }
  destruct rest as [|r rest]; cbn [hd_error is_some andb orb]; [|discriminate].
  rewrite app_nil_r.
  destruct neg; cbn in Sg.
  - subst sg. cbn [app andb].
    destruct ((- numeral_value ds) mod 2 ^ 64 =? 0) eqn:Z0; [|discriminate].
    cbn [negb orb]. destruct (hi <? _) eqn:B; [discriminate|]. intros H. injection H as <-.
    assert (numeral_value ds = 0).
    { apply Z.eqb_eq in Z0. apply Z.mod_divide in Z0; [|lia]. destruct Z0 as [k Hk]. lia. }
    split; [|lia]. exists [], [45], ds. split; [reflexivity|]. split; [constructor|].
    split; [assumption|]. split; [assumption|]. right. split; [reflexivity|]. lia.
  - assert (M : match sg ++ ds with 45 :: _ => true | _ => false end = false).
    { destruct Sg; subst sg; [|reflexivity]. cbn. destruct ds as [|c ds]; [reflexivity|].
      inversion Fd; subst. unfold dec_char in *. destruct c as [|p|p]; try reflexivity.
      do 6 (destruct p; try reflexivity). lia. }
    rewrite M. cbn [andb orb]. destruct (hi <? _) eqn:B; [discriminate|]. intros H. injection H as <-.
    split; [|lia]. exists [], sg, ds. repeat split; auto.
Qed.
Lemma parse_unsigned_complete : forall hi s n, hi <= 2 ^ 64 - 1 -> denotes s n -> 0 <= n <= hi ->
  parse_unsigned 10 hi false s = Some n.
Proof.
  intros hi s n Hhi (ws & sg & ds & -> & Fw & Fd & Nd & C) R. unfold parse_unsigned.
  pose proof (numeral_nonneg ds Fd) as P.
  assert (exists neg, sign_of neg sg /\ n = (if neg : bool then - numeral_value ds else numeral_value ds)) as (neg & Sg & E).
  { destruct C as [[S ->]|[S ->]]; [exists false|exists true]; auto. }
  rewrite (strto_complete ws sg ds neg) by assumption. unfold strtoul_value.
  assert (numeral_value ds <= 2 ^ 64 - 1) by (destruct neg; lia).
  replace (2 ^ 64 - 1 <? numeral_value ds) with false by lia.
  assert (V : (if neg then (- numeral_value ds) mod 2 ^ 64 else numeral_value ds) = n).
  { destruct neg; [|auto]. assert (numeral_value ds = 0) by lia. rewrite H0 in *. cbn. lia. }
  rewrite V. cbn [hd_error is_some andb orb]. replace (hi <? n) with false by lia. rewrite orb_false_r.
  destruct (n =? 0) eqn:N0; [cbn [negb]; now rewrite andb_false_r|]. cbn [negb]. rewrite andb_true_r.
  destruct neg.
  - assert (n = 0) by lia. lia.
  - assert (M : match ws ++ sg ++ ds with 45 :: _ => true | _ => false end = false).
    { destruct ws as [|w ws].
      - cbn in Sg. destruct Sg; subst sg; [|reflexivity]. cbn. destruct ds as [|c ds]; [reflexivity|].
        inversion Fd; subst. unfold dec_char in *. destruct c as [|p|p]; try reflexivity.
        do 6 (destruct p; try reflexivity). lia.
      - inversion Fw; subst. unfold space_char in *. cbn. destruct w as [|p|p]; try reflexivity.
        do 6 (destruct p; try reflexivity). lia. }
    now rewrite M.
Qed.

(** Printing *)
Lemma numeral_snoc : forall ds c, numeral_value (ds ++ [c]) = numeral_value ds * 10 + (c - 48).
Proof. intros. unfold numeral_value. now rewrite fold_left_app. Qed.
Lemma dec_digits_spec : forall fuel n acc, 0 <= n < 10 ^ Z.of_nat fuel -> (0 < fuel)%nat ->
  exists ds, dec_digits fuel n acc = ds ++ acc /\ Forall dec_char ds /\ ds <> [] /\ numeral_value ds = n /\
             (0 < n -> hd 0 ds <> 48) /\ (n = 0 -> ds = [48]).
Proof.
  induction fuel as [|f IH]; intros n acc H L; [lia|].
  cbn [dec_digits]. pose proof (Z.mod_pos_bound n 10). pose proof (Z.div_mod n 10).
  destruct (n / 10 =? 0) eqn:E.
  - exists [48 + n mod 10]. split; [reflexivity|]. split; [constructor; [unfold dec_char; lia|constructor]|].
    split; [discriminate|]. split; [unfold numeral_value; cbn [fold_left]; lia|]. cbn [hd]. split; [lia|].
    intros ->. reflexivity.
  - assert (Hn : 0 < n / 10). { pose proof (Z.div_pos n 10). lia. }
    destruct f as [|f]. { cbn in H. lia. }
    destruct (IH (n / 10) ((48 + n mod 10) :: acc)) as (ds & E1 & F & Nn & V & Hh & _).
    { split; [lia|]. apply Z.div_lt_upper_bound; [lia|].
      replace (Z.of_nat (S (S f))) with (Z.of_nat (S f) + 1) in H by lia.
      rewrite Z.pow_add_r in H by lia. lia. }
    { lia. }
    exists (ds ++ [48 + n mod 10]). rewrite E1, <- app_assoc. split; [reflexivity|].
    split; [apply Forall_app; split; [assumption|constructor; [unfold dec_char; lia|constructor]]|].
    split; [destruct ds; discriminate|]. split; [rewrite numeral_snoc, V; lia|].
    split; [|lia]. intros _. destruct ds as [|c ds]; [congruence|]. cbn in *. now apply Hh.
Qed.

Lemma print_dec_spec : forall n, Z.abs n < 10 ^ 20 ->
  exists neg sg ds, print_dec n = sg ++ ds /\ sign_of neg sg /\ Forall dec_char ds /\ ds <> [] /\
    numeral_value ds = Z.abs n /\ n = (if neg : bool then - Z.abs n else Z.abs n) /\
    (n <> 0 -> hd 0 ds <> 48) /\ (n = 0 -> ds = [48]) /\ (sg = [] \/ sg = [45]).
Proof.
  intros n H. unfold print_dec. destruct (n <? 0) eqn:S.
  - destruct (dec_digits_spec 20 (- n) []) as (ds & E & F & Nn & V & Hh & Hz); [cbn [Z.of_nat] in *; lia|lia|].
    exists true, [45], ds. rewrite E, app_nil_r. split; [reflexivity|]. split; [reflexivity|].
    repeat split; auto; try lia; try (intros; apply Hh; lia); try (intros; apply Hz; lia).
  - destruct (dec_digits_spec 20 n []) as (ds & E & F & Nn & V & Hh & Hz); [cbn [Z.of_nat] in *; lia|lia|].
    exists false, [], ds. rewrite E, app_nil_r. split; [reflexivity|]. split; [now left|].
    repeat split; auto; try lia; try (intros; apply Hh; lia); try (intros; apply Hz; lia).
Qed.
Lemma print_denotes : forall n, Z.abs n < 10 ^ 20 -> denotes (print_dec n) n.
Proof.
  intros n H. destruct (print_dec_spec n H) as (neg & sg & ds & E & S & F & Nn & V & V2 & _).
  rewrite E. exists [], sg, ds. repeat split; auto. destruct neg; cbn in S; [right|left]; split; auto; lia.
Qed.
Lemma print_no_space : forall n, Z.abs n < 10 ^ 20 -> ~ starts_with_space (print_dec n).
Proof.
  intros n H. destruct (print_dec_spec n H) as (neg & sg & ds & E & S & F & Nn & _ & _ & _ & _ & Hs).
  rewrite E. intros (c & r & E1 & Sp). destruct ds as [|d ds]; [congruence|]. inversion F; subst.
  destruct Hs; subst sg; cbn in E1; injection E1 as <- <-; unfold dec_char, space_char in *; lia.
Qed.

(** base 0 reads back what was printed *)
Lemma strto_base0 : forall n, Z.abs n < 10 ^ 20 -> exists neg,
  strto 0 (print_dec n) = Some (neg, Z.abs n, []) /\ n = (if neg : bool then - Z.abs n else Z.abs n) /\
  match print_dec n with 45 :: _ => true | _ => false end = neg.
Proof.
  intros n H. destruct (print_dec_spec n H) as (neg & sg & ds & E & S & F & Nn & V & V2 & Hh & Hz & Hs).
  exists neg. rewrite E. rewrite strto_def. unfold sign_of in S.
  destruct ds as [|c ds]; [congruence|]. assert (Hc : dec_char c) by now inversion F.
  assert (SS : split_sign (skip_ws (sg ++ c :: ds)) = (neg, c :: ds)).
  { change (sg ++ c :: ds) with ([] ++ sg ++ c :: ds). rewrite skip_ws_app; [|constructor|].
    - rewrite split_sign_def. destruct neg; [|destruct S]; subst sg; cbn; try reflexivity.
      unfold dec_char in Hc. now replace (c =? 45) with false by lia; replace (c =? 43) with false by lia.
    - destruct neg; [|destruct S]; subst sg; cbn; unfold space_char, dec_char in *; lia. }
  assert (M : match sg ++ c :: ds with 45 :: _ => true | _ => false end = neg).
  { destruct neg; [|destruct S]; subst sg; cbn; try reflexivity.
    unfold dec_char in *. destruct c as [|p|p]; try reflexivity.
    do 6 (destruct p; try reflexivity). lia. }
  rewrite SS. split; [|auto].
  destruct (Z.eq_dec n 0) as [->|N0].
  - rewrite (Hz eq_refl) in *. cbn. reflexivity.
  - assert (PB : pick_base 0 (c :: ds) = (10, c :: ds)).
    { unfold pick_base. cbn [Z.eqb]. specialize (Hh N0). cbn in Hh. unfold dec_char in Hc.
      destruct c as [|p|p]; try reflexivity. do 6 (destruct p; try reflexivity); lia. }
    rewrite PB. rewrite (proj2 (is_digit_dec c)) by assumption. rewrite scan_all by assumption.
    change (fold_dec (c :: ds) 0) with (numeral_value (c :: ds)). now rewrite V.
Qed.

Ltac dec_bounds := cbn in *; unfold in_s, in_u in *; cbn in *; lia.

Lemma text_roundtrip : forall v, textual v = true -> exists s, to_string v = Some s /\ set_from_string (vtype v) s = Some v.
Proof.
  intros v H. destruct v; try discriminate; cbn [textual scalar_wf] in H; unfold in_s, in_u in H; cbn [to_string].
  - destruct b; eexists; (split; [reflexivity|vm_compute; reflexivity]).
  - eexists; split; [reflexivity|]. change (option_map VInt8 (parse_signed 0 (- 2 ^ 7) (2 ^ 7 - 1) true (print_dec n)) = Some (VInt8 n)).
    destruct (strto_base0 n) as (neg & E & V & M); [lia|]. unfold parse_signed. rewrite E. unfold strtol_value.
    rewrite <- V. replace (n <? - 2 ^ 63) with false by lia. replace (2 ^ 63 - 1 <? n) with false by lia.
    cbn [hd_error is_some andb orb]. now replace (n <? - 2 ^ 7) with false by lia; replace (2 ^ 7 - 1 <? n) with false by lia.
  - eexists; split; [reflexivity|]. change (option_map VUInt8 (parse_unsigned 0 (2 ^ 8 - 1) true (print_dec n)) = Some (VUInt8 n)).
    destruct (strto_base0 n) as (neg & E & V & M); [lia|]. unfold parse_unsigned. rewrite E, M. unfold strtoul_value.
    replace (2 ^ 64 - 1 <? Z.abs n) with false by lia.
    assert (N : (if neg then (- Z.abs n) mod 2 ^ 64 else Z.abs n) = n).
    { destruct neg; [|lia]. assert (n = 0) by lia. subst. reflexivity. }
    rewrite N. cbn [hd_error is_some andb orb]. replace (2 ^ 8 - 1 <? n) with false by lia.
    destruct neg; [assert (n = 0) by lia; subst; reflexivity|reflexivity].
  - eexists; split; [reflexivity|]. change (option_map VInt16 (parse_signed 10 (- 2 ^ 15) (2 ^ 15 - 1) false (print_dec n)) = Some (VInt16 n)).
    rewrite (proj2 (parse_signed_spec (- 2 ^ 15) (2 ^ 15 - 1) (print_dec n) n ltac:(lia) ltac:(lia))); [reflexivity|]. split; [apply print_denotes|]; lia.
  - eexists; split; [reflexivity|]. change (option_map VUInt16 (parse_unsigned 10 (2 ^ 16 - 1) false (print_dec n)) = Some (VUInt16 n)).
    rewrite (parse_unsigned_complete _ _ n); [reflexivity|lia|apply print_denotes; lia|lia].
  - eexists; split; [reflexivity|]. change (option_map VInt32 (parse_signed 10 (- 2 ^ 31) (2 ^ 31 - 1) false (print_dec n)) = Some (VInt32 n)).
    rewrite (proj2 (parse_signed_spec (- 2 ^ 31) (2 ^ 31 - 1) (print_dec n) n ltac:(lia) ltac:(lia))); [reflexivity|]. split; [apply print_denotes|]; lia.
  - eexists; split; [reflexivity|]. change (option_map VUInt32 (parse_unsigned 10 (2 ^ 32 - 1) false (print_dec n)) = Some (VUInt32 n)).
    rewrite (parse_unsigned_complete _ _ n); [reflexivity|lia|apply print_denotes; lia|lia].
  - eexists; split; [reflexivity|]. change (option_map VInt64 (parse_signed 10 (- 2 ^ 63) (2 ^ 63 - 1) false (print_dec n)) = Some (VInt64 n)).
    rewrite (proj2 (parse_signed_spec (- 2 ^ 63) (2 ^ 63 - 1) (print_dec n) n ltac:(lia) ltac:(lia))); [reflexivity|]. split; [apply print_denotes|]; lia.
  - eexists; split; [reflexivity|]. change (option_map VUInt64 (parse_unsigned 10 (2 ^ 64 - 1) false (print_dec n)) = Some (VUInt64 n)).
    rewrite (parse_unsigned_complete _ _ n); [reflexivity|lia|apply print_denotes; lia|lia].
  - destruct s as [s|]; [|discriminate]. exists s. split; reflexivity.
Qed.

Lemma signed_exact : forall t C lo hi s v, signed_type t C lo hi ->
  (set_from_string t s = Some v <-> exists n, denotes s n /\ lo <= n <= hi /\ v = C n).
Proof.
  intros t C lo hi s v T.
  assert (G : forall l h K, - 2 ^ 63 <= l -> h <= 2 ^ 63 - 1 ->
    (option_map K (parse_signed 10 l h false s) = Some v <-> exists n, denotes s n /\ l <= n <= h /\ v = K n)).
  { intros l h K Hl Hh. split.
    - destruct (parse_signed 10 l h false s) as [n|] eqn:E; [|discriminate]. cbn. intros X. injection X as <-.
      apply parse_signed_spec in E as [D R]; try assumption. eauto.
    - intros (n & D & R & ->). rewrite (proj2 (parse_signed_spec l h s n Hl Hh)); auto. }
  destruct T; [apply (G (-32768) 32767 VInt16)|apply (G (-2147483648) 2147483647 VInt32)|
               apply (G (-9223372036854775808) 9223372036854775807 VInt64)]; lia.
Qed.
Lemma unsigned_exact : forall t C hi s v, unsigned_type t C hi -> ~ starts_with_space s ->
  (set_from_string t s = Some v <-> exists n, denotes s n /\ 0 <= n <= hi /\ v = C n).
Proof.
  intros t C hi s v T NS.
  assert (G : forall h K, h <= 2 ^ 64 - 1 ->
    (option_map K (parse_unsigned 10 h false s) = Some v <-> exists n, denotes s n /\ 0 <= n <= h /\ v = K n)).
  { intros h K Hh. split.
    - destruct (parse_unsigned 10 h false s) as [n|] eqn:E; [|discriminate]. cbn. intros X. injection X as <-.
      apply parse_unsigned_sound in E as [D R]; try assumption. eauto.
    - intros (n & D & R & ->). rewrite (parse_unsigned_complete h s n Hh D R). reflexivity. }
  destruct T; [apply (G 65535 VUInt16)|apply (G 4294967295 VUInt32)|apply (G 18446744073709551615 VUInt64)]; lia.
Qed.
(** a text denotes at most one number *)
Lemma unsigned_in_range : forall t C hi s v, unsigned_type t C hi -> set_from_string t s = Some v ->
  exists n, v = C n /\ 0 <= n <= hi.
Proof.
  intros t C hi s v T H.
  assert (G : forall h, h <= 2 ^ 64 - 1 -> forall K, option_map K (parse_unsigned 10 h false s) = Some v ->
    exists n, v = K n /\ 0 <= n <= h).
  { intros h Hh K X. destruct (parse_unsigned 10 h false s) as [n|] eqn:E; [|discriminate]. injection X as <-.
    exists n. split; [reflexivity|]. unfold parse_unsigned in E.
    destruct (strto 10 s) as [[[neg m] rest]|] eqn:St; [|discriminate].
    apply strto_sound in St as (ws & sg & ds & -> & Fw & Sg & Fd & Nd & ->).
    pose proof (numeral_nonneg ds Fd). unfold strtoul_value in E.
    destruct (2 ^ 64 - 1 <? numeral_value ds) eqn:A.
    - rewrite Z.eqb_refl in E. cbn [andb orb] in E. rewrite orb_true_r in E. discriminate.
    - match type of E with (if ?c || (h <? ?x) then _ else _) = _ => destruct c; [discriminate|]; destruct (h <? x) eqn:B; [discriminate|] end.
      injection E as <-. cbn [orb] in B. pose proof (Z.mod_pos_bound (- numeral_value ds) (2 ^ 64)).
      destruct neg; lia. }
  destruct T; [apply (G 65535) with (K := VUInt16)|apply (G 4294967295) with (K := VUInt32)|apply (G 18446744073709551615) with (K := VUInt64)]; try lia; exact H.
Qed.

Lemma bytes_text : forall s b, 0 <= b < 256 -> exists t,
  to_string (VBytes (Some (b :: s))) = Some t /\ set_from_string RBUS_BYTES t <> Some (VBytes (Some (b :: s))).
Proof.
  intros s b H. eexists. split; [reflexivity|]. cbn. intros E. injection E as E1 E2.
  apply (f_equal (@length Z)) in E2. cbn in E2.
  assert (L : length (flat_map print_hex2 s) = (2 * length s)%nat).
  { clear. induction s as [|x s IH]; [reflexivity|]. cbn [flat_map]. rewrite app_length, IH. cbn. lia. }
  lia.
Qed.
