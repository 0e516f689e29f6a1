From Coq Require Import String.
From Coq Require Import List ZArith Bool Lia ZifyBool.
From Verif Require Import Common CommonFacts TextSpec TextModel TextProofs WaitModel WaitSpec.
Import ListNotations.
Local Open Scope string_scope.
Local Open Scope list_scope.
Local Open Scope Z_scope.

Lemma run_app l : forall h l', run h (l ++ l') = run (run h l) l'.
Proof. induction l as [|[k n|v] l IH]; intros h l'; cbn; auto. Qed.

Definition given (k : kind) (n : Z) : Z := if n =? 0 then default k else n.

Lemma run_said h k l : run h (rev l) k = match said k l with Some n => given k n | None => h k end.
Proof.
  induction l as [|[j n|v] l IH]; cbn [rev said]; [reflexivity| |]; rewrite run_app; cbn [run].
  - destruct j, k; cbn -[run]; try reflexivity; exact IH.
  - destruct k; reflexivity.
Qed.

Lemma scan_stop ds r a : Forall dec_char ds -> match r with [] => True | c :: _ => ~ dec_char c end ->
  scan_digits 10 (ds ++ r) a = (fold_dec ds a, r).
Proof.
  revert a. induction ds as [|c ds IH]; intros a F N.
  - destruct r as [|c r]; [reflexivity|]. cbn. destruct (digit_val c) as [d|] eqn:D; [|reflexivity].
    destruct (d <? 10) eqn:L; [|reflexivity]. apply digit_val_inv in D; [|lia]. destruct D. contradiction.
  - inversion F; subst. cbn [app scan_digits]. rewrite digit_val_dec by assumption.
    replace (c - 48 <? 10) with true by (unfold dec_char in *; lia). rewrite IH by assumption. reflexivity.
Qed.

Lemma strto_stop ws sg ds neg r : Forall space_char ws -> sign_of neg sg -> Forall dec_char ds -> ds <> [] ->
  match r with [] => True | c :: _ => ~ dec_char c end ->
  strto 10 (ws ++ sg ++ ds ++ r) = Some (neg, numeral_value ds, r).
Proof.
  intros Hw Hs Hd Hn N. rewrite strto_def. unfold sign_of in Hs.
  destruct ds as [|c ds]; [congruence|]. assert (Hc : dec_char c) by now inversion Hd.
  assert (S : split_sign (skip_ws (ws ++ sg ++ (c :: ds) ++ r)) = (neg, (c :: ds) ++ r)).
  { rewrite skip_ws_app; [|assumption|].
    - rewrite split_sign_def. destruct neg; [|destruct Hs]; subst sg; cbn; try reflexivity.
      unfold dec_char in Hc. now replace (c =? 45) with false by lia; replace (c =? 43) with false by lia.
    - destruct neg; [|destruct Hs]; subst sg; cbn; unfold space_char, dec_char in *; lia. }
  rewrite S. unfold pick_base. cbn [Z.eqb app]. rewrite (proj2 (is_digit_dec c)) by assumption.
  change (c :: ds ++ r) with ((c :: ds) ++ r). rewrite (scan_stop (c :: ds) r 0) by assumption. reflexivity.
Qed.

Lemma atoi_holds s r n : denotes s n -> match r with [] => True | c :: _ => ~ dec_char c end -> - 2 ^ 31 <= n < 2 ^ 31 -> atoi (s ++ r) = n.
Proof.
  intros (ws & sg & ds & -> & W & D & Nn & S) N B. unfold atoi.
  assert (Sg : exists neg : bool, sign_of neg sg /\ n = if neg then - numeral_value ds else numeral_value ds).
  { destruct S as [(S & ->)|(S & ->)]; [exists false|exists true]; split; auto. }
  destruct Sg as (neg & Sn & E). rewrite <- !app_assoc, (strto_stop ws sg ds neg r W Sn D Nn N).
  unfold strtol_value. assert (X : (if neg then - numeral_value ds else numeral_value ds) = n) by (destruct neg; lia). rewrite X.
  replace (n <? - 2 ^ 63) with false by lia. replace (2 ^ 63 - 1 <? n) with false by lia. cbn [fst]. rewrite Z.mod_small by lia. lia.
Qed.

Lemma upto0_all s : Forall (fun c => c <> 0) s -> upto0 s = s.
Proof. induction 1 as [|c s N F IH]; [reflexivity|]. cbn. destruct (Z.eqb_spec c 0); [contradiction|]. rewrite IH. reflexivity. Qed.

Lemma number_short content : (List.length content < 25)%nat -> file_number content = Ok (atoi (upto0 content)).
Proof.
  intros L. unfold file_number. rewrite firstn_all2 by lia. replace (Nat.eqb (List.length content) 25) with false by (symmetry; apply Nat.eqb_neq; lia). reflexivity.
Qed.

Lemma number_holds content n : holds content n -> - 2 ^ 31 <= n < 2 ^ 31 -> file_number content = Ok n.
Proof.
  intros (s & r & E & D & F & L & N) B. rewrite number_short by exact L. rewrite upto0_all by exact F. rewrite E, (atoi_holds s r n D N B). reflexivity.
Qed.

Lemma file_names prog j k : (List.length prog <= 80)%nat -> j <> KSubscribe -> k <> KSubscribe -> file_name prog j = file_name prog k -> j = k.
Proof.
  intros L J K E. unfold file_name in E.
  assert (X : forall i, firstn 126 (bs "/tmp/rbus_" ++ prog ++ suffix i) = bs "/tmp/rbus_" ++ prog ++ suffix i).
  { intros i. apply firstn_all2. rewrite !app_length. destruct i; cbn; lia. }
  rewrite !X in E. apply app_inv_head, app_inv_head in E. destruct j, k; try reflexivity; try congruence; discriminate.
Qed.
