(** C99: how long the calls of a program wait. *)
From Coq Require Import String.
From Coq Require Import List ZArith Bool Lia ZifyBool.
From Verif Require Import Common CommonFacts TextSpec TextModel TextProofs WaitModel WaitSpec WaitProofs.
Import ListNotations.
Local Open Scope string_scope.
Local Open Scope list_scope.
Local Open Scope Z_scope.

(** Whatever was configured before, and in whatever order: without files, a call waits for what was last
    configured for its kind, for the default of its kind when that was 0, and for what the handle started with
    when nothing was configured for its kind. *)
Theorem C99_configured : forall prog h ops k c n, uses c k ->
  (said k ops = Some n \/ said k ops = None /\ n = h k) -> (k = KSubscribe -> - 2 ^ 31 <= n < 2 ^ 31) ->
  waits no_files prog (run h (rev ops)) c =
  Ok (match said k ops with Some _ => if n =? 0 then default k else n | None => n end).
Proof.
  intros prog h ops k c n U S B.
  assert (F : fetch no_files prog (run h (rev ops)) k = Ok (match said k ops with Some _ => if n =? 0 then default k else n | None => n end)).
  { assert (R : run h (rev ops) k = match said k ops with Some _ => if n =? 0 then default k else n | None => n end).
    { rewrite run_said. destruct S as [E|(E & ->)]; rewrite E; reflexivity. }
    unfold fetch, no_files. rewrite <- R. destruct k; reflexivity. }
  destruct U; try exact F. cbn -[fetch]. rewrite F. cbn [obind]. specialize (B eq_refl).
  f_equal. destruct (said KSubscribe ops); [destruct (n =? 0) eqn:N; cbn [default]|]; rewrite Z.mod_small; lia.
Qed.
Print Assumptions C99_configured.

(** What a handle starts with: the default of each kind, or the number in the environment. *)
Theorem C99_start : forall env k,
  (env k = None \/ env k = Some [] -> init env k = default k) /\
  (forall s r n, env k = Some (s ++ r) -> denotes s n -> match r with [] => True | c :: _ => ~ dec_char c end -> 0 <= n < 2 ^ 31 -> init env k = n).
Proof.
  intros env k. unfold init. split.
  - intros [->| ->]; reflexivity.
  - intros s r n E D N B. rewrite E. destruct (s ++ r) as [|c t] eqn:T.
    + apply app_eq_nil in T. destruct T as (-> & ->). destruct D as (ws & sg & ds & X & _ & _ & Nn & _).
      symmetry in X. apply app_eq_nil in X. destruct X as (_ & X). apply app_eq_nil in X. destruct X. contradiction.
    + rewrite <- T. rewrite (atoi_holds s r n D N) by lia. apply Z.mod_small. lia.
Qed.
Print Assumptions C99_start.

(** A file with a number of seconds goes before everything configured; a file with a number that is not
    positive, or without a number, changes nothing. *)
Theorem C99_file : forall fs prog h k c content n, uses c k -> k <> KSubscribe ->
  fs (file_name prog k) = Some content -> holds content n -> - 2 ^ 31 <= n <= 2147483 ->
  waits fs prog h c = if 0 <? n then Ok (n * 1000) else waits no_files prog h c.
Proof.
  intros fs prog h k c content n U K F H B.
  assert (X : fetch fs prog h k = if 0 <? n then Ok (n * 1000) else fetch no_files prog h k).
  { assert (G : fetch no_files prog h k = Ok (h k)) by (destruct k; reflexivity). rewrite G.
    unfold fetch. destruct k; try congruence; rewrite F, (number_holds content n H) by lia; cbn [obind];
      (destruct (0 <? n) eqn:P; [replace (n >? 0) with true by lia; replace (n * 1000 >? 2 ^ 31 - 1) with false by lia; reflexivity
       |replace (n >? 0) with false by lia; reflexivity]). }
  destruct U; try congruence; exact X.
Qed.
Print Assumptions C99_file.

(** A file of one kind changes no call of another kind, for program names of up to 80 bytes. *)
Theorem C99_separate_partial : forall fs fs' prog h j k c, (List.length prog <= 80)%nat -> uses c k -> j <> k -> j <> KSubscribe ->
  (forall f, f <> file_name prog j -> fs f = fs' f) -> waits fs prog h c = waits fs' prog h c.
Proof.
  intros fs fs' prog h j k c L U N J E.
  assert (X : fetch fs prog h k = fetch fs' prog h k).
  { unfold fetch. destruct k eqn:K; try reflexivity; rewrite (E (file_name prog _)); try reflexivity;
      intros Z; apply file_names in Z; try assumption; try discriminate; congruence. }
  destruct U; try exact X. cbn -[fetch]. rewrite X. reflexivity.
Qed.
Print Assumptions C99_separate_partial.

(** A timeout given with a call is the one that is used, whatever is configured and whatever the files hold. *)
Theorem C99_given : forall fs prog h t,
  (0 < t < 2 ^ 32 -> waits fs prog h (Set_ t) = Ok t /\ waits fs prog h (SetMulti t) = Ok t) /\
  (0 <= t <= 2147483 -> waits fs prog h (Subscribe t) = Ok (t * 1000)).
Proof.
  intros fs prog h t. split; intros B.
  - cbn -[fetch]. replace (t =? 0) with false by lia. split; reflexivity.
  - cbn -[fetch]. replace (t =? -1) with false by lia. replace (t * 1000 >? 2147483647) with false by lia. replace (t * 1000 <? -2147483648) with false by lia. reflexivity.
Qed.
Print Assumptions C99_given.

(** Configuring 0 after starting with a number in the environment gives the compiled-in default, not what the
    environment says. *)
Theorem C99_environment_refuted : exists env k n, init env k = n /\ run (init env) [Config k 5000; Config k 0] k <> n.
Proof.
  exists (fun k => match k with KGet => Some (bs "30000") | _ => None end), KGet, 30000.
  split; vm_compute; [reflexivity|discriminate].
Qed.
Print Assumptions C99_environment_refuted.

(** A file that holds 2147484 seconds or more, up to the largest int, makes the product overflow. *)
Theorem C99_overflow_refuted : forall fs prog h content n, fs (file_name prog KGet) = Some content -> holds content n -> 2147483 < n < 2 ^ 31 ->
  waits fs prog h Get = UB.
Proof.
  intros fs prog h content n F H B. cbn -[file_number file_name]. rewrite F, (number_holds content n H) by lia. cbn [obind].
  replace (n >? 0) with true by lia. replace (n * 1000 >? 2147483647) with true by lia. reflexivity.
Qed.
Print Assumptions C99_overflow_refuted.

(** A file that starts with 25 digits is read beyond the end of the buffer. *)
Theorem C99_unterminated_refuted : forall fs prog h content, fs (file_name prog KGet) = Some content ->
  (25 <= List.length content)%nat -> Forall dec_char (firstn 25 content) -> waits fs prog h Get = UB.
Proof.
  intros fs prog h content F L D. cbn -[file_number file_name]. rewrite F.
  assert (X : file_number content = UB); [|rewrite X; reflexivity].
  unfold file_number. assert (Len : List.length (firstn 25 content) = 25%nat) by (rewrite firstn_length; lia).
  rewrite Len. cbn [Nat.eqb].
  assert (Z0 : existsb (Z.eqb 0) (firstn 25 content) = false).
  { destruct (existsb (Z.eqb 0) (firstn 25 content)) eqn:Q; [|reflexivity]. apply existsb_exists in Q. destruct Q as (c & I & Q). rewrite Forall_forall in D. specialize (D c I). unfold dec_char in D. lia. }
  rewrite Z0. cbn [negb andb].
  assert (S : strto 10 (firstn 25 content) = Some (false, numeral_value (firstn 25 content), [])).
  { pose proof (strto_stop [] [] (firstn 25 content) false []) as Q. cbn [app] in Q. rewrite app_nil_r in Q.
    apply Q; auto; [left; reflexivity|]. intros E. rewrite E in Len. discriminate. }
  rewrite S. reflexivity.
Qed.
Print Assumptions C99_unterminated_refuted.

(** Program names of 116 bytes or more share one file for all kinds of calls. *)
Theorem C99_shared_refuted : forall prog j k, (116 <= List.length prog)%nat -> file_name prog j = file_name prog k.
Proof.
  intros prog j k L. unfold file_name.
  assert (X : forall i, firstn 126 (bs "/tmp/rbus_" ++ prog ++ suffix i) = bs "/tmp/rbus_" ++ firstn 116 prog).
  { intros i. rewrite firstn_app. change (List.length (bs "/tmp/rbus_")) with 10%nat. rewrite (firstn_all2 (bs "/tmp/rbus_")) by (cbn; lia).
    f_equal. change (126 - 10)%nat with 116%nat. rewrite firstn_app. replace (116 - List.length prog)%nat with 0%nat by lia. cbn [firstn]. apply app_nil_r. }
  rewrite !X. reflexivity.
Qed.
Print Assumptions C99_shared_refuted.

(** A subscribe timeout of 2^31 ms or more is taken for a negative one: the subscription is given up at the
    first failure instead of retried for 25 days or more. *)
Theorem C99_negative_refuted : forall fs prog h n, 2 ^ 31 <= n < 2 ^ 32 ->
  exists m, waits fs prog (run h [Config KSubscribe n]) (Subscribe (-1)) = Ok m /\ m < 0.
Proof.
  intros fs prog h n B. cbn -[Z.pow Z.modulo Z.add Z.sub]. unfold put. replace (n =? 0) with false by lia.
  eexists. split; [reflexivity|]. rewrite Z.mod_eq by lia. replace ((n + 2 ^ 31) / 2 ^ 32) with 1; [lia|].
  apply Z.div_unique with (r := n + 2 ^ 31 - 2 ^ 32); lia.
Qed.
Print Assumptions C99_negative_refuted.

(** Non-vacuity. *)
Example C99_witness_history : said KGet [Config KSet 7; Config KGet 0; Config KGet 9] = Some 0 /\
  run (init (fun _ => None)) [Config KGet 9; Config KGet 0; Config KSet 7] KGet = 15000.
Proof. split; reflexivity. Qed.
Example C99_witness_file : holds (bs "30" ++ [10]) 30 /\
  waits (fun f => if list_eq_dec Z.eq_dec f (bs "/tmp/rbus_app_timeout_get") then Some (bs "30" ++ [10]) else None) (bs "app") default Get = Ok 30000.
Proof.
  split; [|vm_compute; reflexivity].
  exists (bs "30"), [10]. split; [reflexivity|]. split.
  - exists [], [], (bs "30"). split; [reflexivity|]. split; [constructor|]. split; [apply Forall_forall; intros c [<-|[<-|[]]]; split; vm_compute; discriminate|].
    split; [discriminate|]. left. split; [now left|reflexivity].
  - split; [repeat constructor; discriminate|]. split; [cbn; lia|]. unfold dec_char. lia.
Qed.
