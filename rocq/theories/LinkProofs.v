From Verif Require Import Common CommonFacts Bytes BytesFacts HeaderModel HeaderSpec HeaderProofs FramingModel FramingSpec FramingProofs RouteModel RouteSpec RouterModel RouterSpec RouterProofs LinkModel LinkSpec.
Local Open Scope Z_scope.

(** ** reading *)
Lemma read_until_zero : forall closed stream rs acc, read_until 0 closed stream rs acc = Read acc stream rs.
Proof. intros. destruct rs; reflexivity. Qed.
(** what one call of rtConnection_ReadUntil can give if there are no odd errors *)
Lemma read_until_cases : forall rs count closed stream acc, no_other_error rs = true ->
  (count <= length stream)%nat ->
  (exists rs', read_until count closed stream rs acc = Read (acc ++ firstn count stream) (skipn count stream) rs' /\ no_other_error rs' = true /\
     (length rs' <= length rs)%nat /\ ((0 < count)%nat -> (length rs' < length rs)%nat) /\
     (quiet rs = true -> quiet rs' = true /\ (deliveries rs <= count + deliveries rs')%nat)) \/
  (quiet rs = true -> (deliveries rs < count)%nat) /\ read_until count closed stream rs acc = Blocked \/
  quiet rs = false /\ exists s' rs', read_until count closed stream rs acc = Fail true s' rs'.
Proof.
  induction rs as [|a rs IH]; intros count closed stream acc NE LC.
  - destruct count as [|count].
    + left. exists []. cbn. rewrite app_nil_r. repeat split; auto; lia.
    + right. left. split; [intros _; cbn; lia|reflexivity].
  - destruct count as [|count].
    { left. exists (a :: rs). rewrite read_until_zero. cbn [firstn skipn]. rewrite app_nil_r. repeat split; auto; lia. }
    cbn [no_other_error forallb] in NE. apply andb_true_iff in NE as [NA NE].
    destruct a as [k| | |]; [| |right; right; split; [reflexivity|eexists _, _; reflexivity]|discriminate].
    + cbn [read_until]. destruct stream as [|x stm] eqn:ES; [cbn in LC; lia|]. rewrite <- ES in *.
      set (n := Nat.max 1 (Nat.min k (Nat.min (S count) (length stream)))).
      assert (N1 : (1 <= n <= S count)%nat) by (unfold n; lia).
      specialize (IH (S count - n)%nat closed (skipn n stream) (acc ++ firstn n stream) NE).
      rewrite skipn_length in IH. specialize (IH ltac:(lia)).
      destruct IH as [(rs' & E & NE' & L1 & L2 & Q)|[[Q E]|[Q (s' & rs' & E)]]].
      * left. exists rs'. rewrite E. rewrite <- app_assoc, firstn_skipn_firstn, skipn_add. replace (n + (S count - n))%nat with (S count) by lia.
        split; [reflexivity|]. split; [exact NE'|]. cbn [length]. split; [lia|]. split; [lia|].
        cbn [quiet forallb]. intros QQ. destruct (Q QQ) as [Q1 Q2]. split; [exact Q1|]. unfold deliveries in *. cbn [filter length]. lia.
      * right. left. split; [|exact E]. cbn [quiet forallb]. intros QQ. specialize (Q QQ). unfold deliveries in *. cbn [filter length]. lia.
      * right. right. split; [exact Q|]. eexists _, _. exact E.
    + cbn [read_until]. specialize (IH (S count) closed stream acc NE LC).
      destruct IH as [(rs' & E & NE' & L1 & L2 & Q)|[[Q E]|[Q (s' & rs' & E)]]].
      * left. exists rs'. split; [exact E|]. split; [exact NE'|]. cbn [length]. split; [lia|]. split; [lia|]. exact Q.
      * right. left. split; [exact Q|exact E].
      * right. right. split; [exact Q|]. eexists _, _. exact E.
Qed.
(** more is asked for than there will ever be *)
Lemma read_until_short : forall rs count closed stream acc, no_other_error rs = true -> (length stream < count)%nat ->
  (read_until count closed stream rs acc = Blocked /\ (closed = true -> quiet rs = true -> (deliveries rs <= length stream)%nat)) \/
  (closed = true \/ quiet rs = false) /\ exists s' rs', read_until count closed stream rs acc = Fail true s' rs'.
Proof.
  induction rs as [|a rs IH]; intros count closed stream acc NE LC; (destruct count as [|count]; [lia|]).
  - left. split; [reflexivity|]. intros. cbn. lia.
  - cbn [no_other_error forallb] in NE. apply andb_true_iff in NE as [NA NE].
    destruct a as [k| | |]; [| |right; split; [right; reflexivity|eexists _, _; reflexivity]|discriminate].
    + cbn [read_until]. destruct stream as [|x stm] eqn:ES.
      { destruct closed; [right; split; [left; reflexivity|eexists _, _; reflexivity]|left; split; [reflexivity|discriminate]]. }
      rewrite <- ES in *. set (n := Nat.max 1 (Nat.min k (Nat.min (S count) (length stream)))).
      assert (N0 : (1 <= length stream)%nat) by (rewrite ES; cbn; lia).
      assert (N1 : (1 <= n <= length stream)%nat) by (unfold n; lia).
      specialize (IH (S count - n)%nat closed (skipn n stream) (acc ++ firstn n stream) NE). rewrite skipn_length in IH. specialize (IH ltac:(lia)).
      destruct IH as [[E Q]|[Q (s' & rs' & E)]].
      * left. split; [exact E|]. cbn [quiet forallb]. intros C QQ. specialize (Q C QQ). unfold deliveries in *. cbn [filter length]. lia.
      * right. split; [exact Q|]. eexists _, _. exact E.
    + cbn [read_until]. destruct (IH (S count) closed stream acc NE LC) as [[E Q]|[Q (s' & rs' & E)]].
      * left. split; [exact E|exact Q].
      * right. split; [exact Q|]. eexists _, _. exact E.
Qed.

(** the parts of a message that has been written, read one after the other *)
Definition ready (buf : list Z) := (542 <= length buf)%nat.
(** one turn on a stream that begins with a whole message *)
Lemma turn_whole : forall m rest rs buf closed, sendable m = true -> ready buf -> no_other_error rs = true ->
  (exists m' buf' rs', read_turn closed header_init buf (wire_bytes m ++ rest) rs = Ok (Got m' buf' rest rs') /\ content m' = content m /\ ready buf' /\
     no_other_error rs' = true /\ (length rs' < length rs)%nat /\ (quiet rs = true -> quiet rs' = true /\ (deliveries rs <= length (wire_bytes m) + deliveries rs')%nat)) \/
  (quiet rs = true -> (deliveries rs < length (wire_bytes m))%nat) /\ read_turn closed header_init buf (wire_bytes m ++ rest) rs = Ok Stuck \/
  quiet rs = false /\ read_turn closed header_init buf (wire_bytes m ++ rest) rs = Ok Lost.
Proof.
  intros m rest rs buf closed SM RB NE. destruct (msg_facts m SM) as (b & h2 & EW & D & C & HL & PL & LB & SZ & tail & ET).
  rewrite EW. set (stream := (b ++ snd m) ++ rest).
  assert (LW : length stream = (length b + length (snd m) + length rest)%nat) by (unfold stream; rewrite !app_length; lia).
  unfold read_turn.
  destruct (read_until_cases rs 6 closed stream [] NE ltac:(lia)) as [(rs1 & E1 & NE1 & L1 & L1' & Q1)|[[Q E1]|[Q (s' & rs' & E1)]]]; rewrite E1; clear E1.
  2: { right. left. split; [|reflexivity]. intros QQ. specialize (Q QQ). rewrite app_length. lia. }
  2: { right. right. split; [exact Q|reflexivity]. }
  rewrite app_nil_l.
  assert (F6 : firstn 6 stream = be16 RTMSG_HEADER_MARKER ++ be16 RTMSG_HEADER_VERSION ++ be16 (Z.of_nat (length b))).
  { unfold stream. rewrite ET at 1. rewrite <- !app_assoc. reflexivity. }
  destruct (Nat.ltb_spec (length buf) 6) as [X|_]; [unfold ready in RB; lia|].
  rewrite F6. set (buf1 := (be16 RTMSG_HEADER_MARKER ++ be16 RTMSG_HEADER_VERSION ++ be16 (Z.of_nat (length b))) ++ skipn 6 buf).
  assert (LB1 : length buf1 = length buf). { unfold buf1. rewrite app_length, skipn_length. cbn [length app be16]. unfold ready in RB. lia. }
  assert (G : get_be16 (skipn 4 buf1) = Some (Z.of_nat (length b), skipn 6 buf)).
  { unfold buf1. rewrite <- !app_assoc. change (skipn 4 _) with (be16 (Z.of_nat (length b)) ++ skipn 6 buf). apply get_be16_be16. lia. }
  rewrite G. set (count := Z.to_nat (Z.of_nat (length b) - 6)). assert (CN : count = (length b - 6)%nat) by (unfold count; lia).
  destruct (Nat.ltb_spec (length buf1) (6 + count)) as [X|_]; [unfold ready in RB; lia|].
  destruct (read_until_cases rs1 count closed (skipn 6 stream) [] NE1) as [(rs2 & E2 & NE2 & L2 & L2' & Q2)|[[Q E2]|[Q (s' & rs' & E2)]]]; [rewrite skipn_length; lia|rewrite E2; clear E2..].
  2: { right. left. split; [|reflexivity]. intros QQ. destruct (Q1 QQ) as [QQ1 QL]. specialize (Q QQ1). rewrite app_length. lia. }
  2: { right. right. split; [|reflexivity]. destruct (quiet rs) eqn:QQ; [|reflexivity]. destruct (Q1 eq_refl) as [QQ1 _]. congruence. }
  rewrite app_nil_l, skipn_add.
  assert (EB : firstn 6 buf1 ++ firstn count (skipn 6 stream) ++ skipn (6 + count) buf1 = b ++ skipn (length b) buf1).
  { replace (6 + count)%nat with (length b) by lia. rewrite app_assoc. f_equal.
    change (firstn 6 buf1) with (be16 RTMSG_HEADER_MARKER ++ be16 RTMSG_HEADER_VERSION ++ be16 (Z.of_nat (length b))). rewrite <- F6, firstn_skipn_firstn.
    replace (6 + count)%nat with (length b) by lia. unfold stream. rewrite <- app_assoc, firstn_app, firstn_all, Nat.sub_diag. cbn [firstn]. apply app_nil_r. }
  rewrite EB.
  assert (DD : header_decode (with_length (Z.of_nat (length b)) header_init) (b ++ skipn (length b) buf1) = Ok h2) by (rewrite <- (D (skipn (length b) buf1)); reflexivity).
  rewrite DD, PL. destruct (Z.leb_spec 2147483648 (Z.of_nat (length (snd m)))) as [X|_]; [lia|].
  rewrite Nat2Z.id. replace (6 + count)%nat with (length b) by lia.
  assert (SB : skipn (length b) stream = snd m ++ rest). { unfold stream. rewrite <- app_assoc, skipn_app, skipn_all, Nat.sub_diag. reflexivity. }
  rewrite SB.
  destruct (read_until_cases rs2 (length (snd m)) closed (snd m ++ rest) [] NE2) as [(rs3 & E3 & NE3 & L3 & L3' & Q3)|[[Q E3]|[Q (s' & rs' & E3)]]]; [rewrite app_length; lia|rewrite E3; clear E3..].
  2: { right. left. split; [|reflexivity]. intros QQ. destruct (Q1 QQ) as [QQ1 QL]. destruct (Q2 QQ1) as [QQ2 QL2]. specialize (Q QQ2). rewrite app_length. lia. }
  2: { right. right. split; [|reflexivity]. destruct (quiet rs) eqn:QQ; [|reflexivity]. destruct (Q1 eq_refl) as [QQ1 _]. destruct (Q2 QQ1) as [QQ2 _]. congruence. }
  assert (F1 : firstn (length (snd m)) (snd m ++ rest) = snd m) by (rewrite firstn_app, firstn_all, Nat.sub_diag; cbn [firstn]; apply app_nil_r).
  assert (F2 : skipn (length (snd m)) (snd m ++ rest) = rest) by (rewrite skipn_app, skipn_all, Nat.sub_diag; reflexivity).
  left. eexists _, _, rs3. rewrite app_nil_l, F1, F2. split; [reflexivity|].
  split; [unfold content; cbn [fst snd]; rewrite C; reflexivity|]. split.
  { unfold ready in *. rewrite app_length, skipn_length, LB1. lia. }
  split; [exact NE3|]. split; [lia|]. intros QQ. destruct (Q1 QQ) as [QQ1 QL]. destruct (Q2 QQ1) as [QQ2 QL2]. destruct (Q3 QQ2) as [QQ3 QL3].
  split; [exact QQ3|]. rewrite app_length. lia.
Qed.
(** one turn on a stream that ends within a message *)
Lemma turn_part : forall m n rs buf closed, sendable m = true -> ready buf -> no_other_error rs = true -> (n < length (wire_bytes m))%nat ->
  (read_turn closed header_init buf (firstn n (wire_bytes m)) rs = Ok Stuck /\ (closed = true -> quiet rs = true -> (deliveries rs <= n)%nat)) \/
  (closed = true \/ quiet rs = false) /\ read_turn closed header_init buf (firstn n (wire_bytes m)) rs = Ok Lost.
Proof.
  intros m n rs buf closed SM RB NE LN. destruct (msg_facts m SM) as (b & h2 & EW & D & C & HL & PL & LB & SZ & tail & ET).
  rewrite EW in *. set (full := b ++ snd m) in *. set (stream := firstn n full).
  assert (LF : length full = (length b + length (snd m))%nat) by (unfold full; rewrite app_length; lia).
  assert (LW : length stream = n) by (unfold stream; rewrite firstn_length; lia).
  unfold read_turn. destruct (Nat.ltb_spec n 6) as [N6|N6].
  { destruct (read_until_short rs 6 closed stream [] NE ltac:(lia)) as [[E Q]|[Q (s' & rs' & E)]]; rewrite E; [left|right]; (split; [reflexivity || exact Q|]); [intros A B; specialize (Q A B); lia|reflexivity]. }
  destruct (read_until_cases rs 6 closed stream [] NE ltac:(lia)) as [(rs1 & E1 & NE1 & L1 & L1' & Q1)|[[Q E1]|[Q (s' & rs' & E1)]]]; rewrite E1; clear E1.
  2: { left. split; [reflexivity|]. intros _ QQ. specialize (Q QQ). lia. }
  2: { right. split; [right; exact Q|reflexivity]. }
  rewrite app_nil_l.
  assert (F6 : firstn 6 stream = be16 RTMSG_HEADER_MARKER ++ be16 RTMSG_HEADER_VERSION ++ be16 (Z.of_nat (length b))).
  { unfold stream. rewrite firstn_firstn. replace (Nat.min 6 n) with 6%nat by lia. unfold full. rewrite ET at 1. rewrite <- !app_assoc. reflexivity. }
  destruct (Nat.ltb_spec (length buf) 6) as [X|_]; [unfold ready in RB; lia|].
  rewrite F6. set (buf1 := (be16 RTMSG_HEADER_MARKER ++ be16 RTMSG_HEADER_VERSION ++ be16 (Z.of_nat (length b))) ++ skipn 6 buf).
  assert (LB1 : length buf1 = length buf). { unfold buf1. rewrite app_length, skipn_length. cbn [length app be16]. unfold ready in RB. lia. }
  assert (G : get_be16 (skipn 4 buf1) = Some (Z.of_nat (length b), skipn 6 buf)).
  { unfold buf1. rewrite <- !app_assoc. change (skipn 4 _) with (be16 (Z.of_nat (length b)) ++ skipn 6 buf). apply get_be16_be16. lia. }
  rewrite G. set (count := Z.to_nat (Z.of_nat (length b) - 6)). assert (CN : count = (length b - 6)%nat) by (unfold count; lia).
  destruct (Nat.ltb_spec (length buf1) (6 + count)) as [X|_]; [unfold ready in RB; lia|].
  assert (QF : quiet rs = true -> quiet rs1 = true /\ (deliveries rs <= 6 + deliveries rs1)%nat) by exact Q1.
  assert (NQ : quiet rs1 = false -> quiet rs = false) by (intros X; destruct (quiet rs); [destruct (Q1 eq_refl); congruence|reflexivity]).
  destruct (Nat.ltb_spec n (length b)) as [NB|NB].
  { destruct (read_until_short rs1 count closed (skipn 6 stream) [] NE1) as [[E Q]|[Q (s' & rs' & E)]]; [rewrite skipn_length; lia|rewrite E..].
    - left. split; [reflexivity|]. intros A B. destruct (QF B) as [B1 B2]. specialize (Q A B1). rewrite skipn_length in Q. lia.
    - right. split; [destruct Q; auto|reflexivity]. }
  destruct (read_until_cases rs1 count closed (skipn 6 stream) [] NE1) as [(rs2 & E2 & NE2 & L2 & L2' & Q2)|[[Q E2]|[Q (s' & rs' & E2)]]]; [rewrite skipn_length; lia|rewrite E2; clear E2..].
  2: { left. split; [reflexivity|]. intros _ QQ. destruct (QF QQ) as [QQ1 QL]. specialize (Q QQ1). lia. }
  2: { right. split; [right; auto|reflexivity]. }
  rewrite app_nil_l, skipn_add.
  assert (EB : firstn 6 buf1 ++ firstn count (skipn 6 stream) ++ skipn (6 + count) buf1 = b ++ skipn (length b) buf1).
  { replace (6 + count)%nat with (length b) by lia. rewrite app_assoc. f_equal.
    change (firstn 6 buf1) with (be16 RTMSG_HEADER_MARKER ++ be16 RTMSG_HEADER_VERSION ++ be16 (Z.of_nat (length b))). rewrite <- F6, firstn_skipn_firstn.
    replace (6 + count)%nat with (length b) by lia. unfold stream. rewrite firstn_firstn. replace (Nat.min (length b) n) with (length b) by lia. unfold full. rewrite firstn_app, firstn_all, Nat.sub_diag. cbn [firstn]. apply app_nil_r. }
  rewrite EB.
  assert (DD : header_decode (with_length (Z.of_nat (length b)) header_init) (b ++ skipn (length b) buf1) = Ok h2) by (rewrite <- (D (skipn (length b) buf1)); reflexivity).
  rewrite DD, PL. destruct (Z.leb_spec 2147483648 (Z.of_nat (length (snd m)))) as [X|_]; [lia|].
  rewrite Nat2Z.id. replace (6 + count)%nat with (length b) by lia.
  destruct (read_until_short rs2 (length (snd m)) closed (skipn (length b) stream) [] NE2) as [[E Q]|[Q (s' & rs' & E)]]; [rewrite skipn_length; lia|rewrite E..].
  - left. split; [reflexivity|]. intros A B. destruct (QF B) as [B1 B2]. destruct (Q2 B1) as [B3 B4]. specialize (Q A B3). rewrite skipn_length in Q. lia.
  - right. split; [|reflexivity]. destruct Q as [Q|Q]; [left; exact Q|]. right. apply NQ. destruct (quiet rs1); [destruct (Q2 eq_refl); congruence|reflexivity].
Qed.

Lemma turn_none : forall rs buf closed, no_other_error rs = true ->
  (read_turn closed header_init buf [] rs = Ok Stuck /\ (closed = true -> quiet rs = true -> deliveries rs = 0%nat)) \/
  (closed = true \/ quiet rs = false) /\ read_turn closed header_init buf [] rs = Ok Lost.
Proof.
  intros rs buf closed NE. unfold read_turn. destruct (read_until_short rs 6 closed [] [] NE ltac:(cbn; lia)) as [[E Q]|[Q (s' & rs' & E)]]; rewrite E.
  - left. split; [reflexivity|]. intros A B. specialize (Q A B). cbn in Q. lia.
  - right. split; [exact Q|reflexivity].
Qed.
(** any initial part of the stream, any answers without odd errors *)
Lemma reader_part : forall ms n fuel closed buf rs, forallb sendable ms = true -> ready buf -> no_other_error rs = true -> (length rs < fuel)%nat ->
  exists out e ms1 ms2, reader fuel closed 0 header_init buf (firstn n (full ms)) rs = Ok (out, e) /\ ms = ms1 ++ ms2 /\ map content out = map content ms1 /\
    (length (full ms1) <= n)%nat /\
    (closed = false -> quiet rs = true -> e = Waits) /\
    (quiet rs = true -> (Nat.min n (length (full ms)) <= deliveries rs)%nat -> forall k, (k <= length ms)%nat -> (length (full (firstn k ms)) <= n)%nat -> (k <= length ms1)%nat) /\
    (closed = true -> quiet rs = true -> (Nat.min n (length (full ms)) < deliveries rs)%nat -> e = NoConnection).
Proof.
  induction ms as [|m ms IH]; intros n fuel closed buf rs SM RB NE LF; (destruct fuel as [|fuel]; [lia|]); cbn [reader].
  - cbn [full map concat]. rewrite firstn_nil. destruct (turn_none rs buf closed NE) as [[E Q]|[Q E]]; rewrite E; cbn [obind].
    + exists [], Waits, [], []. split; [reflexivity|]. split; [reflexivity|]. split; [reflexivity|]. split; [cbn; lia|]. split; [auto|]. split; [intros _ _ k K _; exact K|]. intros A B D. specialize (Q A B). lia.
    + exists [], NoConnection, [], []. split; [reflexivity|]. split; [reflexivity|]. split; [reflexivity|]. split; [cbn; lia|]. split; [intros A B; destruct Q; congruence|]. split; [intros _ _ k K _; exact K|]. auto.
  - cbn [forallb] in SM. apply andb_true_iff in SM as [S1 SM]. rewrite full_cons.
    destruct (Nat.ltb_spec n (length (wire_bytes m))) as [LN|LN].
    + rewrite firstn_app. replace (n - length (wire_bytes m))%nat with 0%nat by lia. cbn [firstn]. rewrite app_nil_r.
      assert (NK : forall k, (k <= length (m :: ms))%nat -> (length (full (firstn k (m :: ms))) <= n)%nat -> (k <= 0)%nat).
      { intros [|k] K1 K2; [lia|]. cbn [firstn] in K2. rewrite full_cons, app_length in K2. lia. }
      assert (LM : Nat.min n (length (wire_bytes m ++ full ms)) = n) by (rewrite app_length; lia).
      destruct (turn_part m n rs buf closed S1 RB NE LN) as [[E Q]|[Q E]]; rewrite E; cbn [obind].
      * exists [], Waits, [], (m :: ms). split; [reflexivity|]. split; [reflexivity|]. split; [reflexivity|]. split; [cbn; lia|]. split; [auto|]. split; [auto|].
        intros A B D. specialize (Q A B). lia.
      * exists [], NoConnection, [], (m :: ms). split; [reflexivity|]. split; [reflexivity|]. split; [reflexivity|]. split; [cbn; lia|]. split; [intros A B; destruct Q; congruence|]. split; [auto|]. auto.
    + rewrite firstn_app, (firstn_all2 (wire_bytes m)) by lia. set (n' := (n - length (wire_bytes m))%nat).
      assert (LM : Nat.min n (length (wire_bytes m ++ full ms)) = (length (wire_bytes m) + Nat.min n' (length (full ms)))%nat) by (rewrite app_length; unfold n'; lia).
      destruct (turn_whole m (firstn n' (full ms)) rs buf closed S1 RB NE) as [(m' & buf' & rs' & E & CM & RB' & NE' & LR & Q)|[[Q E]|[Q E]]]; rewrite E; cbn [obind].
      * destruct (IH n' fuel closed buf' rs' SM RB' NE' ltac:(lia)) as (out & e & ms1 & ms2 & ER & EM & EC & L1 & W1 & K1 & N1). rewrite ER. cbn [obind].
        exists (m' :: out), e, (m :: ms1), ms2. split; [reflexivity|]. split; [cbn [app]; congruence|]. split; [cbn [map]; congruence|]. split; [rewrite full_cons, app_length; unfold n' in L1; lia|].
        split; [intros A B; apply W1; [exact A|apply Q; exact B]|]. split.
        { intros B D [|k] KL KN; [cbn; lia|]. cbn [length firstn] in *. rewrite full_cons, app_length in KN. destruct (Q B) as [QB QD]. assert (k <= length ms1)%nat; [|lia]. apply K1; [exact QB|lia|lia|unfold n'; lia]. }
        intros A B D. destruct (Q B) as [QB QD]. apply N1; auto. lia.
      * exists [], Waits, [], (m :: ms). split; [reflexivity|]. split; [reflexivity|]. split; [reflexivity|]. split; [cbn; lia|]. split; [auto|]. split; [intros B D; specialize (Q B); lia|]. intros A B D. specialize (Q B). lia.
      * exists [], NoConnection, [], (m :: ms). split; [reflexivity|]. split; [reflexivity|]. split; [reflexivity|]. split; [cbn; lia|]. split; [congruence|]. split; [congruence|]. auto.
Qed.
Lemma quiet_no_other : forall rs, quiet rs = true -> no_other_error rs = true.
Proof. induction rs as [|a rs IH]; [reflexivity|]. cbn. destruct a; auto; discriminate. Qed.

(** ** sending *)
Lemma cstring_array : forall s, is_cstr s = true -> (length s < 256)%nat -> cstring (topic_array s) = Some s /\ length (topic_array s) = 256%nat /\ bytes_ok (topic_array s) = true.
Proof.
  intros s C L. unfold topic_array. rewrite firstn_all2 by lia. split.
  - replace (256 - length s)%nat with (S (255 - length s)) by lia. cbn [repeat]. apply cstring_pad. exact C.
  - split; [rewrite app_length, repeat_length; lia|]. rewrite FramingProofs.bytes_ok_app, is_cstr_bytes_ok, bytes_ok_repeat by exact C. reflexivity.
Qed.
Lemma send_loop_whole : forall k b ss, whole (length b) ss = true ->
  send_loop k b ss = match find (fun a => match a with SFailing => false | _ => true end) (firstn (S k) ss) with Some (Sent _) => (SOk, b) | Some _ => (SNoConnection, []) | None => (SFail, []) end.
Proof.
  induction k as [|k IH]; intros b ss W; (destruct ss as [|a ss]; [reflexivity|]); cbn [whole forallb] in W; apply andb_true_iff in W as [W1 W]; destruct a as [n| |]; cbn [send_loop firstn find]; try reflexivity.
  - rewrite W1. apply Nat.leb_le in W1. rewrite firstn_all2 by exact W1. reflexivity.
  - rewrite W1. apply Nat.leb_le in W1. rewrite firstn_all2 by exact W1. reflexivity.
  - rewrite (IH b ss W). cbn [firstn]. destruct (find _ _) as [[| |]|]; reflexivity.
Qed.
Definition header_of (m : msg) (control : Z) : header :=
  mkHeader RTMSG_HEADER_VERSION 0 (m_seq m) (m_flags m) control (Z.of_nat (length (m_payload m))) (Z.of_nat (length (firstn 255 (m_topic m)))) (topic_array (m_topic m)) (Z.of_nat (length (m_reply m))) (topic_array (m_reply m)).
(** a message with its control data that fits into a header *)
Definition postable (m : msg) : Prop :=
  u32 (m_seq m) = true /\ u32 (m_flags m) = true /\ u32 (m_control m) = true /\ is_cstr (m_topic m) = true /\ is_cstr (m_reply m) = true /\
  (length (m_topic m) < 256)%nat /\ (length (m_reply m) < 256)%nat /\ bytes_ok (m_payload m) = true /\ Z.of_nat (length (m_payload m)) < 1073741824.
Lemma letter_postable : forall m, letter m = true <-> postable m /\ m_control m = 0.
Proof.
  intros m. unfold letter, postable. rewrite !andb_true_iff, !Z.eqb_eq, !Z.ltb_lt. intuition (try lia). match goal with Q : m_control m = 0 |- _ => rewrite Q end. reflexivity.
Qed.
Lemma header_sendable : forall m, postable m -> sendable (header_of m (m_control m), m_payload m) = true /\ content (header_of m (m_control m), m_payload m) = as_content m /\
  length (wire_bytes (header_of m (m_control m), m_payload m)) = size m.
Proof.
  intros m (U1 & U2 & U3 & C1 & C2 & L1 & L2 & B & LP). destruct (cstring_array _ C1 L1) as (S1 & T1 & B1). destruct (cstring_array _ C2 L2) as (S2 & T2 & B2).
  split; [|split].
  - unfold sendable, header_wf, header_of. cbn [fst snd h_sequence_number h_flags h_control_data h_payload_length h_topic h_reply_topic].
    rewrite U1, U2, U3, S1, S2, T1, T2, B1, B2, B, Z.eqb_refl. cbn [is_some andb]. change (Z.of_nat 256 =? 256) with true. cbn [andb]. rewrite !andb_true_r. apply andb_true_iff. split; [unfold u32; lia|lia].
  - unfold content, header_content, as_content, header_of. cbn [fst snd h_sequence_number h_flags h_control_data h_payload_length h_topic h_reply_topic]. rewrite S1, S2. reflexivity.
  - unfold wire_bytes, header_encode, header_of. cbn [fst snd h_topic h_reply_topic]. rewrite S1, S2. rewrite !app_length. cbn [length be16 be32]. unfold size. lia.
Qed.
Lemma send_one : forall m ss, letter m = true -> whole (size m) ss = true ->
  send_internal (m_topic m) (m_reply m) (m_flags m) (m_seq m) (m_payload m) ss =
    Ok (verdict ss, match verdict ss with SOk => wire_bytes (header_of m 0, m_payload m) | _ => [] end).
Proof.
  intros m ss LM W. apply letter_postable in LM as [PM C0]. destruct (header_sendable m PM) as (SM & CM & LW). rewrite C0 in *.
  unfold send_internal. change (make_header _ _ _ _ _) with (header_of m 0).
  pose proof (header_encode (header_of m 0)) as _. unfold wire_bytes in LW |- *. cbn [fst snd] in *.
  destruct (header_encode (header_of m 0)) as [[h b]| |] eqn:E; [|unfold size in LW; cbn in LW; lia..].
  cbn [obind]. rewrite <- LW in W. rewrite send_loop_whole by exact W. unfold verdict. destruct (find _ (firstn 4 ss)) as [[| |]|]; reflexivity.
Qed.
Definition posted (m : msg) : message := (header_of m (m_control m), m_payload m).
Lemma send_all_spec : forall l, Forall (fun x => letter (fst x) = true /\ whole (size (fst x)) (snd x) = true) l ->
  send_all l = Ok (map (fun x => verdict (snd x)) l, full (map posted (accepted l))).
Proof.
  induction l as [|[m ss] l IH]; intros F; [reflexivity|]. inversion F as [|? ? [LM W] F']; subst. cbn [fst snd] in *. cbn [send_all]. rewrite (send_one m ss LM W). cbn [obind]. rewrite (IH F'). cbn [obind map snd].
  unfold accepted. cbn [filter snd]. apply letter_postable in LM as [PM C0]. destruct (verdict ss); cbn [map fst]; [|reflexivity..]. rewrite full_cons. unfold posted at 2. rewrite C0. reflexivity.
Qed.

(** ** passing on *)
Lemma received_spec : forall x m, content x = as_content m -> received x = Ok m.
Proof.
  intros [h p] m E. unfold content, header_content, as_content in E. cbn [fst snd] in E. unfold received. cbn [fst snd].
  destruct m as [sq fl tp rp pl ct]. cbn in E. injection E as E1 E2 E3 E4 E5 E6 E7. rewrite E5, E6. subst. reflexivity.
Qed.
Lemma broker_all_spec : forall b v ms ls, Forall2 (fun x m => content x = as_content m) ms ls -> to_clients (flat_map (expected v) ls) ->
  Forall (fun m => dispatch b m = Ok (expected v m)) ls -> broker_all b ms = Ok (flat_map (expected v) ls).
Proof.
  intros b v ms ls F. induction F as [|x m ms ls E F IH]; intros TC D; [reflexivity|]. inversion D; subst. cbn [broker_all flat_map] in *. rewrite (received_spec _ _ E). cbn [obind]. rewrite H1. cbn [obind].
  destruct (existsb for_broker (expected v m)) eqn:EX.
  { apply existsb_exists in EX as ([|r] & I & X); [discriminate|]. exfalso. apply (TC r). apply in_app_iff. left. exact I. }
  rewrite IH; [reflexivity| |assumption]. intros r HR. apply (TC r). apply in_app_iff. right. exact HR.
Qed.
Lemma pass_on_posted : forall m, postable m -> pass_on m = posted m.
Proof. intros m (_ & _ & _ & _ & _ & L1 & _). unfold pass_on, posted, header_of. rewrite firstn_all2 by lia. reflexivity. Qed.
Lemma bytes_to_spec : forall c ds, (forall x m, In (ToClient x m) ds -> postable m) -> bytes_to c ds = Ok (full (map posted (for_client c ds))).
Proof.
  intros c. induction ds as [|[x m|m] ds IH]; intros P; [reflexivity| |]; cbn [bytes_to for_client flat_map]; fold (for_client c ds).
  - assert (PD : forall x m, In (ToClient x m) ds -> postable m) by (intros; eapply P; right; eassumption). destruct (x =? c); [|rewrite (IH PD); reflexivity].
    pose proof (P x m (or_introl eq_refl)) as PM. rewrite pass_on_posted by exact PM. destruct (header_sendable m PM) as (SM & _ & LW). unfold posted at 1. cbn [fst].
    cbn [map app]. rewrite full_cons. unfold wire_bytes at 1. unfold posted at 2. cbn [fst]. unfold wire_bytes in LW. cbn [fst snd] in LW.
    destruct (header_encode (header_of m (m_control m))) as [[h b]| |]; [|unfold size in LW; cbn in LW; lia..]. cbn [obind]. rewrite (IH PD). cbn [obind]. rewrite <- app_assoc. reflexivity.
  - apply IH. intros; eapply P; right; eassumption.
Qed.
Lemma view_ids : forall h p c id, In (p, Some (c, id)) (names_of (view_of h)) -> exists e, In (Sub c e id) (map fst h).
Proof.
  intros h p c id. unfold view_of. rewrite <- fold_left_rev_right, <- (rev_involutive h), map_rev, rev_involutive. induction (rev h) as [|[r rc] l IH]; intros H.
  - cbn in H. repeat destruct H as [H|H]; try discriminate; contradiction.
  - cbn [fold_right map rev fst] in *. set (v := fold_right _ _ _) in *.
    assert (OLD : In (p, Some (c, id)) (names_of v) -> exists e, In (Sub c e id) (rev (map fst l) ++ [r])) by (intros X; destruct (IH X) as [e E]; exists e; apply in_app_iff; left; exact E).
    destruct r as [c' e' id'|c' e'|c']; cbn [record] in H.
    + destruct rc; cbn [names_of] in H; auto. destruct (split e'); auto. apply in_app_iff in H as [H|[H|[]]]; auto. injection H as _ -> ->. exists e'. apply in_app_iff. right. left. reflexivity.
    + destruct rc; cbn [names_of] in H; auto. destruct (find _ _); cbn [names_of] in H; [apply filter_In in H as [H _]; auto|]. destruct (split e'); auto. apply filter_In in H as [H _]; auto.
    + destruct rc; cbn [names_of] in H; apply filter_In in H as [H _]; auto.
Qed.
Lemma owners_ids : forall h p c id, In (Some (c, id)) (owners (view_of h) p) -> exists e, In (Sub c e id) (map fst h).
Proof. intros h p c id H. unfold owners in H. apply in_map_iff in H as ([q o] & E & H). cbn [snd] in E. subst o. apply filter_In in H as [H _]. eapply view_ids. exact H. Qed.
Lemma u32_bits : forall a, u32 a = true <-> 0 <= a /\ (forall k, 32 <= k -> Z.testbit a k = false).
Proof.
  intros a. unfold u32. rewrite andb_true_iff, Z.leb_le, Z.ltb_lt. split; intros [A B]; split; auto.
  - intros k K. destruct (Z.eq_dec a 0) as [->|NZ]; [apply Z.bits_0|]. apply Z.bits_above_log2; [exact A|]. apply Z.log2_lt_pow2; [lia|]. change 4294967296 with (2 ^ 32) in B. apply Z.lt_le_trans with (1 := B). apply Z.pow_le_mono_r; lia.
  - destruct (Z.ltb_spec a 4294967296) as [|G]; [assumption|exfalso]. assert (LG : 32 <= Z.log2 a) by (apply Z.log2_le_pow2; [lia|]; exact G). specialize (B _ LG). rewrite Z.bit_log2 in B by lia. discriminate.
Qed.
Lemma bounce_flags : forall f, u32 f = true -> u32 (Z.lor (Z.land f (Z.lnot 1)) 6) = true.
Proof.
  intros f. rewrite !u32_bits. intros [A B]. split.
  - apply Z.lor_nonneg. split; [apply Z.land_nonneg; left; exact A|lia].
  - intros k K. rewrite Z.lor_spec, Z.land_spec, (B k K). cbn [andb orb]. apply Z.bits_above_log2; [lia|]. change (Z.log2 6) with 2. lia.
Qed.
Lemma deliver_postable : forall h m, postable m -> (forall c e id, In (Sub c e id) (map fst h) -> u32 id = true) -> forall x r, In (ToClient x r) (expected (view_of h) m) -> postable r.
Proof.
  intros h m (U1 & U2 & U3 & C1 & C2 & L1 & L2 & B & LP) UI x r H. unfold expected in H.
  assert (P1 : forall os, In (ToClient x r) (map (deliver_to m) os) -> (forall c id, In (Some (c, id)) os -> u32 id = true) -> postable r).
  { intros os K U. apply in_map_iff in K as ([[c id]|] & E & K); cbn [deliver_to] in E; [|discriminate]. injection E as <- <-. unfold postable. cbn. pose proof (U _ _ K). repeat split; auto. }
  assert (UO : forall p c id, In (Some (c, id)) (owners (view_of h) p) -> u32 id = true) by (intros p c id K; destruct (owners_ids _ _ _ _ K) as [e E]; eapply UI; exact E).
  destruct (owners (view_of h) (split (m_topic m))) as [|o os] eqn:EO.
  - destruct (Z.testbit (m_flags m) 0); [|contradiction]. apply in_map_iff in H as ([[c id]|] & E & K); cbn [deliver_to] in E; [|discriminate]. injection E as <- <-. unfold postable, undeliverable. cbn. pose proof (UO _ _ _ K). pose proof (bounce_flags _ U2). repeat split; auto; lia.
  - apply (P1 (o :: os)); [exact H|]. intros c id K. apply (UO (split (m_topic m)) c). rewrite EO. exact K.
Qed.
