From Verif Require Import Common CommonFacts Bytes BytesFacts HeaderModel HeaderSpec HeaderProofs FramingModel FramingSpec.
Ltac Zify.zify_post_hook ::= Z.div_mod_to_equations.


(** Everything the reader needs to know about a sendable message. *)
Definition facts (m : message) (b : list Z) (h2 : header) : Prop :=
  wire_bytes m = b ++ snd m /\
  (forall rest, header_decode header_init (b ++ rest) = Ok h2) /\
  header_content h2 = header_content (fst m) /\
  h_header_length h2 = Z.of_nat (length b) /\
  h_payload_length h2 = Z.of_nat (length (snd m)) /\
  32 <= length b <= 542 /\ (Z.of_nat (length (snd m)) < 1073741824)%Z /\
  exists tail, b = be16 RTMSG_HEADER_MARKER ++ be16 RTMSG_HEADER_VERSION ++ be16 (Z.of_nat (length b)) ++ tail.

Lemma msg_facts m : sendable m = true -> exists b h2, facts m b h2.
Proof.
  unfold sendable. intros S. apply andb_true_iff in S as [S S4]. apply andb_true_iff in S as [S S3].
  apply andb_true_iff in S as [W S2].
  destruct (header_roundtrip (fst m) W) as (h1 & b & h2 & E & L & D & C & _ & HL & _ & _).
  exists b, h2. unfold facts, wire_bytes. rewrite E. split; auto. split; auto. split; auto.
  split; [congruence|]. split.
  { unfold header_content in C. injection C as _ _ _ C _ _. lia. }
  assert (LB : 32 <= length b <= 542 /\ exists tail, b = be16 RTMSG_HEADER_MARKER ++ be16 RTMSG_HEADER_VERSION ++ be16 (h_header_length h1) ++ tail).
  { unfold header_wf in W. repeat (apply andb_true_iff in W as [W ?]).
    unfold header_encode in E.
    destruct (cstring (h_topic (fst m))) as [t|] eqn:Et; [|discriminate].
    destruct (cstring (h_reply_topic (fst m))) as [r|] eqn:Er; [|discriminate].
    apply cstring_len in Et, Er. apply ok_pair in E as [<- <-].
    split.
    - rewrite !app_length. cbn [length be16 be32]. lia.
    - cbn [h_header_length]. eexists. reflexivity. }
  destruct LB as [LB [tail T]]. split; auto. split; [lia|]. exists tail. rewrite L. exact T.
Qed.

Definition full (ms : list message) : list Z := concat (map wire_bytes ms).

(** The reader has consumed [r_read s] bytes of the current (first) message. *)
Definition rinv (s : rstate) (ms : list message) (stream : list Z) : Prop :=
  stream = skipn (r_read s) (full ms) /\
  firstn (r_read s) (r_buf s) = firstn (r_read s) (full ms) /\
  r_read s <= length (full ms) /\
  (r_to_read s <= Z.of_nat (length (r_buf s)))%Z /\ 542 <= length (r_buf s) /\
  (Z.of_nat (r_read s) < r_to_read s)%Z /\
  match r_stage s with
  | ReadPreamble => r_to_read s = 6%Z /\ r_hdr s = header_init
  | ReadHeader => exists m ms' b h2, ms = m :: ms' /\ facts m b h2 /\
      r_to_read s = Z.of_nat (length b) /\ r_hdr s = header_init
  | ReadPayload => exists m ms' b h2, ms = m :: ms' /\ facts m b h2 /\
      r_to_read s = Z.of_nat (length b + length (snd m)) /\ r_hdr s = h2
  end.

Lemma firstn_skipn_firstn {A} (l : list A) a n : firstn a l ++ firstn n (skipn a l) = firstn (a + n) l.
Proof.
  revert l; induction a as [|a IH]; intros l; [reflexivity|].
  destruct l as [|x l]; cbn [firstn skipn app Nat.add]; [destruct n; reflexivity|]. rewrite IH. reflexivity.
Qed.
Lemma skipn_add {A} (l : list A) a n : skipn n (skipn a l) = skipn (a + n) l.
Proof.
  revert l; induction a as [|a IH]; intros l; [reflexivity|].
  destruct l as [|x l]; cbn [skipn Nat.add]; [destruct n; reflexivity|]. apply IH.
Qed.

(** What arrives in the buffer is the beginning of the stream. *)
Lemma buf_prefix (buf fl : list Z) a n : firstn a buf = firstn a fl -> a <= length buf -> a + n <= length buf -> a + n <= length fl ->
  firstn (a + n) (firstn a buf ++ firstn n (skipn a fl) ++ skipn (a + n) buf) = firstn (a + n) fl /\
  length (firstn a buf ++ firstn n (skipn a fl) ++ skipn (a + n) buf) = length buf.
Proof.
  intros E L1 L2 L3. rewrite app_assoc, E, firstn_skipn_firstn. split.
  - rewrite firstn_app, firstn_firstn, Nat.min_id, firstn_length, Nat.min_l by auto. rewrite Nat.sub_diag, firstn_O, app_nil_r. reflexivity.
  - rewrite app_length, firstn_length, skipn_length. lia.
Qed.

Lemma split_prefix {A} (buf p l : list A) n : firstn n buf = firstn n (p ++ l) -> n = length p -> n <= length buf -> buf = p ++ skipn n buf.
Proof.
  intros E -> L. rewrite <- (firstn_skipn (length p) buf) at 1. rewrite E, firstn_app, firstn_all, Nat.sub_diag, firstn_O, app_nil_r. reflexivity.
Qed.

Lemma full_cons m ms : full (m :: ms) = wire_bytes m ++ full ms.
Proof. reflexivity. Qed.

Lemma get_be16_app n r : (0 <= n < 65536)%Z -> get_be16 (be16 n ++ r) = Some (n, r).
Proof. intros H. cbn [be16 get_be16 app]. f_equal. f_equal. lia. Qed.

Lemma stage_step cap0 s ms n : 542 <= cap0 ->
  forallb sendable ms = true -> forallb nonempty ms = true ->
  (* the state after the chunk was stored *)
  firstn (r_read s) (r_buf s) = firstn (r_read s) (full ms) -> r_read s <= length (full ms) ->
  0 < n -> n <= r_read s ->
  (r_to_read s <= Z.of_nat (length (r_buf s)))%Z -> 542 <= length (r_buf s) ->
  (Z.of_nat (r_read s) <= r_to_read s)%Z ->
  match r_stage s with
  | ReadPreamble => r_to_read s = 6%Z /\ r_hdr s = header_init
  | ReadHeader => exists m ms' b h2, ms = m :: ms' /\ facts m b h2 /\
      r_to_read s = Z.of_nat (length b) /\ r_hdr s = header_init
  | ReadPayload => exists m ms' b h2, ms = m :: ms' /\ facts m b h2 /\
      r_to_read s = Z.of_nat (length b + length (snd m)) /\ r_hdr s = h2
  end ->
  exists s' out, process cap0 s = Ok (s', out) /\
    match out with
    | None => rinv s' ms (skipn (r_read s) (full ms))
    | Some o => exists m ms', ms = m :: ms' /\ content o = content m /\ rinv s' ms' (skipn (r_read s) (full ms))
    end.
Proof.
  intros Hcap Sd Ne Pre Len Hn Hn2 Cap C542 Le St. unfold process.
  destruct (Z.eqb_spec (Z.of_nat (r_read s)) (r_to_read s)) as [Eq|Nq]; cbn [negb].
  2: { exists s, None. split; [reflexivity|]. unfold rinv. split; [reflexivity|]. split; [exact Pre|]. split; [exact Len|].
       split; [exact Cap|]. split; [exact C542|]. split; [lia|]. exact St. }
  destruct (r_stage s) eqn:Es.
  - (* preamble complete *)
    destruct St as [T6 Hh]. assert (R6 : r_read s = 6) by lia.
    destruct ms as [|m ms']; [cbn in Len; lia|].
    cbn [forallb] in Sd, Ne. apply andb_true_iff in Sd as [Sm Sd]. apply andb_true_iff in Ne as [Nm Ne].
    destruct (msg_facts m Sm) as (b & h2 & F). pose proof F as (Fw & Fd & Fc & Fh & Fp & Fl & Fs & tail & Ft).
    assert (B : r_buf s = (be16 RTMSG_HEADER_MARKER ++ be16 RTMSG_HEADER_VERSION ++ be16 (Z.of_nat (length b))) ++ skipn 6 (r_buf s)).
    { eapply (split_prefix _ _ (tail ++ snd m ++ full ms')); [|reflexivity|lia].
      rewrite R6 in Pre. rewrite Pre, full_cons, Fw. rewrite Ft at 1. rewrite <- !app_assoc. reflexivity. }
    rewrite <- !app_assoc in B.
    assert (G : get_be16 (r_buf s) = Some (RTMSG_HEADER_MARKER, be16 RTMSG_HEADER_VERSION ++ be16 (Z.of_nat (length b)) ++ skipn 6 (r_buf s))).
    { rewrite B at 1. apply get_be16_app. unfold RTMSG_HEADER_MARKER; lia. }
    rewrite G. rewrite get_be16_app by (unfold RTMSG_HEADER_VERSION; lia).
    rewrite !Z.eqb_refl. cbn [negb orb]. rewrite get_be16_app by lia.
    eexists _, None. split; [reflexivity|]. unfold rinv; cbn [r_stage r_to_read r_read r_buf r_hdr].
    split; [reflexivity|]. split; [exact Pre|]. split; [exact Len|]. unfold PREAMBLE in *.
    split; [lia|]. split; [exact C542|]. split; [lia|].
    exists m, ms', b, h2. split; auto. split; auto. split; [lia|]. exact Hh.
  - (* header complete *)
    destruct St as (m & ms' & b & h2 & -> & F & Tb & Hh). pose proof F as (Fw & Fd & Fc & Fh & Fp & Fl & Fs & tail & Ft).
    assert (Rb : r_read s = length b) by lia.
    assert (B : r_buf s = b ++ skipn (length b) (r_buf s)).
    { eapply (split_prefix _ _ (snd m ++ full ms')); [|reflexivity|lia]. rewrite <- Rb, Pre, full_cons, Fw, <- app_assoc. reflexivity. }
    rewrite Hh, B, Fd. rewrite <- B. unfold begin_payload. cbv zeta. rewrite Tb, Rb, Fp.
    rewrite (to_signed_unsigned 32) by (try (change (2 ^ (32 - 1))%Z with 2147483648%Z); lia).
    destruct (Z.leb_spec 2147483648 (Z.of_nat (length b) + Z.of_nat (length (snd m)) + Z.of_nat (length b))); [lia|].
    cbn [obind]. eexists _, None. split; [reflexivity|]. unfold rinv; cbn [r_stage r_to_read r_read r_buf r_hdr].
    split; [reflexivity|].
    split. { rewrite firstn_app. replace (length b - length (r_buf s)) with 0 by lia. rewrite firstn_O, app_nil_r. rewrite <- Rb. exact Pre. }
    split; [lia|]. rewrite app_length, repeat_length.
    split; [lia|]. split; [lia|].
    cbn [forallb] in Ne. apply andb_true_iff in Ne as [Nm Ne]. unfold nonempty in Nm.
    assert (h_payload_length (fst m) = h_payload_length h2) by (unfold header_content in Fc; injection Fc as _ _ _ Fc _ _; auto).
    split; [lia|].
    exists m, ms', b, h2. split; auto. split; auto. split; [lia|auto].
  - (* payload complete: dispatch *)
    destruct St as (m & ms' & b & h2 & -> & F & Tb & Hh). pose proof F as (Fw & Fd & Fc & Fh & Fp & Fl & Fs & tail & Ft).
    assert (Rb : r_read s = length (b ++ snd m)) by (rewrite app_length; lia).
    assert (B : r_buf s = (b ++ snd m) ++ skipn (length (b ++ snd m)) (r_buf s)).
    { eapply (split_prefix _ _ (full ms')); [|reflexivity|lia]. rewrite <- Rb, Pre, full_cons, Fw. reflexivity. }
    assert (Hlen : length b + length (snd m) <= length (r_buf s)) by (rewrite B, app_length, app_length; lia).
    assert ((Z.of_nat (length (r_buf s)) <? h_header_length (r_hdr s) + h_payload_length (r_hdr s))%Z = false) as ->
      by (rewrite Hh, Fh, Fp; lia).
    eexists _, (Some _). split; [reflexivity|]. exists m, ms'. split; auto. split.
    + unfold content. cbn [fst snd]. rewrite Hh, Fc. f_equal. rewrite Fp, Fh, !Nat2Z.id, B.
      rewrite <- app_assoc, skipn_app, skipn_all, Nat.sub_diag. cbn [skipn app].
      rewrite firstn_app, firstn_all, Nat.sub_diag, firstn_O, app_nil_r. reflexivity.
    + unfold rinv, reader_reset; cbn [r_stage r_to_read r_read r_buf r_hdr].
      split. { rewrite Rb, full_cons, Fw, skipn_app, skipn_all, Nat.sub_diag. reflexivity. }
      split; [reflexivity|]. split; [lia|].
      assert (LS : 542 <= length (shrink cap0 (r_buf s))).
      { unfold shrink. destruct (Nat.eqb_spec (length (r_buf s)) cap0); [lia|]. rewrite repeat_length. lia. }
      unfold PREAMBLE. split; [lia|]. split; [exact LS|]. split; [lia|]. auto.
Qed.

Lemma step_rinv cap0 s ms stream k : 542 <= cap0 ->
  forallb sendable ms = true -> forallb nonempty ms = true -> rinv s ms stream ->
  match stream with
  | [] => reader_step cap0 s stream k = Ok RBlocked
  | _ => exists s' rest out, reader_step cap0 s stream k = Ok (RStep s' rest out) /\ length rest < length stream /\
     match out with
     | None => rinv s' ms rest
     | Some o => exists m ms', ms = m :: ms' /\ content o = content m /\ rinv s' ms' rest
     end
  end.
Proof.
  intros Hcap Sd Ne (Est & Pre & Len & Cap & C542 & Lt & St). unfold reader_step.
  cbv zeta. destruct stream as [|c stream]; [reflexivity|].
  assert ((r_to_read s - Z.of_nat (r_read s) <? 0)%Z = false) as -> by lia.
  assert ((r_to_read s - Z.of_nat (r_read s) =? 0)%Z = false) as -> by lia.
  set (n := Nat.max 1 (Nat.min k (Nat.min (Z.to_nat (r_to_read s - Z.of_nat (r_read s))) (length (c :: stream))))).
  assert (L0 : 1 <= length (c :: stream)) by (cbn [length]; lia).
  assert (Hn : 1 <= n <= length (c :: stream)) by (unfold n; lia).
  assert (Hn2 : (Z.of_nat n <= r_to_read s - Z.of_nat (r_read s))%Z) by (unfold n; lia).
  clearbody n.
  assert (Ls : length (c :: stream) = length (full ms) - r_read s) by (rewrite Est; apply skipn_length).
  assert ((r_read s + n <=? length (r_buf s)) = true) as -> by lia.
  rewrite Est.
  destruct (buf_prefix (r_buf s) (full ms) (r_read s) n Pre) as [P1 P2]; [lia..|].
  match goal with |- context [process cap0 ?S] => set (S1 := S) end.
  destruct (stage_step cap0 S1 ms n) as (s' & out & E & I); auto; cbn [S1 r_stage r_to_read r_read r_buf r_hdr]; try lia; auto.
  rewrite E. cbn [obind]. eexists _, _, _. split; [reflexivity|].
  cbn [S1 r_read] in I. rewrite skipn_add.
  split. { rewrite !skipn_length. lia. }
  exact I.
Qed.

Lemma run_rinv cap0 : 542 <= cap0 -> forall ks s ms stream,
  forallb sendable ms = true -> forallb nonempty ms = true -> rinv s ms stream ->
  exists out rest s' ms1 ms2, reader_run cap0 s stream ks = Ok (out, rest, s', false) /\
    ms = ms1 ++ ms2 /\ map content out = map content ms1 /\ rinv s' ms2 rest /\
    (length stream <= length ks -> rest = []).
Proof.
  intros Hcap. induction ks as [|k ks IH]; intros s ms stream Sd Ne I.
  - exists [], stream, s, [], ms. split; [reflexivity|]. repeat split; try apply I.
    cbn [length]. intros H. destruct stream; [reflexivity|cbn in H; lia].
  - pose proof (step_rinv cap0 s ms stream k Hcap Sd Ne I) as St. cbn [reader_run].
    destruct stream as [|c stream].
    + rewrite St. cbn [obind]. exists [], [], s, [], ms. repeat split; try apply I.
    + destruct St as (s' & rest & out & -> & Lr & R). cbn [obind]. destruct out as [o|].
      * destruct R as (m & ms' & -> & C & R). cbn [forallb] in Sd, Ne.
        apply andb_true_iff in Sd as [_ Sd]. apply andb_true_iff in Ne as [_ Ne].
        destruct (IH s' ms' rest Sd Ne R) as (o2 & r2 & s2 & m1 & m2 & -> & -> & Cm & R2 & Lk). cbn [obind].
        exists (o :: o2), r2, s2, (m :: m1), m2. split; [reflexivity|]. split; [reflexivity|].
        cbn [map]. rewrite C, Cm. split; [reflexivity|]. split; auto. intros H. apply Lk. cbn [length] in *. lia.
      * destruct (IH s' ms rest Sd Ne R) as (o2 & r2 & s2 & m1 & m2 & -> & -> & Cm & R2 & Lk). cbn [obind].
        exists o2, r2, s2, m1, m2. repeat split; auto; try apply R2. intros H. apply Lk. cbn [length] in *. lia.
Qed.

Lemma rinv_init cap0 ms : 542 <= cap0 -> rinv (reader_init cap0) ms (full ms).
Proof.
  intros H. unfold rinv, reader_init; cbn [r_stage r_to_read r_read r_buf r_hdr]. rewrite repeat_length. unfold PREAMBLE.
  split; [reflexivity|]. split; [reflexivity|]. repeat (split; [lia|]). auto.
Qed.

Lemma wire_nonempty m : sendable m = true -> 0 < length (wire_bytes m).
Proof. intros S. destruct (msg_facts m S) as (b & h2 & Fw & _ & _ & _ & _ & Fl & _). rewrite Fw, app_length. lia. Qed.

(** No bytes left means every message was dispatched (all payloads are non-empty,
    so the reader never stops inside a completely received message). *)
Lemma rinv_done s ms : forallb sendable ms = true -> forallb nonempty ms = true -> rinv s ms [] -> ms = [].
Proof.
  intros Sd Ne (Est & Pre & Len & Cap & C542 & Lt & St).
  assert (Le : length (full ms) <= r_read s).
  { apply (f_equal (@length Z)) in Est. rewrite skipn_length in Est. cbn [length] in Est. lia. }
  destruct ms as [|m ms]; [reflexivity|]. exfalso.
  cbn [forallb] in Sd, Ne. apply andb_true_iff in Sd as [Sm Sd]. apply andb_true_iff in Ne as [Nm Ne].
  rewrite full_cons, app_length in Le.
  destruct (r_stage s).
  - destruct (msg_facts m Sm) as (b & h2 & Fw & _ & _ & _ & _ & Fl & _). rewrite Fw, app_length in Le. lia.
  - destruct St as (m0 & ms' & b & h2 & E & (Fw & _ & _ & _ & _ & Fl & _) & Tb & _). injection E as <- <-.
    rewrite Fw, app_length in Le. lia.
  - destruct St as (m0 & ms' & b & h2 & E & (Fw & _ & _ & _ & _ & Fl & _) & Tb & _). injection E as <- <-.
    rewrite Fw, app_length in Le. lia.
Qed.

Lemma framing cap0 ms ks : 542 <= cap0 ->
  forallb sendable ms = true -> forallb nonempty ms = true ->
  length (concat (map wire_bytes ms)) <= length ks ->
  exists out s, reader_run cap0 (reader_init cap0) (concat (map wire_bytes ms)) ks = Ok (out, [], s, false) /\
    map content out = map content ms.
Proof.
  intros Hcap Sd Ne Hk.
  destruct (run_rinv cap0 Hcap ks (reader_init cap0) ms (full ms) Sd Ne (rinv_init cap0 ms Hcap))
    as (out & rest & s' & m1 & m2 & E & -> & C & R & Lk).
  fold (full (m1 ++ m2)) in *. rewrite (Lk Hk) in *. exists out, s'. split; [exact E|].
  rewrite forallb_app in Sd, Ne. apply andb_true_iff in Sd as [_ Sd]. apply andb_true_iff in Ne as [_ Ne].
  rewrite (rinv_done s' m2 Sd Ne R), app_nil_r. exact C.
Qed.

Lemma framing_prefix cap0 ms ks : 542 <= cap0 ->
  forallb sendable ms = true -> forallb nonempty ms = true ->
  exists out rest s ms1 ms2, reader_run cap0 (reader_init cap0) (concat (map wire_bytes ms)) ks = Ok (out, rest, s, false) /\
    ms = ms1 ++ ms2 /\ map content out = map content ms1.
Proof.
  intros Hcap Sd Ne.
  destruct (run_rinv cap0 Hcap ks (reader_init cap0) ms (full ms) Sd Ne (rinv_init cap0 ms Hcap))
    as (out & rest & s' & m1 & m2 & E & -> & C & R & Lk).
  exists out, rest, s', m1, m2. auto.
Qed.

(** Any message with an empty payload, whatever comes after it: dropped, and the
    client with it. *)
Lemma empty_payload_drops0 cap0 m k pad rest : 542 <= cap0 ->
  sendable m = true -> snd m = [] -> rest <> [] ->
  exists s, reader_run cap0 (reader_init cap0) (wire_bytes m ++ rest) (6 :: length (wire_bytes m) - 6 :: k :: pad)
    = Ok ([], rest, s, true).
Proof.
  intros Hcap Sm Em Hrest. destruct (msg_facts m Sm) as (b & h2 & F). pose proof F as (Fw & Fd & Fc & Fh & Fp & Fl & Fs & tail & Ft).
  rewrite Em, app_nil_r in Fw. rewrite Em in Fp. cbn [length] in Fp. rewrite Fw.
  assert (Hb : exists c b', b = c :: b') by (destruct b as [|c b']; [cbn in Fl; lia|eauto]).
  cbn [reader_run]. unfold reader_step at 1. unfold reader_init; cbn [r_to_read r_read r_buf r_hdr r_stage]. unfold PREAMBLE.
  cbv zeta. cbn [Nat.add].
  destruct (b ++ rest) as [|c0 st0] eqn:Est. { destruct Hb as (c & b' & ->). discriminate. }
  change (6 - Z.of_nat 0 <? 0)%Z with false. change (6 - Z.of_nat 0 =? 0)%Z with false. cbv iota.
  rewrite <- Est in *. clear c0 st0 Est.
  assert (Nat.max 1 (Nat.min 6 (Nat.min (Z.to_nat (6 - Z.of_nat 0)) (length (b ++ rest)))) = 6) as -> by (rewrite app_length; lia).
  rewrite repeat_length. assert ((6 <=? cap0) = true) as -> by lia.
  set (buf := firstn 0 (repeat 0%Z cap0) ++ firstn 6 (b ++ rest) ++ skipn 6 (repeat 0%Z cap0)).
  assert (Hbuf : buf = (be16 RTMSG_HEADER_MARKER ++ be16 RTMSG_HEADER_VERSION ++ be16 (Z.of_nat (length b))) ++ skipn 6 (repeat 0%Z cap0)).
  { unfold buf. rewrite firstn_O, app_nil_l. rewrite firstn_app. replace (6 - length b) with 0 by lia. rewrite firstn_O, app_nil_r.
    rewrite Ft at 1. reflexivity. }
  unfold process at 1; cbn [r_to_read r_read r_buf r_hdr r_stage]. change (negb (Z.of_nat 6 =? 6)%Z) with false. cbv iota.
  assert (G : get_be16 buf = Some (RTMSG_HEADER_MARKER, be16 RTMSG_HEADER_VERSION ++ be16 (Z.of_nat (length b)) ++ skipn 6 (repeat 0%Z cap0))).
  { rewrite Hbuf, <- !app_assoc. apply get_be16_app. unfold RTMSG_HEADER_MARKER; lia. }
  rewrite G. rewrite get_be16_app by (unfold RTMSG_HEADER_VERSION; lia).
  rewrite !Z.eqb_refl. cbn [negb orb]. rewrite get_be16_app by lia. cbn [obind].
  (* second read: the rest of the header *)
  unfold reader_step at 1; cbn [r_to_read r_read r_buf r_hdr r_stage]. unfold PREAMBLE.
  cbv zeta.
  assert (L2 : length (skipn 6 (b ++ rest)) = length b - 6 + length rest) by (rewrite skipn_length, app_length; lia).
  destruct (skipn 6 (b ++ rest)) as [|c0 st0] eqn:Est2; [cbn in L2; lia|]. rewrite <- Est2 in *. clear c0 st0 Est2.
  assert ((6 + (Z.of_nat (length b) - 6) - Z.of_nat 6 <? 0)%Z = false) as -> by lia.
  assert ((6 + (Z.of_nat (length b) - 6) - Z.of_nat 6 =? 0)%Z = false) as -> by lia.
  assert (Nat.max 1 (Nat.min (length b - 6) (Nat.min (Z.to_nat (6 + (Z.of_nat (length b) - 6) - Z.of_nat 6)) (length (skipn 6 (b ++ rest))))) = length b - 6) as -> by lia.
  replace (6 + (length b - 6)) with (length b) by lia.
  assert (Lbuf : length buf = cap0) by (rewrite Hbuf, app_length, skipn_length, repeat_length; cbn [length app be16]; lia).
  rewrite Lbuf. assert ((length b <=? cap0) = true) as -> by lia.
  unfold process at 1; cbn [r_to_read r_read r_buf r_hdr r_stage].
  assert (negb (Z.of_nat (length b) =? 6 + (Z.of_nat (length b) - 6))%Z = false) as -> by lia.
  assert (B2 : firstn 6 buf ++ firstn (length b - 6) (skipn 6 (b ++ rest)) = b).
  { transitivity (firstn 6 b ++ firstn (length b - 6) (skipn 6 b)).
    - f_equal.
      + unfold buf. rewrite firstn_O, app_nil_l. rewrite (firstn_app 6 b). replace (6 - length b) with 0 by lia. rewrite firstn_O, app_nil_r.
        rewrite firstn_app, firstn_firstn, Nat.min_id, firstn_length. replace (6 - Nat.min 6 (length b)) with 0 by lia. rewrite firstn_O, app_nil_r. reflexivity.
      + rewrite skipn_app. replace (6 - length b) with 0 by lia. rewrite firstn_app, skipn_length, Nat.sub_diag, firstn_O, app_nil_r. reflexivity.
    - rewrite firstn_skipn_firstn. replace (6 + (length b - 6)) with (length b) by lia. apply firstn_all. }
  rewrite app_assoc, B2, Fd. unfold begin_payload; cbn [r_to_read r_read r_buf r_hdr r_stage]. rewrite Fp.
  rewrite (to_signed_unsigned 32) by (try (change (2 ^ (32 - 1))%Z with 2147483648%Z); lia).
  match goal with |- context [(2147483648 <=? ?x)%Z] => assert ((2147483648 <=? x)%Z = false) as -> by lia end.
  cbn [obind].
  (* third read: zero bytes are asked for, so recv returns 0 *)
  unfold reader_step; cbn [r_to_read r_read r_buf r_hdr r_stage]. cbv zeta.
  rewrite skipn_add. replace (6 + (length b - 6)) with (length b) by lia.
  rewrite skipn_app, skipn_all, Nat.sub_diag. cbn [skipn app].
  destruct rest as [|c0 rest]; [contradiction|].
  match goal with |- context [(?x <? 0)%Z] => assert ((x <? 0)%Z = false) as -> by lia end.
  match goal with |- context [(?x =? 0)%Z] => assert ((x =? 0)%Z = true) as -> by lia end.
  cbn [obind]. eexists. reflexivity.
Qed.


(** ** Any bytes whatsoever: the way they are cut into chunks does not matter *)

Fixpoint run1 (cap0 : nat) (s : rstate) (stream : list Z) : outcome unit (list message * list Z * rstate * bool) :=
  match stream with
  | [] => Ok ([], [], s, false)
  | c :: rest =>
      if (r_to_read s - Z.of_nat (r_read s) <? 0)%Z then UB
      else if (r_to_read s - Z.of_nat (r_read s) =? 0)%Z then Ok ([], stream, s, true)
      else if (r_read s + 1 <=? length (r_buf s)) then
        do (s', out) <- process cap0 (mkR (r_stage s) (r_to_read s) (r_read s + 1)
                          (firstn (r_read s) (r_buf s) ++ [c] ++ skipn (r_read s + 1) (r_buf s)) (r_hdr s));
        do (ms, rest', s'', closed) <- run1 cap0 s' rest;
        Ok (match out with Some m => m :: ms | None => ms end, rest', s'', closed)
      else UB
  end.

(** [n] bytes that arrive together might as well arrive one by one. *)
Lemma run1_chunk cap0 n : forall s stream,
  (0 < r_to_read s - Z.of_nat (r_read s))%Z -> 1 <= n <= length stream ->
  (Z.of_nat n <= r_to_read s - Z.of_nat (r_read s))%Z ->
  run1 cap0 s stream =
  if r_read s + n <=? length (r_buf s) then
    do (s', out) <- process cap0 (mkR (r_stage s) (r_to_read s) (r_read s + n)
                      (firstn (r_read s) (r_buf s) ++ firstn n stream ++ skipn (r_read s + n) (r_buf s)) (r_hdr s));
    do (ms, rest', s'', closed) <- run1 cap0 s' (skipn n stream);
    Ok (match out with Some m => m :: ms | None => ms end, rest', s'', closed)
  else UB.
Proof.
  induction n as [|n IH]; intros s stream Hpos Hn Hrem; [lia|].
  destruct stream as [|c rest]; [cbn in Hn; lia|]. cbn [length] in Hn. cbn [run1].
  assert ((r_to_read s - Z.of_nat (r_read s) <? 0)%Z = false) as -> by lia.
  assert ((r_to_read s - Z.of_nat (r_read s) =? 0)%Z = false) as -> by lia.
  destruct (Nat.eq_dec n 0) as [->|Hn0]; [cbn [firstn skipn]; reflexivity|].
  destruct (Nat.leb_spec (r_read s + 1) (length (r_buf s))) as [L1|L1].
  2: { assert ((r_read s + S n <=? length (r_buf s)) = false) as -> by lia. reflexivity. }
  set (s1 := mkR _ _ _ _ _). unfold process at 1.
  assert (negb (Z.of_nat (r_read s1) =? r_to_read s1)%Z = true) as -> by (cbn [s1 r_read r_to_read]; lia).
  cbn [obind]. rewrite (IH s1 rest); try (cbn [s1 r_read r_to_read]; lia).
  cbn [s1 r_read r_to_read r_buf r_stage r_hdr].
  assert (Lb : length (firstn (r_read s) (r_buf s) ++ [c] ++ skipn (r_read s + 1) (r_buf s)) = length (r_buf s))
    by (rewrite !app_length, firstn_length, skipn_length; cbn [length]; lia).
  rewrite Lb. replace (r_read s + 1 + n) with (r_read s + S n) by lia.
  destruct (Nat.leb_spec (r_read s + S n) (length (r_buf s))) as [L2|L2]; [|reflexivity].
  assert (firstn (r_read s + 1) (firstn (r_read s) (r_buf s) ++ [c] ++ skipn (r_read s + 1) (r_buf s)) = firstn (r_read s) (r_buf s) ++ [c]) as ->.
  { rewrite app_assoc, firstn_app. rewrite firstn_all2 by (rewrite app_length, firstn_length; cbn [length]; lia).
    rewrite app_length, firstn_length. cbn [length]. replace (r_read s + 1 - (Nat.min (r_read s) (length (r_buf s)) + 1)) with 0 by lia.
    rewrite firstn_O, app_nil_r. reflexivity. }
  assert (skipn (r_read s + S n) (firstn (r_read s) (r_buf s) ++ [c] ++ skipn (r_read s + 1) (r_buf s)) = skipn (r_read s + S n) (r_buf s)) as ->.
  { rewrite app_assoc, skipn_app. rewrite skipn_all2 by (rewrite app_length, firstn_length; cbn [length]; lia).
    rewrite app_length, firstn_length. cbn [length app]. rewrite skipn_add. f_equal. lia. }
  rewrite <- !app_assoc. cbn [firstn skipn app].
  match goal with |- context [process cap0 ?S] => destruct (process cap0 S) as [[s2 o2]|?|] end; cbn [obind]; try reflexivity.
  destruct (run1 cap0 s2 (skipn n rest)) as [[[[ms r'] s''] cl]|?|]; reflexivity.
Qed.

Lemma run_run1 cap0 : forall ks s stream, length stream <= length ks -> reader_run cap0 s stream ks = run1 cap0 s stream.
Proof.
  induction ks as [|k ks IH]; intros s stream L.
  - destruct stream; [reflexivity|cbn in L; lia].
  - cbn [reader_run]. unfold reader_step. cbv zeta. destruct stream as [|c rest]; [reflexivity|].
    destruct (Z.ltb_spec (r_to_read s - Z.of_nat (r_read s)) 0) as [Hneg|Hneg].
    { cbn [run1]. assert ((r_to_read s - Z.of_nat (r_read s) <? 0)%Z = true) as -> by lia. reflexivity. }
    destruct (Z.eqb_spec (r_to_read s - Z.of_nat (r_read s)) 0) as [H0|H0].
    { cbn [run1]. assert ((r_to_read s - Z.of_nat (r_read s) <? 0)%Z = false) as -> by lia. rewrite H0. reflexivity. }
    assert (L0 : 1 <= length (c :: rest)) by (cbn [length]; lia).
    set (n := Nat.max 1 (Nat.min k (Nat.min (Z.to_nat (r_to_read s - Z.of_nat (r_read s))) (length (c :: rest))))).
    assert (Hn : 1 <= n <= length (c :: rest)) by (unfold n; lia).
    assert (Hn2 : (Z.of_nat n <= r_to_read s - Z.of_nat (r_read s))%Z) by (unfold n; lia).
    clearbody n. rewrite (run1_chunk cap0 n s (c :: rest)) by lia.
    destruct (Nat.leb_spec (r_read s + n) (length (r_buf s))); [|reflexivity].
    match goal with |- context [process cap0 ?S] => destruct (process cap0 S) as [[s2 o2]|?|] end; cbn [obind]; try reflexivity.
    rewrite IH. { reflexivity. }
    rewrite skipn_length. cbn [length] in *. lia.
Qed.

Lemma chunking_irrelevant cap0 s stream ks1 ks2 :
  length stream <= length ks1 -> length stream <= length ks2 ->
  reader_run cap0 s stream ks1 = reader_run cap0 s stream ks2.
Proof. intros H1 H2. rewrite !run_run1 by auto. reflexivity. Qed.

(** ** Memory safety against arbitrary bytes *)

Lemma get_be16_inv l n p : bytes_ok l = true -> get_be16 l = Some (n, p) -> l = be16 n ++ p.
Proof.
  destruct l as [|a [|b l]]; cbn [get_be16]; try discriminate. intros B E. injection E as <- <-.
  cbn [bytes_ok forallb] in B. unfold is_byte in B. cbn [be16 app]. f_equal; [lia|]. f_equal. lia.
Qed.
Lemma get_be32_inv l n p : bytes_ok l = true -> get_be32 l = Some (n, p) -> l = be32 n ++ p.
Proof.
  destruct l as [|a [|b [|c [|d l]]]]; cbn [get_be32]; try discriminate. intros B E. injection E as <- <-.
  cbn [bytes_ok forallb] in B. unfold is_byte in B. cbn [be32 app]. repeat (f_equal; [lia|]). f_equal. lia.
Qed.

(** A successful decode reads the announced lengths from fixed offsets. *)
Lemma header_decode_fields h buff h' : bytes_ok buff = true -> header_decode h buff = Ok h' ->
  exists seqn flags ctl rest,
    buff = be16 RTMSG_HEADER_MARKER ++ be16 (h_version h') ++ be16 (h_header_length h') ++
           (be32 seqn ++ be32 flags ++ be32 ctl) ++ be32 (h_payload_length h') ++ rest /\
    (0 <= h_header_length h' < 65536)%Z /\ (0 <= h_payload_length h' < 4294967296)%Z /\ (0 <= h_version h' < 65536)%Z.
Proof.
  intros Hb H. unfold header_decode in H.
  apply need_ok in H as ([m p0] & E0 & H). cbn beta iota in H.
  pose proof (get_be16_range _ _ _ Hb E0) as [_ B0].
  destruct (Z.eqb_spec m RTMSG_HEADER_MARKER) as [->|]; cbn [negb] in H; [|discriminate].
  apply get_be16_inv in E0; auto.
  apply need_ok in H as ([v p1] & E1 & H). pose proof (get_be16_range _ _ _ B0 E1) as [Rv B1]. apply get_be16_inv in E1; auto.
  apply need_ok in H as ([hl p2] & E2 & H). pose proof (get_be16_range _ _ _ B1 E2) as [Rh B2]. apply get_be16_inv in E2; auto.
  apply need_ok in H as ([sq p3] & E3 & H). pose proof (get_be32_range _ _ _ B2 E3) as [_ B3]. apply get_be32_inv in E3; auto.
  apply need_ok in H as ([fl p4] & E4 & H). pose proof (get_be32_range _ _ _ B3 E4) as [_ B4]. apply get_be32_inv in E4; auto.
  apply need_ok in H as ([ct p5] & E5 & H). pose proof (get_be32_range _ _ _ B4 E5) as [_ B5]. apply get_be32_inv in E5; auto.
  apply need_ok in H as ([pl p6] & E6 & H). pose proof (get_be32_range _ _ _ B5 E6) as [Rp B6]. apply get_be32_inv in E6; auto.
  apply need_ok in H as ([tl p7] & E7 & H). destruct (_ <=? _)%Z in H; [discriminate|].
  apply need_ok in H as ([t p8] & E8 & H).
  apply need_ok in H as ([rl p9] & E9 & H). destruct (_ <=? _)%Z in H; [discriminate|].
  apply need_ok in H as ([r p10] & E10 & H).
  apply need_ok in H as ([m2 p11] & E11 & H). destruct (negb _); [discriminate|].
  injection H as <-. cbn [h_version h_header_length h_payload_length].
  exists sq, fl, ct, p6. split; [|repeat split; lia].
  rewrite E0, E1, E2, E3, E4, E5, E6, <- !app_assoc. reflexivity.
Qed.

(** Invariant: the first [r_read] bytes of the buffer are the last bytes received. *)
Definition safe (cap0 : nat) (s : rstate) (past : list Z) : Prop :=
  bytes_ok (r_buf s) = true /\ cap0 <= length (r_buf s) /\
  (exists pre, past = pre ++ firstn (r_read s) (r_buf s)) /\
  (0 <= r_to_read s <= Z.of_nat (length (r_buf s)))%Z /\ (Z.of_nat (r_read s) <= r_to_read s)%Z /\
  match r_stage s with
  | ReadPreamble => r_to_read s = 6%Z /\ r_hdr s = header_init
  | ReadHeader => (22 <= r_to_read s < 65536)%Z /\ r_hdr s = header_init /\ 6 <= r_read s /\
       exists rest, r_buf s = be16 RTMSG_HEADER_MARKER ++ be16 RTMSG_HEADER_VERSION ++ be16 (r_to_read s) ++ rest
  | ReadPayload => r_to_read s = (h_header_length (r_hdr s) + h_payload_length (r_hdr s))%Z
  end.

Lemma be16_inj a b x y : (0 <= a < 65536)%Z -> (0 <= b < 65536)%Z -> be16 a ++ x = be16 b ++ y -> a = b /\ x = y.
Proof. intros Ha Hb E. cbn [be16 app] in E. injection E as E1 E2 E3. split; [lia|auto]. Qed.

Lemma bytes_ok_app a b : bytes_ok (a ++ b) = bytes_ok a && bytes_ok b.
Proof. apply forallb_app. Qed.
Lemma bytes_ok_repeat n : bytes_ok (repeat 0%Z n) = true.
Proof. induction n; auto. Qed.
Lemma bytes_ok_split n l : bytes_ok l = true -> bytes_ok (firstn n l) = true /\ bytes_ok (skipn n l) = true.
Proof. intros H. rewrite <- (firstn_skipn n l), bytes_ok_app in H. apply andb_true_iff in H. exact H. Qed.

Lemma safe_reset cap0 buf past : (65536 <= Z.of_nat cap0)%Z -> bytes_ok buf = true -> cap0 <= length buf -> safe cap0 (reader_reset buf) past.
Proof.
  intros Hc B L. unfold safe, reader_reset; cbn [r_stage r_to_read r_read r_buf r_hdr]. unfold PREAMBLE.
  split; [exact B|]. split; [exact L|]. split; [exists past; rewrite firstn_O, app_nil_r; reflexivity|].
  split; [lia|]. split; [lia|]. auto.
Qed.

Lemma process_safe cap0 s past future :
  (65536 <= Z.of_nat cap0)%Z -> safe cap0 s past -> tame (past ++ future) ->
  exists s' out, process cap0 s = Ok (s', out) /\ safe cap0 s' past.
Proof.
  intros Hc (B & Lc & [pre Hp] & Hr & Hle & St) T. unfold process.
  destruct (Z.eqb_spec (Z.of_nat (r_read s)) (r_to_read s)) as [Eq|Nq]; cbn [negb].
  2: { exists s, None. split; [reflexivity|]. unfold safe. split; [exact B|]. split; [exact Lc|].
       split; [exists pre; exact Hp|]. split; [exact Hr|]. split; [exact Hle|exact St]. }
  destruct (r_stage s) eqn:Es.
  - destruct St as [T6 Hh].
    destruct (get_be16_len (r_buf s)) as (mk & p0 & E0 & L0); [lia|]. rewrite E0.
    pose proof (get_be16_range _ _ _ B E0) as [_ B0]. apply get_be16_inv in E0; auto.
    destruct (get_be16_len p0) as (v & p1 & E1 & L1); [lia|]. rewrite E1.
    pose proof (get_be16_range _ _ _ B0 E1) as [_ B1]. apply get_be16_inv in E1; auto.
    destruct (Z.eqb_spec mk RTMSG_HEADER_MARKER) as [->|]; cbn [negb orb].
    2: { eexists _, _. split; [reflexivity|]. apply safe_reset; auto. }
    destruct (Z.eqb_spec v RTMSG_HEADER_VERSION) as [->|]; cbn [negb orb].
    2: { eexists _, _. split; [reflexivity|]. apply safe_reset; auto. }
    destruct (get_be16_len p1) as (hl & p2 & E2 & L2); [lia|]. rewrite E2.
    pose proof (get_be16_range _ _ _ B1 E2) as [Rh B2]. apply get_be16_inv in E2; auto.
    eexists _, _. split; [reflexivity|].
    assert (Eb : r_buf s = be16 RTMSG_HEADER_MARKER ++ be16 RTMSG_HEADER_VERSION ++ be16 hl ++ p2) by congruence.
    assert (R6 : r_read s = 6) by lia.
    destruct (T pre hl future) as [Hhl _]; [|lia|].
    { rewrite Hp, R6, Eb, <- !app_assoc. reflexivity. }
    unfold safe; cbn [r_stage r_to_read r_read r_buf r_hdr]. unfold PREAMBLE.
    split; [exact B|]. split; [exact Lc|]. split; [exists pre; exact Hp|]. split; [lia|]. split; [lia|].
    split; [lia|]. split; [exact Hh|]. split; [lia|]. exists p2. rewrite Eb. repeat f_equal. lia.
  - destruct St as (Rt & Hh & R6 & rest & Eb). rewrite Hh.
    pose proof (header_decode_safe header_init (r_buf s) B ltac:(lia)) as Nub.
    destruct (header_decode header_init (r_buf s)) as [h|e|] eqn:D; [| |contradiction].
    2: { eexists _, _. split; [reflexivity|]. apply safe_reset; auto. }
    destruct (header_decode_fields _ _ _ B D) as (sq & fl & ct & rest2 & Eb2 & Rh & Rp & Rv).
    pose proof Eb2 as Eb3. rewrite Eb in Eb3.
    apply be16_inj in Eb3 as [_ Eb3]; [|unfold RTMSG_HEADER_MARKER; lia..].
    apply be16_inj in Eb3 as [Ev Eb3]; [|unfold RTMSG_HEADER_VERSION; lia|lia].
    apply be16_inj in Eb3 as [Eh Eb3]; [|lia..].
    assert (Hpl : (h_payload_length h < 2147352576)%Z).
    { destruct (T pre (h_header_length h)
                 ((be32 sq ++ be32 fl ++ be32 ct) ++ be32 (h_payload_length h) ++ skipn 22 (firstn (r_read s) (r_buf s)) ++ future)) as [_ T2].
      - rewrite Hp, <- app_assoc. f_equal.
        rewrite <- (firstn_skipn 22 (firstn (r_read s) (r_buf s))) at 1. rewrite firstn_firstn, Nat.min_l by lia.
        rewrite Eb2 at 1. rewrite <- Ev, <- !app_assoc. reflexivity.
      - lia.
      - eapply T2; [reflexivity|reflexivity|lia]. }
    unfold begin_payload. cbv zeta.
    rewrite (to_signed_unsigned 32) by (try (change (2 ^ (32 - 1))%Z with 2147483648%Z); lia).
    match goal with |- context [(2147483648 <=? ?x)%Z] => assert ((2147483648 <=? x)%Z = false) as -> by lia end.
    cbn [obind]. eexists _, _. split; [reflexivity|].
    unfold safe; cbn [r_stage r_to_read r_read r_buf r_hdr]. rewrite bytes_ok_app, bytes_ok_repeat, B, app_length, repeat_length.
    split; [reflexivity|]. split; [lia|]. split.
    { exists pre. rewrite firstn_app. replace (r_read s - length (r_buf s)) with 0 by lia. rewrite firstn_O, app_nil_r. exact Hp. }
    split; [lia|]. split; [lia|]. lia.
  - assert ((Z.of_nat (length (r_buf s)) <? h_header_length (r_hdr s) + h_payload_length (r_hdr s))%Z = false) as -> by lia.
    eexists _, _. split; [reflexivity|]. unfold shrink.
    destruct (Nat.eqb_spec (length (r_buf s)) cap0).
    + apply safe_reset; auto.
    + apply safe_reset; auto. { apply bytes_ok_repeat. } { rewrite repeat_length. lia. }
Qed.

Lemma run1_safe cap0 : (65536 <= Z.of_nat cap0)%Z -> forall stream s past,
  bytes_ok stream = true -> safe cap0 s past -> tame (past ++ stream) -> run1 cap0 s stream <> UB.
Proof.
  intros Hc. induction stream as [|c rest IH]; intros s past Bs S T; [discriminate|].
  cbn [run1]. pose proof S as (B & Lc & [pre Hp] & Hr & Hle & St).
  assert ((r_to_read s - Z.of_nat (r_read s) <? 0)%Z = false) as -> by lia.
  destruct (Z.eqb_spec (r_to_read s - Z.of_nat (r_read s)) 0); [discriminate|].
  assert ((r_read s + 1 <=? length (r_buf s)) = true) as -> by lia.
  cbn [bytes_ok forallb] in Bs. apply andb_true_iff in Bs as [Bc Bs].
  set (s1 := mkR _ _ _ _ _).
  destruct (bytes_ok_split (r_read s) _ B) as [Ba _]. destruct (bytes_ok_split (r_read s + 1) _ B) as [_ Bb].
  assert (Lb : length (r_buf s1) = length (r_buf s)).
  { cbn [s1 r_buf]. rewrite !app_length, firstn_length, skipn_length; cbn [length]; lia. }
  assert (Fr : firstn (r_read s + 1) (r_buf s1) = firstn (r_read s) (r_buf s) ++ [c]).
  { cbn [s1 r_buf]. rewrite app_assoc, firstn_app. rewrite firstn_all2 by (rewrite app_length, firstn_length; cbn [length]; lia).
    rewrite app_length, firstn_length. cbn [length]. replace (r_read s + 1 - (Nat.min (r_read s) (length (r_buf s)) + 1)) with 0 by lia.
    rewrite firstn_O, app_nil_r. reflexivity. }
  assert (S1 : safe cap0 s1 (past ++ [c])).
  { unfold safe. rewrite Lb. cbn [s1 r_stage r_to_read r_read r_hdr]. fold s1.
    split. { cbn [s1 r_buf]. rewrite !bytes_ok_app, Ba, Bb. cbn [bytes_ok forallb]. rewrite Bc. reflexivity. }
    split; [lia|]. split. { exists pre. rewrite Fr, Hp, <- app_assoc. reflexivity. }
    split; [lia|]. split; [lia|].
    destruct (r_stage s); auto. destruct St as (Rt & Hh & R6 & rr & Eb). split; [auto|]. split; [auto|]. split; [lia|].
    exists (skipn 6 (r_buf s1)). rewrite <- (firstn_skipn 6 (r_buf s1)) at 1.
    assert (firstn 6 (r_buf s1) = firstn 6 (r_buf s)) as ->.
    { cbn [s1 r_buf]. rewrite firstn_app, firstn_firstn, firstn_length. replace (Nat.min 6 (r_read s)) with 6 by lia.
      replace (6 - Nat.min (r_read s) (length (r_buf s))) with 0 by lia. rewrite firstn_O, app_nil_r. reflexivity. }
    rewrite Eb. reflexivity. }
  assert (T1 : tame ((past ++ [c]) ++ rest)) by (rewrite <- app_assoc; exact T).
  destruct (process_safe cap0 s1 (past ++ [c]) rest Hc S1 T1) as (s' & out & -> & S'). cbn [obind].
  specialize (IH s' (past ++ [c]) Bs S' T1).
  destruct (run1 cap0 s' rest) as [[[[ms r'] s''] cl]|e|]; cbn [obind]; congruence.
Qed.

Lemma run_prefix_not_ub cap0 : forall ks s stream ks',
  reader_run cap0 s stream (ks ++ ks') <> UB -> reader_run cap0 s stream ks <> UB.
Proof.
  induction ks as [|k ks IH]; intros s stream ks' H; [discriminate|].
  cbn [reader_run app] in *. destruct (reader_step cap0 s stream k) as [[s1 rest out| |]|e|]; cbn [obind] in *; try congruence.
  specialize (IH s1 rest ks'). destruct (reader_run cap0 s1 rest ks) as [[[[ms r'] s''] cl]|e|]; cbn [obind] in *; try congruence.
  intros _. apply IH; auto. intros E. rewrite E in H. apply H. reflexivity.
Qed.

Lemma reader_safe cap0 stream ks : (65536 <= Z.of_nat cap0)%Z -> bytes_ok stream = true -> tame stream ->
  reader_run cap0 (reader_init cap0) stream ks <> UB.
Proof.
  intros Hc B T. apply (run_prefix_not_ub cap0 ks _ _ (repeat 1 (length stream))).
  rewrite run_run1 by (rewrite app_length, repeat_length; lia).
  apply (run1_safe cap0 Hc stream _ []); auto.
  change (reader_init cap0) with (reader_reset (repeat 0%Z cap0)). apply safe_reset; auto.
  - apply bytes_ok_repeat.
  - rewrite repeat_length. lia.
Qed.

Lemma empty_payload_drops cap0 m rest ks : 542 <= cap0 ->
  sendable m = true -> snd m = [] -> rest <> [] -> length (wire_bytes m ++ rest) <= length ks ->
  exists s, reader_run cap0 (reader_init cap0) (wire_bytes m ++ rest) ks = Ok ([], rest, s, true).
Proof.
  intros Hc Sm Em Hr Hk.
  destruct (empty_payload_drops0 cap0 m 1 (repeat 1 (length (wire_bytes m ++ rest))) rest Hc Sm Em Hr) as [s E].
  exists s. rewrite <- E. apply chunking_irrelevant; auto. cbn [length]. rewrite repeat_length. lia.
Qed.

(** A decision procedure for [tame], to exhibit tame streams. *)
Definition tame_at (l : list Z) : bool :=
  match l with
  | a :: b :: c :: d :: e :: f :: rest =>
      if (a =? 170)%Z && (b =? 170)%Z && (c =? 0)%Z && (d =? 2)%Z then
        (22 <=? e * 256 + f)%Z &&
        match get_be32 (skipn 12 rest) with Some (pl, _) => (pl <? 2147352576)%Z | None => true end
      else true
  | _ => true
  end.
Fixpoint tameb (l : list Z) : bool :=
  match l with [] => true | c :: l' => tame_at l && tameb l' end.

Lemma tameb_tame l : tameb l = true -> tame l.
Proof.
  intros H pre. revert l H. induction pre as [|x pre IH]; intros l H hl rest E Hh.
  - rewrite app_nil_l in E. subst l. cbn [be16 app tameb] in H.
    apply andb_true_iff in H as [H _]. unfold tame_at in H.
    assert (((RTMSG_HEADER_MARKER / 256 mod 256 =? 170)%Z && (RTMSG_HEADER_MARKER mod 256 =? 170)%Z
            && (RTMSG_HEADER_VERSION / 256 mod 256 =? 0)%Z && (RTMSG_HEADER_VERSION mod 256 =? 2)%Z)%bool = true) as Hm by reflexivity.
    rewrite Hm in H. apply andb_true_iff in H as [H1 H2]. split; [lia|].
    intros mid pl rest' -> Lm Rp. rewrite <- Lm, skipn_app, skipn_all, Nat.sub_diag in H2. cbn [skipn app] in H2.
    rewrite get_be32_be32 in H2 by lia. lia.
  - destruct l as [|y l]; [discriminate|]. cbn [app] in E. injection E as -> E.
    cbn [tameb] in H. apply andb_true_iff in H as [_ H]. exact (IH l H hl rest E Hh).
Qed.

Lemma short_header_ub : exists stream ks, bytes_ok stream = true /\ length stream = 7 /\
  reader_run (Z.to_nat 65536) (reader_init (Z.to_nat 65536)) stream ks = UB.
Proof. exists [170;170;0;2;0;5;1]%Z, (repeat 6 2). vm_compute. auto. Qed.

Lemma huge_payload_ub : exists stream ks, bytes_ok stream = true /\ length stream <= 60 /\
  reader_run (Z.to_nat 65536) (reader_init (Z.to_nat 65536)) stream ks = UB.
Proof.
  exists ([170;170;0;2;0;32; 0;0;0;1; 0;0;0;0; 0;0;0;0; 255;255;255;255; 0;0;0;0; 0;0;0;0; 170;170] ++ [1;1])%Z, (repeat 40 5).
  split; [reflexivity|]. split; [cbn [length app]; lia|]. vm_compute. reflexivity.
Qed.

Lemma small_buffer_ub : exists stream ks, bytes_ok stream = true /\ tame stream /\
  reader_run (Z.to_nat 8192) (reader_init (Z.to_nat 8192)) stream ks = UB.
Proof.
  exists ([170;170;0;2;35;40]%Z ++ repeat 1%Z (Z.to_nat 8994)), [Z.to_nat 9000; Z.to_nat 9000].
  split; [vm_compute; reflexivity|]. split; [apply tameb_tame; vm_compute; reflexivity|]. vm_compute. reflexivity.
Qed.
