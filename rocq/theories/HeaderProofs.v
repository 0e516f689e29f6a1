From Verif Require Import Common CommonFacts Bytes BytesFacts HeaderModel HeaderSpec.
Local Open Scope Z_scope.
Ltac Zify.zify_post_hook ::= Z.div_mod_to_equations.

Lemma cstring_len a s : cstring a = Some s -> (length s < length a)%nat.
Proof.
  revert s; induction a as [|c a IH]; intros s H; [discriminate|]. cbn [cstring] in H.
  destruct (c =? 0); [inversion H; simpl; lia|].
  destruct (cstring a) as [s'|]; [|discriminate]. inversion H; subst. simpl.
  specialize (IH s' eq_refl). lia.
Qed.

Lemma cstring_is_cstr a s : bytes_ok a = true -> cstring a = Some s -> is_cstr s = true.
Proof.
  revert s; induction a as [|c a IH]; intros s Hb H; [discriminate|]. cbn [cstring] in H.
  apply bytes_ok_cons in Hb as [Hc Hb].
  destruct (Z.eqb_spec c 0) as [E|E]; [inversion H; reflexivity|].
  destruct (cstring a) as [s'|]; [|discriminate]. inversion H; subst.
  unfold is_cstr in *. cbn [forallb]. rewrite (IH s' Hb eq_refl). lia.
Qed.

Lemma cstring_pad s a : is_cstr s = true -> cstring (s ++ 0 :: a) = Some s.
Proof.
  induction s as [|c s IH]; intros H; [reflexivity|].
  unfold is_cstr in H. cbn [forallb] in H. apply andb_true_iff in H as [Hc Hs].
  cbn [app cstring]. destruct (Z.eqb_spec c 0); [lia|]. unfold is_cstr in IH. rewrite IH by auto. reflexivity.
Qed.

Lemma overwrite_zeros s : is_cstr s = true -> (length s < 256)%nat ->
  cstring (array_overwrite (repeat 0 256) s) = Some s.
Proof.
  intros Hs Hl. unfold array_overwrite.
  assert (E : exists a, skipn (length s) (repeat 0 256) = 0 :: a).
  { exists (repeat 0 (255 - length s)).
    replace 256%nat with (length s + S (255 - length s))%nat by lia.
    rewrite repeat_app, skipn_app, repeat_length, Nat.sub_diag.
    rewrite skipn_all2 by (rewrite repeat_length; lia). reflexivity. }
  destruct E as [a ->]. apply cstring_pad; auto.
Qed.

Lemma need_some {A} (x : A) f : need (Some x) f = f x.
Proof. reflexivity. Qed.

Lemma header_roundtrip h : header_wf h = true ->
  exists h1 b h2, header_encode h = Ok (h1, b) /\
    Z.of_nat (length b) = h_header_length h1 /\
    (forall rest, header_decode header_init (b ++ rest) = Ok h2) /\
    header_content h2 = header_content h /\
    h_version h2 = 2 /\ h_header_length h2 = h_header_length h1 /\
    Some (h_topic_length h2) = option_map (fun s => Z.of_nat (length s)) (cstring (h_topic h)) /\
    Some (h_reply_topic_length h2) = option_map (fun s => Z.of_nat (length s)) (cstring (h_reply_topic h)).
Proof.
  intros W. unfold header_wf in W. repeat (apply andb_true_iff in W as [W ?]).
  destruct (cstring (h_topic h)) as [t|] eqn:Et; [|discriminate].
  destruct (cstring (h_reply_topic h)) as [r|] eqn:Er; [|discriminate].
  unfold header_encode. rewrite Et, Er.
  pose proof (cstring_len _ _ Et) as Lt. pose proof (cstring_len _ _ Er) as Lr.
  assert (Ct : is_cstr t = true) by (eapply cstring_is_cstr; [|exact Et]; assumption).
  assert (Cr : is_cstr r = true) by (eapply cstring_is_cstr; [|exact Er]; assumption).
  unfold u32 in *.
  eexists _, _, _. split; [reflexivity|]. cbn [h_header_length].
  split; [|split].
  - rewrite !app_length. cbn [be16 be32 length]. lia.
  - intros rest. rewrite <- !app_assoc. unfold header_decode.
    rewrite get_be16_be16 by (unfold RTMSG_HEADER_MARKER; lia). cbn [need].
    rewrite Z.eqb_refl. cbn [negb].
    rewrite get_be16_be16 by (unfold RTMSG_HEADER_VERSION; lia). cbn [need].
    rewrite get_be16_be16 by lia. cbn [need].
    rewrite get_be32_be32 by lia. cbn [need].
    rewrite get_be32_be32 by lia. cbn [need].
    rewrite get_be32_be32 by lia. cbn [need].
    rewrite get_be32_be32 by lia. cbn [need].
    rewrite get_be32_be32 by lia. cbn [need].
    destruct (Z.leb_spec RTMSG_HEADER_MAX_TOPIC_LENGTH (Z.of_nat (length t))) as [C|_];
      [unfold RTMSG_HEADER_MAX_TOPIC_LENGTH in C; lia|].
    rewrite Nat2Z.id, get_bytes_app. cbn [need].
    rewrite get_be32_be32 by lia. cbn [need].
    destruct (Z.leb_spec RTMSG_HEADER_MAX_TOPIC_LENGTH (Z.of_nat (length r))) as [C|_];
      [unfold RTMSG_HEADER_MAX_TOPIC_LENGTH in C; lia|].
    rewrite Nat2Z.id, get_bytes_app. cbn [need].
    rewrite get_be16_be16 by (unfold RTMSG_HEADER_MARKER; lia). cbn [need].
    rewrite Z.eqb_refl. reflexivity.
  - unfold header_content. cbn [h_sequence_number h_flags h_control_data h_payload_length h_topic h_reply_topic
      h_version h_header_length h_topic_length h_reply_topic_length].
    change (h_topic header_init) with (repeat 0 256). change (h_reply_topic header_init) with (repeat 0 256).
    rewrite !overwrite_zeros by (auto; lia). rewrite Et, Er. repeat split; reflexivity.
Qed.

Lemma get_bytes_some n l : (n <= length l)%nat -> get_bytes n l = Some (firstn n l, skipn n l).
Proof. intros H. unfold get_bytes. destruct (Nat.leb_spec n (length l)); [reflexivity|lia]. Qed.

Lemma bytes_ok_skipn n l : bytes_ok l = true -> bytes_ok (skipn n l) = true.
Proof.
  intros H. rewrite <- (firstn_skipn n l), bytes_ok_app in H. apply andb_true_iff in H as [_ H]. exact H.
Qed.

Lemma get_be16_len l : (2 <= length l)%nat -> exists n r, get_be16 l = Some (n, r) /\ length r = (length l - 2)%nat.
Proof. destruct l as [|a [|b l]]; cbn [length]; intros H; try lia. eexists _, _. split; [reflexivity|]. lia. Qed.
Lemma get_be32_len l : (4 <= length l)%nat -> exists n r, get_be32 l = Some (n, r) /\ length r = (length l - 4)%nat.
Proof. destruct l as [|a [|b [|c [|d l]]]]; cbn [length]; intros H; try lia. eexists _, _. split; [reflexivity|]. lia. Qed.

Ltac step16 p := let E := fresh "E" in let L := fresh "L" in
  destruct (get_be16_len p) as (? & ? & E & L); [lia|]; rewrite E; cbn [need].
Ltac step32 p := let E := fresh "E" in let L := fresh "L" in
  destruct (get_be32_len p) as (? & ? & E & L); [lia|]; rewrite E; cbn [need].

Lemma header_decode_safe h buff : bytes_ok buff = true -> (542 <= length buff)%nat ->
  header_decode h buff <> UB.
Proof.
  intros Hb Hl. unfold header_decode.
  destruct (get_be16_len buff) as (m & p0 & E0 & L0); [lia|]. rewrite E0; cbn [need].
  destruct (m =? RTMSG_HEADER_MARKER); cbn [negb]; [|discriminate].
  apply get_be16_range in E0 as [_ B0]; auto.
  destruct (get_be16_len p0) as (? & p1 & E1 & L1); [lia|]. rewrite E1; cbn [need].
  apply get_be16_range in E1 as [_ B1]; auto.
  destruct (get_be16_len p1) as (? & p2 & E2 & L2); [lia|]. rewrite E2; cbn [need].
  apply get_be16_range in E2 as [_ B2]; auto.
  destruct (get_be32_len p2) as (? & p3 & E3 & L3); [lia|]. rewrite E3; cbn [need].
  apply get_be32_range in E3 as [_ B3]; auto.
  destruct (get_be32_len p3) as (? & p4 & E4 & L4); [lia|]. rewrite E4; cbn [need].
  apply get_be32_range in E4 as [_ B4]; auto.
  destruct (get_be32_len p4) as (? & p5 & E5 & L5); [lia|]. rewrite E5; cbn [need].
  apply get_be32_range in E5 as [_ B5]; auto.
  destruct (get_be32_len p5) as (? & p6 & E6 & L6); [lia|]. rewrite E6; cbn [need].
  apply get_be32_range in E6 as [_ B6]; auto.
  destruct (get_be32_len p6) as (tl & p7 & E7 & L7); [lia|]. rewrite E7; cbn [need].
  apply get_be32_range in E7 as [R7 B7]; auto.
  destruct (Z.leb_spec RTMSG_HEADER_MAX_TOPIC_LENGTH tl) as [|T]; [discriminate|].
  unfold RTMSG_HEADER_MAX_TOPIC_LENGTH in T.
  rewrite get_bytes_some by lia. cbn [need].
  assert (L8 : length (skipn (Z.to_nat tl) p7) = (length p7 - Z.to_nat tl)%nat) by apply skipn_length.
  pose proof (bytes_ok_skipn (Z.to_nat tl) p7 B7) as B8.
  set (p8 := skipn (Z.to_nat tl) p7) in *.
  destruct (get_be32_len p8) as (rl & p9 & E9 & L9); [lia|]. rewrite E9; cbn [need].
  apply get_be32_range in E9 as [R9 B9]; auto.
  destruct (Z.leb_spec RTMSG_HEADER_MAX_TOPIC_LENGTH rl) as [|T9]; [discriminate|].
  unfold RTMSG_HEADER_MAX_TOPIC_LENGTH in T9.
  rewrite get_bytes_some by lia. cbn [need].
  assert (L10 : length (skipn (Z.to_nat rl) p9) = (length p9 - Z.to_nat rl)%nat) by apply skipn_length.
  set (p10 := skipn (Z.to_nat rl) p9) in *.
  destruct (get_be16_len p10) as (m2 & p11 & E11 & L11); [lia|]. rewrite E11; cbn [need].
  destruct (m2 =? RTMSG_HEADER_MARKER); cbn [negb]; discriminate.
Qed.

Lemma need_ok {A} (o : option A) f (h : header) : need o f = Ok h -> exists a, o = Some a /\ f a = Ok h.
Proof. destruct o as [a|]; cbn [need]; intros H; [exists a; auto|discriminate]. Qed.

Lemma overwrite_keeps_nul a t : length a = 256%nat -> (length t < 256)%nat ->
  skipn (length t) a = repeat 0 (256 - length t) -> is_some (cstring (array_overwrite a t)) = true.
Proof.
  intros La Lt Hz. unfold array_overwrite. rewrite Hz.
  assert (E : exists n, (256 - length t)%nat = S n) by (exists (255 - length t)%nat; lia).
  destruct E as [n ->]. cbn [repeat]. clear.
  induction t as [|c t IH]; [reflexivity|]. cbn [app cstring].
  destruct (c =? 0); [reflexivity|].
  destruct (cstring (t ++ 0 :: repeat 0 n)); [reflexivity|discriminate].
Qed.

Lemma skipn_repeat0 n : (n <= 256)%nat -> skipn n (repeat 0 256) = repeat 0 (256 - n).
Proof.
  intros H. replace 256%nat with (n + (256 - n))%nat at 1 by lia.
  rewrite repeat_app, skipn_app, repeat_length, Nat.sub_diag.
  rewrite skipn_all2 by (rewrite repeat_length; lia). reflexivity.
Qed.

Lemma header_decode_bounds buff h : bytes_ok buff = true -> header_decode header_init buff = Ok h ->
  0 <= h_topic_length h < 256 /\ 0 <= h_reply_topic_length h < 256 /\
  length (h_topic h) = 256%nat /\ length (h_reply_topic h) = 256%nat /\
  is_some (cstring (h_topic h)) = true /\ is_some (cstring (h_reply_topic h)) = true.
Proof.
  intros Hb H. unfold header_decode in H.
  apply need_ok in H as ([m p0] & E0 & H). cbn beta iota in H.
  apply get_be16_range in E0 as [_ B0]; auto.
  destruct (m =? RTMSG_HEADER_MARKER); cbn [negb] in H; [|discriminate].
  apply need_ok in H as ([v p1] & E1 & H). apply get_be16_range in E1 as [_ B1]; auto.
  apply need_ok in H as ([hl p2] & E2 & H). apply get_be16_range in E2 as [_ B2]; auto.
  apply need_ok in H as ([sq p3] & E3 & H). apply get_be32_range in E3 as [_ B3]; auto.
  apply need_ok in H as ([fl p4] & E4 & H). apply get_be32_range in E4 as [_ B4]; auto.
  apply need_ok in H as ([ct p5] & E5 & H). apply get_be32_range in E5 as [_ B5]; auto.
  apply need_ok in H as ([pl p6] & E6 & H). apply get_be32_range in E6 as [_ B6]; auto.
  apply need_ok in H as ([tl p7] & E7 & H). apply get_be32_range in E7 as [R7 B7]; auto.
  cbn beta iota in H. destruct (Z.leb_spec RTMSG_HEADER_MAX_TOPIC_LENGTH tl) as [|T]; [discriminate|].
  apply need_ok in H as ([t p8] & E8 & H). cbn beta iota in H.
  assert (Lt : length t = Z.to_nat tl /\ bytes_ok p8 = true).
  { unfold get_bytes in E8. destruct (Nat.leb_spec (Z.to_nat tl) (length p7)); [|discriminate].
    inversion E8; subst. rewrite firstn_length. split; [lia|]. apply bytes_ok_skipn; auto. }
  destruct Lt as [Lt B8].
  apply need_ok in H as ([rl p9] & E9 & H). apply get_be32_range in E9 as [R9 B9]; auto.
  cbn beta iota in H. destruct (Z.leb_spec RTMSG_HEADER_MAX_TOPIC_LENGTH rl) as [|T9]; [discriminate|].
  apply need_ok in H as ([r p10] & E10 & H). cbn beta iota in H.
  assert (Lr : length r = Z.to_nat rl).
  { unfold get_bytes in E10. destruct (Nat.leb_spec (Z.to_nat rl) (length p9)); [|discriminate].
    inversion E10; subst. rewrite firstn_length. lia. }
  apply need_ok in H as ([m2 p11] & E11 & H). cbn beta iota in H.
  destruct (m2 =? RTMSG_HEADER_MARKER); cbn [negb] in H; [|discriminate].
  inversion H; subst h. clear H.
  cbn [h_topic_length h_reply_topic_length h_topic h_reply_topic].
  unfold RTMSG_HEADER_MAX_TOPIC_LENGTH in *.
  change (h_topic header_init) with (repeat 0 256). change (h_reply_topic header_init) with (repeat 0 256).
  assert (forall s : list Z, (length s < 256)%nat -> length (array_overwrite (repeat 0 256) s) = 256%nat).
  { intros s Hs. unfold array_overwrite. rewrite app_length, skipn_length, repeat_length. lia. }
  assert (K : forall s : list Z, (length s < 256)%nat -> is_some (cstring (array_overwrite (repeat 0 256) s)) = true).
  { intros s Hs. apply (overwrite_keeps_nul (repeat 0 256) s);
      [apply repeat_length|exact Hs|apply skipn_repeat0; lia]. }
  split; [lia|]. split; [lia|]. split; [apply H; lia|]. split; [apply H; lia|].
  split; apply K; lia.
Qed.

(** Without a preceding Init the decoded topic can be wrong. *)
Lemma header_decode_stale_refuted :
  exists h0 h1 b h2, header_wf h0 = true /\ header_encode h1 = Ok (h1, b) /\ header_wf h1 = true /\
    header_decode h0 b = Ok h2 /\ cstring (h_topic h2) <> cstring (h_topic h1).
Proof.
  pose (arr := fun s : list Z => s ++ repeat 0 (256 - length s)).
  exists (mkHeader 2 0 0 0 0 0 3 (arr [65; 66; 67]) 0 (arr [])).
  exists (mkHeader 2 33 7 1 0 5 1 (arr [88]) 0 (arr [])).
  eexists _, _. split; [vm_compute; reflexivity|]. split; [reflexivity|].
  split; [vm_compute; reflexivity|]. split; [vm_compute; reflexivity|].
  vm_compute. discriminate.
Qed.
