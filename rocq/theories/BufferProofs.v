From Verif Require Import Common CommonFacts Bytes BytesFacts Value BufferModel BufferSpec.
Local Open Scope Z_scope.
Arguments value_size !v /.
Ltac Zify.zify_post_hook ::= Z.div_mod_to_equations.

Lemma in_s_range bits n : in_s bits n = true -> - 2 ^ (bits - 1) <= n < 2 ^ (bits - 1).
Proof. unfold in_s. lia. Qed.
Lemma in_u_range bits n : in_u bits n = true -> 0 <= n < 2 ^ bits.
Proof. unfold in_u. lia. Qed.

Lemma le_val_le16 n : 0 <= n < 65536 -> le_val (le16 n) = n.
Proof. intros H. unfold le_val, le16. cbn [fold_right]. lia. Qed.
Lemma le_val_le32 n : 0 <= n < 4294967296 -> le_val (le32 n) = n.
Proof. intros H. unfold le_val, le32. cbn [fold_right]. lia. Qed.
Lemma le_val_app a b : le_val (a ++ b) = le_val a + 256 ^ Z.of_nat (length a) * le_val b.
Proof.
  induction a as [|x a IH]; cbn [app length].
  - cbn [le_val fold_right]. change (256 ^ Z.of_nat 0) with 1. lia.
  - change (le_val (x :: a ++ b)) with (x + 256 * le_val (a ++ b)). change (le_val (x :: a)) with (x + 256 * le_val a).
    rewrite IH, Nat2Z.inj_succ, Z.pow_succ_r by lia. ring.
Qed.
Lemma le_val_le32_mod n : le_val (le32 n) = n mod 4294967296.
Proof. unfold le_val, le32. cbn [fold_right]. lia. Qed.
Lemma le_val_le64 n : 0 <= n < 18446744073709551616 -> le_val (le64 n) = n.
Proof.
  intros H. unfold le64. rewrite le_val_app, !le_val_le32_mod. change (256 ^ Z.of_nat (length (le32 n))) with 4294967296. lia.
Qed.

(** The buffer always holds what was written, in an allocation of whole blocks. *)
Definition binv (b : buffer) : Prop :=
  b_alloc b mod 64 = 0 /\ 64 <= b_alloc b /\ b_write_pos b <= b_alloc b.

Lemma binv_create : binv buffer_create.
Proof. unfold binv, buffer_create, b_write_pos, BUFFER_BLOCK_SIZE. cbn [b_alloc b_data length]. lia. Qed.

Lemma write_spec b x : binv b -> binv (buffer_write b x) /\ b_data (buffer_write b x) = b_data b ++ x /\
  b_read (buffer_write b x) = b_read b /\ b_alloc b <= b_alloc (buffer_write b x).
Proof.
  intros (I1 & I2 & I3). unfold buffer_write, buffer_reserve, binv, b_write_pos, BUFFER_BLOCK_SIZE in *. cbv zeta.
  destruct (Z.ltb_spec (b_alloc b) (Z.of_nat (length (b_data b)) + Z.of_nat (length x))); cbn [b_alloc b_data b_read];
    rewrite app_length; split; auto; repeat split; lia.
Qed.

Lemma tlv_spec b type len x : binv b -> 0 <= len <= 65535 -> Z.of_nat (length x) = len ->
  let b' := write_tlv b type len x in
  binv b' /\ b_data b' = b_data b ++ le16 type ++ le16 len ++ x /\ b_read b' = b_read b /\ b_alloc b <= b_alloc b'.
Proof.
  intros I Hl Hx. cbv zeta. unfold write_tlv. cbv zeta. rewrite Z.mod_small by lia.
  rewrite <- Hx, Nat2Z.id, firstn_all.
  destruct (write_spec b (le16 type) I) as (I1 & D1 & R1 & A1).
  destruct (write_spec _ (le16 (Z.of_nat (length x))) I1) as (I2 & D2 & R2 & A2).
  destruct (write_spec _ x I2) as (I3 & D3 & R3 & A3).
  split; [exact I3|]. split; [rewrite D3, D2, D1, <- !app_assoc; reflexivity|]. split; [congruence|lia].
Qed.

(** The contents part of an encoded value. *)
Definition payload (v : value) : list Z :=
  match v with
  | VString (Some s) => s ++ [0] | VBytes (Some s) => s
  | VBool x => [if x then 1 else 0]
  | VInt32 n => le32 (to_unsigned 32 n) | VUInt32 n => le32 n
  | VChar n => [to_unsigned 8 n] | VByte n => [n] | VInt8 n => [to_unsigned 8 n] | VUInt8 n => [n]
  | VInt16 n => le16 (to_unsigned 16 n) | VUInt16 n => le16 n
  | VInt64 n => le64 (to_unsigned 64 n) | VUInt64 n => le64 n
  | VSingle n => le32 n | VDouble n => le64 n
  | VDateTime d => datetime_bytes d
  | _ => []
  end.
Definition enc (v : value) : list Z := le16 (vtype v) ++ le16 (value_size v - 4) ++ payload v.

Lemma payload_length v : encodable v = true -> Z.of_nat (length (payload v)) = value_size v - 4.
Proof.
  unfold encodable, value_size. destruct v; cbn [scalar_wf payload]; intros H; try discriminate; try reflexivity.
  - destruct s; [|discriminate]. rewrite app_length. cbn [length]. lia.
  - destruct s; [|discriminate]. lia.
Qed.
Lemma value_size_range v : encodable v = true -> 4 <= value_size v <= 65539.
Proof.
  intros H. pose proof (payload_length v H) as E. apply andb_true_iff in H as [_ H]. lia.
Qed.
Lemma enc_length v : encodable v = true -> Z.of_nat (length (enc v)) = value_size v.
Proof. intros H. unfold enc. rewrite !app_length. pose proof (payload_length v H). cbn [length le16]. lia. Qed.

Lemma value_encode_spec v b : encodable v = true -> binv b ->
  exists b', value_encode v b = Ok b' /\ binv b' /\ b_data b' = b_data b ++ enc v /\ b_read b' = b_read b /\ b_alloc b <= b_alloc b'.
Proof.
  intros H I. pose proof (payload_length v H) as L. pose proof (value_size_range v H) as R. unfold enc.
  assert (G : forall ty, vtype v = ty -> exists b', Ok (write_tlv b ty (value_size v - 4) (payload v)) = @Ok unit buffer b' /\ binv b' /\
     b_data b' = b_data b ++ le16 (vtype v) ++ le16 (value_size v - 4) ++ payload v /\ b_read b' = b_read b /\ b_alloc b <= b_alloc b').
  { intros ty <-. eexists. split; [reflexivity|]. apply tlv_spec; auto; lia. }
  destruct v as [|?|?|?|?|?|?|?|?|?|?|?|?|?|?|[s|]|[s|]|?|?|]; try discriminate H; try (exact (G _ eq_refl)).
  - specialize (G _ eq_refl). cbn [value_size payload] in G. cbn [value_encode value_size payload].
    replace (4 + (Z.of_nat (length s) + 1) - 4) with (Z.of_nat (length s) + 1) in * by lia. exact G.
  - specialize (G _ eq_refl). cbn [value_size payload] in G. cbn [value_encode value_size payload].
    replace (4 + Z.of_nat (length s) - 4) with (Z.of_nat (length s)) in * by lia. exact G.
Qed.

(** Reading what is there. *)
Lemma buffer_read_app al pre x post : Z.of_nat (length pre) + Z.of_nat (length x) < al ->
  buffer_read (mkB al (pre ++ x ++ post) (Z.of_nat (length pre))) (Z.of_nat (length x)) =
  Ok (x, mkB al (pre ++ x ++ post) (Z.of_nat (length (pre ++ x)))).
Proof.
  intros H. unfold buffer_read. cbn [b_read b_alloc b_data].
  assert ((Z.of_nat (length pre) + Z.of_nat (length x) <? al) = true) as -> by lia. cbn [negb].
  rewrite !Nat2Z.id, skipn_app, skipn_all, Nat.sub_diag. cbn [skipn app]. rewrite get_bytes_app.
  rewrite app_length, Nat2Z.inj_add. reflexivity.
Qed.

Lemma read_u_app al pre x post n len : len = Z.of_nat (length x) -> Z.of_nat (length pre) + len < al -> le_val x = n ->
  read_u (mkB al (pre ++ x ++ post) (Z.of_nat (length pre))) len =
  Ok (n, mkB al (pre ++ x ++ post) (Z.of_nat (length (pre ++ x)))).
Proof. intros -> H <-. unfold read_u. rewrite buffer_read_app by auto. reflexivity. Qed.

Lemma read_s_app al pre x post n len : len = Z.of_nat (length x) -> Z.of_nat (length pre) + len < al ->
  to_signed (8 * len) (le_val x) = n ->
  read_s (mkB al (pre ++ x ++ post) (Z.of_nat (length pre))) len =
  Ok (n, mkB al (pre ++ x ++ post) (Z.of_nat (length (pre ++ x)))).
Proof. intros E H <-. unfold read_s. rewrite (read_u_app _ _ _ _ (le_val x)) by auto. reflexivity. Qed.


Definition is_blob (v : value) : bool := match v with VString _ | VBytes _ => true | _ => false end.

Lemma signed_le bits n : In bits [8; 16; 32; 64] -> in_s bits n = true -> 0 <= to_unsigned bits n < 2 ^ bits /\ to_signed bits (to_unsigned bits n) = n.
Proof.
  intros Hb H. apply in_s_range in H. split.
  - unfold to_unsigned. apply Z.mod_pos_bound. apply Z.pow_pos_nonneg; [lia|]. cbn [In] in Hb. lia.
  - apply to_signed_unsigned; auto. cbn [In] in Hb. lia.
Qed.

Lemma datetime_rt d : datetime_wf d = true -> datetime_of (datetime_bytes d) = d.
Proof.
  unfold datetime_wf. intros H. do 10 (apply andb_true_iff in H as [H ?]).
  destruct d as [se mi ho md mo ye wd yd ds th tm we].
  cbn [dt_sec dt_min dt_hour dt_mday dt_mon dt_year dt_wday dt_yday dt_isdst dt_tzhour dt_tzmin dt_west] in *.
  unfold datetime_of, datetime_bytes. cbv zeta.
  cbn [dt_sec dt_min dt_hour dt_mday dt_mon dt_year dt_wday dt_yday dt_isdst dt_tzhour dt_tzmin dt_west].
  assert (G : forall n, in_s 32 n = true -> to_signed 32 (le_val (le32 (to_unsigned 32 n))) = n).
  { intros n Hn. destruct (signed_le 32 n) as [R E]; [cbn; auto|auto|]. rewrite le_val_le32 by exact R. exact E. }
  assert (W : negb ((if we then 1 else 0) =? 0) = we) by (destruct we; reflexivity).
  pose proof (G se H) as E0.
  f_equal; [exact E0 | apply G; assumption .. | exact W].
Qed.

Lemma value_decode_spec v al pre post : encodable v = true ->
  Z.of_nat (length pre) + 4 < al ->
  (if is_blob v then Z.of_nat (length pre) + value_size v <= al else Z.of_nat (length pre) + value_size v < al) ->
  value_decode (mkB al (pre ++ enc v ++ post) (Z.of_nat (length pre))) =
  Ok (v, mkB al (pre ++ enc v ++ post) (Z.of_nat (length (pre ++ enc v)))).
Proof.
  intros H H4 Hf. pose proof (payload_length v H) as L. pose proof (value_size_range v H) as R.
  unfold value_decode, enc. rewrite <- !app_assoc.
  assert (Ty : 1280 <= vtype v < 1299) by (destruct v; vm_compute; split; congruence).
  rewrite (read_u_app al pre (le16 (vtype v)) _ (vtype v)) by (try reflexivity; try (cbn [length le16]; lia); apply le_val_le16; lia).
  cbn [obind].
  assert (EQ1 : forall X, pre ++ le16 (vtype v) ++ X = (pre ++ le16 (vtype v)) ++ X) by (intros; apply app_assoc).
  rewrite EQ1. set (pre1 := pre ++ le16 (vtype v)).
  assert (Lp1 : Z.of_nat (length pre1) = Z.of_nat (length pre) + 2) by (unfold pre1; rewrite app_length; cbn [length le16]; lia).
  rewrite (read_u_app al pre1 (le16 (value_size v - 4)) _ (value_size v - 4)) by (try reflexivity; try (cbn [length le16]; lia); apply le_val_le16; lia).
  cbn [obind].
  assert (EQ2 : forall X, pre1 ++ le16 (value_size v - 4) ++ X = (pre1 ++ le16 (value_size v - 4)) ++ X) by (intros; apply app_assoc).
  rewrite EQ2. set (pre2 := pre1 ++ le16 (value_size v - 4)).
  assert (Lp2 : Z.of_nat (length pre2) = Z.of_nat (length pre) + 4) by (unfold pre2; rewrite app_length; cbn [length le16]; lia).
  assert (EQ3 : pre ++ le16 (vtype v) ++ le16 (value_size v - 4) ++ payload v = pre2 ++ payload v) by (unfold pre2, pre1; rewrite <- !app_assoc; reflexivity).
  rewrite EQ3.
  clear EQ1 EQ2 EQ3. clearbody pre2.
  apply andb_true_iff in H as [H Hsz]. apply andb_true_iff in H as [W Hnn].
  destruct v as [|?|?|?|?|?|?|?|?|?|?|?|?|?|d|[s|]|[s|]|?|?|]; try discriminate; cbn [vtype is_blob scalar_wf] in *;
    try (match type of W with in_s _ _ = true => apply signed_le in W as [Wr We]; [|cbn; tauto] end);
    try (match type of W with in_u _ _ = true => apply in_u_range in W end);
    cbn [value_size payload] in *;
    repeat match goal with |- context [if ?a =? ?b then _ else _] => let e := eval compute in (a =? b) in change (a =? b) with e; cbv iota end.
  - rewrite (read_u_app al pre2 _ post (if b then 1 else 0)); try reflexivity; [|lia|destruct b; reflexivity]. cbn [obind]. destruct b; reflexivity.
  - rewrite (read_s_app al pre2 _ post n); try reflexivity; [lia|]. rewrite <- We at 2. f_equal. cbn [le_val fold_right]. lia.
  - rewrite (read_u_app al pre2 _ post n); try reflexivity; [lia|]. cbn [le_val fold_right]. lia.
  - rewrite (read_s_app al pre2 _ post n); try reflexivity; [lia|]. rewrite <- We at 2. f_equal. cbn [le_val fold_right]. lia.
  - rewrite (read_u_app al pre2 _ post n); try reflexivity; [lia|]. cbn [le_val fold_right]. lia.
  - rewrite (read_s_app al pre2 _ post n); try reflexivity; [lia|]. rewrite <- We at 2. f_equal. apply le_val_le16. exact Wr.
  - rewrite (read_u_app al pre2 _ post n); try reflexivity; [lia|]. apply le_val_le16. exact W.
  - rewrite (read_s_app al pre2 _ post n); try reflexivity; [lia|]. rewrite <- We at 2. f_equal. apply le_val_le32. exact Wr.
  - rewrite (read_u_app al pre2 _ post n); try reflexivity; [lia|]. apply le_val_le32. exact W.
  - rewrite (read_s_app al pre2 _ post n); try reflexivity; [lia|]. rewrite <- We at 2. f_equal. apply le_val_le64. exact Wr.
  - rewrite (read_u_app al pre2 _ post n); try reflexivity; [lia|]. apply le_val_le64. exact W.
  - rewrite (read_u_app al pre2 _ post bits); try reflexivity; [lia|]. apply le_val_le32. exact W.
  - rewrite (read_u_app al pre2 _ post bits); try reflexivity; [lia|]. apply le_val_le64. exact W.
  - change 48 with (Z.of_nat (length (datetime_bytes d))). rewrite buffer_read_app by (change (Z.of_nat (length (datetime_bytes d))) with 48; lia).
    cbn [obind]. rewrite datetime_rt by auto. reflexivity.
  - cbn [b_read b_alloc b_data].
    assert ((Z.of_nat (length pre2) + (4 + (Z.of_nat (length s) + 1) - 4) <=? al) = true) as -> by lia. cbn [negb].
    rewrite Nat2Z.id, skipn_app, skipn_all, Nat.sub_diag. cbn [skipn app]. rewrite <- app_assoc. cbn [app].
    rewrite c_str_app by auto.
    assert ((Z.of_nat (length s) + 1 =? 4 + (Z.of_nat (length s) + 1) - 4) = true) as -> by lia.
    do 3 f_equal. rewrite !app_length. cbn [length]. lia.
  - cbn [b_read b_alloc b_data].
    assert ((Z.of_nat (length pre2) + (4 + Z.of_nat (length s) - 4) <=? al) = true) as -> by lia. cbn [negb].
    rewrite Nat2Z.id, skipn_app, skipn_all, Nat.sub_diag. cbn [skipn app].
    replace (Z.to_nat (4 + Z.of_nat (length s) - 4)) with (length s) by lia. rewrite get_bytes_app.
    do 3 f_equal. rewrite !app_length. lia.
Qed.

Lemma value_roundtrip v : encodable v = true ->
  exists b b', value_encode v buffer_create = Ok b /\ value_decode b = Ok (v, b') /\ b_read b' = b_write_pos b.
Proof.
  intros H. destruct (value_encode_spec v buffer_create H binv_create) as (b & E & (I1 & I2 & I3) & D & R & A).
  cbn [buffer_create b_data b_read app] in D, R. unfold b_write_pos in *.
  destruct b as [al dt rd]. cbn [b_data b_read b_alloc] in *. subst dt rd.
  pose proof (enc_length v H) as Le. pose proof (value_size_range v H).
  pose proof (value_decode_spec v al [] [] H) as Dc. rewrite app_nil_r in Dc. cbn [app length] in Dc. change (Z.of_nat 0) with 0 in Dc.
  eexists _, _. split; [exact E|]. split.
  - apply Dc; [lia|]. destruct (is_blob v) eqn:Bl; [lia|].
    unfold BUFFER_BLOCK_SIZE in A. destruct v as [| | | | | | | | | | | | | | |[s|]|[s|]| | |]; try discriminate; cbn [value_size]; lia.
  - cbn [b_read b_data]. reflexivity.
Qed.

Lemma encode_all_spec vs : forall b, forallb encodable vs = true -> binv b ->
  exists b', encode_all vs b = Ok b' /\ binv b' /\ b_data b' = b_data b ++ concat (map enc vs) /\ b_read b' = b_read b.
Proof.
  induction vs as [|v vs IH]; intros b H I.
  - exists b. cbn [encode_all map concat]. rewrite app_nil_r. auto.
  - cbn [forallb] in H. apply andb_true_iff in H as [Hv H].
    destruct (value_encode_spec v b Hv I) as (b1 & E1 & I1 & D1 & R1 & _).
    destruct (IH b1 H I1) as (b2 & E2 & I2 & D2 & R2).
    exists b2. cbn [encode_all map concat]. rewrite E1. cbn [obind]. split; [exact E2|]. split; [exact I2|].
    split; [rewrite D2, D1, <- app_assoc; reflexivity|congruence].
Qed.

Lemma total_size_enc vs : forallb encodable vs = true -> Z.of_nat (length (concat (map enc vs))) = total_size vs.
Proof.
  induction vs as [|v vs IH]; cbn [forallb map concat total_size fold_right]; intros H; [reflexivity|].
  apply andb_true_iff in H as [Hv H]. rewrite app_length, Nat2Z.inj_add, IH, enc_length by auto. reflexivity.
Qed.

Lemma decode_all_spec vs : forall al pre, forallb encodable vs = true ->
  Z.of_nat (length pre) + total_size vs < al ->
  exists b', decode_all (length vs) (mkB al (pre ++ concat (map enc vs)) (Z.of_nat (length pre))) = Ok (vs, b').
Proof.
  induction vs as [|v vs IH]; intros al pre H Hs; [cbn; eauto|].
  cbn [forallb] in H. apply andb_true_iff in H as [Hv H].
  pose proof (value_size_range v Hv). pose proof (total_size_enc vs H) as Ts.
  cbn [total_size fold_right] in Hs. fold (total_size vs) in Hs.
  cbn [length decode_all map concat]. rewrite value_decode_spec by (auto; try destruct (is_blob v); lia). cbn [obind].
  rewrite app_assoc. destruct (IH al (pre ++ enc v) H) as [b' E].
  { rewrite app_length, Nat2Z.inj_add, enc_length by auto. lia. }
  rewrite E. cbn [obind]. eauto.
Qed.

Lemma values_roundtrip vs : forallb encodable vs = true -> total_size vs mod 64 <> 0 ->
  exists b b', encode_all vs buffer_create = Ok b /\ decode_all (length vs) b = Ok (vs, b').
Proof.
  intros H M. destruct (encode_all_spec vs buffer_create H binv_create) as (b & E & (I1 & I2 & I3) & D & R).
  exists b. pose proof (total_size_enc vs H) as Ts. unfold b_write_pos in *.
  destruct b as [al dt rd]. cbn [b_data b_read b_alloc buffer_create app] in *. subst dt rd.
  destruct (decode_all_spec vs al [] H) as [b' E'].
  { cbn [length]. change (Z.of_nat 0) with 0. assert (total_size vs <> al) by (intros Q; apply M; rewrite Q; exact I1). lia. }
  exists b'. split; [exact E|]. exact E'.
Qed.

(** ** Filters *)
Fixpoint fenc (f : filter) : list Z :=
  match f with
  | FNull => []
  | FRel op v => enc (VUInt32 EXPRESSION_RELATION) ++ enc (VUInt32 op) ++ enc v
  | FLogic op l r => enc (VUInt32 EXPRESSION_LOGIC) ++ enc (VUInt32 op) ++ fenc l ++ fenc r
  end.

Lemma u32_enc n : in_u 32 n = true -> encodable (VUInt32 n) = true.
Proof. intros H. unfold encodable. cbn [scalar_wf value_size]. rewrite H. reflexivity. Qed.

Lemma fenc_length f : filter_ok f = true -> Z.of_nat (length (fenc f)) = filter_size f /\ 0 <= filter_size f.
Proof.
  induction f as [|op v|op l IHl r IHr]; cbn [filter_ok fenc filter_size]; intros H; [discriminate| |].
  - apply andb_true_iff in H as [Ho Hv]. rewrite !app_length, !Nat2Z.inj_add, !enc_length by (auto using u32_enc).
    pose proof (value_size_range v Hv). cbn [value_size] in *. lia.
  - apply andb_true_iff in H as [H Hr]. apply andb_true_iff in H as [Ho Hl]. destruct (IHl Hl), (IHr Hr).
    rewrite !app_length, !Nat2Z.inj_add, !enc_length by (auto using u32_enc). cbn [value_size]. lia.
Qed.

Lemma filter_encode_spec f : forall b, filter_ok f = true -> binv b ->
  exists b', filter_encode f b = Ok b' /\ binv b' /\ b_data b' = b_data b ++ fenc f /\ b_read b' = b_read b.
Proof.
  induction f as [|op v|op l IHl r IHr]; cbn [filter_ok fenc filter_encode]; intros b H I; [discriminate| |].
  - apply andb_true_iff in H as [Ho Hv]. cbv zeta.
    destruct (value_encode_spec (VUInt32 EXPRESSION_RELATION) b eq_refl I) as (b1 & E1 & I1 & D1 & R1 & _).
    cbn [value_encode] in E1. injection E1 as E1. rewrite E1.
    destruct (value_encode_spec (VUInt32 op) b1 (u32_enc op Ho) I1) as (b2 & E2 & I2 & D2 & R2 & _).
    cbn [value_encode] in E2. injection E2 as E2. rewrite E2.
    destruct (value_encode_spec v b2 Hv I2) as (b3 & E3 & I3 & D3 & R3 & _).
    exists b3. split; [exact E3|]. split; [exact I3|]. split; [|congruence]. rewrite D3, D2, D1, <- !app_assoc. reflexivity.
  - apply andb_true_iff in H as [H Hr]. apply andb_true_iff in H as [Ho Hl]. cbv zeta.
    destruct (value_encode_spec (VUInt32 EXPRESSION_LOGIC) b eq_refl I) as (b1 & E1 & I1 & D1 & R1 & _).
    cbn [value_encode] in E1. injection E1 as E1. rewrite E1.
    destruct (value_encode_spec (VUInt32 op) b1 (u32_enc op Ho) I1) as (b2 & E2 & I2 & D2 & R2 & _).
    cbn [value_encode] in E2. injection E2 as E2. rewrite E2.
    destruct (IHl b2 Hl I2) as (b3 & E3 & I3 & D3 & R3). rewrite E3. cbn [obind].
    destruct (IHr b3 Hr I3) as (b4 & E4 & I4 & D4 & R4).
    exists b4. split; [exact E4|]. split; [exact I4|]. split; [|congruence]. rewrite D4, D3, D2, D1, <- !app_assoc. reflexivity.
Qed.

Lemma read_uint32_tlv_spec al pre n post : in_u 32 n = true -> Z.of_nat (length pre) + 8 < al ->
  read_uint32_tlv (mkB al (pre ++ enc (VUInt32 n) ++ post) (Z.of_nat (length pre))) =
  Ok (n, mkB al (pre ++ enc (VUInt32 n) ++ post) (Z.of_nat (length (pre ++ enc (VUInt32 n))))).
Proof.
  intros Hn H. apply in_u_range in Hn. unfold read_uint32_tlv, enc.
  change (vtype (VUInt32 n)) with RBUS_UINT32. change (value_size (VUInt32 n) - 4) with 4. change (payload (VUInt32 n)) with (le32 n).
  rewrite <- !app_assoc.
  rewrite (read_u_app al pre (le16 RBUS_UINT32) _ RBUS_UINT32) by (try reflexivity; cbn [length le16]; lia). cbn [obind].
  rewrite (app_assoc pre).
  rewrite (read_u_app al (pre ++ le16 RBUS_UINT32) (le16 4) _ 4) by (try reflexivity; rewrite ?app_length; cbn [length le16]; lia). cbn [obind].
  change ((RBUS_UINT32 =? RBUS_UINT32) && (4 =? 4))%bool with true. cbv iota.
  rewrite (app_assoc (pre ++ _)).
  rewrite (read_u_app al _ (le32 n) post n) by (try reflexivity; try (rewrite ?app_length; cbn [length le16]; lia); apply le_val_le32; exact Hn).
  rewrite <- !app_assoc. reflexivity.
Qed.

Lemma filter_decode_spec f : forall fuel al pre post, filter_ok f = true -> (filter_depth f <= fuel)%nat ->
  Z.of_nat (length pre) + filter_size f < al ->
  filter_decode fuel (mkB al (pre ++ fenc f ++ post) (Z.of_nat (length pre))) =
  Ok (f, mkB al (pre ++ fenc f ++ post) (Z.of_nat (length (pre ++ fenc f)))).
Proof.
  induction f as [|op v|op l IHl r IHr]; cbn [filter_ok fenc filter_depth filter_size]; intros fuel al pre post H Hd Hs; [discriminate| |].
  - destruct fuel as [|fuel]; [lia|]. apply andb_true_iff in H as [Ho Hv]. pose proof (value_size_range v Hv).
    cbn [filter_decode]. rewrite <- !app_assoc. rewrite read_uint32_tlv_spec by (try reflexivity; lia). cbn [obind].
    change (EXPRESSION_RELATION =? EXPRESSION_RELATION) with true. cbv iota.
    rewrite (app_assoc pre).
    rewrite read_uint32_tlv_spec; [|exact Ho|rewrite app_length, Nat2Z.inj_add, enc_length by reflexivity; cbn [value_size]; lia]. cbn [obind].
    rewrite (app_assoc (pre ++ enc (VUInt32 EXPRESSION_RELATION))).
    rewrite value_decode_spec; [|exact Hv| |].
    + cbn [obind]. rewrite <- !app_assoc. reflexivity.
    + rewrite !app_length, !Nat2Z.inj_add, !enc_length by (auto using u32_enc). cbn [value_size]. lia.
    + rewrite !app_length, !Nat2Z.inj_add, !enc_length by (auto using u32_enc). cbn [value_size]. destruct (is_blob v); lia.
  - destruct fuel as [|fuel]; [lia|]. apply andb_true_iff in H as [H Hr]. apply andb_true_iff in H as [Ho Hl].
    destruct (fenc_length l Hl) as [Ll Pl]. destruct (fenc_length r Hr) as [Lr Pr].
    cbn [filter_decode]. rewrite <- !app_assoc. rewrite read_uint32_tlv_spec by (try reflexivity; lia). cbn [obind].
    change (EXPRESSION_LOGIC =? EXPRESSION_RELATION) with false. change (EXPRESSION_LOGIC =? EXPRESSION_LOGIC) with true. cbv iota.
    rewrite (app_assoc pre).
    rewrite read_uint32_tlv_spec; [|exact Ho|rewrite app_length, Nat2Z.inj_add, enc_length by reflexivity; cbn [value_size]; lia]. cbn [obind].
    rewrite (app_assoc (pre ++ enc (VUInt32 EXPRESSION_LOGIC))).
    assert (L2 : Z.of_nat (length ((pre ++ enc (VUInt32 EXPRESSION_LOGIC)) ++ enc (VUInt32 op))) = Z.of_nat (length pre) + 16)
      by (rewrite !app_length, !Nat2Z.inj_add, !enc_length by (auto using u32_enc); cbn [value_size]; lia).
    rewrite IHl; [|exact Hl|lia|rewrite L2; lia]. cbn [obind].
    rewrite (app_assoc (_ ++ enc (VUInt32 op))).
    rewrite IHr; [|exact Hr|lia|rewrite app_length, Nat2Z.inj_add, L2, Ll; lia]. cbn [obind].
    rewrite <- !app_assoc. reflexivity.
Qed.

Lemma filter_roundtrip f : filter_ok f = true -> filter_size f mod 64 <> 0 ->
  exists b b', filter_encode f buffer_create = Ok b /\
    (forall fuel, (filter_depth f <= fuel)%nat -> filter_decode fuel b = Ok (f, b')) /\ b_read b' = b_write_pos b.
Proof.
  intros H M. destruct (filter_encode_spec f buffer_create H binv_create) as (b & E & (I1 & I2 & I3) & D & R).
  destruct (fenc_length f H) as [L P]. unfold b_write_pos in *.
  destruct b as [al dt rd]. cbn [b_data b_read b_alloc buffer_create app] in *. subst dt rd.
  eexists _, _. split; [exact E|]. split.
  - intros fuel Hf. pose proof (filter_decode_spec f fuel al [] [] H Hf) as G. rewrite app_nil_r in G. cbn [app length] in G.
    apply G. change (Z.of_nat 0) with 0. assert (filter_size f <> al) by (intros Q; apply M; rewrite Q; exact I1). lia.
  - reflexivity.
Qed.

(** ** The buffer as a byte queue *)
Definition brel (b : buffer) (q : list Z) : Prop :=
  binv b /\ 0 <= b_read b /\ b_read b <= b_write_pos b /\ q = skipn (Z.to_nat (b_read b)) (b_data b).

Lemma buffer_read_queue b q n : brel b q -> 0 <= n <= Z.of_nat (length q) -> b_read b + n < b_alloc b ->
  exists b', buffer_read b n = Ok (firstn (Z.to_nat n) q, b') /\ brel b' (skipn (Z.to_nat n) q) /\
    b_data b' = b_data b /\ b_read b' = b_read b + n.
Proof.
  intros (I & R0 & R1 & ->) Hn Ha. unfold buffer_read. assert ((b_read b + n <? b_alloc b) = true) as -> by lia. cbn [negb].
  unfold get_bytes. rewrite skipn_length in Hn. unfold b_write_pos in *.
  assert ((Z.to_nat n <=? length (skipn (Z.to_nat (b_read b)) (b_data b)))%nat = true) as -> by (rewrite skipn_length; lia).
  eexists. split; [reflexivity|]. split; [|cbn [b_data b_read]; auto].
  split; [|split; [|split]].
  - unfold binv in *. cbn [b_alloc b_data]. exact I.
  - cbn [b_read]. lia.
  - unfold b_write_pos. cbn [b_data b_read]. lia.
  - cbn [b_data b_read]. rewrite Z2Nat.inj_add by lia. clear.
    generalize (Z.to_nat (b_read b)) as a, (Z.to_nat n) as m, (b_data b) as l. induction a as [|a IH]; intros m l; [reflexivity|].
    destruct l; cbn [skipn Nat.add]; [destruct m; reflexivity|apply IH].
Qed.

Lemma buffer_write_queue b q d : brel b q -> brel (buffer_write b d) (q ++ d).
Proof.
  intros (I & R0 & R1 & ->). destruct (write_spec b d I) as (I' & D & R & A). unfold brel, b_write_pos in *.
  rewrite D, R, app_length. split; [exact I'|]. split; [exact R0|]. split; [lia|].
  rewrite skipn_app. replace (Z.to_nat (b_read b) - length (b_data b))%nat with 0%nat by lia. reflexivity.
Qed.

Lemma queue_agrees : forall ops b q, brel b q -> no_overread (Z.of_nat (length q)) ops = true ->
  read_ends_ok (b_read b) ops = true ->
  buffer_run b ops = Ok (queue_run q ops).
Proof.
  induction ops as [|[d|n] ops IH]; intros b q B No Re; [reflexivity| |].
  - cbn [no_overread read_ends_ok buffer_run buffer_step queue_run queue_step obind] in *.
    assert (R : b_read (buffer_write b d) = b_read b) by (destruct B as (I & _); apply (write_spec b d I)).
    rewrite (IH (buffer_write b d) (q ++ d)); [reflexivity|apply buffer_write_queue; auto| |rewrite R; auto].
    rewrite app_length, Nat2Z.inj_add. exact No.
  - cbn [no_overread read_ends_ok buffer_run buffer_step queue_run queue_step] in *.
    apply andb_true_iff in No as [No1 No]. apply andb_true_iff in Re as [Re1 Re].
    assert (Hn : 0 <= n <= Z.of_nat (length q)) by lia.
    assert (Ha : b_read b + n < b_alloc b).
    { destruct B as ((M & A & P) & R0 & R1 & Q). assert (Z.of_nat (length q) = b_write_pos b - b_read b).
      { rewrite Q, skipn_length. unfold b_write_pos in *. lia. }
      assert ((b_read b + n) mod 64 <> 0) by lia. assert (b_read b + n <> b_alloc b) by (intros Q2; rewrite Q2 in *; contradiction). lia. }
    assert (Lq : Z.of_nat (length (skipn (Z.to_nat n) q)) = Z.of_nat (length q) - n) by (rewrite skipn_length; lia).
    destruct (buffer_read_queue b q n B Hn Ha) as (b' & E & B' & D & A'). rewrite E. cbn [obind].
    assert ((n <=? Z.of_nat (length q)) = true) as -> by lia.
    rewrite (IH b' (skipn (Z.to_nat n) q)); auto.
    + rewrite Lq. exact No.
    + rewrite A'. exact Re.
Qed.

Lemma queue_agrees0 ops : no_overread 0 ops = true -> read_ends_ok 0 ops = true ->
  buffer_run buffer_create ops = Ok (queue_run [] ops).
Proof.
  intros. apply queue_agrees; auto. split; [apply binv_create|]. vm_compute. repeat split; congruence.
Qed.

(** ** Counterexamples *)
Lemma exact_fill_refuted : exists vs b, forallb encodable vs = true /\
  encode_all vs buffer_create = Ok b /\ decode_all (length vs) b = Err tt.
Proof. exists (repeat (VUInt32 7) 8). eexists. split; [reflexivity|]. split; [vm_compute; reflexivity|]. vm_compute. reflexivity. Qed.

Lemma long_bytes_refuted s : Z.of_nat (length s) = 65536 -> bytes_ok s = true ->
  exists b b', value_encode (VBytes (Some s)) buffer_create = Ok b /\ value_decode b = Ok (VBytes (Some []), b').
Proof.
  intros L B. cbn [value_encode]. rewrite L. eexists _, _. split; [reflexivity|].
  unfold write_tlv. change (Z.to_nat (65536 mod 65536)) with 0%nat. rewrite firstn_O. vm_compute. reflexivity.
Qed.

Lemma filter_exact_fill : exists b,
  filter_encode (FLogic OP_AND (FRel OP_GREATER_THAN (VUInt32 10)) (FRel OP_LESS_THAN (VUInt32 20))) buffer_create = Ok b /\
  forall fuel, (2 <= fuel)%nat -> filter_decode fuel b = Err tt.
Proof. eexists. split; [vm_compute; reflexivity|]. intros [|[|fuel]] H; [lia|lia|]. vm_compute. reflexivity. Qed.

Lemma filter_not_lost op v : encodable v = true -> in_u 32 op = true ->
  exists b, filter_encode (FLogic OP_NOT (FRel op v) FNull) buffer_create = Ok b /\
  forall fuel r, filter_decode fuel b <> Ok r.
Proof.
  intros Hv Ho. set (lg := VUInt32 EXPRESSION_LOGIC). set (no := VUInt32 OP_NOT). set (re := VUInt32 EXPRESSION_RELATION).
  destruct (value_encode_spec lg buffer_create eq_refl binv_create) as (b1 & E1 & I1 & D1 & R1 & A1).
  destruct (value_encode_spec no b1 eq_refl I1) as (b2 & E2 & I2 & D2 & R2 & A2).
  assert (Hf : filter_ok (FRel op v) = true) by (cbn [filter_ok]; rewrite Ho, Hv; reflexivity).
  destruct (filter_encode_spec (FRel op v) b2 Hf I2) as (b3 & E3 & I3 & D3 & R3).
  exists b3. split.
  { cbn [filter_encode]. cbn [value_encode lg no] in E1, E2. injection E1 as E1. injection E2 as E2.
    cbn [filter_encode] in E3. cbv zeta. rewrite E1, E2. cbv zeta in E3. rewrite E3. reflexivity. }
  intros fuel r. destruct b3 as [al dt rd]. cbn [b_data b_read] in *. rewrite D2, D1 in D3. cbn [buffer_create b_data b_read app] in *.
  assert (Hrd : rd = 0) by congruence. rewrite Hrd. clear Hrd R3 R2 R1. subst dt. destruct I3 as (M & A64 & P). unfold b_write_pos in P. cbn [b_alloc b_data] in *.
  pose proof (value_size_range v Hv). destruct (fenc_length _ Hf) as [Lf Pf]. cbn [filter_size] in *.
  assert (LN : length (enc lg) = 8%nat /\ length (enc no) = 8%nat) by (split; reflexivity). destruct LN as [LN1 LN2].
  rewrite !app_length, LN1, LN2, !Nat2Z.inj_add, Lf in P.
  destruct fuel as [|fuel]; [discriminate|]. cbn [filter_decode].
  assert (R1' : read_uint32_tlv (mkB al ((enc lg ++ enc no) ++ fenc (FRel op v)) 0) = Ok (EXPRESSION_LOGIC, mkB al ((enc lg ++ enc no) ++ fenc (FRel op v)) 8)).
  { pose proof (read_uint32_tlv_spec al [] EXPRESSION_LOGIC (enc no ++ fenc (FRel op v)) eq_refl) as G. cbn [app length] in G.
    rewrite <- app_assoc. apply G. change (Z.of_nat 0) with 0. lia. }
  rewrite R1'. cbn [obind]. change (EXPRESSION_LOGIC =? EXPRESSION_RELATION) with false. change (EXPRESSION_LOGIC =? EXPRESSION_LOGIC) with true. cbv iota.
  assert (R2' : read_uint32_tlv (mkB al ((enc lg ++ enc no) ++ fenc (FRel op v)) 8) = Ok (OP_NOT, mkB al ((enc lg ++ enc no) ++ fenc (FRel op v)) 16)).
  { pose proof (read_uint32_tlv_spec al (enc lg) OP_NOT (fenc (FRel op v)) eq_refl) as G. rewrite app_length, LN1 in G.
    rewrite <- app_assoc. apply G. change (Z.of_nat 8) with 8. lia. }
  rewrite R2'. cbn [obind].
  (* the left operand decodes, or fails; the right one finds nothing written *)
  destruct (filter_decode fuel (mkB al ((enc lg ++ enc no) ++ fenc (FRel op v)) 16)) as [[l bl]|e|] eqn:El; cbn [obind]; try discriminate.
  assert (bl = mkB al ((enc lg ++ enc no) ++ fenc (FRel op v)) (Z.of_nat (length ((enc lg ++ enc no) ++ fenc (FRel op v))))).
  { destruct fuel as [|fuel]; [discriminate|]. cbn [filter_decode fenc] in El.
    assert (L16 : length (enc lg ++ enc no) = 16%nat) by reflexivity.
    change 16 with (Z.of_nat 16) in El. rewrite <- L16 in El.
    rewrite (read_uint32_tlv_spec al (enc lg ++ enc no) EXPRESSION_RELATION) in El by (try reflexivity; rewrite L16; lia). cbn [obind] in El.
    change (EXPRESSION_RELATION =? EXPRESSION_RELATION) with true in El. cbv iota in El.
    rewrite (app_assoc (enc lg ++ enc no)) in El.
    rewrite read_uint32_tlv_spec in El; [|exact Ho|].
    2: { rewrite app_length, L16. change (length (enc (VUInt32 EXPRESSION_RELATION))) with 8%nat. lia. }
    cbn [obind] in El. rewrite (app_assoc (_ ++ enc (VUInt32 EXPRESSION_RELATION))) in El.
    rewrite <- (app_nil_r (enc v)) in El. 
    assert (Lpre : Z.of_nat (length (((enc lg ++ enc no) ++ enc (VUInt32 EXPRESSION_RELATION)) ++ enc (VUInt32 op))) = 32).
    { rewrite app_length, (app_length (enc lg ++ enc no)), L16. change (length (enc (VUInt32 EXPRESSION_RELATION))) with 8%nat. rewrite !Nat2Z.inj_add, enc_length by (apply u32_enc; exact Ho). reflexivity. }
    destruct (value_decode _) as [[v' bv]|e|] eqn:Ev; cbn [obind] in El; try discriminate.
    assert (Hv2 : value_decode (mkB al ((((enc lg ++ enc no) ++ enc (VUInt32 EXPRESSION_RELATION)) ++ enc (VUInt32 op)) ++ enc v ++ []) (Z.of_nat (length (((enc lg ++ enc no) ++ enc (VUInt32 EXPRESSION_RELATION)) ++ enc (VUInt32 op))))) =
       Ok (v, mkB al ((((enc lg ++ enc no) ++ enc (VUInt32 EXPRESSION_RELATION)) ++ enc (VUInt32 op)) ++ enc v ++ []) (Z.of_nat (length ((((enc lg ++ enc no) ++ enc (VUInt32 EXPRESSION_RELATION)) ++ enc (VUInt32 op)) ++ enc v))))).
    { destruct (Z_lt_dec (32 + value_size v) al) as [Hlt|Hge].
      - apply value_decode_spec; auto; rewrite Lpre; [lia|]. destruct (is_blob v); lia.
      - destruct (is_blob v) eqn:Bl.
        + apply value_decode_spec; [exact Hv|rewrite Lpre; lia|rewrite Bl, Lpre; lia].
        + exfalso. destruct v as [| | | | | | | | | | | | | | |[s|]|[s|]| | |]; try discriminate; cbn [value_size] in *; lia. }
    rewrite Hv2 in Ev. apply ok_pair in Ev as [<- <-]. apply ok_pair in El as [_ <-]. rewrite app_nil_r, <- !app_assoc. reflexivity. }
  subst bl. destruct fuel as [|fuel]; [discriminate|]. cbn [filter_decode]. unfold read_uint32_tlv, read_u, buffer_read.
  cbn [b_read b_alloc b_data]. rewrite Nat2Z.id, skipn_all.
  destruct (negb _); cbn [obind]; discriminate.
Qed.

Lemma read_past_end : buffer_run buffer_create [BWrite [1]; BRead 2] = UB.
Proof. reflexivity. Qed.
Lemma read_exact_fails d : Z.of_nat (length d) = 64 -> buffer_run buffer_create [BWrite d; BRead 64] = Ok [RWrote; RFailed] /\
  queue_run [] [BWrite d; BRead 64] = [RWrote; RGot d].
Proof.
  intros L. split.
  - cbn [buffer_run buffer_step]. unfold buffer_write, buffer_reserve, b_write_pos. cbn [buffer_create b_data b_alloc b_read length app]. rewrite L.
    cbn. reflexivity.
  - cbn [queue_run queue_step app]. rewrite L. change (64 <=? 64) with true. cbv iota. rewrite firstn_all2; [reflexivity|].
    change 64%nat with (Z.to_nat 64). rewrite <- L, Nat2Z.id. apply le_n.
Qed.
