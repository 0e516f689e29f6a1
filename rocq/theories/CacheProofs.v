(** Proofs about the subscription file. *)
From Coq Require Import Lia ZifyBool.
From Verif Require Import Common CommonFacts Bytes BytesFacts Value BufferModel BufferSpec BufferProofs SubsModel CacheModel CacheSpec.
Local Open Scope Z_scope.

(** ** writing *)
Definition renc (r : record) : list Z :=
  let '(k, auto, id) := r in
  enc (VString (Some (k_listener k))) ++ enc (VString (Some (k_event k))) ++ enc (VInt32 (k_comp k)) ++ enc (VInt32 (k_interval k)) ++ enc (VInt32 (k_duration k)) ++
  enc (VInt32 (flag auto)) ++ enc (VInt32 (to_signed 32 id)) ++ enc (VInt32 (flag (k_raw k))) ++
  match k_filter k with FNull => enc (VInt32 0) | f => enc (VInt32 1) ++ fenc f end.
Lemma int_enc : forall n, in_s 32 n = true -> encodable (VInt32 n) = true.
Proof. intros n H. unfold encodable. cbn [scalar_wf value_size]. rewrite H. reflexivity. Qed.
Lemma flag_ok : forall b, in_s 32 (flag b) = true.
Proof. destruct b; reflexivity. Qed.
Lemma id_ok : forall n, in_u 32 n = true -> in_s 32 (to_signed 32 n) = true /\ to_unsigned 32 (to_signed 32 n) = n.
Proof.
  intros n H. apply in_u_range in H. unfold in_s, to_signed, to_unsigned. change (2 ^ (32 - 1)) with 2147483648 in *. change (2 ^ 32) with 4294967296 in *.
  destruct (n <? 2147483648) eqn:E; split; lia.
Qed.
Lemma name_enc : forall s, short_name s = true -> encodable (VString (Some s)) = true /\ (length s <= 254)%nat /\ s <> [].
Proof.
  intros s H. unfold short_name in H. apply andb_prop in H as [H L]. apply andb_prop in H as [C N]. apply Nat.leb_le in L. split; [|split; [exact L|]].
  - unfold encodable. cbn [scalar_wf value_size]. rewrite C. cbn [andb]. lia.
  - intros ->. discriminate.
Qed.
Lemma write_string_spec : forall b s, encodable (VString (Some s)) = true -> binv b ->
  binv (write_string b s) /\ b_data (write_string b s) = b_data b ++ enc (VString (Some s)).
Proof.
  intros b s E I. destruct (value_encode_spec _ b E I) as (b' & V & I' & D & _). cbn [value_encode] in V. injection V as V. unfold write_string. rewrite V. auto.
Qed.
Lemma write_int_spec : forall b n, in_s 32 n = true -> binv b -> binv (write_int b n) /\ b_data (write_int b n) = b_data b ++ enc (VInt32 n).
Proof.
  intros b n E I. destruct (value_encode_spec _ b (int_enc n E) I) as (b' & V & I' & D & _). cbn [value_encode] in V. injection V as V. unfold write_int. rewrite V. auto.
Qed.
Lemma record_split : forall k a id, record_ok (k, a, id) = true ->
  short_name (k_listener k) = true /\ short_name (k_event k) = true /\ in_s 32 (k_comp k) = true /\ in_s 32 (k_interval k) = true /\ in_s 32 (k_duration k) = true /\
  in_u 32 id = true /\ match k_filter k with FNull => true | f => filter_ok f end = true.
Proof. intros k a id H. unfold record_ok in H. do 6 (apply andb_prop in H as [H ?]). repeat split; assumption. Qed.
Lemma write_record_spec : forall r b, record_ok r = true -> binv b -> exists b', write_record b r = Ok b' /\ binv b' /\ b_data b' = b_data b ++ renc r.
Proof.
  intros [[k a] id] b H I. apply record_split in H as (H1 & H2 & H3 & H4 & H5 & H6 & H7). unfold write_record, renc. cbv zeta.
  destruct (write_string_spec b _ (proj1 (name_enc _ H1)) I) as [I1 D1]. revert I1 D1. generalize (write_string b (k_listener k)). intros b1 I1 D1.
  destruct (write_string_spec b1 _ (proj1 (name_enc _ H2)) I1) as [I2 D2]. revert I2 D2. generalize (write_string b1 (k_event k)). intros b2 I2 D2.
  destruct (write_int_spec b2 _ H3 I2) as [I3 D3]. revert I3 D3. generalize (write_int b2 (k_comp k)). intros b3 I3 D3.
  destruct (write_int_spec b3 _ H4 I3) as [I4 D4]. revert I4 D4. generalize (write_int b3 (k_interval k)). intros b4 I4 D4.
  destruct (write_int_spec b4 _ H5 I4) as [I5 D5]. revert I5 D5. generalize (write_int b4 (k_duration k)). intros b5 I5 D5.
  destruct (write_int_spec b5 _ (flag_ok a) I5) as [I6 D6]. revert I6 D6. generalize (write_int b5 (flag a)). intros b6 I6 D6.
  destruct (write_int_spec b6 _ (proj1 (id_ok _ H6)) I6) as [I7 D7]. revert I7 D7. generalize (write_int b6 (to_signed 32 id)). intros b7 I7 D7.
  destruct (write_int_spec b7 _ (flag_ok (k_raw k)) I7) as [I8 D8]. revert I8 D8. generalize (write_int b7 (flag (k_raw k))). intros b8 I8 D8.
  destruct (k_filter k) as [|op v|op l r] eqn:F.
  - destruct (write_int_spec b8 0 eq_refl I8) as [I9 D9]. eexists. split; [reflexivity|]. split; [exact I9|]. rewrite D9, D8, D7, D6, D5, D4, D3, D2, D1, <- !app_assoc. reflexivity.
  - destruct (write_int_spec b8 1 eq_refl I8) as [I9 D9]. destruct (filter_encode_spec _ (write_int b8 1) H7 I9) as (b' & E & I' & D & _). exists b'. split; [exact E|]. split; [exact I'|].
    rewrite D, D9, D8, D7, D6, D5, D4, D3, D2, D1, <- !app_assoc. reflexivity.
  - destruct (write_int_spec b8 1 eq_refl I8) as [I9 D9]. destruct (filter_encode_spec _ (write_int b8 1) H7 I9) as (b' & E & I' & D & _). exists b'. split; [exact E|]. split; [exact I'|].
    rewrite D, D9, D8, D7, D6, D5, D4, D3, D2, D1, <- !app_assoc. reflexivity.
Qed.
Lemma write_records_spec : forall l b, forallb record_ok l = true -> binv b -> exists b', write_records b l = Ok b' /\ binv b' /\ b_data b' = b_data b ++ flat_map renc l.
Proof.
  induction l as [|r l IH]; intros b H I; cbn [write_records flat_map]; [exists b; rewrite app_nil_r; auto|].
  cbn in H. apply andb_prop in H as [H1 H2]. destruct (write_record_spec r b H1 I) as (b1 & E1 & I1 & D1). rewrite E1. cbn [obind].
  destruct (IH b1 H2 I1) as (b2 & E2 & I2 & D2). exists b2. split; [exact E2|]. split; [exact I2|]. rewrite D2, D1, <- app_assoc. reflexivity.
Qed.
Lemma save_spec : forall l, forallb record_ok l = true -> save_cache l = Ok (match l with [] => None | _ => Some (flat_map renc l) end).
Proof.
  intros l H. unfold save_cache. destruct l as [|r l]; [reflexivity|]. destruct (write_records_spec (r :: l) buffer_create H binv_create) as (b & E & _ & D). rewrite E. cbn [obind]. rewrite D. reflexivity.
Qed.

(** ** reading it back *)
Lemma read_name_spec : forall s al pre post, short_name s = true -> Z.of_nat (length pre) + 4 < al ->
  read_name (mkB al (pre ++ enc (VString (Some s)) ++ post) (Z.of_nat (length pre))) = Ok (s, mkB al (pre ++ enc (VString (Some s)) ++ post) (Z.of_nat (length (pre ++ enc (VString (Some s)))))).
Proof.
  intros s al pre post H H4. destruct (name_enc s H) as (E & L & _). pose proof (payload_length _ E) as PL. pose proof (value_size_range _ E) as R. unfold read_name, enc. rewrite <- !app_assoc.
  rewrite (read_u_app al pre (le16 (vtype (VString (Some s)))) _ RBUS_STRING) by (try reflexivity; cbn [length le16]; lia). cbn [obind].
  rewrite (app_assoc pre). set (pre1 := pre ++ le16 (vtype (VString (Some s)))).
  assert (Lp1 : Z.of_nat (length pre1) = Z.of_nat (length pre) + 2) by (unfold pre1; rewrite app_length; cbn [length le16]; lia).
  cbn [value_size]. replace (4 + (Z.of_nat (length s) + 1) - 4) with (Z.of_nat (length s) + 1) by lia.
  rewrite (read_u_app al pre1 (le16 (Z.of_nat (length s) + 1)) _ (Z.of_nat (length s) + 1)) by (try reflexivity; try (cbn [length le16]; lia); apply le_val_le16; lia). cbn [obind].
  rewrite Z.eqb_refl. cbn [negb orb]. assert ((256 <=? Z.of_nat (length s) + 1) = false) as -> by lia.
  rewrite (app_assoc pre1). set (pre2 := pre1 ++ le16 (Z.of_nat (length s) + 1)). cbn [b_read b_data b_alloc payload].
  rewrite Nat2Z.id, skipn_app, skipn_all, Nat.sub_diag. cbn [skipn app].
  replace (Z.to_nat (Z.of_nat (length s) + 1)) with (length (s ++ [0])) by (rewrite app_length; cbn [length]; lia). rewrite get_bytes_app.
  unfold short_name in H. apply andb_prop in H as [H _]. apply andb_prop in H as [H _]. rewrite c_str_app by exact H. do 3 f_equal. unfold pre2, pre1. rewrite !app_length. cbn [length le16]. lia.
Qed.
Lemma read_int_spec : forall n al pre post, in_s 32 n = true -> Z.of_nat (length pre) + 8 < al ->
  read_int (mkB al (pre ++ enc (VInt32 n) ++ post) (Z.of_nat (length pre))) = Ok (n, mkB al (pre ++ enc (VInt32 n) ++ post) (Z.of_nat (length (pre ++ enc (VInt32 n))))).
Proof.
  intros n al pre post Hn H. apply signed_le in Hn as [Wr We]; [|cbn; tauto]. unfold read_int, enc.
  change (vtype (VInt32 n)) with RBUS_INT32. change (value_size (VInt32 n) - 4) with 4. change (payload (VInt32 n)) with (le32 (to_unsigned 32 n)).
  rewrite <- !app_assoc.
  rewrite (read_u_app al pre (le16 RBUS_INT32) _ RBUS_INT32) by (try reflexivity; cbn [length le16]; lia). cbn [obind].
  rewrite (app_assoc pre).
  rewrite (read_u_app al (pre ++ le16 RBUS_INT32) (le16 4) _ 4) by (try reflexivity; rewrite ?app_length; cbn [length le16]; lia). cbn [obind].
  change (negb (RBUS_INT32 =? RBUS_INT32) && negb (4 =? 4))%bool with false. cbv iota.
  rewrite (app_assoc (pre ++ _)).
  rewrite (read_s_app al _ (le32 (to_unsigned 32 n)) post n); [rewrite <- !app_assoc; reflexivity|reflexivity|rewrite ?app_length; cbn [length le16]; lia|].
  change (8 * 4) with 32. rewrite le_val_le32 by exact Wr. exact We.
Qed.
Lemma low_flag : forall b, low_byte (flag b) = b.
Proof. destruct b; reflexivity. Qed.
Lemma depth_size : forall f, filter_ok f = true -> (filter_depth f <= length (fenc f))%nat.
Proof.
  induction f as [|op v|op l IHl r IHr]; cbn [filter_ok fenc filter_depth]; intros H; [lia| |].
  - rewrite !app_length. cbn [enc length le16 app]. lia.
  - apply andb_true_iff in H as [H Hr]. apply andb_true_iff in H as [Ho Hl]. specialize (IHl Hl). specialize (IHr Hr). rewrite !app_length. unfold enc at 1. cbn [length le16 app]. lia.
Qed.
Lemma int_len : forall n, length (enc (VInt32 n)) = 8%nat.
Proof. reflexivity. Qed.

Lemma str_len : forall s, length (enc (VString (Some s))) = (length s + 5)%nat.
Proof. intros s. unfold enc. rewrite !app_length. cbn [length le16 payload]. rewrite app_length. cbn [length]. lia. Qed.
Lemma renc_long : forall r, (66 <= length (renc r))%nat.
Proof.
  intros [[k a] id]. unfold renc. rewrite !app_length, !int_len, !str_len.
  destruct (k_filter k); rewrite ?app_length, ?int_len; lia.
Qed.
(** the reading functions one after the other *)
Lemma read_record_spec : forall r al pre post, record_ok r = true -> Z.of_nat (length pre) + Z.of_nat (length (renc r)) < al ->
  read_record (mkB al (pre ++ renc r ++ post) (Z.of_nat (length pre))) = Ok (r, mkB al (pre ++ renc r ++ post) (Z.of_nat (length (pre ++ renc r)))).
Proof.
  intros [[k a] id] al pre post H L. apply record_split in H as (H1 & H2 & H3 & H4 & H5 & H6 & H7). unfold read_record.
  remember (renc (k, a, id)) as R eqn:ER. unfold renc in ER.
  remember (enc (VString (Some (k_listener k)))) as x1 eqn:X1. remember (enc (VString (Some (k_event k)))) as x2 eqn:X2.
  remember (match k_filter k with FNull => enc (VInt32 0) | f => enc (VInt32 1) ++ fenc f end) as x9 eqn:X9.
  assert (LR : length R = (length x1 + length x2 + 48 + length x9)%nat) by (rewrite ER, !app_length, !int_len; lia).
  assert (L9 : (8 <= length x9)%nat) by (rewrite X9; destruct (k_filter k); rewrite ?app_length, ?int_len; lia).
  assert (L1 : (5 <= length x1)%nat) by (rewrite X1; unfold enc; rewrite !app_length; cbn [length le16 payload]; rewrite app_length; cbn [length]; lia).
  assert (L2 : (5 <= length x2)%nat) by (rewrite X2; unfold enc; rewrite !app_length; cbn [length le16 payload]; rewrite app_length; cbn [length]; lia).
  rewrite ER at 1. rewrite <- !app_assoc. rewrite X1 at 1. rewrite read_name_spec by (auto; lia). rewrite <- X1. cbn [obind].
  rewrite (app_assoc pre). rewrite X2 at 1. rewrite read_name_spec by (auto; rewrite ?app_length; lia). rewrite <- X2. cbn [obind].
  do 6 (rewrite (app_assoc (_ ++ _)); rewrite read_int_spec; [|first [exact (flag_ok _)|exact (proj1 (id_ok _ H6))|assumption]|rewrite ?app_length, ?int_len; lia]; cbn [obind]).
  rewrite (app_assoc (_ ++ _)).
  match goal with |- context [read_int (mkB al (?p ++ x9 ++ post) _)] => remember p as p9 eqn:P9 end.
  assert (LP : (length p9 + length x9 = length pre + length R)%nat) by (rewrite P9, !app_length, !int_len; lia).
  assert (PR : p9 ++ x9 = pre ++ R) by (rewrite P9, ER, <- !app_assoc; reflexivity).
  rewrite !low_flag, (proj2 (id_ok _ H6)).
  assert (FIN : pre ++ R ++ post = p9 ++ x9 ++ post) by (rewrite !app_assoc, PR; reflexivity). rewrite FIN, <- PR.
  destruct (k_filter k) as [|op v|op l r] eqn:F.
  - rewrite X9. rewrite read_int_spec by (try reflexivity; rewrite X9, int_len in LP; lia). cbn [obind]. change (0 =? 0) with true. cbv iota. cbn [obind]. rewrite <- F. destruct k. reflexivity.
  - rewrite X9, <- !app_assoc. rewrite read_int_spec by (try reflexivity; rewrite X9, app_length, int_len in LP; lia). cbn [obind]. change (1 =? 0) with false. cbv iota.
    rewrite (app_assoc p9). rewrite filter_decode_spec; [|exact H7|etransitivity; [apply depth_size; exact H7|cbn [b_data]; rewrite !app_length; lia]|].
    + cbn [obind]. rewrite <- F, <- !app_assoc. destruct k. reflexivity.
    + rewrite <- (proj1 (fenc_length _ H7)), app_length, int_len. rewrite X9, app_length, int_len in LP. lia.
  - rewrite X9, <- !app_assoc. rewrite read_int_spec by (try reflexivity; rewrite X9, app_length, int_len in LP; lia). cbn [obind]. change (1 =? 0) with false. cbv iota.
    rewrite (app_assoc p9). rewrite filter_decode_spec; [|exact H7|etransitivity; [apply depth_size; exact H7|cbn [b_data]; rewrite !app_length; lia]|].
    + cbn [obind]. rewrite <- F, <- !app_assoc. destruct k. reflexivity.
    + rewrite <- (proj1 (fenc_length _ H7)), app_length, int_len. rewrite X9, app_length, int_len in LP. lia.
Qed.

(** ** reading a piece of it *)
Definition okb (b : buffer) : Prop := b_read b <= b_write_pos b.
(** what [f] reads from some bytes, [g] reads from any longer ones *)
Definition reads {A} (f g : buffer -> outcome unit (A * buffer)) : Prop := forall b r b', okb b -> f b = Ok (r, b') ->
  okb b' /\ b_data b' = b_data b /\ b_alloc b' = b_alloc b /\ forall al x, b_alloc b <= al -> g (mkB al (b_data b ++ x) (b_read b)) = Ok (r, mkB al (b_data b ++ x) (b_read b')).
Lemma reads_bind : forall {A B} (f g : buffer -> outcome unit (A * buffer)) (h k : A -> buffer -> outcome unit (B * buffer)), reads f g -> (forall a, reads (h a) (k a)) ->
  reads (fun b => do (a, b) <- f b ; h a b) (fun b => do (a, b) <- g b ; k a b).
Proof.
  intros A B f g h k F H b r b' O E. destruct (f b) as [[a b1]| |] eqn:E1; cbn [obind] in E; try discriminate. destruct (F _ _ _ O E1) as (O1 & D1 & A1 & X1).
  destruct (H a _ _ _ O1 E) as (O2 & D2 & A2 & X2). split; [exact O2|]. split; [congruence|]. split; [congruence|]. intros al x L. rewrite (X1 al x L). cbn [obind]. rewrite <- D1. apply X2. lia.
Qed.
Lemma reads_ret : forall {A} (a : A), reads (fun b => Ok (a, b)) (fun b => Ok (a, b)).
Proof. intros A a b r b' O E. injection E as <- <-. auto. Qed.
Lemma reads_err : forall {A} g, @reads A (fun b => Err tt) g.
Proof. intros A g b r b' O E. discriminate. Qed.
Lemma reads_ub : forall {A} g, @reads A (fun b => UB) g.
Proof. intros A g b r b' O E. discriminate. Qed.
Lemma skipn_more : forall (d x : list Z) n, (n <= length d)%nat -> skipn n (d ++ x) = skipn n d ++ x.
Proof. intros d x n H. rewrite skipn_app. replace (n - length d)%nat with 0%nat by lia. reflexivity. Qed.
Lemma get_more : forall n (d x y z : list Z), get_bytes n d = Some (y, z) -> get_bytes n (d ++ x) = Some (y, z ++ x) /\ (n <= length d)%nat.
Proof.
  intros n d x y z H. unfold get_bytes in *. destruct (n <=? length d)%nat eqn:E; [|discriminate]. apply Nat.leb_le in E. injection H as <- <-. rewrite app_length.
  assert ((n <=? length d + length x)%nat = true) as -> by (apply Nat.leb_le; lia). split; [|exact E]. rewrite firstn_app, skipn_app. replace (n - length d)%nat with 0%nat by lia. cbn [firstn skipn]. rewrite app_nil_r. reflexivity.
Qed.
Lemma reads_read : forall n, 0 <= n -> reads (fun b => buffer_read b n) (fun b => buffer_read b n).
Proof.
  intros n N b r b' O E. unfold okb, buffer_read, b_write_pos in *. destruct (b_read b + n <? b_alloc b) eqn:L; cbn [negb] in E; [|discriminate].
  destruct (get_bytes (Z.to_nat n) (skipn (Z.to_nat (b_read b)) (b_data b))) as [[y z]|] eqn:G; [|discriminate]. injection E as <- <-.
  assert (X : forall x, get_bytes (Z.to_nat n) (skipn (Z.to_nat (b_read b)) (b_data b) ++ x) = Some (y, z ++ x)) by (intros x; apply get_more; exact G).
  apply (get_more _ _ []) in G as [_ G]. rewrite skipn_length in G. cbn [b_read b_data b_alloc]. split; [lia|]. split; [reflexivity|]. split; [reflexivity|]. intros al x A.
  rewrite skipn_more by lia. assert ((b_read b + n <? al) = true) as -> by lia. cbn [negb]. rewrite X. reflexivity.
Qed.
Lemma reads_u : forall n, 0 <= n -> reads (fun b => read_u b n) (fun b => read_u b n).
Proof. intros n N. unfold read_u. apply reads_bind; [apply reads_read; exact N|]. intros a. apply reads_ret. Qed.
Lemma reads_s : forall n, 0 <= n -> reads (fun b => read_s b n) (fun b => read_s b n).
Proof. intros n N. unfold read_s. apply reads_bind; [apply reads_u; exact N|]. intros a. apply reads_ret. Qed.
Lemma reads_if : forall {A} (c : bool) (f g f' g' : buffer -> outcome unit (A * buffer)), reads f f' -> reads g g' -> reads (fun b => if c then f b else g b) (fun b => if c then f' b else g' b).
Proof. intros A [|] f g f' g' F G; assumption. Qed.
Lemma c_str_more : forall d x s, c_str d = Some s -> c_str (d ++ x) = Some s /\ (length s + 1 <= length d)%nat.
Proof.
  induction d as [|c d IH]; intros x s H; cbn [c_str app length] in *; [discriminate|]. destruct (c =? 0); [injection H as <-; split; [reflexivity|cbn; lia]|].
  destruct (c_str d) as [s'|]; [|discriminate]. injection H as <-. destruct (IH x s' eq_refl) as [E L]. rewrite E. split; [reflexivity|cbn [length]; lia].
Qed.
Lemma reads_name : reads read_name read_name.
Proof.
  unfold read_name. apply reads_bind; [apply reads_u; lia|]. intros ty. intros b r b' O E. destruct (read_u b 2) as [[len b1]| |] eqn:E1; cbn [obind] in E; try discriminate.
  destruct (reads_u 2 ltac:(lia) _ _ _ O E1) as (O1 & D1 & A1 & X1). destruct (negb (ty =? RBUS_STRING) || (256 <=? len)) eqn:C; [discriminate|].
  destruct (get_bytes (Z.to_nat len) (skipn (Z.to_nat (b_read b1)) (b_data b1))) as [[y z]|] eqn:G; [|discriminate]. destruct (c_str y) as [s|] eqn:CS; [|discriminate]. injection E as <- <-.
  assert (X : forall x, get_bytes (Z.to_nat len) (skipn (Z.to_nat (b_read b1)) (b_data b1) ++ x) = Some (y, z ++ x)) by (intros x; apply get_more; exact G).
  assert (0 <= len).
  { destruct (Z.le_gt_cases 0 len) as [?|N]; [assumption|]. exfalso. replace (Z.to_nat len) with 0%nat in G by lia. unfold get_bytes in G. cbn [Nat.leb firstn] in G. injection G as <- _. discriminate. }
  apply (get_more _ _ []) in G as [_ G]. rewrite skipn_length in G. unfold okb, b_write_pos in *. cbn [b_read b_data b_alloc]. split; [lia|]. split; [congruence|]. split; [congruence|].
  intros al x A. rewrite (X1 al x A). cbn [obind]. rewrite C. cbn [b_read b_data b_alloc]. rewrite <- D1, skipn_more by lia. rewrite X, CS. reflexivity.
Qed.
Lemma reads_int : reads read_int read_int.
Proof. unfold read_int. apply reads_bind; [apply reads_u; lia|]. intros ty. apply reads_bind; [apply reads_u; lia|]. intros len. apply reads_if; [apply reads_err|apply reads_s; lia]. Qed.
Lemma reads_value : reads value_decode value_decode.
Proof.
  unfold value_decode. apply reads_bind; [apply reads_u; lia|]. intros ty. apply reads_bind; [apply reads_u; lia|]. intros len.
  apply reads_if.
  { intros b r b' O E. unfold okb, b_write_pos in *. destruct (b_read b + len <=? b_alloc b) eqn:L; cbn [negb] in E; [|discriminate].
    destruct (c_str (skipn (Z.to_nat (b_read b)) (b_data b))) as [s|] eqn:C; [|discriminate]. destruct (Z.of_nat (length s) + 1 =? len) eqn:N; [|discriminate]. injection E as <- <-.
    destruct (c_str_more _ [] _ C) as [_ K]. rewrite skipn_length in K. cbn [b_read b_data b_alloc]. split; [lia|]. split; [reflexivity|]. split; [reflexivity|]. intros al x A.
    assert ((b_read b + len <=? al) = true) as -> by lia. cbn [negb]. rewrite skipn_more by lia. rewrite (proj1 (c_str_more _ x _ C)), N. reflexivity. }
  apply reads_if.
  { intros b r b' O E. unfold okb, b_write_pos in *. destruct (b_read b + len <=? b_alloc b) eqn:L; cbn [negb] in E; [|discriminate].
    destruct (get_bytes (Z.to_nat len) (skipn (Z.to_nat (b_read b)) (b_data b))) as [[y z]|] eqn:G; [|discriminate]. injection E as <- <-.
    assert (X : forall x, get_bytes (Z.to_nat len) (skipn (Z.to_nat (b_read b)) (b_data b) ++ x) = Some (y, z ++ x)) by (intros x; apply get_more; exact G).
    apply (get_more _ _ []) in G as [_ G]. rewrite skipn_length in G. cbn [b_read b_data b_alloc]. split; [lia|]. split; [reflexivity|]. split; [reflexivity|]. intros al x A.
    assert ((b_read b + len <=? al) = true) as -> by lia. cbn [negb]. rewrite skipn_more by lia. rewrite X. reflexivity. }
  repeat (apply reads_if; [apply reads_bind; [first [apply reads_u; lia|apply reads_s; lia|apply reads_read; lia]|intros a; apply reads_ret]|]).
  apply reads_ub.
Qed.
Lemma reads_tlv : reads read_uint32_tlv read_uint32_tlv.
Proof. unfold read_uint32_tlv. apply reads_bind; [apply reads_u; lia|]. intros ty. apply reads_bind; [apply reads_u; lia|]. intros len. apply reads_if; [apply reads_u; lia|apply reads_err]. Qed.
Lemma reads_filter : forall n m, (n <= m)%nat -> reads (filter_decode n) (filter_decode m).
Proof.
  induction n as [|n IH]; intros m H; [apply reads_ub|]. destruct m as [|m]; [lia|]. cbn [filter_decode]. apply reads_bind; [apply reads_tlv|]. intros ty. apply reads_if.
  - apply reads_bind; [apply reads_tlv|]. intros op. apply reads_bind; [apply reads_value|]. intros v. apply reads_ret.
  - apply reads_if; [|apply reads_ub]. apply reads_bind; [apply reads_tlv|]. intros op. apply reads_bind; [apply IH; lia|]. intros l. apply reads_bind; [apply IH; lia|]. intros r. apply reads_ret.
Qed.
Lemma reads_record : reads read_record read_record.
Proof.
  unfold read_record. apply reads_bind; [apply reads_name|]. intros ls. apply reads_bind; [apply reads_name|]. intros ev. do 7 (apply reads_bind; [apply reads_int|]; intros ?).
  apply reads_bind; [|intros f; apply reads_ret]. apply reads_if; [apply reads_ret|]. intros b r b' O E. destruct (reads_filter (length (b_data b)) (length (b_data b)) ltac:(lia) _ _ _ O E) as (O1 & D1 & A1 & _).
  split; [exact O1|]. split; [exact D1|]. split; [exact A1|]. intros al x A. destruct (reads_filter (length (b_data b)) (length (b_data b ++ x)) ltac:(rewrite app_length; lia) _ _ _ O E) as (_ & _ & _ & X).
  apply X. exact A.
Qed.
(** what a piece of the file gives *)
Lemma read_piece : forall there l AL pre part rest fuel al x out done, forallb record_ok l = true -> flat_map renc l = part ++ rest -> Z.of_nat (length pre) + Z.of_nat (length (flat_map renc l)) < AL -> al <= AL ->
  read_records fuel there (mkB al (pre ++ part) (Z.of_nat (length pre))) = Ok (x, out, done) ->
  exists m, x = remaining there (firstn m l) /\ (done = true -> part = flat_map renc (firstn m l) /\ (out = false -> firstn m l = x)).
Proof.
  intros there l. induction l as [|r l IH]; intros AL pre part rest fuel al x out done OK F LA LE H; (destruct fuel as [|fuel]; [discriminate|]); cbn [read_records] in H.
  - cbn [flat_map] in F. symmetry in F. apply app_eq_nil in F as [-> ->]. unfold b_write_pos in H. cbn [b_read b_data] in H. rewrite app_nil_r, Z.ltb_irrefl in H. cbn [negb] in H. injection H as <- <- <-. exists 0%nat. auto.
  - destruct part as [|c part0].
    { unfold b_write_pos in H. cbn [b_read b_data] in H. rewrite app_nil_r, Z.ltb_irrefl in H. cbn [negb] in H. injection H as <- <- <-. exists 0%nat. auto. }
    remember (c :: part0) as part eqn:EP. assert (LP : (1 <= length part)%nat) by (rewrite EP; cbn; lia). clear EP c part0.
    unfold b_write_pos in H. cbn [b_read b_data] in H. assert ((Z.of_nat (length pre) <? Z.of_nat (length (pre ++ part))) = true) as Q by (rewrite app_length; lia). rewrite Q in H. cbn [negb] in H.
    destruct (read_record (mkB al (pre ++ part) (Z.of_nat (length pre)))) as [[r' b']|[]|] eqn:R; [|injection H as <- <- <-; exists 0%nat; split; [reflexivity|discriminate]|discriminate].
    cbn [forallb] in OK. apply andb_prop in OK as [OK1 OK2]. cbn [flat_map] in F, LA. rewrite app_length in LA.
    assert (O : okb (mkB al (pre ++ part) (Z.of_nat (length pre)))) by (unfold okb, b_write_pos; cbn [b_read b_data]; rewrite app_length; lia).
    destruct (reads_record _ _ _ O R) as (O' & D' & A' & X). cbn [b_data b_read b_alloc] in *. specialize (X AL rest LE). rewrite <- app_assoc, <- F in X. rewrite read_record_spec in X by (auto; lia). injection X as <- X.
    assert (LR : (length (renc r) <= length part)%nat) by (unfold okb, b_write_pos in O'; rewrite D', <- X, !app_length in O'; lia).
    assert (exists part', part = renc r ++ part') as (part' & ->).
    { exists (skipn (length (renc r)) part). rewrite <- (firstn_skipn (length (renc r)) part) at 1. f_equal. assert (G : firstn (length (renc r)) (renc r ++ flat_map renc l) = firstn (length (renc r)) (part ++ rest)) by (rewrite F; reflexivity).
      rewrite !firstn_app, Nat.sub_diag, firstn_all in G. replace (length (renc r) - length part)%nat with 0%nat in G by lia. cbn [firstn] in G. rewrite !app_nil_r in G. auto. }
    rewrite <- app_assoc in F. apply app_inv_head in F.
    destruct (k_listener (fst (fst r))) eqn:KL; [discriminate|]. destruct (read_records fuel there b') as [[[x' out'] done']|[]|] eqn:RR; cbn [obind] in H; try discriminate.
    destruct b' as [al' d' p']. cbn [b_data b_alloc b_read] in *. subst d' al' p'. rewrite app_assoc in RR. 
    destruct (IH AL (pre ++ renc r) part' rest fuel al x' out' done' OK2 F ltac:(rewrite app_length; lia) LE RR) as (m & E1 & E2).
    exists (S m). cbn [firstn flat_map]. unfold remaining in *. cbn [List.filter]. destruct (present there r) eqn:P; injection H as <- <- <-.
    + split; [congruence|]. intros D. destruct (E2 D) as [-> E3]. split; [reflexivity|]. intros K. f_equal. auto.
    + split; [exact E1|]. intros D. destruct (E2 D) as [-> E3]. split; [reflexivity|]. discriminate.
Qed.
Lemma read_all : forall there l pre fuel al, forallb record_ok l = true -> Z.of_nat (length pre) + Z.of_nat (length (flat_map renc l)) < al -> (length l < fuel)%nat ->
  read_records fuel there (mkB al (pre ++ flat_map renc l) (Z.of_nat (length pre))) = Ok (remaining there l, negb (forallb (present there) l), true).
Proof.
  intros there l. induction l as [|r l IH]; intros pre fuel al OK LA LF; (destruct fuel as [|fuel]; [cbn in LF; lia|]); cbn [read_records].
  - unfold b_write_pos. cbn [b_read b_data flat_map]. rewrite app_nil_r, Z.ltb_irrefl. reflexivity.
  - cbn [forallb] in OK. apply andb_prop in OK as [OK1 OK2]. cbn [flat_map] in *. rewrite app_length in LA. pose proof (renc_long r) as RL.
    unfold b_write_pos. cbn [b_read b_data]. assert ((Z.of_nat (length pre) <? Z.of_nat (length (pre ++ renc r ++ flat_map renc l))) = true) as -> by (rewrite !app_length; lia). cbn [negb].
    rewrite read_record_spec by (auto; lia). assert (NE : k_listener (fst (fst r)) <> []) by (destruct r as [[k a] id]; apply record_split in OK1 as (H1 & _); apply name_enc in H1 as (_ & _ & H1); exact H1).
    destruct (k_listener (fst (fst r))); [congruence|]. rewrite (app_assoc pre). rewrite IH; [|exact OK2|rewrite app_length; lia|cbn in LF; lia]. cbn [obind forallb]. unfold remaining. cbn [List.filter].
    destruct (present there r); reflexivity.
Qed.
Lemma reserve_more : forall n, 64 < n -> n < b_alloc (buffer_reserve buffer_create n).
Proof.
  intros n H. unfold buffer_reserve, buffer_create, b_write_pos, BUFFER_BLOCK_SIZE. cbn [b_alloc b_data length]. assert ((64 <? Z.of_nat 0 + n) = true) as -> by lia. cbn [b_alloc]. lia.
Qed.
Lemma reserve_mono : forall n m, 0 <= n <= m -> b_alloc (buffer_reserve buffer_create n) <= b_alloc (buffer_reserve buffer_create m).
Proof.
  intros n m H. unfold buffer_reserve, buffer_create, b_write_pos, BUFFER_BLOCK_SIZE. cbn [b_alloc b_data length].
  destruct (64 <? Z.of_nat 0 + n) eqn:E1, (64 <? Z.of_nat 0 + m) eqn:E2; cbn [b_alloc]; lia.
Qed.
Lemma remaining_all : forall there l, forallb (present there) l = true -> remaining there l = l.
Proof. intros there. induction l as [|r l IH]; intros H; [reflexivity|]. cbn in *. apply andb_prop in H as [H1 H2]. unfold remaining in *. cbn [List.filter]. rewrite H1. f_equal. auto. Qed.
Lemma remaining_ok : forall there l, forallb record_ok l = true -> forallb record_ok (remaining there l) = true.
Proof. intros there l H. apply forallb_forall. intros r I. apply filter_In in I as [I _]. eapply forallb_forall in H; eauto. Qed.
Lemma flat_long : forall l, (length l <= length (flat_map renc l))%nat /\ (l <> [] -> (66 <= length (flat_map renc l))%nat).
Proof. induction l as [|r l [IH _]]; [split; [reflexivity|congruence]|]. cbn [flat_map length]. rewrite app_length. pose proof (renc_long r). split; [lia|intros _; lia]. Qed.
Lemma firstn_ok : forall m l, forallb record_ok l = true -> forallb record_ok (firstn m l) = true.
Proof. induction m as [|m IH]; intros [|r l] H; try reflexivity. cbn in *. apply andb_prop in H as [H1 H2]. rewrite H1. cbn. auto. Qed.

Lemma restore_thm : forall there l, forallb record_ok l = true -> exists d f, save_cache l = Ok d /\ save_cache (remaining there l) = Ok f /\ load_cache there d = Ok (remaining there l, f).
Proof.
  intros there l OK. eexists _, _. split; [apply save_spec; exact OK|]. split; [apply save_spec, remaining_ok; exact OK|]. destruct l as [|r0 l0]; [reflexivity|]. remember (r0 :: l0) as l eqn:EL. assert (NE : l <> []) by (rewrite EL; discriminate). clear EL r0 l0.
  destruct (flat_long l) as [L1 L2]. specialize (L2 NE). unfold load_cache. destruct (flat_map renc l) as [|c d] eqn:D; [cbn in L2; lia|]. rewrite <- D in *. clear c d D.
  rewrite (read_all there l [] (S (length (flat_map renc l)))); [|exact OK|cbn [length]; change (Z.of_nat 0) with 0; pose proof (reserve_more (Z.of_nat (length (flat_map renc l)))); lia|lia]. cbn [obind negb].
  destruct (forallb (present there) l) eqn:P; cbn [negb].
  - rewrite (remaining_all _ _ P). destruct l; [congruence|reflexivity].
  - rewrite save_spec by (apply remaining_ok; exact OK). reflexivity.
Qed.
Lemma truncated_thm : forall there l n d x f, forallb record_ok l = true -> save_cache l = Ok (Some d) -> load_cache there (Some (firstn n d)) = Ok (x, f) ->
  exists m, x = remaining there (firstn m l) /\ (f = None \/ save_cache x = Ok f).
Proof.
  intros there l n d x f OK S H. rewrite save_spec in S by exact OK. destruct l as [|r0 l0]; [discriminate|]. remember (r0 :: l0) as l eqn:EL. injection S as <-. assert (NE : l <> []) by (rewrite EL; discriminate). clear EL r0 l0.
  destruct (flat_long l) as [L1 L2]. specialize (L2 NE). assert (PR : flat_map renc l = firstn n (flat_map renc l) ++ skipn n (flat_map renc l)) by (symmetry; apply firstn_skipn).
  assert (LP : (length (firstn n (flat_map renc l)) <= length (flat_map renc l))%nat) by (rewrite firstn_length; lia). revert PR LP H. generalize (firstn n (flat_map renc l)) (skipn n (flat_map renc l)). intros p q PR LP H.
  unfold load_cache in H. destruct p as [|c p0]; [injection H as <- <-; exists 0%nat; auto|]. remember (c :: p0) as p eqn:EP. assert (NP : p <> []) by (rewrite EP; discriminate). clear EP c p0.
  destruct (read_records _ there _) as [[[x' out] done]|[]|] eqn:R; cbn [obind] in H; try discriminate.
  assert (LA : Z.of_nat (length (flat_map renc l)) < b_alloc (buffer_reserve buffer_create (Z.of_nat (length (flat_map renc l))))) by (apply reserve_more; lia).
  assert (LB : b_alloc (buffer_reserve buffer_create (Z.of_nat (length p))) <= b_alloc (buffer_reserve buffer_create (Z.of_nat (length (flat_map renc l))))) by (apply reserve_mono; lia).
  destruct (read_piece there l _ [] p q _ _ x' out done OK PR LA LB R) as (m & E1 & E2). exists m.
  destruct done; cbn [negb] in H; [|injection H as <- <-; auto]. destruct (E2 eq_refl) as [E3 E4]. destruct out.
  - destruct (save_cache x') as [f'|[]|] eqn:SX; cbn [obind] in H; try discriminate. injection H as <- <-. auto.
  - injection H as <- <-. split; [exact E1|]. right. rewrite <- (E4 eq_refl), save_spec by (apply firstn_ok; exact OK). destruct (firstn m l); [cbn in E3; congruence|rewrite E3; reflexivity].
Qed.
