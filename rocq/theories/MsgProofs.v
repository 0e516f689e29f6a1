From Coq Require Import Lia ZifyBool.
From Verif Require Import Common CommonFacts Bytes BytesFacts MsgModel MsgSpec.
Local Open Scope Z_scope.

(** The setter and the getter for a field; SetInt32 is called with (int32_t)n for
    an unsigned n, as the callers do. *)
Definition write_field (m : msg) (f : field) : msg :=
  match f with
  | FStr s => set_string m s
  | FBin s => set_bytes m s
  | FI32 n => set_int32 m n
  | FU32 n => set_int32 m (to_signed 32 n)
  | FI64 n => set_int64 m n
  | FDbl b => set_double m b
  | FMsg s => set_message m (msg_from_bytes s)
  end.
Definition map_res {A B} (g : A -> B) (o : outcome unit (A * msg)) : outcome unit (B * msg) :=
  match o with Ok (x, m) => Ok (g x, m) | Err e => Err e | UB => UB end.
Definition read_field (f : field) (m : msg) : outcome unit (field * msg) :=
  match f with
  | FStr _ => map_res (fun s => FStr (Some s)) (get_string m)
  | FBin _ => map_res FBin (get_msg_bytes m)
  | FI32 _ => map_res FI32 (get_int32 m)
  | FU32 _ => map_res FU32 (get_uint32 m)
  | FI64 _ => map_res FI64 (get_int64 m)
  | FDbl _ => map_res FDbl (get_double m)
  | FMsg _ => map_res (fun x => FMsg (m_data x)) (get_message m)
  end.

(** The bytes and the item of a field. *)
Definition field_bytes (f : field) : list Z :=
  match f with
  | FStr s => pack_str (match s with Some s => s | None => [] end ++ [0])
  | FBin s | FMsg s => pack_bin s
  | FI32 n | FI64 n => pack_int n
  | FU32 n => pack_int (to_signed 32 n)
  | FDbl b => pack_double b
  end.
Definition field_item (f : field) : item :=
  match f with
  | FStr s => IStr (match s with Some s => s | None => [] end ++ [0])
  | FBin s | FMsg s => IBin s
  | FI32 n | FI64 n => IInt n
  | FU32 n => IInt (to_signed 32 n)
  | FDbl b => IFloat b
  end.

Lemma write_field_data : forall m f, write_field m f = append m (field_bytes f).
Proof. intros m [s|s|n|n|n|b|s]; reflexivity. Qed.

Lemma to_signed_mod : forall bits n, 1 < bits -> - 2 ^ (bits - 1) <= n < 2 ^ (bits - 1) ->
  to_signed bits (to_unsigned bits n) = n.
Proof. exact to_signed_unsigned. Qed.

Lemma unpack_pack_int : forall d r, - 2 ^ 63 <= d < 2 ^ 63 -> unpack (pack_int d ++ r) = Some (IInt d, r).
Proof.
  intros d r H. unfold pack_int.
  destruct (d <? -32) eqn:A.
  - destruct (d <? -32768) eqn:B; [destruct (d <? -2147483648) eqn:C|destruct (d <? -128) eqn:C].
    + cbn [app unpack]. change (211 <? 128) with false. cbn -[be64 get_be64 to_unsigned to_signed].
      rewrite get_be64_be64. { cbn [int_of]. now rewrite to_signed_mod by (cbn; lia). }
      unfold to_unsigned. apply Z.mod_pos_bound. lia.
    + cbn -[be32 get_be32 to_unsigned to_signed]. rewrite get_be32_be32.
      { cbn [int_of]. now rewrite to_signed_mod by (cbn; lia). }
      unfold to_unsigned. apply Z.mod_pos_bound. lia.
    + cbn -[be16 get_be16 to_unsigned to_signed]. rewrite get_be16_be16.
      { cbn [int_of]. now rewrite to_signed_mod by (cbn; lia). }
      unfold to_unsigned. apply Z.mod_pos_bound. lia.
    + cbn -[to_unsigned to_signed]. now rewrite to_signed_mod by (cbn; lia).
  - destruct (d <? 128) eqn:B.
    + cbn [app unpack]. unfold to_unsigned. destruct (d <? 0) eqn:N.
      * assert (d mod 2 ^ 8 = d + 256) as ->.
        { symmetry. apply (Z.mod_unique d (2 ^ 8) (-1)); lia. }
        do 19 match goal with |- context [if ?b then _ else _] => first [replace b with false by lia | replace b with true by lia]; cbn [raw] end.
        f_equal. f_equal. f_equal. lia.
      * rewrite Z.mod_small by lia. now rewrite B.
    + destruct (d <? 65536) eqn:C; [destruct (d <? 256) eqn:D|destruct (d <? 4294967296) eqn:D].
      * reflexivity.
      * cbn -[be16 get_be16]. rewrite get_be16_be16 by lia. reflexivity.
      * cbn -[be32 get_be32]. rewrite get_be32_be32 by lia. reflexivity.
      * cbn -[be64 get_be64 to_signed]. rewrite get_be64_be64 by lia. cbn [int_of]. unfold to_signed.
        change (2 ^ (64 - 1)) with (2 ^ 63). now replace (d <? 2 ^ 63) with true by lia.
Qed.

Lemma get_bytes_app2 : forall l r n, n = Z.of_nat (length l) -> get_bytes (Z.to_nat n) (l ++ r) = Some (l, r).
Proof. intros l r n ->. rewrite Nat2Z.id. apply get_bytes_app. Qed.

Lemma unpack_pack_str : forall s r, Z.of_nat (length s) < 2 ^ 32 -> unpack (pack_str s ++ r) = Some (IStr s, r).
Proof.
  intros s r H. unfold pack_str. set (l := Z.of_nat (length s)) in *. assert (L0 : 0 <= l) by lia.
  assert (G : get_bytes (Z.to_nat l) (s ++ r) = Some (s, r)) by now apply get_bytes_app2.
  clearbody l. rewrite <- app_assoc.
  destruct (l <? 32) eqn:A; [|destruct (l <? 256) eqn:B; [|destruct (l <? 65536) eqn:C]].
  - cbn [app unpack]. replace (160 + l <? 128) with false by lia. replace (160 + l <? 160) with false by lia.
    replace (160 + l <? 192) with true by lia. cbn [raw]. replace (160 + l - 160) with l by lia. now rewrite G.
  - cbn -[get_bytes Z.to_nat]. now rewrite G.
  - cbn -[get_bytes Z.to_nat be16 get_be16]. rewrite <- ?app_assoc. rewrite get_be16_be16 by lia. cbn [raw]. now rewrite G.
  - cbn -[get_bytes Z.to_nat be32 get_be32]. rewrite <- ?app_assoc. rewrite get_be32_be32 by lia. cbn [raw]. now rewrite G.
Qed.
Lemma unpack_pack_bin : forall s r, Z.of_nat (length s) < 2 ^ 32 -> unpack (pack_bin s ++ r) = Some (IBin s, r).
Proof.
  intros s r H. unfold pack_bin. set (l := Z.of_nat (length s)) in *. assert (L0 : 0 <= l) by lia.
  assert (G : get_bytes (Z.to_nat l) (s ++ r) = Some (s, r)) by now apply get_bytes_app2.
  clearbody l. rewrite <- app_assoc.
  destruct (l <? 256) eqn:B; [|destruct (l <? 65536) eqn:C].
  - cbn -[get_bytes Z.to_nat]. now rewrite G.
  - cbn -[get_bytes Z.to_nat be16 get_be16]. rewrite <- ?app_assoc. rewrite get_be16_be16 by lia. cbn [raw]. now rewrite G.
  - cbn -[get_bytes Z.to_nat be32 get_be32]. rewrite <- ?app_assoc. rewrite get_be32_be32 by lia. cbn [raw]. now rewrite G.
Qed.
Lemma unpack_pack_double : forall b r, 0 <= b < 2 ^ 64 -> unpack (pack_double b ++ r) = Some (IFloat b, r).
Proof. intros b r H. unfold pack_double. cbn -[be64 get_be64]. rewrite get_be64_be64 by lia. reflexivity. Qed.

Lemma to_signed_range32 : forall n, 0 <= n < 4294967296 -> - 2 ^ 31 <= to_signed 32 n < 2 ^ 31.
Proof. intros n H. unfold to_signed. change (2 ^ (32 - 1)) with (2 ^ 31). destruct (n <? 2 ^ 31) eqn:E; lia. Qed.

Lemma unpack_field : forall f r, field_ok f = true -> unpack (field_bytes f ++ r) = Some (field_item f, r).
Proof.
  intros [s|s|n|n|n|b|s] r H; cbn [field_ok] in H; cbn [field_bytes field_item].
  - apply unpack_pack_str. rewrite app_length. cbn [length]. destruct s as [s|]; cbn [length] in *; lia.
  - apply unpack_pack_bin. lia.
  - apply unpack_pack_int. lia.
  - apply unpack_pack_int. pose proof (to_signed_range32 n). lia.
  - apply unpack_pack_int. lia.
  - apply unpack_pack_double. lia.
  - apply unpack_pack_bin. lia.
Qed.
Lemma pack_str_nonempty : forall s, pack_str s <> [].
Proof. intros s. unfold pack_str. repeat match goal with |- context [if ?b then _ else _] => destruct b end; discriminate. Qed.
Lemma field_bytes_nonempty : forall f, field_bytes f <> [].
Proof.
  intros [s|s|n|n|n|b|s]; cbn [field_bytes]; [apply pack_str_nonempty|..]; unfold pack_bin, pack_int, pack_double;
  repeat match goal with |- context [if ?b then _ else _] => destruct b end; discriminate.
Qed.

(** reading position in the middle of the data *)
Definition at_pos (pre post : list Z) (meta : Z) : msg := mkMsg (pre ++ post) (Z.of_nat (length pre)) meta.

Lemma unpack_next_field : forall pre f r meta, field_ok f = true ->
  unpack_next (at_pos pre (field_bytes f ++ r) meta) = Some (field_item f, at_pos (pre ++ field_bytes f) r meta).
Proof.
  intros pre f r meta H. unfold unpack_next, at_pos, msg_size. cbn [m_data m_read m_meta].
  rewrite !app_length, !Nat2Z.inj_add.
  assert (0 < Z.of_nat (length (field_bytes f))).
  { pose proof (field_bytes_nonempty f). destruct (field_bytes f); [congruence|]. cbn [length]. lia. }
  replace (_ <=? _) with false by lia. rewrite Nat2Z.id, skipn_app, skipn_all, Nat.sub_diag. cbn [app skipn].
  rewrite unpack_field by assumption. f_equal. f_equal. rewrite <- app_assoc. f_equal. lia.
Qed.

Lemma cstr_in_place : forall pre s r, is_cstr s = true ->
  c_str (skipn (length pre) (pre ++ (s ++ [0]) ++ r)) = Some s.
Proof.
  intros. rewrite skipn_app, skipn_all, Nat.sub_diag. cbn [app skipn]. rewrite <- app_assoc. cbn [app].
  now apply c_str_app.
Qed.

(** the packed string ends with its bytes *)
Lemma pack_str_suffix : forall s, exists h, pack_str s = h ++ s.
Proof. intros s. eexists. reflexivity. Qed.

Lemma read_field_spec : forall pre f r meta, field_ok f = true ->
  read_field f (at_pos pre (field_bytes f ++ r) meta) = Ok (read_back f, at_pos (pre ++ field_bytes f) r meta).
Proof.
  intros pre f r meta H.
  pose proof (unpack_next_field pre f r meta H) as U.
  destruct f as [s|s|n|n|n|b|s]; cbn [read_field field_item read_back] in *;
    unfold get_string, get_msg_bytes, get_int32, get_uint32, get_int64, get_double, get_message; rewrite U; cbn [map_res].
  - set (s0 := match s with Some s => s | None => [] end) in *.
    assert (Hs : is_cstr s0 = true) by (unfold s0; destruct s; cbn in H; [now apply andb_true_iff in H as [H _]|reflexivity]).
    cbn [field_bytes]. fold s0. destruct (pack_str_suffix (s0 ++ [0])) as [h Hh]. rewrite Hh.
    unfold at_pos. cbn [m_read m_data].
    assert (E : (Z.to_nat (Z.of_nat (length (pre ++ h ++ s0 ++ [0%Z]))) - length (s0 ++ [0%Z]))%nat = length (pre ++ h)).
    { rewrite Nat2Z.id, !app_length. lia. }
    rewrite E. replace (pre ++ (h ++ s0 ++ [0]) ++ r) with ((pre ++ h) ++ (s0 ++ [0]) ++ r) by now rewrite !app_assoc.
    rewrite cstr_in_place by assumption. cbn [map_res].
    assert (X : FStr (Some s0) = match s with Some _ => FStr s | None => FStr (Some []) end) by (unfold s0; destruct s; reflexivity).
    rewrite X. reflexivity.
  - reflexivity.
  - cbn [field_ok] in H. do 3 f_equal. rewrite to_signed_mod by (cbn; lia). reflexivity.
  - cbn [field_ok] in H. do 3 f_equal. unfold to_unsigned, to_signed. change (2 ^ (32 - 1)) with (2 ^ 31).
    destruct (n <? 2 ^ 31) eqn:E; [apply Z.mod_small; lia|].
    symmetry. apply (Z.mod_unique (n - 2 ^ 32) (2 ^ 32) (-1)); lia.
  - reflexivity.
  - reflexivity.
  - reflexivity.
Qed.

Notation write_msg := (write_all msg write_field).
Notation read_msg := (read_all msg read_field).

Definition all_bytes (fs : list field) : list Z := flat_map field_bytes fs.
Lemma write_msg_data : forall fs m, write_msg m fs = append m (all_bytes fs).
Proof.
  induction fs as [|f fs IH]; intros m; cbn [write_all all_bytes flat_map].
  - unfold append. rewrite app_nil_r. now destruct m.
  - rewrite write_field_data, IH. unfold append. cbn [m_data m_read m_meta]. now rewrite <- app_assoc.
Qed.
Lemma read_msg_spec : forall fs pre r meta, forallb field_ok fs = true ->
  read_msg fs (at_pos pre (all_bytes fs ++ r) meta) = Ok (map read_back fs, at_pos (pre ++ all_bytes fs) r meta).
Proof.
  induction fs as [|f fs IH]; intros pre r meta H; cbn [read_all all_bytes flat_map map].
  - now rewrite app_nil_r.
  - cbn [forallb] in H. apply andb_true_iff in H as [Hf H]. rewrite <- app_assoc.
    rewrite read_field_spec by assumption. fold (all_bytes fs). rewrite IH by assumption.
    unfold at_pos. now rewrite <- !app_assoc.
Qed.

(** C05 *)
Lemma message_roundtrip : forall fs, forallb field_ok fs = true ->
  exists m', read_msg fs (msg_from_bytes (m_data (write_msg msg_init fs))) = Ok (map read_back fs, m') /\
             m_read m' = msg_size m' /\ forall f, read_field f m' = Err tt.
Proof.
  intros fs H. rewrite write_msg_data. cbn [append msg_init m_data app].
  pose proof (read_msg_spec fs [] [] 0 H) as R. unfold at_pos in R. cbn [app length] in R. rewrite app_nil_r in R.
  eexists. split; [exact R|]. unfold msg_size. cbn [m_read m_data]. split; [reflexivity|].
  intros f. assert (N : unpack_next {| m_data := all_bytes fs; m_read := Z.of_nat (length (all_bytes fs)); m_meta := 0 |} = None).
  { unfold unpack_next, msg_size. cbn [m_data m_read]. now rewrite Z.leb_refl. }
  destruct f; cbn [read_field]; unfold get_string, get_msg_bytes, get_int32, get_uint32, get_int64, get_double, get_message;
    rewrite N; reflexivity.
Qed.
(** ... also when the message already held other fields and is being read. *)
Lemma message_roundtrip_append : forall old fs more, forallb field_ok old = true -> forallb field_ok fs = true ->
  exists m1 m2, read_msg old (write_msg (write_msg (write_msg msg_init old) fs) more) = Ok (map read_back old, m1) /\
    read_msg fs m1 = Ok (map read_back fs, m2).
Proof.
  intros old fs more Ho Hf. rewrite !write_msg_data. unfold append. cbn [m_data m_read m_meta msg_init app].
  pose proof (read_msg_spec old [] (all_bytes fs ++ all_bytes more) 0 Ho) as R. unfold at_pos in R. cbn [app length] in R.
  rewrite <- app_assoc. change (Z.of_nat 0) with 0 in R.
  eexists _, _. split; [exact R|]. exact (read_msg_spec fs (all_bytes old) (all_bytes more) 0 Hf).
Qed.
Lemma wrong_kind : forall pre f g r meta, field_ok f = true -> kind_of g <> kind_of f ->
  read_field g (at_pos pre (field_bytes f ++ r) meta) = Err tt.
Proof.
  intros pre f g r meta H K.
  pose proof (unpack_next_field pre f r meta H) as U.
  destruct f; destruct g; try (exfalso; apply K; reflexivity); cbn [read_field field_item] in *;
    unfold get_string, get_msg_bytes, get_int32, get_uint32, get_int64, get_double, get_message; rewrite U; reflexivity.
Qed.
Lemma wrong_kind_msg : forall fs f g more, forallb field_ok fs = true -> field_ok f = true -> kind_of g <> kind_of f ->
  exists m, read_msg fs (write_msg (write_field (write_msg msg_init fs) f) more) = Ok (map read_back fs, m) /\
    read_field g m = Err tt.
Proof.
  intros fs f g more H Hf K. rewrite write_msg_data, write_field_data, write_msg_data. unfold append.
  cbn [m_data m_read m_meta msg_init app]. rewrite <- app_assoc.
  pose proof (read_msg_spec fs [] (field_bytes f ++ all_bytes more) 0 H) as R. unfold at_pos in R. cbn [app length] in R.
  eexists. split; [exact R|]. exact (wrong_kind (all_bytes fs) f g (all_bytes more) 0 Hf K).
Qed.

(** * Metadata (C06) *)
Definition meta_fields (method parent state : option (list Z)) : list field := [FStr method; FStr parent; FStr state].
Lemma upd_app_mid : forall (a : list Z) x y r, upd (a ++ x :: r) (length a) y = a ++ y :: r.
Proof. induction a as [|c a IH]; intros; cbn; [reflexivity|]. now rewrite IH. Qed.

Lemma meta_trailer : forall data off, 0 <= off < 2 ^ 31 - 32768 ->
  clear_top (data ++ pack_int (off - 2147483648)) = data ++ 210 :: be32 off.
Proof.
  intros data off H. unfold pack_int.
  replace (off - 2147483648 <? -32) with true by lia. replace (off - 2147483648 <? -32768) with true by lia.
  replace (off - 2147483648 <? -2147483648) with false by lia.
  assert (U : to_unsigned 32 (off - 2147483648) = off + 2147483648).
  { unfold to_unsigned. symmetry. apply (Z.mod_unique _ (2 ^ 32) (-1)); lia. }
  rewrite U. unfold clear_top. set (k := (length _ - 4)%nat).
  assert (K : k = length (data ++ [210])). { unfold k. rewrite !app_length. cbn [length be32]. lia. }
  rewrite K. change (data ++ 210 :: be32 (off + 2147483648)) with (data ++ [210] ++ be32 (off + 2147483648)).
  rewrite app_assoc. rewrite nth_error_app2 by lia. rewrite Nat.sub_diag. unfold be32 at 1. cbn [nth_error].
  unfold be32 at 1. rewrite upd_app_mid. rewrite <- app_assoc. cbn [app]. f_equal. f_equal. unfold be32.
  assert (A : (off + 2147483648) / 16777216 = off / 16777216 + 128).
  { replace (off + 2147483648) with (off + 128 * 16777216) by lia. now rewrite Z.div_add by lia. }
  assert (B : (off + 2147483648) / 65536 = off / 65536 + 128 * 256).
  { replace (off + 2147483648) with (off + (128 * 256) * 65536) by lia. now rewrite Z.div_add by lia. }
  assert (C : (off + 2147483648) / 256 = off / 256 + 32768 * 256).
  { replace (off + 2147483648) with (off + (32768 * 256) * 256) by lia. now rewrite Z.div_add by lia. }
  assert (D : (off + 2147483648) mod 256 = off mod 256).
  { replace (off + 2147483648) with (off + 8388608 * 256) by lia. now rewrite Z.mod_add by lia. }
  rewrite A, B, C, D, !Z.mod_add by lia. f_equal.
  assert (R : 0 <= off / 16777216 < 128). { split; [apply Z.div_pos; lia|]. apply Z.div_lt_upper_bound; lia. }
  rewrite (Z.mod_small (off / 16777216 + 128) 256) by lia. rewrite (Z.mod_small (off / 16777216) 256) by lia.
  replace (off / 16777216 + 128) with (off / 16777216 + 1 * 128) by lia.
  rewrite Z.mod_add by lia. apply Z.mod_small. lia.
Qed.

Lemma set_meta_data : forall m method parent state, msg_size m < 2 ^ 31 - 32768 ->
  m_data (set_meta_info m method parent state) =
  m_data m ++ all_bytes (meta_fields method parent state) ++ 210 :: be32 (msg_size m).
Proof.
  intros m method parent state H. unfold set_meta_info, end_meta_write, set_string, begin_meta_write, append.
  cbn [m_data m_meta m_read all_bytes meta_fields flat_map field_bytes].
  rewrite meta_trailer by (unfold msg_size in *; lia). rewrite ?app_nil_r, <- !app_assoc. reflexivity.
Qed.

Lemma meta_read_position : forall payload fs rd meta, Z.of_nat (length payload) < 2 ^ 31 -> Z.of_nat (length fs) < 2 ^ 40 ->
  begin_meta_read (mkMsg (payload ++ fs ++ 210 :: be32 (Z.of_nat (length payload))) rd meta)
  = mkMsg (payload ++ fs ++ 210 :: be32 (Z.of_nat (length payload))) (Z.of_nat (length payload)) rd.
Proof.
  intros payload fs rd meta H Hf. unfold begin_meta_read. cbn [m_data m_read m_meta].
  set (tr := 210 :: be32 (Z.of_nat (length payload))). unfold msg_size. cbn [m_data].
  assert (T : length tr = 5%nat) by reflexivity.
  set (data := payload ++ fs ++ tr).
  assert (L : Z.of_nat (length data) - 5 = Z.of_nat (length (payload ++ fs))).
  { unfold data. rewrite !app_length, T. lia. }
  assert (B : Z.of_nat (length (payload ++ fs)) < 2 ^ 41) by (rewrite app_length; lia).
  rewrite L. rewrite (Z.mod_small (Z.of_nat (length (payload ++ fs)))) by lia.
  unfold get_int32, unpack_next, msg_size. cbn [m_data m_read m_meta].
  replace (Z.of_nat (length data) <=? Z.of_nat (length (payload ++ fs))) with false by lia.
  rewrite Nat2Z.id. unfold data. rewrite (app_assoc payload fs tr), skipn_app, skipn_all, Nat.sub_diag. cbn [app skipn].
  unfold tr at 1. set (lp := Z.of_nat (length payload)) in *.
  assert (U : unpack (210 :: be32 lp) = Some (IInt lp, [])).
  { cbn -[be32 get_be32 to_signed]. rewrite <- (app_nil_r (be32 lp)), get_be32_be32 by lia. cbn [int_of].
    unfold to_signed. change (2 ^ (32 - 1)) with (2 ^ 31). now replace (lp <? 2 ^ 31) with true by lia. }
  rewrite U. rewrite to_signed_mod by (cbn; lia). now rewrite Z.mod_small by lia.
Qed.

Lemma str_field_length : forall s, field_ok (FStr s) = true -> Z.of_nat (length (field_bytes (FStr s))) < 2 ^ 32.
Proof.
  intros s H. cbn [field_bytes]. unfold pack_str.
  assert (L : Z.of_nat (length (match s with Some s => s | None => [] end)) < 2147483647).
  { destruct s; cbn in H; [apply andb_true_iff in H as [_ H]; lia|cbn; lia]. }
  rewrite app_length. rewrite (app_length _ [0]).
  repeat match goal with |- context [if ?b then _ else _] => destruct b end; unfold be16, be32; cbn [length]; lia.
Qed.

Definition text (s : option (list Z)) : list Z := match s with Some s => s | None => [] end.

Lemma call_metadata : forall payload method parent state,
  Z.of_nat (length payload) < 2 ^ 31 - 32768 ->
  field_ok (FStr method) = true -> field_ok (FStr parent) = true -> field_ok (FStr state) = true ->
  let received := msg_from_bytes (m_data (set_meta_info (msg_from_bytes payload) method parent state)) in
  exists m', get_meta_info received = Ok (Some (text method), Some (text parent), Some (text state), m') /\
             m_read m' = 0 /\ exists rest, m_data m' = payload ++ rest.
Proof.
  intros payload method parent state H H1 H2 H3 received.
  unfold received. rewrite set_meta_data by (unfold msg_size; cbn; lia). unfold msg_size. cbn [msg_from_bytes m_data].
  set (fs := all_bytes (meta_fields method parent state)).
  assert (Lf : Z.of_nat (length fs) < 2 ^ 40).
  { unfold fs, meta_fields, all_bytes. cbn [flat_map]. rewrite !app_length.
    pose proof (str_field_length _ H1). pose proof (str_field_length _ H2). pose proof (str_field_length _ H3).
    cbn [length]. lia. }
  unfold get_meta_info, msg_from_bytes. rewrite meta_read_position by lia.
  set (tr := 210 :: be32 (Z.of_nat (length payload))).
  unfold fs, meta_fields, all_bytes. cbn [flat_map]. rewrite app_nil_r.
  pose proof (read_field_spec payload (FStr method) (field_bytes (FStr parent) ++ field_bytes (FStr state) ++ tr) 0 H1) as R1.
  pose proof (read_field_spec (payload ++ field_bytes (FStr method)) (FStr parent) (field_bytes (FStr state) ++ tr) 0 H2) as R2.
  pose proof (read_field_spec ((payload ++ field_bytes (FStr method)) ++ field_bytes (FStr parent)) (FStr state) tr 0 H3) as R3.
  assert (P : forall s m m', read_field (FStr s) m = Ok (read_back (FStr s), m') -> get_string m = Ok (text s, m')).
  { intros s m m' X. cbn [read_field] in X. destruct (get_string m) as [[x y]|e|]; try discriminate.
    cbn [map_res] in X. apply ok_pair in X as [X <-]. destruct s; cbn in X; injection X as X; subst x; reflexivity. }
  apply P in R1. apply P in R2. apply P in R3. unfold at_pos in R1. rewrite <- !app_assoc in *. rewrite R1.
  unfold at_pos in R2. rewrite <- !app_assoc in *. unfold at_pos. rewrite <- ?app_assoc. rewrite R2. unfold at_pos in R3.
  rewrite <- !app_assoc in *. unfold at_pos. rewrite <- ?app_assoc. rewrite R3.
  eexists. split; [reflexivity|]. cbn [end_meta_read at_pos m_read m_meta m_data]. split; [reflexivity|].
  eexists. rewrite <- ?app_assoc. reflexivity.
Qed.
(** ... so the payload is read as if nothing had been appended *)
Lemma call_payload : forall fs method parent state, forallb field_ok fs = true ->
  Z.of_nat (length (m_data (write_msg msg_init fs))) < 2 ^ 31 - 32768 ->
  field_ok (FStr method) = true -> field_ok (FStr parent) = true -> field_ok (FStr state) = true ->
  exists m1 m2,
    get_meta_info (msg_from_bytes (m_data (set_meta_info (write_msg msg_init fs) method parent state)))
      = Ok (Some (text method), Some (text parent), Some (text state), m1) /\
    read_msg fs m1 = Ok (map read_back fs, m2).
Proof.
  intros fs method parent state Hf Hl H1 H2 H3.
  rewrite write_msg_data in *. cbn [append msg_init m_data app] in Hl.
  destruct (call_metadata (all_bytes fs) method parent state Hl H1 H2 H3) as (m' & G & R & rest & D).
  exists m'. cbn [append msg_init m_data m_read m_meta app]. change (mkMsg (all_bytes fs) 0 0) with (msg_from_bytes (all_bytes fs)).
  pose proof (read_msg_spec fs [] rest (m_meta m') Hf) as S.
  destruct m' as [d r me]. cbn [m_data m_read m_meta] in *. subst d r.
  eexists. split; [exact G|exact S].
Qed.
(** The trailer is exactly five bytes only below the bound. *)
Lemma meta_bound : forall off, 2 ^ 31 - 32768 <= off < 2 ^ 31 ->
  length (pack_int (off - 2147483648)) <> 5%nat.
Proof.
  intros off H. unfold pack_int. replace (off - 2147483648 <? -32768) with false by lia.
  destruct (off - 2147483648 <? -32) eqn:A.
  - destruct (off - 2147483648 <? -128); cbn; discriminate.
  - replace (off - 2147483648 <? 128) with true by lia. discriminate.
Qed.
