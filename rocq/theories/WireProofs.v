(** Proofs about the wire serializers. *)
From Coq Require Import String.
From Verif Require Import Common CommonFacts Bytes BytesFacts Value BufferModel BufferProofs MsgModel MsgSpec MsgProofs
  WireModel WireSpec WireFloat.
From Coq Require Import ZifyBool.
Local Open Scope string_scope.
Local Open Scope list_scope.
Local Open Scope Z_scope.

Lemma to_unsigned_signed : forall bits n, 1 < bits -> 0 <= n < 2 ^ bits -> to_unsigned bits (to_signed bits n) = n.
Proof.
  intros bits n B H. unfold to_unsigned, to_signed.
  destruct (n <? 2 ^ (bits - 1)); [now apply Z.mod_small|].
  replace (n - 2 ^ bits) with (n + (-1) * 2 ^ bits) by lia. rewrite Z.mod_add by lia. now apply Z.mod_small.
Qed.

(** The fields written for a value. *)
Fixpoint value_fields (v : value) : list field :=
  FI32 (vtype v) ::
  match v with
  | VObject o => object_fields false o
  | VProperty p => FI32 (nprops p) :: props_fields p
  | VInt16 n | VUInt16 n | VInt32 n => [FI32 n]
  | VUInt32 n => [FI32 (to_signed 32 n)]
  | VInt64 n => [FI64 n]
  | VUInt64 n => [FI64 (to_signed 64 n)]
  | VSingle b => [FDbl (widen b)]
  | VDouble b => [FDbl b]
  | _ => [FBin (match tlv_bytes v with Ok s => s | _ => [] end)]
  end
with props_fields (p : property) : list field :=
  match p with
  | PNil => []
  | PCons name v next => FStr name :: value_fields v ++ props_fields next
  end
with object_fields (siblings : bool) (o : object) : list field :=
  match o with
  | ONull => []
  | Obj name t props children next =>
      FStr name :: FI32 t :: FI32 (nprops props) :: props_fields props ++
      FI32 (nobjs children) :: object_fields true children ++
      (if siblings then object_fields true next else [])
  end.

Lemma all_bytes_app : forall a b, all_bytes (a ++ b) = all_bytes a ++ all_bytes b.
Proof. intros. apply flat_map_app. Qed.
Lemma append_append : forall m a b, append (append m a) b = append m (a ++ b).
Proof. intros. unfold append. cbn. now rewrite app_assoc. Qed.
Lemma append_nil : forall m, append m [] = m.
Proof. intros [d r k]. unfold append. cbn. now rewrite app_nil_r. Qed.
Lemma all_bytes_cons : forall f fs, all_bytes (f :: fs) = field_bytes f ++ all_bytes fs.
Proof. reflexivity. Qed.

Ltac wr := unfold set_int32, set_string, set_bytes, set_int64, set_double; rewrite ?append_append.

Lemma append_spec :
  (forall v, sendable_value v = true -> forall name m,
     append_value name v m = Ok (append m (all_bytes (FStr name :: value_fields v)))) /\
  (forall p, sendable_props p = true -> forall m, append_props p m = Ok (append m (all_bytes (props_fields p)))) /\
  (forall o, sendable_object o = true -> forall sib m,
     append_object sib o m = Ok (append m (all_bytes (object_fields sib o)))).
Proof.
  apply value_mutind; try (intros; cbn -[append_object append_props append all_bytes field_bytes]; wr;
    cbn [all_bytes flat_map field_bytes obind]; rewrite ?app_nil_r, ?app_assoc; reflexivity).
  - intros [s|] H name m; [|discriminate H]. cbn [append_value tlv_bytes obind]. wr.
    cbn [value_fields tlv_bytes vtype all_bytes flat_map field_bytes]. rewrite ?app_nil_r, ?app_assoc. reflexivity.
  - intros [s|] H name m; [|discriminate H]. cbn [append_value tlv_bytes obind]. wr.
    cbn [value_fields tlv_bytes vtype all_bytes flat_map field_bytes]. rewrite ?app_nil_r, ?app_assoc. reflexivity.
  - intros p IH H name m. cbn [sendable_value] in H. apply andb_true_iff in H as [H _].
    cbn [append_value]. rewrite IH by exact H. wr. cbn [value_fields vtype]. rewrite !all_bytes_cons. cbn [field_bytes].
    rewrite ?app_nil_r, ?app_assoc. reflexivity.
  - intros o IH H name m. cbn [append_value]. rewrite IH by (cbn [sendable_value] in H; now destruct o).
    wr. cbn [value_fields vtype]. rewrite !all_bytes_cons. cbn [field_bytes]. rewrite ?app_nil_r, ?app_assoc. reflexivity.
  - intros _ m. cbn. now rewrite append_nil.
  - intros name v IHv next IHn H m. cbn [sendable_props] in H. apply andb_true_iff in H as [H Hn]. apply andb_true_iff in H as [_ Hv].
    cbn [append_props]. rewrite IHv by exact Hv. cbn [obind]. rewrite IHn by exact Hn. rewrite append_append.
    cbn [props_fields]. rewrite !all_bytes_cons, all_bytes_app, ?app_assoc. reflexivity.
  - intros _ sib m. cbn. now rewrite append_nil.
  - intros name t props IHp children IHc next IHn H sib m. cbn [sendable_object] in H.
    repeat (apply andb_true_iff in H as [H ?]).
    cbn [append_object]. rewrite IHp by assumption. cbn [obind]. rewrite IHc by assumption. cbn [obind].
    destruct sib; [rewrite IHn by assumption|]; wr; cbn [object_fields];
      rewrite ?all_bytes_cons, ?all_bytes_app, ?all_bytes_cons, ?all_bytes_app; cbn [field_bytes];
      rewrite <- ?app_assoc; rewrite ?app_nil_r; reflexivity.
Qed.

Lemma nprops_range : forall p, 0 <= nprops p. Proof. fix IH 1. intros [|nm v nx]; cbn [nprops]; [lia|]. specialize (IH nx). lia. Qed.
Lemma nobjs_range : forall p, 0 <= nobjs p. Proof. fix IH 1. intros [|nm t ps cs nx]; cbn [nobjs ocount]; [lia|]. specialize (IH nx). lia. Qed.
Lemma nprops_count : forall p, pcount p = nprops p. Proof. fix IH 1. intros [|nm v nx]; cbn [nprops pcount]; [lia|]. specialize (IH nx). lia. Qed.
Lemma nobjs_count : forall p, ocount p = nobjs p. Proof. fix IH 1. intros [|nm t ps cs nx]; cbn [nobjs ocount]; [lia|]. specialize (IH nx). lia. Qed.

Lemma name_field : forall s, name_ok s = true -> field_ok (FStr s) = true.
Proof. intros [s|] H; [|reflexivity]. cbn in *. unfold short in H. apply andb_true_iff in H as [-> H]. cbn. lia. Qed.
Lemma in_s32_field : forall n, in_s 32 n = true -> field_ok (FI32 n) = true.
Proof. intros n H. unfold in_s in H. cbn in *. lia. Qed.

Lemma tlv_field : forall v s, scalar_wf v = true -> tlv_bytes v = Ok s -> (match v with VString (Some t) | VBytes (Some t) => short t | _ => true end) = true ->
  field_ok (FBin s) = true.
Proof.
  intros v s W T L.
  assert (B8 : forall n, in_s 8 n = true -> 0 <= to_unsigned 8 n < 256).
  { intros n _. unfold to_unsigned. apply Z.mod_pos_bound. lia. }
  destruct v as [|b|n|n|n|n|n|n|n|n|n|n|b|b|d|[t|]|[t|]|p|o|]; cbn [tlv_bytes] in T; try discriminate T;
    try discriminate W; injection T as <-; try reflexivity; cbn [scalar_wf] in W; cbn [field_ok bytes_ok forallb is_byte andb length].
  - destruct b; reflexivity.
  - specialize (B8 n W). unfold is_byte. lia.
  - unfold in_u in W. unfold is_byte. cbn. lia.
  - specialize (B8 n W). unfold is_byte. lia.
  - unfold in_u in W. unfold is_byte. cbn. lia.
  - apply andb_true_iff. split; [|reflexivity]. unfold datetime_bytes.
    repeat (rewrite bytes_ok_app; apply andb_true_iff; split); try apply le32_ok.
    all: destruct (dt_west d); reflexivity.
  - apply andb_true_iff. split.
    + rewrite bytes_ok_app. apply andb_true_iff. split; [|reflexivity]. unfold is_cstr in W. unfold bytes_ok.
      rewrite forallb_forall in *. intros x Hx. specialize (W x Hx). unfold is_byte. lia.
    + rewrite app_length. cbn [length]. unfold short in L. lia.
  - rewrite W. unfold short in L. cbn. lia.
Qed.

Lemma fields_ok :
  (forall v, sendable_value v = true -> forallb field_ok (value_fields v) = true) /\
  (forall p, sendable_props p = true -> forallb field_ok (props_fields p) = true) /\
  (forall o, sendable_object o = true -> forall sib, forallb field_ok (object_fields sib o) = true).
Proof.
  apply value_mutind.
  all: try (intros; reflexivity).
  all: try (intros n H; cbn [value_fields forallb]; cbn [sendable_value] in H;
    apply andb_true_iff; split; [reflexivity|]; rewrite andb_true_r;
    eapply tlv_field; [exact H|reflexivity|reflexivity]).
  all: try (intros n H; cbn in H |- *; unfold in_s, in_u in H; cbn in H; lia).
  - intros n H. cbn [sendable_value scalar_wf] in H. unfold in_u in H.
    cbn [value_fields forallb]. pose proof (to_signed_range32 n). cbn in *. lia.
  - intros n H. cbn [sendable_value scalar_wf] in H. unfold in_u in H.
    cbn [value_fields forallb field_ok]. unfold to_signed. change (2 ^ (64 - 1)) with 9223372036854775808.
    change (2 ^ 64) with 18446744073709551616 in *.
    destruct (n <? 9223372036854775808) eqn:E; cbn; lia.
  - intros b H. cbn [sendable_value scalar_wf] in H. unfold in_u in H.
    cbn [value_fields forallb]. pose proof (widen_range b). cbn in *. lia.
  - intros [s|] H; [|discriminate H]. cbn [sendable_value] in H. apply andb_true_iff in H as [W L].
    cbn [value_fields forallb tlv_bytes]. apply andb_true_iff. split; [reflexivity|]. rewrite andb_true_r.
    exact (tlv_field (VString (Some s)) _ W eq_refl L).
  - intros [s|] H; [|discriminate H]. cbn [sendable_value] in H. apply andb_true_iff in H as [W L].
    cbn [value_fields forallb tlv_bytes]. apply andb_true_iff. split; [reflexivity|]. rewrite andb_true_r.
    exact (tlv_field (VBytes (Some s)) _ W eq_refl L).
  - intros p IH H. cbn [sendable_value] in H. apply andb_true_iff in H as [H N]. rewrite nprops_count in N.
    cbn [value_fields forallb]. rewrite IH by exact H. pose proof (nprops_range p). cbn. lia.
  - intros o IH H. cbn [value_fields forallb]. rewrite IH by (cbn [sendable_value] in H; now destruct o). reflexivity.
  - intros name v IHv next IHn H. cbn [sendable_props] in H. apply andb_true_iff in H as [H Hn]. apply andb_true_iff in H as [Hm Hv].
    cbn [props_fields forallb]. rewrite forallb_app, IHv, IHn, (name_field _ Hm) by assumption. reflexivity.
  - intros name t props IHp children IHc next IHn H sib. cbn [sendable_object] in H.
    repeat (apply andb_true_iff in H as [H ?]). rewrite nprops_count, nobjs_count in *.
    pose proof (nprops_range props). pose proof (nobjs_range children).
    cbn [object_fields forallb]. rewrite forallb_app. cbn [forallb]. rewrite forallb_app.
    rewrite (name_field _ H), in_s32_field, IHp, IHc by assumption.
    assert (Z : field_ok (FI32 (nprops props)) = true) by (cbn; lia). assert (Y : field_ok (FI32 (nobjs children)) = true) by (cbn; lia).
    rewrite Z, Y. destruct sib; [now rewrite IHn|reflexivity].
Qed.

(** ** Reading *)
Lemma read_string_at : forall pre s r k, field_ok (FStr s) = true ->
  get_string (at_pos pre (field_bytes (FStr s) ++ r) k) = Ok (the_name s, at_pos (pre ++ field_bytes (FStr s)) r k).
Proof.
  intros pre s r k H. pose proof (read_field_spec pre (FStr s) r k H) as R. cbn [read_field] in R.
  destruct (get_string _) as [[x m]| |]; cbn [map_res] in R; try discriminate R. destruct s; cbn [read_back] in R; apply ok_pair in R as [R <-];
  injection R as ->; reflexivity.
Qed.
Lemma read_int32_at : forall pre n r k, field_ok (FI32 n) = true ->
  get_int32 (at_pos pre (field_bytes (FI32 n) ++ r) k) = Ok (n, at_pos (pre ++ field_bytes (FI32 n)) r k).
Proof.
  intros pre n r k H. pose proof (read_field_spec pre (FI32 n) r k H) as R. cbn [read_field read_back] in R.
  destruct (get_int32 _) as [[x m]| |]; cbn [map_res] in R; try discriminate R. apply ok_pair in R as [R <-]. injection R as ->. reflexivity.
Qed.
Lemma read_int64_at : forall pre n r k, field_ok (FI64 n) = true ->
  get_int64 (at_pos pre (field_bytes (FI64 n) ++ r) k) = Ok (n, at_pos (pre ++ field_bytes (FI64 n)) r k).
Proof.
  intros pre n r k H. pose proof (read_field_spec pre (FI64 n) r k H) as R. cbn [read_field read_back] in R.
  destruct (get_int64 _) as [[x m]| |]; cbn [map_res] in R; try discriminate R. apply ok_pair in R as [R <-]. injection R as ->. reflexivity.
Qed.
Lemma read_double_at : forall pre n r k, field_ok (FDbl n) = true ->
  get_double (at_pos pre (field_bytes (FDbl n) ++ r) k) = Ok (n, at_pos (pre ++ field_bytes (FDbl n)) r k).
Proof.
  intros pre n r k H. pose proof (read_field_spec pre (FDbl n) r k H) as R. cbn [read_field read_back] in R.
  destruct (get_double _) as [[x m]| |]; cbn [map_res] in R; try discriminate R. apply ok_pair in R as [R <-]. injection R as ->. reflexivity.
Qed.
Lemma read_bin_at : forall pre n r k, field_ok (FBin n) = true ->
  get_msg_bytes (at_pos pre (field_bytes (FBin n) ++ r) k) = Ok (n, at_pos (pre ++ field_bytes (FBin n)) r k).
Proof.
  intros pre n r k H. pose proof (read_field_spec pre (FBin n) r k H) as R. cbn [read_field read_back] in R.
  destruct (get_msg_bytes _) as [[x m]| |]; cbn [map_res] in R; try discriminate R. apply ok_pair in R as [R <-]. injection R as ->. reflexivity.
Qed.
Lemma bin_pointer : forall pre s r k, skipn (Z.to_nat (m_read (at_pos (pre ++ field_bytes (FBin s)) r k)) - length s)
  (m_data (at_pos (pre ++ field_bytes (FBin s)) r k)) = s ++ r.
Proof.
  intros. unfold at_pos. cbn [m_read m_data]. cbn [field_bytes]. unfold pack_bin.
  set (h := if _ <? 256 then _ else _). clearbody h.
  rewrite !app_assoc, Nat2Z.id. rewrite (app_length (pre ++ h) s). replace (_ - _)%nat with (length (pre ++ h)) by lia.
  rewrite <- app_assoc, skipn_app, skipn_all, Nat.sub_diag. reflexivity.
Qed.

(** Fuel a value needs. *)
Fixpoint vneed (v : value) : nat :=
  match v with
  | VObject o => S (oneed false o)
  | VProperty p => S (S (pneed p))
  | _ => 1
  end%nat
with pneed (p : property) : nat :=
  match p with PNil => 1 | PCons _ v next => S (vneed v + pneed next) end%nat
with oneed (siblings : bool) (o : object) : nat :=
  match o with
  | ONull => 1
  | Obj _ _ props children next => S (S (S (S (pneed props)) + oneed true children) + (if siblings then oneed true next else 0))
  end%nat.

Lemma datetime_length : forall d, length (datetime_bytes d) = 48%nat.
Proof. intros d. reflexivity. Qed.
Lemma to_signed8 : forall n, in_s 8 n = true -> to_signed 8 (to_unsigned 8 n) = n.
Proof. intros n H. apply to_signed_unsigned; [lia|]. unfold in_s in H. lia. Qed.

Lemma default_value : forall v s r, scalar_wf v = true -> tlv_bytes v = Ok s ->
  (match v with VInt16 _ | VUInt16 _ | VInt32 _ | VUInt32 _ | VInt64 _ | VUInt64 _ | VSingle _ | VDouble _ => false | _ => true end) = true ->
  set_tlv (vtype v) (s ++ r) s = Ok v.
Proof.
  intros v s r W T K.
  destruct v as [|b|n|n|n|n|n|n|n|n|n|n|b|b|d|[t|]|[t|]|p|o|]; cbn [tlv_bytes] in T; try discriminate T; try discriminate K;
    try discriminate W; injection T as <-; cbn [scalar_wf] in W; try (destruct b; reflexivity); try reflexivity.
  - cbn -[to_signed to_unsigned]. now rewrite to_signed8.
  - cbn -[to_signed to_unsigned]. now rewrite to_signed8.
  - unfold set_tlv. cbn [vtype]. rewrite datetime_length. cbn -[datetime_of datetime_bytes]. now rewrite datetime_rt.
  - unfold set_tlv. cbn [vtype]. change (RBUS_STRING =? RBUS_STRING) with true. cbv iota.
    rewrite <- app_assoc. cbn [app]. rewrite c_str_app by exact W.
    rewrite app_length. cbn [length]. replace (_ =? _) with true by lia. reflexivity.
Qed.

Lemma legacy_false : forall v, (0 <=? vtype v) && (vtype v <=? 11) = false.
Proof. destruct v; reflexivity. Qed.
Lemma vtype_field : forall v, field_ok (FI32 (vtype v)) = true.
Proof. destruct v; reflexivity. Qed.

Lemma init_value_scalar : forall v fuel pre r k, scalar_wf v = true -> sendable_value v = true ->
  init_value (S fuel) (at_pos pre (all_bytes (value_fields v) ++ r) k) =
  Ok (seen_value v, at_pos (pre ++ all_bytes (value_fields v)) r k).
Proof.
  intros v fuel pre r k W H.
  pose proof (proj1 fields_ok v H) as F.
  assert (D : forall s, (match v with VInt16 _ | VUInt16 _ | VInt32 _ | VUInt32 _ | VInt64 _ | VUInt64 _ | VSingle _ | VDouble _ => false | _ => true end) = true ->
     tlv_bytes v = Ok s -> value_fields v = [FI32 (vtype v); FBin s] ->
     init_value (S fuel) (at_pos pre (all_bytes (value_fields v) ++ r) k) = Ok (v, at_pos (pre ++ all_bytes (value_fields v)) r k)).
  { intros s K T E. rewrite E in *. rewrite !all_bytes_cons. cbn [all_bytes flat_map]. rewrite app_nil_r, <- !app_assoc.
    cbn [forallb] in F. apply andb_true_iff in F as [F0 F]. rewrite andb_true_r in F.
    cbn [init_value]. rewrite read_int32_at by exact F0. cbn [need obind]. rewrite legacy_false.
    pose proof (default_value v s r W T K) as DV.
    destruct v; try discriminate W; try discriminate K; cbn [vtype] in *;
      repeat match goal with |- context [?a =? ?b] => let x := eval vm_compute in (a =? b) in change (a =? b) with x; cbv iota end;
      rewrite read_bin_at by exact F; cbn [need obind]; rewrite bin_pointer, DV; cbn [obind]; rewrite <- app_assoc; reflexivity. }
  destruct v as [|b|n|n|n|n|n|n|n|n|n|n|b|b|d|[t|]|[t|]|p|o|]; try discriminate W;
    try (cbn [seen_value]; eapply D; reflexivity); try discriminate H;
    clear D; cbn [seen_value]; cbn [value_fields forallb] in *; apply andb_true_iff in F as [F0 F]; rewrite andb_true_r in F;
    rewrite !all_bytes_cons; cbn [all_bytes flat_map]; rewrite app_nil_r, <- !app_assoc;
    cbn [init_value]; rewrite read_int32_at by exact F0; cbn [need obind vtype];
    repeat match goal with |- context [RBUS_INT16 =? ?b] => let x := eval vm_compute in (RBUS_INT16 =? b) in change (RBUS_INT16 =? b) with x; cbv iota end.
  all: cbn [scalar_wf] in W.
  all: match goal with |- context [0 <=? ?t] => let x := eval vm_compute in ((0 <=? t) && (t <=? 11)) in change ((0 <=? t) && (t <=? 11)) with x; cbv iota end.
  all: repeat match goal with |- context [if ?a =? ?b then _ else _] => let x := eval vm_compute in (a =? b) in change (a =? b) with x; cbv iota end.
  - rewrite read_int32_at by exact F. cbn [need obind]. rewrite to_signed_unsigned by (unfold in_s in W; lia). now rewrite app_assoc.
  - rewrite read_int32_at by exact F. cbn [need obind]. unfold to_unsigned. rewrite Z.mod_small by (unfold in_u in W; lia). now rewrite app_assoc.
  - rewrite read_int32_at by exact F. cbn [need obind]. now rewrite app_assoc.
  - rewrite read_int32_at by exact F. cbn [need obind]. rewrite to_unsigned_signed by (unfold in_u in W; lia). now rewrite app_assoc.
  - rewrite read_int64_at by exact F. cbn [need obind]. now rewrite app_assoc.
  - rewrite read_int64_at by exact F. cbn [need obind]. rewrite to_unsigned_signed by (unfold in_u in W; lia). now rewrite app_assoc.
  - rewrite read_double_at by exact F. cbn [need obind]. cbn [sendable_value] in H. apply andb_true_iff in H as [_ H].
    rewrite narrow_widen; [now rewrite app_assoc|unfold in_u in W; lia|now destruct (signalling b)].
  - rewrite read_double_at by exact F. cbn [need obind]. now rewrite app_assoc.
Qed.

Lemma init_spec :
  (forall v, sendable_value v = true -> forall fuel pre r k, (vneed v <= fuel)%nat ->
     init_value fuel (at_pos pre (all_bytes (value_fields v) ++ r) k) =
     Ok (seen_value v, at_pos (pre ++ all_bytes (value_fields v)) r k)) /\
  (forall p, sendable_props p = true -> forall fuel pre r k, (pneed p <= fuel)%nat ->
     init_props fuel (nprops p) (at_pos pre (all_bytes (props_fields p) ++ r) k) =
     Ok (seen_props p, at_pos (pre ++ all_bytes (props_fields p)) r k)) /\
  (forall o, sendable_object o = true ->
     (o <> ONull -> forall fuel pre r k, (oneed false o <= fuel)%nat ->
        init_object fuel (at_pos pre (all_bytes (object_fields false o) ++ r) k) =
        Ok (seen_object false o, at_pos (pre ++ all_bytes (object_fields false o)) r k)) /\
     (forall fuel pre r k, (oneed true o <= fuel)%nat ->
        init_objects fuel (nobjs o) (at_pos pre (all_bytes (object_fields true o) ++ r) k) =
        Ok (seen_object true o, at_pos (pre ++ all_bytes (object_fields true o)) r k))).
Proof.
  apply value_mutind.
  all: try (intros; destruct fuel as [|fuel]; [cbn in *; lia|]; apply init_value_scalar;
            [cbn [sendable_value] in *; solve [assumption | match goal with H : _ && _ = true |- _ => apply andb_true_iff in H as [H _]; exact H end]|assumption]).
  - intros H fuel pre r k L. destruct fuel as [|fuel]; [cbn in *; lia|].
    cbn [value_fields tlv_bytes all_bytes flat_map seen_value vtype]. rewrite app_nil_r, <- !app_assoc.
    cbn [init_value]. rewrite read_int32_at by reflexivity. cbn [need obind].
    change ((0 <=? RBUS_NONE) && (RBUS_NONE <=? 11)) with false. cbv iota.
    repeat match goal with |- context [if ?a =? ?b then _ else _] => let x := eval vm_compute in (a =? b) in change (a =? b) with x; cbv iota end.
    rewrite read_bin_at by reflexivity. cbn [need obind]. rewrite bin_pointer. cbn [app].
    change (set_tlv RBUS_NONE r []) with (Ok VNone : outcome unit value). cbn [obind]. now rewrite app_assoc.
  - intros [s|] H fuel pre r k L; [|discriminate H]. destruct fuel as [|fuel]; [cbn in *; lia|]. apply init_value_scalar; [|exact H].
    cbn [sendable_value] in H. now apply andb_true_iff in H as [H _].
  - intros [s|] H fuel pre r k L; [|discriminate H]. destruct fuel as [|fuel]; [cbn in *; lia|]. apply init_value_scalar; [|exact H].
    cbn [sendable_value] in H. now apply andb_true_iff in H as [H _].
  - intros p IH H fuel pre r k L. cbn [vneed] in L. destruct fuel as [|[|fuel]]; [lia|lia|].
    cbn [sendable_value] in H. apply andb_true_iff in H as [H N]. rewrite nprops_count in N. pose proof (nprops_range p).
    cbn [value_fields seen_value vtype]. rewrite !all_bytes_cons, <- !app_assoc.
    cbn [init_value]. rewrite read_int32_at by reflexivity. cbn [need obind].
    change ((0 <=? RBUS_PROPERTY) && (RBUS_PROPERTY <=? 11)) with false. cbv iota.
    repeat match goal with |- context [if ?a =? ?b then _ else _] => let x := eval vm_compute in (a =? b) in change (a =? b) with x; cbv iota end.
    cbn [init_plist]. rewrite read_int32_at by (cbn; lia). cbn [need obind]. rewrite IH by (assumption || lia). cbn [obind].
    now rewrite <- !app_assoc.
  - intros o IH H fuel pre r k L. cbn [vneed] in L. destruct fuel as [|fuel]; [lia|].
    assert (Ho : sendable_object o = true) by (cbn [sendable_value] in H; now destruct o).
    destruct (IH Ho) as [IHo _]. specialize (IHo ltac:(now destruct o)).
    cbn [value_fields seen_value vtype]. rewrite !all_bytes_cons, <- !app_assoc.
    cbn [init_value]. rewrite read_int32_at by reflexivity. cbn [need obind].
    change ((0 <=? RBUS_OBJECT) && (RBUS_OBJECT <=? 11)) with false. cbv iota. change (RBUS_OBJECT =? RBUS_OBJECT) with true. cbv iota.
    rewrite IHo by lia. cbn [obind]. now rewrite <- !app_assoc.
  - intros H fuel pre r k L. destruct fuel as [|fuel]; [cbn in *; lia|].
    cbn [value_fields tlv_bytes all_bytes flat_map seen_value vtype]. rewrite app_nil_r, <- !app_assoc.
    cbn [init_value]. rewrite read_int32_at by reflexivity. cbn [need obind].
    change ((0 <=? RBUS_NONE) && (RBUS_NONE <=? 11)) with false. cbv iota.
    repeat match goal with |- context [if ?a =? ?b then _ else _] => let x := eval vm_compute in (a =? b) in change (a =? b) with x; cbv iota end.
    rewrite read_bin_at by reflexivity. cbn [need obind]. rewrite bin_pointer. cbn [app].
    change (set_tlv RBUS_NONE r []) with (Ok VNone : outcome unit value). cbn [obind]. now rewrite app_assoc.
  - intros _ fuel pre r k L. cbn [pneed] in L. destruct fuel as [|fuel]; [lia|]. cbn. now rewrite app_nil_r.
  - intros name v IHv next IHn H fuel pre r k L. cbn [pneed] in L. destruct fuel as [|fuel]; [lia|].
    cbn [sendable_props] in H. apply andb_true_iff in H as [H Hn]. apply andb_true_iff in H as [Hm Hv].
    cbn [props_fields seen_props nprops]. rewrite !all_bytes_cons, all_bytes_app, <- !app_assoc.
    cbn [init_props]. pose proof (nprops_range next). replace (1 + nprops next <=? 0) with false by lia.
    rewrite read_string_at by now apply name_field. cbn [need obind].
    rewrite IHv by (assumption || lia). cbn [obind]. replace (1 + nprops next - 1) with (nprops next) by lia.
    rewrite IHn by (assumption || lia). cbn [obind]. now rewrite <- !app_assoc.
  - intros _. split; [congruence|]. intros fuel pre r k L. cbn [oneed] in L. destruct fuel as [|fuel]; [lia|]. cbn. now rewrite app_nil_r.
  - intros name t props IHp children IHc next IHn H.
    pose proof H as H0. cbn [sendable_object] in H. repeat (apply andb_true_iff in H as [H ?]). rewrite nprops_count, nobjs_count in *.
    pose proof (nprops_range props) as RP. pose proof (nobjs_range children) as RC. pose proof (nobjs_range next) as RN.
    assert (ONE : forall fuel pre r k, (S (S (S (pneed props)) + oneed true children) <= fuel)%nat ->
        init_object fuel (at_pos pre (all_bytes (object_fields false (Obj name t props children next)) ++ r) k) =
        Ok (seen_object false (Obj name t props children next), at_pos (pre ++ all_bytes (object_fields false (Obj name t props children next))) r k)).
    { intros fuel pre r k L. destruct fuel as [|[|fuel]]; [lia|lia|].
      cbn [object_fields seen_object]. rewrite !app_nil_r. rewrite !all_bytes_cons, all_bytes_app, all_bytes_cons, <- !app_assoc.
      cbn [init_object]. rewrite read_string_at by now apply name_field. cbn [need obind].
      rewrite read_int32_at by now apply in_s32_field. cbn [need obind].
      cbn [init_plist]. rewrite read_int32_at by (cbn; lia). cbn [need obind].
      rewrite IHp by (assumption || lia). cbn [obind]. rewrite read_int32_at by (cbn; lia). cbn [need obind].
      rewrite (proj2 (IHc ltac:(assumption))) by lia. cbn [obind]. now rewrite <- !app_assoc. }
    split.
    + intros _ fuel pre r k L. apply ONE. cbn [oneed] in L. lia.
    + intros fuel pre r k L. cbn [oneed] in L. destruct fuel as [|fuel]; [lia|].
      assert (SPL : object_fields true (Obj name t props children next) =
                    object_fields false (Obj name t props children next) ++ object_fields true next).
      { cbn [object_fields]. rewrite app_nil_r. rewrite <- !app_comm_cons. rewrite <- app_assoc. reflexivity. }
      rewrite SPL, all_bytes_app, <- !app_assoc. cbn [init_objects nobjs].
      replace (1 + nobjs next <=? 0) with false by lia. rewrite ONE.
      * cbn [obind]. replace (1 + nobjs next - 1) with (nobjs next) by lia.
        rewrite (proj2 (IHn ltac:(assumption))) by lia. cbn [obind seen_object]. now rewrite <- !app_assoc.
      * lia.
Qed.

Lemma need_fields :
  (forall v, (vneed v <= 2 * length (value_fields v))%nat) /\
  (forall p, (pneed p <= 1 + 2 * length (props_fields p))%nat) /\
  (forall o sib, (oneed sib o <= 1 + 2 * length (object_fields sib o))%nat).
Proof.
  apply value_mutind; try (intros; cbn [vneed value_fields length]; lia).
  - intros o IH. cbn [vneed value_fields length]. specialize (IH false). lia.
  - cbn. lia.
  - intros name v IHv next IHn. cbn [pneed props_fields length]. rewrite app_length. lia.
  - intros sib. cbn. lia.
  - intros name t props IHp children IHc next IHn sib. cbn [oneed object_fields length]. rewrite app_length. cbn [length].
    rewrite app_length. specialize (IHc true). specialize (IHn true). destruct sib; [|cbn [length]]; lia.
Qed.
Lemma fields_bytes : forall fs, (length fs <= length (all_bytes fs))%nat.
Proof.
  induction fs as [|f fs IH]; [cbn; lia|]. rewrite all_bytes_cons, app_length. cbn [length].
  pose proof (field_bytes_nonempty f). destruct (field_bytes f); [congruence|]. cbn [length]. lia.
Qed.

Lemma fuel_at : forall pre fs r k, (1 + 2 * length fs <= read_fuel (at_pos pre (all_bytes fs ++ r) k))%nat.
Proof.
  intros. unfold read_fuel, at_pos. cbn [m_data]. rewrite !app_length. pose proof (fields_bytes fs). lia.
Qed.

(** ** Values *)
Lemma value_at : forall v pre r k, sendable_value v = true ->
  value_from_message (at_pos pre (all_bytes (value_fields v) ++ r) k) = Ok (seen_value v, at_pos (pre ++ all_bytes (value_fields v)) r k).
Proof.
  intros v pre r k H. unfold value_from_message. apply init_spec; [exact H|].
  pose proof (proj1 need_fields v). pose proof (fuel_at pre (value_fields v) r k). lia.
Qed.
Lemma object_at : forall o pre r k, sendable_object o = true -> o <> ONull ->
  object_from_message (at_pos pre (all_bytes (object_fields false o) ++ r) k) =
  Ok (seen_object false o, at_pos (pre ++ all_bytes (object_fields false o)) r k).
Proof.
  intros o pre r k H N. unfold object_from_message. apply init_spec; [exact H|exact N|].
  pose proof (proj2 (proj2 need_fields) o false). pose proof (fuel_at pre (object_fields false o) r k). lia.
Qed.
Lemma plist_at : forall p pre r k, sendable_props p = true -> pcount p < 2147483648 ->
  plist_from_message (at_pos pre (all_bytes (FI32 (nprops p) :: props_fields p) ++ r) k) =
  Ok (seen_props p, at_pos (pre ++ all_bytes (FI32 (nprops p) :: props_fields p)) r k).
Proof.
  intros p pre r k H N. rewrite nprops_count in N. pose proof (nprops_range p).
  unfold plist_from_message. pose proof (fuel_at pre (FI32 (nprops p) :: props_fields p) r k) as F.
  pose proof (proj1 (proj2 need_fields) p) as Q. set (fuel := read_fuel _) in *. clearbody fuel. cbn [length] in F.
  destruct fuel as [|fuel]; [lia|]. cbn [init_plist]. rewrite all_bytes_cons, <- app_assoc.
  rewrite read_int32_at by (cbn; lia). cbn [need obind]. rewrite (proj1 (proj2 init_spec)) by (assumption || lia). now rewrite <- app_assoc.
Qed.

(** A receiver's view: the sender appends to a message that already holds [before];
    the receiver has read [before] and finds [after] next. *)
Lemma read_from : forall (m : msg) b r, append (append m b) r = mkMsg (m_data m ++ b ++ r) (m_read m) (m_meta m).
Proof. intros. unfold append. cbn. now rewrite <- app_assoc. Qed.

Definition at_end (m : msg) : msg := mkMsg (m_data m) (msg_size m) (m_meta m).

Lemma at_end_at : forall (m0 : msg) data r, mkMsg (m_data (append (append m0 data) r)) (msg_size m0) (m_meta m0) = at_pos (m_data m0) (data ++ r) (m_meta m0).
Proof. intros. unfold append, at_pos, msg_size. cbn. now rewrite <- app_assoc. Qed.
Lemma at_pos_end : forall (m0 : msg) data r, at_pos (m_data m0 ++ data) r (m_meta m0) = mkMsg (m_data (append (append m0 data) r)) (msg_size (append m0 data)) (m_meta m0).
Proof. intros. unfold append, at_pos, msg_size. cbn. reflexivity. Qed.

Lemma property_roundtrip : forall name v m0 r, name_ok name = true -> sendable_value v = true ->
  exists m1, append_value name v m0 = Ok m1 /\
    property_from_message (mkMsg (m_data (append m1 r)) (msg_size m0) (m_meta m0)) =
    Ok (PCons (Some (the_name name)) (seen_value v) PNil, mkMsg (m_data (append m1 r)) (msg_size m1) (m_meta m0)).
Proof.
  intros name v m0 r Hn Hv. eexists. split; [apply append_spec; exact Hv|].
  rewrite at_end_at. unfold property_from_message.
  rewrite all_bytes_cons, <- app_assoc, read_string_at by now apply name_field. cbn [need obind].
  assert (F : (vneed v <= read_fuel (at_pos (m_data m0) (field_bytes (FStr name) ++ all_bytes (value_fields v) ++ r) (m_meta m0)))%nat).
  { pose proof (proj1 need_fields v). pose proof (fuel_at (m_data m0 ++ field_bytes (FStr name)) (value_fields v) r (m_meta m0)).
    unfold at_pos, read_fuel in *. cbn [m_data] in *. rewrite !app_length in *. lia. }
  rewrite (proj1 init_spec v Hv _ _ _ _ F). cbn [obind]. rewrite <- app_assoc.
  rewrite at_pos_end. reflexivity.
Qed.
Lemma plist_roundtrip : forall p m0 r, sendable_props p = true -> pcount p < 2147483648 ->
  exists m1, append_plist p m0 = Ok m1 /\
    plist_from_message (mkMsg (m_data (append m1 r)) (msg_size m0) (m_meta m0)) =
    Ok (seen_props p, mkMsg (m_data (append m1 r)) (msg_size m1) (m_meta m0)).
Proof.
  intros p m0 r H N. eexists. split.
  - unfold append_plist. rewrite (proj1 (proj2 append_spec) p H). unfold set_int32. rewrite append_append. reflexivity.
  - rewrite at_end_at. change (pack_int (nprops p) ++ all_bytes (props_fields p)) with (all_bytes (FI32 (nprops p) :: props_fields p)).
    rewrite plist_at by assumption. now rewrite at_pos_end.
Qed.
Lemma object_roundtrip : forall o m0 r, sendable_object o = true -> o <> ONull ->
  exists m1, append_object false o m0 = Ok m1 /\
    object_from_message (mkMsg (m_data (append m1 r)) (msg_size m0) (m_meta m0)) =
    Ok (seen_object false o, mkMsg (m_data (append m1 r)) (msg_size m1) (m_meta m0)).
Proof.
  intros o m0 r H N. eexists. split; [apply append_spec; exact H|].
  rewrite at_end_at, object_at by assumption. now rewrite at_pos_end.
Qed.

(** Complete values arrive unchanged. *)
Lemma complete_seen :
  (forall v, complete_value v = true -> seen_value v = v) /\
  (forall p, complete_props p = true -> seen_props p = p) /\
  (forall o, complete_object o = true -> seen_object true o = o /\
     (match o with Obj _ _ _ _ (Obj _ _ _ _ _) => false | _ => true end = true -> seen_object false o = o)).
Proof.
  apply value_mutind; try (intros; reflexivity).
  - discriminate.
  - intros p IH H. cbn [seen_value]. now rewrite IH.
  - intros o IH H. cbn [complete_value] in H. apply andb_true_iff in H as [H N]. cbn [seen_value].
    destruct (IH H) as [_ E]. now rewrite E.
  - intros name v IHv next IHn H. cbn [complete_props] in H. apply andb_true_iff in H as [H Hn]. apply andb_true_iff in H as [Hm Hv].
    cbn [seen_props]. rewrite IHv, IHn by assumption. destruct name; [reflexivity|discriminate Hm].
  - intros H. split; reflexivity.
  - intros name t props IHp children IHc next IHn H. cbn [complete_object] in H.
    repeat (apply andb_true_iff in H as [H ?]). destruct name as [nm|]; [|discriminate H].
    assert (T : (if t =? 1 then 1 else 0) = t) by (destruct (t =? 1) eqn:E; lia).
    cbn [seen_object the_name]. rewrite IHp, (proj1 (IHc ltac:(assumption))), (proj1 (IHn ltac:(assumption))), T by assumption.
    split; [reflexivity|]. destruct next; [reflexivity|discriminate].
Qed.

(** ** Filters *)
Fixpoint filter_fields (f : filter) : list field :=
  match f with
  | FNull => [FI32 (-1)]
  | FRel op v => FI32 EXPRESSION_RELATION :: FI32 op :: FStr (Some (bs "filter")) :: value_fields v
  | FLogic op l r => FI32 EXPRESSION_LOGIC :: FI32 op :: filter_fields l ++ (if op =? OP_NOT then [] else filter_fields r)
  end.
Lemma append_filter_spec : forall f, sendable_filter f = true -> forall m,
  append_filter f m = Ok (append m (all_bytes (filter_fields f))).
Proof.
  induction f as [|op v|op l IHl r IHr]; intros H m; cbn [append_filter filter_fields].
  - unfold set_int32. cbn [all_bytes flat_map]. now rewrite app_nil_r.
  - cbn [sendable_filter] in H. apply andb_true_iff in H as [_ Hv]. rewrite (proj1 append_spec v Hv). wr.
    rewrite !all_bytes_cons. cbn [field_bytes]. rewrite <- ?app_assoc; reflexivity.
  - cbn [sendable_filter] in H. apply andb_true_iff in H as [H Hr]. apply andb_true_iff in H as [_ Hl].
    rewrite IHl by exact Hl. cbn [obind]. destruct (op =? OP_NOT).
    + rewrite app_nil_r. wr. rewrite !all_bytes_cons. cbn [field_bytes]. rewrite <- ?app_assoc; reflexivity.
    + rewrite IHr by exact Hr. wr. rewrite !all_bytes_cons, all_bytes_app. cbn [field_bytes]. rewrite <- ?app_assoc; reflexivity.
Qed.
Fixpoint fneed (f : filter) : nat := match f with FLogic _ l r => S (fneed l + fneed r) | _ => 1%nat end.

Lemma init_filter_spec : forall f, sendable_filter f = true -> forall fuel init pre r k, (fneed (seen_filter f) <= fuel)%nat ->
  (f <> FNull \/ init = Ok FNull) ->
  init_filter fuel init (at_pos pre (all_bytes (filter_fields f) ++ r) k) =
  Ok (seen_filter f, at_pos (pre ++ all_bytes (filter_fields f)) r k).
Proof.
  induction f as [|op v|op l IHl r IHr]; intros H fuel init pre rest k L I; cbn [seen_filter fneed] in L;
    (destruct fuel as [|fuel]; [lia|]); cbn [init_filter filter_fields].
  - destruct I as [I|I]; [congruence|]. rewrite all_bytes_cons. cbn [all_bytes flat_map]. rewrite app_nil_r.
    rewrite read_int32_at by reflexivity. cbn [need obind].
    change (-1 =? EXPRESSION_RELATION) with false. change (-1 =? EXPRESSION_LOGIC) with false. cbv iota. rewrite I. reflexivity.
  - cbn [sendable_filter] in H. apply andb_true_iff in H as [Ho Hv].
    rewrite !all_bytes_cons, <- !app_assoc. rewrite read_int32_at by reflexivity. cbn [need obind].
    change (EXPRESSION_RELATION =? EXPRESSION_RELATION) with true. cbv iota.
    rewrite read_int32_at by now apply in_s32_field. cbn [need obind].
    rewrite read_string_at by reflexivity. cbn [need obind].
    match goal with |- context [init_value (read_fuel ?m) ?m] => change (init_value (read_fuel m) m) with (value_from_message m) end.
    rewrite value_at by exact Hv. cbn [obind]. now rewrite <- !app_assoc.
  - cbn [sendable_filter] in H. apply andb_true_iff in H as [H Hr]. apply andb_true_iff in H as [Ho Hl].
    rewrite !all_bytes_cons, all_bytes_app, <- !app_assoc. rewrite read_int32_at by reflexivity. cbn [need obind].
    change (EXPRESSION_LOGIC =? EXPRESSION_RELATION) with false. change (EXPRESSION_LOGIC =? EXPRESSION_LOGIC) with true. cbv iota.
    rewrite read_int32_at by now apply in_s32_field. cbn [need obind].
    rewrite IHl; [|exact Hl|lia|now right]. cbn [obind seen_filter]. change OP_NOT with 2 in *.
    destruct (op =? 2).
    + cbn [all_bytes flat_map app]. rewrite app_nil_r. now rewrite <- !app_assoc.
    + rewrite IHr; [|exact Hr|lia|now right]. cbn [obind]. now rewrite <- !app_assoc.
Qed.
Lemma fneed_fields : forall f, (fneed (seen_filter f) <= 2 * length (filter_fields f))%nat.
Proof.
  induction f as [|op v|op l IHl r IHr]; cbn [seen_filter fneed filter_fields length]; try lia.
  rewrite app_length. change OP_NOT with 2. destruct (op =? 2); cbn [fneed length] in *; lia.
Qed.
Lemma filter_at : forall f pre r k, sendable_filter f = true -> f <> FNull ->
  filter_from_message (at_pos pre (all_bytes (filter_fields f) ++ r) k) = Ok (seen_filter f, at_pos (pre ++ all_bytes (filter_fields f)) r k).
Proof.
  intros f pre r k H N. unfold filter_from_message. apply init_filter_spec; [exact H| |now left].
  pose proof (fneed_fields f). pose proof (fuel_at pre (filter_fields f) r k). lia.
Qed.
Lemma filter_roundtrip : forall f m0 r, sendable_filter f = true -> f <> FNull ->
  exists m1, append_filter f m0 = Ok m1 /\
    filter_from_message (mkMsg (m_data (append m1 r)) (msg_size m0) (m_meta m0)) =
    Ok (seen_filter f, mkMsg (m_data (append m1 r)) (msg_size m1) (m_meta m0)).
Proof.
  intros f m0 r H N. eexists. split; [now apply append_filter_spec|].
  rewrite at_end_at, filter_at by assumption. now rewrite at_pos_end.
Qed.
Lemma complete_filter_seen : forall f, complete_filter f = true -> seen_filter f = f.
Proof.
  induction f as [|op v|op l IHl r IHr]; intros H; cbn [complete_filter seen_filter] in *; [reflexivity| |].
  - now rewrite (proj1 complete_seen v H).
  - apply andb_true_iff in H as [H N]. apply andb_true_iff in H as [Hl Hr]. rewrite IHl, IHr by assumption.
    destruct (op =? 2); [|reflexivity]. destruct r; [reflexivity|discriminate N|discriminate N].
Qed.

(** ** Events *)
Definition event_fields (e : event) (f : filter) (interval duration component : Z) : list field :=
  FStr (ev_name e) :: FI32 (ev_type e) ::
  (match ev_data e with ONull => [FI32 0] | _ => FI32 1 :: object_fields false (ev_data e) end) ++
  (match f with FNull => [FI32 0] | _ => FI32 1 :: filter_fields f end) ++
  [FI32 (to_signed 32 interval); FI32 (to_signed 32 duration); FI32 component].

Lemma append_event_spec : forall e f i d c m, sendable_object (ev_data e) = true -> sendable_filter f = true ->
  append_event e f i d c m = Ok (append m (all_bytes (event_fields e f i d c))).
Proof.
  intros [name t data] f i d c m Ho Hf. unfold append_event, event_fields. cbn [ev_name ev_type ev_data] in *.
  assert (A : forall m, match data with ONull => Ok (set_int32 m 0) | _ => append_object false data (set_int32 m 1) end =
     Ok (append m (all_bytes (match data with ONull => [FI32 0] | _ => FI32 1 :: object_fields false data end))) :> outcome unit msg).
  { intros m'. destruct data as [|nm ot ps cs nx]; [unfold set_int32; cbn [all_bytes flat_map]; now rewrite app_nil_r|].
    rewrite (proj2 (proj2 append_spec) _ Ho). unfold set_int32. rewrite append_append. reflexivity. }
  assert (B : forall m, match f with FNull => Ok (set_int32 m 0) | _ => append_filter f (set_int32 m 1) end =
     Ok (append m (all_bytes (match f with FNull => [FI32 0] | _ => FI32 1 :: filter_fields f end))) :> outcome unit msg).
  { intros m'. destruct f as [|op v|op l r]; [unfold set_int32; cbn [all_bytes flat_map]; now rewrite app_nil_r| |];
    rewrite (append_filter_spec _ Hf); unfold set_int32; rewrite append_append; reflexivity. }
  rewrite A. cbn [obind]. rewrite B. cbn [obind]. wr. rewrite !all_bytes_cons, !all_bytes_app. cbn [all_bytes flat_map field_bytes].
  rewrite ?app_nil_r, <- ?app_assoc. reflexivity.
Qed.

Lemma get_uint32_at : forall pre n r k, 0 <= n < 2 ^ 32 ->
  get_uint32 (at_pos pre (field_bytes (FI32 (to_signed 32 n)) ++ r) k) = Ok (n, at_pos (pre ++ field_bytes (FI32 (to_signed 32 n))) r k).
Proof.
  intros pre n r k H. assert (F : field_ok (FU32 n) = true) by (cbn; lia).
  pose proof (read_field_spec pre (FU32 n) r k F) as R. cbn [read_field read_back] in R.
  change (field_bytes (FI32 (to_signed 32 n))) with (field_bytes (FU32 n)).
  destruct (get_uint32 _) as [[x m]| |]; cbn [map_res] in R; try discriminate R. apply ok_pair in R as [R <-]. injection R as ->. reflexivity.
Qed.

Lemma event_roundtrip : forall e f i d c m0 r,
  name_ok (ev_name e) = true -> in_s 32 (ev_type e) = true -> sendable_object (ev_data e) = true -> sendable_filter f = true ->
  in_u 32 i = true -> in_u 32 d = true -> in_s 32 c = true ->
  exists m1, append_event e f i d c m0 = Ok m1 /\
    event_from_message (mkMsg (m_data (append m1 r)) (msg_size m0) (m_meta m0)) =
    Ok (mkEvent (Some (the_name (ev_name e))) (ev_type e) (seen_object false (ev_data e)), seen_filter f, i, d, c,
        mkMsg (m_data (append m1 r)) (msg_size m1) (m_meta m0)).
Proof.
  intros [name t data] f i d c m0 r Hn Ht Ho Hf Hi Hd Hc. eexists. split; [now apply append_event_spec|].
  rewrite at_end_at. rewrite <- at_pos_end. unfold event_from_message, event_fields. cbn [ev_name ev_type ev_data] in *.
  rewrite !all_bytes_cons, !all_bytes_app, <- !app_assoc.
  rewrite read_string_at by now apply name_field. cbn [need obind].
  rewrite read_int32_at by now apply in_s32_field. cbn [need obind].
  set (pre := (m_data m0 ++ field_bytes (FStr name)) ++ field_bytes (FI32 t)).
  set (k := m_meta m0).
  assert (A : forall pre rest, (do (has_data, m) <- need (get_int32 (at_pos pre (all_bytes (match data with ONull => [FI32 0] | _ => FI32 1 :: object_fields false data end) ++ rest) k));
      (if has_data =? 0 then Ok (ONull, m) else object_from_message m)) =
      Ok (seen_object false data, at_pos (pre ++ all_bytes (match data with ONull => [FI32 0] | _ => FI32 1 :: object_fields false data end)) rest k)).
  { intros pre' rest. destruct data as [|nm ot ps cs nx].
    - rewrite all_bytes_cons. cbn [all_bytes flat_map]. rewrite app_nil_r, read_int32_at by reflexivity. reflexivity.
    - rewrite all_bytes_cons, <- app_assoc, read_int32_at by reflexivity. cbn [need obind]. change (1 =? 0) with false. cbv iota.
      rewrite object_at by (assumption || discriminate). now rewrite <- app_assoc. }
  assert (B : forall pre rest, (do (has_filter, m) <- need (get_int32 (at_pos pre (all_bytes (match f with FNull => [FI32 0] | _ => FI32 1 :: filter_fields f end) ++ rest) k));
      (if has_filter =? 0 then Ok (FNull, m) else filter_from_message m)) =
      Ok (seen_filter f, at_pos (pre ++ all_bytes (match f with FNull => [FI32 0] | _ => FI32 1 :: filter_fields f end)) rest k)).
  { intros pre' rest. destruct f as [|op v|op l rr].
    - rewrite all_bytes_cons. cbn [all_bytes flat_map]. rewrite app_nil_r, read_int32_at by reflexivity. reflexivity.
    - rewrite all_bytes_cons, <- app_assoc, read_int32_at by reflexivity. cbn [need obind]. change (1 =? 0) with false. cbv iota.
      rewrite filter_at by (assumption || discriminate). now rewrite <- app_assoc.
    - rewrite all_bytes_cons, <- app_assoc, read_int32_at by reflexivity. cbn [need obind]. change (1 =? 0) with false. cbv iota.
      rewrite filter_at by (assumption || discriminate). now rewrite <- app_assoc. }
  match goal with |- context [get_int32 (at_pos pre (?x ++ ?rest) k)] => specialize (A pre rest); set (rest1 := rest) in *; set (x1 := x) in * end.
  destruct (need (get_int32 (at_pos pre (x1 ++ rest1) k))) as [[hd m1]| |]; cbn [obind] in A |- *; try discriminate A.
  rewrite A. cbn [obind]. unfold rest1. clear A.
  match goal with |- context [get_int32 (at_pos ?p (?x ++ ?rest) k)] => specialize (B p rest); set (rest2 := rest) in *; set (x2 := x) in *; set (p2 := p) in * end.
  destruct (need (get_int32 (at_pos p2 (x2 ++ rest2) k))) as [[hf m2]| |]; cbn [obind] in B |- *; try discriminate B.
  rewrite B. cbn [obind]. unfold rest2. clear B. rewrite !all_bytes_cons. cbn [all_bytes flat_map app]. rewrite app_nil_r, <- !app_assoc.
  unfold in_u in Hi, Hd.
  rewrite get_uint32_at by lia. cbn [need obind]. rewrite get_uint32_at by lia. cbn [need obind].
  rewrite read_int32_at by now apply in_s32_field. cbn [need obind].
  unfold p2, pre. rewrite <- !app_assoc. reflexivity.
Qed.

Lemma property_exact : forall name v m0 r, name_ok (Some name) = true -> sendable_value v = true -> complete_value v = true ->
  exists m1 m2, append_value (Some name) v m0 = Ok m1 /\
    property_from_message (mkMsg (m_data m1 ++ r) (msg_size m0) (m_meta m0)) = Ok (PCons (Some name) v PNil, m2).
Proof.
  intros name v m0 r Hn Hv Hc. destruct (property_roundtrip (Some name) v m0 r Hn Hv) as (m1 & A & B).
  rewrite (proj1 complete_seen v Hc) in B. exists m1. eexists. split; [exact A|exact B].
Qed.
Lemma object_exact : forall name t props children m0 r,
  sendable_object (Obj name t props children ONull) = true -> complete_object (Obj name t props children ONull) = true ->
  exists m1 m2, append_object false (Obj name t props children ONull) m0 = Ok m1 /\
    object_from_message (mkMsg (m_data m1 ++ r) (msg_size m0) (m_meta m0)) = Ok (Obj name t props children ONull, m2).
Proof.
  intros name t props children m0 r H C. destruct (object_roundtrip _ m0 r H ltac:(discriminate)) as (m1 & A & B).
  rewrite (proj2 (proj2 (proj2 complete_seen) _ C) eq_refl) in B. exists m1. eexists. split; [exact A|exact B].
Qed.
Lemma filter_exact : forall f m0 r, sendable_filter f = true -> f <> FNull -> complete_filter f = true ->
  exists m1 m2, append_filter f m0 = Ok m1 /\
    filter_from_message (mkMsg (m_data m1 ++ r) (msg_size m0) (m_meta m0)) = Ok (f, m2).
Proof.
  intros f m0 r H N C. destruct (filter_roundtrip f m0 r H N) as (m1 & A & B).
  rewrite (complete_filter_seen f C) in B. exists m1. eexists. split; [exact A|exact B].
Qed.
Lemma unsendable :
  (forall name m, append_value name (VString None) m = UB) /\
  (forall name m, append_value name (VBytes None) m = UB) /\
  narrow (widen 2139095041) = 2143289345 /\
  (exists m1, append_value (Some (bs "a")) (VObject ONull) msg_init = Ok m1 /\
     property_from_message (msg_from_bytes (m_data m1)) = UB /\
     exists m2 m3, append_value (Some (bs "b")) (VProperty PNil) m1 = Ok m2 /\
       property_from_message (msg_from_bytes (m_data (set_int32 m2 0))) =
         Ok (PCons (Some (bs "a")) (VObject (Obj (Some (bs "b")) 0 PNil ONull ONull)) PNil, m3)).
Proof.
  split; [reflexivity|]. split; [reflexivity|]. split; [vm_compute; reflexivity|].
  eexists. split; [vm_compute; reflexivity|]. split; [vm_compute; reflexivity|].
  eexists. eexists. split; [vm_compute; reflexivity|]. vm_compute. reflexivity.
Qed.
Lemma length_unchecked : forall s, length s <> 1%nat -> field_ok (FBin s) = true ->
  value_from_message (msg_from_bytes (m_data (set_bytes (set_int32 msg_init RBUS_BOOLEAN) s))) = UB.
Proof.
  intros s L F. unfold value_from_message, set_bytes, set_int32. rewrite append_append. cbn [append msg_init m_data app].
  change (msg_from_bytes (pack_int RBUS_BOOLEAN ++ pack_bin s)) with (at_pos [] (field_bytes (FI32 RBUS_BOOLEAN) ++ field_bytes (FBin s)) 0).
  set (fuel := read_fuel _). assert (exists n, fuel = S n) as [n ->] by (eexists; reflexivity).
  cbn [init_value]. rewrite read_int32_at by reflexivity. cbn [need obind].
  rewrite <- (app_nil_r (field_bytes (FBin s))).
  change ((0 <=? RBUS_BOOLEAN) && (RBUS_BOOLEAN <=? 11)) with false. cbv iota.
  repeat match goal with |- context [if RBUS_BOOLEAN =? ?b then _ else _] => let x := eval vm_compute in (RBUS_BOOLEAN =? b) in change (RBUS_BOOLEAN =? b) with x; cbv iota end.
  rewrite read_bin_at by exact F. cbn [need obind].
  destruct s as [|a [|b s]]; [reflexivity|cbn in L; congruence|reflexivity].
Qed.
