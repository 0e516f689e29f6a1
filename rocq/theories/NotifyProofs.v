(** Proofs about events between a provider and its subscribers. *)
From Coq Require Import String.
From Verif Require Import Common CommonFacts Bytes Errors Value MsgModel MsgSpec MsgProofs WireModel WireSpec WireProofs.
From Verif Require SubsModel SubsSpec SubsProofs SubsProps RetryModel NamesSpec NamesProofs TokenModel.
From Verif Require Import ConsumeModel ConsumeSpec ConsumeProofs NotifyModel NotifySpec.
From Coq Require Import Lia ZifyBool.
Local Open Scope string_scope.
Local Open Scope list_scope.
Local Open Scope Z_scope.

(** ** messages *)
Lemma text_text : forall s, text s = true -> NamesSpec.text_ok s.
Proof. intros s H. unfold text in H. split; lia. Qed.
Lemma text_name : forall s, text s = true -> name_ok (Some s) = true.
Proof. intros s H. unfold text in H. unfold name_ok, short. lia. Qed.
Lemma signed_range : forall n, in_u 32 n = true -> - 2 ^ 31 <= to_signed 32 n < 2 ^ 31.
Proof. intros n B. unfold in_u in B. unfold to_signed. change (32 - 1) with 31. destruct (n <? 2 ^ 31) eqn:E; lia. Qed.
Lemma signed_back : forall n, in_u 32 n = true -> to_unsigned 32 (to_signed 32 n) = n.
Proof.
  intros n B. unfold in_u in B. unfold to_signed, to_unsigned. change (32 - 1) with 31. destruct (n <? 2 ^ 31) eqn:E; [apply Z.mod_small; lia|].
  symmetry. apply (Z.mod_unique _ _ (-1)); lia.
Qed.
Lemma signed_inj : forall a b, in_u 32 a = true -> in_u 32 b = true -> (to_signed 32 a =? to_signed 32 b) = (a =? b).
Proof.
  intros a b A B. destruct (Z.eqb_spec a b) as [->|N]; [apply Z.eqb_refl|]. apply Z.eqb_neq. intros E. apply N.
  rewrite <- (signed_back a A), <- (signed_back b B). now rewrite E.
Qed.
Lemma take_message : forall pre l r k, Z.of_nat (length l) < 2 ^ 32 ->
  get_message (at_pos pre (pack_bin l ++ r) k) = Ok (msg_from_bytes l, at_pos (pre ++ pack_bin l) r k).
Proof.
  intros pre l r k H. unfold get_message, unpack_next, at_pos, msg_size. cbn [m_data m_read m_meta].
  rewrite !app_length, !Nat2Z.inj_add.
  assert (0 < Z.of_nat (length (pack_bin l))).
  { pose proof (field_bytes_nonempty (FMsg l)) as N. cbn [field_bytes] in N. destruct (pack_bin l); [congruence|]. cbn [length]. lia. }
  replace (_ <=? _) with false by lia. rewrite Nat2Z.id, skipn_app, skipn_all, Nat.sub_diag. cbn [app skipn].
  rewrite unpack_pack_bin by assumption. f_equal. f_equal. rewrite <- app_assoc. f_equal. lia.
Qed.

Definition filter_part (f : filter) : list field := match f with FNull => [FI32 0] | _ => FI32 1 :: filter_fields f end.
Lemma payload_data : forall k comp, sendable_filter (q_filter k) = true ->
  payload k comp = Ok (append msg_init (pack_int comp ++ pack_int (to_signed 32 (q_interval k)) ++ pack_int (to_signed 32 (q_duration k)) ++ all_bytes (filter_part (q_filter k)))).
Proof.
  intros k comp SF. unfold payload. destruct (q_filter k) as [|o v|o l r] eqn:F; unfold filter_part.
  - unfold set_int32, append. cbn [m_data m_read m_meta msg_init app all_bytes flat_map field_bytes]. now rewrite app_nil_r, <- !app_assoc.
  - rewrite append_filter_spec by exact SF. rewrite all_bytes_cons. cbn [field_bytes]. unfold set_int32, append. cbn [m_data m_read m_meta msg_init app]. now rewrite <- !app_assoc.
  - rewrite append_filter_spec by exact SF. rewrite all_bytes_cons. cbn [field_bytes]. unfold set_int32, append. cbn [m_data m_read m_meta msg_init app]. now rewrite <- !app_assoc.
Qed.
Lemma read_filter : forall f pre, sendable_filter f = true ->
  (do (has_filter, p) <- need (get_int32 (at_pos pre (all_bytes (filter_part f)) 0)) ;
   if has_filter =? 0 then Ok (FNull, p) else init_filter (read_fuel p) (Ok FNull) p) = Ok (seen_filter f, at_pos (pre ++ all_bytes (filter_part f)) [] 0).
Proof.
  intros f pre SF. assert (X : f = FNull \/ f <> FNull /\ filter_part f = FI32 1 :: filter_fields f) by (destruct f; [now left|right; split; [discriminate|reflexivity]..]).
  destruct X as [->|(N & E)].
  - cbn [filter_part all_bytes flat_map seen_filter]. rewrite read_int32_at by reflexivity. cbn [need obind]. cbn [Z.eqb]. reflexivity.
  - rewrite E, all_bytes_cons. rewrite read_int32_at by reflexivity. cbn [need obind]. change (1 =? 0) with false. cbv iota.
    rewrite <- (app_nil_r (all_bytes (filter_fields f))) at 1 2. rewrite init_filter_spec; [now rewrite <- app_assoc|exact SF| |now left].
    pose proof (fneed_fields f). pose proof (fuel_at (pre ++ field_bytes (FI32 1)) (filter_fields f) [] 0). lia.
Qed.
Definition seat_key (who : list Z) (comp : Z) (k : req) : SubsModel.key := key_of (mkSeat who comp k 0).
Lemma sound_parts : forall k, sound_req k = true -> text (q_event k) = true /\ plain k = true /\ sendable_filter (q_filter k) = true /\ seen_filter (q_filter k) = q_filter k /\ in_u 32 (q_interval k) = true /\ in_u 32 (q_duration k) = true.
Proof.
  intros k H. unfold sound_req in H. apply andb_true_iff in H as [H D]. apply andb_true_iff in H as [H I]. apply andb_true_iff in H as [H C]. apply andb_true_iff in H as [H F]. apply andb_true_iff in H as [H P].
  apply complete_filter_seen in C. tauto.
Qed.
Lemma request_read : forall k who comp initial, sound_req k = true -> sound_who who comp = true -> sound_size k comp ->
  exists q, request_of k who comp initial = Ok q /\ read_request (msg_from_bytes (m_data q)) = Ok (seat_key who comp k, initial).
Proof.
  intros k who comp initial SK SW SZ. destruct (sound_parts k SK) as (T & _ & SF & CF & I & D). apply andb_true_iff in SW as [TW SC].
  unfold request_of. pose proof (payload_data k comp SF) as PD. rewrite PD. cbn [obind]. eexists. split; [reflexivity|].
  apply SZ in PD. unfold msg_size, append in PD. cbn [m_data msg_init app] in PD.
  unfold set_int32, set_string, set_message, append. cbn [m_data m_read m_meta msg_init app]. rewrite NamesProofs.from_start, <- !app_assoc.
  unfold read_request. rewrite NamesProofs.take_string by now apply text_text. cbn [need obind]. rewrite NamesProofs.take_string by now apply text_text. cbn [need obind].
  rewrite NamesProofs.take_int by lia. cbn [need obind]. rewrite take_message by exact PD. cbn [need obind]. rewrite NamesProofs.from_start.
  rewrite NamesProofs.take_int by (unfold in_s in SC; lia). cbn [need obind]. rewrite NamesProofs.take_int by now apply signed_range. cbn [need obind].
  rewrite NamesProofs.take_int by now apply signed_range. cbn [need obind].
  match goal with |- context [get_int32 (at_pos ?p (all_bytes (filter_part ?f)) 0)] => pose proof (read_filter f p SF) as RF; destruct (need (get_int32 (at_pos p (all_bytes (filter_part f)) 0))) as [[hf p1]| |]; cbn [obind] in RF |- *; try discriminate RF end.
  rewrite RF. cbn [obind]. rewrite NamesProofs.take_int by (destruct initial; lia). cbn [need obind].
  rewrite <- (app_nil_r (pack_int 0)). rewrite NamesProofs.take_int by lia. cbn [need obind]. unfold seat_key, key_of. cbn [v_who v_comp v_req]. rewrite CF. destruct initial; reflexivity.
Qed.

(** what can be sent about a subscription *)
Definition sound_key (k : SubsModel.key) : Prop :=
  text (SubsModel.k_event k) = true /\ in_s 32 (SubsModel.k_comp k) = true /\ sendable_filter (SubsModel.k_filter k) = true /\ seen_filter (SubsModel.k_filter k) = SubsModel.k_filter k /\
  SubsSpec.plain_filter (SubsModel.k_filter k) = true /\ SubsModel.k_raw k = false.
Lemma sound_seat_key : forall who comp k, sound_req k = true -> sound_who who comp = true -> sound_key (seat_key who comp k).
Proof.
  intros who comp k SK SW. destruct (sound_parts k SK) as (T & P & SF & CF & I & D). apply andb_true_iff in SW as [TW SC]. unfold sound_key, seat_key, key_of. cbn. repeat (split; [assumption|]). reflexivity.
Qed.
Lemma in_u_unsigned : forall n, in_u 32 (to_unsigned 32 n) = true.
Proof. intros n. unfold in_u, to_unsigned. pose proof (Z.mod_pos_bound n (2 ^ 32) ltac:(lia)). lia. Qed.
Definition about (ev : event) (k : SubsModel.key) : news :=
  (arrives ev, SubsModel.k_filter k, to_unsigned 32 (SubsModel.k_interval k), to_unsigned 32 (SubsModel.k_duration k), SubsModel.k_comp k).
Lemma news_at : forall ev k pre r meta, name_ok (ev_name ev) = true -> in_s 32 (ev_type ev) = true -> sendable_object (ev_data ev) = true -> sound_key k ->
  let b := all_bytes (event_fields ev (SubsModel.k_filter k) (to_unsigned 32 (SubsModel.k_interval k)) (to_unsigned 32 (SubsModel.k_duration k)) (SubsModel.k_comp k)) in
  read_news (at_pos pre (b ++ r) meta) = Ok (about ev k, at_pos (pre ++ b) r meta).
Proof.
  intros ev k pre r meta N T O (TX & SC & SF & CF & _) b.
  destruct (event_roundtrip ev (SubsModel.k_filter k) (to_unsigned 32 (SubsModel.k_interval k)) (to_unsigned 32 (SubsModel.k_duration k)) (SubsModel.k_comp k) (mkMsg pre 0 meta) r N T O SF (in_u_unsigned _) (in_u_unsigned _) SC) as (m1 & A & B).
  rewrite append_event_spec in A by assumption. fold b in A. injection A as <-. unfold append, msg_size in B. cbn [m_data m_meta m_read] in B.
  unfold read_news, at_pos. rewrite <- app_assoc in B. rewrite B. cbn [obind]. rewrite CF. unfold about, arrives. now rewrite app_assoc.
Qed.
Lemma text_length : forall s, text s = true -> Z.of_nat (length (pack_str (s ++ [0]))) < 2 ^ 32.
Proof. intros s H. apply (str_field_length (Some s)). cbn [field_ok]. unfold text in H. apply andb_true_iff in H as [H1 H2]. rewrite H1. apply Z.ltb_lt in H2. apply Z.ltb_lt. lia. Qed.
Lemma meta_short : forall a b, text a = true -> text b = true -> Z.of_nat (length (pack_str (a ++ [0]) ++ pack_str (b ++ [0]) ++ pack_int 1)) < 2 ^ 40.
Proof.
  intros a b A B. apply text_length in A, B. rewrite !app_length, !Nat2Z.inj_add. change (Z.of_nat (length (pack_int 1))) with 1. lia.
Qed.
Lemma event_arrives : forall E ev k who l, text (me E) = true -> name_ok (ev_name ev) = true -> in_s 32 (ev_type ev) = true -> sendable_object (ev_data ev) = true -> sound_key k -> fits ev k ->
  exists m, event_message (me E) ev k = Ok m /\ on_event who l (m_data m) = dispatch who l (SubsModel.k_event k) (about ev k).
Proof.
  intros E ev k who l TM N T O SK F. pose proof SK as (TX & SC & SF & CF & _). unfold event_message.
  pose proof (append_event_spec ev (SubsModel.k_filter k) (to_unsigned 32 (SubsModel.k_interval k)) (to_unsigned 32 (SubsModel.k_duration k)) (SubsModel.k_comp k) msg_init O SF) as A.
  pose proof (F _ A) as SZ. rewrite A. cbn [obind]. eexists. split; [reflexivity|]. unfold append, msg_size in SZ. cbn [m_data msg_init app] in SZ.
  set (b := all_bytes (event_fields ev (SubsModel.k_filter k) (to_unsigned 32 (SubsModel.k_interval k)) (to_unsigned 32 (SubsModel.k_duration k)) (SubsModel.k_comp k))) in *.
  set (n := SubsModel.k_event k) in *.
  assert (TR : m_data (end_meta_write (set_int32 (set_string (set_string (begin_meta_write (append msg_init b)) (Some n)) (Some (me E))) 1)) =
    b ++ (pack_str (n ++ [0]) ++ pack_str (me E ++ [0]) ++ pack_int 1) ++ 210 :: be32 (Z.of_nat (length b))).
  { unfold end_meta_write, set_int32, set_string, begin_meta_write, append, msg_size. cbn [m_data m_read m_meta msg_init app].
    rewrite meta_trailer by lia. now rewrite <- !app_assoc. }
  rewrite TR. unfold on_event, msg_from_bytes. rewrite meta_read_position; [|lia|].
  2:{ now apply meta_short. }
  set (tr := 210 :: be32 (Z.of_nat (length b))). rewrite <- !app_assoc.
  change (mkMsg (b ++ pack_str (n ++ [0]) ++ pack_str (me E ++ [0]) ++ pack_int 1 ++ tr) (Z.of_nat (length b)) 0) with (at_pos b (pack_str (n ++ [0]) ++ pack_str (me E ++ [0]) ++ pack_int 1 ++ tr) 0).
  rewrite NamesProofs.take_string by now apply text_text. cbn [need obind]. rewrite NamesProofs.take_string by now apply text_text. cbn [need obind].
  rewrite NamesProofs.take_int by lia. change (1 =? 0) with false. cbv iota. unfold end_meta_read, at_pos at 1 2 3. cbn [m_data m_meta].
  rewrite <- !app_assoc. pose proof (news_at ev k [] (pack_str (n ++ [0]) ++ pack_str (me E ++ [0]) ++ pack_int 1 ++ tr) 0 N T O SK) as NA. cbv zeta in NA. fold b in NA.
  unfold at_pos at 1 in NA. cbn [app length] in NA. change (Z.of_nat 0) with 0 in NA. rewrite NA. reflexivity.
Qed.
Lemma initial_sendable : forall n v, sendable_value v = true -> sendable_object (ev_data (initial_event n v)) = true.
Proof. intros n v H. cbn [initial_event ev_data sendable_object sendable_props name_ok]. rewrite H. reflexivity. Qed.
Definition got_ok (got : option (Z * value)) : Prop := match got with Some (err, v) => err = E_SUCCESS /\ sendable_value v = true | None => True end.
(** the initial event, if there is one *)
Definition first_news (initial : bool) (got : option (Z * value)) (k : SubsModel.key) : option news :=
  if initial then match got with Some (_, v) => Some (about (initial_event (SubsModel.k_event k) v) k) | None => None end else None.
Lemma unsigned_signed_range : forall n, - 2 ^ 31 <= to_signed 32 (to_unsigned 32 n) < 2 ^ 31.
Proof. intros n. apply signed_range, in_u_unsigned. Qed.
Lemma response_bad : forall rc initial got k id, rc <> E_SUCCESS -> 0 <= rc < 100 ->
  exists r m, response rc initial got k id = Ok r /\ get_int32 (msg_from_bytes (m_data r)) = Ok (rc, m).
Proof.
  intros rc initial got k id N B. unfold response. replace (rc =? E_SUCCESS) with false by lia. rewrite andb_false_r. cbn [obind].
  eexists _, _. split; [reflexivity|]. unfold set_int32, append. cbn [m_data m_read m_meta msg_init app]. rewrite NamesProofs.from_start. apply NamesProofs.take_int. lia.
Qed.
Lemma response_good : forall initial got k id, sound_key k -> got_ok got ->
  exists r m m1 flag x m2 i m3, response E_SUCCESS initial got k id = Ok r /\ get_int32 (msg_from_bytes (m_data r)) = Ok (E_SUCCESS, m) /\
    (if initial then int_or_zero m else Ok (0, m)) = Ok (flag, m1) /\
    (if flag =? 0 then Ok (None, m1) else do (x, m) <- read_news m1 ; Ok (Some x, m)) = Ok (x, m2) /\ x = first_news initial got k /\
    int_or_zero m2 = Ok (i, m3).
Proof.
  intros initial got k id SK G. unfold response. change (E_SUCCESS =? E_SUCCESS) with true. rewrite andb_true_r. pose proof (unsigned_signed_range id) as RI.
  set (j := to_signed 32 (to_unsigned 32 id)) in *.
  assert (TI : forall n pre r, - 2 ^ 31 <= n < 2 ^ 31 -> int_or_zero (at_pos pre (pack_int n ++ r) 0) = Ok (n, at_pos (pre ++ pack_int n) r 0)).
  { intros n pre r B. unfold int_or_zero. now rewrite NamesProofs.take_int. }
  destruct initial; cbn [first_news].
  - destruct got as [[err v]|].
    + destruct G as [-> SV]. change (E_SUCCESS =? E_SUCCESS) with true. cbv iota. pose proof SK as (TX & SC & SF & CF & _).
      rewrite append_event_spec; [|now apply initial_sendable|exact SF]. cbn [obind].
      pose proof (fun pre r => news_at (initial_event (SubsModel.k_event k) v) k pre r 0 (text_name _ TX) eq_refl (initial_sendable _ _ SV) SK) as NA. cbv zeta in NA.
      set (b := all_bytes _) in *. eexists _, _, _, 1, _, _, _, _. split; [reflexivity|]. unfold set_int32, append. cbn [m_data m_read m_meta msg_init app].
      rewrite NamesProofs.from_start, <- !app_assoc. split; [apply NamesProofs.take_int; unfold E_SUCCESS; lia|].
      split; [apply TI; lia|]. change (1 =? 0) with false. cbv iota. rewrite NA. cbn [obind]. split; [reflexivity|]. split; [reflexivity|]. rewrite <- (app_nil_r (pack_int j)). apply TI, RI.
    + cbn [obind]. eexists _, _, _, 0, _, _, _, _. split; [reflexivity|]. unfold set_int32, append. cbn [m_data m_read m_meta msg_init app].
      rewrite NamesProofs.from_start, <- !app_assoc. split; [apply NamesProofs.take_int; unfold E_SUCCESS; lia|]. split; [apply TI; lia|]. cbn [Z.eqb]. split; [reflexivity|]. split; [reflexivity|].
      rewrite <- (app_nil_r (pack_int j)). apply TI, RI.
  - cbn [obind]. eexists _, _, _, 0, _, _, _, _. split; [reflexivity|]. unfold set_int32, append. cbn [m_data m_read m_meta msg_init app].
    rewrite NamesProofs.from_start. split; [apply NamesProofs.take_int; unfold E_SUCCESS; lia|]. split; [reflexivity|]. cbn [Z.eqb]. split; [reflexivity|]. split; [reflexivity|].
    rewrite <- (app_nil_r (pack_int j)). apply TI, RI.
Qed.

(** ** the provider's registry *)
Section Registry.
Import SubsModel SubsProofs.
Lemma request_code ans s b e k s' rc : SubsModel.request ans s b e k = Ok (s', rc) -> k_raw k = false -> 0 <= fst (ans (length (SubsModel.log s))) < 100 ->
  0 <= rc < 100 /\ (rc = E_SUBSCRIPTION_ALREADY_EXIST -> fst (ans (length (SubsModel.log s))) = E_SUBSCRIPTION_ALREADY_EXIST \/ b = true /\ exists x, get_sub (subs s) k = Ok (Some x)).
Proof.
  intros H KR B. unfold SubsModel.request in H. destruct e as [n|]; [|injection H as <- <-; split; [unfold E_ELEMENT_DOES_NOT_EXIST; lia|discriminate]].
  destruct (find_top n (tops s)) as [[up t]|] eqn:F; [|discriminate H].
  destruct ((TokenModel.ntype (el_node t) =? TokenModel.TABLE) && negb (ends_dot (k_event k))); [injection H as <- <-; split; [unfold E_INVALID_EVENT; lia|discriminate]|].
  unfold handle in H. rewrite F in H.
  destruct (ask ans s b (el_info t) k) as [[s1 auto] early] eqn:A. pose proof (ask_called _ _ _ _ _ _ _ _ A) as ((_ & _ & C3 & _) & _ & _ & CL).
  unfold ask in A. rewrite KR in A. cbn [andb] in A.
  destruct early as [err|].
  { injection H as <- <-. destruct (i_handler (el_info t)); [|discriminate A]. destruct (ans (length (SubsModel.log s))) as [er o]. cbn [fst] in *.
    destruct (er =? 0); cbn [negb] in A; [discriminate A|]. assert (err = er) as -> by congruence. split; [exact B|]. auto. }
  clear A CL. rewrite C3 in *. destruct (b && negb (k_interval k =? 0) && ends_dot (k_event k)); [injection H as <- <-; split; [unfold E_INVALID_OPERATION; lia|discriminate]|].
  destruct (get_sub (subs s) k) as [f|[]|] eqn:G; cbn [obind] in H; try discriminate H. rewrite KR in H. cbn [andb] in H.
  destruct b.
  - destruct f as [f|]; [injection H as <- <-; split; [unfold E_SUBSCRIPTION_ALREADY_EXIST; lia|]; right; split; [reflexivity|]; now exists f|].
    destruct (add_sub s1 k auto n (i_node (el_info t) :: up)) as [[[x s2]|]|[]|]; cbn [obind] in H; try discriminate H; [|injection H as <- <-; split; [unfold E_INVALID_INPUT; lia|discriminate]].
    match type of H with (do s <- ?m ; _) = _ => destruct m as [s3|[]|]; cbn [obind] in H; try discriminate H end. injection H as _ <-. split; [unfold E_SUCCESS; lia|discriminate].
  - destruct f as [f|]; [|injection H as <- <-; split; [unfold E_INVALID_INPUT; lia|discriminate]].
    match type of H with (do s <- ?m ; _) = _ => destruct m as [s3|[]|]; cbn [obind] in H; try discriminate H end.
    match type of H with (do s <- ?m ; _) = _ => destruct m as [s4|[]|]; cbn [obind] in H; try discriminate H end.
    injection H as _ <-. split; [unfold E_SUCCESS; lia|discriminate].
Qed.
Lemma request_sub ans s e k s' rc : SubsModel.request ans s true e k = Ok (s', rc) -> k_raw k = false ->
  tops s' = tops s /\
  (rc = E_SUCCESS /\ (exists x n up t, subs s' = subs s ++ [x] /\ s_key x = k /\ s_el x = e /\ e = Some n /\ find_top n (tops s) = Some (up, t) /\ (TokenModel.ntype (el_node t) = TokenModel.TABLE -> ends_dot (k_event k) = true)) /\
     get_sub (subs s) k = Ok None \/
   rc <> E_SUCCESS /\ subs s' = subs s).
Proof.
  intros H KR. pose proof H as H0. apply request_cases in H as [(-> & NS & _)|(n & -> & H)]; [split; [reflexivity|]; right; auto|].
  apply handle_add in H as (up & t & s1 & early & F & C & L & [(E & (C1 & C2 & C3 & _) & N & _)|(_ & x & A & [(RC & _)|(_ & R & _)])]); [split; [exact C1|]; auto| |congruence].
  destruct A as (G & _ & _ & K & SE & _ & X1 & _ & X3 & _). split; [exact X1|]. left. split; [exact RC|]. split; [|exact G]. exists x, n, up, t.
  assert (TT : TokenModel.ntype (el_node t) = TokenModel.TABLE -> ends_dot (k_event k) = true).
  { intros TE. unfold SubsModel.request in H0. rewrite F, TE, Z.eqb_refl in H0. destruct (ends_dot (k_event k)); [reflexivity|]. cbn [andb negb] in H0. rewrite RC in H0. discriminate H0. }
  auto 9.
Qed.
Lemma request_unsub ans s e k s' rc : SubsModel.request ans s false e k = Ok (s', rc) -> tops s' = tops s /\ incl (subs s') (subs s).
Proof.
  intros H. apply request_cases in H as [(-> & NS & _)|(n & -> & H)]; [split; [reflexivity|apply incl_refl]|].
  apply handle_del in H as (up & t & s1 & early & F & C & L & [(E & (C1 & C2 & C3 & _) & N & _)|(_ & _ & x & (_ & _ & X1 & _ & X3 & _))]).
  - split; [exact C1|]. rewrite C3. apply incl_refl.
  - split; [exact X1|]. rewrite X3. apply incl_filter.
Qed.
Definition others (who : list Z) (k : key) : bool := negb (bytes_eqb (k_listener k) who).
Lemma get_sub_listener l k x : get_sub l k = Ok (Some x) -> k_listener (s_key x) = k_listener k /\ In x l.
Proof.
  induction l as [|y l IH]; cbn [get_sub]; [discriminate|]. destruct (key_match (s_key y) k) as [m|[]|] eqn:M; cbn [obind]; try discriminate. destruct m.
  - intros [= <-]. split; [|now left]. unfold key_match in M. destruct (bytes_eqb (k_listener (s_key y)) (k_listener k)) eqn:E; [now apply bytes_eqb_eq in E|discriminate M].
  - intros H. destruct (IH H) as [A B]. split; [exact A|now right].
Qed.
Lemma filter_keys_drop who x (l : list sub) : NoDup (map s_no l) -> In x l -> k_listener (s_key x) = who ->
  List.filter (others who) (map s_key (List.filter (fun y => negb (Nat.eqb (s_no y) (s_no x))) l)) = List.filter (others who) (map s_key l).
Proof.
  intros ND I L. assert (X : forall y, In y l -> s_no y = s_no x -> y = x) by (intros y Y E; eapply nodup_no; eassumption). clear ND I.
  induction l as [|y l IH]; [reflexivity|]. cbn [List.filter map]. destruct (Nat.eqb_spec (s_no y) (s_no x)) as [E|E]; cbn [negb].
  - rewrite (X y (or_introl eq_refl) E). unfold others at 2. rewrite L, bytes_eqb_refl. cbn [negb]. apply IH. intros z Z. apply X. now right.
  - cbn [map List.filter]. rewrite IH by (intros z Z; apply X; now right). reflexivity.
Qed.
Lemma disconnect_others ans found who : forall fuel cur s s', SubsProofs.W s -> disconnect_loop fuel ans found who cur s = Ok s' ->
  tops s' = tops s /\ incl (subs s') (subs s) /\ List.filter (others who) (map s_key (subs s')) = List.filter (others who) (map s_key (subs s)).
Proof.
  induction fuel as [|fuel IH]; intros [c|] s s' HW Q; cbn [disconnect_loop] in Q; try discriminate Q; try (injection Q as <-; split; [reflexivity|]; split; [apply incl_refl|reflexivity]).
  destruct (item c (subs s)) as [[x next]|] eqn:I; [|discriminate Q].
  destruct (bytes_eqb (k_listener (s_key x)) who && found (k_event (s_key x))) eqn:B; cbn [obind] in Q; [|now apply IH in Q].
  destruct (s_el x) as [e|]; cbn [obind] in Q; [|now apply IH in Q].
  match type of Q with context [handle ?a ?b ?c ?d ?k] => destruct (handle a b c d k) as [[s1 r1]|[]|] eqn:A end; cbn [obind] in Q; try discriminate Q.
  assert (W1 : SubsProofs.W s1) by (eapply handle_del_W; [exact HW| |exact A]; reflexivity). apply IH in Q as (Q1 & Q2 & Q3); [|exact W1].
  apply andb_true_iff in B as [B _]. apply bytes_eqb_eq in B.
  apply handle_del in A as (up & t & s2 & early & F & C & L & [(E & (C1 & C2 & C3 & _) & N & _)|(_ & _ & y & (G & _ & X1 & _ & X3 & _))]).
  - rewrite Q1, Q3, C1, C3. split; [reflexivity|]. split; [|reflexivity]. rewrite <- C3. exact Q2.
  - apply get_sub_listener in G as [G1 G2]. cbn [k_listener] in G1. split; [congruence|]. split; [eapply incl_tran; [exact Q2|]; rewrite X3; apply incl_filter|].
    rewrite Q3, X3. apply filter_keys_drop; [apply (w_l s HW)|exact G2|congruence].
Qed.
End Registry.
(** ** the subscriptions of a component *)
Definition mine (who : list Z) (comp : Z) (v : seat) : bool := bytes_eqb (v_who v) who && (v_comp v =? comp).
Definition act_seat (v : seat) : act := (v_req v, false, v_handler v).
Definition good_comp (V : list seat) (who : list Z) (comp : Z) (cs : ConsumeModel.state) : Prop :=
  W cs /\ waiting cs = [] /\ (forall x, In x (entries cs) -> e_dirty x = false) /\ actives cs = map act_seat (List.filter (mine who comp) V).
Lemma mine_spec who comp v : mine who comp v = true <-> v_who v = who /\ v_comp v = comp.
Proof. unfold mine. rewrite andb_true_iff, bytes_eqb_eq, Z.eqb_eq. tauto. Qed.
Lemma entry_seat V who comp cs x : good_comp V who comp cs -> In x (entries cs) ->
  exists v, In v V /\ mine who comp v = true /\ e_req x = v_req v /\ e_handler x = v_handler v /\ e_raw x = Some false.
Proof.
  intros (WS & WA & DI & AC) I. destruct WS as ((K & _) & _). destruct (K x I) as (_ & (r & R) & _). pose proof (DI x I) as D.
  assert (A : In (e_req x, r, e_handler x) (actives cs)). { unfold actives. apply in_flat_map. exists x. split; [exact I|]. unfold act_of. rewrite D, R. now left. }
  rewrite AC in A. apply in_map_iff in A as (v & E & Iv). apply filter_In in Iv as [Iv M]. unfold act_seat in E. exists v. rewrite R.
  assert (e_req x = v_req v /\ e_handler x = v_handler v /\ r = false) as (E1 & E2 & ->) by (repeat split; congruence). auto.
Qed.
Lemma seat_entry V who comp cs v : good_comp V who comp cs -> In v V -> mine who comp v = true ->
  exists x, In x (entries cs) /\ e_req x = v_req v /\ e_handler x = v_handler v /\ e_raw x = Some false.
Proof.
  intros (WS & WA & DI & AC) I M. assert (A : In (act_seat v) (actives cs)) by (rewrite AC; apply in_map, filter_In; auto).
  unfold actives in A. apply in_flat_map in A as (x & Ix & A). exists x. split; [exact Ix|]. unfold act_of in A. rewrite (DI x Ix) in A. destruct (e_raw x) as [r|]; [|destruct A].
  destruct A as [A|[]]. unfold act_seat in A. assert (e_req x = v_req v /\ e_handler x = v_handler v /\ r = false) as (E1 & E2 & ->) by (repeat split; congruence). auto.
Qed.
Lemma seek V who comp cs k : good_comp V who comp cs -> plain k = true ->
  (find_sub (entries cs) k false = Ok None /\ forall v, In v V -> same_seat who comp k v = false) \/
  (exists a x b v, find_sub (entries cs) k false = Ok (Some (a, x, b)) /\ entries cs = a ++ x :: b /\ e_dirty x = false /\ e_raw x = Some false /\ (exists i, e_id x = Some i) /\
     In v V /\ same_seat who comp k v = true /\ e_req x = v_req v /\ e_handler x = v_handler v).
Proof.
  intros G P. pose proof G as ((WE1 & WW) & WA & DI & AC). destruct (find_sub_ok _ k false WE1 P) as [(F & N)|(a & x & b & F & E & X & N)].
  - left. split; [exact F|]. intros v Iv. apply not_true_is_false. intros Q. unfold same_seat in Q. apply andb_true_iff in Q as [Q1 Q2]. fold (mine who comp v) in Q1.
    destruct (seat_entry V who comp cs v G Iv Q1) as (y & Iy & E1 & E2 & E3). specialize (N y Iy). unfold same_entry in N. rewrite E1, E3, Q2 in N. discriminate N.
  - right. assert (Ix : In x (entries cs)) by (rewrite E; apply in_elt). destruct (entry_seat V who comp cs x G Ix) as (v & Iv & M & E1 & E2 & E3). exists a, x, b, v.
    assert (KX : known x) by (apply WE1; exact Ix). destruct KX as (_ & _ & KI). assert (SS : same_seat who comp k v = true).
    { unfold same_seat. fold (mine who comp v). rewrite M. unfold same_entry in X. rewrite E1 in X. now apply andb_true_iff in X as [X _]. }
    split; [exact F|]. split; [exact E|]. split; [now apply DI|]. auto 9.
Qed.
Lemma good_deliver V who comp cs k : good_comp V who comp cs -> plain k = true ->
  exists hs, deliver cs k false RetryModel.Accepted = Ok (cs, hs) /\
  ((hs = [] /\ forall v, In v V -> same_seat who comp k v = false) \/ exists v, hs = [v_handler v] /\ In v V /\ same_seat who comp k v = true).
Proof.
  intros G P. unfold deliver. destruct (seek V who comp cs k G P) as [(-> & N)|(a & x & b & v & -> & E & D & R & I & Iv & SS & E1 & E2)]; cbn [obind].
  - exists []. auto.
  - rewrite D. cbn [obind negb]. exists [e_handler x]. split; [reflexivity|]. right. exists v. rewrite E2. auto.
Qed.
Lemma good_subscribe V who comp cs k h id : good_comp V who comp cs -> plain k = true -> (forall v, In v V -> same_seat who comp k v = false) ->
  begin_sub cs k false = Ok (Some cs) /\
  (exists cs', subscribe cs k false h RetryModel.Accepted id = Ok (cs', E_SUCCESS) /\ good_comp (V ++ [mkSeat who comp k h]) who comp cs') /\
  (forall c, c <> E_SUCCESS -> c <> E_SUBSCRIPTION_ALREADY_EXIST -> exists cs', subscribe cs k false h (RetryModel.Refused c) id = Ok (cs', c) /\ good_comp V who comp cs').
Proof.
  intros G P N. pose proof G as ((WE1 & WW) & WA & DI & AC).
  destruct (seek V who comp cs k G P) as [(F & _)|(a & x & b & v & _ & _ & _ & _ & _ & Iv & SS & _)]; [|rewrite N in SS; [discriminate|exact Iv]].
  assert (B : begin_sub cs k false = Ok (Some cs)) by (unfold begin_sub; rewrite F, WA; reflexivity). split; [exact B|]. split.
  - unfold subscribe. rewrite B. cbn [obind]. set (s1 := mkState _ _ _). destruct (replace_ok s1 k false h id) as (R & WR); [exact WE1|exact P|]. unfold fresh_entry in R, WR. rewrite R. cbn [obind].
    eexists. split; [reflexivity|]. assert (DN : drop_k k false (entries cs) = entries cs).
    { apply drop_none. intros y Y. destruct (entry_seat V who comp cs y G Y) as (v & Iv & M & E1 & E2 & E3). unfold same_entry. rewrite E1, E3. specialize (N v Iv). unfold same_seat in N. fold (mine who comp v) in N. rewrite M in N. cbn [andb] in N. now rewrite N. }
    cbn [s1 entries waiting] in *. rewrite DN in *. split; [split; [exact WR|exact WW]|]. split; [exact WA|]. split.
    + intros y Y. cbn [entries] in Y. apply in_app_iff in Y as [Y|[<-|[]]]; [now apply DI|reflexivity].
    + unfold actives. cbn [entries]. rewrite acts_app. fold (actives cs). rewrite AC, filter_app, map_app. f_equal. cbn [List.filter]. unfold mine at 1. cbn [v_who v_comp]. rewrite bytes_eqb_refl, Z.eqb_refl. reflexivity.
  - intros c N1 N2. unfold subscribe. rewrite B. cbn [obind]. replace (c =? E_SUBSCRIPTION_ALREADY_EXIST) with false by lia. replace (c =? E_SUCCESS) with false by lia.
    eexists. split; [reflexivity|]. split; [split; [exact WE1|exact WW]|]. split; [exact WA|]. split; [exact DI|exact AC].
Qed.
Lemma filter_map_seat f g (l : list seat) : (forall v, In v l -> f (act_seat v) = g v) -> List.filter f (map act_seat l) = map act_seat (List.filter g l).
Proof.
  induction l as [|v l IH]; intros H; [reflexivity|]. cbn [map List.filter]. rewrite (H v (or_introl eq_refl)), IH by (intros; apply H; now right). now destruct (g v).
Qed.
Definition less (V : list seat) (who : list Z) (comp : Z) (k : req) : list seat := List.filter (fun v => negb (same_seat who comp k v)) V.
Lemma good_unsubscribe V who comp cs k u : good_comp V who comp cs -> plain k = true -> u <> RetryModel.NotFound ->
  exists cs' c, unsubscribe1 cs k u = Ok (cs', c) /\ good_comp (less V who comp k) who comp cs' /\ c = (if existsb (same_seat who comp k) V then E_SUCCESS else E_INVALID_OPERATION).
Proof.
  intros G P NU. pose proof G as (WS & WA & DI & AC). destruct (unsub1_ok cs k u WS P) as (cs' & c & U & W' & EN & CASES). exists cs', c. split; [exact U|].
  destruct (unsub1_acts cs k u cs' c WS P U) as (_ & AM).
  assert (WA' : waiting cs' = []). { destruct CASES as [(_ & _ & IW & _)|(_ & -> & _)]; [|exact WA]. rewrite WA in IW. destruct (waiting cs') as [|z l]; [reflexivity|]. destruct (IW z). now left. }
  split.
  - split; [exact W'|]. split; [exact WA'|]. split.
    + intros y Y. rewrite EN in Y. apply DI. destruct u; [congruence|..]; cbn [gone] in Y; now apply drop_no in Y as [_ Y].
    + rewrite AM, AC. unfold minus. rewrite (filter_map_seat _ (fun v => negb (same_req (v_req v) k))).
      * f_equal. unfold less. clear. induction V as [|v V IH]; [reflexivity|]. cbn [List.filter]. unfold same_seat at 1. fold (mine who comp v). destruct (mine who comp v) eqn:M; cbn [List.filter andb negb].
        -- destruct (same_req (v_req v) k); cbn [negb List.filter]; rewrite ?M, IH; reflexivity.
        -- rewrite M. exact IH.
      * intros v _. unfold is_act, act_seat. cbn [fst snd]. now rewrite andb_true_r.
  - destruct CASES as [(N & _ & _ & C)|((k' & Ik & SK & _) & _ & ->)].
    + rewrite WA in C. cbn [find_waiting] in C. destruct C as [_ ->]. destruct (existsb _ V) eqn:X; [|reflexivity]. apply existsb_exists in X as (v & Iv & X).
      unfold same_seat in X. apply andb_true_iff in X as [X1 X2]. fold (mine who comp v) in X1. destruct (seat_entry V who comp cs v G Iv X1) as (y & Iy & E1 & E2 & E3). specialize (N y Iy). unfold same_entry in N. rewrite E1, E3, X2 in N. discriminate N.
    + replace (existsb (same_seat who comp k) V) with true; [reflexivity|]. symmetry. apply existsb_exists. apply in_map_iff in Ik as (y & <- & Iy).
      destruct (entry_seat V who comp cs y G Iy) as (v & Iv & M & E1 & E2 & E3). exists v. split; [exact Iv|]. unfold same_seat. fold (mine who comp v). rewrite M, <- E1. exact SK.
Qed.
Lemma good_other V V' who comp cs : List.filter (mine who comp) V' = List.filter (mine who comp) V -> good_comp V who comp cs -> good_comp V' who comp cs.
Proof. intros E (A & B & C & D). split; [exact A|]. split; [exact B|]. split; [exact C|]. now rewrite D, E. Qed.

(** ** processes *)
Lemma handle_in c l s : handle_of c l = Some s -> In (c, s) l.
Proof. unfold handle_of. destruct (find _ l) as [[d t]|] eqn:F; [|discriminate]. cbn. intros [= ->]. apply find_some in F as [I E]. cbn in E. apply Z.eqb_eq in E. now subst. Qed.
Lemma put_same c s l : NoDup (map fst l) -> In (c, s) l -> put c s l = l.
Proof.
  unfold put. induction l as [|[d t] l IH]; intros ND I; [reflexivity|]. cbn [map fst] in *. apply NoDup_cons_iff in ND as [N0 ND]. destruct I as [[= -> ->]|I].
  - rewrite Z.eqb_refl. f_equal. clear IH ND. induction l as [|[d t] l IH]; [reflexivity|]. cbn [map fst] in *. destruct (Z.eqb_spec d c) as [->|E]; [destruct N0; now left|]. f_equal. apply IH. intros X. apply N0. now right.
  - destruct (Z.eqb_spec d c) as [->|E]; [destruct N0; apply in_map_iff; now exists (c, s)|]. f_equal. now apply IH.
Qed.
Lemma put_fst c s l : map fst (put c s l) = map fst l.
Proof. unfold put. rewrite map_map. apply map_ext. intros [d t]. cbn [fst]. destruct (Z.eqb_spec d c); cbn; congruence. Qed.
Lemma put_in c s l d t : In (d, t) (put c s l) -> (d = c /\ t = s) \/ (d <> c /\ In (d, t) l).
Proof.
  unfold put. intros I. apply in_map_iff in I as ([e u] & E & I). cbn [fst] in E. destruct (Z.eqb_spec e c) as [->|N]; [left|right]; inversion E; subst; auto.
Qed.
Lemma in_put c s l d : In d (map fst l) -> exists t, In (d, t) (put c s l).
Proof. intros I. rewrite <- (put_fst c s) in I. apply in_map_iff in I as ([e t] & E & I). cbn in E. subst e. now exists t. Qed.
Lemma in_nodup (l : process) c s t : NoDup (map fst l) -> In (c, s) l -> In (c, t) l -> s = t.
Proof.
  induction l as [|[d u] l IH]; intros ND A B; [destruct A|]. cbn [map fst] in ND. apply NoDup_cons_iff in ND as [N0 ND]. destruct A as [A|A], B as [B|B]; [congruence| | |auto].
  - inversion A; subst. destruct N0. apply in_map_iff. now exists (c, t).
  - inversion B; subst. destruct N0. apply in_map_iff. now exists (c, s).
Qed.
Lemma by_id_in c l s : NoDup (map fst l) -> In (c, s) l -> by_id c l = Some (c, s).
Proof.
  induction l as [|[d t] l IH]; intros ND I; [destruct I|]. cbn [map fst] in ND. apply NoDup_cons_iff in ND as [N0 ND]. cbn [by_id]. destruct (Z.eqb_spec d c) as [->|E].
  - destruct I as [[= ->]|I]; [reflexivity|]. destruct N0. apply in_map_iff. now exists (c, s).
  - destruct I as [[= -> ->]|I]; [congruence|]. destruct l as [|y l]; [destruct I|]. now apply IH.
Qed.

(** ** the whole system *)
Definition alive_in (P : list Z -> process) (k : SubsModel.key) : bool := match P (SubsModel.k_listener k) with [] => false | _ => true end.
Definition good_seat (P : list Z -> process) (v : seat) : Prop :=
  sound_req (v_req v) = true /\ sound_who (v_who v) (v_comp v) = true /\ sound_size (v_req v) (v_comp v) /\ In (v_comp v) (map fst (P (v_who v))).
Definition good_sub (E : env) (T : SubsModel.state) (x : SubsModel.sub) : Prop :=
  sound_key (SubsModel.s_key x) /\ SubsModel.s_el x = look E (SubsModel.k_event (SubsModel.s_key x)) /\
  exists n up t, SubsModel.s_el x = Some n /\ SubsModel.find_top n (SubsModel.tops T) = Some (up, t) /\
    (TokenModel.ntype (SubsModel.el_node t) = TokenModel.TABLE -> SubsModel.ends_dot (SubsModel.k_event (SubsModel.s_key x)) = true).
Record J (E : env) (shapes : list SubsModel.shape) (S : sys) (V : list seat) : Prop := {
  j_reach : SubsSpec.reach (handlers E) (SubsModel.init shapes []) (prov S);
  j_tops : SubsModel.tops (prov S) = SubsModel.tops (SubsModel.init shapes []);
  j_subs : forall x, In x (SubsModel.subs (prov S)) -> good_sub E (SubsModel.init shapes []) x;
  j_keys : List.filter (alive_in (procs S)) (SubsSpec.keys (prov S)) = map key_of V;
  j_dup : forall who, NoDup (map fst (procs S who));
  j_seat : forall v, In v V -> good_seat (procs S) v;
  j_comp : forall who comp cs, In (comp, cs) (procs S who) -> good_comp V who comp cs }.

Lemma key_seat v who comp k : sound_req (v_req v) = true -> sound_req k = true -> SubsSpec.same_key (seat_key who comp k) (key_of v) = same_seat who comp k v.
Proof.
  intros A B. destruct (sound_parts _ A) as (_ & _ & _ & _ & A1 & A2). destruct (sound_parts _ B) as (_ & _ & _ & _ & B1 & B2).
  rewrite SubsProofs.same_key_sym. unfold SubsSpec.same_key, seat_key, key_of, same_seat, same_req. cbn [SubsModel.k_listener SubsModel.k_comp SubsModel.k_event SubsModel.k_filter SubsModel.k_interval SubsModel.k_duration SubsModel.k_raw v_who v_comp v_req].
  rewrite !signed_inj by assumption. cbn [eqb]. rewrite andb_true_r, !andb_assoc. reflexivity.
Qed.
Lemma same_seat_congr who comp k k' v : same_req k k' = true -> same_seat who comp k v = same_seat who comp k' v.
Proof. intros H. unfold same_seat. f_equal. rewrite (same_req_sym (v_req v) k), (same_req_sym (v_req v) k'). rewrite same_req_sym in H. now rewrite <- (same_req_congr _ _ _ H). Qed.
Lemma distinct_filter f l : SubsSpec.distinct l -> SubsSpec.distinct (List.filter f l).
Proof.
  induction l as [|k l IH]; cbn [SubsSpec.distinct List.filter]; [auto|]. intros [A B]. destruct (f k); [|auto]. split; [|auto]. intros j I. apply filter_In in I as [I _]. auto.
Qed.
Lemma distinct_seats V : SubsSpec.distinct (map key_of V) -> (forall v, In v V -> sound_req (v_req v) = true) ->
  forall v w, In v V -> In w V -> same_seat (v_who v) (v_comp v) (v_req v) w = true -> v = w.
Proof.
  induction V as [|u V IH]; cbn [map SubsSpec.distinct]; intros D SR v w Iv Iw SS; [destruct Iv|]. destruct D as [D1 D2].
  assert (X : forall a b, sound_req (v_req a) = true -> sound_req (v_req b) = true -> SubsSpec.same_key (key_of a) (key_of b) = same_seat (v_who a) (v_comp a) (v_req a) b).
  { intros a b A B. now apply (key_seat b (v_who a) (v_comp a) (v_req a)). }
  destruct Iv as [<-|Iv], Iw as [<-|Iw]; [reflexivity| | |].
  - rewrite <- X in SS by (apply SR; cbn; auto). rewrite D1 in SS by now apply in_map. discriminate.
  - rewrite <- X in SS by (apply SR; cbn; auto). rewrite SubsProofs.same_key_sym, D1 in SS by now apply in_map. discriminate.
  - apply IH; auto. intros z Z. apply SR. now right.
Qed.
Section System.
Variables (E : env) (shapes : list SubsModel.shape).
Let T := SubsModel.init shapes [].
Lemma J_distinct S V : J E shapes S V -> SubsSpec.distinct (map key_of V).
Proof. intros H. rewrite <- (j_keys _ _ _ _ H). apply distinct_filter. destruct (SubsProps.C31_registry_partial _ shapes [] _ SubsProps.empty_cache (j_reach _ _ _ _ H)) as [D _]. exact D. Qed.
Lemma J_unique S V v w : J E shapes S V -> In v V -> In w V -> same_seat (v_who v) (v_comp v) (v_req v) w = true -> v = w.
Proof. intros H. apply distinct_seats; [now apply (J_distinct S)|]. intros u U. apply (j_seat _ _ _ _ H u U). Qed.
Lemma J_procs S S' V : J E shapes S V -> prov S' = prov S -> (forall w, procs S' w = procs S w) -> J E shapes S' V.
Proof.
  intros [A B C D F G H] E1 E2. assert (AL : forall k, alive_in (procs S') k = alive_in (procs S) k) by (intros k; unfold alive_in; now rewrite E2).
  split; rewrite ?E1; auto.
  - rewrite <- D. apply filter_ext. exact AL.
  - intros who. rewrite E2. apply F.
  - intros v I. destruct (G v I) as (G1 & G2 & G3 & G4). unfold good_seat. rewrite E2. auto.
  - intros who comp cs. rewrite E2. apply H.
Qed.
(** an event about a subscription reaches its handler *)
Lemma dispatch_seat S V v ev cs : J E shapes S V -> In v V -> In (v_comp v, cs) (procs S (v_who v)) -> ev_type ev =? DURATION_COMPLETE = false ->
  dispatch (v_who v) (procs S (v_who v)) (q_event (v_req v)) (about ev (key_of v)) = Ok (procs S (v_who v), [told ev v]).
Proof.
  intros H Iv Ic NT. destruct (j_seat _ _ _ _ H v Iv) as (SR & SW & _). destruct (sound_parts _ SR) as (_ & P & _ & _ & B1 & B2). unfold dispatch, about, key_of.
  cbn [SubsModel.k_filter SubsModel.k_interval SubsModel.k_duration SubsModel.k_comp]. rewrite !signed_back by assumption.
  rewrite (by_id_in _ _ cs) by (try apply (j_dup _ _ _ _ H); exact Ic). unfold arrives at 1. cbn [ev_type]. rewrite NT.
  replace (mkReq (q_event (v_req v)) (q_filter (v_req v)) (q_interval (v_req v)) (q_duration (v_req v))) with (v_req v) by now destruct (v_req v).
  destruct (good_deliver V (v_who v) (v_comp v) cs (v_req v)) as (hs & -> & CASES); [now apply (j_comp _ _ _ _ H)|exact P|]. cbn [obind].
  rewrite put_same by (try apply (j_dup _ _ _ _ H); exact Ic). do 2 f_equal. destruct CASES as [(-> & N)|(w & -> & Iw & SS)].
  - specialize (N v Iv). unfold same_seat in N. rewrite bytes_eqb_refl, Z.eqb_refl, same_req_refl in N by exact P. discriminate N.
  - rewrite <- (J_unique S V v w H Iv Iw SS). reflexivity.
Qed.
Lemma not_held S V who comp k : J E shapes S V -> sound_req k = true -> procs S who <> [] -> existsb (same_seat who comp k) V = false -> SubsSpec.holds (SubsSpec.keys (prov S)) (seat_key who comp k) = false.
Proof.
  intros H SK NE NX. apply not_true_is_false. unfold SubsSpec.holds. intros X. apply existsb_exists in X as (j & Ij & SJ).
  assert (AJ : In j (map key_of V)).
  { rewrite <- (j_keys _ _ _ _ H). apply filter_In. split; [exact Ij|]. unfold alive_in. unfold SubsSpec.same_key in SJ. repeat (apply andb_true_iff in SJ as [SJ _]). apply bytes_eqb_eq in SJ. rewrite <- SJ. unfold seat_key, key_of.
    cbn [SubsModel.k_listener v_who]. destruct (procs S who); [congruence|reflexivity]. }
  apply in_map_iff in AJ as (v & <- & Iv). rewrite key_seat in SJ; [|apply (j_seat _ _ _ _ H v Iv)|exact SK].
  assert (existsb (same_seat who comp k) V = true) by (apply existsb_exists; eauto). congruence.
Qed.
Lemma handle_nonempty c l cs : handle_of c l = Some cs -> l <> []. Proof. intros H ->. discriminate H. Qed.
Lemma set_same P who l : set_proc P who l who = l. Proof. unfold set_proc. now rewrite bytes_eqb_refl. Qed.
Lemma set_other P who l w : w <> who -> set_proc P who l w = P w.
Proof. intros N. unfold set_proc. destruct (bytes_eqb w who) eqn:B; [apply bytes_eqb_eq in B; congruence|reflexivity]. Qed.
(** a component changes its subscriptions *)
Lemma J_update S V V' p who comp cs cs' : J E shapes S V -> In (comp, cs) (procs S who) ->
  SubsSpec.reach (handlers E) T p -> SubsModel.tops p = SubsModel.tops T -> (forall x, In x (SubsModel.subs p) -> good_sub E T x) ->
  List.filter (alive_in (procs S)) (SubsSpec.keys p) = map key_of V' ->
  (forall v, In v V' -> good_seat (procs S) v) -> good_comp V' who comp cs' ->
  (forall w c, ~ (w = who /\ c = comp) -> List.filter (mine w c) V' = List.filter (mine w c) V) ->
  J E shapes (mkSys p (set_proc (procs S) who (put comp cs' (procs S who)))) V'.
Proof.
  intros H IC R TP SB KS SE GC OT.
  assert (FS : forall w, map fst (set_proc (procs S) who (put comp cs' (procs S who)) w) = map fst (procs S w)).
  { intros w. unfold set_proc. destruct (bytes_eqb w who) eqn:B; [apply bytes_eqb_eq in B; subst w; apply put_fst|reflexivity]. }
  split; cbn [prov procs]; auto.
  - rewrite <- KS. apply filter_ext. intros k. unfold alive_in. specialize (FS (SubsModel.k_listener k)). destruct (set_proc _ _ _ _), (procs S (SubsModel.k_listener k)); try discriminate FS; reflexivity.
  - intros w. rewrite FS. apply (j_dup _ _ _ _ H).
  - intros v I. destruct (SE v I) as (G1 & G2 & G3 & G4). unfold good_seat. rewrite FS. auto.
  - intros w c ds I. destruct (bytes_eqb w who) eqn:B.
    + apply bytes_eqb_eq in B. subst w. rewrite set_same in I. apply put_in in I as [(-> & ->)|(N & I)]; [exact GC|]. apply (good_other V); [apply OT; tauto|]. now apply (j_comp _ _ _ _ H).
    + assert (w <> who) by (intros ->; rewrite bytes_eqb_refl in B; discriminate). rewrite set_other in I by assumption. apply (good_other V); [apply OT; tauto|]. now apply (j_comp _ _ _ _ H).
Qed.
(** what the subscriber is told at once *)
Definition first_call (initial : bool) (got : option (Z * value)) (v : seat) : list call :=
  if initial then match got with Some (_, x) => [told (initial_event (q_event (v_req v)) x) v] | None => [] end else [].
Lemma step_sub S V who comp k h initial got S' rc cs : J E shapes S V -> NotifySpec.fair E S (Sub who comp k h initial got) -> step E S (Sub who comp k h initial got) = Ok (S', (rc, cs)) ->
  J E shapes S' (after V (Sub who comp k h initial got) rc) /\
  if existsb (same_seat who comp k) V then S' = S /\ rc = E_SUBSCRIPTION_ALREADY_EXIST /\ cs = []
  else SubsModel.request (handlers E) (prov S) true (look E (q_event k)) (seat_key who comp k) = Ok (prov S', rc) /\
       cs = if rc =? E_SUCCESS then first_call initial got (mkSeat who comp k h) else [].
Proof.
  intros H (SK & SW & SZ & AR & AN & GOT) Q. cbn [step] in Q. unfold subscribe_call in Q. destruct (handle_of comp (procs S who)) as [s|] eqn:HO; [|discriminate Q].
  pose proof (handle_in _ _ _ HO) as IC. pose proof (j_comp _ _ _ _ H _ _ _ IC) as GC. destruct (sound_parts k SK) as (TX & PK & SF & CF & BI & BD).
  destruct (existsb (same_seat who comp k) V) eqn:EX.
  - apply existsb_exists in EX as (v & Iv & SS). unfold begin_sub in Q. destruct (seek V who comp s k GC PK) as [(_ & N)|(a & x & b & w & F & _ & D & _)]; [rewrite N in SS by exact Iv; discriminate|].
    rewrite F in Q. cbn [obind] in Q. rewrite D in Q. cbn [obind] in Q. injection Q as <- <- <-. split; [exact H|auto].
  - assert (N : forall v, In v V -> same_seat who comp k v = false). { intros v Iv. apply not_true_is_false. intros X. assert (existsb (same_seat who comp k) V = true) by (apply existsb_exists; eauto). congruence. }
    destruct (good_subscribe V who comp s k h 0 GC PK N) as (B & _ & RF). rewrite B in Q. cbn [obind] in Q.
    destruct (request_read k who comp initial SK SW SZ) as (q & RQ & RR). rewrite RQ in Q. cbn [obind] in Q. unfold subscribe_handler in Q. rewrite RR in Q. cbn [obind] in Q.
    change (SubsModel.k_event (seat_key who comp k)) with (q_event k) in Q.
    destruct (SubsModel.request (handlers E) (prov S) true (look E (q_event k)) (seat_key who comp k)) as [[p r0]|[]|] eqn:RE; cbn [obind] in Q; try discriminate Q.
    pose proof (sound_seat_key who comp k SK SW) as SKY. set (ky := seat_key who comp k) in *. assert (PF : SubsSpec.plain_filter (SubsModel.k_filter ky) = true) by apply SKY.
    pose proof (not_held S V who comp k H SK (handle_nonempty _ _ _ HO) EX) as NH. fold ky in NH.
    destruct (request_code _ _ _ _ _ _ _ RE eq_refl AR) as [RB RA].
    destruct (SubsProps.C31_registry_partial _ shapes [] _ SubsProps.empty_cache (j_reach _ _ _ _ H)) as (_ & C31 & _). destruct (C31 (look E (q_event k)) ky p r0 PF RE) as (C31a & C31b & _). clear C31.
    assert (R1 : SubsSpec.reach (handlers E) T p) by (eapply SubsSpec.reach_step with (o := SubsModel.Subscribe (look E (q_event k)) ky); [apply (j_reach _ _ _ _ H)|exact PF|exact RE]).
    destruct (request_sub _ _ _ _ _ _ RE eq_refl) as (TP & CASES).
    assert (NA : r0 <> E_SUBSCRIPTION_ALREADY_EXIST).
    { intros X. destruct (RA X) as [X1|(_ & x & G)]; [now apply AN|].
      assert (PS : SubsProofs.plain_subs (SubsModel.subs (prov S))). { intros y Y. destruct (j_subs _ _ _ _ H y Y) as ((_ & _ & _ & _ & PY & _) & _). exact PY. }
      rewrite SubsProofs.get_sub_ok in G by assumption. injection G as G. apply find_some in G as [Ix G].
      assert (SubsSpec.holds (SubsSpec.keys (prov S)) ky = true). { apply existsb_exists. exists (SubsModel.s_key x). split; [now apply in_map|]. now rewrite SubsProofs.same_key_sym. }
      congruence. }
    destruct (Z.eqb_spec r0 E_SUCCESS) as [->|NS].
    + rewrite andb_true_r in Q.
      destruct (response_good initial got ky (new_id p) SKY GOT) as (r & m & m1 & flag & x & m2 & i & m3 & E1 & E2 & E3 & E4 & E5 & E6).
      rewrite E1 in Q. cbn [obind] in Q. rewrite E2 in Q. cbn [need obind] in Q. rewrite Z.eqb_refl in Q. rewrite E3 in Q. cbn [obind] in Q. rewrite E4 in Q. cbn [obind] in Q. rewrite E6 in Q. cbn [obind] in Q.
      destruct (good_subscribe V who comp s k h i GC PK N) as (_ & (s' & E7 & GC') & _). rewrite E7 in Q. cbn [obind] in Q.
      destruct C31a as (_ & KS); [reflexivity|]. destruct CASES as [(_ & (x0 & n & up & t & SX & KX & SEL & LK & FT & TT) & _)|(X & _)]; [|congruence].
      set (seat1 := mkSeat who comp k h) in *.
      assert (J1 : J E shapes (mkSys p (set_proc (procs S) who (put comp s' (procs S who)))) (V ++ [seat1])).
      { apply (J_update S V (V ++ [seat1]) p who comp s s' H IC R1).
        - rewrite TP. apply (j_tops _ _ _ _ H).
        - intros y Y. rewrite SX in Y. apply in_app_iff in Y as [Y|[<-|[]]]; [now apply (j_subs _ _ _ _ H)|]. split; [rewrite KX; exact SKY|]. rewrite KX, SEL. split; [reflexivity|]. exists n, up, t. rewrite LK. split; [reflexivity|].
          unfold T. rewrite <- (j_tops _ _ _ _ H). auto.
        - rewrite KS, filter_app, (j_keys _ _ _ _ H), map_app. f_equal. cbn [List.filter]. unfold alive_in at 1. change (SubsModel.k_listener ky) with who. pose proof (handle_nonempty _ _ _ HO) as NE. destruct (procs S who); [congruence|reflexivity].
        - intros v Iv. apply in_app_iff in Iv as [Iv|[<-|[]]]; [now apply (j_seat _ _ _ _ H)|]. split; [exact SK|]. split; [exact SW|]. split; [exact SZ|]. cbn [v_comp v_who seat1]. apply in_map_iff. now exists (comp, s).
        - exact GC'.
        - intros w c NW. rewrite filter_app. cbn [List.filter]. destruct (mine w c seat1) eqn:M; [apply mine_spec in M as [M1 M2]; cbn in M1, M2; subst; tauto|]. apply app_nil_r. }
      assert (DI : match x with None => Ok (put comp s' (procs S who), []) | Some x => dispatch who (put comp s' (procs S who)) (q_event k) x end = Ok (put comp s' (procs S who), first_call initial got seat1)).
      { rewrite E5. unfold first_news, first_call. destruct initial; [|reflexivity]. destruct got as [[er vv]|]; [|reflexivity].
        assert (NE1 : In (comp, s') (put comp s' (procs S who))). { destruct (in_put comp s' (procs S who) comp) as (t1 & I1); [apply in_map_iff; now exists (comp, s)|]. destruct (put_in _ _ _ _ _ I1) as [(_ & ->)|(X & _)]; [exact I1|congruence]. }
        pose proof (dispatch_seat _ _ seat1 (initial_event (q_event k) vv) s' J1) as D1. cbn [procs v_who v_comp v_req seat1] in D1. rewrite set_same in D1. apply D1; [apply in_app_iff; right; now left|exact NE1|reflexivity]. }
      rewrite DI in Q. cbn [obind] in Q. injection Q as <- <- <-. split; [exact J1|]. split; [reflexivity|reflexivity].
    + cbn [andb] in Q. destruct (response_bad r0 initial got ky 0 NS RB) as (r & m & E1 & E2). rewrite E1 in Q. cbn [obind] in Q. rewrite E2 in Q. cbn [need obind] in Q.
      replace (r0 =? E_SUCCESS) with false in Q by lia. destruct (RF r0 NS NA) as (s' & E7 & GC'). rewrite E7 in Q. cbn [obind] in Q. injection Q as <- <- <-.
      destruct CASES as [(X & _)|(_ & SX)]; [congruence|]. cbn [after]. replace (r0 =? E_SUCCESS) with false by lia. split; [|split; reflexivity].
      apply (J_update S V V p who comp s s' H IC R1).
      * rewrite TP. apply (j_tops _ _ _ _ H).
      * intros y Y. rewrite SX in Y. now apply (j_subs _ _ _ _ H).
      * rewrite (C31b NS (or_introl eq_refl)). apply (j_keys _ _ _ _ H).
      * apply (j_seat _ _ _ _ H).
      * exact GC'.
      * reflexivity.
Qed.
Lemma step_unsub S V who comp k S' rc cs : J E shapes S V -> NotifySpec.fair E S (Unsub who comp k) -> step E S (Unsub who comp k) = Ok (S', (rc, cs)) ->
  J E shapes S' (after V (Unsub who comp k) rc) /\ cs = [] /\ rc = if existsb (same_seat who comp k) V then E_SUCCESS else E_INVALID_OPERATION.
Proof.
  intros H (SK & AN) Q. cbn [step] in Q. unfold unsubscribe_call in Q. destruct (handle_of comp (procs S who)) as [s|] eqn:HO; [|discriminate Q].
  pose proof (handle_in _ _ _ HO) as IC. pose proof (j_comp _ _ _ _ H _ _ _ IC) as GC. destruct (sound_parts k SK) as (TX & PK & SF & CF & BI & BD). cbn [after].
  fold (less V who comp k).
  assert (LS : forall w c, ~ (w = who /\ c = comp) -> List.filter (mine w c) (less V who comp k) = List.filter (mine w c) V).
  { intros w c NW. unfold less. rewrite SubsProofs.filter_filter. apply filter_ext. intros v. destruct (mine w c v) eqn:M; [|apply andb_false_r]. rewrite andb_true_r. apply mine_spec in M as [M1 M2].
    apply negb_true_iff. unfold same_seat. fold (mine who comp v). destruct (mine who comp v) eqn:M; [|reflexivity]. apply mine_spec in M as [M3 M4]. exfalso. apply NW. split; congruence. }
  assert (SE : forall v, In v (less V who comp k) -> good_seat (procs S) v) by (intros v Iv; apply filter_In in Iv as [Iv _]; now apply (j_seat _ _ _ _ H)).
  destruct (seek V who comp s k GC PK) as [(F & N)|(a & x & b & v & F & EE & D & R & I & Iv & SS & E1 & E2)]; rewrite F in Q; cbn [obind] in Q.
  - destruct (good_unsubscribe V who comp s k RetryModel.Accepted GC PK) as (s' & c & U & GC' & EC); [discriminate|]. rewrite U in Q. cbn [obind] in Q. injection Q as <- <- <-.
    split; [|auto]. assert (LV : less V who comp k = V).
    { unfold less. clear -N. induction V as [|v V IH]; [reflexivity|]. cbn [List.filter]. rewrite (N v (or_introl eq_refl)). cbn [negb]. f_equal. apply IH. intros w W1. apply N. now right. }
    apply (J_update S V (less V who comp k) (prov S) who comp s s' H IC); auto.
    + apply (j_reach _ _ _ _ H).
    + apply (j_tops _ _ _ _ H).
    + apply (j_subs _ _ _ _ H).
    + rewrite LV. apply (j_keys _ _ _ _ H).
  - rewrite E1 in Q. destruct (j_seat _ _ _ _ H v Iv) as (SV & SWV & SZV & _).
    assert (MV : v_who v = who /\ v_comp v = comp). { apply mine_spec. unfold same_seat in SS. now apply andb_true_iff in SS as [SS _]. }
    destruct MV as [MV1 MV2]. rewrite MV1, MV2 in SWV. rewrite MV2 in SZV. destruct (sound_parts _ SV) as (_ & PV & _).
    destruct (request_read (v_req v) who comp false SV SWV SZV) as (q & RQ & RR). rewrite RQ in Q. cbn [obind] in Q. unfold subscribe_handler in Q. rewrite RR in Q. cbn [obind] in Q.
    change (SubsModel.k_event (seat_key who comp (v_req v))) with (q_event (v_req v)) in Q.
    destruct (SubsModel.request (handlers E) (prov S) false (look E (q_event (v_req v))) (seat_key who comp (v_req v))) as [[p r0]|[]|] eqn:RE; cbn [obind] in Q; try discriminate Q.
    set (ky := seat_key who comp (v_req v)) in *. pose proof (sound_seat_key who comp _ SV SWV) as SKY. fold ky in SKY. assert (PF : SubsSpec.plain_filter (SubsModel.k_filter ky) = true) by apply SKY.
    destruct (SubsProps.C31_registry_partial _ shapes [] _ SubsProps.empty_cache (j_reach _ _ _ _ H)) as (_ & _ & C31). destruct (C31 (look E (q_event (v_req v))) ky p r0 PF RE) as (C31a & _ & C31c). clear C31.
    assert (KE : ky = key_of v) by (unfold ky, seat_key, key_of; cbn [v_who v_comp v_req]; now rewrite MV1, MV2).
    assert (IK : In ky (SubsSpec.keys (prov S))). { assert (X : In ky (map key_of V)) by (rewrite KE; now apply in_map). rewrite <- (j_keys _ _ _ _ H) in X. now apply filter_In in X as [X _]. }
    assert (HK : SubsSpec.holds (SubsSpec.keys (prov S)) ky = true).
    { apply existsb_exists. exists ky. split; [exact IK|]. rewrite KE at 2. unfold ky. rewrite key_seat by assumption. unfold same_seat. now rewrite MV1, MV2, bytes_eqb_refl, Z.eqb_refl, same_req_refl. }
    assert (RS : r0 = E_SUCCESS).
    { apply C31c; [|exact HK]. unfold SubsSpec.keys in IK. apply in_map_iff in IK as (y & KY & IY). destruct (j_subs _ _ _ _ H y IY) as (_ & SEL & n & up & t & SN & FT & TT).
      rewrite KY in SEL, TT. exists n, up, t. change (SubsModel.k_event ky) with (q_event (v_req v)) in SEL, TT. rewrite (j_tops _ _ _ _ H). split; [congruence|]. split; [exact FT|]. split; [exact TT|].
      split; [intros _; exact AN|]. split; [reflexivity|discriminate]. }
    subst r0. destruct C31a as (_ & KS); [reflexivity|].
    destruct (response_good false None ky 0 SKY Logic.I) as (r & m & m1 & flag & x1 & m2 & i & m3 & G1 & G2 & _). cbn [andb] in Q. rewrite G1 in Q. cbn [obind] in Q. rewrite G2 in Q. cbn [need obind] in Q. rewrite Z.eqb_refl in Q.
    destruct (good_unsubscribe V who comp s k RetryModel.Accepted GC PK) as (s' & c & U & GC' & EC); [discriminate|]. rewrite U in Q. cbn [obind] in Q. injection Q as <- <- <-.
    split; [|auto]. destruct (request_unsub _ _ _ _ _ _ RE) as (TP & IS).
    apply (J_update S V (less V who comp k) p who comp s s' H IC); auto.
    + eapply SubsSpec.reach_step with (o := SubsModel.Unsubscribe (look E (q_event (v_req v))) ky); [apply (j_reach _ _ _ _ H)|exact PF|exact RE].
    + rewrite TP. apply (j_tops _ _ _ _ H).
    + intros y Y. apply (j_subs _ _ _ _ H). now apply IS.
    + rewrite KS. unfold SubsSpec.without. rewrite SubsProofs.filter_filter.
      rewrite (filter_ext _ (fun j => alive_in (procs S) j && negb (SubsSpec.same_key ky j))) by (intros j; apply andb_comm). rewrite <- SubsProofs.filter_filter, (j_keys _ _ _ _ H), SubsProofs.filter_map. f_equal.
      unfold less. apply filter_ext_in. intros w Iw. f_equal. unfold ky. rewrite key_seat; [|apply (j_seat _ _ _ _ H w Iw)|exact SV].
      apply same_seat_congr. unfold same_seat in SS. now apply andb_true_iff in SS as [_ SS].
Qed.
Lemma step_gone S V who S' rc cs : J E shapes S V -> step E S (Gone who) = Ok (S', (rc, cs)) -> J E shapes S' (after V (Gone who) rc) /\ cs = [].
Proof.
  intros H Q. cbn [step] in Q. destruct (SubsModel.disconnect (handlers E) (fun e => is_some (look E e)) (prov S) who) as [p|[]|] eqn:D; cbn [obind] in Q; try discriminate Q. injection Q as <- <- <-. split; [|reflexivity].
  assert (WS : SubsProofs.W (prov S)) by (eapply SubsProofs.reach_W; [apply SubsProps.empty_cache|apply (j_reach _ _ _ _ H)]).
  pose proof D as D0. unfold SubsModel.disconnect in D. apply disconnect_others in D as (D1 & D2 & D3); [|exact WS]. cbn [after].
  assert (PN : forall w, set_proc (procs S) who [] w = if bytes_eqb w who then [] else procs S w) by reflexivity.
  split; cbn [prov procs].
  - eapply SubsSpec.reach_step with (o := SubsModel.Disconnect (fun e => is_some (look E e)) who); [apply (j_reach _ _ _ _ H)|exact Logic.I|]. cbn [SubsModel.step]. rewrite D0. reflexivity.
  - rewrite D1. apply (j_tops _ _ _ _ H).
  - intros x Ix. apply (j_subs _ _ _ _ H). now apply D2.
  - rewrite (filter_ext _ (fun k => others who k && alive_in (procs S) k)).
    + rewrite <- SubsProofs.filter_filter. unfold SubsSpec.keys. rewrite D3, SubsProofs.filter_filter.
      rewrite (filter_ext _ (fun k => alive_in (procs S) k && others who k)) by (intros k; apply andb_comm). rewrite <- SubsProofs.filter_filter. fold (SubsSpec.keys (prov S)). rewrite (j_keys _ _ _ _ H), SubsProofs.filter_map. reflexivity.
    + intros k. unfold alive_in, others. rewrite PN. now destruct (bytes_eqb (SubsModel.k_listener k) who).
  - intros w. rewrite PN. destruct (bytes_eqb w who); [constructor|apply (j_dup _ _ _ _ H)].
  - intros v Iv. apply filter_In in Iv as [Iv NW]. destruct (j_seat _ _ _ _ H v Iv) as (G1 & G2 & G3 & G4). unfold good_seat. rewrite PN. apply negb_true_iff in NW. rewrite NW. auto.
  - intros w c ds I. rewrite PN in I. destruct (bytes_eqb w who) eqn:B; [destruct I|]. apply (good_other V); [|now apply (j_comp _ _ _ _ H)].
    rewrite SubsProofs.filter_filter. apply filter_ext. intros v. destruct (mine w c v) eqn:M; [|apply andb_false_r]. rewrite andb_true_r. apply mine_spec in M as [<- _]. now rewrite B.
Qed.
(** publishing *)
Definition wantk (n : nat) (k : SubsModel.key) : bool := wants T (look E) n (mkSeat [] 0 (mkReq (SubsModel.k_event k) FNull 0 0) 0).
Lemma aims_wantk S V n x : J E shapes S V -> In x (SubsModel.subs (prov S)) -> SubsSpec.aims (prov S) x n = wantk n (SubsModel.s_key x).
Proof.
  intros H I. destruct (j_subs _ _ _ _ H x I) as (_ & SEL & m & up & t & SN & FT & _). unfold SubsSpec.aims, wantk, wants, SubsSpec.reg_of, SubsSpec.path_of, SubsModel.all_nodes. cbn [v_req q_event].
  rewrite <- SEL, SN, (j_tops _ _ _ _ H). fold T. fold T in FT. rewrite FT. reflexivity.
Qed.
Lemma spread_ok S V ev lost : J E shapes S V -> text (me E) = true -> sound_event ev = true -> forall L VL P, (forall w, P w = procs S w) ->
  (forall x, In x L -> sound_key (SubsModel.s_key x) /\ fits ev (SubsModel.s_key x)) ->
  List.filter (alive_in (procs S)) (map SubsModel.s_key L) = map key_of VL -> incl VL V -> forall nm dt,
  exists P', spread E P ev lost (map (fun x => SubsModel.mkMsg (SubsModel.s_key x) (SubsModel.s_id x) nm dt) L) = Ok (P', map (told ev) (List.filter (fun v => negb (lost (key_of v))) VL)) /\ forall w, P' w = procs S w.
Proof.
  intros H TM SE. unfold sound_event in SE. apply andb_true_iff in SE as [SE N6]. apply andb_true_iff in SE as [SE N2]. apply andb_true_iff in SE as [SE SO]. apply andb_true_iff in SE as [SN ST]. apply negb_true_iff in N6, N2.
  induction L as [|x L IH]; intros VL P EP SL FL IV nm dt.
  - destruct VL; [|discriminate FL]. exists P. split; [reflexivity|exact EP].
  - cbn [map spread]. cbn [SubsModel.m_to]. destruct (SL x (or_introl eq_refl)) as [SK FT]. assert (SL' : forall y, In y L -> sound_key (SubsModel.s_key y) /\ fits ev (SubsModel.s_key y)) by (intros y Y; apply SL; now right).
    unfold event_for. change (ev_type ev =? VALUE_CHANGED) with (ev_type ev =? 2). rewrite N2.
    set (k := SubsModel.s_key x) in *. destruct (event_arrives E ev k (SubsModel.k_listener k) (P (SubsModel.k_listener k)) TM SN ST SO SK FT) as (m & -> & OE). cbn [obind].
    cbn [map List.filter] in FL. fold k in FL. unfold alive_in at 1 in FL. rewrite EP in OE. rewrite EP.
    destruct (procs S (SubsModel.k_listener k)) as [|y l] eqn:PL.
    + destruct (IH VL P EP SL' FL IV nm dt) as (P1 & Q1 & E1). destruct (lost k); [now exists P1|]. rewrite OE. cbn [dispatch about by_id obind].
      destruct (IH VL (set_proc P (SubsModel.k_listener k) []) ) with (nm := nm) (dt := dt) as (P2 & Q2 & E2); [|exact SL'|exact FL|exact IV|].
      { intros w. unfold set_proc. destruct (bytes_eqb w (SubsModel.k_listener k)) eqn:B; [apply bytes_eqb_eq in B; subst w; now rewrite PL|apply EP]. }
      rewrite Q2. cbn [obind app]. now exists P2.
    + destruct VL as [|v VL]; [discriminate FL|]. cbn [map] in FL. injection FL as KV FL. assert (Iv : In v V) by (apply IV; now left). assert (IV' : incl VL V) by (intros z Z; apply IV; now right).
      cbn [List.filter]. rewrite KV in *. destruct (lost (key_of v)); cbn [negb].
      * apply IH; auto.
      * destruct (j_seat _ _ _ _ H v Iv) as (_ & _ & _ & IC). apply in_map_iff in IC as ([c0 cs] & EC & IC). cbn [fst] in EC. subst c0.
        pose proof (dispatch_seat S V v ev cs H Iv IC N6) as DS. change (SubsModel.k_listener (key_of v)) with (v_who v) in *. change (SubsModel.k_event (key_of v)) with (q_event (v_req v)) in OE. rewrite PL in DS. rewrite OE, DS. cbn [obind].
        destruct (IH VL (set_proc P (v_who v) (y :: l))) with (nm := nm) (dt := dt) as (P2 & Q2 & E2); [|exact SL'|exact FL|exact IV'|].
        { intros w. unfold set_proc. destruct (bytes_eqb w (v_who v)) eqn:B; [apply bytes_eqb_eq in B; subst w; now rewrite PL|apply EP]. }
        rewrite Q2. cbn [obind app map]. exists P2. split; [reflexivity|exact E2].
Qed.
Lemma step_publish S V n ev lost : J E shapes S V -> text (me E) = true -> NotifySpec.fair E S (Publish n ev lost) ->
  exists S' rc, step E S (Publish n ev lost) = Ok (S', (rc, map (told ev) (List.filter (fun v => wants T (look E) n v && negb (lost (key_of v))) V))) /\
    prov S' = prov S /\ (forall w, procs S' w = procs S w) /\
    (existsb (wants T (look E) n) V = true -> rc = E_SUCCESS) /\ (rc = E_SUCCESS \/ rc = E_NOSUBSCRIBERS).
Proof.
  intros H TM (SE & FT). cbn [step]. unfold publish_call. pose proof SE as SE0.
  assert (RF : SubsSpec.sound_refs (prov S)).
  { intros x e I SX. destruct (j_subs _ _ _ _ H x I) as (_ & SEL & m & up & t & SN & FN & _). unfold SubsModel.alive. rewrite (j_tops _ _ _ _ H). rewrite SX in SN. injection SN as ->. now rewrite FN. }
  pose proof (SubsProps.C35_publish_partial (handlers E) shapes [] (prov S) (fun _ => 0) n (plain_event ev) SubsProps.empty_cache (j_reach _ _ _ _ H) RF) as PB. cbv zeta in PB.
  assert (EC : SubsModel.ev_change (plain_event ev) = false).
  { unfold sound_event in SE. apply andb_true_iff in SE as [SE _]. apply andb_true_iff in SE as [_ SE]. apply negb_true_iff in SE. exact SE. }
  rewrite (PB EC). clear PB. cbn [obind].
  assert (FF : List.filter (fun x => SubsSpec.aims (prov S) x n && negb (SubsModel.k_raw (SubsModel.s_key x))) (SubsModel.subs (prov S)) = List.filter (fun x => wantk n (SubsModel.s_key x)) (SubsModel.subs (prov S))).
  { apply filter_ext_in. intros x I. rewrite (aims_wantk S V n x H I). destruct (j_subs _ _ _ _ H x I) as ((_ & _ & _ & _ & _ & KR) & _). rewrite KR. apply andb_true_r. }
  assert (KF : List.filter (alive_in (procs S)) (map SubsModel.s_key (List.filter (fun x => wantk n (SubsModel.s_key x)) (SubsModel.subs (prov S)))) = map key_of (List.filter (wants T (look E) n) V)).
  { rewrite <- SubsProofs.filter_map, SubsProofs.filter_filter. rewrite (filter_ext _ (fun k => alive_in (procs S) k && wantk n k)) by (intros k; apply andb_comm).
    rewrite <- SubsProofs.filter_filter. fold (SubsSpec.keys (prov S)). rewrite (j_keys _ _ _ _ H), SubsProofs.filter_map. f_equal. }
  assert (CV : List.filter (fun v => negb (lost (key_of v))) (List.filter (wants T (look E) n) V) = List.filter (fun v => wants T (look E) n v && negb (lost (key_of v))) V) by apply SubsProofs.filter_filter.
  rewrite <- CV.
  destruct (existsb (fun x => SubsSpec.aims (prov S) x n) (SubsModel.subs (prov S))) eqn:EX.
  - destruct (spread_ok S V ev lost H TM SE0 (List.filter (fun x => wantk n (SubsModel.s_key x)) (SubsModel.subs (prov S))) (List.filter (wants T (look E) n) V) (procs S) (fun _ => eq_refl)) with (nm := SubsModel.ev_name (plain_event ev)) (dt := SubsModel.ev_data (plain_event ev)) as (P' & Q & EP).
    + intros x I. apply filter_In in I as [I _]. split; [apply (j_subs _ _ _ _ H x I)|now apply FT].
    + exact KF.
    + apply incl_filter.
    + rewrite FF, Q. cbn [obind]. exists (mkSys (prov S) P'). eexists. split; [reflexivity|]. cbn [prov procs]. split; [reflexivity|]. split; [exact EP|].
      match goal with |- context [SubsSpec.result_of ?f ?c] => assert (RS : SubsSpec.result_of f c = E_SUCCESS) end.
      { unfold SubsSpec.result_of. replace (forallb _ _) with true; [reflexivity|]. symmetry. apply forallb_forall. reflexivity. }
      rewrite RS. auto.
  - assert (NW : existsb (wants T (look E) n) V = false).
    { apply not_true_is_false. intros X. apply existsb_exists in X as (v & Iv & X). assert (IK : In (key_of v) (map key_of V)) by now apply in_map. rewrite <- (j_keys _ _ _ _ H) in IK. apply filter_In in IK as [IK _].
      apply in_map_iff in IK as (x & KX & IX). assert (existsb (fun x => SubsSpec.aims (prov S) x n) (SubsModel.subs (prov S)) = true); [|congruence]. apply existsb_exists. exists x. split; [exact IX|]. rewrite (aims_wantk S V n x H IX), KX. exact X. }
    assert (NF : List.filter (wants T (look E) n) V = []).
    { clear -NW. induction V as [|v V IH]; [reflexivity|]. cbn [existsb List.filter] in *. apply orb_false_iff in NW as [-> NW]. auto. }
    cbn [spread obind]. rewrite NF. exists (mkSys (prov S) (procs S)), E_NOSUBSCRIBERS. split; [reflexivity|]. split; [reflexivity|]. split; [reflexivity|]. split; [congruence|auto].
Qed.
Lemma J_start comps : sound_start E comps -> J E shapes (start shapes comps) [].
Proof.
  intros [ND TM]. unfold start. split; cbn [prov procs].
  - apply SubsSpec.reach_init.
  - reflexivity.
  - intros x I. unfold SubsModel.init in I. destruct (SubsModel.number_all 0 shapes). destruct I.
  - unfold SubsSpec.keys, SubsModel.init. destruct (SubsModel.number_all 0 shapes). reflexivity.
  - intros who. rewrite map_map. cbn [fst]. rewrite map_id. apply ND.
  - intros v [].
  - intros who comp cs I. apply in_map_iff in I as (c & X & _). injection X as _ <-. split; [|auto]. split; [split; [intros x []|exact Logic.I]|intros k []]. split; [reflexivity|]. split; [intros x []|reflexivity].
Qed.
Lemma J_reach comps S V : sound_start E comps -> NotifySpec.reach E (start shapes comps) S V -> J E shapes S V.
Proof.
  intros SS R. induction R as [|S V o S' rc cs R IH FA Q]; [now apply J_start|]. destruct o as [who comp k h initial got|who comp k|who|n ev lost].
  - exact (proj1 (step_sub S V who comp k h initial got S' rc cs IH FA Q)).
  - exact (proj1 (step_unsub S V who comp k S' rc cs IH FA Q)).
  - exact (proj1 (step_gone S V who S' rc cs IH Q)).
  - destruct (step_publish S V n ev lost IH (proj2 SS) FA) as (S2 & r2 & Q2 & E1 & E2 & _). rewrite Q in Q2. injection Q2 as -> -> _. cbn [after]. now apply (J_procs S).
Qed.
End System.
